(** * Search of paths in the files of an archive: cdtb/hashes.py:241-243, 354-367, 441-503 (archives of the client) *)

From Verif Require Import Base.Py Base.Text Base.Bin Base.Utf8 Base.Regex Base.Re Model.Hashes Model.Patcher Model.Guess Model.Grep Model.Releases.

(** ** Patterns *)

Definition alnum (c : N) : bool := is_digit c || ((65 <=? c) && (c <=? 90)) || ((97 <=? c) && (c <=? 122)).
(** [[a-zA-Z0-9/_.@-]], [[a-zA-Z0-9/_.-]], [[^a-zA-Z0-9/_.\\-]] *)
Definition url_char (c : N) : bool := alnum c || mem c [cSlash; cUnder; cDot; 64; cMinus].
Definition rel_char (c : N) : bool := alnum c || mem c [cSlash; cUnder; cDot; cMinus].
Definition rel_before (c : N) : bool := negb (alnum c || mem c [cSlash; cUnder; cDot; 92; cMinus]).
Definition but (c : N) (x : N) : bool := negb (x =? c).
Definition is_lower (c : N) : bool := (97 <=? c) && (c <=? 122).

(** hashes.py:486, 489, 492 *)
Definition re_fe : re N := Bound ;; Lit (lit "fe/") ;; Group (Plus (but cSlash)) ;; Cls (eqb cSlash) ;; Group (Plus url_char).
Definition re_data : re N := Lit (lit "/DATA/") ;; Group (Plus url_char).
Definition re_assets : re N := Bound ;; Lit (lit "lol-game-data/assets/") ;; Group (Plus url_char).
(** hashes.py:495, 497, 499, 501 *)
Definition re_relative : re N := Cls rel_before ;; Group (Alt (Lit (lit ".")) (Lit (lit "..")) ;; Lit (lit "/") ;; Plus rel_char).
Definition re_named : re N :=
  Cls (fun c => mem c [34; 39]) ;;
  Group (Cls alnum ;; Star url_char ;; Cls (eqb cDot) ;;
         Alts [Lit (lit "js"); Lit (lit "json"); Lit (lit "webm"); Lit (lit "html")] (Cls is_lower ;; Cls is_lower ;; Cls is_lower)) ;;
  Bound.
Definition re_template : re N := Lit (lit "<template id=""") ;; Star (but 34) ;; Lit (lit "-template-") ;; Group (Plus (but 34)) ;; Cls (eqb 34).
Definition re_map : re N := Lit (lit "sourceMappingURL=") ;; Group (Lazy (but cNL) ;; Lit (lit ".js")) ;; Lit (lit ".map").
(** hashes.py:471 *)
Definition re_splash : re N := Lit (lit "-splash-") ;; Group (Plus (but cDot)).

Section Text.
  (** [\w] *)
  Variable word : N -> bool.
  (** [str.lower] *)
  Variable ulower : str -> str.

  Definition found_in (r : re N) (s : str) : list (list str) := finditer word r 0 None s.
  Definition group1 (g : list str) : str := nth 0 g [].
  Definition group2 (g : list str) : str := nth 1 g [].
  Definition game_data : str := lit "plugins/rcp-be-lol-game-data/global/default".
  (** hashes.py:484-492 *)
  Definition text_paths (s : str) : list str :=
    map (fun g => ulower (lit "plugins/rcp-fe-" ++ group1 g ++ lit "/global/default/" ++ group2 g)) (found_in re_fe s) ++
    map (fun g => ulower (game_data ++ lit "/data/" ++ group1 g)) (found_in re_data s) ++
    map (fun g => ulower (game_data ++ lit "/" ++ group1 g)) (found_in re_assets s).
  (** hashes.py:494-501 *)
  Definition text_relpaths (s : str) : list str :=
    map group1 (found_in re_relative s) ++ map group1 (found_in re_named s) ++
    map (fun g => group1 g ++ lit "/template.html") (found_in re_template s) ++ map group1 (found_in re_map s).

  (** [json.loads]; [None] when it raises a [JSONDecodeError] *)
  Variable loads : str -> result (option json).
  (** [str] of a value that is not a text *)
  Variable show : json -> str.
  Definition jtext (v : json) : str := match v with JStr s => s | _ => show v end.
  (** [key in v] *)
  Definition jin (key : str) (v : json) : result bool :=
    match v with
    | JObj d => Ok (mem key (dkeys d))
    | JArr l => Ok (existsb (jis key) l)
    | JStr s => Ok (contains_str key s)
    | _ => Err TypeError
    end.
  Definition jboth (a b : str) (v : json) : result bool := let! x := jin a v in if x : bool then jin b v else Ok false.
  (** [v.values()], then [re.findall] on each of them *)
  Definition jvalues (v : json) : result (list json) := match v with JObj d => Ok (dvals d) | _ => Err AttributeError end.
  Definition jstr (v : json) : result str := match v with JStr s => Ok s | _ => Err TypeError end.

  Definition trans_path : str := lit "plugins/rcp-fe-lol-loot/global/default/trans.json".
  Definition summary_path : str := game_data ++ lit "/v1/champion-summary.json".
  Definition plugin_files : list str :=
    [lit "index.html"; lit "init.js"; lit "init.js.map"; lit "bundle.js"; lit "trans.json"; lit "css/main.css"; lit "license.json"].
  Definition splash_dir (name : str) : str := lit "plugins/rcp-fe-lol-splash/global/default/splash-assets/" ++ name ++ lit "/".
  (** hashes.py:457-482: the paths, and whether the text is searched after that *)
  Definition json_paths (path : option str) (v : json) : result (list (result str) * bool) :=
    if eqb path (Some trans_path) then
      let! l := jiter v in Ok (map (fun k => Ok (game_data ++ lit "/v1/hextech-images/" ++ jtext k ++ lit ".png")) l, false)
    else
    let! plugin := jboth (lit "pluginDependencies") (lit "name") v in
    if plugin : bool then
      let! name := jget (lit "name") v in
      Ok (map (fun f => Ok (lit "plugins/" ++ jtext name ++ lit "/global/default/" ++ f)) plugin_files, true)
    else
    let! splash := jboth (lit "musicVolume") (lit "files") v in
    if splash : bool then
      let! files := jget (lit "files") v in
      let! values := jvalues files in
      let! paths := rmapM jstr values in
      let names := set_of (map (fun g => ulower (group1 g)) (flat_map (found_in re_splash) paths)) in
      Ok (map Ok (map (fun n => splash_dir n ++ lit "config.json") names ++ flat_map (fun n => map (fun p => splash_dir n ++ ulower p) paths) names), false)
    else
    if eqb path (Some summary_path) then
      let! l := jiter v in
      let! ids := rmapM (jget (lit "id")) l in
      Ok (map (fun i => Ok (game_data ++ lit "/v1/champions/" ++ jtext i ++ lit ".json")) ids ++
          map (fun i => Ok (game_data ++ lit "/v1/champion-splashes/" ++ jtext i ++ lit "/metadata.json")) ids, true)
    else
    let! items := jin (lit "recommendedItemDefaults") v in
    if items : bool then
      let! w := jget (lit "recommendedItemDefaults") v in
      let! l := jiter w in
      Ok (map (fun p => match p with JStr s => Ok (game_data ++ ulower s) | _ => Err AttributeError end) l, true)
    else Ok ([], true).

  (** hashes.py:354-367 [wad_text_files] for one file; [en_data] is the result of [wadfile.read_data] *)
  Definition lcu_skipped : list str := [lit "png"; lit "jpg"; lit "ttf"; lit "webm"; lit "ogg"; lit "dds"; lit "tga"].
  Definition bom : bytes := map n2b [239; 187; 191].
  Definition without_bom (b : bytes) : bytes := if startswith b bom then drop_prefix bom b else b.
  Definition file_text (e : entry) : result (option str) :=
    if ext_in lcu_skipped e then Ok None else
    match en_data e with
    | Err UnicodeDecodeError => Ok None
    | Err x => Err x
    | Ok None => Err AttributeError
    | Ok (Some b) =>
      match utf8_dec (without_bom b) with
      | Err UnicodeDecodeError => Ok None
      | Err x => Err x
      | Ok [] => Ok None
      | Ok s => Ok (Some s)
      end
    end.
  (** hashes.py:448-501, the checked paths and the relative paths of a file *)
  Definition json_part (e : entry) (s : str) : result (list (result str) * bool) :=
    if eqb (en_ext e) (Some (lit "json")) then
      let! v := loads s in
      match v with None | Some JNull => Ok ([], true) | Some v => json_paths (en_path e) v end
    else Ok ([], true).
  Definition entry_lcu (e : entry) : list (result str) * list str :=
    match file_text e with
    | Err x => ([Err x], [])
    | Ok None => ([], [])
    | Ok (Some s) =>
      match json_part e s with
      | Err x => ([Err x], [])
      | Ok (l, false) => (l, [])
      | Ok (l, true) => (l ++ map Ok (text_paths s), text_relpaths s)
      end
    end.

  Variable H : str -> Z.
  (** hashes.py:441-503 [LcuHashGuesser.grep_wad] *)
  Definition grep_lcu (entries : list entry) (g : guesser) : guesser * result unit :=
    let (g, r) := check_gen H (flat_map (fun e => fst (entry_lcu e)) entries) g in
    match r with
    | Err x => (g, Err x)
    | Ok _ => (check_basenames H (map ulower (set_of (flat_map (fun e => snd (entry_lcu e)) entries))) g, Ok tt)
    end.
End Text.

(** hashes.py:241-243 [check_text_list]; [space] is [str.isspace] of a character *)
Fixpoint words_go (space : N -> bool) (w s : str) : list str :=
  match s with
  | [] => match w with [] => [] | _ => [rev w] end
  | c :: t => if space c then match w with [] => words_go space [] t | _ => rev w :: words_go space [] t end else words_go space (c :: w) t
  end.
Definition check_text_list (H : str -> Z) (space : N -> bool) (text : str) (g : guesser) : guesser := check_all H (words_go space [] text) g.

(** hashes.py:186-193 and 375-381 [from_wads]: the archives that are kept, and the hashes to find; an archive is its path and the
    hashes of its files. *)
Definition lcu_wads (wads : list (str * list Z)) : list (str * list Z) := filter (fun w => endswith (fst w) (lit ".wad")) wads.
Definition from_wads (known : hashes) (wads : list (str * list Z)) : guesser := guesser_init known (flat_map snd wads).
Definition lcu_from_wads (known : hashes) (wads : list (str * list Z)) : guesser := from_wads known (lcu_wads wads).
