(** * Specification of the command which guesses hashes *)

From Verif Require Import Base.Py Base.Text Base.Utf8 Base.Fs Model.Files Model.Wad Model.Hashes Model.Storage Model.Component Model.Components Model.Guess Model.GuessPaths Model.GuessChars
  Model.Releases Model.Grep Model.GrepLcu Model.GuessCli Spec.HashesSpec Spec.PatchCacheSpec Spec.WadCliSpec.

(** ** Methods *)

Definition methods_known : list str :=
  [lit "grep"; lit "numbers"; lit "basenames"; lit "words"; lit "ext"; lit "regionlang"; lit "plugin"; lit "skin-num"; lit "character"; lit "prefixes"].
(** The names that are asked for: a list with commas and blanks, or all but two of them. *)
Inductive requested : option str -> list str -> Prop :=
| rq_none o : o = None \/ o = Some [] ->
    requested o [lit "grep"; lit "numbers"; lit "ext"; lit "regionlang"; lit "plugin"; lit "skin-num"; lit "character"; lit "prefixes"]
| rq_some parts names : join [44] parts <> [] -> Forall (fun p => ~ In 44 p) parts -> parts <> [] -> Forall2 stripped parts names ->
    requested (Some (join [44] parts)) names.

(** Methods that are run one after the other, without error. *)
Inductive passes : list method -> guesser -> guesser -> Prop :=
| ps_nil g : passes [] g g
| ps_cons (m : method) ms g g1 g2 : m g = (g1, Ok tt) -> passes ms g1 g2 -> passes (m :: ms) g g2.

(** ** Archives *)

Section Command.
  Variable gunzip unzstd : bytes -> result bytes.
  Variable xxh3 : bytes -> N.
  Variable json_loads : bytes -> result unit.
  Variable cwd : path.
  Variable dir : ppath.
  Variable H : str -> Z.
  Variable other : str -> list parg -> result str.
  Variable word : N -> bool.
  Variable ulower : str -> str.
  Variable loads : str -> result (option json).
  Variable show : json -> str.
  Variable order : list str -> list str.
  Variable enc : str -> bytes.
  Variable listing : bool -> list element.
  Variable fspaths : element -> printed.

  (** The archive at a path. *)
  Inductive archive_at (f : fs) : str -> gwad -> Prop :=
  | aa s data w : opened gunzip unzstd xxh3 cwd dir f None s data w ->
      archive_at f s {| gw_path := s; gw_data := data; gw_toc := wad_toc w; gw_files := wad_files w |}.
  Definition archive_name (p : str) : Prop := exists a, p = a ++ lit ".wad" \/ p = a ++ lit ".wad.client".
  (** The archives of an element, and those of an argument: a file, or the elements of a patch. *)
  Definition element_archives (f : fs) (e : element) (ws : list gwad) : Prop :=
    exists l l', fspaths e = (l, None) /\ kept archive_name l l' /\ Forall2 (archive_at f) l' ws.
  Inductive arg_archives (f : fs) : str -> list gwad -> Prop :=
  | ga_file s w : parse_component listing s = Err ValueError -> archive_at f s w -> arg_archives f s [w]
  | ga_missing s : parse_component listing s = Ok (CPatch None) \/ parse_component listing s = Ok (CElement None) -> arg_archives f s []
  | ga_patch s p wss : parse_component listing s = Ok (CPatch (Some p)) -> Forall2 (element_archives f) (p_elems p) wss -> arg_archives f s (concat wss).
  Definition archives (f : fs) (args : list str) (ws : list gwad) : Prop := exists wss, Forall2 (arg_archives f) args wss /\ ws = concat wss.

  (** ** A part of the guessing: the archives of the client, then those of the game *)

  Record part := { pt_file : str; pt_suffix : str; pt_grep : list entry -> method; pt_methods : list (str * method) }.
  Definition client_part : part := {|
    pt_file := lit "hashes.lcu.txt"; pt_suffix := lit ".wad"; pt_grep := grep_lcu word ulower loads show H;
    pt_methods := [(lit "numbers", fun g => lcu_substitute_numbers H other 10000 DigitsNone g);
                   (lit "basenames", fun g => (substitute_basenames H g, Ok tt));
                   (lit "words", fun g => lcu_substitute_words H other None None None 1 1 g);
                   (lit "ext", fun g => (substitute_extensions H g, Ok tt));
                   (lit "regionlang", fun g => (substitute_region_lang H g, Ok tt));
                   (lit "plugin", fun g => substitute_plugin H other g)] |}.
  Definition game_part : part := {|
    pt_file := lit "hashes.game.txt"; pt_suffix := lit ".wad.client"; pt_grep := Grep.grep_wad H other;
    pt_methods := [(lit "numbers", fun g => game_substitute_numbers H other 100 DigitsNone g);
                   (lit "basenames", fun g => (substitute_basenames H g, Ok tt));
                   (lit "words", fun g => game_substitute_words H other g);
                   (lit "ext", fun g => (substitute_extensions H g, Ok tt));
                   (lit "skin-num", fun g => substitute_skin_numbers H other order g);
                   (lit "character", fun g => (substitute_character H g, Ok tt));
                   (lit "prefixes", fun g => (check_basename_prefixes H None g, Ok tt))] |}.

  (** The table of hashes in a file. *)
  Definition table_at (f : fs) (name : str) (d : hashes) : Prop :=
    exists data text, has_content cwd f (dir_file dir name) data /\ utf8_dec data = Ok text /\ parse_hashes text = Ok d.
  (** The archives of a part, and the hashes of their files. *)
  Definition part_archives (pt : part) (ws ws' : list gwad) : Prop := kept (fun w => exists a, gw_path w = a ++ pt_suffix pt) ws ws'.
  Definition hash_in (ws : list gwad) (h : Z) : Prop := exists w e, In w ws /\ In e (gw_files w) /\ h = Z.of_N (w_hash e).
  (** A new guesser: the unknown hashes are those of the archives which are not in the table. *)
  Definition starting (d : hashes) (ws : list gwad) (g : guesser) : Prop :=
    g_known g = d /\ g_dirs g = None /\ NoDup (g_unknown g) /\ forall h, In h (g_unknown g) <-> hash_in ws h /\ dget h d = None.

  (** Paths are searched in the files of archives, with their guessed extensions. *)
  Inductive searched (grep : list entry -> method) : list gwad -> cache -> guesser -> cache -> guesser -> Prop :=
  | se_nil c g : searched grep [] c g c g
  | se_cons w t c g c1 files g1 c2 g2 :
      guess_extensions gunzip unzstd xxh3 json_loads (gw_data w) (gw_toc w) c (gw_files w) = Ok (c1, files) ->
      grep (map (fun e => {| en_type := w_type e; en_ext := w_ext e; en_path := w_path e; en_data := read_file_data gunzip unzstd xxh3 (gw_data w) (gw_toc w) e |}) files) g = (g1, Ok tt) ->
      searched grep t c1 g1 c2 g2 -> searched grep (w :: t) c g c2 g2.
  (** The methods that are asked for are run, in their own order. *)
  Definition guessed (pt : part) (names : list str) (ws : list gwad) (c : cache) (g : guesser) (c' : cache) (g' : guesser) : Prop :=
    exists g1 ms, (In (lit "grep") names /\ searched (pt_grep pt) ws c g c' g1 \/ ~ In (lit "grep") names /\ c' = c /\ g1 = g) /\
      kept (fun m => In (fst m) names) (pt_methods pt) ms /\ passes (map snd ms) g1 g'.

  (** The text of a table is the content of its file, and nothing else has changed. *)
  Definition saved_text (d : hashes) (text : str) : Prop := hf_save {| hf_size := 16; hf_hashes := Some d |} = Ok text.
  Definition written (f : fs) (name : str) (content : bytes) (f' : fs) : Prop :=
    exists p b, content_at cwd f (dir_file dir name) p b /\ look f' p = Some (NFile content) /\ forall q, q <> p -> look f' q = look f q.

  (** A part which ends without error. *)
  Definition part_done (pt : part) (names : list str) (dry : bool) (ws : list gwad) (f : fs) (c : cache) (f' : fs) (c' : cache) : Prop :=
    exists d ws' g, table_at f (pt_file pt) d /\ part_archives pt ws ws' /\ starting d ws' g /\
      ((forall h, hash_in ws' h -> dget h d <> None) /\ f' = f /\ c' = c \/
       (exists h, hash_in ws' h /\ dget h d = None) /\
       exists g', guessed pt names ws' c g c' g' /\
         let found := exists h, hash_in ws' h /\ dget h d = None /\ dget h (g_known g') <> None in
         (~ found \/ dry = true) /\ f' = f \/
         found /\ dry = false /\ exists text, saved_text (g_known g') text /\ written f (pt_file pt) (enc text) f').

  (** [d'] is [d] with paths found for hashes of archives. *)
  Definition found_more (ws : list gwad) (d d' : hashes) : Prop :=
    (forall h p, dget h d = Some p -> dget h d' = Some p) /\
    (forall h p, dget h d' = Some p -> dget h d = None -> H p = h /\ hash_in ws h).
  (** What may happen to the file of a part in any case: it is not changed, or it holds the beginning of the text of such a table. *)
  Definition maybe_saved (whole : Prop) (pt : part) (dry : bool) (ws : list gwad) (f f' : fs) : Prop :=
    f' = f \/
    dry = false /\ exists d ws' d' text n, table_at f (pt_file pt) d /\ part_archives pt ws ws' /\ found_more ws' d d' /\ saved_text d' text /\
      (exists h, hash_in ws' h /\ dget h d = None /\ dget h d' <> None) /\
      written f (pt_file pt) (takeN n (enc text)) f' /\ (whole -> takeN n (enc text) = enc text).
End Command.
