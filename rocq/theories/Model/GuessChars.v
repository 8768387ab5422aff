(** * Guessing of the files of characters, shaders and fixed patterns: cdtb/hashes.py:517-554, 585-595, 642-662, 695-745, 761-798 *)

From Verif Require Import Base.Py Base.Text Model.Hashes Model.Patcher Model.Rads Model.Guess Model.GuessPaths.

(** [itertools.combinations(l, n)] *)
Fixpoint combinations {A} (l : list A) (n : nat) {struct l} : list (list A) :=
  match n with
  | O => [[]]
  | S k => match l with [] => [] | x :: t => map (cons x) (combinations t k) ++ combinations t n end
  end.

(** hashes.py:586: [^(?:assets/|data/)?characters/([^/.]+)(?:/|$)]; the group goes to the first slash or dot *)
Fixpoint span_name (s : str) : str * str :=
  match s with
  | [] => ([], [])
  | c :: t => if (c =? cSlash) || (c =? cDot) then ([], s) else let '(a, b) := span_name t in (c :: a, b)
  end.
Definition char_name (p : str) : option str :=
  let rest := match after (lit "assets/") p with Some s => s | None => match after (lit "data/") p with Some s => s | None => p end end in
  opt_bind (after (lit "characters/") rest) (fun s =>
    match span_name s with
    | ([], _) => None
    | (c, []) => Some c
    | (c, x :: _) => if x =? cSlash then Some c else None
    end).

(** hashes.py:646: [/characters/([^/]+)/skins/(base|skin\d+)/], the first match *)
Definition skin_name (k : str) : bool :=
  eqb k (lit "base") || match after (lit "skin") k with Some (c :: t) => forallb is_digit (c :: t) | _ => false end.
Definition skin_here (s : str) : option (str * str) :=
  opt_bind (after (lit "/characters/") s) (fun s => opt_bind (split_part s) (fun cr =>
    opt_bind (after (lit "skins/") (snd cr)) (fun s => opt_bind (split_part s) (fun kr =>
      if skin_name (fst kr) then Some (fst cr, fst kr) else None)))).
Fixpoint skin_match (s : str) : option (str * str) :=
  match skin_here s with Some r => Some r | None => match s with [] => None | _ :: t => skin_match t end end.
(** hashes.py:656: [re.subn(r'(?:base|skin\d+)', '%s', p)]; the length of a match *)
Definition skin_len (s : str) : nat :=
  if startswith s (lit "base") then 4%nat
  else match after (lit "skin") s with
       | Some t => match fst (span_digits t) with [] => 0%nat | d => (4 + length d)%nat end
       | None => 0%nat
       end.
Fixpoint skin_format (s : str) (skip : nat) : str * nat :=
  match s with
  | [] => ([], 0%nat)
  | c :: t =>
    match skip with
    | S k => skin_format t k
    | O => match skin_len s with
           | O => let '(f, n) := skin_format t 0 in (c :: f, n)
           | S k => let '(f, n) := skin_format t k in (lit "%s" ++ f, S n)
           end
    end
  end.

(** hashes.py:725: [^assets/characters/([^/]+)/skins/skin(\d+)/] *)
Definition skin_dir (p : str) : option (str * N) :=
  opt_bind (after (lit "assets/characters/") p) (fun s => opt_bind (split_part s) (fun cr =>
    opt_bind (after (lit "skins/skin") (snd cr)) (fun s => opt_bind (split_part s) (fun nr =>
      if forallb is_digit (fst nr) then Some (fst cr, undigits 10 (map (fun c => c - 48) (fst nr))) else None)))).
Definition skin_text (n : N) : str := lit "_skins_skin" ++ dec n.
(** hashes.py:703: [^/lol-game-data/assets/assets/characters/([^/]+)/skins/] *)
Definition splash_char (p : str) : option str :=
  opt_bind (after (lit "/lol-game-data/assets/assets/characters/") p) (fun s => opt_bind (split_part s) (fun cr =>
    if startswith (snd cr) (lit "skins/") then Some (fst cr) else None)).

(** hashes.py:794: [.*\.[pv]s(_[23]_0|(?=$|[.-]))]: the last match of the first line *)
Definition shader_here (s : str) : option str :=
  match s with
  | a :: b :: c :: t =>
    if (a =? cDot) && ((b =? 112) || (b =? 118)) && (c =? 115) then
      if startswith t (lit "_2_0") || startswith t (lit "_3_0") then Some (a :: b :: c :: takeN 4 t)
      else match t with
           | [] => Some [a; b; c]
           | x :: u => if (x =? cDot) || (x =? cMinus) || ((x =? cNL) && match u with [] => true | _ => false end) then Some [a; b; c] else None
           end
    else None
  | _ => None
  end.
Fixpoint shader_path (s : str) : option str :=
  match s with
  | [] => None
  | c :: t => if c =? cNL then None else match shader_path t with Some r => Some (c :: r) | None => shader_here s end
  end.
(** hashes.py:595 *)
Definition shader_variants : list str := [lit ".dx11"; lit ".dx9"; lit ".dx9sm3"; lit ".glsl"; lit ".metal"; lit "-dx11"; lit "-metal"].

Section Guess.
  Variable H : str -> Z.
  Variable other : str -> list parg -> result str.
  Notation check_all := (check_all H).

  (** hashes.py:585-592 [get_characters] *)
  Definition get_characters (g : guesser) : list str :=
    py_sorted str_lt (set_of (flat_map (fun p => match char_name p with Some c => [c] | None => [] end) (known g))).

  (** hashes.py:642-662 [substitute_skin_numbers]; [order] is the order in which the set of skins is enumerated *)
  Definition found_skins (g : guesser) : list (str * (str * str)) :=
    flat_map (fun p => match skin_match p with Some (c, k) => if eqb c (lit "sightward") then [] else [(c, (k, p))] | None => [] end) (known g).
  Definition skin_tries (order : list str -> list str) (found : list (str * (str * str))) : list (result str) :=
    flat_map (fun c =>
      let mine := map snd (filter (fun f => eqb (fst f) c) found) in
      let skins := order (set_of (map fst mine)) in
      flat_map (fun fn => map (fun ks => pct other (fst fn) (map PStr ks)) (combinations skins (snd fn))) (set_of (map (fun kp => skin_format (snd kp) 0) mine)))
      (set_of (map fst found)).
  Definition substitute_skin_numbers (order : list str -> list str) (g : guesser) : guesser * result unit :=
    check_gen H (skin_tries order (found_skins g)) g.

  (** hashes.py:721-745 [guess_skin_groups_bin] *)
  Definition group_paths (c : str) (names : list str) : list str :=
    flat_map (fun n => map (fun p => lit "data/" ++ c ++ concat p ++ lit ".bin") (combinations names (S n))) (seq 0 (length names)).
  Definition guess_skin_groups_bin (g : guesser) : guesser :=
    let found := flat_map (fun p => match skin_dir p with Some (c, n) => if eqb c (lit "sightward") then [] else [(c, n)] | None => [] end) (known g) in
    check_all (flat_map (fun c => group_paths c (py_sorted str_lt (map skin_text (set_of (0 :: map snd (filter (fun f => eqb (fst f) c) found)))))) (set_of (map fst found))) g.

  (** hashes.py:695-719 [guess_skin_groups_bin_using_chromas]; for each skin of the downloaded file, its number, its lower case path and the numbers of its chromas *)
  Record skin_data := { sk_id : Z; sk_path : str; sk_chromas : list Z }.
  Definition group_names (d : skin_data) : list str := map (fun i => skin_text (Z.to_N (i mod 1000))) (sk_id d :: sk_chromas d).
  Definition chroma_paths (c : str) (groups : list (list str)) : list str :=
    flat_map (fun n => map (fun p => lit "data/" ++ c ++ concat (py_sorted str_lt (concat p)) ++ lit ".bin") (combinations groups (S n))) (seq 0 (length groups)).
  Definition guess_using_chromas (data : list skin_data) (g : guesser) : guesser * result unit :=
    match rmapM (fun d => match splash_char (sk_path d) with Some c => Ok (c, group_names d) | None => Err AttributeError end) data with
    | Err e => (g, Err e)
    | Ok found =>
      (check_all (flat_map (fun c => chroma_paths c (map snd (filter (fun f => eqb (fst f) c) found) ++ [[lit "_skins_root"]])) (set_of (map fst found))) g, Ok tt)
    end.

  (** hashes.py:761-789 [guess_characters_files] *)
  Definition character_files (c : str) : list str :=
    [lit "data/characters/" ++ c ++ lit "/skins/root.bin"; lit "data/characters/" ++ c ++ lit "/skins/base/" ++ c ++ lit ".skl"; lit "data/characters/" ++ c ++ lit "/skins/base/" ++ c ++ lit ".skn";
     lit "data/characters/" ++ c ++ lit "/skins/base/" ++ c ++ lit "_tx_cm.dds"; lit "data/characters/" ++ c ++ lit "/tiers/root.bin"; lit "data/characters/" ++ c ++ lit "/" ++ c ++ lit ".bin";
     lit "data/characters/" ++ c ++ lit "/" ++ c ++ lit ".ddf"; lit "data/characters/" ++ c ++ lit "/hud/" ++ c ++ lit "_circle.dds"; lit "data/characters/" ++ c ++ lit "/hud/" ++ c ++ lit "_square.dds";
     lit "assets/characters/" ++ c ++ lit "/hud/" ++ c ++ lit "_circle.dds"; lit "assets/characters/" ++ c ++ lit "/hud/" ++ c ++ lit "_square.dds"; lit "characters/" ++ c].
  Definition skin_files (c : str) : list str :=
    let nskins := if eqb c (lit "sightward") then 500 else 200 in
    map (fun i => lit "data/characters/" ++ c ++ lit "/skins/skin" ++ dec i ++ lit ".bin") (rangeN nskins) ++
    map (fun i => lit "data/characters/" ++ c ++ lit "/animations/skin" ++ dec i ++ lit ".bin") (rangeN nskins) ++
    (if startswith c (lit "pet") then map (fun i => lit "data/characters/" ++ c ++ lit "/tiers/tier" ++ dec i ++ lit ".bin") (rangeN 10) else []).
  Definition guess_characters_files (chars : option (list str)) (g : guesser) : guesser :=
    let chars := match chars with Some l => l | None => get_characters g end in
    check_all (flat_map (fun c => character_files c ++ skin_files c) (py_sorted str_lt chars)) g.

  (** hashes.py:791-798 [guess_shader_variants] *)
  Definition guess_shader_variants (g : guesser) : guesser :=
    let paths := set_of (flat_map (fun p => match shader_path p with Some s => [s] | None => [] end) (known g)) in
    check_all (flat_map (fun p => map (fun v => p ++ v) shader_variants ++
      flat_map (fun v => map (fun n => p ++ v ++ lit "_" ++ dec (100 * n)) (rangeN 200)) shader_variants) (py_sorted str_lt paths)) g.

  (** hashes.py:550-554, in [guess_patterns]: the dictionary which is enumerated is the one to which found paths are added, and an
      enumeration stops with an exception after a change of size *)
  Definition loot_icons : str := lit "plugins/rcp-fe-lol-loot/global/default/assets/loot_item_icons/".
  Fixpoint splash_loop (paths : list str) (size : nat) (g : guesser) : guesser * result unit :=
    if negb (Nat.eqb (length (g_known g)) size) then (g, Err RuntimeError)
    else match paths with
         | [] => (g, Ok tt)
         | p :: t => splash_loop t size (if startswith p loot_icons then check H (str_replace (lit ".png") (lit "_splash.png") p) g else g)
         end.

  (** hashes.py:524-548 *)
  Definition perk_primary : list N := map (fun n => 8000 + 100 * n) (rangeN 6).
  Definition perk_paths : list str :=
    flat_map (fun i =>
      let perk_secondary := map (fun n => i + n) (rangeN 100) in
      flat_map (fun j => map (fun k => lit "plugins/rcp-fe-lol-perks/global/default/images/inventory-card/" ++ dec i ++ lit "/p" ++ dec i ++ lit "_s" ++ dec j ++ lit "_k" ++ dec k ++ lit ".jpg")
        (0 :: perk_secondary)) (0 :: perk_primary) ++
      map (fun p => lit "plugins/rcp-fe-lol-perks/global/default/images/construct/" ++ dec i ++ lit "/" ++ p)
        ([lit "environment.jpg"; lit "construct.png"] ++ map (fun j => lit "keystones/" ++ dec j ++ lit ".png") perk_secondary ++ map (fun j => lit "second/" ++ dec j ++ lit ".png") perk_primary)) perk_primary.
  Definition lang_part (i : nat) (l : str) : str := nth i (split_ch cUnder l) [].
  Definition sanitizer_names : list str :=
    flat_map (fun i => flat_map (fun action =>
      let base := dec i ++ lit "." ++ action in
      [base ++ lit ".csv"] ++ map (fun x => base ++ lit ".language." ++ lang_part 0 x ++ lit ".csv") languages ++ map (fun x => base ++ lit ".country." ++ lang_part 1 x ++ lit ".csv") languages ++
      map (fun x => base ++ lit ".region." ++ x ++ lit ".csv") regions ++ map (fun x => base ++ lit ".locale." ++ x ++ lit ".csv") languages) [lit "filter"; lit "unfilter"; lit "whitelist"]) (rangeN 5) ++
    flat_map (fun p => map (fun x => p ++ lit ".locale." ++ x ++ lit ".txt") languages ++ map (fun x => p ++ lit ".language." ++ lang_part 0 x ++ lit ".txt") languages)
      [lit "allowedchars"; lit "breakingchars"; lit "projectedchars"; lit "projectedchars1337"; lit "punctuationchars"; lit "variantaliases"].
  Definition sanitizer_paths : list str := map (fun p => lit "plugins/rcp-be-sanitizer/global/default/" ++ p) sanitizer_names.
  (** hashes.py:517-554 [guess_patterns] *)
  Definition guess_patterns (g : guesser) : guesser * result unit :=
    let g := check_all sanitizer_paths (check_all perk_paths g) in splash_loop (known g) (length (g_known g)) g.
End Guess.
