(** * Guessing by changes of parts of paths: cdtb/hashes.py:387-399, 430-439, 505-515, 601-615, 624-640, 664-693, 747-759, data.py:4-5 *)

From Verif Require Import Base.Py Base.Text Model.Hashes Model.Patcher Model.Rads Model.Guess.

(** data.py:4-5 *)
Definition regions : list str := [
  lit "br"; lit "cn"; lit "eun"; lit "eune"; lit "euw"; lit "garena2"; lit "garena3"; lit "id"; lit "jp"; lit "kr"; lit "la"; lit "la1"; lit "la2"; lit "lan"; lit "las"; lit "me1";
  lit "na"; lit "oc"; lit "oc1"; lit "oce"; lit "pbe"; lit "ph"; lit "ph2"; lit "ru"; lit "sg"; lit "sg2"; lit "tencent"; lit "th"; lit "th2"; lit "tr"; lit "tw"; lit "tw2"; lit "vn"; lit "vn2" ].

(** [([^/]+)/] and what follows *)
Definition split_part (s : str) : option (str * str) := match cut_first cSlash s with Some (c :: a, r) => Some (c :: a, r) | _ => None end.
(** [^plugins/([^/]+)/] *)
Definition plugin_parts (p : str) : option (str * str) := opt_bind (after (lit "plugins/") p) split_part.

(** hashes.py:393, 397: a path with another region and language; other paths are unchanged *)
Definition region_sub (rl : str * str) (p : str) : str :=
  match plugin_parts p with
  | Some (x, s) =>
    match opt_bind (after_part s) after_part with
    | Some rest => lit "plugins/" ++ x ++ lit "/" ++ fst rl ++ lit "/" ++ snd rl ++ lit "/" ++ rest
    | None => p
    end
  | None => p
  end.
(** hashes.py:390-395 *)
Definition region_langs : list (str * str) := flat_map (fun r => map (fun l => (r, l)) (languages ++ [lit "default"])) (regions ++ [lit "global"]).

(** hashes.py:433-435 *)
Definition plugin_name (p : str) : str := let s := drop_prefix (lit "plugins/") p in match cut_first cSlash s with Some (a, _) => a | None => s end.
Definition plugin_format (p : str) : str := match plugin_parts p with Some (_, s) => lit "plugins/%s/" ++ s | None => p end.

(** hashes.py:669: [^(.*?)(\.[^.]+)?(\.[^.]+)$] *)
Definition suffix_split (p : str) : option (str * str * str) :=
  match cut_last cDot p with
  | Some (_, []) | None => None
  | Some (a, e) =>
    let '(pre, suf) := match cut_last cDot a with Some (b, c :: s) => (b, cDot :: c :: s) | _ => (a, []) end in
    if mem cNL pre then None else Some (pre, suf, cDot :: e)
  end.

(** hashes.py:688-689: languages replaced from left to right; all of them have 5 characters *)
Definition lang_here (s : str) : bool := existsb (startswith s) languages.
Fixpoint langs_go (new s : str) (skip : nat) : str :=
  match s with
  | [] => []
  | c :: t =>
    match skip with
    | S k => langs_go new t k
    | O => if lang_here s then new ++ langs_go new t 4 else c :: langs_go new t 0
    end
  end.
Definition has_lang (p : str) : bool := existsb (fun l => contains l p) languages.

(** hashes.py:629: [^(?:assets|data)/characters/([^/]+)/] *)
Definition char_dir (p : str) : option str :=
  option_map fst (match after (lit "assets/characters/") p with Some s => split_part s | None => opt_bind (after (lit "data/characters/") p) split_part end).

(** hashes.py:750, the expression for assets and data; [$] also matches before a final line break *)
Definition chop_nl (s : str) : str := match rev s with c :: t => if c =? cNL then rev t else s | [] => [] end.
Definition chop (suf s : str) : option str := if endswith s suf then Some (takeN (lenN s - lenN suf) s) else None.
Definition lcu_asset (p : str) : option (str * str) :=
  opt_bind (after (lit "plugins/rcp-be-lol-game-data/global/default/") p) (fun s =>
    let s := chop_nl s in
    let try ext := opt_bind (chop (cDot :: ext) s) (fun x => if (startswith x (lit "assets/") || startswith x (lit "data/")) && negb (mem cNL x) then Some (x, ext) else None) in
    match try (lit "png") with Some r => Some r | None => match try (lit "jpg") with Some r => Some r | None => try (lit "json") end end).

Section Guess.
  Variable H : str -> Z.
  Variable other : str -> list parg -> result str.
  Notation check_all := (check_all H).
  Definition known (g : guesser) : list str := dvals (g_known g).

  (** hashes.py:387-399 [substitute_region_lang] *)
  Definition substitute_region_lang (g : guesser) : guesser :=
    let paths := known g in fold_left (fun g rl => check_all (map (region_sub rl) paths) g) region_langs g.

  (** hashes.py:430-439 [substitute_plugin] *)
  Definition substitute_plugin (g : guesser) : guesser * result unit :=
    let paths := filter (fun p => startswith p (lit "plugins/")) (known g) in
    check_formats H other (map plugin_format paths) (map (fun x => [PStr x]) (set_of (map plugin_name paths))) g.

  (** hashes.py:505-515 [guess_from_game_hashes]: the paths of the list of game hashes *)
  Definition from_game (path : str) : list str :=
    let base := lit "plugins/rcp-be-lol-game-data/global/default" in
    let '(prefix, ext) := splitext path in
    if eqb ext (lit ".dds") then [base ++ lit "/" ++ prefix ++ lit ".png"; base ++ lit "/" ++ prefix ++ lit ".jpg"]
    else if eqb ext (lit ".json") then [base ++ lit "/" ++ path] else [].
  Definition guess_from_game_hashes (game : list str) (g : guesser) : guesser := check_all (flat_map from_game game) g.

  (** hashes.py:747-759 [guess_from_lcu_hashes]: the paths of the list of client hashes *)
  Definition from_lcu (path : str) : list str :=
    match lcu_asset path with
    | Some (prefix, ext) => if eqb ext (lit "png") || eqb ext (lit "jpg") then [prefix ++ lit ".dds"] else [prefix ++ lit "." ++ ext]
    | None => []
    end.
  Definition guess_from_lcu_hashes (lcu : list str) (g : guesser) : guesser := check_all (flat_map from_lcu lcu) g.

  (** hashes.py:601-615 [check_basename_prefixes] *)
  Definition default_prefixes : list str := [lit "2x_"; lit "2x_sd_"; lit "4x_"; lit "4x_sd_"; lit "sd_"].
  Definition prefixed (prefix p : str) : str :=
    let '(path, base) := path_split p in (if eqb path [] then [] else path ++ lit "/") ++ prefix ++ base.
  Definition check_basename_prefixes (prefixes : option (list str)) (g : guesser) : guesser :=
    let prefixes := match prefixes with Some l => l | None => default_prefixes end in
    check_all (set_of (flat_map (fun p => map (fun x => prefixed x p) prefixes) (known g))) g.

  (** hashes.py:624-640 [substitute_character] *)
  Definition substitute_character (g : guesser) : guesser :=
    let found := flat_map (fun p => match char_dir p with Some c => [(c, p)] | None => [] end) (known g) in
    let characters := set_of (map fst found) in
    let formats := set_of (map (fun cp => str_replace (fst cp) (lit "{}") (snd cp)) found) in
    fold_left (fun g fmt => check_all (map (fun s => str_replace (lit "{}") s fmt) characters) g) (py_sorted str_lt formats) g.

  (** hashes.py:664-682 [substitute_suffixes] *)
  Definition substitute_suffixes (g : guesser) : guesser * result unit :=
    let found := flat_map (fun p => match suffix_split p with Some m => [m] | None => [] end) (known g) in
    let suffixes := set_of ([] :: filter (fun s => negb (eqb s [])) (map (fun m => snd (fst m)) found)) in
    check_formats H other (map (fun m => fst (fst m) ++ lit "%s" ++ snd m) found) (map (fun s => [PStr s]) suffixes) g.

  (** hashes.py:684-693 [substitute_lang] *)
  Definition substitute_lang (g : guesser) : guesser :=
    let formats := set_of (map (fun p => langs_go (lit "{}") p 0) (filter has_lang (known g))) in
    fold_left (fun g fmt => check_all (map (fun l => str_replace (lit "{}") l fmt) languages) g) (py_sorted str_lt formats) g.
End Guess.
