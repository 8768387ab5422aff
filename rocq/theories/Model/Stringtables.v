(** * Paths of the translation files: cdtb/tools.py:84-108 [stringtable_paths]

    The filesystem is read in one state.  [glob.glob] is modelled after CPython 3.11: errors of the system are ignored
    there.  In character classes of patterns only single characters and ranges are modelled. *)

From Verif Require Import Base.Py Base.Text Base.Fs Base.FsDir Base.FsTree.

(** ** [fnmatch] *)

Inductive gtok := GChar (c : N) | GAny | GStar | GClass (negated : bool) (ranges : list (N * N)).

Definition c_star : N := 42.
Definition c_quest : N := 63.
Definition c_open : N := 91.
Definition c_close : N := 93.
Definition c_bang : N := 33.
Definition c_minus : N := 45.
Definition c_back : N := 92.

Fixpoint class_ranges (s : str) : list (N * N) :=
  match s with
  | a :: ((m :: b :: t) as r) => if m =? c_minus then (a, b) :: class_ranges t else (a, a) :: class_ranges r
  | a :: t => (a, a) :: class_ranges t
  | [] => []
  end.
(** Text up to the closing bracket, and what follows; a bracket at the beginning does not close. *)
Definition class_body (s : str) : option (str * str) :=
  match s with
  | [] => None
  | a :: t =>
    if a =? c_close then match cut_first c_close t with Some (x, y) => Some (a :: x, y) | None => None end
    else cut_first c_close s
  end.
Fixpoint pattern_toks (fuel : nat) (s : str) : list gtok :=
  match s, fuel with
  | c :: t, S k =>
    if c =? c_star then GStar :: pattern_toks k t
    else if c =? c_quest then GAny :: pattern_toks k t
    else if c =? c_open then
      let '(neg, r) := match t with b :: r => if b =? c_bang then (true, r) else (false, t) | [] => (false, t) end in
      match class_body r with
      | Some (body, rest) => GClass neg (class_ranges body) :: pattern_toks k rest
      | None => GChar c :: pattern_toks k t
      end
    else GChar c :: pattern_toks k t
  | _, _ => []
  end.
Fixpoint toks_match (p : list gtok) (s : str) {struct p} : bool :=
  match p with
  | [] => match s with [] => true | _ => false end
  | GStar :: p' => (fix star (s : str) : bool := toks_match p' s || match s with [] => false | _ :: t => star t end) s
  | GAny :: p' => match s with [] => false | _ :: t => toks_match p' t end
  | GChar c :: p' => match s with [] => false | x :: t => (x =? c) && toks_match p' t end
  | GClass neg rs :: p' =>
    match s with
    | [] => false
    | x :: t => xorb neg (existsb (fun r => (fst r <=? x) && (x <=? snd r)) rs) && toks_match p' t
    end
  end.
Definition fnmatch (name pattern : str) : bool := toks_match (pattern_toks (length pattern) pattern) name.

(** ** [glob.glob] *)

Definition has_magic (s : str) : bool := existsb (fun c => (c =? c_star) || (c =? c_quest) || (c =? c_open)) s.
Definition is_hidden (s : str) : bool := startswith s [cDot].

Section Glob.
  (** The (arbitrary) order of directory listings. *)
  Variable order : list str -> list str.
  Variable cwd : path.
  Variable f : fs.

  (** [_listdir]: names of a directory, or of its directories. *)
  Definition glob_names (dir : str) (dironly : bool) : list str :=
    let d := match dir with [] => [cDot] | _ => dir end in
    match locate cwd f true d with
    | Ok p => match look f p with
              | Some NDir => filter (fun n => negb dironly || f_isdir cwd (path_join d n) f) (order (names p f))
              | _ => []
              end
    | Err _ => []
    end.
  Definition glob1 (dir pattern : str) (dironly : bool) : list str :=
    filter (fun n => (is_hidden pattern || negb (is_hidden n)) && fnmatch n pattern) (glob_names dir dironly).
  Definition glob0 (dir base : str) : list str :=
    match base with
    | [] => if f_isdir cwd dir f then [base] else []
    | _ => if f_lexists cwd (path_join dir base) f then [base] else []
    end.
  (** The directory part is shorter than the path: [fuel] is the length of the path. *)
  Fixpoint iglob (fuel : nat) (dironly : bool) (pathname : str) : list str :=
    let '(dir, base) := path_split pathname in
    if negb (has_magic pathname) then
      match base with
      | [] => if f_isdir cwd dir f then [pathname] else []
      | _ => if f_lexists cwd pathname f then [pathname] else []
      end
    else match dir with
    | [] => glob1 dir base dironly
    | _ =>
      let dirs := if negb (eqb dir pathname) && has_magic dir then match fuel with S k => iglob k true dir | O => [] end else [dir] in
      flat_map (fun d => map (path_join d) (if has_magic base then glob1 d base dironly else glob0 d base)) dirs
    end.
  Definition glob (pathname : str) : list str := iglob (length pathname) false pathname.

  (** ** The regular expressions: [pre] [(.._..)] [suf] and the end, all characters but those of the group being literal *)

  Definition lang_here (pre suf s : str) : option str :=
    if startswith s pre then
      match skipn (length pre) s with
      | a :: b :: u :: c :: d :: rest =>
        if (u =? cUnder) && forallb (fun x => negb (x =? cNL)) [a; b; c; d] && (eqb rest suf || eqb rest (suf ++ [cNL]))
        then Some [a; b; u; c; d] else None
      | _ => None
      end
    else None.
  (** [re.search] *)
  Fixpoint lang_search (pre suf s : str) : option str :=
    match lang_here pre suf s with
    | Some l => Some l
    | None => match s with [] => None | _ :: t => lang_search pre suf t end
    end.

  (** One dictionary: pattern of the paths, and the text before and after the language in the expression. *)
  Definition lang_paths (base_dir pattern pre suf : str) : result (list (str * str)) :=
    rmap dict_of (rmapM (fun p => rmap (fun l => (l, p)) (of_opt AttributeError (lang_search pre suf (map (fun c => if c =? c_back then cSlash else c) p))))
      (glob (path_join base_dir pattern))).

  (** tools.py:97-108 *)
  Fixpoint first_paths (base_dir : str) (formats : list (str * str * str)) : result (list (str * str)) :=
    match formats with
    | [] => Err RuntimeError
    | (pattern, pre, suf) :: t =>
      let! d := lang_paths base_dir pattern pre suf in
      match d with [] => first_paths base_dir t | _ => Ok d end
    end.
  Definition stringtable_paths (base_dir game : str) : result (list (str * str)) :=
    first_paths base_dir
      [(lit "??_??/data/menu/en_us/" ++ game ++ lit ".stringtable", [], lit "/data/menu/en_us/" ++ game ++ lit ".stringtable");
       (lit "??_??/data/menu/en_us/main.stringtable", [], lit "/data/menu/en_us/main.stringtable");
       (lit "data/menu/main_??_??.stringtable", lit "data/menu/main_", lit ".stringtable");
       (lit "data/menu/fontconfig_??_??.txt", lit "data/menu/fontconfig_", lit ".txt")].
End Glob.
