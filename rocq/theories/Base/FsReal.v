(** * [os.path.realpath]

    CPython Lib/posixpath.py ([_joinrealpath], not strict).  Simplifications: the [lstat]/[readlink] calls of one
    [realpath] see the same filesystem, and the cache of resolved links (which does not change the result) is dropped. *)

From Verif Require Import Base.Py Base.Text Base.Fs.

(** Remaining components, taken literally. *)
Definition lexical (cur : path) (rest : list str) : path := fold_left (fun acc c => if eqb c dotdot then tl acc else c :: acc) rest cur.
(** [seen] are the links being resolved.  Names that do not exist are kept; on a loop of links the rest is kept as it is.
    [fuel] bounds the number of links being resolved. *)
Fixpoint real (fuel : nat) (f : fs) (seen : list path) {struct fuel} : path -> list str -> path * bool :=
  fix go (cur : path) (rest : list str) {struct rest} : path * bool :=
    match rest with
    | [] => (cur, true)
    | c :: rest' =>
      if eqb c dotdot then go (tl cur) rest' else
      match look f (c :: cur) with
      | Some (NLink t) =>
        if mem (c :: cur) seen then (lexical (c :: cur) rest', false)
        else
          match fuel with
          | O => (lexical (c :: cur) rest', false)
          | S k =>
            let '(p, ok) := real k f ((c :: cur) :: seen) (if is_abs t then [] else cur) (comps t) in
            if ok : bool then go p rest' else (lexical p rest', false)
          end
      | _ => go (c :: cur) rest'
      end
    end.
(** Text of an absolute path. *)
Definition abs_text (p : path) : str := cSlash :: join [cSlash] (rev p).
(** [os.path.realpath(s)].  There are not more links than nodes. *)
Definition realpath (cwd : path) (f : fs) (s : str) : str :=
  abs_text (fst (real (S (length f)) f [] (if is_abs s then [] else cwd) (comps s))).
