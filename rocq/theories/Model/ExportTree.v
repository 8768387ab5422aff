(** * Reduction of lists of paths: cdtb/export.py *)

From Verif Require Import Base.Py Base.Text.

(** Nested dicts; leaves are None. *)
Inductive tree := Leaf | Node (d : list (str * tree)).

(** export.py:38-45: one path is added, given as its parts.  A parent that is a leaf has no
    [setdefault], and no item can be assigned to a leaf. *)
Fixpoint add_path (parts : list str) (t : tree) : result tree :=
  match t with
  | Leaf => Err (match parts with [_] => TypeError | _ => AttributeError end)
  | Node d =>
    match parts with
    | [] => Ok t
    | [leaf] => Ok (Node (dset leaf Leaf d))
    | p :: rest =>
      let! sub := add_path rest (match dget p d with Some s => s | None => Node [] end) in
      Ok (Node (dset p sub d))
    end
  end.
(** export.py:29-46 [paths_to_tree] *)
Fixpoint add_paths (paths : list str) (t : tree) : result tree :=
  match paths with
  | [] => Ok t
  | p :: rest => let! t' := add_path (split_ch cSlash p) t in add_paths rest t'
  end.
Definition paths_to_tree (paths : list str) : result tree := add_paths paths (Node []).

(** [==] on nested dicts: the order of keys does not matter. *)
Fixpoint tree_eqb (a b : tree) : bool :=
  match a, b with
  | Leaf, Leaf => true
  | Node d1, Node d2 =>
    Nat.eqb (length d1) (length d2) &&
    forallb (fun kt => let '(k, t) := kt in match dget k d2 with Some t' => tree_eqb t t' | None => false end) d1
  | _, _ => false
  end.
Definition is_leaf (t : tree) : bool := match t with Leaf => true | Node _ => false end.

(** export.py:48-57 [reduce_common_trees]; a missing entry of the excludes is None as a leaf. *)
Definition sub_excludes (n : str) (ex : tree) : tree :=
  match ex with Leaf => Leaf | Node e => match dget n e with Some t => t | None => Leaf end end.
Fixpoint reduce_common_trees (parts : list str) (t1 t2 ex : tree) : result (list str) :=
  match t1 with
  | Leaf => Ok [join [cSlash] parts]
  | Node d1 =>
    if tree_eqb t1 t2 && is_leaf ex then Ok [join [cSlash] parts]
    else
      (fix go (l : list (str * tree)) : result (list str) :=
         match l with
         | [] => Ok []
         | (n, t) :: l' =>
           let! t2' := match t2 with Leaf => Err TypeError | Node d2 => of_opt KeyError (dget n d2) end in
           let! a := reduce_common_trees (parts ++ [n]) t t2' (sub_excludes n ex) in
           let! b := go l' in
           Ok (a ++ b)
         end) d1
  end.

(** export.py:59-75 [reduce_common_paths] *)
Definition reduce_common_paths (paths1 paths2 excludes : list str) : result (list str) :=
  let! t1 := paths_to_tree paths1 in
  let! t2 := paths_to_tree paths2 in
  let! ex := paths_to_tree excludes in
  let! ret := reduce_common_trees [] t1 t2 ex in
  match ret with
  | [[]] => Ok (match t1 with Node d => dkeys d | Leaf => [] end)
  | _ => Ok ret
  end.
