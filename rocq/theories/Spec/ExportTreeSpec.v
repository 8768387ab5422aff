(** * Vocabulary for lists of paths *)

From Verif Require Import Base.Py Base.Text.

(** Names of a path, without the slashes. *)
Definition parts (p : str) : list str := split_ch cSlash p.
(** [p] is [q] or a path inside the directory [q]. *)
Definition inside (p q : str) : Prop := exists l, parts p = parts q ++ l.
Definition strictly_inside (p q : str) : Prop := exists n l, parts p = parts q ++ n :: l.
(** No path is also the directory of another one. *)
Definition files_only (l : list str) : Prop := forall p q, In p l -> In q l -> ~ strictly_inside p q.

(** A file or directory of [p1] which can be replaced by a link to the same path among [p2]:
    inside it the files are the same, none of them is excluded. *)
Definition linkable (p1 p2 ex : list str) (r : str) : Prop :=
  In r p1 \/
  (exists a, In a p1 /\ inside a r) /\ (forall b, In b p2 -> inside b r -> In b p1) /\ (forall e, In e ex -> ~ strictly_inside e r).
(** The largest ones. *)
Definition outermost (P : str -> Prop) (r : str) : Prop := P r /\ forall q, strictly_inside r q -> ~ P q.
