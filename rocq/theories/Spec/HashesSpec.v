(** * Specification of hash lists and hash guessing *)

From Verif Require Import Base.Py Base.Text Model.Hashes.

(** Strings that a line can carry. *)
Definition one_line (s : str) : Prop := ~ In cNL s /\ ~ In cCR s.

(** Equality of dictionaries, whatever their order. *)
Definition same_table (a b : hashes) : Prop := forall h, dget h a = dget h b.

(** The parent directory of a path. *)
Inductive parent : str -> str -> Prop :=
| parent_none p : ~ In cSlash p -> parent p []
| parent_dir d c n b : c <> cSlash -> ~ In cSlash b -> parent (d ++ c :: cSlash :: repeat cSlash n ++ b) (d ++ [c])
| parent_root n b : ~ In cSlash b -> parent (cSlash :: repeat cSlash n ++ b) (cSlash :: repeat cSlash n).
(** Ancestors. *)
Inductive ancestor (d : str) : str -> Prop :=
| anc_parent p : parent p d -> ancestor d p
| anc_up p q : parent p q -> ancestor d q -> ancestor d p.

(** A consistent guesser: a hash is known or unknown, not both. *)
Definition guesser_ok (g : guesser) : Prop :=
  NoDup (dkeys (g_known g)) /\ NoDup (g_unknown g) /\ forall h, In h (g_unknown g) -> dget h (g_known g) = None.

(** [g'] results from [g] by finding some candidates: nothing known is lost, each new entry is a
    candidate stored under its own hash, which was unknown, and only these leave [unknown]. *)
Definition grows (H : str -> Z) (candidate : str -> Prop) (g g' : guesser) : Prop :=
  guesser_ok g' /\
  (forall h p, dget h (g_known g) = Some p -> dget h (g_known g') = Some p) /\
  (forall h p, dget h (g_known g') = Some p -> dget h (g_known g) = None -> H p = h /\ In h (g_unknown g) /\ candidate p) /\
  (forall h, In h (g_unknown g') <-> In h (g_unknown g) /\ dget h (g_known g') = None) /\
  (length (g_known g') + length (g_unknown g') = length (g_known g) + length (g_unknown g))%nat.

(** All candidates have been looked for. *)
Definition all_tried (H : str -> Z) (candidate : str -> Prop) (g' : guesser) : Prop :=
  forall p, candidate p -> ~ In (H p) (g_unknown g').
