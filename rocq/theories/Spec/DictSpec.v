(** * Specification of dictionaries built from a list of pairs *)

From Verif Require Import Base.Py.

(** [v] is the value that the last pair for [h] gives; [None] when there is no pair. *)
Inductive last_value {A B} (h : A) : list (A * B) -> option B -> Prop :=
| LV_none l : (forall v, ~ In (h, v) l) -> last_value h l None
| LV_some pre v post : (forall w, ~ In (h, w) post) -> last_value h (pre ++ (h, v) :: post) (Some v).
