(** * Vocabulary for iterations whose progress is displayed *)

From Verif Require Import Base.Py Model.Progress.

(** Times of the signals of an execution. *)
Definition signals (l : list event) : list Z := flat_map (fun e => match e with Signal t => [t] | _ => [] end) l.
(** Each signal comes at least half a second after the previous one. *)
Fixpoint spaced (last : Z) (ts : list Z) : Prop := match ts with [] => True | t :: r => (500 <= t - last)%Z /\ spaced t r end.
Definition interrupted {A} (s : state A) : Prop := s_point s = Leaving Interrupted \/ s_point s = Over Interrupted.
(** Between the installation and the end. *)
Definition active {A} (s : state A) : Prop := match s_point s with Start | Over _ => False | _ => True end.
(** Points where an exception does not reach the [finally]. *)
Definition outside {A} (s : state A) : Prop := match s_point s with Installed | Leaving _ => True | _ => False end.
(** Increasing positions in a list. *)
Inductive marked {A} (l : list A) : N -> list (N * A) -> Prop :=
| marked_nil n : marked l n []
| marked_cons n i x m : n <= i -> nth_error l (N.to_nat i) = Some x -> marked l (i + 1) m -> marked l n ((i, x) :: m).
