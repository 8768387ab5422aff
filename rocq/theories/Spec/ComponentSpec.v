(** * Specification of component strings *)

From Verif Require Import Base.Py.

Definition number (s : str) : Prop := s <> [] /\ Forall (fun c => 48 <= c <= 57) s.

(** Dotted numbers: a number followed by groups [.number] or [.number.]. *)
Inductive dotted_version : str -> Prop :=
| dv_one d : number d -> dotted_version d
| dv_group s d : dotted_version s -> number d -> dotted_version (s ++ 46 :: d)
| dv_group_dot s d : dotted_version s -> number d -> dotted_version (s ++ 46 :: d ++ [46]).

(** The version part of a component. *)
Definition version_part (v : str) : Prop := v = [] \/ v = lit "main" \/ dotted_version v.

(** A whole component: name, "=", version, and possibly one final newline. *)
Definition component_text (name v c : str) : Prop :=
  In name [lit "patch"; lit "game"; lit "client"] /\ version_part v /\
  (c = name ++ lit "=" ++ v \/ c = name ++ lit "=" ++ v ++ [10]).
