(** * Specification of version numbers (independent of the model's helpers) *)

From Coq Require Import List ZArith.
Import ListNotations.

(** [x] is numerically, lexicographically before [y]: either [y] extends [x], or at the first
    difference [x] has the smaller number. *)
Inductive comps_before : list Z -> list Z -> Prop :=
| before_ext x y0 y : comps_before x (x ++ y0 :: y)
| before_diff p a b x y : (a < b)%Z -> comps_before (p ++ a :: x) (p ++ b :: y).

(** [s] is the plain decimal spelling of integers separated by dots: no sign other than a
    leading minus, no leading zero, no space, no underscore. *)
Inductive digits_spell : Z -> list N -> Prop :=
| spell_zero : digits_spell 0 [48%N]
| spell_start d : (1 <= d <= 9)%N -> digits_spell (Z.of_N d) [(48 + d)%N]
| spell_snoc z s d : digits_spell z s -> (1 <= z)%Z -> (d <= 9)%N ->
    digits_spell (10 * z + Z.of_N d) (s ++ [(48 + d)%N]).
Inductive int_spell : Z -> list N -> Prop :=
| spell_pos z s : digits_spell z s -> int_spell z s
| spell_neg z s : digits_spell z s -> (1 <= z)%Z -> int_spell (- z) (45%N :: s).
Inductive dotted_spell : list Z -> list N -> Prop :=
| dotted_one z s : int_spell z s -> dotted_spell [z] s
| dotted_cons z zs s ss : int_spell z s -> dotted_spell zs ss ->
    dotted_spell (z :: zs) (s ++ 46%N :: ss).
