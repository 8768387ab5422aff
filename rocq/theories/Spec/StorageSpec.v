(** * Specification of patch listings *)

From Verif Require Import Base.Py Model.Version Model.Storage.

(** [l] is cut into non-empty groups of equal version, neighbouring groups having different
    versions. *)
Definition version_groups (l : list element) (gs : list (list element)) : Prop :=
  concat gs = l /\
  Forall (fun g => g <> [] /\ forall a b, In a g -> In b g -> v_s (e_ver a) = v_s (e_ver b)) gs /\
  (forall pre g1 g2 post a b, gs = pre ++ g1 :: g2 :: post -> In a g1 -> In b g2 -> v_s (e_ver a) <> v_s (e_ver b)).

(** [e] is the first element of its name in [g]. *)
Definition first_of_name (g : list element) (e : element) : Prop :=
  exists pre post, g = pre ++ e :: post /\ forall x, In x pre -> e_name x <> e_name e.

(** The patch made of a group. *)
Definition patch_of_group (g : list element) (p : patch) : Prop :=
  (forall e, In e (p_elems p) <-> first_of_name g e) /\
  NoDup (map e_name (p_elems p)) /\
  (exists e, In e g /\ p_ver p = e_ver e) /\
  (forall e, In e g -> v_s (p_ver p) = v_s (e_ver e)).

(** The same cut, by names. *)
Definition name_groups (l : list element) (gs : list (list element)) : Prop :=
  concat gs = l /\
  Forall (fun g => g <> [] /\ forall a b, In a g -> In b g -> e_name a = e_name b) gs /\
  (forall pre g1 g2 post a b, gs = pre ++ g1 :: g2 :: post -> In a g1 -> In b g2 -> e_name a <> e_name b).

(** [e] is the first element of [g] with the greatest version. *)
Definition first_greatest (newer : element -> element -> Prop) (g : list element) (e : element) : Prop :=
  exists pre post, g = pre ++ e :: post /\ (forall x, In x pre -> newer e x) /\ (forall x, In x post -> ~ newer x e).

(** [a] is a subsequence of [b]. *)
Inductive subseq {A} : list A -> list A -> Prop :=
| sub_nil : subseq [] []
| sub_skip x a b : subseq a b -> subseq a (x :: b)
| sub_keep x a b : subseq a b -> subseq (x :: a) (x :: b).

(** [r] is an interleaving of [a] and [b]. *)
Inductive interleave {A} : list A -> list A -> list A -> Prop :=
| il_nil : interleave [] [] []
| il_left x a b r : interleave a b r -> interleave (x :: a) b (x :: r)
| il_right x a b r : interleave a b r -> interleave a (x :: b) (x :: r).
