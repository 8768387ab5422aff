(** * C01, C02, C03: version numbers *)

From Verif Require Import Base.TextFacts Model.Version Spec.VersionSpec Proofs.VersionProofs.

(** C01: [<], [<=], [>], [>=] compare the numeric components lexicographically. *)
Theorem C01_order a b x y :
  v_t a = VNum x -> v_t b = VNum y ->
  exists lt le gt ge,
    v_lt a b = Ok lt /\ v_le a b = Ok le /\ v_gt a b = Ok gt /\ v_ge a b = Ok ge /\
    (lt = true <-> comps_before x y) /\
    (le = true <-> comps_before x y \/ x = y) /\
    (gt = true <-> comps_before y x) /\
    (ge = true <-> comps_before y x \/ x = y).
Proof. exact (v_cmp_spec a b x y). Qed.
Print Assumptions C01_order.
Example C01_order_ex :
  exists a b, patch_version (ArgStr (lit "9.10")) = Ok a /\ patch_version (ArgStr (lit "9.9")) = Ok b /\
              v_t a = VNum [9; 10]%Z /\ v_t b = VNum [9; 9]%Z /\ v_lt b a = Ok true.
Proof. do 2 eexists. repeat split. Qed.

(** C01: this is a strict total order. *)
Theorem C01_strict_total :
  (forall x, ~ comps_before x x) /\
  (forall x y z, comps_before x y -> comps_before y z -> comps_before x z) /\
  (forall x y, comps_before x y \/ x = y \/ comps_before y x) /\
  (forall x y, comps_before x y -> ~ comps_before y x).
Proof. exact comps_before_strict_total. Qed.
Print Assumptions C01_strict_total.

(** C01: equality and hash agree with the components for canonical spellings. *)
Theorem C01_eq_canonical a b x y :
  v_t a = VNum x -> v_t b = VNum y -> dotted_spell x (v_s a) -> dotted_spell y (v_s b) ->
  (v_eq a b = true <-> x = y) /\ (forall h, v_eq a b = true -> v_hash h a = v_hash h b) /\
  (v_eq_str a (v_s b) = true <-> x = y) /\ (v_eq_tuple a y = true <-> x = y).
Proof. exact (v_eq_canonical a b x y). Qed.
Print Assumptions C01_eq_canonical.
Example C01_eq_canonical_ex :
  exists a, patch_version (ArgStr (lit "9.10.3")) = Ok a /\ v_t a = VNum [9; 10]%Z /\ dotted_spell [9; 10]%Z (v_s a).
Proof. eexists. split; [reflexivity|]. split; [reflexivity|]. apply dotted_spell_dotted. split; [discriminate | reflexivity]. Qed.

(** C01: versions built from tuples, or from canonical strings, are canonical. *)
Theorem C01_built_canonical :
  (forall t p, patch_version (ArgTuple t) = Ok p -> exists x, v_t p = VNum x /\ dotted_spell x (v_s p)) /\
  (forall t p, rads_version (ArgTuple t) = Ok p -> exists x, v_t p = VNum x /\ dotted_spell x (v_s p)) /\
  (forall t p, dotted_spell t p -> forall v, patch_version (ArgStr p) = Ok v -> exists x, v_t v = VNum x /\ dotted_spell x (v_s v)) /\
  (forall t p, dotted_spell t p -> forall v, rads_version (ArgStr p) = Ok v -> exists x, v_t v = VNum x /\ dotted_spell x (v_s v)).
Proof. exact built_canonical. Qed.
Print Assumptions C01_built_canonical.

(** C01: without the canonical spelling, [==] disagrees with the order: "9.01" and "9.1" are
    neither equal nor ordered, while both [<=] and [>=] hold. *)
Theorem C01_eq_any_spelling_refuted :
  exists s1 s2 a b, patch_version (ArgStr s1) = Ok a /\ patch_version (ArgStr s2) = Ok b /\
    v_eq a b = false /\ v_lt a b = Ok false /\ v_gt a b = Ok false /\ v_le a b = Ok true /\ v_ge a b = Ok true.
Proof. exists (lit "9.01"), (lit "9.1"). do 2 eexists. repeat split. Qed.
Print Assumptions C01_eq_any_spelling_refuted.

(** C01: 'main' equals only itself and cannot be ordered against a numeric version. *)
Theorem C01_main v p m :
  patch_version (ArgStr (lit "main")) = Ok m -> patch_version v = Ok p ->
  (v_eq m p = true <-> v = ArgStr (lit "main")) /\
  (v_eq p m = true <-> v = ArgStr (lit "main")) /\
  (v <> ArgStr (lit "main") ->
     v_lt m p = Err TypeError /\ v_lt p m = Err TypeError /\ v_le m p = Err TypeError /\ v_le p m = Err TypeError /\
     v_gt m p = Err TypeError /\ v_gt p m = Err TypeError /\ v_ge m p = Err TypeError /\ v_ge p m = Err TypeError) /\
  v_lt m m = Ok false /\ v_le m m = Ok true /\ v_gt m m = Ok false /\ v_ge m m = Ok true.
Proof. exact (v_main v p m). Qed.
Print Assumptions C01_main.
Example C01_main_ex : exists m p, patch_version (ArgStr (lit "main")) = Ok m /\ patch_version (ArgTuple [9; 1]%Z) = Ok p.
Proof. do 2 eexists. split; reflexivity. Qed.

(** C02: tuple -> text -> tuple. *)
Theorem C02_roundtrip t :
  t <> [] ->
  exists s, base_version (ArgTuple t) = Ok (s, t) /\ dotted_spell t s /\ base_version (ArgStr s) = Ok (s, t).
Proof. exact (version_roundtrip t). Qed.
Print Assumptions C02_roundtrip.
Example C02_roundtrip_ex : base_version (ArgTuple [10; -3; 0]%Z) = Ok (lit "10.-3.0", [10; -3; 0]%Z).
Proof. reflexivity. Qed.

(** C02: patch versions keep exactly the first two numbers. *)
Theorem C02_patch_truncates a b rest s :
  dotted_spell (a :: b :: rest) s ->
  exists v, patch_version (ArgStr s) = Ok v /\ patch_version (ArgTuple (a :: b :: rest)) = Ok v /\
            v_t v = VNum [a; b] /\ dotted_spell [a; b] (v_s v) /\ patch_version (ArgStr (v_s v)) = Ok v.
Proof. exact (patch_roundtrip a b rest s). Qed.
Print Assumptions C02_patch_truncates.
Example C02_patch_truncates_ex : dotted_spell [8; 23; 2]%Z (lit "8.23.2").
Proof. apply dotted_spell_dotted. split; [discriminate | reflexivity]. Qed.

(** C02: for any accepted string, in any spelling. *)
Theorem C02_patch_any_string s p :
  patch_version (ArgStr s) = Ok p -> s <> lit "main" ->
  exists x y rest a b, split_ch cDot s = x :: y :: rest /\ int10 x = Ok a /\ int10 y = Ok b /\
    Forall (fun z => exists n, int10 z = Ok n) rest /\ v_t p = VNum [a; b].
Proof. exact (patch_version_str s p). Qed.
Print Assumptions C02_patch_any_string.
Example C02_patch_any_string_ex : exists p, patch_version (ArgStr (lit "09.1_0. 7")) = Ok p /\ lit "09.1_0. 7" <> lit "main".
Proof. eexists. split; [reflexivity | discriminate]. Qed.

(** C02: rejections. *)
Theorem C02_patch_rejects_nonnumeric s x :
  s <> lit "main" -> In x (split_ch cDot s) -> int10 x = Err ValueError ->
  patch_version (ArgStr s) = Err ValueError.
Proof. exact (patch_version_reject s x). Qed.
Print Assumptions C02_patch_rejects_nonnumeric.
Example C02_patch_rejects_nonnumeric_ex : In [] (split_ch cDot (lit "9.1.")) /\ int10 [] = Err ValueError.
Proof. split; [right; right; left; reflexivity | reflexivity]. Qed.
Theorem C02_patch_rejects_short :
  patch_version (ArgStr []) = Err ValueError /\ patch_version (ArgTuple []) = Err ValueError /\
  (forall z, patch_version (ArgTuple [z]) = Err AssertionError) /\
  (forall s z, int10 s = Ok z -> ~ In cDot s -> patch_version (ArgStr s) = Err AssertionError).
Proof. exact patch_version_reject_short. Qed.
Print Assumptions C02_patch_rejects_short.
Theorem C02_rads_four_numbers v p : rads_version v = Ok p -> exists a b c d, v_t p = VNum [a; b; c; d].
Proof. exact (rads_version_len v p). Qed.
Print Assumptions C02_rads_four_numbers.
Example C02_rads_ex : exists p, rads_version (ArgStr (lit "0.0.1.30")) = Ok p.
Proof. eexists. reflexivity. Qed.

(** C03: [as_int] is an order embedding for patch numbers below 100. *)
Theorem C03_as_int_order a b x0 x1 y0 y1 :
  v_t a = VNum [x0; x1] -> v_t b = VNum [y0; y1] ->
  (0 <= x1 < 100)%Z -> (0 <= y1 < 100)%Z ->
  exists i j, as_int a = Ok i /\ as_int b = Ok j /\
    ((i < j)%Z <-> comps_before [x0; x1] [y0; y1]) /\ (i = j <-> [x0; x1] = [y0; y1]).
Proof. exact (as_int_mono a b x0 x1 y0 y1). Qed.
Print Assumptions C03_as_int_order.
Example C03_as_int_order_ex :
  exists a b, patch_version (ArgStr (lit "9.24")) = Ok a /\ patch_version (ArgStr (lit "10.1")) = Ok b /\
    as_int a = Ok 924%Z /\ as_int b = Ok 1001%Z.
Proof. do 2 eexists. repeat split. Qed.

(** C03: comparing [as_int] with a threshold season*100+minor selects the versions from that patch on. *)
Theorem C03_threshold v i season minor :
  (exists x0 x1, v_t v = VNum [x0; x1] /\ (0 <= x1 < 100)%Z) -> (0 <= minor < 100)%Z ->
  as_int v = Ok i ->
  forall x, v_t v = VNum x ->
  ((season * 100 + minor <= i)%Z <-> comps_before [season; minor] x \/ [season; minor] = x).
Proof. exact (as_int_threshold v i season minor). Qed.
Print Assumptions C03_threshold.

(** C03: 'main' is above every version of season at most 98. *)
Theorem C03_main m v i :
  v_t m = VMain -> (exists x0 x1, v_t v = VNum [x0; x1] /\ (0 <= x1 < 100)%Z /\ (x0 <= 98)%Z) ->
  as_int v = Ok i -> exists j, as_int m = Ok j /\ (i < j)%Z.
Proof. exact (as_int_main m v i). Qed.
Print Assumptions C03_main.

(** C03: without the bound on the patch number the order is not preserved. *)
Theorem C03_as_int_unbounded_refuted :
  exists a b, patch_version (ArgStr (lit "9.100")) = Ok a /\ patch_version (ArgStr (lit "10.0")) = Ok b /\
    v_lt a b = Ok true /\ as_int a = as_int b.
Proof. do 2 eexists. repeat split. Qed.
Print Assumptions C03_as_int_unbounded_refuted.
