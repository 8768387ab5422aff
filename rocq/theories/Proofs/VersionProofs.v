(** * Proofs about version numbers *)

From Verif Require Import Base.TextFacts Model.Version Spec.VersionSpec.
Ltac Zify.zify_post_hook ::= Z.div_mod_to_equations.

(** ** Order *)

Lemma tuple_lt_irrefl x : tuple_lt x x = false.
Proof. apply lex_irrefl. apply Z.eqb_eq. Qed.
Lemma tuple_lt_trans x y z : tuple_lt x y = true -> tuple_lt y z = true -> tuple_lt x z = true.
Proof. apply lex_trans; [apply Z.eqb_eq | lia | lia]. Qed.
Lemma tuple_lt_total x y : tuple_lt x y = true \/ x = y \/ tuple_lt y x = true.
Proof. apply lex_total; [apply Z.eqb_eq | lia]. Qed.
Lemma tuple_lt_asym x y : tuple_lt x y = true -> tuple_lt y x = false.
Proof.
  intros E. destruct (tuple_lt y x) eqn:E'; [|reflexivity].
  pose proof (tuple_lt_trans _ _ _ E E') as E2. rewrite tuple_lt_irrefl in E2. discriminate.
Qed.
Lemma tuple_lt_ntrans x y z : tuple_lt x y = false -> tuple_lt y z = false -> tuple_lt x z = false.
Proof.
  intros E1 E2. destruct (tuple_lt x z) eqn:E; [|reflexivity].
  destruct (tuple_lt_total y z) as [E3|[->|E3]]; [congruence | congruence |].
  pose proof (tuple_lt_trans _ _ _ E E3). congruence.
Qed.

Lemma tuple_lt_before x y : tuple_lt x y = true <-> comps_before x y.
Proof.
  unfold tuple_lt. split.
  - revert y. induction x as [|a x IH]; intros [|b y]; cbn [lex_lt]; try discriminate.
    + intros _. apply (before_ext []).
    + destruct (Z.eqb_spec a b) as [->|Hab].
      * intros E. destruct (IH y E) as [x' y0 y' | p a' b' x' y' Hlt].
        -- apply (before_ext (b :: x')).
        -- apply (before_diff (b :: p)). assumption.
      * intros E. apply (before_diff []). lia.
  - intros [x' y0 y' | p a b x' y' Hlt].
    + induction x' as [|a x' IH]; cbn [lex_lt app]; [reflexivity|]. rewrite Z.eqb_refl. exact IH.
    + induction p as [|c p IH]; cbn [lex_lt app].
      * destruct (Z.eqb_spec a b); lia.
      * rewrite Z.eqb_refl. exact IH.
Qed.

Lemma v_cmp_spec a b x y :
  v_t a = VNum x -> v_t b = VNum y ->
  exists lt le gt ge,
    v_lt a b = Ok lt /\ v_le a b = Ok le /\ v_gt a b = Ok gt /\ v_ge a b = Ok ge /\
    (lt = true <-> comps_before x y) /\
    (le = true <-> comps_before x y \/ x = y) /\
    (gt = true <-> comps_before y x) /\
    (ge = true <-> comps_before y x \/ x = y).
Proof.
  intros Ea Eb. unfold v_lt, v_le, v_gt, v_ge. rewrite Ea, Eb.
  do 4 eexists. do 4 (split; [reflexivity|]).
  rewrite <- !tuple_lt_before. rewrite !negb_true_iff.
  repeat split; try tauto.
  - intros E. destruct (tuple_lt_total x y) as [?|[?|?]]; auto. congruence.
  - intros [E| ->]; [apply tuple_lt_asym; assumption | apply tuple_lt_irrefl].
  - intros E. destruct (tuple_lt_total x y) as [?|[?|?]]; auto. congruence.
  - intros [E| ->]; [apply tuple_lt_asym; assumption | apply tuple_lt_irrefl].
Qed.

Lemma comps_before_strict_total :
  (forall x, ~ comps_before x x) /\
  (forall x y z, comps_before x y -> comps_before y z -> comps_before x z) /\
  (forall x y, comps_before x y \/ x = y \/ comps_before y x) /\
  (forall x y, comps_before x y -> ~ comps_before y x).
Proof.
  repeat split.
  - intros x E. apply tuple_lt_before in E. rewrite tuple_lt_irrefl in E. discriminate.
  - intros x y z. rewrite <- !tuple_lt_before. apply tuple_lt_trans.
  - intros x y. rewrite <- !tuple_lt_before. apply tuple_lt_total.
  - intros x y. rewrite <- !tuple_lt_before. intros E E'. apply tuple_lt_asym in E. congruence.
Qed.

(** ** Spelling *)

Lemma digits_spell_digit z s : digits_spell z s ->
  exists ds, s = map digit_lower ds /\ Forall (fun d => d < 10) ds /\ ds <> [] /\
             z = Z.of_N (undigits 10 ds) /\
             match ds with d :: _ :: _ => d <> 0 | _ => True end /\
             ((1 <= z)%Z -> match ds with d :: _ => d <> 0 | _ => True end).
Proof.
  induction 1 as [| d Hd | z s d Hs IH Hz Hd].
  - exists [0]. unfold undigits. cbn. repeat split; try (repeat constructor; lia); try discriminate; lia.
  - exists [d]. unfold undigits. cbn [fold_left map]. repeat split; try (repeat constructor; lia); try discriminate; try lia.
    unfold digit_lower. destruct (N.ltb_spec d 10); [reflexivity|lia].
  - destruct IH as (ds & -> & HF & Hne & Ez & Hl & Hl1). exists (ds ++ [d]). repeat split.
    + rewrite map_app. cbn [map]. do 2 f_equal. unfold digit_lower. destruct (N.ltb_spec d 10); [reflexivity|lia].
    + apply Forall_app. split; [assumption | repeat constructor; lia].
    + destruct ds; discriminate.
    + rewrite undigits_snoc. lia.
    + destruct ds as [|e [|e' ds']]; cbn [app]; [congruence | auto | exact Hl].
    + intros _. destruct ds as [|e ds']; cbn [app]; [congruence | auto].
Qed.

Lemma digits_unique ds1 ds2 :
  Forall (fun d => d < 10) ds1 -> Forall (fun d => d < 10) ds2 ->
  undigits 10 ds1 = undigits 10 ds2 -> lenN ds1 = lenN ds2 -> ds1 = ds2.
Proof.
  revert ds2. induction ds1 as [|d1 t1 IH] using rev_ind; intros ds2 H1 H2 E El.
  - symmetry. apply lenN_0. rewrite <- El. reflexivity.
  - destruct ds2 as [|d2 t2 _] using rev_ind; [rewrite lenN_app, lenN_cons, lenN_nil in El; lia|].
    rewrite !undigits_snoc in E. apply Forall_app in H1 as [H1 Hd1]. apply Forall_app in H2 as [H2 Hd2].
    inversion Hd1; inversion Hd2; subst. rewrite !lenN_app, !lenN_cons in El.
    assert (undigits 10 t1 = undigits 10 t2) by lia. assert (d1 = d2) by lia. subst. f_equal.
    apply IH; auto. lia.
Qed.

Lemma digits_canonical ds :
  Forall (fun d => d < 10) ds -> ds <> [] -> match ds with d :: _ :: _ => d <> 0 | _ => True end ->
  ds = digits 10 (undigits 10 ds).
Proof.
  intros HF Hne Hl. destruct (digits_spec 10 (undigits 10 ds) ltac:(lia)) as (Hu & HF' & Hne' & Hl').
  symmetry. apply digits_unique; auto.
  set (n := undigits 10 ds) in *.
  assert (Hlen : forall l, Forall (fun d => d < 10) l -> l <> [] -> match l with d :: _ :: _ => d <> 0 | _ => True end ->
            undigits 10 l = n -> lenN l <= 1 /\ n < 10 \/ 10 ^ (lenN l - 1) <= n < 10 ^ lenN l /\ 1 < lenN l).
  { intros l HFl Hnel Hll El. pose proof (undigits_bound 10 l ltac:(lia) HFl) as Hb.
    destruct l as [|d [|d' t]]; [congruence | |].
    - left. inversion HFl; subst. rewrite lenN_cons, lenN_nil. unfold undigits in El. cbn [fold_left] in El. lia.
    - right. rewrite El in Hb. split; [|rewrite !lenN_cons; lia]. split; [|assumption].
      rewrite undigits_cons in El. rewrite (lenN_cons d). replace (N.succ (lenN (d' :: t)) - 1) with (lenN (d' :: t)) by lia. nia. }
  pose proof (Hlen _ HF Hne Hl eq_refl) as Ha. pose proof (Hlen _ HF' Hne' Hl' Hu) as Hb.
  assert (Hpos : forall l : list N, l <> [] -> 1 <= lenN l).
  { intros l Hn. destruct l; [congruence|]. rewrite lenN_cons. lia. }
  pose proof (Hpos _ Hne). pose proof (Hpos _ Hne').
  set (a := lenN ds) in *. set (b := lenN (digits 10 n)) in *.
  assert (Hmono : forall i j, i < j -> 10 ^ i <= 10 ^ (j - 1)).
  { intros i j Hij. apply N.pow_le_mono_r; lia. }
  assert (H10 : forall i, 1 < i -> 10 <= 10 ^ (i - 1)).
  { intros i Hi. change 10 with (10 ^ 1) at 1. apply N.pow_le_mono_r; lia. }
  destruct Ha as [[Ha1 Ha2]|[Ha1 Ha2]], Hb as [[Hb1 Hb2]|[Hb1 Hb2]].
  - lia.
  - specialize (H10 b Hb2). lia.
  - specialize (H10 a Ha2). lia.
  - destruct (N.lt_trichotomy a b) as [Hc|[Hc|Hc]]; [|lia|].
    + specialize (Hmono a b Hc). lia.
    + specialize (Hmono b a Hc). lia.
Qed.

Lemma dec_spell n : digits_spell (Z.of_N n) (dec n).
Proof.
  unfold dec. destruct (digits_spec 10 n ltac:(lia)) as (Hu & HF & Hne & Hl).
  rewrite <- Hu at 1. generalize dependent (digits 10 n). intros ds Hu HF Hne Hl. clear Hu n.
  induction ds as [|d t IH] using rev_ind; [congruence|].
  apply Forall_app in HF as [HF Hd]. inversion Hd as [|? ? Hd' _]; subst.
  assert (Ed : digit_lower d = 48 + d) by (unfold digit_lower; destruct (N.ltb_spec d 10); lia).
  destruct t as [|d0 t0].
  - cbn [app map]. rewrite Ed. unfold undigits. cbn [fold_left]. replace (0 * 10 + d) with d by lia.
    destruct (N.eq_dec d 0) as [->|Hd0]; [apply spell_zero | apply spell_start; lia].
  - rewrite undigits_snoc, map_app. cbn [map]. rewrite Ed.
    replace (Z.of_N (undigits 10 (d0 :: t0) * 10 + d)) with (10 * Z.of_N (undigits 10 (d0 :: t0)) + Z.of_N d)%Z by lia.
    assert (Hd0 : d0 <> 0) by (destruct t0; exact Hl).
    constructor; [|rewrite undigits_cons; pose proof (N.pow_nonzero 10 (lenN t0)); nia|lia].
    apply IH; [assumption | discriminate | destruct t0; auto].
Qed.

Lemma int_spell_decZ z s : int_spell z s <-> s = decZ z.
Proof.
  split.
  - intros [z' s' Hs | z' s' Hs Hz].
    + destruct (digits_spell_digit _ _ Hs) as (ds & -> & HF & Hne & Ez & Hl & _).
      rewrite (digits_canonical ds HF Hne Hl) at 1. subst z'. 
      destruct (undigits 10 ds); reflexivity.
    + destruct (digits_spell_digit _ _ Hs) as (ds & -> & HF & Hne & Ez & Hl & _).
      rewrite (digits_canonical ds HF Hne Hl) at 1. subst z'.
      destruct (undigits 10 ds) as [|p]; [lia|]. reflexivity.
  - intros ->. destruct z as [|p|p].
    + apply spell_pos, spell_zero.
    + apply spell_pos. exact (dec_spell (Npos p)).
    + apply (spell_neg (Z.pos p)); [exact (dec_spell (Npos p)) | lia].
Qed.

Lemma dotted_spell_dotted t s : dotted_spell t s <-> t <> [] /\ s = dotted t.
Proof.
  split.
  - induction 1 as [z s Hz | z zs s ss Hz Hzs [Hne IH]].
    + split; [discriminate|]. apply int_spell_decZ in Hz. subst. reflexivity.
    + split; [discriminate|]. apply int_spell_decZ in Hz. subst.
      destruct zs as [|z' zs]; [congruence|]. reflexivity.
  - intros [Hne ->]. induction t as [|z t IH]; [congruence|]. destruct t as [|z' t'].
    + apply dotted_one, int_spell_decZ. reflexivity.
    + change (dotted (z :: z' :: t')) with (decZ z ++ 46 :: dotted (z' :: t')).
      apply dotted_cons; [apply int_spell_decZ; reflexivity | apply IH; discriminate].
Qed.

(** ** Construction *)

Lemma rmapM_int10_decZ t : rmapM int10 (map decZ t) = Ok t.
Proof. induction t as [|z t IH]; cbn [map rmapM]; [reflexivity|]. rewrite int10_decZ. cbn [rbind]. rewrite IH. reflexivity. Qed.
Lemma split_dotted t : t <> [] -> split_ch cDot (dotted t) = map decZ t.
Proof.
  intros Ht. unfold dotted. apply split_join.
  - destruct t; [congruence | discriminate].
  - apply Forall_map, Forall_forall. intros z _. apply decZ_not_in; [reflexivity | discriminate].
Qed.
Lemma dotted_nonempty t : t <> [] -> dotted t <> [].
Proof.
  intros Ht E. apply (f_equal (split_ch cDot)) in E. rewrite split_dotted in E by assumption.
  cbn [split_ch] in E. destruct t as [|z t]; [congruence|]. cbn [map] in E. injection E as E _.
  pose proof (decZ_nonempty z). congruence.
Qed.
Lemma base_version_dotted t : t <> [] -> base_version (ArgStr (dotted t)) = Ok (dotted t, t).
Proof.
  intros Ht. unfold base_version. pose proof (dotted_nonempty t Ht) as Hd.
  destruct (dotted t) as [|c s] eqn:E; [congruence|]. rewrite <- E.
  rewrite split_dotted, rmapM_int10_decZ by assumption. reflexivity.
Qed.
Lemma base_version_tuple t : t <> [] -> base_version (ArgTuple t) = Ok (dotted t, t).
Proof. destruct t; [congruence | reflexivity]. Qed.

Lemma dotted_inj t1 t2 : t1 <> [] -> t2 <> [] -> dotted t1 = dotted t2 -> t1 = t2.
Proof.
  intros H1 H2 E. pose proof (base_version_dotted t1 H1) as E1. rewrite E, base_version_dotted in E1 by assumption. congruence.
Qed.
Lemma dotted_not_main t : t <> [] -> dotted t <> lit "main".
Proof.
  intros Ht E. pose proof (base_version_dotted t Ht) as E1. rewrite E in E1. discriminate E1.
Qed.

Lemma patch_version_Ok v p :
  patch_version v = Ok p ->
  (v = ArgStr (lit "main") /\ p = {| v_s := lit "main"; v_t := VMain |}) \/
  exists s a b rest, base_version v = Ok (s, a :: b :: rest) /\
    p = {| v_s := match rest with [] => s | _ => dotted [a; b] end; v_t := VNum [a; b] |}.
Proof.
  assert (Hgen : (let! (s, t) := base_version v in
      let '(s, t) := if 2 <? lenN t then (dotted (takeN 2 t), takeN 2 t) else (s, t) in
      if lenN t =? 2 then Ok {| v_s := s; v_t := VNum t |} else Err AssertionError) = Ok p ->
    exists s a b rest, base_version v = Ok (s, a :: b :: rest) /\
    p = {| v_s := match rest with [] => s | _ => dotted [a; b] end; v_t := VNum [a; b] |}).
  { intros E. apply rbind_Ok in E as ([s t] & Eb & E). rewrite Eb.
    destruct t as [|a [|b [|c rest]]]; try discriminate E.
    - injection E as <-. exists s, a, b, []. split; reflexivity.
    - rewrite !lenN_cons in E. replace (2 <? N.succ (N.succ (N.succ (lenN rest)))) with true in E by lia.
      change (takeN 2 (a :: b :: c :: rest)) with [a; b] in E.
      change (lenN [a; b] =? 2) with true in E. injection E as <-. exists s, a, b, (c :: rest). split; reflexivity. }
  destruct v as [s|t]; [|right; apply Hgen; assumption]. cbn [patch_version].
  destruct (eqbP s (lit "main")) as [->|Hm].
  - intros E. injection E as <-. left. split; reflexivity.
  - right. apply Hgen. assumption.
Qed.

Lemma base_version_str_Ok s s' t :
  base_version (ArgStr s) = Ok (s', t) <-> s' = s /\ s <> [] /\ Forall2 (fun x z => int10 x = Ok z) (split_ch cDot s) t.
Proof.
  unfold base_version. destruct s as [|c s].
  - split; [discriminate | intros (_ & H & _); congruence].
  - split.
    + intros E. apply rbind_Ok in E as (t' & Et & E). injection E as <- <-. apply rmapM_Ok in Et.
      repeat split; [discriminate | assumption].
    + intros (-> & _ & HF). apply rmapM_Ok in HF. rewrite HF. reflexivity.
Qed.

(** ** Truncation to two numbers *)

Lemma patch_version_trunc a b rest :
  patch_version (ArgStr (dotted (a :: b :: rest))) = Ok {| v_s := dotted [a; b]; v_t := VNum [a; b] |} /\
  patch_version (ArgTuple (a :: b :: rest)) = Ok {| v_s := dotted [a; b]; v_t := VNum [a; b] |}.
Proof.
  unfold patch_version. destruct (eqbP (dotted (a :: b :: rest)) (lit "main")) as [E|_].
  { apply dotted_not_main in E; [contradiction | discriminate]. }
  rewrite base_version_dotted, base_version_tuple by discriminate. cbn [rbind].
  destruct rest as [|c rest]; [split; reflexivity|].
  rewrite !lenN_cons. replace (2 <? _) with true by lia. split; reflexivity.
Qed.

(** ** as_int *)

Lemma as_int_mono a b x0 x1 y0 y1 :
  v_t a = VNum [x0; x1] -> v_t b = VNum [y0; y1] ->
  (0 <= x1 < 100)%Z -> (0 <= y1 < 100)%Z ->
  exists i j, as_int a = Ok i /\ as_int b = Ok j /\
    ((i < j)%Z <-> comps_before [x0; x1] [y0; y1]) /\ (i = j <-> [x0; x1] = [y0; y1]).
Proof.
  intros Ea Eb Hx Hy. unfold as_int. rewrite Ea, Eb. do 2 eexists. do 2 (split; [reflexivity|]).
  rewrite <- tuple_lt_before. unfold tuple_lt. cbn [lex_lt].
  destruct (Z.eqb_spec x0 y0) as [->|H0]; [destruct (Z.eqb_spec x1 y1) as [->|H1]|].
  - split; split; intros; try lia; try reflexivity; discriminate.
  - split; split; intros E; try lia. congruence.
  - split; split; intros E; try lia. injection E. lia.
Qed.

(** ** Equality *)

Lemma v_eq_canonical a b x y :
  v_t a = VNum x -> v_t b = VNum y -> dotted_spell x (v_s a) -> dotted_spell y (v_s b) ->
  (v_eq a b = true <-> x = y) /\ (forall h, v_eq a b = true -> v_hash h a = v_hash h b) /\
  (v_eq_str a (v_s b) = true <-> x = y) /\ (v_eq_tuple a y = true <-> x = y).
Proof.
  intros Ea Eb Ha Hb. apply dotted_spell_dotted in Ha as [Hx Ha]. apply dotted_spell_dotted in Hb as [Hy Hb].
  unfold v_eq, v_eq_str, v_eq_tuple, v_hash. rewrite Ea, Ha, Hb, !eqbT.
  assert (E : dotted x = dotted y <-> x = y).
  { split; [apply dotted_inj; assumption | congruence]. }
  split; [exact E|]. split; [|split; [exact E | apply eqbT]]. intros h Eh.
  first [rewrite eqbT in Eh | idtac]. rewrite Eh. reflexivity.
Qed.

Lemma v_main v p m :
  patch_version (ArgStr (lit "main")) = Ok m -> patch_version v = Ok p ->
  (v_eq m p = true <-> v = ArgStr (lit "main")) /\
  (v_eq p m = true <-> v = ArgStr (lit "main")) /\
  (v <> ArgStr (lit "main") ->
     v_lt m p = Err TypeError /\ v_lt p m = Err TypeError /\ v_le m p = Err TypeError /\ v_le p m = Err TypeError /\
     v_gt m p = Err TypeError /\ v_gt p m = Err TypeError /\ v_ge m p = Err TypeError /\ v_ge p m = Err TypeError) /\
  v_lt m m = Ok false /\ v_le m m = Ok true /\ v_gt m m = Ok false /\ v_ge m m = Ok true.
Proof.
  intros Em Ep. injection Em as <-. apply patch_version_Ok in Ep as [[-> ->]|(s & a & b & rest & Eb & ->)].
  - do 2 (split; [split; intros _; reflexivity|]). split; [intros Hc; exfalso; apply Hc; reflexivity|]. repeat split.
  - assert (Hv : v <> ArgStr (lit "main")).
    { intros ->. discriminate Eb. }
    assert (Hs : match rest with [] => s | _ :: _ => dotted [a; b] end <> lit "main").
    { destruct rest; [|apply dotted_not_main; discriminate].
      destruct v as [s'|t].
      - apply base_version_str_Ok in Eb as (-> & _ & _). congruence.
      - destruct t; [discriminate|]. rewrite base_version_tuple in Eb by discriminate. injection Eb as <- _.
        apply dotted_not_main. discriminate. }
    unfold v_eq. cbn [v_s]. rewrite !eqbT. 
    split; [split; intros E; congruence|]. split; [split; intros E; congruence|].
    repeat split.
Qed.

Lemma built_canonical :
  (forall t p, patch_version (ArgTuple t) = Ok p -> exists x, v_t p = VNum x /\ dotted_spell x (v_s p)) /\
  (forall t p, rads_version (ArgTuple t) = Ok p -> exists x, v_t p = VNum x /\ dotted_spell x (v_s p)) /\
  (forall t p, dotted_spell t p -> forall v, patch_version (ArgStr p) = Ok v -> exists x, v_t v = VNum x /\ dotted_spell x (v_s v)) /\
  (forall t p, dotted_spell t p -> forall v, rads_version (ArgStr p) = Ok v -> exists x, v_t v = VNum x /\ dotted_spell x (v_s v)).
Proof.
  assert (Hp : forall v s t p, base_version v = Ok (s, t) -> t <> [] -> s = dotted t -> v <> ArgStr (lit "main") ->
             patch_version v = Ok p -> exists x, v_t p = VNum x /\ dotted_spell x (v_s p)).
  { intros v s t p Eb Ht Es Hv Ep. apply patch_version_Ok in Ep as [[-> _]|(s' & a & b & rest & Eb' & ->)]; [congruence|].
    rewrite Eb in Eb'. injection Eb' as -> ->. exists [a; b]. split; [reflexivity|]. cbn [v_s].
    apply dotted_spell_dotted. split; [discriminate|]. destruct rest; congruence. }
  assert (Hr : forall v s t p, base_version v = Ok (s, t) -> t <> [] -> s = dotted t ->
             rads_version v = Ok p -> exists x, v_t p = VNum x /\ dotted_spell x (v_s p)).
  { intros v s t p Eb Ht Es Ep. unfold rads_version in Ep. rewrite Eb in Ep. cbn [rbind] in Ep.
    destruct (lenN t =? 4); [|discriminate]. injection Ep as <-. exists t. split; [reflexivity|].
    apply dotted_spell_dotted. split; assumption. }
  split; [|split; [|split]].
  - intros t p Ep. destruct t as [|z t]; [discriminate|].
    eapply Hp; [apply (base_version_tuple (z :: t)); discriminate | discriminate | reflexivity | discriminate | eassumption].
  - intros t p Ep. destruct t as [|z t]; [discriminate|].
    eapply Hr; [apply (base_version_tuple (z :: t)); discriminate | discriminate | reflexivity | eassumption].
  - intros t p Hd v Ep. apply dotted_spell_dotted in Hd as [Ht ->].
    eapply Hp; [apply (base_version_dotted t); assumption | assumption | reflexivity | | eassumption].
    intros E. injection E as E. exact (dotted_not_main t Ht E).
  - intros t p Hd v Ep. apply dotted_spell_dotted in Hd as [Ht ->].
    eapply Hr; [apply (base_version_dotted t); assumption | assumption | reflexivity | eassumption].
Qed.

(** ** Round trips *)

Lemma version_roundtrip t :
  t <> [] ->
  exists s, base_version (ArgTuple t) = Ok (s, t) /\ dotted_spell t s /\ base_version (ArgStr s) = Ok (s, t).
Proof.
  intros Ht. exists (dotted t). split; [apply base_version_tuple; assumption|].
  split; [apply dotted_spell_dotted; split; [assumption | reflexivity] | apply base_version_dotted; assumption].
Qed.

Lemma patch_roundtrip a b rest s :
  dotted_spell (a :: b :: rest) s ->
  exists v, patch_version (ArgStr s) = Ok v /\ patch_version (ArgTuple (a :: b :: rest)) = Ok v /\
            v_t v = VNum [a; b] /\ dotted_spell [a; b] (v_s v) /\ patch_version (ArgStr (v_s v)) = Ok v.
Proof.
  intros Hs. apply dotted_spell_dotted in Hs as [_ ->].
  destruct (patch_version_trunc a b rest) as [E1 E2]. eexists. split; [exact E1|]. split; [exact E2|].
  split; [reflexivity|]. cbn [v_s]. split; [apply dotted_spell_dotted; split; [discriminate | reflexivity]|].
  apply (patch_version_trunc a b []).
Qed.

(** Any accepted string: the numbers are [int()] of the first two dot-separated pieces. *)
Lemma patch_version_str s p :
  patch_version (ArgStr s) = Ok p -> s <> lit "main" ->
  exists x y rest a b, split_ch cDot s = x :: y :: rest /\ int10 x = Ok a /\ int10 y = Ok b /\
    Forall (fun z => exists n, int10 z = Ok n) rest /\ v_t p = VNum [a; b].
Proof.
  intros Ep Hm. apply patch_version_Ok in Ep as [[E _]|(s' & a & b & rest & Eb & ->)]; [congruence|].
  apply base_version_str_Ok in Eb as (_ & _ & HF).
  inversion HF as [|x a' l1 l1' Hx HF1]; subst. inversion HF1 as [|y b' l2 l2' Hy HF2]; subst.
  exists x, y, l2, a, b. repeat split; try congruence.
  clear -HF2. induction HF2; constructor; eauto.
Qed.

Lemma base_version_reject s x :
  In x (split_ch cDot s) -> int10 x = Err ValueError -> base_version (ArgStr s) = Err ValueError.
Proof.
  intros Hx E. destruct s as [|c s]; [reflexivity|]. unfold base_version.
  assert (Hint : forall y e, int10 y = Err e -> e = ValueError).
  { intros y e. unfold int10, int_of. destruct (strip is_int_space y) as [|d t]; [intros Ey; congruence|].
    destruct (d =? cMinus); [|destruct (d =? cPlus)]; match goal with |- context [int_unsigned ?b ?s] => destruct (int_unsigned b s) end;
    cbn [option_map of_opt]; intros Ey; congruence. }
  replace (rmapM int10 (split_ch cDot (c :: s))) with (@Err (list Z) ValueError); [reflexivity|].
  symmetry. induction (split_ch cDot (c :: s)) as [|y t IH]; [contradiction|]. cbn [rmapM].
  destruct (int10 y) as [z|e] eqn:Ey; cbn [rbind].
  - destruct Hx as [->|Hx]; [congruence|]. rewrite (IH Hx). reflexivity.
  - apply Hint in Ey. subst. reflexivity.
Qed.
Lemma patch_version_reject s x :
  s <> lit "main" -> In x (split_ch cDot s) -> int10 x = Err ValueError ->
  patch_version (ArgStr s) = Err ValueError.
Proof.
  intros Hm Hx E. unfold patch_version. destruct (eqbP s (lit "main")); [contradiction|].
  rewrite (base_version_reject s x Hx E). reflexivity.
Qed.
Lemma patch_version_reject_short :
  patch_version (ArgStr []) = Err ValueError /\ patch_version (ArgTuple []) = Err ValueError /\
  (forall z, patch_version (ArgTuple [z]) = Err AssertionError) /\
  (forall s z, int10 s = Ok z -> ~ In cDot s -> patch_version (ArgStr s) = Err AssertionError).
Proof.
  repeat split. intros s z Es Hs. unfold patch_version.
  destruct (eqbP s (lit "main")) as [->|_]; [discriminate|].
  unfold base_version. destruct s as [|c s]; [discriminate|]. rewrite split_ch_none by assumption.
  cbn [rmapM]. rewrite Es. reflexivity.
Qed.
Lemma rads_version_len v p : rads_version v = Ok p -> exists a b c d, v_t p = VNum [a; b; c; d].
Proof.
  unfold rads_version. intros E. apply rbind_Ok in E as ([s t] & _ & E).
  destruct t as [|a [|b [|c [|d [|e t]]]]]; try discriminate E.
  - injection E as <-. exists a, b, c, d. reflexivity.
  - rewrite !lenN_cons in E. replace (_ =? 4) with false in E by lia. discriminate.
Qed.
(** ** Thresholds *)
Lemma as_int_threshold v i season minor :
  (exists x0 x1, v_t v = VNum [x0; x1] /\ (0 <= x1 < 100)%Z) -> (0 <= minor < 100)%Z ->
  as_int v = Ok i ->
  forall x, v_t v = VNum x ->
  ((season * 100 + minor <= i)%Z <-> comps_before [season; minor] x \/ [season; minor] = x).
Proof.
  intros (x0 & x1 & E & Hx) Hm Ei x Ex. assert (x = [x0; x1]) by congruence. subst x. unfold as_int in Ei. rewrite E in Ei. injection Ei as <-.
  rewrite <- tuple_lt_before. unfold tuple_lt. cbn [lex_lt].
  destruct (Z.eqb_spec season x0) as [->|H0]; [destruct (Z.eqb_spec minor x1) as [->|H1]|].
  - split; [auto | lia].
  - split; [left; lia | intros [E'|E']; [lia | injection E'; lia]].
  - split; [left; lia | intros [E'|E']; [lia | injection E'; lia]].
Qed.
Lemma as_int_main m v i :
  v_t m = VMain -> (exists x0 x1, v_t v = VNum [x0; x1] /\ (0 <= x1 < 100)%Z /\ (x0 <= 98)%Z) ->
  as_int v = Ok i -> exists j, as_int m = Ok j /\ (i < j)%Z.
Proof.
  intros Em (x0 & x1 & E & Hx & H0) Ei. unfold as_int in *. rewrite Em. rewrite E in Ei. injection Ei as <-.
  exists 9999%Z. split; [reflexivity | lia].
Qed.
