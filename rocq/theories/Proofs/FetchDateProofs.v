(** * Proofs about dates *)

From Coq Require Import QArith_base Znumtheory.
From Verif Require Import Base.PyFacts Base.Text Base.TextFacts Base.Bin Base.BinFacts Base.Fs Model.FetchHashes Spec.FetchHashesSpec.
Local Open Scope Z_scope.

Ltac ev_at e := let v := eval vm_compute in e in change e with v in *.
Ltac ev := repeat match goal with
  | |- context [Z.to_nat ?e] => ev_at (Z.to_nat e)
  | H : context [Z.to_nat ?e] |- _ => ev_at (Z.to_nat e)
  | |- context [2 <? ?e] => ev_at (2 <? e)
  | |- context [?e =? 2] => ev_at (e =? 2)
  | H : context [?e =? 2] |- _ => ev_at (e =? 2)
  end; cbn [nth andb] in *.

Lemma leap_iff y : is_leap y = true <-> leap y.
Proof.
  unfold is_leap, leap. rewrite andb_true_iff, orb_true_iff, negb_true_iff, !Z.eqb_eq, Z.eqb_neq, !Z.mod_divide by lia. reflexivity.
Qed.
Definition dim (y m : Z) : Z := days_in_month y m.
Lemma month_iff y m n : month_len y m n <-> 1 <= m <= 12 /\ days_in_month y m = n.
Proof.
  split.
  - intros [m' Hm|m' Hm|Hl|Hl].
    + cbn [In] in Hm. assert (Hr : 1 <= m' <= 12) by lia. split; [exact Hr|]. unfold days_in_month. destruct (Z.eqb_spec m' 2) as [->|]; [exfalso; lia|]. cbn [andb].
      repeat destruct Hm as [<-|Hm]; try reflexivity. destruct Hm.
    + cbn [In] in Hm. assert (Hr : 1 <= m' <= 12) by lia. split; [exact Hr|]. unfold days_in_month. destruct (Z.eqb_spec m' 2) as [->|]; [exfalso; lia|]. cbn [andb].
      repeat destruct Hm as [<-|Hm]; try reflexivity. destruct Hm.
    + split; [lia|]. unfold days_in_month. apply leap_iff in Hl. rewrite Hl. reflexivity.
    + split; [lia|]. unfold days_in_month. destruct (is_leap y) eqn:E; [apply leap_iff in E; contradiction | reflexivity].
  - intros [Hm <-]. unfold days_in_month. destruct (Z.eqb_spec m 2) as [->|Hn].
    + cbn [andb]. destruct (is_leap y) eqn:E; [apply Len29, leap_iff, E | apply Len28; intros H; apply leap_iff in H; congruence].
    + cbn [andb]. assert (C : m = 1 \/ m = 3 \/ m = 4 \/ m = 5 \/ m = 6 \/ m = 7 \/ m = 8 \/ m = 9 \/ m = 10 \/ m = 11 \/ m = 12) by lia.
      repeat destruct C as [->|C]; try subst m; cbn; (apply Len31; cbn; lia) || (apply Len30; cbn; lia).
Qed.
Lemma dim_pos y m : 1 <= m <= 12 -> 28 <= days_in_month y m <= 31.
Proof.
  intros Hm. unfold days_in_month. destruct ((m =? 2) && is_leap y); [lia|].
  assert (C : m = 1 \/ m = 2 \/ m = 3 \/ m = 4 \/ m = 5 \/ m = 6 \/ m = 7 \/ m = 8 \/ m = 9 \/ m = 10 \/ m = 11 \/ m = 12) by lia.
  repeat destruct C as [->|C]; try subst m; ev; lia.
Qed.
Definition vd (y m d : Z) : Prop := 1 <= y <= 9999 /\ 1 <= m <= 12 /\ 1 <= d <= days_in_month y m.
Lemma valid_iff y m d : valid {| yr := y; mo := m; da := d |} <-> vd y m d.
Proof.
  unfold valid, vd. cbn [yr mo da]. split.
  - intros (Hy & n & Hn & Hd). apply month_iff in Hn as [Hm <-]. auto.
  - intros (Hy & Hm & Hd). split; [exact Hy|]. eexists. split; [apply month_iff; split; [exact Hm | reflexivity] | exact Hd].
Qed.
Lemma year_step y : days_before_year (y + 1) = days_before_year y + (if is_leap y then 366 else 365).
Proof.
  unfold days_before_year, is_leap. cbv zeta.
  assert (E : forall k, 0 < k -> (y + 1 - 1) / k = (y - 1) / k + (if y mod k =? 0 then 1 else 0)).
  { intros k Hk. replace (y + 1 - 1) with y by lia. destruct (Z.eqb_spec (y mod k) 0) as [E|E].
    - assert (H : y = k * (y / k)) by (pose proof (Z.div_mod y k); lia).
      assert (H2 : (y - 1) / k = y / k - 1) by (symmetry; apply (Z.div_unique _ _ _ (k - 1)); lia). lia.
    - assert (H2 : (y - 1) / k = y / k); [|lia]. symmetry. apply (Z.div_unique _ _ _ (y mod k - 1)); [pose proof (Z.mod_pos_bound y k); lia | pose proof (Z.div_mod y k); lia]. }
  rewrite !E by lia.
  assert (H4 : y mod 100 = 0 -> y mod 4 = 0) by (intros H; apply Z.mod_divide in H as [q ->]; [|lia]; apply Z.mod_divide; [lia|]; exists (q * 25); lia).
  assert (H100 : y mod 400 = 0 -> y mod 100 = 0) by (intros H; apply Z.mod_divide in H as [q ->]; [|lia]; apply Z.mod_divide; [lia|]; exists (q * 4); lia).
  destruct (Z.eqb_spec (y mod 4) 0), (Z.eqb_spec (y mod 100) 0), (Z.eqb_spec (y mod 400) 0); cbn [andb orb negb]; lia.
Qed.
Lemma month_step y m : 1 <= m <= 11 -> days_before_month y (m + 1) = days_before_month y m + days_in_month y m.
Proof.
  intros Hm. unfold days_before_month, days_in_month.
  assert (C : m = 1 \/ m = 2 \/ m = 3 \/ m = 4 \/ m = 5 \/ m = 6 \/ m = 7 \/ m = 8 \/ m = 9 \/ m = 10 \/ m = 11) by lia.
  destruct (is_leap y); repeat destruct C as [->|C]; try subst m; reflexivity.
Qed.
Lemma year_end y : days_before_month y 12 + 31 = if is_leap y then 366 else 365.
Proof. unfold days_before_month. destruct (is_leap y); reflexivity. Qed.

Lemma next_ordinal d d' : next d d' -> 1 <= mo d <= 12 -> ordinal (yr d') (mo d') (da d') = ordinal (yr d) (mo d) (da d) + 1.
Proof.
  unfold ordinal. intros [y m x n Hn Hx|y m n Hn Hm|y]; cbn [yr mo da]; intros Hr; [lia | |].
  - apply month_iff in Hn as [_ <-]. rewrite month_step by lia. lia.
  - rewrite year_step. pose proof (year_end y). cbn [mo] in *. change (days_before_month (y + 1) 1) with (0 + (if false && is_leap (y + 1) then 1 else 0)). cbn [andb]. lia.
Qed.
Lemma next_valid_mo d d' : next d d' -> valid d' -> 1 <= mo d <= 12.
Proof.
  intros [y m x n Hn Hx|y m n Hn Hm|y] _; cbn [mo]; [apply month_iff in Hn as [H _]; exact H | apply month_iff in Hn as [H _]; exact H | lia].
Qed.
Lemma day_no_ordinal d n : day_no d n -> n = ordinal (yr d) (mo d) (da d) - ordinal 1970 1 1.
Proof.
  induction 1 as [|d d' n H IH Hv Hn|d d' n H IH Hv Hn].
  - reflexivity.
  - apply next_ordinal in Hn; [lia | eapply next_valid_mo; [exact Hn | exact Hv]].
  - apply next_ordinal in Hn; [lia|]. destruct Hv as (_ & k & Hk & _). apply month_iff in Hk as [Hk _]. exact Hk.
Qed.

(** Every valid date has a number. *)
Lemma month_bound y m d : 1 <= m <= 12 -> 1 <= d <= days_in_month y m -> 1 <= days_before_month y m + d <= (if is_leap y then 366 else 365).
Proof.
  intros Hm Hd. unfold days_before_month, days_in_month in *.
  assert (C : m = 1 \/ m = 2 \/ m = 3 \/ m = 4 \/ m = 5 \/ m = 6 \/ m = 7 \/ m = 8 \/ m = 9 \/ m = 10 \/ m = 11 \/ m = 12) by lia.
  destruct (is_leap y); repeat destruct C as [->|C]; try subst m; ev; lia.
Qed.
Lemma year_mono a : forall n, 0 <= n -> days_before_year (a + n) >= days_before_year a + 365 * n.
Proof.
  intros n Hn. pattern n. apply natlike_ind; [| |exact Hn].
  - rewrite Z.add_0_r. lia.
  - intros x Hx IH. unfold Z.succ. rewrite Z.add_assoc, year_step. destruct (is_leap (a + x)); lia.
Qed.
Lemma month_mono y m m' d : 1 <= m -> m < m' -> m' <= 12 -> 1 <= d <= days_in_month y m -> days_before_month y m + d <= days_before_month y m'.
Proof.
  intros H1 H2 H3 Hd. unfold days_before_month, days_in_month in *.
  assert (C : m = 1 \/ m = 2 \/ m = 3 \/ m = 4 \/ m = 5 \/ m = 6 \/ m = 7 \/ m = 8 \/ m = 9 \/ m = 10 \/ m = 11) by lia.
  assert (C' : m' = 2 \/ m' = 3 \/ m' = 4 \/ m' = 5 \/ m' = 6 \/ m' = 7 \/ m' = 8 \/ m' = 9 \/ m' = 10 \/ m' = 11 \/ m' = 12) by lia.
  destruct (is_leap y); repeat destruct C as [->|C]; try subst m; repeat destruct C' as [->|C']; try subst m'; ev; try lia.
Qed.
Lemma ordinal_inj y m d y' m' d' : vd y m d -> vd y' m' d' -> ordinal y m d = ordinal y' m' d' -> y = y' /\ m = m' /\ d = d'.
Proof.
  assert (L : forall y m d y' m' d', vd y m d -> vd y' m' d' -> y < y' \/ y = y' /\ m < m' -> ordinal y m d < ordinal y' m' d').
  { clear. intros y m d y' m' d' (Hy & Hm & Hd) (Hy' & Hm' & Hd') [H|[-> H]]; unfold ordinal.
    - pose proof (month_bound y m d Hm Hd). pose proof (month_bound y' m' d' Hm' Hd'). pose proof (year_mono (y + 1) (y' - (y + 1)) ltac:(lia)) as G.
      replace (y + 1 + (y' - (y + 1))) with y' in G by lia. rewrite year_step in G. lia.
    - pose proof (month_mono y' m m' d ltac:(lia) H ltac:(lia) Hd). lia. }
  intros V V' E. destruct (Z.lt_trichotomy y y') as [H|[<-|H]]; [specialize (L _ _ _ _ _ _ V V' (or_introl H)); lia | |specialize (L _ _ _ _ _ _ V' V (or_introl H)); lia].
  split; [reflexivity|]. destruct (Z.lt_trichotomy m m') as [H|[<-|H]]; [specialize (L _ _ _ _ _ _ V V' (or_intror (conj eq_refl H))); lia | |specialize (L _ _ _ _ _ _ V' V (or_intror (conj eq_refl H))); lia].
  split; [reflexivity|]. unfold ordinal in E. lia.
Qed.
Lemma next_exists y m d : vd y m d -> ordinal y m d < ordinal 9999 12 31 -> exists y' m' d', vd y' m' d' /\ next {| yr := y; mo := m; da := d |} {| yr := y'; mo := m'; da := d' |}.
Proof.
  intros (Hy & Hm & Hd) Hl. destruct (Z.eq_dec d (days_in_month y m)) as [->|Hne].
  - destruct (Z.eq_dec m 12) as [->|Hm'].
    + exists (y + 1), 1, 1. assert (y <> 9999) by (intros ->; vm_compute in Hl; discriminate). split; [|change (days_in_month y 12) with (if (12 =? 2) && is_leap y then 29 else 31); cbn [Z.eqb andb]; apply NextYear].
      split; [lia|]. split; [lia|]. pose proof (dim_pos (y + 1) 1). lia.
    + exists y, (m + 1), 1. split; [|apply NextMonth; [apply month_iff; auto | lia]]. split; [lia|]. split; [lia|]. pose proof (dim_pos y (m + 1)). lia.
  - exists y, m, (d + 1). split; [split; [lia|]; split; [lia|]; lia|]. eapply NextDay; [apply month_iff; auto | lia].
Qed.
Lemma prev_exists y m d : vd y m d -> ordinal 1 1 1 < ordinal y m d -> exists y' m' d', vd y' m' d' /\ next {| yr := y'; mo := m'; da := d' |} {| yr := y; mo := m; da := d |}.
Proof.
  intros (Hy & Hm & Hd) Hl. destruct (Z.eq_dec d 1) as [->|Hne].
  - destruct (Z.eq_dec m 1) as [->|Hm'].
    + assert (y <> 1) by (intros ->; vm_compute in Hl; discriminate). exists (y - 1), 12, 31. split; [split; [lia|]; split; [lia|]; unfold days_in_month; ev; lia|]. replace y with ((y - 1) + 1) at 2 by lia. apply NextYear.
    + exists y, (m - 1), (days_in_month y (m - 1)). pose proof (dim_pos y (m - 1) ltac:(lia)). split; [split; [lia|]; split; [lia|]; lia|].
      replace m with ((m - 1) + 1) at 3 by lia. apply NextMonth; [apply month_iff; split; [lia | reflexivity] | lia].
  - exists y, m, (d - 1). split; [split; [lia|]; split; [lia|]; lia|]. replace d with ((d - 1) + 1) at 2 by lia. eapply NextDay; [apply month_iff; split; [lia | reflexivity] | lia].
Qed.
Lemma ordinal_range y m d : vd y m d -> ordinal 1 1 1 <= ordinal y m d <= ordinal 9999 12 31.
Proof.
  intros (Hy & Hm & Hd). unfold ordinal. pose proof (month_bound y m d Hm Hd). pose proof (year_mono 1 (y - 1) ltac:(lia)) as G1. replace (1 + (y - 1)) with y in G1 by lia.
  pose proof (year_mono (y + 1) (10000 - (y + 1)) ltac:(lia)) as G2. replace (y + 1 + (10000 - (y + 1))) with 10000 in G2 by lia. rewrite year_step in G2.
  change (days_before_year 1) with 0 in *. change (days_before_year 10000) with 3652059 in *. change (days_before_month 1 1) with 0. change (days_before_year 9999) with 3651694. change (days_before_month 9999 12) with 334. lia.
Qed.
Lemma day_no_exists y m d : vd y m d -> day_no {| yr := y; mo := m; da := d |} (ordinal y m d - ordinal 1970 1 1).
Proof.
  intros V. remember (Z.abs_nat (ordinal y m d - ordinal 1970 1 1)) as k eqn:Ek. revert y m d V Ek. induction k as [|k IH]; intros y m d V Ek.
  - destruct (ordinal_inj y m d 1970 1 1) as (-> & -> & ->); [exact V | repeat split; vm_compute; discriminate | lia|]. replace (_ - _) with 0 by lia. constructor.
  - pose proof (ordinal_range y m d V) as HR. change (ordinal 1970 1 1) with 719163 in *. change (ordinal 1 1 1) with 1 in *. change (ordinal 9999 12 31) with 3652059 in *.
    destruct (Z.lt_trichotomy (ordinal y m d) 719163) as [H|[H|H]]; [|lia|].
    + destruct (next_exists y m d V) as (y' & m' & d' & V' & Hn); [change (ordinal 9999 12 31) with 3652059; lia|].
      pose proof (next_ordinal _ _ Hn) as E. cbn [yr mo da] in E. specialize (E ltac:(apply V)). replace (ordinal y m d - 719163) with ((ordinal y' m' d' - 719163) - 1) by lia.
      eapply DayBefore; [apply IH; [exact V' | lia] | apply valid_iff, V | exact Hn].
    + destruct (prev_exists y m d V) as (y' & m' & d' & V' & Hn); [change (ordinal 1 1 1) with 1; lia|].
      pose proof (next_ordinal _ _ Hn) as E. cbn [yr mo da] in E. specialize (E ltac:(apply V')). replace (ordinal y m d - 719163) with ((ordinal y' m' d' - 719163) + 1) by lia.
      eapply DayAfter; [apply IH; [exact V' | lia] | apply valid_iff, V | exact Hn].
Qed.
Lemma instant_iff y m d hh mi ss t : instant {| yr := y; mo := m; da := d |} hh mi ss t <->
  vd y m d /\ 0 <= hh <= 23 /\ 0 <= mi <= 59 /\ 0 <= ss <= 59 /\ t = timestamp y m d hh mi ss.
Proof.
  unfold instant, timestamp. rewrite valid_iff. split.
  - intros (V & H1 & H2 & H3 & n & Hn & ->). apply day_no_ordinal in Hn. cbn [yr mo da] in Hn. subst n. auto.
  - intros (V & H1 & H2 & H3 & ->). repeat (split; [assumption|]). eexists. split; [apply day_no_exists, V | reflexivity].
Qed.

(** ** The text *)
Local Open Scope N_scope.
Lemma p_name_app l w s : lenN w = 3 -> p_name l (w ++ s) = let! i := index_of (lower w) l 0%Z in Ok (i, s).
Proof. intros H. unfold p_name. rewrite takeN_app_n, dropN_app_n by exact H. reflexivity. Qed.
Lemma weekday_ok w s : weekday w -> exists i, p_name weekday_names (w ++ s) = Ok (i, s).
Proof.
  intros H. cbn [weekday In] in H. unfold weekday in H. cbn [In] in H.
  repeat (destruct H as [<-|H]; [rewrite p_name_app by reflexivity; eexists; reflexivity|]). destruct H.
Qed.
Lemma month_ok m mon s : month_name m mon -> exists i, p_name month_names (mon ++ s) = Ok (i, s) /\ (i + 1 = m)%Z.
Proof.
  intros H. unfold month_name in H. cbn [In] in H.
  repeat (destruct H as [H|H]; [injection H as <- <-; rewrite p_name_app by reflexivity; eexists; split; reflexivity|]). destruct H.
Qed.
Lemma p_lit_app p q s : lower q = p -> p_lit p (q ++ s) = Ok s.
Proof.
  intros <-. unfold p_lit. assert (startswith (lower (q ++ s)) (lower q) = true) as ->.
  { apply startswith_iff. exists (lower s). unfold lower. apply map_app. }
  f_equal. apply dropN_app_n. unfold lower. rewrite !lenN_length, map_length. reflexivity.
Qed.
Lemma p_space c s : is_space c = false -> p_spaces (32 :: c :: s) = Ok (c :: s).
Proof. intros H. cbn [p_spaces]. change (is_space 32) with true. cbn [lstrip]. rewrite H. reflexivity. Qed.
Definition no_digit (s : str) : Prop := match s with c :: _ => is_digit c = false | [] => True end.
Lemma p_digits_app d r : forallb is_digit d = true -> no_digit r -> p_digits (d ++ r) = (d, r).
Proof.
  intros Hd Hr. induction d as [|c d IH]; cbn [app p_digits].
  - destruct r as [|c r]; [reflexivity|]. cbn [p_digits]. cbn [no_digit] in Hr. rewrite Hr. reflexivity.
  - cbn [forallb] in Hd. apply andb_true_iff in Hd as [H1 H2]. rewrite H1, (IH H2). reflexivity.
Qed.
Lemma digit_ok z : (0 <= z <= 9)%Z -> is_digit (Z.to_N (48 + z)) = true /\ Z.of_N (Z.to_N (48 + z) - 48) = z.
Proof. intros H. unfold is_digit. split; [apply andb_true_iff; split; apply N.leb_le; lia | lia]. Qed.
Lemma p_two lens lo hi n r : (0 <= n <= 99)%Z -> (lo <= n <= hi)%Z -> mem 2 lens = true -> no_digit r -> p_number lens lo hi (two n ++ r) = Ok (n, r).
Proof.
  intros H0 H Hm Hr. assert (A : (0 <= n / 10 <= 9)%Z) by (split; [apply Z.div_pos; lia | apply Z.lt_succ_r, Z.div_lt_upper_bound; lia]).
  assert (B : (0 <= n mod 10 <= 9)%Z) by (pose proof (Z.mod_pos_bound n 10); lia). destruct (digit_ok _ A) as [A1 A2], (digit_ok _ B) as [B1 B2].
  unfold p_number. rewrite p_digits_app; [|unfold two; cbn [forallb]; rewrite A1, B1; reflexivity | exact Hr].
  unfold two. cbn [map]. unfold undigits. cbn [fold_left]. change (lenN [Z.to_N (48 + n / 10); Z.to_N (48 + n mod 10)]) with 2. rewrite Hm.
  match goal with |- context [Z.of_N ?x] => assert (Z.of_N x = n) as -> end.
  { rewrite N2Z.inj_add, N2Z.inj_mul, N2Z.inj_add, A2, B2. pose proof (Z.div_mod n 10). lia. }
  cbn [andb]. rewrite (proj2 (Z.leb_le lo n)), (proj2 (Z.leb_le n hi)) by lia. reflexivity.
Qed.
Lemma p_four lo hi n r : (0 <= n <= 9999)%Z -> (lo <= n <= hi)%Z -> no_digit r -> p_number [4] lo hi (four n ++ r) = Ok (n, r).
Proof.
  intros H0 H Hr. set (a := (n / 100)%Z). set (b := (n mod 100)%Z).
  assert (Ha : (0 <= a <= 99)%Z) by (subst a; split; [apply Z.div_pos; lia | apply Z.lt_succ_r, Z.div_lt_upper_bound; lia]).
  assert (Hb : (0 <= b <= 99)%Z) by (subst b; pose proof (Z.mod_pos_bound n 100); lia).
  assert (A : (0 <= a / 10 <= 9)%Z) by (split; [apply Z.div_pos; lia | apply Z.lt_succ_r, Z.div_lt_upper_bound; lia]).
  assert (B : (0 <= a mod 10 <= 9)%Z) by (pose proof (Z.mod_pos_bound a 10); lia).
  assert (C : (0 <= b / 10 <= 9)%Z) by (split; [apply Z.div_pos; lia | apply Z.lt_succ_r, Z.div_lt_upper_bound; lia]).
  assert (D : (0 <= b mod 10 <= 9)%Z) by (pose proof (Z.mod_pos_bound b 10); lia).
  destruct (digit_ok _ A) as [A1 A2], (digit_ok _ B) as [B1 B2], (digit_ok _ C) as [C1 C2], (digit_ok _ D) as [D1 D2].
  unfold p_number, four. fold a b. rewrite p_digits_app; [|unfold two; cbn [app forallb]; rewrite A1, B1, C1, D1; reflexivity | exact Hr].
  unfold two. cbn [app map]. unfold undigits. cbn [fold_left].
  match goal with |- context [lenN ?l] => change (lenN l) with 4 end. change (mem 4 [4]) with true.
  match goal with |- context [Z.of_N ?x] => assert (Z.of_N x = n) as -> end.
  { rewrite !N2Z.inj_add, !N2Z.inj_mul, !N2Z.inj_add, !N2Z.inj_mul, !N2Z.inj_add, !N2Z.inj_mul, !N2Z.inj_add, A2, B2, C2, D2.
    pose proof (Z.div_mod n 100). pose proof (Z.div_mod a 10). pose proof (Z.div_mod b 10). subst a b. lia. }
  cbn [andb]. rewrite (proj2 (Z.leb_le lo n)), (proj2 (Z.leb_le n hi)) by lia. reflexivity.
Qed.
Lemma two_head n r : (0 <= n <= 99)%Z -> exists c t, two n ++ r = c :: t /\ is_space c = false.
Proof.
  intros H. unfold two. cbn [app]. do 2 eexists. split; [reflexivity|].
  assert (A : (0 <= n / 10 <= 9)%Z) by (split; [apply Z.div_pos; lia | apply Z.lt_succ_r, Z.div_lt_upper_bound; lia]).
  unfold is_space. apply orb_false_iff. split; apply andb_false_iff; right; apply N.leb_gt; lia.
Qed.
Lemma month_head m mon r : month_name m mon -> exists c t, mon ++ r = c :: t /\ is_space c = false.
Proof.
  intros H. unfold month_name in H. cbn [In] in H.
  repeat (destruct H as [H|H]; [injection H as _ <-; cbn [lit app]; do 2 eexists; split; reflexivity|]). destruct H.
Qed.
Lemma sp_two n r : (0 <= n <= 99)%Z -> p_spaces (lit " " ++ two n ++ r) = Ok (two n ++ r).
Proof. intros H. destruct (two_head n r H) as (c & t & -> & E). apply p_space, E. Qed.

Lemma http_date_text w d mon hh mi ss t : weekday w -> month_name (mo d) mon -> instant d hh mi ss t -> http_date (http_text w d mon hh mi ss) = Ok t.
Proof.
  intros Hw Hm Hi. destruct d as [y m dd]. cbn [mo] in Hm. apply instant_iff in Hi as ((Hy & Hmo & Hd) & Hh & Hmi & Hs & ->).
  pose proof (dim_pos y m Hmo) as Hdim. unfold http_date, http_text. cbn [yr da].
  destruct (weekday_ok w (lit ", " ++ two dd ++ lit " " ++ mon ++ lit " " ++ four y ++ lit " " ++ two hh ++ lit ":" ++ two mi ++ lit ":" ++ two ss ++ lit " GMT") Hw) as [i ->]. cbn [rbind].
  change (lit ", " ++ ?x) with (lit "," ++ lit " " ++ x). rewrite p_lit_app by reflexivity. cbn [rbind].
  rewrite sp_two by lia. cbn [rbind]. rewrite p_two by (try reflexivity; lia). cbn [rbind].
  match goal with |- context [p_spaces (lit " " ++ mon ++ ?r)] => destruct (month_head m mon r Hm) as (c & u & E & Ec); destruct (month_ok m mon r Hm) as (j & Ej & Hj); assert (p_spaces (lit " " ++ mon ++ r) = Ok (mon ++ r)) as -> by (rewrite E; apply p_space, Ec) end.
  cbn [rbind]. rewrite Ej. cbn [rbind]. rewrite Hj.
  unfold four at 1. rewrite <- app_assoc. rewrite sp_two; [|split; [apply Z.div_pos; lia | apply Z.lt_succ_r, Z.div_lt_upper_bound; lia]]. rewrite app_assoc. fold (four y). cbn [rbind].
  rewrite p_four by (try reflexivity; lia). cbn [rbind]. rewrite sp_two by lia. cbn [rbind]. rewrite p_two by (try reflexivity; lia). cbn [rbind].
  rewrite p_lit_app by reflexivity. cbn [rbind]. rewrite p_two by (try reflexivity; lia). cbn [rbind]. rewrite p_lit_app by reflexivity. cbn [rbind]. rewrite p_two by (try reflexivity; lia). cbn [rbind].
  change (lit " GMT") with (lit " " ++ lit "GMT"). change (p_spaces (lit " " ++ lit "GMT")) with (@Ok str (lit "GMT")). cbn [rbind].
  change (p_lit (lit "gmt") (lit "GMT")) with (@Ok str []). cbn [rbind].
  rewrite (proj2 (Z.leb_le 1 y)), (proj2 (Z.leb_le dd _)), (proj2 (Z.leb_le ss 59)) by lia. reflexivity.
Qed.

Lemma p_number_Ok lens lo hi s v r : p_number lens lo hi s = Ok (v, r) -> (lo <= v <= hi)%Z.
Proof.
  unfold p_number. destruct (p_digits s) as [d u]. destruct (mem _ _); [|discriminate]. cbn [andb].
  destruct (Z.leb_spec lo (Z.of_N (undigits 10 (map (fun c => c - 48) d)))); [|discriminate]. destruct (Z.leb_spec (Z.of_N (undigits 10 (map (fun c => c - 48) d))) hi); [|discriminate].
  cbn [andb]. intros E. injection E as <- _. lia.
Qed.
Lemma index_of_range x l : forall i j, index_of x l i = Ok j -> (i <= j < i + Z.of_nat (length l))%Z.
Proof.
  induction l as [|y l IH]; intros i j; cbn [index_of length]; [discriminate|]. destruct (eqb x y); [intros E; injection E as <-; lia|].
  intros E. apply IH in E. lia.
Qed.
Lemma http_date_Ok s t : http_date s = Ok t -> exists d hh mi ss, instant d hh mi ss t.
Proof.
  unfold http_date. intros E.
  apply rbind_Ok in E as ((i & s1) & _ & E). apply rbind_Ok in E as (s2 & _ & E). apply rbind_Ok in E as (s3 & _ & E).
  apply rbind_Ok in E as ((d & s4) & Hd & E). apply rbind_Ok in E as (s5 & _ & E). apply rbind_Ok in E as ((m & s6) & Hm & E). apply rbind_Ok in E as (s7 & _ & E).
  apply rbind_Ok in E as ((y & s8) & Hy & E). apply rbind_Ok in E as (s9 & _ & E). apply rbind_Ok in E as ((hh & s10) & Hh & E). apply rbind_Ok in E as (s11 & _ & E).
  apply rbind_Ok in E as ((mi & s12) & Hmi & E). apply rbind_Ok in E as (s13 & _ & E). apply rbind_Ok in E as ((ss & s14) & Hss & E). apply rbind_Ok in E as (s15 & _ & E).
  apply rbind_Ok in E as (s16 & _ & E). destruct s16; [|discriminate].
  apply p_number_Ok in Hd, Hy, Hh, Hmi, Hss. unfold p_name in Hm. apply rbind_Ok in Hm as (k & Hk & Hm). injection Hm as -> _. apply index_of_range in Hk. cbn [length month_names Z.of_nat] in Hk.
  change (length month_names) with 12%nat in Hk.
  destruct (Z.leb_spec 1 y); [|discriminate]. destruct (Z.leb_spec d (days_in_month y (m + 1))); [|discriminate]. destruct (Z.leb_spec ss 59); [|discriminate]. cbn [andb] in E.
  injection E as <-. exists {| yr := y; mo := (m + 1)%Z; da := d |}, hh, mi, ss. apply instant_iff. repeat split; lia.
Qed.
