(** * Facts about text functions *)

From Verif Require Export Base.PyFacts Base.Text.
Ltac Zify.zify_post_hook ::= Z.div_mod_to_equations.

(** ** Prefixes and suffixes *)

Section Affix.
  Context {A : Type} `{EqDec A}.
  Implicit Types s p : list A.

  Lemma startswith_iff s p : startswith s p = true <-> exists r, s = p ++ r.
  Proof.
    revert s. induction p as [|y p IH]; intros s; cbn [startswith].
    - split; [intros _; exists s; reflexivity | reflexivity].
    - destruct s as [|x s].
      + split; [discriminate | intros (r & E); discriminate].
      + rewrite andb_true_iff, eqbT, IH. split.
        * intros (-> & r & ->). exists r. reflexivity.
        * intros (r & E). injection E as -> ->. split; [reflexivity | exists r; reflexivity].
  Qed.
  Lemma startswith_app p r : startswith (p ++ r) p = true.
  Proof. apply startswith_iff. exists r. reflexivity. Qed.
  Lemma endswith_iff s p : endswith s p = true <-> exists r, s = r ++ p.
  Proof.
    unfold endswith. rewrite startswith_iff. split.
    - intros (r & E). exists (rev r). rewrite <- (rev_involutive s), E, rev_app_distr, rev_involutive. reflexivity.
    - intros (r & ->). exists (rev r). apply rev_app_distr.
  Qed.
  Lemma endswith_app r p : endswith (r ++ p) p = true.
  Proof. apply endswith_iff. exists r. reflexivity. Qed.
End Affix.

(** ** Splitting *)

Section Split.
  Context {A : Type} `{EqDec A}.
  Implicit Types s : list A.

  Lemma split_ch_nonempty c s : split_ch c s <> [].
  Proof. destruct s as [|x t]; cbn [split_ch]; [discriminate|]. destruct (eqb x c); [discriminate|]. destruct (split_ch c t); discriminate. Qed.

  Lemma split_ch_none c s : ~ In c s -> split_ch c s = [s].
  Proof.
    induction s as [|x t IH]; cbn [split_ch In]; intros Hn; [reflexivity|].
    destruct (eqbP x c) as [->|Hx]; [exfalso; apply Hn; left; reflexivity|].
    rewrite IH by (intros Hi; apply Hn; right; assumption). reflexivity.
  Qed.
  Lemma split_ch_app c s1 s2 :
    ~ In c s1 -> split_ch c (s1 ++ c :: s2) = s1 :: split_ch c s2.
  Proof.
    induction s1 as [|x t IH]; cbn [split_ch app In]; intros Hn.
    - rewrite eqbR. reflexivity.
    - destruct (eqbP x c) as [->|Hx]; [exfalso; apply Hn; left; reflexivity|].
      rewrite IH by (intros Hi; apply Hn; right; assumption). reflexivity.
  Qed.
  (** Splitting undoes joining pieces that do not contain the separator. *)
  Lemma split_join c (l : list (list A)) :
    l <> [] -> Forall (fun x => ~ In c x) l -> split_ch c (join [c] l) = l.
  Proof.
    induction l as [|x t IH]; intros Hl HF; [congruence|].
    inversion HF as [|? ? Hx Ht]; subst. destruct t as [|y t'].
    - cbn [join]. apply split_ch_none. assumption.
    - change (join [c] (x :: y :: t')) with (x ++ c :: join [c] (y :: t')).
      rewrite split_ch_app by assumption. rewrite IH; [reflexivity | discriminate | assumption].
  Qed.
  Lemma join_split c s : join [c] (split_ch c s) = s.
  Proof.
    induction s as [|x t IH]; cbn [split_ch]; [reflexivity|].
    destruct (eqbP x c) as [->|Hx].
    - pose proof (split_ch_nonempty c t). destruct (split_ch c t) as [|h r] eqn:E; [congruence|].
      change (c :: join [c] (h :: r) = c :: t). rewrite IH. reflexivity.
    - pose proof (split_ch_nonempty c t). destruct (split_ch c t) as [|h r] eqn:E; [congruence|].
      destruct r as [|h' r']; cbn [join app] in IH |- *; rewrite IH; reflexivity.
  Qed.
  Lemma split_ch_pieces c s : Forall (fun x => ~ In c x) (split_ch c s).
  Proof.
    induction s as [|x t IH]; cbn [split_ch].
    - constructor; [intros [] | constructor].
    - destruct (eqbP x c) as [->|Hx].
      + constructor; [intros [] | assumption].
      + destruct (split_ch c t) as [|h r]; [repeat constructor; cbn [In]; intuition congruence|].
        inversion IH as [|? ? Hh Hr]; subst. constructor; [|assumption].
        cbn [In]. intuition.
  Qed.

  Lemma cut_first_Some c s a b : cut_first c s = Some (a, b) <-> s = a ++ c :: b /\ ~ In c a.
  Proof.
    revert a b. induction s as [|x t IH]; intros a b; cbn [cut_first].
    - split; [discriminate | intros (E & _); destruct a; discriminate].
    - destruct (eqbP x c) as [->|Hx].
      + split.
        * intros E. injection E as <- <-. split; [reflexivity | intros []].
        * intros (E & Hn). destruct a as [|y a]; [injection E as ->; reflexivity|].
          injection E as -> E. exfalso. apply Hn. left. reflexivity.
      + destruct (cut_first c t) as [[a' b']|] eqn:Ec.
        * split.
          -- intros E. injection E as <- <-. destruct (IH a' b') as [IH' _].
             destruct IH' as [-> Hn]; [reflexivity|]. split; [reflexivity|]. intros [E|Hi]; [congruence | auto].
          -- intros (E & Hn). destruct a as [|y a]; [injection E as -> ->; congruence|].
             injection E as -> E. destruct (IH a b) as [_ IH']. 
             rewrite <- E in IH'. specialize (IH' (conj eq_refl (fun Hi => Hn (or_intror Hi)))). injection IH' as -> ->. reflexivity.
        * split; [discriminate|]. intros (E & Hn). destruct a as [|y a]; [injection E as -> ->; congruence|].
          injection E as -> E. destruct (IH a b) as [_ IH'].
          discriminate IH'. split; [assumption | intros Hi; apply Hn; right; assumption].
  Qed.
  Lemma cut_first_None c s : cut_first c s = None <-> ~ In c s.
  Proof.
    induction s as [|x t IH]; cbn [cut_first In]; [intuition|].
    destruct (eqbP x c) as [->|Hx]; [intuition congruence|].
    destruct (cut_first c t) as [[a b]|]; intuition congruence.
  Qed.

  Lemma cut_last_None c s : cut_last c s = None <-> ~ In c s.
  Proof.
    induction s as [|x t IH]; cbn [cut_last In]; [intuition|].
    destruct (cut_last c t) as [[a b]|]; [|destruct (eqbP x c) as [->|Hx]]; intuition congruence.
  Qed.
  Lemma cut_last_Some c s a b : cut_last c s = Some (a, b) <-> s = a ++ c :: b /\ ~ In c b.
  Proof.
    revert a b. induction s as [|x t IH]; intros a b; cbn [cut_last].
    - split; [discriminate | intros (E & _); destruct a; discriminate].
    - destruct (cut_last c t) as [[a' b']|] eqn:Ec.
      + destruct (IH a' b') as [IH1 _]. destruct (IH1 eq_refl) as [Et Hb']. split.
        * intros E. injection E as <- <-. split; [rewrite Et; reflexivity | assumption].
        * intros (E & Hb). destruct a as [|y a].
          -- injection E as -> E. exfalso. apply Hb. rewrite <- E, Et. apply in_elt.
          -- injection E as -> E. destruct (IH a b) as [_ IH2]. specialize (IH2 (conj E Hb)). congruence.
      + apply cut_last_None in Ec. destruct (eqbP x c) as [->|Hx]; split.
        * intros E. injection E as <- <-. split; [reflexivity | assumption].
        * intros (E & Hb). destruct a as [|y a]; [injection E as ->; reflexivity|].
          injection E as -> E. exfalso. apply Ec. rewrite E. apply in_elt.
        * discriminate.
        * intros (E & Hb). destruct a as [|y a]; [injection E as -> ->; congruence|].
          injection E as -> E. exfalso. apply Ec. rewrite E. apply in_elt.
  Qed.
  Lemma cut_last_app c a b : ~ In c b -> cut_last c (a ++ c :: b) = Some (a, b).
  Proof. intros Hb. apply cut_last_Some. split; [reflexivity | assumption]. Qed.
  Lemma cut_first_app c a b : ~ In c a -> cut_first c (a ++ c :: b) = Some (a, b).
  Proof. intros Hb. apply cut_first_Some. split; [reflexivity | assumption]. Qed.

  Lemma find_ch_cut c s :
    find_ch c s = match cut_first c s with Some (a, _) => Some (lenN a) | None => None end.
  Proof.
    induction s as [|x t IH]; cbn [find_ch cut_first]; [reflexivity|].
    destruct (eqb x c); [reflexivity|]. rewrite IH. destruct (cut_first c t) as [[a b]|]; cbn [option_map]; [|reflexivity].
    rewrite lenN_cons. reflexivity.
  Qed.
End Split.

(** ** Stripping *)

Section Strip.
  Context {A : Type}.
  Lemma lstrip_id (f : A -> bool) s : match s with x :: _ => f x = false | [] => True end -> lstrip f s = s.
  Proof. destruct s as [|x t]; cbn [lstrip]; [reflexivity|]. intros ->. reflexivity. Qed.
  Lemma lstrip_spec (f : A -> bool) s :
    exists p, s = p ++ lstrip f s /\ forallb f p = true /\
              match lstrip f s with x :: _ => f x = false | [] => True end.
  Proof.
    induction s as [|x t IH]; cbn [lstrip]; [exists []; auto|].
    destruct (f x) eqn:E.
    - destruct IH as (p & Ep & Hp & Hm). exists (x :: p). cbn [app forallb]. rewrite E, <- Ep, Hp. auto.
    - exists []. cbn [app forallb]. auto.
  Qed.
  Lemma lstrip_app_all (f : A -> bool) p s : forallb f p = true -> lstrip f (p ++ s) = lstrip f s.
  Proof.
    induction p as [|x t IH]; cbn [lstrip forallb app]; [reflexivity|].
    intros E. apply andb_prop in E as [-> E]. apply IH, E.
  Qed.
  Lemma forallb_rev (f : A -> bool) l : forallb f (rev l) = forallb f l.
  Proof.
    induction l as [|x t IH]; cbn [rev forallb]; [reflexivity|].
    rewrite forallb_app, IH. cbn [forallb]. rewrite andb_true_r. apply andb_comm.
  Qed.
  Lemma rstrip_snoc_false (f : A -> bool) s x : f x = false -> rstrip f (s ++ [x]) = s ++ [x].
  Proof.
    intros E. unfold rstrip. rewrite rev_app_distr. cbn [rev app lstrip]. rewrite E.
    cbn [rev]. rewrite rev_involutive. reflexivity.
  Qed.
  Lemma rstrip_app_all (f : A -> bool) s p : forallb f p = true -> rstrip f (s ++ p) = rstrip f s.
  Proof. intros E. unfold rstrip. rewrite rev_app_distr, lstrip_app_all; [reflexivity|]. rewrite forallb_rev. assumption. Qed.
  Lemma rstrip_spec (f : A -> bool) s :
    exists p, s = rstrip f s ++ p /\ forallb f p = true /\
              (rstrip f s = [] \/ exists s' x, rstrip f s = s' ++ [x] /\ f x = false).
  Proof.
    unfold rstrip. destruct (lstrip_spec f (rev s)) as (p & Ep & Hp & Hm). exists (rev p).
    repeat split.
    - rewrite <- rev_app_distr, <- Ep, rev_involutive. reflexivity.
    - rewrite forallb_rev. assumption.
    - destruct (lstrip f (rev s)) as [|x t]; [left; reflexivity|]. right. exists (rev t), x.
      split; [reflexivity | assumption].
  Qed.
  Lemma strip_id (f : A -> bool) s : forallb (fun x => negb (f x)) s = true -> strip f s = s.
  Proof.
    intros E. unfold strip. rewrite lstrip_id.
    - destruct (rev s) as [|x t] eqn:Er.
      + apply (f_equal (@rev A)) in Er. rewrite rev_involutive in Er. subst. reflexivity.
      + apply (f_equal (@rev A)) in Er. rewrite rev_involutive in Er. subst. cbn [rev] in *.
        apply rstrip_snoc_false. rewrite forallb_app in E. cbn [forallb] in E.
        destruct (f x); [|reflexivity]. rewrite andb_comm in E. discriminate.
    - destruct s as [|x t]; [exact I|]. cbn [forallb] in E. destruct (f x); [discriminate | reflexivity].
  Qed.
End Strip.

(** ** Digits *)

Lemma undigits_app base l1 l2 :
  undigits base (l1 ++ l2) = undigits base l1 * base ^ lenN l2 + undigits base l2.
Proof.
  unfold undigits.
  assert (E : forall l a, fold_left (fun a d => a * base + d) l a = a * base ^ lenN l + fold_left (fun a d => a * base + d) l 0).
  { clear. induction l as [|d t IH]; intros a; cbn [fold_left].
    - rewrite lenN_nil, N.pow_0_r. lia.
    - rewrite IH, (IH (0 * base + d)), lenN_cons, N.pow_succ_r'. lia. }
  rewrite fold_left_app, E. reflexivity.
Qed.
Lemma undigits_snoc base l d : undigits base (l ++ [d]) = undigits base l * base + d.
Proof. unfold undigits. rewrite fold_left_app. reflexivity. Qed.
Lemma undigits_cons base d l : undigits base (d :: l) = d * base ^ lenN l + undigits base l.
Proof. change (d :: l) with ([d] ++ l); rewrite undigits_app. unfold undigits at 1. cbn [fold_left]. lia. Qed.

Lemma digits_fuel_spec base fuel n acc :
  2 <= base -> n < 2 ^ N.of_nat fuel -> (0 < fuel)%nat ->
  exists ds, digits_fuel fuel base n acc = ds ++ acc /\ undigits base ds = n /\
             Forall (fun d => d < base) ds /\ ds <> [] /\
             (match ds with d :: _ :: _ => d <> 0 | _ => True end).
Proof.
  intros Hb. revert n acc. induction fuel as [|f IH]; intros n acc Hn Hf; [lia|].
  cbn [digits_fuel]. assert (Hmod : n mod base < base) by (apply N.mod_lt; lia).
  destruct (N.ltb_spec n base) as [Hl|Hl].
  - exists [n mod base]. cbn [app]. repeat split.
    + unfold undigits. cbn [fold_left]. rewrite N.mod_small by assumption. lia.
    + constructor; [assumption | constructor].
    + discriminate.
  - assert (Hd : n / base < 2 ^ N.of_nat f).
    { apply N.div_lt_upper_bound; [lia|]. rewrite Nnat.Nat2N.inj_succ, N.pow_succ_r' in Hn.
      apply N.lt_le_trans with (1 := Hn). apply N.mul_le_mono_r. assumption. }
    assert (Hpos : n / base <> 0).
    { intros E. apply N.div_small_iff in E; lia. }
    destruct f as [|f'].
    { exfalso. change (N.of_nat 0) with 0 in Hd. rewrite N.pow_0_r in Hd. lia. }
    destruct (IH (n / base) (n mod base :: acc)) as (ds & E & Hu & HF & Hne & Hlead); [assumption | lia |].
    exists (ds ++ [n mod base]). rewrite E, <- app_assoc. cbn [app]. repeat split.
    + rewrite undigits_snoc, Hu. pose proof (N.div_mod n base). lia.
    + apply Forall_app. split; [assumption | constructor; [assumption | constructor]].
    + destruct ds; discriminate.
    + destruct ds as [|d [|d' ds']]; [congruence | | assumption].
      cbn [app]. unfold undigits in Hu. cbn [fold_left] in Hu. lia.
Qed.
Lemma digits_spec base n :
  2 <= base ->
  undigits base (digits base n) = n /\ Forall (fun d => d < base) (digits base n) /\
  digits base n <> [] /\
  (match digits base n with d :: _ :: _ => d <> 0 | _ => True end).
Proof.
  intros Hb. unfold digits.
  destruct (digits_fuel_spec base (S (N.size_nat n)) n []) as (ds & E & Hu & HF & Hne & Hl); try lia.
  - rewrite Nnat.Nat2N.inj_succ, N.pow_succ_r'. pose proof (N.size_gt n) as Hs.
    assert (Es : N.size n = N.of_nat (N.size_nat n)).
    { clear. destruct n as [|p]; [reflexivity|]. cbn [N.size N.size_nat].
      induction p as [p IHp|p IHp|]; cbn [Pos.size Pos.size_nat]; rewrite ?Nnat.Nat2N.inj_succ, <- ?IHp; reflexivity. }
    rewrite Es in Hs. lia.
  - rewrite app_nil_r in E. rewrite E. auto.
Qed.
Lemma digits_inj base n m : 2 <= base -> digits base n = digits base m -> n = m.
Proof.
  intros Hb E. destruct (digits_spec base n Hb) as [En _]. destruct (digits_spec base m Hb) as [Em _]. congruence.
Qed.
Lemma undigits_bound base ds : 2 <= base -> Forall (fun d => d < base) ds -> undigits base ds < base ^ lenN ds.
Proof.
  intros Hb. induction ds as [|d t IH] using rev_ind; intros HF.
  - unfold undigits. cbn. lia.
  - apply Forall_app in HF as [HF Hd]. inversion Hd; subst. specialize (IH HF).
    rewrite undigits_snoc, lenN_app, lenN_cons, lenN_nil, N.pow_add_r.
    replace (N.succ 0) with 1 by lia. rewrite N.pow_1_r. nia.
Qed.
(** The digit string has at most [w] digits if the number is below [base^w]. *)
Lemma digits_len base n w : 2 <= base -> 0 < w -> n < base ^ w -> lenN (digits base n) <= w.
Proof.
  intros Hb Hw Hn. destruct (digits_spec base n Hb) as (Hu & HF & Hne & Hlead).
  destruct (digits base n) as [|d [|d' t]] eqn:E; [rewrite lenN_nil; lia | rewrite lenN_cons, lenN_nil; lia|].
  destruct (N.le_gt_cases (lenN (d :: d' :: t)) w) as [Hle|Hgt]; [assumption|exfalso].
  rewrite undigits_cons in Hu.
  assert (Hp : base ^ w <= base ^ lenN (d' :: t)).
  { apply N.pow_le_mono_r; [lia|]. rewrite lenN_cons in Hgt. lia. }
  nia.
Qed.

Lemma digit_val_lower d : d < 16 -> digit_val (digit_lower d) = Some d.
Proof.
  intros Hd. unfold digit_lower, digit_val, is_digit. destruct (N.ltb_spec d 10).
  - replace ((48 <=? 48 + d) && (48 + d <=? 57)) with true by lia. f_equal. lia.
  - replace ((48 <=? 87 + d) && (87 + d <=? 57)) with false by lia.
    replace ((97 <=? 87 + d) && (87 + d <=? 102)) with true by lia. f_equal. lia.
Qed.
Lemma digit_val_upper d : d < 16 -> digit_val (digit_upper d) = Some d.
Proof.
  intros Hd. unfold digit_upper, digit_val, is_digit. destruct (N.ltb_spec d 10).
  - replace ((48 <=? 48 + d) && (48 + d <=? 57)) with true by lia. f_equal. lia.
  - replace ((48 <=? 55 + d) && (55 + d <=? 57)) with false by lia.
    replace ((97 <=? 55 + d) && (55 + d <=? 102)) with false by lia.
    replace ((65 <=? 55 + d) && (55 + d <=? 70)) with true by lia. f_equal. lia.
Qed.
Lemma digit_lower_not_under d : d < 16 -> (digit_lower d =? cUnder) = false.
Proof. intros Hd. unfold digit_lower, cUnder. destruct (N.ltb_spec d 10); lia. Qed.
Lemma digit_upper_not_under d : d < 16 -> (digit_upper d =? cUnder) = false.
Proof. intros Hd. unfold digit_upper, cUnder. destruct (N.ltb_spec d 10); lia. Qed.
Lemma digit_lower_inj d d' : d < 16 -> d' < 16 -> digit_lower d = digit_lower d' -> d = d'.
Proof. intros Hd Hd' E. apply (f_equal digit_val) in E. rewrite !digit_val_lower in E by assumption. congruence. Qed.

(** Parsing digit characters produced by a digit function [g]. *)
Lemma int_digits_map base g ds acc :
  base <= 16 ->
  (forall d, d < 16 -> digit_val (g d) = Some d) ->
  (forall d, d < 16 -> (g d =? cUnder) = false) ->
  Forall (fun d => d < base) ds ->
  int_digits base (map g ds) acc = Some (acc * base ^ lenN ds + undigits base ds).
Proof.
  intros Hb Hv Hu. revert acc. induction ds as [|d t IH]; intros acc HF; cbn [map int_digits].
  - f_equal. rewrite lenN_nil, N.pow_0_r. unfold undigits. cbn [fold_left]. lia.
  - inversion HF as [|? ? Hd Ht]; subst. rewrite Hu, Hv by lia.
    replace (d <? base) with true by lia. rewrite IH by assumption. f_equal.
    rewrite undigits_cons, lenN_cons, N.pow_succ_r'. lia.
Qed.

Lemma dec_chars n : Forall (fun c => is_digit c = true) (dec n).
Proof.
  unfold dec. destruct (digits_spec 10 n ltac:(lia)) as (_ & HF & _).
  apply Forall_map. eapply Forall_impl; [|exact HF]. cbn. intros d Hd.
  unfold digit_lower, is_digit. replace (d <? 10) with true by lia. lia.
Qed.
Lemma dec_nonempty n : dec n <> [].
Proof. unfold dec. destruct (digits_spec 10 n ltac:(lia)) as (_ & _ & Hne & _). destruct (digits 10 n); [congruence | discriminate]. Qed.
Lemma dec_not_in n c : is_digit c = false -> ~ In c (dec n).
Proof. intros Hc Hi. pose proof (dec_chars n) as HF. rewrite Forall_forall in HF. rewrite HF in Hc by assumption. discriminate. Qed.

Lemma int_unsigned_map base g ds :
  base <= 16 ->
  (forall d, d < 16 -> digit_val (g d) = Some d) ->
  (forall d, d < 16 -> (g d =? cUnder) = false) ->
  Forall (fun d => d < base) ds -> ds <> [] ->
  int_unsigned base (map g ds) = Some (undigits base ds).
Proof.
  intros Hb Hv Hu HF Hne. destruct ds as [|d t]; [congruence|].
  unfold int_unsigned. cbn [map]. inversion HF as [|? ? Hd Ht]; subst. rewrite Hu by lia.
  rewrite <- map_cons. rewrite int_digits_map by assumption. reflexivity.
Qed.

Lemma int_of_unsigned base s n :
  forallb (fun c => negb (is_int_space c)) s = true ->
  (match s with c :: _ => (c =? cMinus) = false /\ (c =? cPlus) = false | [] => True end) ->
  int_unsigned base s = Some n -> int_of base s = Ok (Z.of_N n).
Proof.
  intros Hs Hc E. unfold int_of. rewrite strip_id by assumption.
  destruct s as [|c t]; [discriminate|]. destruct Hc as [-> ->]. rewrite E. reflexivity.
Qed.

Lemma digit_lower_plain d : d < 16 ->
  is_int_space (digit_lower d) = false /\ (digit_lower d =? cMinus) = false /\ (digit_lower d =? cPlus) = false.
Proof. intros Hd. unfold digit_lower, is_int_space, cMinus, cPlus. destruct (N.ltb_spec d 10); lia. Qed.
Lemma digit_upper_plain d : d < 16 ->
  is_int_space (digit_upper d) = false /\ (digit_upper d =? cMinus) = false /\ (digit_upper d =? cPlus) = false.
Proof. intros Hd. unfold digit_upper, is_int_space, cMinus, cPlus. destruct (N.ltb_spec d 10); lia. Qed.

Lemma int_of_map base g ds :
  base <= 16 ->
  (forall d, d < 16 -> digit_val (g d) = Some d) ->
  (forall d, d < 16 -> (g d =? cUnder) = false) ->
  (forall d, d < 16 -> is_int_space (g d) = false /\ (g d =? cMinus) = false /\ (g d =? cPlus) = false) ->
  Forall (fun d => d < base) ds -> ds <> [] ->
  int_of base (map g ds) = Ok (Z.of_N (undigits base ds)).
Proof.
  intros Hb Hv Hu Hp HF Hne. apply int_of_unsigned.
  - apply forallb_forall. intros c Hc. apply in_map_iff in Hc as (d & <- & Hd).
    rewrite Forall_forall in HF. destruct (Hp d) as [-> _]; [|reflexivity]. specialize (HF d Hd). lia.
  - destruct ds as [|d t]; [exact I|]. cbn [map]. inversion HF; subst. apply Hp. lia.
  - apply int_unsigned_map; assumption.
Qed.

(** [int(str(n)) == n] *)
Lemma int10_dec n : int10 (dec n) = Ok (Z.of_N n).
Proof.
  unfold int10, dec. destruct (digits_spec 10 n ltac:(lia)) as (Hu & HF & Hne & _).
  rewrite int_of_map; auto using digit_val_lower, digit_lower_not_under, digit_lower_plain; try lia.
  rewrite Hu. reflexivity.
Qed.
Lemma int10_decZ z : int10 (decZ z) = Ok z.
Proof.
  destruct z as [|p|p]; [reflexivity | exact (int10_dec (Npos p)) |].
  cbn [decZ]. unfold int10, int_of, dec.
  destruct (digits_spec 10 (N.pos p) ltac:(lia)) as (Hu & HF & Hne & _).
  rewrite strip_id.
  - rewrite N.eqb_refl. rewrite int_unsigned_map; auto using digit_val_lower, digit_lower_not_under; try lia.
    rewrite Hu. reflexivity.
  - cbn [forallb]. apply forallb_forall. intros c Hc. apply in_map_iff in Hc as (d & <- & Hd).
    rewrite Forall_forall in HF. destruct (digit_lower_plain d) as [-> _]; [|reflexivity]. specialize (HF d Hd). lia.
Qed.
Lemma dec_inj n m : dec n = dec m -> n = m.
Proof. intros E. pose proof (int10_dec n) as En. rewrite E, int10_dec in En. injection En. lia. Qed.
Lemma decZ_inj n m : decZ n = decZ m -> n = m.
Proof. intros E. pose proof (int10_decZ n) as En. rewrite E, int10_decZ in En. congruence. Qed.
Lemma decZ_not_in z c : is_digit c = false -> c <> cMinus -> ~ In c (decZ z).
Proof.
  intros Hc Hm. destruct z as [|p|p]; cbn [decZ].
  - apply dec_not_in. assumption.
  - apply dec_not_in. assumption.
  - intros [E|Hi]; [congruence|]. revert Hi. apply dec_not_in. assumption.
Qed.
Lemma decZ_nonempty z : decZ z <> [].
Proof. destruct z; cbn [decZ]; try apply dec_nonempty. discriminate. Qed.

(** ** Padded hexadecimal *)

Lemma map_repeat' {A B} (f : A -> B) x n : map f (repeat x n) = repeat (f x) n.
Proof. induction n as [|n IH]; cbn [repeat map]; [reflexivity | rewrite IH; reflexivity]. Qed.
Lemma pad0_map_zeros g w ds :
  g 0 = 48 -> pad0 w (map g ds) = map g (repeat 0 (N.to_nat (w - lenN ds)) ++ ds).
Proof.
  intros Hg. unfold pad0. rewrite lenN_map, map_app, map_repeat', Hg. reflexivity.
Qed.
Lemma undigits_zeros base k ds : undigits base (repeat 0 k ++ ds) = undigits base ds.
Proof.
  induction k as [|k IH]; cbn [repeat app]; [reflexivity|]. rewrite undigits_cons, IH. lia.
Qed.
Lemma hexl_value w n : int16 (hexl w n) = Ok (Z.of_N n).
Proof.
  unfold int16, hexl. destruct (digits_spec 16 n ltac:(lia)) as (Hu & HF & Hne & _).
  rewrite pad0_map_zeros by reflexivity.
  rewrite int_of_map; auto using digit_val_lower, digit_lower_not_under, digit_lower_plain; try lia.
  - rewrite undigits_zeros, Hu. reflexivity.
  - apply Forall_app. split; [|assumption]. apply Forall_forall. intros x Hx. apply repeat_spec in Hx. lia.
  - intros E. apply app_eq_nil in E as [_ E]. congruence.
Qed.
Lemma hexu_value w n : int16 (hexu w n) = Ok (Z.of_N n).
Proof.
  unfold int16, hexu. destruct (digits_spec 16 n ltac:(lia)) as (Hu & HF & Hne & _).
  rewrite pad0_map_zeros by reflexivity.
  rewrite int_of_map; auto using digit_val_upper, digit_upper_not_under, digit_upper_plain; try lia.
  - rewrite undigits_zeros, Hu. reflexivity.
  - apply Forall_app. split; [|assumption]. apply Forall_forall. intros x Hx. apply repeat_spec in Hx. lia.
  - intros E. apply app_eq_nil in E as [_ E]. congruence.
Qed.
Lemma hexl_inj w n m : hexl w n = hexl w m -> n = m.
Proof. intros E. pose proof (hexl_value w n) as En. rewrite E, hexl_value in En. injection En. lia. Qed.
Lemma hexu_inj w n m : hexu w n = hexu w m -> n = m.
Proof. intros E. pose proof (hexu_value w n) as En. rewrite E, hexu_value in En. injection En. lia. Qed.
Lemma hexl_len w n : 0 < w -> n < 16 ^ w -> lenN (hexl w n) = w.
Proof.
  intros Hw Hn. unfold hexl, pad0. pose proof (digits_len 16 n w ltac:(lia) Hw Hn).
  rewrite lenN_app, lenN_map, (lenN_length (repeat _ _)), repeat_length. lia.
Qed.
Lemma hexu_len w n : 0 < w -> n < 16 ^ w -> lenN (hexu w n) = w.
Proof.
  intros Hw Hn. unfold hexu, pad0. pose proof (digits_len 16 n w ltac:(lia) Hw Hn).
  rewrite lenN_app, lenN_map, (lenN_length (repeat _ _)), repeat_length. lia.
Qed.
Lemma hexl_chars w n : Forall (fun c => is_digit c = true \/ 97 <= c <= 102) (hexl w n).
Proof.
  unfold hexl. destruct (digits_spec 16 n ltac:(lia)) as (_ & HF & _).
  rewrite pad0_map_zeros by reflexivity. apply Forall_map. apply Forall_app. split.
  - apply Forall_forall. intros x Hx. apply repeat_spec in Hx. subst. left. reflexivity.
  - eapply Forall_impl; [|exact HF]. cbn. intros d Hd. unfold digit_lower, is_digit. destruct (N.ltb_spec d 10); lia.
Qed.
Lemma hexu_chars w n : Forall (fun c => is_upper_hex c = true) (hexu w n).
Proof.
  unfold hexu. destruct (digits_spec 16 n ltac:(lia)) as (_ & HF & _).
  rewrite pad0_map_zeros by reflexivity. apply Forall_map. apply Forall_app. split.
  - apply Forall_forall. intros x Hx. apply repeat_spec in Hx. subst. reflexivity.
  - eapply Forall_impl; [|exact HF]. cbn. intros d Hd. unfold digit_upper, is_upper_hex, is_digit. destruct (N.ltb_spec d 10); lia.
Qed.
Lemma hexl_not_in w n c : is_digit c = false -> ~ 97 <= c <= 102 -> ~ In c (hexl w n).
Proof.
  intros Hc Hr Hi. pose proof (hexl_chars w n) as HF. rewrite Forall_forall in HF.
  destruct (HF c Hi) as [E|E]; [congruence | lia].
Qed.

(** ** Lexicographic order *)

Section Lex.
  Context {A : Type} (lt eq : A -> A -> bool).
  Context (eq_ok : forall a b, eq a b = true <-> a = b).
  Context (lt_irr : forall a, lt a a = false).
  Context (lt_tr : forall a b c, lt a b = true -> lt b c = true -> lt a c = true).
  Context (lt_tot : forall a b, lt a b = true \/ a = b \/ lt b a = true).

  Lemma lex_irrefl x : lex_lt lt eq x x = false.
  Proof.
    induction x as [|a x IH]; cbn [lex_lt]; [reflexivity|].
    replace (eq a a) with true by (symmetry; apply eq_ok; reflexivity). exact IH.
  Qed.
  Lemma lex_trans x y z : lex_lt lt eq x y = true -> lex_lt lt eq y z = true -> lex_lt lt eq x z = true.
  Proof.
    revert y z. induction x as [|a x IH]; intros [|b y] [|c z]; cbn [lex_lt]; try discriminate; try reflexivity.
    destruct (eq a b) eqn:Eab.
    - apply eq_ok in Eab. subst b. destruct (eq a c) eqn:Eac; [apply IH | intros _ E; exact E].
    - destruct (eq b c) eqn:Ebc.
      + apply eq_ok in Ebc. subst c. rewrite Eab. intros E _. exact E.
      + intros Hab Hbc. destruct (eq a c) eqn:Eac.
        * apply eq_ok in Eac. subst c. pose proof (lt_tr _ _ _ Hab Hbc) as Haa. rewrite lt_irr in Haa. discriminate.
        * eapply lt_tr; eassumption.
  Qed.
  Lemma lex_total x y : lex_lt lt eq x y = true \/ x = y \/ lex_lt lt eq y x = true.
  Proof.
    revert y. induction x as [|a x IH]; intros [|b y]; cbn [lex_lt]; auto.
    destruct (eq a b) eqn:Eab.
    - apply eq_ok in Eab. subst b. replace (eq a a) with true by (symmetry; apply eq_ok; reflexivity).
      destruct (IH y) as [E|[->|E]]; auto.
    - replace (eq b a) with false.
      + destruct (lt_tot a b) as [E|[->|E]]; auto. 
        exfalso. assert (eq b b = true) by (apply eq_ok; reflexivity). congruence.
      + symmetry. destruct (eq b a) eqn:E; [|reflexivity]. apply eq_ok in E. subst.
        assert (eq a a = true) by (apply eq_ok; reflexivity). congruence.
  Qed.
End Lex.

Lemma str_lt_irrefl x : str_lt x x = false.
Proof. apply lex_irrefl. apply N.eqb_eq. Qed.
Lemma str_lt_trans x y z : str_lt x y = true -> str_lt y z = true -> str_lt x z = true.
Proof. apply lex_trans; [apply N.eqb_eq | lia | lia]. Qed.
Lemma str_lt_total x y : str_lt x y = true \/ x = y \/ str_lt y x = true.
Proof. apply lex_total; [apply N.eqb_eq | lia]. Qed.

(** ** Sorting *)

From Coq Require Export Sorted.

Section Sort.
  Context {A : Type} (lt : A -> A -> bool).

  Lemma insert_perm x l : Permutation (x :: l) (insert_sorted lt x l).
  Proof.
    induction l as [|y t IH]; cbn [insert_sorted]; [reflexivity|].
    destruct (lt y x); [|reflexivity]. rewrite perm_swap. constructor. assumption.
  Qed.
  Lemma py_sorted_perm l : Permutation l (py_sorted lt l).
  Proof.
    induction l as [|x t IH]; cbn [py_sorted fold_right]; [constructor|].
    fold (py_sorted lt t). rewrite <- insert_perm. constructor. assumption.
  Qed.
  Lemma py_sorted_rev_perm l : Permutation l (py_sorted_rev lt l).
  Proof.
    unfold py_sorted_rev. rewrite <- Permutation_rev, <- py_sorted_perm. apply Permutation_rev.
  Qed.

  (** [lt] as a strict weak order: asymmetric and negatively transitive. *)
  Context (lt_asym : forall a b, lt a b = true -> lt b a = false).
  Context (lt_ntrans : forall a b c, lt a b = false -> lt b c = false -> lt a c = false).

  Definition nlt_rev (a b : A) : Prop := lt b a = false.

  Lemma insert_sorted_ok x l : StronglySorted nlt_rev l -> StronglySorted nlt_rev (insert_sorted lt x l).
  Proof.
    induction l as [|y t IH]; intros Hs; cbn [insert_sorted]; [repeat constructor|].
    inversion Hs as [|? ? Ht HF]; subst. destruct (lt y x) eqn:E.
    - constructor; [apply IH; assumption|].
      eapply Permutation_Forall; [apply insert_perm|]. constructor; [|assumption].
      apply lt_asym. assumption.
    - constructor; [assumption|]. constructor; [exact E|].
      eapply Forall_impl; [|exact HF]. cbn. intros z Hz. unfold nlt_rev in *. eapply lt_ntrans; eassumption.
  Qed.
  Lemma py_sorted_sorted l : StronglySorted nlt_rev (py_sorted lt l).
  Proof.
    induction l as [|x t IH]; cbn [py_sorted fold_right]; [constructor|]. apply insert_sorted_ok. assumption.
  Qed.

  (** Stability: elements of one equivalence class keep their order. *)
  Definition equivb (a b : A) : bool := negb (lt a b) && negb (lt b a).
  Lemma equivb_refl a : equivb a a = true.
  Proof.
    unfold equivb. destruct (lt a a) eqn:E; [|reflexivity].
    pose proof (lt_asym _ _ E). congruence.
  Qed.
  Lemma insert_stable a x l : StronglySorted nlt_rev l ->
    filter (equivb a) (insert_sorted lt x l) = filter (equivb a) (x :: l).
  Proof.
    induction l as [|y t IH]; intros Hs; cbn [insert_sorted]; [reflexivity|].
    inversion Hs as [|? ? Ht HF]; subst. destruct (lt y x) eqn:E; [|reflexivity].
    cbn [filter] in *. rewrite IH by assumption.
    destruct (equivb a x) eqn:Ex; [|reflexivity]. destruct (equivb a y) eqn:Ey; [|reflexivity].
    exfalso. unfold equivb in *.
    destruct (lt y a) eqn:E1; [rewrite andb_comm in Ey; discriminate|].
    destruct (lt a x) eqn:E2; [discriminate|].
    pose proof (lt_ntrans y a x E1 E2). congruence.
  Qed.
  Lemma py_sorted_stable a l : filter (equivb a) (py_sorted lt l) = filter (equivb a) l.
  Proof.
    induction l as [|x t IH]; cbn [py_sorted fold_right]; [reflexivity|]. fold (py_sorted lt t).
    rewrite insert_stable by apply py_sorted_sorted. cbn [filter]. rewrite IH. reflexivity.
  Qed.
End Sort.

(** Two sorted lists with the same elements are equal when equivalent elements are equal. *)
Lemma sorted_unique {A} (R : A -> A -> Prop) (l1 l2 : list A) :
  (forall a b, In a l1 -> In b l1 -> R a b -> R b a -> a = b) ->
  StronglySorted R l1 -> StronglySorted R l2 -> Permutation l1 l2 -> l1 = l2.
Proof.
  revert l2. induction l1 as [|x t IH]; intros l2 Hanti H1 H2 Hp.
  - apply Permutation_nil in Hp. congruence.
  - destruct l2 as [|y t2]; [apply Permutation_sym, Permutation_nil in Hp; congruence|].
    inversion H1 as [|? ? Ht1 HF1]; subst. inversion H2 as [|? ? Ht2 HF2]; subst.
    assert (x = y).
    { assert (Hx : In x (y :: t2)) by (eapply Permutation_in; [exact Hp | left; reflexivity]).
      assert (Hy : In y (x :: t)) by (eapply Permutation_in; [symmetry; exact Hp | left; reflexivity]).
      destruct Hx as [E|Hx]; [congruence|]. destruct Hy as [E|Hy]; [congruence|].
      rewrite Forall_forall in HF1, HF2. apply Hanti; [left; reflexivity | right; assumption | auto | auto]. }
    subst y. f_equal. apply IH; auto.
    + intros a b Ha Hb. apply Hanti; right; assumption.
    + eapply Permutation_cons_inv. eassumption.
Qed.

Lemma insert_id {A} (lt : A -> A -> bool) x l :
  Forall (fun y => lt y x = false) l -> insert_sorted lt x l = x :: l.
Proof. intros HF. destruct l as [|y t]; cbn [insert_sorted]; [reflexivity|]. inversion HF; subst. rewrite H1. reflexivity. Qed.
Lemma py_sorted_id {A} (lt : A -> A -> bool) l :
  StronglySorted (fun a b => lt b a = false) l -> py_sorted lt l = l.
Proof.
  induction l as [|x t IH]; intros Hs; [reflexivity|]. cbn [py_sorted fold_right]. fold (py_sorted lt t).
  inversion Hs; subst. rewrite IH by assumption. apply insert_id. assumption.
Qed.

(** ** Paths *)

Lemma splitext_concat p : fst (splitext p) ++ snd (splitext p) = p.
Proof.
  unfold splitext. destruct (cut_last cSlash p) as [[h t]|] eqn:E.
  - apply cut_last_Some in E as [-> Ht]. destruct (cut_last cDot t) as [[b e]|] eqn:Ed.
    + destruct (forallb _ b); cbn [fst snd]; [apply app_nil_r|].
      apply cut_last_Some in Ed as [-> _]. rewrite <- !app_assoc. reflexivity.
    + cbn [fst snd]. apply app_nil_r.
  - destruct (cut_last cDot p) as [[b e]|] eqn:Ed.
    + destruct (forallb _ b); cbn [fst snd]; [apply app_nil_r|].
      apply cut_last_Some in Ed as [-> _]. reflexivity.
    + cbn [fst snd]. apply app_nil_r.
Qed.
