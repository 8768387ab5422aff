(** * UTF-8 proofs *)

From Verif Require Export Base.Utf8 Spec.Utf8Spec.
From Verif Require Import Base.PyFacts.

Ltac Zify.zify_post_hook ::= Z.div_mod_to_equations.

Ltac split_ifs :=
  repeat match goal with
  | H : context [if ?b then _ else _] |- _ => destruct b eqn:?
  | |- context [if ?b then _ else _] => destruct b eqn:?
  end.

Lemma enc1_nonempty c : utf8_enc1 c <> [].
Proof. unfold utf8_enc1. split_ifs; discriminate. Qed.
Lemma enc1_len_pos c : (0 < length (utf8_enc1 c))%nat.
Proof. pose proof (enc1_nonempty c). destruct (utf8_enc1 c); [congruence | cbn; lia]. Qed.

(** A decoding step on an encoded scalar value. *)
Lemma step_enc1 c post : scalar c ->
  exists x t, utf8_enc1 c ++ post = x :: t /\ utf8_step x t = UGood c (length (utf8_enc1 c)).
Proof.
  intros Hs. unfold utf8_enc1.
  destruct (c <? 128) eqn:E1.
  { do 2 eexists. split; [reflexivity|]. unfold utf8_step. rewrite b2n_n2b_small by lia. rewrite E1. reflexivity. }
  destruct (c <? 2048) eqn:E2.
  { do 2 eexists. split; [reflexivity|]. unfold utf8_step, is_cont. cbn [app length].
    rewrite !b2n_n2b_small by lia.
    replace (192 + c / 64 <? 128) with false by lia. replace (192 + c / 64 <? 194) with false by lia.
    replace (192 + c / 64 <? 224) with true by lia.
    replace ((128 <=? 128 + c mod 64) && (128 + c mod 64 <? 192)) with true by lia.
    f_equal. lia. }
  destruct (c <? 65536) eqn:E3.
  { do 2 eexists. split; [reflexivity|]. unfold utf8_step, is_cont. cbn [app length].
    unfold scalar in Hs.
    rewrite !b2n_n2b_small by lia.
    set (a := c / 4096). set (b := c / 64 mod 64). set (d := c mod 64).
    assert (Hc : c = a * 4096 + b * 64 + d) by (subst a b d; lia).
    assert (a < 16) by (subst a; lia). assert (b < 64) by (subst b; lia). assert (d < 64) by (subst d; lia).
    replace (224 + a <? 128) with false by lia. replace (224 + a <? 194) with false by lia.
    replace (224 + a <? 224) with false by lia. replace (224 + a <? 240) with true by lia.
    replace (((128 <=? 128 + b) && (128 + b <? 192)) && negb ((224 + a =? 224) && (128 + b <? 160)) &&
             negb ((224 + a =? 237) && (160 <=? 128 + b))) with true by lia.
    replace ((128 <=? 128 + d) && (128 + d <? 192)) with true by lia.
    f_equal. lia. }
  do 2 eexists. split; [reflexivity|]. unfold utf8_step, is_cont. cbn [app length].
  unfold scalar in Hs.
  rewrite !b2n_n2b_small by lia.
  set (a := c / 262144). set (b := c / 4096 mod 64). set (d := c / 64 mod 64). set (e := c mod 64).
  assert (Hc : c = a * 262144 + b * 4096 + d * 64 + e) by (subst a b d e; lia).
  assert (b < 64) by (subst b; lia). assert (d < 64) by (subst d; lia). assert (e < 64) by (subst e; lia).
  assert (a < 5) by lia.
  replace (240 + a <? 128) with false by lia. replace (240 + a <? 194) with false by lia.
  replace (240 + a <? 224) with false by lia. replace (240 + a <? 240) with false by lia.
  replace (240 + a <? 245) with true by lia.
  replace (((128 <=? 128 + b) && (128 + b <? 192)) && negb ((240 + a =? 240) && (128 + b <? 144)) &&
           negb ((240 + a =? 244) && (144 <=? 128 + b))) with true by lia.
  replace ((128 <=? 128 + d) && (128 + d <? 192)) with true by lia.
  replace ((128 <=? 128 + e) && (128 + e <? 192)) with true by lia.
  f_equal. lia.
Qed.

(** A successful step consumes the encoding of a scalar value. *)
Lemma n2b_eq b n : b2n b = n -> n2b n = b.
Proof. intros <-. apply n2b_b2n. Qed.
Lemma step_good x t c n : utf8_step x t = UGood c n ->
  scalar c /\ n = length (utf8_enc1 c) /\ x :: t = utf8_enc1 c ++ skipn n (x :: t).
Proof.
  unfold utf8_step. pose proof (b2n_lt x) as Hx.
  destruct (b2n x <? 128) eqn:E1.
  { intros E. injection E as <- <-. unfold scalar, utf8_enc1. rewrite E1.
    split; [lia|]. split; [reflexivity|]. rewrite n2b_b2n. reflexivity. }
  destruct (b2n x <? 194) eqn:E2; [discriminate|].
  destruct (b2n x <? 224) eqn:E3.
  { destruct t as [|b1 t1]; [discriminate|]. unfold is_cont. pose proof (b2n_lt b1).
    destruct (_ && _) eqn:Ec; [|discriminate]. intros E. injection E as <- <-.
    set (c := (b2n x - 192) * 64 + (b2n b1 - 128)).
    assert (c / 64 = b2n x - 192) by (subst c; lia). assert (c mod 64 = b2n b1 - 128) by (subst c; lia).
    assert (128 <= c < 2048) by (subst c; lia).
    unfold scalar, utf8_enc1. replace (c <? 128) with false by lia. replace (c <? 2048) with true by lia.
    split; [lia|]. split; [reflexivity|]. cbn [skipn app].
    rewrite (n2b_eq x) by lia. rewrite (n2b_eq b1) by lia. reflexivity. }
  destruct (b2n x <? 240) eqn:E4.
  { destruct t as [|b1 t1]; [discriminate|]. unfold is_cont. pose proof (b2n_lt b1).
    destruct (_ && _ && _) eqn:Ec1; [|discriminate].
    destruct t1 as [|b2 t2]; [discriminate|]. pose proof (b2n_lt b2).
    destruct (_ && _) eqn:Ec2 in |- *; [|discriminate]. intros E. injection E as <- <-.
    set (c := (b2n x - 224) * 4096 + (b2n b1 - 128) * 64 + (b2n b2 - 128)).
    assert (c / 4096 = b2n x - 224) by (subst c; lia). assert (c / 64 mod 64 = b2n b1 - 128) by (subst c; lia).
    assert (c mod 64 = b2n b2 - 128) by (subst c; lia).
    assert (2048 <= c < 65536) by (subst c; lia).
    assert (c < 55296 \/ 57344 <= c) by (subst c; lia).
    unfold scalar, utf8_enc1. replace (c <? 128) with false by lia. replace (c <? 2048) with false by lia.
    replace (c <? 65536) with true by lia.
    split; [lia|]. split; [reflexivity|]. cbn [skipn app].
    rewrite (n2b_eq x) by lia. rewrite (n2b_eq b1) by lia. rewrite (n2b_eq b2) by lia. reflexivity. }
  destruct (b2n x <? 245) eqn:E5; [|discriminate].
  destruct t as [|b1 t1]; [discriminate|]. unfold is_cont. pose proof (b2n_lt b1).
  destruct (_ && _ && _) eqn:Ec1; [|discriminate].
  destruct t1 as [|b2 t2]; [discriminate|]. pose proof (b2n_lt b2).
  destruct (_ && _) eqn:Ec2 in |- *; [|discriminate].
  destruct t2 as [|b3 t3]; [discriminate|]. pose proof (b2n_lt b3).
  destruct (_ && _) eqn:Ec3 in |- *; [|discriminate]. intros E. injection E as <- <-.
  set (c := (b2n x - 240) * 262144 + (b2n b1 - 128) * 4096 + (b2n b2 - 128) * 64 + (b2n b3 - 128)).
  assert (c / 262144 = b2n x - 240) by (subst c; lia). assert (c / 4096 mod 64 = b2n b1 - 128) by (subst c; lia).
  assert (c / 64 mod 64 = b2n b2 - 128) by (subst c; lia). assert (c mod 64 = b2n b3 - 128) by (subst c; lia).
  assert (65536 <= c < 1114112) by (subst c; lia).
  unfold scalar, utf8_enc1. replace (c <? 128) with false by lia. replace (c <? 2048) with false by lia.
  replace (c <? 65536) with false by lia.
  split; [lia|]. split; [reflexivity|]. cbn [skipn app].
  rewrite (n2b_eq x) by lia. rewrite (n2b_eq b1) by lia. rewrite (n2b_eq b2) by lia. rewrite (n2b_eq b3) by lia. reflexivity.
Qed.

Lemma skipn_app_exact {A} (l1 l2 : list A) : skipn (length l1) (l1 ++ l2) = l2.
Proof. rewrite skipn_app, skipn_all, Nat.sub_diag. reflexivity. Qed.

Lemma strict_fuel_app fuel s post :
  Forall scalar s -> (length (utf8_enc s) <= fuel)%nat ->
  exists fuel', (fuel <= fuel' + length (utf8_enc s))%nat /\ (length post <= fuel - length (utf8_enc s) -> length post <= fuel')%nat /\
  utf8_strict_fuel fuel (utf8_enc s ++ post) = rmap (fun t => s ++ t) (utf8_strict_fuel fuel' post).
Proof.
  intros HF. revert fuel. induction HF as [|c s Hc HF IH]; intros fuel Hlen; cbn [utf8_enc flat_map] in *.
  - exists fuel. cbn [app length]. split; [lia|]. split; [lia|]. destruct (utf8_strict_fuel fuel post); reflexivity.
  - fold (utf8_enc s) in *. rewrite app_length in Hlen. pose proof (enc1_len_pos c).
    destruct fuel as [|fuel]; [lia|].
    destruct (step_enc1 c (utf8_enc s ++ post) Hc) as (x & t & E & Es). rewrite <- app_assoc, E. cbn [utf8_strict_fuel].
    rewrite Es. rewrite <- E, skipn_app_exact.
    destruct (IH fuel) as (fuel' & H1 & H2 & H3); [lia|]. exists fuel'. rewrite app_length.
    split; [lia|]. split; [lia|]. rewrite H3. destruct (utf8_strict_fuel fuel' post); reflexivity.
Qed.

Lemma strict_fuel_mono fuel1 fuel2 b :
  (length b <= fuel1)%nat -> (length b <= fuel2)%nat -> utf8_strict_fuel fuel1 b = utf8_strict_fuel fuel2 b.
Proof.
  revert fuel2 b. induction fuel1 as [|f1 IH]; intros fuel2 b H1 H2.
  - destruct b; [|cbn in H1; lia]. destruct fuel2; reflexivity.
  - destruct fuel2 as [|f2]; [destruct b; [reflexivity | cbn in H2; lia]|].
    destruct b as [|x t]; [reflexivity|]. cbn [utf8_strict_fuel].
    destruct (utf8_step x t) as [c n|n] eqn:E; [|reflexivity].
    destruct (step_good x t c n E) as (_ & -> & _). pose proof (enc1_len_pos c).
    rewrite (IH f2); [reflexivity | |]; rewrite skipn_length; cbn [length] in *; lia.
Qed.

Lemma utf8_dec_app s post : Forall scalar s ->
  utf8_dec (utf8_enc s ++ post) = rmap (fun t => s ++ t) (utf8_dec post).
Proof.
  intros HF. unfold utf8_dec.
  destruct (strict_fuel_app (length (utf8_enc s ++ post)) s post HF) as (f' & H1 & H2 & ->); [rewrite app_length; lia|].
  rewrite app_length in *. rewrite (strict_fuel_mono f' (length post)); [reflexivity | |lia]. apply H2. lia.
Qed.
Lemma utf8_dec_enc s : Forall scalar s -> utf8_dec (utf8_enc s) = Ok s.
Proof.
  intros HF. rewrite <- (app_nil_r (utf8_enc s)), utf8_dec_app by assumption. cbn. rewrite app_nil_r. reflexivity.
Qed.
Lemma utf8_dec_sound b s : utf8_dec b = Ok s -> Forall scalar s /\ b = utf8_enc s.
Proof.
  unfold utf8_dec. generalize (length b). intros fuel. revert b s.
  induction fuel as [|f IH]; intros b s.
  - destruct b; cbn [utf8_strict_fuel]; [|discriminate]. intros E. injection E as <-. split; [constructor | reflexivity].
  - destruct b as [|x t]; cbn [utf8_strict_fuel]; [intros E; injection E as <-; split; [constructor | reflexivity]|].
    destruct (utf8_step x t) as [c n|n] eqn:Es; [|discriminate].
    intros E. apply rbind_Ok in E as (s' & E & E'). injection E' as <-.
    destruct (step_good x t c n Es) as (Hc & Hn & Hx). apply IH in E as [HF He].
    split; [constructor; assumption|]. cbn [utf8_enc flat_map]. fold (utf8_enc s'). rewrite <- He. assumption.
Qed.
Lemma utf8_dec_error b e : utf8_dec b = Err e -> e = UnicodeDecodeError.
Proof.
  unfold utf8_dec.
  assert (G : forall fuel b, (length b <= fuel)%nat -> utf8_strict_fuel fuel b = Err e -> e = UnicodeDecodeError).
  { induction fuel as [|f IH]; intros b' Hl.
    - destruct b'; [discriminate | cbn in Hl; lia].
    - destruct b' as [|x t]; cbn [utf8_strict_fuel]; [discriminate|].
      destruct (utf8_step x t) as [c n|n] eqn:Es; [|intros E; injection E as <-; reflexivity].
      destruct (utf8_strict_fuel f (skipn n (x :: t))) as [s'|e'] eqn:E'; cbn [rbind]; [discriminate|].
      intros E. injection E as ->. apply IH in E'; [assumption|].
      destruct (step_good x t c n Es) as (_ & Hn & _). pose proof (enc1_len_pos c).
      rewrite skipn_length. cbn [length] in *. lia. }
  apply G. reflexivity.
Qed.
Lemma utf8_dec_iff b s : utf8_dec b = Ok s <-> Forall scalar s /\ b = utf8_enc s.
Proof. split; [apply utf8_dec_sound | intros [HF ->]; apply utf8_dec_enc; assumption]. Qed.

(** Every proper encoding is recognised by its first byte, which is not a continuation byte. *)
Lemma enc1_head c : scalar c -> exists x t, utf8_enc1 c = x :: t /\ is_cont x = false.
Proof.
  intros Hs. unfold utf8_enc1, scalar in *.
  destruct (c <? 128) eqn:E1; [do 2 eexists; split; [reflexivity|]; unfold is_cont; rewrite b2n_n2b_small; lia|].
  destruct (c <? 2048) eqn:E2; [do 2 eexists; split; [reflexivity|]; unfold is_cont; rewrite b2n_n2b_small; lia|].
  destruct (c <? 65536) eqn:E3; do 2 eexists; (split; [reflexivity|]); unfold is_cont; rewrite b2n_n2b_small; lia.
Qed.
Lemma enc_head s : Forall scalar s -> s <> [] -> exists x t, utf8_enc s = x :: t /\ is_cont x = false.
Proof.
  intros HF Hs. destruct s as [|c s]; [congruence|]. inversion HF; subst. cbn [utf8_enc flat_map].
  destruct (enc1_head c) as (x & t & -> & Hx); [assumption|]. do 2 eexists. split; [reflexivity | assumption].
Qed.

Lemma enc_app a b : utf8_enc (a ++ b) = utf8_enc a ++ utf8_enc b.
Proof. unfold utf8_enc. apply flat_map_app. Qed.

(** ** Replacement decoding *)

Lemma step_len x t :
  match utf8_step x t with UGood _ n | UBad n => (1 <= n <= length (x :: t))%nat end.
Proof.
  unfold utf8_step. cbn [length].
  repeat match goal with
  | |- context [if ?b then _ else _] => destruct b
  | |- context [match ?t with [] => _ | _ => _ end] => destruct t; cbn [length]
  end; lia.
Qed.
Lemma replace_fuel_mono fuel1 fuel2 b :
  (length b <= fuel1)%nat -> (length b <= fuel2)%nat -> utf8_replace_fuel fuel1 b = utf8_replace_fuel fuel2 b.
Proof.
  revert fuel2 b. induction fuel1 as [|f1 IH]; intros fuel2 b H1 H2.
  - destruct b; [|cbn in H1; lia]. destruct fuel2; reflexivity.
  - destruct fuel2 as [|f2]; [destruct b; [reflexivity | cbn in H2; lia]|].
    destruct b as [|x t]; [reflexivity|]. cbn [utf8_replace_fuel].
    pose proof (step_len x t) as Hl. destruct (utf8_step x t) as [c n|n];
    (rewrite (IH f2); [reflexivity | |]); rewrite skipn_length; cbn [length] in *; lia.
Qed.
Lemma replace_unfold x t :
  utf8_dec_replace (x :: t) =
  match utf8_step x t with
  | UGood cp n => cp :: utf8_dec_replace (skipn n (x :: t))
  | UBad n => 65533 :: utf8_dec_replace (skipn n (x :: t))
  end.
Proof.
  unfold utf8_dec_replace at 1. cbn [length utf8_replace_fuel].
  pose proof (step_len x t) as Hl. destruct (utf8_step x t) as [c n|n]; f_equal; apply replace_fuel_mono;
    rewrite ?skipn_length; cbn [length] in *; lia.
Qed.

Lemma replace_app_good s post : Forall scalar s ->
  utf8_dec_replace (utf8_enc s ++ post) = s ++ utf8_dec_replace post.
Proof.
  induction 1 as [|c s Hc HF IH]; [reflexivity|]. cbn [utf8_enc flat_map]. fold (utf8_enc s).
  destruct (step_enc1 c (utf8_enc s ++ post) Hc) as (x & t & E & Es). rewrite <- app_assoc, E, replace_unfold, Es, <- E.
  rewrite skipn_app_exact, IH. reflexivity.
Qed.
Lemma replace_strict b s : utf8_dec b = Ok s -> utf8_dec_replace b = s.
Proof.
  intros E. apply utf8_dec_sound in E as [HF ->]. rewrite <- (app_nil_r (utf8_enc s)), replace_app_good by assumption.
  cbn. apply app_nil_r.
Qed.

(** The step on a prefix is not changed by what follows, if that starts with a non-continuation byte. *)
Lemma step_app x t y r : is_cont y = false -> utf8_step x (t ++ y :: r) = utf8_step x t.
Proof.
  intros Hy. unfold utf8_step.
  destruct (b2n x <? 128); [reflexivity|]. destruct (b2n x <? 194); [reflexivity|].
  destruct (b2n x <? 224).
  { destruct t as [|b1 t]; cbn [app]; [rewrite Hy|]; reflexivity. }
  destruct (b2n x <? 240).
  { destruct t as [|b1 t]; cbn [app]; [rewrite Hy; reflexivity|]. destruct (_ && _ && _); [|reflexivity].
    destruct t as [|b2 t]; cbn [app]; [rewrite Hy|]; reflexivity. }
  destruct (b2n x <? 245); [|reflexivity].
  destruct t as [|b1 t]; cbn [app]; [rewrite Hy; reflexivity|]. destruct (_ && _ && _); [|reflexivity].
  destruct t as [|b2 t]; cbn [app]; [rewrite Hy; reflexivity|]. destruct (is_cont b2); [|reflexivity].
  destruct t as [|b3 t]; cbn [app]; [rewrite Hy|]; reflexivity.
Qed.

Lemma replace_app_nocont b y r : is_cont y = false ->
  utf8_dec_replace (b ++ y :: r) = utf8_dec_replace b ++ utf8_dec_replace (y :: r).
Proof.
  intros Hy. remember (length b) as n eqn:En. revert b En.
  induction n as [n IH] using (well_founded_induction lt_wf). intros b ->.
  destruct b as [|x t]; [reflexivity|]. cbn [app]. rewrite !(replace_unfold x), step_app by assumption.
  pose proof (step_len x t) as Hl.
  assert (Hsk : forall n, (1 <= n <= length (x :: t))%nat ->
     utf8_dec_replace (skipn n (x :: t ++ y :: r)) = utf8_dec_replace (skipn n (x :: t)) ++ utf8_dec_replace (y :: r)).
  { intros n Hn. change (x :: t ++ y :: r) with ((x :: t) ++ y :: r). rewrite skipn_app.
    replace (n - length (x :: t))%nat with 0%nat by lia. cbn [skipn]. rewrite (IH (length (skipn n (x :: t)))); [reflexivity | | reflexivity].
    rewrite skipn_length. cbn [length] in *. lia. }
  destruct (utf8_step x t) as [c n|n]; rewrite (Hsk n Hl); reflexivity.
Qed.

(** Valid text before and after arbitrary bytes is kept. *)
Lemma replace_keeps s1 bad s2 : Forall scalar s1 -> Forall scalar s2 ->
  utf8_dec_replace (utf8_enc s1 ++ bad ++ utf8_enc s2) = s1 ++ utf8_dec_replace bad ++ s2.
Proof.
  intros H1 H2. rewrite replace_app_good by assumption. f_equal.
  destruct s2 as [|c s2]; [cbn; rewrite !app_nil_r; reflexivity|].
  destruct (enc_head (c :: s2) H2) as (x & t & E & Hx); [discriminate|].
  rewrite E, replace_app_nocont, <- E by assumption. f_equal.
  rewrite <- (app_nil_r (utf8_enc _)), replace_app_good by assumption. cbn. rewrite app_nil_r. reflexivity.
Qed.
Lemma replace_scalar b : Forall scalar (utf8_dec_replace b).
Proof.
  remember (length b) as n eqn:En. revert b En.
  induction n as [n IH] using (well_founded_induction lt_wf). intros b ->.
  destruct b as [|x t]; [constructor|]. rewrite replace_unfold. pose proof (step_len x t) as Hl.
  destruct (utf8_step x t) as [c n|n] eqn:Es; (constructor; [|apply (IH (length (skipn n (x :: t)))); [rewrite skipn_length; cbn [length] in *; lia | reflexivity]]).
  - apply step_good in Es. apply Es.
  - unfold scalar. lia.
Qed.
