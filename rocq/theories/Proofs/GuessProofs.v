(** * Proofs about the guessing of numbers and words *)

From Coq Require Import Permutation.
From Verif Require Import Base.Py Base.PyFacts Base.Text Base.TextFacts Model.Hashes Model.Patcher Model.Guess Spec.HashesSpec Spec.GuessSpec Proofs.HashesProofs.

(** ** Formats *)

Lemma span_digits_len s : (length (snd (span_digits s)) <= length s)%nat.
Proof.
  induction s as [|c t IH]; cbn [span_digits]; [auto|]. destruct (is_digit c); [|auto].
  destruct (span_digits t) as [a b]. cbn [snd length] in *. lia.
Qed.
Lemma span_digits_app a b : Forall (fun c => is_digit c = true) a -> match b with c :: _ => is_digit c = false | [] => True end -> span_digits (a ++ b) = (a, b).
Proof.
  induction 1 as [|c a Hc Ha IH]; intros Hb; cbn [app].
  - destruct b as [|c b]; cbn [span_digits]; [reflexivity|]. rewrite Hb. reflexivity.
  - cbn [span_digits]. rewrite Hc, (IH Hb). reflexivity.
Qed.

Section Format.
  Variable other : str -> list parg -> result str.
  Notation pct_fuel := (pct_fuel other). Notation pct := (pct other).

  Lemma pct_enough : forall k k' fmt args, (length fmt < k)%nat -> (length fmt < k')%nat -> pct_fuel k fmt args = pct_fuel k' fmt args.
  Proof.
    induction k as [|k IH]; intros k' fmt args Hk Hk'; [lia|]. destruct k' as [|k']; [lia|]. cbn [Guess.pct_fuel].
    destruct fmt as [|c t]; [reflexivity|]. cbn [length] in *.
    destruct (negb (c =? 37)); [rewrite (IH k' t args) by lia; reflexivity|].
    destruct t as [|d u]; [reflexivity|]. cbn [length] in *.
    destruct (d =? 37); [rewrite (IH k' u args) by lia; reflexivity|].
    destruct (d =? 115); [destruct args as [|a args]; [reflexivity|]; rewrite (IH k' u args) by lia; reflexivity|].
    destruct (d =? 100); [destruct args as [|[n|s] args]; [reflexivity| |reflexivity]; rewrite (IH k' u args) by lia; reflexivity|].
    destruct (d =? 48); [|reflexivity]. pose proof (span_digits_len u) as Hl. destruct (span_digits u) as [w v]. cbn [snd] in Hl.
    destruct v as [|x v]; [reflexivity|]. cbn [length] in Hl. destruct (x =? 100); [|reflexivity].
    destruct args as [|[n|s] args]; [reflexivity| |reflexivity]. rewrite (IH k' v args) by lia. reflexivity.
  Qed.
  Lemma pct_nil : pct [] [] = Ok [].
  Proof. reflexivity. Qed.
  Lemma pct_char c t args : c <> 37 -> pct (c :: t) args = rmap (cons c) (pct t args).
  Proof. intros Hc. unfold Guess.pct at 1. cbn [Guess.pct_fuel length]. rewrite (proj2 (N.eqb_neq _ _) Hc). reflexivity. Qed.
  Lemma rmap_id {A} (r : result A) : rmap (fun x => x) r = r.
  Proof. destruct r; reflexivity. Qed.
  Lemma rmap_rmap {A B C} (f : B -> C) (g : A -> B) (r : result A) : rmap f (rmap g r) = rmap (fun x => f (g x)) r.
  Proof. destruct r; reflexivity. Qed.
  Lemma pct_app a s args : ~ In 37 a -> pct (a ++ s) args = rmap (app a) (pct s args).
  Proof.
    induction a as [|c a IH]; intros Ha; cbn [app]; [symmetry; apply rmap_id|].
    rewrite pct_char by (intros ->; apply Ha; left; reflexivity). rewrite IH by (intros Hi; apply Ha; right; assumption).
    apply rmap_rmap.
  Qed.
  Lemma pct_plain a : ~ In 37 a -> pct a [] = Ok a.
  Proof. intros Ha. rewrite <- (app_nil_r a) at 1. rewrite pct_app by assumption. rewrite pct_nil. cbn [rmap]. rewrite app_nil_r. reflexivity. Qed.
  Lemma step_s k t a args : pct_fuel (S k) (37 :: 115 :: t) (a :: args) = rmap (app (parg_str a)) (pct_fuel k t args).
  Proof. reflexivity. Qed.
  Lemma step_d k t n args : pct_fuel (S k) (37 :: 100 :: t) (PInt n :: args) = rmap (app (dec n)) (pct_fuel k t args).
  Proof. reflexivity. Qed.
  Lemma step_0d k w t n args : Forall (fun c => is_digit c = true) w ->
    pct_fuel (S k) (37 :: 48 :: w ++ 100 :: t) (PInt n :: args) = rmap (app (pad0 (undigits 10 (map (fun c => c - 48) w)) (dec n))) (pct_fuel k t args).
  Proof.
    intros Hw. cbn [Guess.pct_fuel]. change (negb (37 =? 37)) with false. change (48 =? 37) with false. change (48 =? 115) with false. change (48 =? 100) with false. change (48 =? 48) with true.
    cbv iota. rewrite span_digits_app by (assumption || reflexivity). cbv iota beta. change (100 =? 100) with true. reflexivity.
  Qed.
  Lemma pct_s t a args : pct (lit "%s" ++ t) (a :: args) = rmap (app (parg_str a)) (pct t args).
  Proof. unfold Guess.pct. change (lit "%s" ++ t) with (37 :: 115 :: t). rewrite step_s. f_equal. apply pct_enough; cbn [length]; lia. Qed.
  Lemma pct_d t n args : pct (lit "%d" ++ t) (PInt n :: args) = rmap (app (dec n)) (pct t args).
  Proof. unfold Guess.pct. change (lit "%d" ++ t) with (37 :: 100 :: t). rewrite step_d. f_equal. apply pct_enough; cbn [length]; lia. Qed.
  Lemma dec_value w : undigits 10 (map (fun c => c - 48) (dec w)) = w.
  Proof.
    unfold dec. destruct (digits_spec 10 w ltac:(lia)) as (Hu & HF & _). rewrite map_map.
    rewrite (map_ext_in _ (fun x => x)); [rewrite map_id; assumption|]. intros d Hd. rewrite Forall_forall in HF. specialize (HF d Hd).
    unfold digit_lower. replace (d <? 10) with true by lia. lia.
  Qed.
  Lemma pct_0d w t n args : pct (lit "%0" ++ dec w ++ lit "d" ++ t) (PInt n :: args) = rmap (app (pad0 w (dec n))) (pct t args).
  Proof.
    unfold Guess.pct. change (lit "%0" ++ dec w ++ lit "d" ++ t) with (37 :: 48 :: dec w ++ 100 :: t).
    rewrite step_0d by apply dec_chars. rewrite dec_value. f_equal. apply pct_enough; cbn [length]; [rewrite app_length; cbn [length]; lia | lia].
  Qed.
  (** A format with several words. *)
  Lemma pct_words sep b : ~ In 37 sep -> ~ In 37 b -> forall ws, pct (concat (repeat (sep ++ lit "%s") (length ws)) ++ b) (map PStr ws) = Ok (concat (map (app sep) ws) ++ b).
  Proof.
    intros Hs Hb. induction ws as [|w ws IH]; cbn [length repeat concat map app]; [apply pct_plain; assumption|].
    rewrite <- !app_assoc. rewrite pct_app by assumption. rewrite pct_s, IH. reflexivity.
  Qed.
  Lemma concat_join (sep : str) w ws : w ++ concat (map (app sep) ws) = join sep (w :: ws).
  Proof.
    revert w. induction ws as [|x ws IH]; intros w; cbn [map concat]; [apply app_nil_r|].
    change (join sep (w :: x :: ws)) with (w ++ sep ++ join sep (x :: ws)). rewrite <- IH. rewrite <- app_assoc. reflexivity.
  Qed.
  Lemma pct_joined a sep b w ws : ~ In 37 a -> ~ In 37 sep -> ~ In 37 b ->
    pct (a ++ lit "%s" ++ concat (repeat (sep ++ lit "%s") (length ws)) ++ b) (map PStr (w :: ws)) = Ok (a ++ join sep (w :: ws) ++ b).
  Proof.
    intros Ha Hs Hb. rewrite pct_app by assumption. cbn [map]. rewrite pct_s, pct_words by assumption. cbn [rmap parg_str]. pose proof (concat_join sep w ws) as E. f_equal. f_equal. rewrite app_assoc. exact (f_equal (fun x => x ++ b) E).
  Qed.
  (** Formats which are refused. *)
  Lemma pct_cut a args : ~ In 37 a -> exists e, pct (a ++ [37]) args = Err e.
  Proof. intros Ha. rewrite pct_app by assumption. exists ValueError. reflexivity. Qed.
End Format.

(** ** Matches *)

Definition not_end (p : N -> bool) (a : str) : Prop := forall x c, a = x ++ [c] -> p c = false.
Definition not_start (p : N -> bool) (b : str) : Prop := forall c x, b = c :: x -> p c = false.
Definition whole (p : N -> bool) (a r b : str) : Prop := r <> [] /\ forallb p r = true /\ not_end p a /\ not_start p b.

Lemma not_end_app p a x c : p c = false -> not_end p (a ++ x ++ [c]).
Proof.
  intros Hc y d E. rewrite app_assoc in E. apply app_inj_tail in E as [_ <-]. assumption.
Qed.
Lemma whole_first p a run c t x r b : p c = false -> forallb p run = true -> run <> [] -> run ++ c :: t = x ++ r ++ b -> whole p (a ++ x) r b ->
  (x = [] /\ r = run /\ b = c :: t) \/ exists x', x = run ++ c :: x' /\ t = x' ++ r ++ b.
Proof.
  intros Hc Hr Hne E (W1 & W2 & W3 & W4). apply app_eq_app in E as (l & [[E1 E2]|[E1 E2]]).
  - (* x inside the run *)
    destruct x as [|y0 x0] using rev_ind.
    + cbn [app] in E1. subst l. left. split; [reflexivity|].
      apply app_eq_app in E2 as (m & [[F1 F2]|[F1 F2]]).
      * destruct m as [|d m]; [rewrite app_nil_r in F1; cbn [app] in F2; subst; auto|].
        cbn [app] in F2. inversion F2; subst d. subst r. rewrite forallb_app in W2. apply andb_prop in W2 as [_ W2]. cbn [forallb] in W2. rewrite Hc in W2. discriminate.
      * destruct m as [|d m]; [rewrite app_nil_r in F1; cbn [app] in F2; subst; auto|].
        subst run b. rewrite forallb_app in Hr. apply andb_prop in Hr as [_ Hr]. cbn [forallb] in Hr. apply andb_prop in Hr as [Hr _].
        rewrite (W4 d (m ++ c :: t) eq_refl) in Hr. discriminate.
    + exfalso. rewrite app_assoc in W3. specialize (W3 _ _ eq_refl). subst run. rewrite !forallb_app in Hr. cbn [forallb] in Hr. rewrite W3 in Hr.
      rewrite andb_false_r in Hr. discriminate.
  - destruct l as [|d l].
    + cbn [app] in E2. rewrite app_nil_r in E1. subst x. exfalso. destruct r as [|d r]; [congruence|]. cbn [app] in E2. inversion E2; subst d.
      cbn [forallb] in W2. rewrite Hc in W2. discriminate.
    + cbn [app] in E2. inversion E2; subst d. right. exists l. split; [assumption | reflexivity].
Qed.
Lemma runs_In p : forall s pre run a r b, not_end p pre -> forallb p run = true ->
  In (a, r, b) (runs p pre run s) <-> exists x, a = pre ++ x /\ run ++ s = x ++ r ++ b /\ whole p a r b.
Proof.
  induction s as [|c t IH]; intros pre run a r b Hp Hr; cbn [runs].
  - rewrite app_nil_r. split.
    + destruct run as [|d run]; [intros []|]. intros [E|[]]. inversion E; subst. exists []. split; [symmetry; apply app_nil_r|]. split; [rewrite app_nil_r; reflexivity|].
      split; [discriminate|]. split; [assumption|]. split; [assumption|]. intros e x E'. discriminate.
    + intros (x & -> & E & (W1 & W2 & W3 & W4)). assert (x = []) as ->.
      { destruct x as [|y0 x0] using rev_ind; [reflexivity|]. exfalso. rewrite app_assoc in W3. specialize (W3 _ _ eq_refl). subst run. rewrite !forallb_app in Hr. cbn [forallb] in Hr. rewrite W3 in Hr. rewrite ?andb_false_r in Hr. discriminate. }
      assert (b = []) as ->.
      { destruct b as [|d b]; [reflexivity|]. specialize (W4 _ _ eq_refl). subst run. rewrite !forallb_app in Hr. cbn [forallb] in Hr. rewrite W4, !andb_false_r in Hr. discriminate. }
      cbn [app] in E. rewrite app_nil_r in E. subst run. rewrite app_nil_r. destruct r; [congruence|]. left. reflexivity.
  - destruct (p c) eqn:Hc.
    + rewrite IH by (try assumption; rewrite forallb_app, Hr; cbn [forallb]; rewrite Hc; reflexivity).
      assert (E : (run ++ [c]) ++ t = run ++ c :: t) by (rewrite <- app_assoc; reflexivity). rewrite E. reflexivity.
    + destruct run as [|d run].
      * rewrite IH; [|apply (not_end_app p pre []); assumption | reflexivity]. cbn [app]. split.
        -- intros (x & -> & -> & W). exists (c :: x). rewrite <- app_assoc in *. split; [reflexivity|]. split; [reflexivity | assumption].
        -- intros (x & -> & E & W). destruct x as [|e x].
           { exfalso. destruct W as (W1 & W2 & _). destruct r as [|e r]; [congruence|]. cbn [app] in E. inversion E; subst e. cbn [forallb] in W2. rewrite Hc in W2. discriminate. }
           cbn [app] in E. inversion E; subst e. exists x. rewrite <- app_assoc. split; [reflexivity|]. split; [reflexivity | assumption].
      * cbn [In]. rewrite IH; [|apply not_end_app; assumption | reflexivity]. split.
        -- intros [E|(x & -> & E & W)].
           ++ inversion E; subst. exists []. rewrite app_nil_r. split; [reflexivity|]. split; [reflexivity|]. split; [discriminate|]. split; [assumption|]. split; [assumption|].
              intros e x E'. inversion E'; subst. assumption.
           ++ change ([] ++ t) with t in E. subst t. exists ((d :: run) ++ c :: x). split; [rewrite <- !app_assoc; reflexivity|]. split; [rewrite <- app_assoc; reflexivity|]. assumption.
        -- intros (x & -> & E & W). destruct (whole_first p pre (d :: run) c t x r b Hc Hr ltac:(discriminate) E W) as [(-> & -> & ->)|(x' & -> & E')].
           ++ left. rewrite app_nil_r. reflexivity.
           ++ right. exists x'. split; [rewrite <- !app_assoc; reflexivity|]. split; [exact E' | assumption].
Qed.
Lemma all_runs_In p s a r b : In (a, r, b) (runs p [] [] s) <-> s = a ++ r ++ b /\ whole p a r b.
Proof.
  rewrite runs_In; [|intros x c E; destruct x; discriminate | reflexivity]. cbn [app]. split.
  - intros (x & -> & E & W). auto.
  - intros (E & W). exists a. auto.
Qed.
Lemma whole_longest p (P : N -> Prop) a r b : (forall c, p c = true <-> P c) -> whole p a r b <-> longest_run P a r b.
Proof.
  intros HP. unfold whole, longest_run, not_end, not_start. rewrite forallb_forall, Forall_forall.
  assert (HF : forall c, p c = false <-> ~ P c) by (intros c; rewrite <- HP; destruct (p c); split; congruence).
  split; intros (A & B & C & D); (split; [assumption|]); (split; [intros x Hx; apply HP; auto|]); split; intros; apply HF; eauto.
Qed.
Lemma is_digit_iff c : is_digit c = true <-> digit c.
Proof. unfold is_digit, digit. rewrite andb_true_iff, !N.leb_le. tauto. Qed.
Lemma is_word_iff c : is_word c = true <-> word_char c.
Proof. unfold is_word, word_char. rewrite negb_true_iff, mem_false. tauto. Qed.
Lemma ext_ahead_iff s : ext_ahead s = true <-> with_extension s.
Proof.
  unfold ext_ahead, with_extension. rewrite andb_true_iff, negb_true_iff, mem_false, mem_In. split; intros [H1 H2]; (split; [assumption|]).
  - destruct s as [|c0 s0] using rev_ind; [destruct H2|]. rewrite removelast_last in H2. apply in_split in H2 as (x & y & ->).
    destruct y as [|d y]; [exists x, c0, []; rewrite <- app_assoc; reflexivity|]. exists x, d, (y ++ [c0]). rewrite <- app_assoc. reflexivity.
  - destruct H2 as (x & c & y & ->). rewrite removelast_app by discriminate. apply in_or_app. right. cbn [removelast]. left. reflexivity.
Qed.
Lemma number_matches_In s a r b : In (a, r, b) (number_matches s) <-> s = a ++ r ++ b /\ longest_run digit a r b /\ with_extension b.
Proof. unfold number_matches. rewrite filter_In, all_runs_In, (whole_longest is_digit digit) by apply is_digit_iff. cbn [snd]. rewrite ext_ahead_iff. tauto. Qed.
Lemma word_matches_In s a r b : In (a, r, b) (word_matches s) <-> s = a ++ r ++ b /\ longest_run word_char a r b /\ with_extension b.
Proof. unfold word_matches. rewrite filter_In, all_runs_In, (whole_longest is_word word_char) by apply is_word_iff. cbn [snd]. rewrite ext_ahead_iff. tauto. Qed.

Lemma blocks_In w : 0 < w -> forall k pre run post u v, (length run <= k)%nat ->
  In (u, v) (blocks k w pre run post) <-> exists d1 d d2 m, run = d1 ++ d ++ d2 /\ lenN d1 = m * w /\ lenN d = w /\ u = pre ++ d1 /\ v = d2 ++ post.
Proof.
  intros Hw. induction k as [|k IH]; intros pre run post u v Hk; cbn [blocks].
  - split; [intros []|]. intros (d1 & d & d2 & m & -> & _ & Hd & _). rewrite !app_length in Hk. rewrite lenN_length in Hd. lia.
  - replace (w =? 0) with false by lia. cbn [orb]. destruct (N.ltb_spec (lenN run) w) as [Hl|Hl].
    + split; [intros []|]. intros (d1 & d & d2 & m & -> & _ & Hd & _). rewrite !lenN_app in Hl. lia.
    + cbn [In]. rewrite IH.
      2: { rewrite dropN_skipn, skipn_length. rewrite lenN_length in Hl. lia. }
      pose proof (takeN_dropN w run) as ER. pose proof (lenN_takeN w run) as EL. rewrite N.min_l in EL by assumption.
      split.
      * intros [E|(d1 & d & d2 & m & E & H1 & H2 & -> & ->)].
        -- inversion E; subst. exists [], (takeN w run), (dropN w run), 0. split; [symmetry; assumption|]. split; [reflexivity|]. split; [assumption|].
           split; [symmetry; apply app_nil_r | reflexivity].
        -- exists (takeN w run ++ d1), d, d2, (m + 1). split; [rewrite <- app_assoc, <- E; symmetry; assumption|]. split; [rewrite lenN_app; lia|].
           split; [assumption|]. split; [rewrite app_assoc; reflexivity | reflexivity].
      * intros (d1 & d & d2 & m & E & H1 & H2 & -> & ->). destruct (N.eq_0_gt_0_cases m) as [->|Hm].
        -- left. assert (d1 = []) as -> by (apply lenN_0; lia). cbn [app] in E. rewrite E, <- H2. rewrite dropN_app_exact. rewrite app_nil_r. reflexivity.
        -- right. assert (Hl1 : w <= lenN d1) by (rewrite H1; nia). exists (dropN w d1), d, d2, (m - 1).
           assert (E1 : dropN w run = dropN w d1 ++ d ++ d2) by (rewrite E, dropN_app; replace (w - lenN d1) with 0 by lia; rewrite dropN_0; reflexivity).
           assert (E2 : takeN w run = takeN w d1) by (rewrite E, takeN_app; replace (w - lenN d1) with 0 by lia; rewrite takeN_0; apply app_nil_r).
           split; [assumption|]. split; [rewrite lenN_dropN, H1; nia|]. split; [assumption|]. split; [|reflexivity].
           rewrite E2, <- app_assoc, takeN_dropN. reflexivity.
Qed.

(** More words *)
Inductive more : nat -> str -> Prop :=
| more_O : more 0 []
| more_S n c w m : (c = cMinus \/ c = cUnder) -> w <> [] -> Forall word_char w -> more n m -> more (S n) (c :: w ++ m).
Lemma sbs_more_iff n s : (exists old, side_by_side old s /\ length old = S n) <-> exists w m, s = w ++ m /\ w <> [] /\ Forall word_char w /\ more n m.
Proof.
  split.
  - intros (old & Hs & Hl). revert n Hl. induction Hs as [w H1 H2|w c ws s H1 H2 H3 Hs IH]; intros n Hl; cbn [length] in Hl; injection Hl as <-.
    + exists w, []. rewrite app_nil_r. split; [reflexivity|]. split; [assumption|]. split; [assumption | constructor].
    + destruct ws as [|w' ws]; [inversion Hs|]. destruct (IH (length ws) eq_refl) as (x & m & -> & A & B & C).
      exists w, (c :: x ++ m). split; [reflexivity|]. split; [assumption|]. split; [assumption|]. constructor; assumption.
  - intros (w & m & -> & H1 & H2 & Hm). revert w H1 H2. induction Hm as [|n c x m Hc Hx1 Hx2 Hm IH]; intros w H1 H2.
    + exists [w]. rewrite app_nil_r. split; [constructor; assumption | reflexivity].
    + destruct (IH x Hx1 Hx2) as (old & Ho & Hl). exists (w :: old). split; [apply sbs_more; assumption | cbn [length]; lia].
Qed.
Lemma word_sep c : c = cMinus \/ c = cUnder -> is_word c = false.
Proof. intros [->| ->]; reflexivity. Qed.
Lemma forallb_word w : forallb is_word w = true <-> Forall word_char w.
Proof. rewrite forallb_forall, Forall_forall. split; intros Hw c Hc; apply is_word_iff; auto. Qed.
Lemma more_words_ok n m r : more n m -> not_start is_word r -> more_words n (m ++ r) = Some r.
Proof.
  intros Hm Hr. induction Hm as [|n c w m Hc Hw1 Hw2 Hm IH]; [reflexivity|]. cbn [app more_words].
  replace ((c =? cMinus) || (c =? cUnder)) with true by (destruct Hc as [->| ->]; reflexivity).
  rewrite <- app_assoc. rewrite lstrip_app_all by (apply forallb_word; assumption).
  assert (E : lstrip is_word (m ++ r) = m ++ r).
  { apply lstrip_id. destruct Hm as [|n c' w' m Hc' _ _ _]; cbn [app]; [|apply word_sep; assumption]. destruct r as [|d r]; [exact I|]. exact (Hr d r eq_refl). }
  rewrite E. replace (lenN (m ++ r) =? lenN (w ++ m ++ r)) with false; [assumption|]. symmetry. apply N.eqb_neq. rewrite (lenN_app w). rewrite <- lenN_0 in Hw1. lia.
Qed.
Lemma more_words_inv n : forall s r, more_words n s = Some r -> not_start is_word s -> exists m, s = m ++ r /\ more n m /\ not_start is_word r.
Proof.
  induction n as [|n IH]; intros s r E Hs; cbn [more_words] in E.
  - injection E as <-. exists []. split; [reflexivity|]. split; [constructor | assumption].
  - destruct s as [|c t]; [discriminate|]. destruct ((c =? cMinus) || (c =? cUnder)) eqn:Ec; [|discriminate].
    destruct (lstrip_spec is_word t) as (w & Et & Hw & Hn). destruct (lenN (lstrip is_word t) =? lenN t) eqn:El; [discriminate|].
    destruct (IH _ _ E) as (m & Em & Hm & Hr).
    { intros d x Ed. rewrite Ed in Hn. assumption. }
    exists (c :: w ++ m). split; [cbn [app]; rewrite <- app_assoc, <- Em, <- Et; reflexivity|]. split; [|assumption]. constructor; [| |apply forallb_word; assumption | assumption].
    + apply orb_prop in Ec as [Ec|Ec]; apply N.eqb_eq in Ec; auto.
    + intros ->. cbn [app] in Et. rewrite <- Et in El. rewrite N.eqb_refl in El. discriminate.
Qed.
Lemma words_matches_In nold p a b : (0 < nold)%nat -> In (a, b) (words_matches nold p) <->
  exists old s, p = a ++ s ++ b /\ side_by_side old s /\ length old = nold /\ (forall x d, a = x ++ [d] -> ~ word_char d) /\ (forall d x, b = d :: x -> ~ word_char d) /\ with_extension b.
Proof.
  intros Hn. unfold words_matches. rewrite in_flat_map.
  assert (HF : forall c, is_word c = false <-> ~ word_char c) by (intros c; rewrite <- is_word_iff; destruct (is_word c); split; congruence).
  split.
  - intros ([[a' w] r] & Hi & H2). apply all_runs_In in Hi as (-> & (W1 & W2 & W3 & W4)). cbn [fst snd] in H2.
    destruct (more_words (nold - 1) r) as [r'|] eqn:Em; [|destruct H2]. destruct (ext_ahead r') eqn:Ee; [|destruct H2]. destruct H2 as [E|[]]. inversion E; subst.
    destruct (more_words_inv _ _ _ Em W4) as (m & -> & Hm & Hr).
    destruct (proj2 (sbs_more_iff (nold - 1) (w ++ m))) as (old & Ho & Hl).
    { exists w, m. split; [reflexivity|]. split; [assumption|]. split; [apply forallb_word; assumption | assumption]. }
    exists old, (w ++ m). split; [rewrite <- app_assoc; reflexivity|]. split; [assumption|]. split; [lia|].
    split; [intros x d Ed; apply HF; exact (W3 x d Ed)|]. split; [intros d x Ed; apply HF; exact (Hr d x Ed)|]. apply ext_ahead_iff. assumption.
  - intros (old & s & -> & Ho & Hl & H1 & H2 & H3).
    destruct (proj1 (sbs_more_iff (nold - 1) s)) as (w & m & -> & Hw1 & Hw2 & Hm); [exists old; split; [assumption | lia]|].
    assert (Hr : not_start is_word b) by (intros d x Ed; apply HF; eauto).
    exists (a, w, m ++ b). split.
    + apply all_runs_In. split; [rewrite <- app_assoc; reflexivity|]. split; [assumption|]. split; [apply forallb_word; assumption|].
      split; [intros x d Ed; apply HF; eauto|]. destruct Hm as [|n c x m Hc _ _ _]; [exact Hr|]. intros d y Ed. cbn [app] in Ed. inversion Ed; subst. apply word_sep. assumption.
    + cbn [fst snd]. rewrite more_words_ok by assumption. apply ext_ahead_iff in H3. rewrite H3. left. reflexivity.
Qed.

Lemma product_In words n : forall ws, In ws (product n words) <-> length ws = n /\ Forall (fun w => In w words) ws.
Proof.
  induction n as [|n IH]; intros ws; cbn [product].
  - cbn [In]. split; [intros [<-|[]]; auto|]. intros [Hl _]. destruct ws; [auto | discriminate].
  - rewrite in_flat_map. split.
    + intros (w & Hw & Hi). apply in_map_iff in Hi as (t & <- & Ht). apply IH in Ht as [Hl Hf]. cbn [length]. auto.
    + intros [Hl Hf]. destruct ws as [|w ws]; [discriminate|]. cbn [length] in Hl. inversion Hf; subst. exists w. split; [assumption|]. apply in_map_iff. exists ws. split; [reflexivity|]. apply IH. auto.
Qed.

(** The placeholder of separators. *)
Lemma replace_char old new c0 o c t : old = c0 :: o -> c <> c0 -> str_replace old new (c :: t) = c :: str_replace old new t.
Proof. intros -> Hc. unfold str_replace. cbn [replace_go startswith]. rewrite (proj2 (eqbF _ _) Hc). reflexivity. Qed.
Lemma replace_word old new c0 o a t : old = c0 :: o -> ~ In c0 a -> str_replace old new (a ++ t) = a ++ str_replace old new t.
Proof.
  intros Ho. induction a as [|c a IH]; intros Ha; cbn [app]; [reflexivity|]. rewrite (replace_char old new c0 o) by (try assumption; intros ->; apply Ha; left; reflexivity).
  f_equal. apply IH. intros Hi. apply Ha. right. assumption.
Qed.
Lemma replace_skip old new : forall a b, replace_go old new (a ++ b) (length a) = replace_go old new b 0.
Proof. induction a as [|x a IH]; intros b; cbn [app length replace_go]; [reflexivity | apply IH]. Qed.
Lemma replace_here old new c0 o t : old = c0 :: o -> str_replace old new (old ++ t) = new ++ str_replace old new t.
Proof.
  intros Ho. unfold str_replace. rewrite Ho at 2. cbn [app replace_go]. change (c0 :: o ++ t) with ((c0 :: o) ++ t). rewrite <- Ho, startswith_app. f_equal.
  rewrite Ho at 2. cbn [length]. replace (S (length o) - 1)%nat with (length o) by lia. apply replace_skip.
Qed.
Lemma replace_all old new c0 o a : old = c0 :: o -> ~ In c0 a -> str_replace old new a = a.
Proof. intros Ho Ha. rewrite <- (app_nil_r a) at 1. rewrite (replace_word old new c0 o) by assumption. unfold str_replace. cbn [replace_go]. apply app_nil_r. Qed.
Lemma replace_seps sep a b n : ~ In 123 a -> ~ In 123 b ->
  str_replace (lit "{sep}") sep (a ++ lit "%s" ++ concat (repeat fmt_sep n) ++ b) = a ++ lit "%s" ++ concat (repeat (sep ++ lit "%s") n) ++ b.
Proof.
  intros Ha Hb. rewrite (replace_word _ _ 123 (lit "sep}")) by (try reflexivity; assumption). f_equal.
  rewrite (replace_word _ _ 123 (lit "sep}")) by (try reflexivity; cbn; intuition discriminate). f_equal.
  induction n as [|n IH]; cbn [repeat concat app]; [apply (replace_all _ _ 123 (lit "sep}")); [reflexivity | assumption]|].
  change fmt_sep with (lit "{sep}" ++ lit "%s") at 1. rewrite <- !app_assoc. rewrite (replace_here _ _ 123 (lit "sep}")) by reflexivity. f_equal.
  rewrite (replace_word _ _ 123 (lit "sep}")) by (try reflexivity; cbn; intuition discriminate). f_equal. exact IH.
Qed.

(** ** Guesses *)

Section Guess.
  Variable H : str -> Z.
  Variable other : str -> list parg -> result str.
  Notation pct := (pct other).

  Lemma check_gen_grows l : forall g, guesser_ok g -> grows H (fun p => In (Ok p) l) g (fst (check_gen H l g)).
  Proof.
    induction l as [|[p|e] l IH]; intros g Hg; cbn [check_gen fst]; try (apply grows_refl; assumption).
    pose proof (check_grows H p g Hg) as H1. eapply grows_trans; [eapply grows_weaken; [|exact H1] | eapply grows_weaken; [|exact (IH _ (grows_ok _ _ _ _ H1))]].
    - intros q <-. left. reflexivity.
    - intros q Hq. right. assumption.
  Qed.
  Lemma check_gen_all l : forall g, guesser_ok g -> (forall x, In x l -> exists p, x = Ok p) ->
    snd (check_gen H l g) = Ok tt /\ all_tried H (fun p => In (Ok p) l) (fst (check_gen H l g)).
  Proof.
    induction l as [|[p|e] l IH]; intros g Hg Hl; cbn [check_gen fst snd].
    - split; [reflexivity | intros p []].
    - pose proof (check_grows H p g Hg) as H1. pose proof (grows_ok _ _ _ _ H1) as Hc. destruct (IH _ Hc) as [IH1 IH2]; [intros x Hx; apply Hl; right; assumption|].
      split; [assumption|]. intros q [E|Hq]; [|apply IH2; assumption]. injection E as ->. intros Hu. apply (check_tried H q g). eapply grows_unknown; [apply check_gen_grows; exact Hc | exact Hu].
    - destruct (Hl (Err e) (or_introl eq_refl)) as [p E]. discriminate.
  Qed.
  Lemma formats_In (formats : list str) args x : In x (flat_map (fun fmt => map (pct fmt) args) (py_sorted str_lt (set_of formats))) <->
    exists fmt a, In fmt formats /\ In a args /\ x = pct fmt a.
  Proof.
    rewrite in_flat_map. split.
    - intros (fmt & Hf & Hx). apply in_map_iff in Hx as (a & <- & Ha). exists fmt, a. split; [|auto].
      apply set_of_In. eapply Permutation_in; [apply Permutation_sym, py_sorted_perm | exact Hf].
    - intros (fmt & a & Hf & Ha & ->). exists fmt. split; [|apply in_map; assumption].
      eapply Permutation_in; [apply py_sorted_perm|]. apply set_of_In. assumption.
  Qed.
  (** Guesses from formats, when none of them is refused. *)
  Lemma check_formats_spec formats args (cand : str -> Prop) g : guesser_ok g ->
    (forall fmt a, In fmt formats -> In a args -> exists p, pct fmt a = Ok p) ->
    (forall p, cand p <-> exists fmt a, In fmt formats /\ In a args /\ pct fmt a = Ok p) ->
    exists g', check_formats H other formats args g = (g', Ok tt) /\ grows H cand g g' /\ all_tried H cand g'.
  Proof.
    intros Hg Hok Hc. unfold check_formats. pose proof (check_gen_grows (flat_map (fun fmt => map (pct fmt) args) (py_sorted str_lt (set_of formats))) g Hg) as H1.
    destruct (check_gen_all (flat_map (fun fmt => map (pct fmt) args) (py_sorted str_lt (set_of formats))) g Hg) as [H2 H3].
    { intros x Hx. apply formats_In in Hx as (fmt & a & Hf & Ha & ->). apply Hok; assumption. }
    assert (HI : forall p, In (Ok p) (flat_map (fun fmt => map (pct fmt) args) (py_sorted str_lt (set_of formats))) <-> cand p).
    { intros p. rewrite formats_In, Hc. split; intros (fmt & a & Hf & Ha & E); exists fmt, a; auto. }
    destruct (check_gen H _ g) as [g' r]. cbn [fst snd] in *. subst r. exists g'. split; [reflexivity|]. split.
    - eapply grows_weaken; [|exact H1]. intros p Hp. apply HI. assumption.
    - intros p Hp. apply H3. apply HI. assumption.
  Qed.
  Lemma check_formats_safe formats args g : guesser_ok g ->
    grows H (fun p => exists fmt a, In fmt formats /\ In a args /\ pct fmt a = Ok p) g (fst (check_formats H other formats args g)).
  Proof.
    intros Hg. eapply grows_weaken; [|apply check_gen_grows; assumption]. intros p Hp. apply formats_In in Hp as (fmt & a & Hf & Ha & E). exists fmt, a. auto.
  Qed.

  Definition plain (p : str) : Prop := ~ In 37 p.
  Lemma plain_parts a r b : plain (a ++ r ++ b) -> plain a /\ plain r /\ plain b.
  Proof. unfold plain. rewrite !in_app_iff. tauto. Qed.

  Lemma numbers_spec paths nmax g : guesser_ok g -> Forall plain paths ->
    let cand q := exists p, In p paths /\ other_number nmax p q in
    exists g', substitute_numbers_in H other paths nmax DigitsNone g = (g', Ok tt) /\ grows H cand g g' /\ all_tried H cand g'.
  Proof.
    intros Hg Hp cand. unfold substitute_numbers_in. rewrite Forall_forall in Hp.
    assert (HF : forall fmt, In fmt (number_formats DigitsNone nmax paths) <-> exists p a r b, In p paths /\ p = a ++ r ++ b /\ longest_run digit a r b /\ with_extension b /\ fmt = a ++ lit "%d" ++ b).
    { intros fmt. unfold number_formats. rewrite in_flat_map. split.
      - intros (p & Hi & Hm). apply in_map_iff in Hm as ([[a r] b] & <- & Hm). apply number_matches_In in Hm as (E & A & B). exists p, a, r, b. auto.
      - intros (p & a & r & b & Hi & E & A & B & ->). exists p. split; [assumption|]. apply in_map_iff. exists (a, r, b). split; [reflexivity|]. apply number_matches_In. auto. }
    assert (HV : forall a r b n, In (a ++ r ++ b) paths -> pct (a ++ lit "%d" ++ b) [PInt n] = Ok (a ++ dec n ++ b)).
    { intros a r b n Hi. destruct (plain_parts a r b (Hp _ Hi)) as (P1 & _ & P3). rewrite pct_app by assumption. rewrite pct_d. rewrite pct_plain by assumption. reflexivity. }
    apply check_formats_spec; [assumption| |].
    - intros fmt x Hf Hx. apply HF in Hf as (p & a & r & b & Hi & -> & _ & _ & ->). apply in_map_iff in Hx as (n & <- & _). rewrite (HV a r b) by assumption. eauto.
    - intros q. unfold cand. split.
      + intros (p & Hi & a & d & b & n & -> & A & B & C & ->). exists (a ++ lit "%d" ++ b), [PInt n]. split; [apply HF; exists (a ++ d ++ b), a, d, b; auto|].
        split; [apply in_map_iff; exists n; split; [reflexivity | apply rangeN_In; assumption]|]. apply (HV a d b). assumption.
      + intros (fmt & x & Hf & Hx & E). apply HF in Hf as (p & a & r & b & Hi & -> & A & B & ->). apply in_map_iff in Hx as (n & <- & Hn). apply rangeN_In in Hn.
        rewrite (HV a r b) in E by assumption. injection E as <-. exists (a ++ r ++ b). split; [assumption|]. exists a, r, b, n. auto.
  Qed.
  Lemma group_spec paths w nmax g : guesser_ok g -> Forall plain paths -> 0 < w ->
    let cand q := exists p, In p paths /\ other_digits w nmax p q in
    exists g', substitute_numbers_in H other paths nmax (Digits w) g = (g', Ok tt) /\ grows H cand g g' /\ all_tried H cand g'.
  Proof.
    intros Hg Hp Hw cand. unfold substitute_numbers_in. rewrite Forall_forall in Hp.
    assert (HF : forall fmt, In fmt (number_formats (Digits w) nmax paths) <-> exists p a d1 d d2 b k, In p paths /\ p = a ++ (d1 ++ d ++ d2) ++ b /\ longest_run digit a (d1 ++ d ++ d2) b /\
      with_extension b /\ lenN d1 = k * w /\ lenN d = w /\ fmt = (a ++ d1) ++ lit "%0" ++ dec w ++ lit "d" ++ d2 ++ b).
    { intros fmt. unfold number_formats, block_matches. rewrite in_flat_map. split.
      - intros (p & Hi & Hm). apply in_map_iff in Hm as ([u v] & <- & Hm). apply in_flat_map in Hm as ([[a r] b] & Hm & Hb).
        apply number_matches_In in Hm as (E & A & B). apply blocks_In in Hb as (d1 & d & d2 & k & -> & H1 & H2 & -> & ->); [|assumption | auto]. exists p, a, d1, d, d2, b, k. repeat (split; [assumption|]). reflexivity.
      - intros (p & a & d1 & d & d2 & b & k & Hi & E & A & B & H1 & H2 & ->). exists p. split; [assumption|]. apply in_map_iff. exists (a ++ d1, d2 ++ b). split; [reflexivity|].
        apply in_flat_map. exists (a, d1 ++ d ++ d2, b). split; [apply number_matches_In; auto|]. apply blocks_In; [assumption | auto|]. exists d1, d, d2, k. auto. }
    assert (HV : forall a d1 d d2 b n, In (a ++ (d1 ++ d ++ d2) ++ b) paths -> pct ((a ++ d1) ++ lit "%0" ++ dec w ++ lit "d" ++ d2 ++ b) [PInt n] = Ok (a ++ d1 ++ pad0 w (dec n) ++ d2 ++ b)).
    { intros a d1 d d2 b n Hi. specialize (Hp _ Hi). unfold plain in Hp. rewrite !in_app_iff in Hp. rewrite pct_app by (rewrite in_app_iff; tauto). rewrite pct_0d. rewrite pct_plain by (rewrite in_app_iff; tauto).
      cbn [rmap]. rewrite <- app_assoc. reflexivity. }
    apply check_formats_spec; [assumption| |].
    - intros fmt x Hf Hx. apply HF in Hf as (p & a & d1 & d & d2 & b & k & Hi & -> & _ & _ & _ & _ & ->). apply in_map_iff in Hx as (n & <- & _). rewrite (HV a d1 d d2 b) by assumption. eauto.
    - intros q. unfold cand. split.
      + intros (p & Hi & a & d1 & d & d2 & b & n & k & -> & A & B & C & D & E & ->). exists ((a ++ d1) ++ lit "%0" ++ dec w ++ lit "d" ++ d2 ++ b), [PInt n]. split.
        * apply HF. exists (a ++ (d1 ++ d ++ d2) ++ b), a, d1, d, d2, b, k. repeat (split; [assumption || reflexivity|]). reflexivity.
        * split; [apply in_map_iff; exists n; split; [reflexivity | apply rangeN_In; assumption]|]. apply (HV a d1 d d2 b). assumption.
      + intros (fmt & x & Hf & Hx & E). apply HF in Hf as (p & a & d1 & d & d2 & b & k & Hi & -> & A & B & C & D & ->). apply in_map_iff in Hx as (n & <- & Hn). apply rangeN_In in Hn.
        rewrite (HV a d1 d d2 b) in E by assumption. injection E as <-. exists (a ++ (d1 ++ d ++ d2) ++ b). split; [assumption|]. exists a, d1, d, d2, b, n, k. repeat (split; [assumption || reflexivity|]). reflexivity.
  Qed.
  Lemma digits_true paths nmax g : substitute_numbers_in H other paths nmax DigitsTrue g = substitute_numbers_in H other paths nmax (Digits (lenN (decZ (Z.of_N nmax - 1)))) g.
  Proof. reflexivity. Qed.

  Definition no_brace (p : str) : Prop := ~ In 123 p.
  Lemma seps_In sep : In sep seps <-> exists c, sep = [c] /\ (c = cMinus \/ c = cUnder).
  Proof. unfold seps. cbn [In]. split; [intros [<-|[<-|[]]]; eauto|]. intros (c & -> & [->| ->]); auto. Qed.
  Lemma words_spec paths words nold nnew g : guesser_ok g -> Forall (fun p => plain p /\ no_brace p) paths -> (0 < nold)%nat -> (0 < nnew)%nat ->
    let cand q := exists p, In p paths /\ other_words words nold nnew p q in
    exists g', substitute_words_in H other paths words nold nnew g = (g', Ok tt) /\ grows H cand g g' /\ all_tried H cand g'.
  Proof.
    intros Hg Hp Ho Hn cand. unfold substitute_words_in. rewrite Forall_forall in Hp.
    replace (Nat.eqb nold 0 || Nat.eqb nnew 0) with false by (destruct nold, nnew; (lia || reflexivity)).
    assert (HF : forall fmt, In fmt (word_formats nold nnew paths) <-> exists p a b c, In p paths /\ In (a, b) (words_matches nold p) /\ (c = cMinus \/ c = cUnder) /\
      fmt = a ++ lit "%s" ++ concat (repeat ([c] ++ lit "%s") (nnew - 1)) ++ b).
    { intros fmt. unfold word_formats. rewrite in_flat_map. split.
      - intros (f & Hf & Hs). apply in_flat_map in Hf as (p & Hi & Hm). apply in_map_iff in Hm as ([a b] & <- & Hm). apply in_map_iff in Hs as (sep & <- & Hs). apply seps_In in Hs as (c & -> & Hc).
        cbn [fst snd]. exists p, a, b, c. repeat (split; [assumption|]). apply words_matches_In in Hm as (old & s & -> & _); [|assumption].
        destruct (Hp _ Hi) as [_ Hb]. unfold no_brace in Hb. rewrite !in_app_iff in Hb. apply replace_seps; tauto.
      - intros (p & a & b & c & Hi & Hm & Hc & ->). exists (a ++ lit "%s" ++ concat (repeat fmt_sep (nnew - 1)) ++ b). split.
        + apply in_flat_map. exists p. split; [assumption|]. apply in_map_iff. exists (a, b). auto.
        + apply in_map_iff. exists [c]. split; [|apply seps_In; eauto]. apply words_matches_In in Hm as (old & s & -> & _); [|assumption].
          destruct (Hp _ Hi) as [_ Hb]. unfold no_brace in Hb. rewrite !in_app_iff in Hb. apply replace_seps; tauto. }
    assert (HV : forall p a b c ws, In p paths -> In (a, b) (words_matches nold p) -> (c = cMinus \/ c = cUnder) -> length ws = nnew ->
      pct (a ++ lit "%s" ++ concat (repeat ([c] ++ lit "%s") (nnew - 1)) ++ b) (map PStr ws) = Ok (a ++ join [c] ws ++ b)).
    { intros p a b c ws Hi Hm Hc Hl. apply words_matches_In in Hm as (old & s & -> & _); [|assumption]. destruct (Hp _ Hi) as [Hpl _]. apply plain_parts in Hpl as (P1 & _ & P3).
      destruct ws as [|w ws]; [cbn [length] in Hl; lia|]. replace (nnew - 1)%nat with (length ws) by (cbn [length] in Hl; lia).
      apply pct_joined; [assumption| |assumption]. intros [E|[]]. destruct Hc as [->| ->]; discriminate. }
    apply check_formats_spec; [assumption| |].
    - intros fmt x Hf Hx. apply HF in Hf as (p & a & b & c & Hi & Hm & Hc & ->). apply in_map_iff in Hx as (ws & <- & Hw). apply product_In in Hw as [Hl _]. rewrite (HV p) by assumption. eauto.
    - intros q. unfold cand. split.
      + intros (p & Hi & a & old & s & b & new & c & E & A & B & C & D & F & G1 & G2 & Hc & ->).
        assert (Hm : In (a, b) (words_matches nold p)) by (apply words_matches_In; [assumption|]; exists old, s; auto 10).
        exists (a ++ lit "%s" ++ concat (repeat ([c] ++ lit "%s") (nnew - 1)) ++ b), (map PStr new). split; [apply HF; exists p, a, b, c; auto|].
        split; [apply in_map; apply product_In; auto|]. apply (HV p); assumption.
      + intros (fmt & x & Hf & Hx & E). apply HF in Hf as (p & a & b & c & Hi & Hm & Hc & ->). apply in_map_iff in Hx as (ws & <- & Hw). apply product_In in Hw as [Hl Hw].
        rewrite (HV p) in E by assumption. injection E as <-. exists p. split; [assumption|]. apply words_matches_In in Hm as (old & s & E & A & B & C & D & F); [|assumption].
        exists a, old, s, b, ws, c. auto 12.
  Qed.
  Lemma words_zero paths words nold nnew g : nold = 0%nat \/ nnew = 0%nat -> substitute_words_in H other paths words nold nnew g = (g, Err ValueError).
  Proof. unfold substitute_words_in. intros [->| ->]; [reflexivity|]. rewrite orb_true_r. reflexivity. Qed.

  Lemma added_spec paths words g : guesser_ok g -> Forall plain paths ->
    let cand q := exists p, In p paths /\ one_more_word words p q in
    exists g', add_word_in H other paths words g = (g', Ok tt) /\ grows H cand g g' /\ all_tried H cand g'.
  Proof.
    intros Hg Hp cand. unfold add_word_in. rewrite Forall_forall in Hp.
    assert (HF : forall fmt, In fmt (added_formats paths) <-> exists p a w b c, In p paths /\ p = a ++ w ++ b /\ longest_run word_char a w b /\ with_extension b /\ (c = cMinus \/ c = cUnder) /\
      (fmt = a ++ lit "%s" ++ [c] ++ w ++ b \/ fmt = (a ++ w ++ [c]) ++ lit "%s" ++ b)).
    { intros fmt. unfold added_formats. rewrite in_flat_map. split.
      - intros (p & Hi & Hm). apply in_flat_map in Hm as ([[a w] b] & Hm & Hf). apply word_matches_In in Hm as (E & A & B).
        apply in_app_or in Hf as [Hf|Hf]; apply in_map_iff in Hf as (sep & <- & Hs); apply seps_In in Hs as (c & -> & Hc); exists p, a, w, b, c; repeat (split; [assumption|]).
        + left. reflexivity.
        + right. rewrite <- !app_assoc. reflexivity.
      - intros (p & a & w & b & c & Hi & E & A & B & Hc & Hf). exists p. split; [assumption|]. apply in_flat_map. exists (a, w, b). split; [apply word_matches_In; auto|].
        apply in_or_app. destruct Hf as [-> | ->]; [left | right]; apply in_map_iff; exists [c]; (split; [rewrite <- ?app_assoc; reflexivity | apply seps_In; eauto]). }
    assert (HS : forall c, c = cMinus \/ c = cUnder -> plain [c]) by (intros c Hc [E|[]]; destruct Hc as [->| ->]; discriminate).
    assert (HV1 : forall a w b c x, In (a ++ w ++ b) paths -> (c = cMinus \/ c = cUnder) -> pct (a ++ lit "%s" ++ [c] ++ w ++ b) [PStr x] = Ok (a ++ x ++ c :: w ++ b)).
    { intros a w b c x Hi Hc. destruct (plain_parts a w b (Hp _ Hi)) as (P1 & P2 & P3). rewrite pct_app by assumption. rewrite pct_s.
      rewrite pct_plain; [reflexivity|]. rewrite !in_app_iff. intros [F|[F|F]]; [exact (HS c Hc F) | exact (P2 F) | exact (P3 F)]. }
    assert (HV2 : forall a w b c x, In (a ++ w ++ b) paths -> (c = cMinus \/ c = cUnder) -> pct ((a ++ w ++ [c]) ++ lit "%s" ++ b) [PStr x] = Ok (a ++ w ++ c :: x ++ b)).
    { intros a w b c x Hi Hc. destruct (plain_parts a w b (Hp _ Hi)) as (P1 & P2 & P3). rewrite pct_app.
      - rewrite pct_s, pct_plain by assumption. cbn [rmap parg_str]. rewrite <- !app_assoc. reflexivity.
      - rewrite !in_app_iff. intros [F|[F|F]]; [exact (P1 F) | exact (P2 F) | exact (HS c Hc F)]. }
    apply check_formats_spec; [assumption| |].
    - intros fmt x Hf Hx. apply in_map_iff in Hx as (n & <- & _). apply HF in Hf as (p & a & w & b & c & Hi & -> & _ & _ & Hc & [-> | ->]); [rewrite HV1 by assumption | rewrite HV2 by assumption]; eauto.
    - intros q. unfold cand. split.
      + intros (p & Hi & a & w & b & x & c & -> & A & B & C & Hc & [-> | ->]).
        * exists (a ++ lit "%s" ++ [c] ++ w ++ b), [PStr x]. split; [apply HF; exists (a ++ w ++ b), a, w, b, c; auto 8|]. split; [apply in_map_iff; eauto | apply HV1; assumption].
        * exists ((a ++ w ++ [c]) ++ lit "%s" ++ b), [PStr x]. split; [apply HF; exists (a ++ w ++ b), a, w, b, c; auto 8|]. split; [apply in_map_iff; eauto | apply HV2; assumption].
      + intros (fmt & x & Hf & Hx & E). apply in_map_iff in Hx as (n & <- & Hn). apply HF in Hf as (p & a & w & b & c & Hi & -> & A & B & Hc & [-> | ->]);
          [rewrite HV1 in E by assumption | rewrite HV2 in E by assumption]; injection E as <-; exists (a ++ w ++ b); (split; [assumption|]); exists a, w, b, n, c; auto 8.
  Qed.
End Guess.

(** ** Filters *)

Lemma is_hexl_iff c : is_hexl c = true <-> hex_char c.
Proof. unfold is_hexl, hex_char, is_digit. rewrite orb_true_iff, !andb_true_iff, !N.leb_le. tauto. Qed.
Lemma hex32_here_iff s : hex32_here s = true <-> exists h b, s = h ++ cDot :: b /\ lenN h = 32 /\ Forall hex_char h.
Proof.
  unfold hex32_here. rewrite !andb_true_iff, N.eqb_eq, forallb_forall, startswith_iff. split.
  - intros [[H1 H2] [b H3]]. exists (takeN 32 s), b. split; [|split; [assumption|]].
    + change (cDot :: b) with ([cDot] ++ b). rewrite <- H3. symmetry. apply takeN_dropN.
    + apply Forall_forall. intros c Hc. apply is_hexl_iff. auto.
  - intros (h & b & -> & Hl & Hh). rewrite <- Hl. rewrite takeN_app_exact, dropN_app_exact. split; [split; [reflexivity|]|].
    + intros c Hc. apply is_hexl_iff. rewrite Forall_forall in Hh. auto.
    + exists b. reflexivity.
Qed.
Lemma has_hex32_iff s : has_hex32 s = true <-> digest_name s.
Proof.
  unfold digest_name. induction s as [|c t IH]; cbn [has_hex32].
  - split; [discriminate|]. intros (a & h & b & E & _). destruct a; discriminate.
  - rewrite orb_true_iff, andb_true_iff, N.eqb_eq, hex32_here_iff, IH. split.
    + intros [(-> & h & b & -> & H1 & H2)|(a & h & b & -> & H1 & H2)]; [exists [], h, b; auto | exists (c :: a), h, b; auto].
    + intros (a & h & b & E & H1 & H2). destruct a as [|x a]; cbn [app] in E; inversion E; subst; [left; split; [reflexivity|]; exists h, b; auto | right; exists a, h, b; auto].
Qed.
Lemma after_Some p s r : after p s = Some r <-> s = p ++ r.
Proof.
  unfold after. destruct (startswith s p) eqn:E.
  - apply startswith_iff in E as [q ->]. unfold drop_prefix. rewrite dropN_app_exact. split; [intros E; injection E as ->; reflexivity|]. intros E. apply app_inv_head in E as ->. reflexivity.
  - split; [discriminate|]. intros ->. rewrite startswith_app in E. discriminate.
Qed.
Lemma after_part_Some s r : after_part s = Some r <-> exists x, part x /\ s = x ++ cSlash :: r.
Proof.
  unfold after_part, part. destruct (cut_first cSlash s) as [[a b]|] eqn:E.
  - apply cut_first_Some in E as [-> Ha]. destruct a as [|c a].
    + split; [discriminate|]. intros (x & (Hx & Hs) & E). destruct x as [|d x]; [congruence|]. cbn [app] in E. inversion E; subst. exfalso. apply Hs. left. reflexivity.
    + split.
      * intros E. injection E as ->. exists (c :: a). split; [split; [discriminate | assumption] | reflexivity].
      * intros (x & (Hx & Hs) & E). assert (E' : cut_first cSlash ((c :: a) ++ cSlash :: b) = Some (x, r)) by (rewrite E; apply cut_first_app; assumption).
        rewrite cut_first_app in E' by assumption. apply (f_equal (fun o => match o with Some (_, y) => Some y | None => None end)) in E'. exact E'.
  - apply cut_first_None in E. split; [discriminate|]. intros (x & _ & ->). exfalso. apply E, in_or_app. right. left. reflexivity.
Qed.
Lemma opt_bind_Some {A B} (o : option A) (k : A -> option B) b : opt_bind o k = Some b <-> exists a, o = Some a /\ k a = Some b.
Proof. destruct o as [a|]; cbn [opt_bind]; split; [eauto | intros (x & E & F); congruence | discriminate | intros (x & E & _); discriminate]. Qed.
Lemma is_some_iff {A} (o : option A) : is_some o = true <-> exists a, o = Some a.
Proof. destruct o; cbn [is_some]; split; try discriminate; eauto. intros [a E]. discriminate. Qed.
Lemma after_two_parts p0 s tail r : opt_bind (after p0 s) (fun s => opt_bind (after_part s) (fun s => opt_bind (after_part s) (after tail))) = Some r <->
  exists x y, part x /\ part y /\ s = p0 ++ x ++ lit "/" ++ y ++ lit "/" ++ tail ++ r.
Proof.
  rewrite opt_bind_Some. split.
  - intros (s1 & E1 & E). apply after_Some in E1 as ->. apply opt_bind_Some in E as (s2 & E2 & E). apply after_part_Some in E2 as (x & Hx & ->).
    apply opt_bind_Some in E as (s3 & E3 & E). apply after_part_Some in E3 as (y & Hy & ->). apply after_Some in E as ->. exists x, y. auto.
  - intros (x & y & Hx & Hy & ->). eexists. split; [apply after_Some; reflexivity|]. apply opt_bind_Some. eexists. split; [apply after_part_Some; exists x; split; [assumption | reflexivity]|].
    apply opt_bind_Some. eexists. split; [apply after_part_Some; exists y; split; [assumption | reflexivity]|]. apply after_Some. reflexivity.
Qed.
Lemma no_numbers_iff s : no_numbers s = true <-> numbers_kept s.
Proof.
  unfold no_numbers. rewrite !orb_true_iff, has_hex32_iff, is_some_iff, !startswith_iff. split.
  - intros [[[[[(r & E)|[r ->]]|[r ->]]|E]|E]|E].
    + apply after_two_parts in E as (x & y & Hx & Hy & ->). apply (nk_champion x y r); assumption.
    + exact (nk_characters (lit "data") r (or_introl eq_refl)).
    + exact (nk_characters (lit "assets") r (or_intror eq_refl)).
    + destruct (after _ s) as [r|] eqn:Ea; [|discriminate]. apply after_Some in Ea as ->. destruct (lstrip_spec is_digit r) as (n & Er & Hn & _).
      destruct (lstrip is_digit r) as [|c l]; [discriminate|]. apply andb_prop in E as [Ec El]. apply N.eqb_eq in Ec as ->. apply negb_true_iff, N.eqb_neq in El.
      rewrite Er. refine (nk_items n l _ _).
      * intros ->. apply El. rewrite Er. reflexivity.
      * rewrite forallb_forall in Hn. apply Forall_forall. intros c Hc. apply is_digit_iff. auto.
    + destruct (opt_bind _ _) as [[|c r]|] eqn:Ea; [discriminate| |discriminate]. apply after_two_parts in Ea as (x & y & Hx & Hy & ->).
      apply andb_prop in E as [Ec El]. apply startswith_iff in El as [l ->]. apply negb_true_iff, N.eqb_neq in Ec. apply (nk_none x y c l); assumption.
    + apply nk_digest. assumption.
  - intros Hk. destruct Hk as [x y r Hx Hy|d r Hd|n r Hn Hf|x y c r Hx Hy Hc|p Hp].
    + do 5 left. exists r. apply after_two_parts. exists x, y. auto.
    + destruct Hd as [-> | ->]; do 3 left; [left; right | right]; exists r; reflexivity.
    + do 2 left. right. change (game_data ++ lit "global/default/data/items/icons2d/") with (lit "plugins/rcp-be-lol-game-data/global/default/data/items/icons2d/").
      destruct (after _ _) as [r'|] eqn:Ea.
      * apply after_Some, app_inv_head in Ea. subst r'. rewrite lstrip_app_all by (apply forallb_forall; intros c Hc; apply is_digit_iff; rewrite Forall_forall in Hf; auto).
        change (lstrip is_digit (lit "_" ++ r)) with (lit "_" ++ r). change ((cUnder =? cUnder) && negb (lenN (cUnder :: r) =? lenN (n ++ cUnder :: r)) = true). rewrite N.eqb_refl. cbn [andb]. apply negb_true_iff, N.eqb_neq.
        rewrite lenN_app. rewrite <- lenN_0 in Hn. lia.
      * exfalso. assert (E : after (lit "plugins/rcp-be-lol-game-data/global/default/data/items/icons2d/") (lit "plugins/rcp-be-lol-game-data/global/default/data/items/icons2d/" ++ n ++ lit "_" ++ r) = Some (n ++ lit "_" ++ r)) by (apply after_Some; reflexivity).
        congruence.
    + left. right. destruct (opt_bind _ _) as [r'|] eqn:Ea.
      * apply after_two_parts in Ea as E. destruct E as (x' & y' & Hx' & Hy' & E).
        assert (E2 : opt_bind (after game_data (lit "plugins/rcp-be-lol-game-data/" ++ x ++ lit "/" ++ y ++ lit "/v1/champions/-1" ++ c :: lit "json" ++ r)) (fun s => opt_bind (after_part s) (fun s => opt_bind (after_part s) (after (lit "v1/champions/-1")))) = Some (c :: lit "json" ++ r)) by (apply after_two_parts; exists x, y; auto).
        rewrite E2 in Ea. injection Ea as <-. rewrite (proj2 (N.eqb_neq _ _) Hc). cbn [negb andb]. exact (startswith_app (lit "json") r).
      * assert (E2 : opt_bind (after game_data (lit "plugins/rcp-be-lol-game-data/" ++ x ++ lit "/" ++ y ++ lit "/v1/champions/-1" ++ c :: lit "json" ++ r)) (fun s => opt_bind (after_part s) (fun s => opt_bind (after_part s) (after (lit "v1/champions/-1")))) = Some (c :: lit "json" ++ r)) by (apply after_two_parts; exists x, y; auto).
        rewrite E2 in Ea. discriminate.
    + right. assumption.
Qed.
Lemma contains_iff sub s : contains sub s = true <-> exists a b, s = a ++ sub ++ b.
Proof.
  induction s as [|c t IH]; cbn [contains]; rewrite orb_true_iff, startswith_iff.
  - split.
    + intros [[r E]|E]; [|discriminate]. exists [], r. exact E.
    + intros (a & b & E). left. exists b. destruct a; [exact E | discriminate].
  - rewrite IH. split.
    + intros [[r E]|(a & b & ->)]; [exists [], r; exact E | exists (c :: a), b; reflexivity].
    + intros (a & b & E). destruct a as [|x a]; [left; exists b; exact E|]. right. cbn [app] in E. inversion E; subst. exists a, b. reflexivity.
Qed.
