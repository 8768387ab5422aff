(** * Proofs about patterns with wildcards *)

From Verif Require Import Base.TextFacts Base.Fs Model.Stringtables Spec.WadCliSpec.

Lemma star_iff p s : toks_match (GStar :: p) s = true <-> exists a b, s = a ++ b /\ toks_match p b = true.
Proof.
  induction s as [|x s IH].
  - cbn [toks_match]. rewrite orb_false_r. split; [intros H; exists [], []; auto | intros (a & b & E & H)]. symmetry in E. apply app_eq_nil in E as [-> ->]. exact H.
  - change (toks_match (GStar :: p) (x :: s)) with (toks_match p (x :: s) || toks_match (GStar :: p) s). rewrite orb_true_iff, IH. split.
    + intros [H|(a & b & -> & H)]; [exists [], (x :: s) | exists (x :: a), b]; auto.
    + intros (a & b & E & H). destruct a as [|y a]; [left; cbn in E; subst b; exact H|]. injection E as -> ->. right. eauto.
Qed.

Lemma class_body_iff s body rest : class_body s = Some (body, rest) <-> set_text body /\ s = body ++ 93 :: rest.
Proof.
  unfold class_body, c_close. split.
  - destruct s as [|a t]; [discriminate|]. destruct (N.eqb_spec a 93) as [->|Ha].
    + destruct (cut_first 93 t) as [[x y]|] eqn:E; [|discriminate]. intros H. injection H as <- <-. apply cut_first_Some in E as [-> Hn]. split; [exists 93, x; auto | reflexivity].
    + intros E. apply cut_first_Some in E as [E Hn]. destruct body as [|b body]; [injection E as -> _; congruence|]. injection E as <- ->.
      split; [exists a, body; split; [reflexivity|]; intros H; apply Hn; right; exact H | reflexivity].
  - intros [(a & t & -> & Hn) ->]. cbn [app]. destruct (N.eqb_spec a 93) as [->|Ha].
    + rewrite cut_first_app by exact Hn. reflexivity.
    + change (a :: t ++ 93 :: rest) with ((a :: t) ++ 93 :: rest). apply cut_first_app. intros [H|H]; [congruence | exact (Hn H)].
Qed.

Lemma class_ranges_pair a b t : class_ranges (a :: 45 :: b :: t) = (a, b) :: class_ranges t.
Proof. reflexivity. Qed.
Lemma class_ranges_one a t : ~ (exists b t', t = 45 :: b :: t') -> class_ranges (a :: t) = (a, a) :: class_ranges t.
Proof.
  intros H. destruct t as [|m [|b t]]; try reflexivity. cbn [class_ranges]. unfold c_minus. destruct (N.eqb_spec m 45) as [->|]; [|reflexivity]. exfalso. apply H. eauto.
Qed.
Lemma pair_dec (t : str) : (exists b t', t = 45 :: b :: t') \/ ~ (exists b t', t = 45 :: b :: t').
Proof.
  destruct t as [|m [|b t]]; [right; intros (? & ? & ?); discriminate | right; intros (? & ? & ?); discriminate|].
  destruct (N.eq_dec m 45) as [->|Hm]; [left; eauto | right; intros (? & ? & E); congruence].
Qed.
Lemma in_set_iff c : forall n body, (length body <= n)%nat -> existsb (fun r => (fst r <=? c) && (c <=? snd r)) (class_ranges body) = true <-> in_set body c.
Proof.
  induction n as [|n IH]; intros [|a t] Hl; cbn [length] in Hl; try lia.
  - split; [discriminate | intros H; inversion H].
  - split; [discriminate | intros H; inversion H].
  - destruct (pair_dec t) as [(b & t' & ->)|Ht].
    + rewrite class_ranges_pair. cbn [existsb fst snd]. cbn [length] in Hl. rewrite orb_true_iff, andb_true_iff, !N.leb_le, IH by lia. split.
      * intros [H|H]; [apply set_range; exact H | apply set_after; exact H].
      * intros H. inversion H; subst; [left; assumption | right; assumption | exfalso; eauto | exfalso; eauto].
    + rewrite class_ranges_one by exact Ht. cbn [existsb fst snd]. rewrite orb_true_iff, andb_true_iff, !N.leb_le, IH by lia. split.
      * intros [H|H]; [assert (c = a) as -> by lia; apply set_one; exact Ht | apply set_next; assumption].
      * intros H. inversion H; subst; [exfalso; eauto | exfalso; eauto | left; lia | right; assumption].
Qed.

Lemma is_set_neg t neg body r : is_set (33 :: t) neg body r <-> neg = true /\ class_body t = Some (body, r).
Proof.
  rewrite class_body_iff. split.
  - intros H. inversion H; subst; [auto|]. destruct H1 as (a & b & -> & _). cbn [app hd] in *. congruence.
  - intros (-> & Hb & ->). apply set_neg. exact Hb.
Qed.
Lemma is_set_pos t neg body r : hd 0 t <> 33 -> is_set t neg body r <-> neg = false /\ class_body t = Some (body, r).
Proof.
  intros Ht. rewrite class_body_iff. split.
  - intros H. inversion H; subst; [cbn [hd] in Ht; congruence | auto].
  - intros (-> & Hb & ->). apply set_pos; [exact Hb|]. destruct Hb as (a & b & -> & _). exact Ht.
Qed.

Lemma toks_iff : forall k p s, (length p <= k)%nat -> toks_match (pattern_toks k p) s = true <-> wild p s.
Proof.
  induction k as [|k IH]; intros p s Hl.
  { destruct p; [|cbn in Hl; lia]. cbn [pattern_toks toks_match]. destruct s; split; try discriminate; [constructor | reflexivity | intros H; inversion H]. }
  destruct p as [|c t]. { cbn [pattern_toks toks_match]. destruct s; split; try discriminate; [constructor | reflexivity | intros H; inversion H]. }
  cbn [length] in Hl. cbn [pattern_toks]. unfold c_star, c_quest, c_open, c_bang.
  destruct (N.eqb_spec c 42) as [->|H1].
  { rewrite star_iff. split.
    - intros (a & b & -> & H). apply IH in H; [|lia]. apply wild_star. exact H.
    - intros H. inversion H; subst; [|cbn [In] in *; exfalso; intuition]. exists s0, t0. split; [reflexivity|]. apply IH; [lia | assumption]. }
  destruct (N.eqb_spec c 63) as [->|H2].
  { cbn [toks_match]. split.
    - destruct s as [|x s]; [discriminate|]. intros H. apply IH in H; [|lia]. apply wild_any. exact H.
    - intros H. inversion H; subst; [|cbn [In] in *; exfalso; intuition]. apply IH; [lia | assumption]. }
  assert (Hlit : toks_match (GChar c :: pattern_toks k t) s = true <-> exists s', s = c :: s' /\ wild t s').
  { cbn [toks_match]. destruct s as [|x s]; [split; [discriminate | intros (? & ? & _); discriminate]|]. rewrite andb_true_iff, N.eqb_eq, IH by lia. split; [intros [-> H]; eauto | intros (s' & E & H)]. injection E as -> ->. auto. }
  destruct (N.eqb_spec c 91) as [->|H3].
  - assert (HS : exists neg r, (match t with b :: r => if b =? 33 then (true, r) else (false, t) | [] => (false, t) end) = (neg, r) /\ (length r <= length t)%nat /\
      forall neg' body rest, is_set t neg' body rest <-> neg' = neg /\ class_body r = Some (body, rest)).
    { destruct t as [|b r]; [exists false, []; split; [reflexivity|]; split; [lia|]; intros; apply is_set_pos; discriminate|].
      destruct (N.eqb_spec b 33) as [->|Hb]; [exists true, r; split; [reflexivity|]; split; [cbn; lia|]; intros; apply is_set_neg | exists false, (b :: r); split; [reflexivity|]; split; [lia|]; intros; apply is_set_pos; exact Hb]. }
    destruct HS as (neg & r & -> & Hr & HS). destruct (class_body r) as [[body rest]|] eqn:Eb.
    + pose proof Eb as Eb'. apply class_body_iff in Eb' as [Hb ->]. rewrite app_length in Hr. cbn [length] in Hr.
      assert (HI : is_set t neg body rest) by (apply HS; auto). cbn [toks_match]. split.
      * destruct s as [|x s]; [discriminate|]. rewrite andb_true_iff, IH by lia. intros [Hx Hw]. destruct neg.
        -- eapply wild_out; [exact HI | | exact Hw]. intros Hi. apply (in_set_iff x (length body)) in Hi; [|lia]. rewrite Hi in Hx. discriminate.
        -- eapply wild_in; [exact HI | | exact Hw]. apply (in_set_iff x (length body)); [lia|]. destruct (existsb _ _); [reflexivity | discriminate].
      * intros H. inversion H; subst.
        -- match goal with E : is_set t false _ _ |- _ => apply HS in E as [<- E]; injection E as <- <- end. match goal with E : in_set _ _ |- _ => apply (in_set_iff _ (length body)) in E; [rewrite E | lia] end. cbn [xorb andb]. apply IH; [lia | assumption].
        -- match goal with E : is_set t true _ _ |- _ => apply HS in E as [<- E]; injection E as <- <- end.
           destruct (existsb (fun r => (fst r <=? c) && (c <=? snd r)) (class_ranges body)) eqn:E; [apply (in_set_iff _ (length body)) in E; [contradiction | lia]|]. cbn [xorb andb]. apply IH; [lia | assumption].
        -- exfalso. match goal with E : ~ (exists neg body r, is_set t neg body r) |- _ => apply E; eauto end.
        -- exfalso. match goal with E : ~ In _ _ |- _ => apply E; cbn; auto end.
    + rewrite Hlit. split.
      * intros (s' & -> & H). apply wild_bracket; [|exact H]. intros (n' & bd & rs & E). apply HS in E as [_ E]. discriminate.
      * intros H. inversion H; subst; try (match goal with E : is_set t _ _ _ |- _ => apply HS in E as [_ E]; discriminate end); eauto.
  - rewrite Hlit. split.
    + intros (s' & -> & H). apply wild_char; [|exact H]. cbn [In]. intuition.
    + intros H. inversion H; subst; try congruence. eauto.
Qed.
Lemma fnmatch_iff n p : fnmatch n p = true <-> wild p n.
Proof. apply toks_iff. lia. Qed.
