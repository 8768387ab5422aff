(** * Reasoning about threads that share a filesystem *)

From Verif Require Import Base.Py Base.Text Base.PyFacts Base.Fs Spec.FsSpec Base.FsFacts.

(** [rgt I Rely Q X p f]: as long as the invariant [I] holds and the other threads only change the
    filesystem according to [Rely], the results of [p], started at or after [f], satisfy [Q] and its
    exceptions [X]. *)
Section Rgt.
  Variable faults : bool.
  Variable I : fs -> Prop.
  Variable Rely : fs -> fs -> Prop.
  Hypothesis Rrefl : forall f, Rely f f.
  Hypothesis Rtrans : forall a b c, Rely a b -> Rely b c -> Rely a c.

  Definition allowed (o : option (exn * N)) : Prop := faults = true \/ o = None.
  Fixpoint rgt {A} (Q : A -> fs -> Prop) (X : exn -> fs -> Prop) (p : prog A) (f : fs) : Prop :=
    match p with
    | Ret a => forall f', Rely f f' -> I f' -> Q a f'
    | Rai e => forall f', Rely f f' -> I f' -> X e f'
    | Act eff k => forall f' o, Rely f f' -> I f' -> allowed o ->
        rgt Q X (k (option_map fst o) f') (eff (option_map snd o) f')
    end.

  Lemma rgt_stable {A} Q X (p : prog A) f f' : rgt Q X p f -> Rely f f' -> rgt Q X p f'.
  Proof. intros H HR. destruct p; cbn [rgt] in *; intros; apply H; eauto. Qed.
  Lemma rgt_later {A} Q X (p : prog A) f : (forall f', Rely f f' -> I f' -> rgt Q X p f') -> rgt Q X p f.
  Proof. intros H. destruct p; cbn [rgt] in *; intros; eapply H; eauto. Qed.
  Lemma rgt_weaken {A} (Q Q' : A -> fs -> Prop) (X X' : exn -> fs -> Prop) (p : prog A) : (forall a f, I f -> Q a f -> Q' a f) -> (forall e f, I f -> X e f -> X' e f) ->
    forall f, rgt Q X p f -> rgt Q' X' p f.
  Proof.
    intros HQ HX. induction p as [a|e|eff k IH]; cbn [rgt]; intros f H; [intros; apply HQ; auto | intros; apply HX; auto|].
    intros f' o H1 H2 H3. apply IH. apply H; assumption.
  Qed.
  Lemma rgt_and {A} (Q Q' : A -> fs -> Prop) (X X' : exn -> fs -> Prop) (p : prog A) : forall f, rgt Q X p f -> rgt Q' X' p f ->
    rgt (fun a f => Q a f /\ Q' a f) (fun e f => X e f /\ X' e f) p f.
  Proof.
    induction p as [a|e|eff k IH]; cbn [rgt]; intros f H H'; [auto | auto|].
    intros f' o H1 H2 H3. apply IH; [apply H | apply H']; assumption.
  Qed.
  Lemma rgt_bind {A B} (Q : A -> fs -> Prop) (Q' : B -> fs -> Prop) X (p : prog A) (k : A -> prog B) :
    (forall a f, I f -> Q a f -> rgt Q' X (k a) f) -> forall f, rgt Q X p f -> rgt Q' X (bind p k) f.
  Proof.
    intros Hk. induction p as [a|e|eff c IH]; cbn [rgt bind]; intros f H; [|exact H|].
    - apply rgt_later. intros f' HR HI. apply Hk; auto.
    - intros f' o H1 H2 H3. apply IH. apply H; assumption.
  Qed.
  Lemma rgt_catch {A} (Q : A -> fs -> Prop) (X X' : exn -> fs -> Prop) (p : prog A) (h : exn -> prog A) :
    (forall e f, I f -> X e f -> rgt Q X' (h e) f) -> forall f, rgt Q X p f -> rgt Q X' (catch p h) f.
  Proof.
    intros Hk. induction p as [a|e|eff c IH]; cbn [rgt catch]; intros f H; [exact H| |].
    - apply rgt_later. intros f' HR HI. apply Hk; auto.
    - intros f' o H1 H2 H3. apply IH. apply H; assumption.
  Qed.
  Lemma rgt_query {A} (Q : A -> fs -> Prop) X (g : fs -> A) f :
    (forall f1 f2, Rely f f1 -> I f1 -> Rely f1 f2 -> I f2 -> Q (g f1) f2) -> rgt Q X (query g) f.
  Proof. intros H f1 o H1 H2 _ f2 H3 H4. apply H; assumption. Qed.
  Lemma rgt_sys_part {A} (Q : A -> fs -> Prop) (X : exn -> fs -> Prop) (op : fs -> result (A * fs)) part f :
    (forall f1 a f1' f2, Rely f f1 -> I f1 -> op f1 = Ok (a, f1') -> Rely f1' f2 -> I f2 -> Q a f2) ->
    (forall f1 e f2, Rely f f1 -> I f1 -> op f1 = Err e -> Rely f1 f2 -> I f2 -> X e f2) ->
    (faults = true -> forall f1 e n f2, Rely f f1 -> I f1 -> Rely (part n f1) f2 -> I f2 -> X e f2) ->
    rgt Q X (sys_part op part) f.
  Proof.
    intros HQ HX HF f1 o H1 H2 Ha. destruct o as [[e n]|]; cbn [option_map fst snd].
    - intros f2 H3 H4. destruct Ha as [Ha|Ha]; [|discriminate]. eapply HF; eassumption.
    - destruct (op f1) as [[a f1']|e] eqn:E; intros f2 H3 H4; [eapply HQ | eapply HX]; eassumption.
  Qed.
  (** Programs whose effects look like those of the other threads. *)
  Lemma rgt_of_safe {A} (I' : fs -> Prop) (R' : fs -> fs -> Prop) (Q : A -> Prop) (p : prog A) :
    (forall f, I f -> I' f) -> (forall f f', I f -> R' f f' -> Rely f f') ->
    safe I' R' Q p -> forall f0 f, Rely f0 f -> rgt (fun a f' => Rely f0 f' /\ Q a) (fun _ f' => Rely f0 f') p f.
  Proof.
    intros HI HR. induction p as [a|e|eff k IH]; cbn [safe rgt]; intros Hs f0 f Hf.
    - intros f' H1 _. split; [eapply Rtrans; eassumption | exact Hs].
    - intros f' H1 _. eapply Rtrans; eassumption.
    - intros f' o H1 H2 _. destruct (Hs f' (HI _ H2)) as [E1 E2]. apply IH; [apply E2|].
      eapply Rtrans; [exact Hf|]. eapply Rtrans; [exact H1|]. apply HR; [assumption | apply E1].
  Qed.
  Lemma rgt_true {A} (p : prog A) : forall f, rgt (fun _ _ => True) (fun _ _ => True) p f.
  Proof. induction p as [a|e|eff k IH]; cbn [rgt]; auto. Qed.
End Rgt.

(** ** Pools *)

Lemma Forall2_in_l {A B} (R : A -> B -> Prop) l l' x : Forall2 R l l' -> In x l -> exists y, R x y.
Proof. induction 1 as [|a b l l' H HF IH]; intros []; [subst; eauto | auto]. Qed.
Lemma Forall2_weak {A B} (R R' : A -> B -> Prop) l l' : (forall a b, R a b -> R' a b) -> Forall2 R l l' -> Forall2 R' l l'.
Proof. intros H. induction 1; constructor; auto. Qed.
Lemma Forall2_weak_in {A B} (R R' : A -> B -> Prop) l l' : (forall a b, In a l -> R a b -> R' a b) -> Forall2 R l l' -> Forall2 R' l l'.
Proof. intros H HF. induction HF as [|a b l l' H1 HF IH]; [constructor|]. constructor; [apply H; [left; reflexivity | assumption]|]. apply IH. intros a' b' Hi. apply H. right. assumption. Qed.

Definition finished {A} (p : prog A) : Prop := match p with Act _ _ => False | _ => True end.
Definition post {A} (Q : A -> fs -> Prop) (X : exn -> fs -> Prop) (f : fs) (p : prog A) : Prop :=
  match p with Ret a => Q a f | Rai e => X e f | Act _ _ => True end.

Section Pool.
  Variable faults : bool.
  Variable S A : Type.
  Variable I : fs -> Prop.
  (** What each thread relies on, does, and ensures; what the pool does. *)
  Variable Rely Guar : S -> fs -> fs -> Prop.
  Variable Q : S -> A -> fs -> Prop.
  Variable X : S -> exn -> fs -> Prop.
  Variable Rel : fs -> fs -> Prop.
  Hypothesis Rrefl : forall s f, Rely s f f.
  Hypothesis Rtrans : forall s a b c, Rely s a b -> Rely s b c -> Rely s a c.
  Hypothesis Lrefl : forall f, Rel f f.
  Hypothesis Ltrans : forall a b c, Rel a b -> Rel b c -> Rel a c.
  Variable ss : list S.
  Hypothesis Hnd : NoDup ss.
  Hypothesis Hothers : forall s s' f f', In s ss -> In s' ss -> s <> s' -> I f -> I f' -> Guar s f f' -> Rely s' f f'.
  Hypothesis Hrel : forall s f f', In s ss -> I f -> I f' -> Guar s f f' -> Rel f f'.

  Definition thread_ok (f : fs) (s : S) (p : prog A) : Prop :=
    safe I (Guar s) (fun _ => True) p /\ rgt faults I (Rely s) (Q s) (X s) p f.

  Lemma pool_ok st st' : interleave faults st st' -> I (snd st) -> Forall2 (thread_ok (snd st)) ss (fst st) ->
    I (snd st') /\ Rel (snd st) (snd st') /\ Forall2 (thread_ok (snd st')) ss (fst st').
  Proof.
    induction 1 as [st|ps1 p ps2 f o p' f' st' Ha Hst HI IH]; intros Hi HF; [auto|]. cbn [fst snd] in *.
    apply Forall2_app_inv_r in HF as (s1 & s2 & HF1 & HF2 & E). inversion HF2 as [|s ? s2' ? [Hs Hr] HF2' E1 E2]. subst s2.
    assert (Hin : In s ss) by (rewrite E; apply in_elt).
    destruct p as [a|e|eff k]; cbn [step] in Hst; try discriminate.
    pose proof (f_equal (fun r => match r with Some (x, _) => x | None => p' end) Hst) as Ep. pose proof (f_equal (fun r => match r with Some (_, x) => x | None => f' end) Hst) as Ef.
    cbn in Ep, Ef. cbn [safe] in Hs. destruct (Hs f Hi) as [Hs1 Hs2]. destruct (Hs1 (option_map snd o)) as [HG HI']. rewrite Ef in HG, HI'.
    assert (Hne : forall s', In s' (s1 ++ s2') -> s <> s').
    { intros s' Hs' <-. rewrite E in Hnd. apply NoDup_remove in Hnd as [_ Hnd']. contradiction. }
    assert (Hoth : forall s' q, In s' (s1 ++ s2') -> thread_ok f s' q -> thread_ok f' s' q).
    { intros s' q Hs' [T1 T2]. split; [assumption|]. eapply rgt_stable; [apply Rtrans | exact T2|].
      apply (Hothers s s'); auto. rewrite E. apply in_app_iff. apply in_app_or in Hs' as [Hs'|Hs']; [auto | right; right; assumption]. }
    destruct IH as (H1 & H2 & H3); [assumption| |split; [assumption|]; split; [eapply Ltrans; [exact (Hrel s f f' Hin Hi HI' HG) | assumption] | assumption]].
    rewrite E. apply Forall2_app; [|constructor].
    - eapply Forall2_weak_in; [|exact HF1]. intros s' q Hs'. apply Hoth. apply in_app_iff. auto.
    - split; [rewrite <- Ep; apply Hs2|]. rewrite <- Ep, <- Ef. apply (Hr f o (Rrefl s f) Hi Ha).
    - eapply Forall2_weak_in; [|exact HF2']. intros s' q Hs'. apply Hoth. apply in_app_iff. auto.
  Qed.
  Lemma thread_post f s p : I f -> thread_ok f s p -> post (Q s) (X s) f p.
  Proof. intros Hi [_ H]. destruct p; cbn [post rgt] in *; auto. Qed.
End Pool.

(** A thread that runs alone is a schedule. *)
Fixpoint alone {A} (p : prog A) (f : fs) : prog A * fs :=
  match p with Act eff k => alone (k None f) (eff None f) | _ => (p, f) end.
Lemma alone_run {A} (p : prog A) : forall f, snd (alone p f) = snd (run p [] f).
Proof. induction p as [a|e|eff k IH]; intros f; cbn [run alone]; auto. Qed.
Lemma alone_finished {A} (p : prog A) : forall f, finished (fst (alone p f)).
Proof. induction p as [a|e|eff k IH]; intros f; cbn [alone fst finished]; auto. Qed.
Lemma alone_interleave {A} faults (p : prog A) : forall f ps1 ps2 st, interleave faults (ps1 ++ fst (alone p f) :: ps2, snd (alone p f)) st ->
  interleave faults (ps1 ++ p :: ps2, f) st.
Proof.
  induction p as [a|e|eff k IH]; intros f ps1 ps2 st; cbn [alone]; [auto | auto|]. intros H.
  eapply il_step; [right; reflexivity | reflexivity|]. apply IH. exact H.
Qed.

Lemma interleave_trans {A} faults (a b c : list (prog A) * fs) : interleave faults a b -> interleave faults b c -> interleave faults a c.
Proof. induction 1 as [|ps1 p ps2 f o p' f' s Ho Hs H IH]; intros Hc; [exact Hc|]. eapply il_step; [exact Ho | exact Hs | apply IH; exact Hc]. Qed.
Lemma interleave_faults {A} faults (a b : list (prog A) * fs) : interleave false a b -> interleave faults a b.
Proof. induction 1 as [|ps1 p ps2 f o p' f' s Ho Hs H IH]; [apply il_refl|]. eapply il_step; [destruct Ho as [Ho|Ho]; [discriminate | right; exact Ho] | exact Hs | exact IH]. Qed.

(** A schedule given by the sequence of the threads that make a step, with its failure if any. *)
Fixpoint step_nth {A} (i : nat) (o : option (exn * N)) (ps : list (prog A)) (f : fs) : list (prog A) * fs :=
  match ps, i with
  | [], _ => ([], f)
  | p :: t, O => match step o p f with Some (p', f') => (p' :: t, f') | None => (ps, f) end
  | p :: t, S i => let '(t', f') := step_nth i o t f in (p :: t', f')
  end.
Fixpoint schedule {A} (l : list (nat * option (exn * N))) (st : list (prog A) * fs) : list (prog A) * fs :=
  match l with
  | [] => st
  | (i, o) :: t => schedule t (step_nth i o (fst st) (snd st))
  end.
Lemma step_nth_interleave {A} faults o : faults = true \/ o = None -> forall (ps : list (prog A)) i f ps0,
  interleave faults (ps0 ++ ps, f) (ps0 ++ fst (step_nth i o ps f), snd (step_nth i o ps f)).
Proof.
  intros Ho. induction ps as [|p ps IH]; intros i f ps0; [destruct i; apply il_refl|]. destruct i as [|i]; cbn [step_nth].
  - destruct (step o p f) as [[p' f']|] eqn:E; [|apply il_refl]. eapply il_step; [exact Ho | exact E | apply il_refl].
  - specialize (IH i f (ps0 ++ [p])). destruct (step_nth i o ps f) as [t' f']. rewrite <- !app_assoc in IH. exact IH.
Qed.
Lemma schedule_interleave {A} faults : forall l (st : list (prog A) * fs), faults = true \/ Forall (fun x => snd x = None) l -> interleave faults st (schedule l st).
Proof.
  induction l as [|[i o] l IH]; intros [ps f] H; [apply il_refl|]. cbn [schedule fst snd]. eapply interleave_trans.
  - apply (step_nth_interleave faults o) with (ps0 := []) (i := i). destruct H as [H|H]; [auto | right; inversion_clear H; assumption].
  - cbn [app]. rewrite <- surjective_pairing. apply IH. destruct H as [H|H]; [auto | right; inversion_clear H; assumption].
Qed.
