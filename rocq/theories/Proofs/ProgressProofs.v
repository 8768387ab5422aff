(** * Iterations whose progress is displayed: proofs *)

From Verif Require Import Base.Py Base.PyFacts Base.Text Base.TextFacts Model.Progress Spec.ProgressSpec.

Section Proofs.
  Variable A : Type.
  Variable percent : N -> N -> str.
  Variable form : A -> str.
  Variable seq : list A.
  Notation happens := (happens A percent form seq).
  Notation exec := (exec A percent form seq).
  Notation init := (init A seq).
  Notation line := (line A percent form seq).

  Lemma exec_app l1 l2 s : exec (l1 ++ l2) s = match exec l1 s with Some s' => exec l2 s' | None => None end.
  Proof. revert s. induction l1 as [|e l1 IH]; intros s; [reflexivity|]. cbn [app Progress.exec]. destruct (happens e s); [apply IH | reflexivity]. Qed.
  Lemma exec_ind' (P : list event -> state A -> Prop) h : P [] (init h) ->
    (forall l e s s', exec l (init h) = Some s -> P l s -> happens e s = Some s' -> P (l ++ [e]) s') -> forall l s, exec l (init h) = Some s -> P l s.
  Proof.
    intros H0 Hs. induction l as [|e l IH] using rev_ind; intros s E; [injection E as <-; exact H0|].
    rewrite exec_app in E. destruct (exec l (init h)) as [s1|] eqn:E1; [|discriminate]. cbn [Progress.exec] in E. destruct (happens e s1) as [s2|] eqn:E2; [|discriminate]. injection E as <-. eapply Hs; eauto.
  Qed.
  Lemma signals_app l1 l2 : signals (l1 ++ l2) = signals l1 ++ signals l2.
  Proof. apply flat_map_app. Qed.

  (** Cases of an event *)
  Definition pending (s : state A) : list A := match s_point s with Check x | Printed x | Yielding x => [x] | _ => [] end.
  Ltac cases E := unfold Progress.happens, step, signal_handler, interrupt, at_point, with_handler, with_flag, with_last in E; cbn in E;
    repeat match type of E with
    | context [match ?p with _ => _ end] => destruct p eqn:?; cbn in E
    end; try discriminate E; injection E as <-; cbn in *.

  Record inv (h : handler) (l : list event) (s : state A) : Prop := {
    i_items : (match s_point s with Leaving _ | Over _ => exists r, s_given s ++ r ++ s_todo s = seq | _ => s_given s ++ pending s ++ s_todo s = seq end);
    i_all : (s_point s = Leaving Exhausted \/ s_point s = Over Exhausted -> s_given s = seq);
    i_index : (match s_point s with Leaving _ | Over _ => True | _ => s_index s = lenN (s_given s ++ pending s) end);
    i_saved : s_saved s = h;
    i_handler : (match s_point s with Start => s_handler s = h | Over Interrupted => s_handler s = h \/ s_handler s = Own | Over _ => s_handler s = h | _ => s_handler s = Own end)
  }.
  Lemma lenN_snoc {B} (l : list B) x : lenN (l ++ [x]) = lenN l + 1.
  Proof. rewrite !lenN_length, app_length. cbn [length]. lia. Qed.
  Lemma inv_run h l s : exec l (init h) = Some s -> inv h l s.
  Proof.
    revert l s. apply exec_ind'.
    - split; cbn; auto. intros [H|H]; discriminate.
    - intros l e s s' _ [H1 H2 H3 H4 H5] E. destruct s as [p hd sv fl la ix td gv li]. unfold pending in *. cbn in *. destruct e; cases E;
        try (split; cbn in *; rewrite ?app_nil_r in *; subst; auto; try (intros [?|?]; discriminate); try (exists []; reflexivity); eauto; fail).
      all: split; unfold pending; cbn in *; rewrite ?app_nil_r in *; subst; auto; try (intros [?|?]; discriminate); eauto.
      all: try (rewrite lenN_snoc; reflexivity).
      all: try (rewrite <- app_assoc; reflexivity).
      + exists []. rewrite app_nil_r. reflexivity.
      + exact (eq_sym (lenN_snoc gv a)).
      + intros [?|E]; [discriminate|]. apply H2. left. injection E as ->. reflexivity.
      + destruct e; auto.
      + exists [x]. reflexivity.
      + exists [x]. reflexivity.
      + exists [x]. reflexivity.
      + exists [x]. reflexivity.
  Qed.

  Lemma spaced_snoc a ts t : spaced a (ts ++ [t]) <-> spaced a ts /\ (500 <= t - last ts a)%Z.
  Proof.
    revert a. induction ts as [|x ts IH]; intros a; [cbn; tauto|]. cbn [app spaced]. rewrite IH. replace (last (x :: ts) a) with (last ts x); [tauto|].
    destruct ts as [|y ts]; [reflexivity|]. change (last (x :: y :: ts) a) with (last (y :: ts) a). clear. revert x y. induction ts as [|z ts IH]; intros x y; [reflexivity|]. change (last (z :: ts) x = last (z :: ts) a). apply IH.
  Qed.
  Lemma last_snoc {B} (l : list B) x d : last (l ++ [x]) d = x.
  Proof. apply last_last. Qed.
  Definition times (l : list event) (s : state A) : Prop :=
    (interrupted s /\ ~ spaced 0 (signals l)) \/ (~ interrupted s /\ spaced 0 (signals l) /\ s_last s = last (signals l) 0%Z).
  Lemma times_run h l s : exec l (init h) = Some s -> times l s.
  Proof.
    revert l s. apply exec_ind'.
    - right. split; [intros [E|E]; discriminate | split; [exact Logic.I | reflexivity]].
    - intros l e s s' _ H E. unfold times in *. rewrite signals_app. destruct e as [| | |t].
      1-3: cbn [signals flat_map app] in *; rewrite app_nil_r in *; destruct s as [p hd sv fl la ix td gv li]; unfold interrupted in *; destruct H as [[H1 H2]|(H1 & H2 & H3)]; cbn in *; cases E;
        try (left; split; [|assumption]; destruct H1 as [H1|H1]; (discriminate H1 || (injection H1 as ->; auto; fail))); right; (split; [|split; assumption]); intros [H|H]; try discriminate H.
      + injection H as ->. auto.
      + change (signals [Signal t]) with [t]. rewrite spaced_snoc, last_snoc. unfold Progress.happens in E.
        assert (Es : s' = signal_handler A t s) by (destruct (s_point s); try discriminate E; destruct (s_handler s); try discriminate E; injection E as <-; reflexivity). subst s'. clear E.
        unfold signal_handler. cbn [with_flag s_last]. destruct H as [[H1 H2]|(H1 & H2 & H3)].
        * left. split; [|tauto]. destruct s as [p hd sv fl la ix td gv li]; unfold interrupted in *; cbn in *. destruct H1 as [->| ->]; destruct (_ <? _)%Z; cbn; auto.
        * rewrite H3 in *. destruct (Z.ltb_spec (t - last (signals l) 0%Z) 500) as [Hl|Hl].
          -- left. split; [|lia]. unfold interrupt, interrupted. destruct s as [p hd sv fl la ix td gv li]. cbn. destruct p; cbn; auto.
          -- right. split; [|split; [split; [exact H2 | lia] | reflexivity]]. destruct s; exact H1.
  Qed.

  (** Displayed lines *)
  Lemma marked_weaken (l : list A) n m : marked l n m -> forall n', n' <= n -> marked l n' m.
  Proof. intros H n' Hn. inversion H; subst; constructor; [lia | assumption | assumption]. Qed.
  Lemma marked_snoc (l : list A) n m i x : marked l n m -> Forall (fun y => fst y < i) m -> n <= i -> nth_error l (N.to_nat i) = Some x -> marked l n (m ++ [(i, x)]).
  Proof.
    intros H. induction H as [n|n j y m Hj Hy Hm IH]; intros Hf Hn Hx; [constructor; [exact Hn | exact Hx | constructor]|]. inversion Hf as [|? ? Hj' Hf']; subst. cbn [fst] in Hj'. cbn [app]. constructor; [exact Hj | exact Hy |]. apply IH; [exact Hf' | lia | exact Hx].
  Qed.
  Definition bound (s : state A) : N := match s_point s with Check _ => s_index s - 1 | _ => s_index s end.
  Definition owed (s : state A) : nat := match s_point s with Printed _ => 0 | _ => if s_flag s then 1 else 0 end.
  Definition displays (l : list event) (s : state A) : Prop :=
    exists m, s_lines s = map (fun y => line (fst y) (snd y)) m /\ marked seq 0 m /\ Forall (fun y => fst y < bound s) m /\ (length m + owed s <= length (signals l))%nat /\
      match s_point s with Printed _ => s_flag s = true | _ => True end.
  Lemma Forall_lt m a b : a <= b -> Forall (fun y : N * A => fst y < a) m -> Forall (fun y => fst y < b) m.
  Proof. intros H. apply Forall_impl. intros y Hy. lia. Qed.
  Lemma displays_run h l s : exec l (init h) = Some s -> displays l s.
  Proof.
    revert l s. apply exec_ind'.
    - exists []. cbn. repeat split; try constructor.
    - intros l e s s' Hl (m & H1 & H2 & H3 & H4 & H5) E. apply inv_run in Hl as [Hi _ Hx _ _]. unfold displays, bound, owed, pending in *. rewrite signals_app, app_length. destruct s as [p hd sv fl la ix td gv li]. cbn in *. destruct e as [| | |t].
      + cbn [signals flat_map length]. rewrite Nat.add_0_r. cases E; try (exists m; repeat split; auto; fail).
        * exists m. repeat split; auto. replace (ix + 1 - 1) with ix by lia. exact H3.
        * exists (m ++ [(ix - 1, x)]). rewrite map_app. cbn [map fst snd]. assert (Hi' : ix - 1 = lenN gv) by (rewrite Hx; change (lenN_acc 0 (gv ++ [x])) with (lenN (gv ++ [x])); rewrite lenN_snoc; lia). assert (Hx1 : 1 <= ix) by (rewrite Hx; change (lenN_acc 0 (gv ++ [x])) with (lenN (gv ++ [x])); rewrite lenN_snoc; lia).
          repeat split.
          -- rewrite H1. reflexivity.
          -- apply marked_snoc; [exact H2 | exact H3 | lia |]. rewrite <- Hi, Hi', lenN_length, Nnat.Nat2N.id, nth_error_app2, Nat.sub_diag by lia. reflexivity.
          -- apply Forall_app. split; [eapply Forall_lt; [|exact H3]; lia | constructor; [cbn [fst]; lia | constructor]].
          -- rewrite app_length. cbn [length]. lia.
        * exists m. repeat split; auto. eapply Forall_lt; [|exact H3]. lia.
      + cases E. exists m. rewrite Nat.add_0_r. repeat split; auto.
      + cbn [signals flat_map length]. rewrite Nat.add_0_r. cases E; exists m; repeat split; auto. eapply Forall_lt; [|exact H3]. lia.
      + change (length (signals [Signal t])) with 1%nat. exists m. cases E; repeat split; auto; try lia; try (destruct fl; lia); try (eapply Forall_lt; [|exact H3]; lia).
  Qed.

  (** A signal while the consumer runs *)
  Definition shown (s0 s : state A) : Prop :=
    (s_given s = s_given s0 /\ match s_point s with
      | Waiting | Loop => s_lines s = s_lines s0 /\ s_flag s = true
      | Check _ => s_lines s = s_lines s0 /\ s_flag s = true
      | Printed y | Yielding y => s_lines s = s_lines s0 ++ [line (lenN (s_given s0)) y]
      | Leaving _ | Over _ => True
      | _ => False end) \/
    (exists y, s_given s = s_given s0 ++ [y] /\ (s_point s = Waiting -> s_lines s = s_lines s0 ++ [line (lenN (s_given s0)) y])) \/
    (length (s_given s0) + 2 <= length (s_given s))%nat.
  Lemma shown_step h l s0 e s s' : exec l (init h) = Some s -> shown s0 s -> happens e s = Some s' -> shown s0 s'.
  Proof.
    intros Hl H E. apply inv_run in Hl as [_ _ Hx _ _]. unfold shown, pending in *. destruct s as [p hd sv fl la ix td gv li]. destruct H as [[Hg H]|[(y & Hg & H)|H]]; cbn in *.
    - destruct e; cases E; try match type of H with _ /\ _ => destruct H as [H1 H2] end; try discriminate; try (left; split; [assumption | auto; fail]); try contradiction.
      + left. split; [exact Hg|]. assert (Hi : ix - 1 = lenN (s_given s0)) by (rewrite Hx, <- Hg; change (lenN_acc 0 (gv ++ [x])) with (lenN (gv ++ [x])); rewrite lenN_snoc; lia). rewrite Hi, H1. reflexivity.
      + right. left. exists x. split; [rewrite Hg; reflexivity | intros _; exact H].
    - destruct e; cases E; try (right; left; exists y; split; [assumption | intros Hw; first [discriminate Hw | exact (H Hw) | exact (H eq_refl)]]; fail).
      right. right. rewrite Hg, !app_length. cbn [length]. lia.
    - destruct e; cases E; try (right; right; assumption). right. right. rewrite app_length. lia.
  Qed.
  Lemma shown_run h l l' s0 s s' : exec l (init h) = Some s -> shown s0 s -> exec l' s = Some s' -> shown s0 s'.
  Proof.
    revert l s. induction l' as [|e l' IH]; intros l s Hl H E; [injection E as <-; exact H|]. cbn [Progress.exec] in E. destruct (happens e s) as [s1|] eqn:E1; [|discriminate].
    apply (IH (l ++ [e]) s1); [|eapply shown_step; eassumption | exact E]. rewrite exec_app, Hl. cbn [Progress.exec]. rewrite E1. reflexivity.
  Qed.

  (** Steps without signals *)
  Lemma loop_all td : forall s, s_point s = Loop -> s_todo s = td -> exists n s', exec (repeat Step n) s = Some s' /\ s_point s' = Over Exhausted.
  Proof.
    induction td as [|x td IH]; intros s Hp Ht.
    - exists 2%nat. cbn [repeat Progress.exec Progress.happens]. unfold step. rewrite Hp, Ht. cbn. eexists. split; reflexivity.
    - destruct (s_flag s) eqn:Hf.
      + edestruct IH as (n & s' & E & Hs); [| |exists (S (S (S (S (S n))))), s'; cbn [repeat Progress.exec Progress.happens]; unfold step; rewrite Hp, Ht; cbn; rewrite Hf; cbn; split; [exact E | exact Hs]]; reflexivity.
      + edestruct IH as (n & s' & E & Hs); [| |exists (S (S (S (S n)))), s'; cbn [repeat Progress.exec Progress.happens]; unfold step; rewrite Hp, Ht; cbn; rewrite Hf; cbn; split; [exact E | exact Hs]]; reflexivity.
  Qed.
  Lemma continue_all s : match s_point s with Leaving _ | Over _ => False | _ => True end -> exists n s', exec (repeat Step n) s = Some s' /\ s_point s' = Over Exhausted.
  Proof.
    assert (W : forall s, s_point s = Waiting \/ s_point s = Installed -> exists n s', exec (repeat Step n) s = Some s' /\ s_point s' = Over Exhausted).
    { clear s. intros s Hp. destruct (loop_all (s_todo s) (at_point A Loop s) eq_refl eq_refl) as (n & s' & E & Hs). exists (S n), s'. cbn [repeat Progress.exec Progress.happens]. unfold step. destruct Hp as [-> | ->]; auto. }
    assert (Y : forall s x, s_point s = Yielding x -> exists n s', exec (repeat Step n) s = Some s' /\ s_point s' = Over Exhausted).
    { clear s. intros s x Hp. edestruct W as (n & s' & E & Hs); [|exists (S n), s'; cbn [repeat Progress.exec Progress.happens]; unfold step; rewrite Hp; split; [exact E | exact Hs]]. left. reflexivity. }
    assert (P : forall s x, s_point s = Printed x -> exists n s', exec (repeat Step n) s = Some s' /\ s_point s' = Over Exhausted).
    { clear s. intros s x Hp. edestruct Y as (n & s' & E & Hs); [|exists (S n), s'; cbn [repeat Progress.exec Progress.happens]; unfold step; rewrite Hp; split; [exact E | exact Hs]]. reflexivity. }
    destruct (s_point s) as [| | |x|x|x| |e|e] eqn:Hp; intros H; try contradiction; eauto.
    - edestruct W as (n & s' & E & Hs); [|exists (S n), s'; cbn [repeat Progress.exec Progress.happens]; unfold step; rewrite Hp; split; [exact E | exact Hs]]. right. reflexivity.
    - eapply loop_all; [exact Hp | reflexivity].
    - destruct (s_flag s) eqn:Hf.
      + edestruct P as (n & s' & E & Hs); [|exists (S n), s'; cbn [repeat Progress.exec Progress.happens]; unfold step; rewrite Hp, Hf; split; [exact E | exact Hs]]. reflexivity.
      + edestruct Y as (n & s' & E & Hs); [|exists (S n), s'; cbn [repeat Progress.exec Progress.happens]; unfold step; rewrite Hp, Hf; split; [exact E | exact Hs]]. reflexivity.
  Qed.
  Lemma signals_steps n : signals (repeat Step n) = [].
  Proof. induction n; [reflexivity | exact IHn]. Qed.
  (** Restoration *)
  Lemma restored_inside h l s : exec l (init h) = Some s -> (forall l1 t l2 s1, l = l1 ++ Signal t :: l2 -> exec l1 (init h) = Some s1 -> ~ outside s1) -> match s_point s with Over _ => s_handler s = h | _ => True end.
  Proof.
    revert l s. apply (exec_ind' (fun l s => (forall l1 t l2 s1, l = l1 ++ Signal t :: l2 -> exec l1 (init h) = Some s1 -> ~ outside s1) -> match s_point s with Over _ => s_handler s = h | _ => True end)).
    - intros _. exact Logic.I.
    - intros l e s s' Hl IH E H. pose proof (inv_run _ _ _ Hl) as [_ _ _ Hs Hh]. destruct e as [| | |t]; [..|pose proof (H l t [] s eq_refl Hl) as Ho].
      1-3: destruct s as [p hd sv fl la ix td gv li]; cbn in *; cases E; auto.
      destruct s as [p hd sv fl la ix td gv li]; unfold outside in Ho; cbn in *; cases E; try (exact Logic.I); try (destruct (Ho Logic.I)).
  Qed.
End Proofs.
