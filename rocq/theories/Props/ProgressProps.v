(** * C80: iterations whose progress is displayed on interruption *)

From Verif Require Import Base.Py Base.PyFacts Base.Text Base.TextFacts Model.Progress Spec.ProgressSpec Proofs.ProgressProofs.

Section C80.
  Variable A : Type.
  Variable percent : N -> N -> str.
  Variable form : A -> str.
  Variable seq : list A.
  Notation exec := (exec A percent form seq).
  Notation init := (init A seq).
  Definition progress_line (i : N) (x : A) : str := lit "  " ++ percent (100 * i) (lenN seq) ++ lit "%  " ++ form x.

  (** C80: whenever signals arrive, items are given in order, each one once; all of them when the iteration is exhausted. *)
  Theorem C80_given h l s : exec l (init h) = Some s -> (exists rest, s_given s ++ rest = seq) /\ (s_point s = Over Exhausted -> s_given s = seq).
  Proof.
    intros E. apply inv_run in E as [H1 H2 _ _ _]. split; [|auto]. destruct (s_point s); try (match type of H1 with exists _, _ => destruct H1 as [r H1] end); eauto.
  Qed.
  (** C80: as long as the loop goes on, the remaining items can be obtained, and the previous handler is put back. *)
  Theorem C80_continues h l s : exec l (init h) = Some s -> (match s_point s with Leaving _ | Over _ => False | _ => True end) ->
    exists n s', exec (repeat Step n) s = Some s' /\ s_point s' = Over Exhausted /\ s_given s' = seq /\ s_handler s' = h.
  Proof.
    intros E H. destruct (continue_all _ percent form seq s H) as (n & s' & E' & Hs). exists n, s'. split; [exact E'|]. split; [exact Hs|].
    assert (Ea : exec (l ++ repeat Step n) (init h) = Some s') by (rewrite exec_app, E; exact E'). apply inv_run in Ea as [_ H2 _ _ H5]. split; [auto|]. rewrite Hs in H5. exact H5.
  Qed.
  (** C80: while it is active, signals come to the iterator. *)
  Theorem C80_active h l s : exec l (init h) = Some s -> active s -> s_handler s = Own.
  Proof. intros E. apply inv_run in E as [_ _ _ _ H]. unfold active. destruct (s_point s); try contradiction; auto. Qed.

  (** C80: it is interrupted exactly when two signals come within half a second. *)
  Theorem C80_interrupted h l s : exec l (init h) = Some s -> (interrupted s <-> ~ spaced 0 (signals l)).
  Proof. intros E. apply times_run in E as [[H1 H2]|(H1 & H2 & _)]; tauto. Qed.

  (** C80: displayed lines are about increasing positions, at most one per signal; a signal received while the loop runs makes the next item displayed. *)
  Theorem C80_lines h l s : exec l (init h) = Some s ->
    exists m, marked seq 0 m /\ s_lines s = map (fun y => progress_line (fst y) (snd y)) m /\ (length m <= length (signals l))%nat.
  Proof. intros E. apply displays_run in E as (m & H1 & H2 & _ & H4 & _). exists m. split; [exact H2|]. split; [exact H1 | lia]. Qed.
  Theorem C80_displayed h l s t l' s' x : exec l (init h) = Some s -> s_point s = Waiting -> exec (Signal t :: l') s = Some s' -> s_point s' = Waiting -> s_given s' = s_given s ++ [x] ->
    s_lines s' = s_lines s ++ [progress_line (lenN (s_given s)) x].
  Proof.
    intros E Hw E' Hw' Hg. pose proof (inv_run _ _ _ _ _ _ _ E) as [_ _ _ _ Hh]. rewrite Hw in Hh. cbn [Progress.exec Progress.happens] in E'. rewrite Hw, Hh in E'.
    assert (H : shown A percent form seq s s').
    { apply (shown_run _ percent form seq h (l ++ [Signal t]) l' s (signal_handler A t s)); [rewrite exec_app, E; cbn [Progress.exec Progress.happens]; rewrite Hw, Hh; reflexivity | | exact E'].
      left. unfold signal_handler. cbn [with_flag s_last]. destruct (_ <? _)%Z; unfold interrupt; cbn; rewrite ?Hw; cbn; auto. }
    destruct H as [[H _]|[(y & Hy & H)|H]].
    - exfalso. rewrite H in Hg. rewrite <- app_nil_r in Hg at 1. apply app_inv_head in Hg. discriminate.
    - rewrite Hg in Hy. apply app_inv_head in Hy. injection Hy as <-. apply H, Hw'.
    - exfalso. rewrite Hg, app_length in H. cbn [length] in H. lia.
  Qed.

  (** C80: the previous handler is put back when no two signals come within half a second, or when none comes just around the installation and the end. *)
  Theorem C80_restored h l s e : exec l (init h) = Some s -> s_point s = Over e -> spaced 0 (signals l) -> s_handler s = h.
  Proof.
    intros E Hp Hs. pose proof (proj1 (C80_interrupted _ _ _ E)) as Hi. apply inv_run in E as [_ _ _ _ H]. rewrite Hp in H. destruct e; try exact H. exfalso. apply Hi; [right; exact Hp | exact Hs].
  Qed.
  Theorem C80_restored_inside h l s e : exec l (init h) = Some s -> s_point s = Over e -> (forall l1 t l2 s1, l = l1 ++ Signal t :: l2 -> exec l1 (init h) = Some s1 -> ~ outside s1) -> s_handler s = h.
  Proof. intros E Hp Hs. pose proof (restored_inside _ _ _ _ _ _ _ E Hs) as H. rewrite Hp in H. exact H. Qed.
End C80.
Print Assumptions C80_given.
Print Assumptions C80_continues.
Print Assumptions C80_active.
Print Assumptions C80_interrupted.
Print Assumptions C80_lines.
Print Assumptions C80_displayed.
Print Assumptions C80_restored.
Print Assumptions C80_restored_inside.

(** ** Examples and refutations *)
Local Definition pc (a b : N) : str := dec (a / b).
Local Definition items : list str := [lit "a"; lit "b"; lit "c"; lit "d"].
Notation run l := (exec str pc (fun x => x) items l (init str items (Other 7))).
Local Definition one : list event := [Step; Step; Step; Step].
(** Two items, a signal while the loop runs, then the rest. *)
Local Definition calm : list event := [Step; Step] ++ [Step; Step; Step] ++ one ++ [Signal 1000000] ++ [Step; Step; Step; Step; Step] ++ one ++ [Step; Step; Step].
Example C80_example : exists s, run calm = Some s /\ s_point s = Over Exhausted /\ s_given s = items /\ s_lines s = [lit "  50%  c"] /\ s_handler s = Other 7 /\ spaced 0 (signals calm).
Proof. eexists. vm_compute. repeat split; discriminate. Qed.
Example C80_example_displayed : exists s s', run ([Step; Step] ++ [Step; Step; Step] ++ one) = Some s /\ s_point s = Waiting /\
  exec str pc (fun x => x) items (Signal 1000000 :: [Step; Step; Step; Step; Step]) s = Some s' /\ s_point s' = Waiting /\ s_given s' = s_given s ++ [lit "c"].
Proof. do 2 eexists. split; [vm_compute; reflexivity|]. split; [reflexivity|]. split; [vm_compute; reflexivity|]. split; reflexivity. Qed.
Example C80_example_interrupted : exists s, run ([Step; Step; Step; Step; Step; Signal 1000000; Signal 1000400; Step]) = Some s /\ s_point s = Over Interrupted /\ s_handler s = Other 7 /\ s_given s = [lit "a"].
Proof. eexists. vm_compute. repeat split. Qed.

(** Not true: the previous handler is always put back.  A second signal just after the installation, or at the end, skips it. *)
Theorem C80_restored_refuted : exists l s, run l = Some s /\ s_point s = Over Interrupted /\ s_handler s = Own.
Proof. exists [Step; Signal 1000000; Signal 1000400]. eexists. vm_compute. repeat split. Qed.
Print Assumptions C80_restored_refuted.
Theorem C80_restored_end_refuted : exists l s, run l = Some s /\ s_given s = items /\ s_point s = Over Interrupted /\ s_handler s = Own.
Proof. exists ([Step; Step] ++ [Step; Step; Step] ++ one ++ one ++ one ++ [Step; Step; Signal 1000000; Signal 1000400]). eexists. vm_compute. repeat split. Qed.
Print Assumptions C80_restored_end_refuted.
(** Not true: a single signal does not interrupt.  When the clock is set back, the next one does. *)
Theorem C80_clock_refuted : exists l1 l2 t1 t2 s, run (l1 ++ Signal t1 :: l2 ++ [Signal t2]) = Some s /\ signals (l1 ++ l2) = [] /\ (length l2 > 4)%nat /\ (t1 - t2 >= 3600000)%Z /\ interrupted s.
Proof. exists [Step; Step; Step; Step; Step], [Step; Step; Step; Step; Step; Step], 9000000%Z, 5400000%Z. eexists. split; [vm_compute; reflexivity|]. split; [reflexivity|]. split; [cbn; lia|]. split; [lia | left; reflexivity]. Qed.
Print Assumptions C80_clock_refuted.
(** Not true: each signal handled before the last items makes a line displayed.  A signal between the display and the reset of the flag is lost. *)
Theorem C80_lost_refuted : exists l t l' s s' x, run l = Some s /\ s_point s = Printed x /\ exec str pc (fun x => x) items (Signal t :: l') s = Some s' /\
  s_point s' = Over Exhausted /\ (length (s_given s') >= length (s_given s) + 2)%nat /\ s_lines s' = s_lines s.
Proof. exists [Step; Step; Signal 1000000; Step; Step], 2000000%Z, ([Step; Step; Step] ++ one ++ one ++ one ++ [Step; Step]). do 3 eexists. split; [vm_compute; reflexivity|]. split; [reflexivity|]. split; [vm_compute; reflexivity|]. split; [reflexivity|]. split; [cbn; lia | reflexivity]. Qed.
Print Assumptions C80_lost_refuted.
