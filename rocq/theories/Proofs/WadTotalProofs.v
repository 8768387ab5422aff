(** * Proofs about the success of extractions of WAD archives *)

From Verif Require Import Base.Py Base.Text Base.TextFacts Base.PathFacts Base.Fs Spec.FsSpec Base.FsFacts Model.Files Proofs.FilesProofs
  Model.Wad Model.WadExtract Spec.WadExtractSpec Spec.PatcherTotalSpec Proofs.PatcherTotalProofs Proofs.WadExtractProofs.

Section P.
  Variable gunzip unzstd : bytes -> result bytes.
  Variable xxh3 : bytes -> N.
  Variable cwd : path.
  Variable wadf : bytes.
  Variable toc : option bytes.
  Variable output : str.
  Notation rd w := (read_data gunzip unzstd xxh3 wadf w toc).
  Notation dest := (dest cwd output).
  Notation good := (good cwd output).
  Notation has_data := (has_data gunzip unzstd xxh3 wadf toc).
  Notation step := (extract_step gunzip unzstd xxh3 cwd wadf toc output).
  Definition accepted (w : wfile) : Prop := forall e, rd w = Err e -> exists m, e = MalformedSubchunkError m.

  Lemma entry_total w s f : ready cwd s f -> accepted w -> (has_data w -> room f (target cwd s)) ->
    exists f', run (extract_entry gunzip unzstd xxh3 cwd wadf toc w s) [] f = (Done tt, [], f').
  Proof.
    intros Hr Ha Hm. unfold extract_entry. rewrite run_bind, run_catch. unfold sys, sys_part. cbn [run].
    destruct (rd w) as [[d|]|e] eqn:Er; cbn [rmap run].
    - apply ready_winv in Hr as [Hs Hi]. rewrite run_catch.
      destruct (wfr_total cwd s Hs (fun h => fwrite h d) f Hi) as ([] & f' & E); [apply Hm; exists d; exact Er | | rewrite E; eauto].
      intros f1 _ _ _. destruct (run_nil_plan (fwrite (target cwd s) d) f1) as (o & f2 & E). destruct o as [a|x|].
      + eauto.
      + exfalso. apply (natural_run (fun _ => False)) in E; [exact E | apply natural_fwrite | reflexivity].
      + exfalso. exact (run_nil_nocrash _ _ _ _ E).
    - eauto.
    - destruct (Ha e Er) as [m ->]. cbn [run]. eauto.
  Qed.
  Lemma step_total ow w f : good f w -> accepted w -> (has_data w -> room f (dest w)) -> exists f', run (step ow w) [] f = (Done tt, [], f').
  Proof.
    intros (p & Hp & Hr) Ha Hm. unfold extract_step. unfold WadExtractSpec.dest in Hm. rewrite Hp in Hm |- *. rewrite run_bind. destruct ow; cbn [run].
    - apply entry_total; assumption.
    - unfold exists_, query. cbn [run]. destruct (f_exists cwd (path_join output p) f); [cbn [run]; eauto | apply entry_total; assumption].
  Qed.
  Lemma loop_total ow : forall l f, Forall (good f) l -> Forall accepted l ->
    (forall w, In w l -> has_data w -> room f (dest w)) ->
    (forall w w', In w l -> In w' l -> has_data w -> has_data w' -> ~ strictly_below (dest w) (dest w')) ->
    exists f', run (for_each l (step ow)) [] f = (Done tt, [], f').
  Proof.
    induction l as [|w l IH]; intros f Hg Ha Hm Hb; cbn [for_each]; [exists f; reflexivity|].
    inversion Hg as [|? ? Hw Hl]; subst. inversion Ha as [|? ? Aw Al]; subst.
    destruct (step_total ow w f Hw Aw) as [f1 E1]; [apply Hm; left; reflexivity|]. rewrite run_bind, E1.
    pose proof E1 as E. apply step_run in E as (H1 & _ & H3 & H4 & H5 & H6); [|exact Hw].
    apply IH; [eapply Forall_impl; [exact H3 | exact Hl] | exact Al | | intros; apply Hb; auto; right; assumption].
    intros w' Hi Hd. assert (R' : room f (dest w')) by (apply Hm; [right; exact Hi | exact Hd]).
    destruct (rd w) as [[d|]|e] eqn:Er; [|rewrite H4 by (intros [x Hx]; congruence); exact R' | rewrite H4 by (intros [x Hx]; congruence); exact R'].
    assert (Dw : has_data w) by (exists d; exact Er). apply (room_keeps (eq (dest w)) f f1).
    - eapply only_file_files; [reflexivity | exact H1].
    - exact R'.
    - intros t <- B. exact (Hb w' w (or_intror Hi) (or_introl eq_refl) Hd Dw B).
    - intros t <- B. exact (Hb w w' (or_introl eq_refl) (or_intror Hi) Dw Hd B).
    - intros Et. rewrite <- Et. destruct (look f (dest w)) as [n|] eqn:El.
      + destruct ow.
        * rewrite (H6 eq_refl eq_refl (or_introl eq_refl) d eq_refl). discriminate.
        * rewrite (H5 eq_refl) by congruence. intros E. apply (proj1 R'). congruence.
      + rewrite (H6 eq_refl eq_refl (or_intror eq_refl) d eq_refl). discriminate.
  Qed.
End P.
