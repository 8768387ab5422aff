(** * Proofs about the success of fetches of releases *)

From Verif Require Import Base.Py Base.Text Base.Utf8 Base.PyFacts Base.TextFacts Base.Fs Base.FsDir Spec.FsSpec Base.FsFacts Spec.FilesSpec Model.Files Proofs.FilesProofs Base.FsLinks Proofs.PatcherExtractProofs Spec.PatcherTotalSpec Proofs.PatcherTotalProofs Proofs.ConvertProofs Model.Releases Spec.ReleasesSpec Proofs.ReleasesProofs.

Lemma pieces_total cwd s pieces f : ready cwd s f -> room f (target cwd s) ->
  exists f', run (write_file_or_remove cwd s (write_pieces pieces None)) [] f = (Done tt, [], f').
Proof.
  intros Hr Hm. apply ready_winv in Hr as [Hs Hi]. destruct (wfr_total cwd s Hs (write_pieces pieces None) f Hi Hm) as ([] & f' & E); [|eauto].
  intros f1 _ _ _. destruct (run_nil_plan (write_pieces pieces None (target cwd s)) f1) as (o & f2 & E). destruct o as [a|e|].
  - eauto.
  - apply write_pieces_fails in E; [discriminate | reflexivity].
  - exfalso. exact (run_nil_nocrash _ _ _ _ E).
Qed.

Lemma decZ_stamp z : decZ z <> lit "latest.timestamp".
Proof. intros E. pose proof (stamp_text z) as H. rewrite E in H. vm_compute in H. discriminate H. Qed.

Section Total.
  Variable cwd : path.
  Variable base patchline : str.
  Variable load : bytes -> result json.
  Variable dump : json -> list bytes.
  Variable same : json -> json -> bool.
  Notation ready_ := (releases_ready cwd base patchline).
  Notation release_file := (release_file cwd base patchline).
  Notation stamp_file := (stamp_file cwd base patchline).

  Lemma write_release_total now info f : ready_ f -> room f (release_file now) -> room f stamp_file ->
    exists f', run (write_release cwd base patchline dump now info) [] f = (Done tt, [], f').
  Proof.
    intros R H1 H2. unfold write_release. pose proof (ready_release cwd base patchline f now R) as Hr. destruct (release_facts cwd base patchline f now R) as [_ Ht].
    destruct (pieces_total cwd (release_path base patchline now) (dump info) f Hr) as [f1 E1]; [rewrite Ht; exact H1|].
    destruct (wfr_frame _ _ _ _ _ _ _ _ _ Hr E1) as [HO1 Hr1]. pose proof (ready_frame cwd base patchline _ _ _ R Hr1 HO1) as R1. rewrite Ht in HO1.
    rewrite run_bind, E1. pose proof (ready_stamp cwd base patchline f1 R1) as Hr2. destruct (stamp_facts cwd base patchline f1 R1) as [_ Ht2].
    apply pieces_total; [exact Hr2|]. rewrite Ht2. apply (room_keeps (eq (release_file now)) f f1).
    - eapply only_file_files; [reflexivity | exact HO1].
    - exact H2.
    - intros t <- B. apply strictly_longer in B. cbn [length ReleasesSpec.release_file ReleasesSpec.stamp_file] in B. lia.
    - intros t <- B. apply strictly_tl in B. destruct B as [l B]. destruct l as [|x l].
      + injection B as B. exact (decZ_stamp now B).
      + apply (f_equal (@length _)) in B. rewrite app_length in B. cbn [length ReleasesSpec.stamp_file] in B. lia.
    - discriminate.
  Qed.
  Lemma latest_missing f : ready_ f -> look f stamp_file = None -> result_of (latest_timestamp cwd base patchline) f = Done None.
  Proof.
    intros R H. unfold latest_timestamp. rewrite result_bind by apply reading_query. unfold exists_ at 1, query at 1, result_of at 1. cbn [run fst].
    pose proof (exists_ready cwd _ f (ready_stamp cwd base patchline f R)) as He. destruct (stamp_facts cwd base patchline f R) as [_ Ht]. rewrite Ht in He.
    destruct (f_exists cwd (latest_path base patchline) f); [|reflexivity]. exfalso. apply (proj1 He eq_refl). exact H.
  Qed.
  Lemma fetch_total conf get now f info : ready_ f -> answers cwd patchline load conf get f info ->
    look f stamp_file = None \/ (exists t d, stamped cwd base patchline f t /\ release_at cwd base patchline load f t d) ->
    room f (release_file now) -> room f stamp_file ->
    exists f', run (fetch_latest_update cwd base patchline conf get load dump same now) [] f = (Done tt, [], f').
  Proof.
    intros R Ha Hl H1 H2. unfold fetch_latest_update. rewrite run_bind, (result_run _ f info) by (apply info_reading || exact Ha). rewrite run_bind. destruct Hl as [Hl|(t & d & Hs & Hd)].
    - rewrite (result_run _ f None) by (apply latest_reading || (apply latest_missing; assumption)). apply write_release_total; assumption.
    - rewrite (result_run _ f (Some t)) by (apply latest_reading || (apply latest_some; assumption)). cbv beta iota.
      rewrite run_bind, (result_run _ f d) by (apply load_release_reading || (apply load_release_done; assumption)).
      destruct (same info d); [exists f; reflexivity | apply write_release_total; assumption].
  Qed.
End Total.
