(** * C12, C13: guarded writes and downloads *)

From Verif Require Import Base.TextFacts Base.Fs Spec.FsSpec Base.FsFacts Model.Files Spec.FilesSpec Proofs.FilesProofs.

Local Notation d := lit.
(** /w contains the file "old" and is the current directory. *)
Local Definition w : path := [d "w"].
Local Definition f0 : fs := [([d "w"], NDir); ([d "old"; d "w"], NFile (bl "old"))].
Local Lemma f0_wf : fs_wf f0.
Proof.
  intros x p H. unfold look in H. cbn [f0 dget] in H.
  destruct (eqbP ((x :: p) : path) [d "w"]) as [E|]; [injection E as -> ->; reflexivity|].
  destruct (eqbP ((x :: p) : path) [d "old"; d "w"]) as [E|]; [injection E as -> ->; reflexivity | congruence].
Qed.
Local Lemma f0_nolink p : nolink f0 p.
Proof.
  intros q t _ H. unfold look in H. destruct q as [|x q]; [discriminate|]. cbn [f0 dget] in H.
  destruct (eqb _ _); [discriminate|]. destruct (eqb _ _); discriminate.
Qed.
Local Lemma f0_ready s : plain_path s -> ready w s f0.
Proof. intros H. split; [exact H|]. split; [apply f0_nolink|]. split; [exact f0_wf | reflexivity]. Qed.
Local Ltac plain := split; [vm_compute; intuition discriminate|]; split; [discriminate|]; split; discriminate.

(** C12: whatever fails, even a crash, only the target and its missing parent directories change. *)
Theorem C12_frame cwd s pieces raises pl f o pl' f' :
  ready cwd s f ->
  run (write_file_or_remove cwd s (write_pieces pieces raises)) pl f = (o, pl', f') ->
  only_file (target cwd s) f f'.
Proof. intros H E. exact (proj1 (wfr_frame cwd s pieces raises pl f o pl' f' H E)). Qed.
Print Assumptions C12_frame.

(** C12: on success the file holds exactly the data; a block that raises never succeeds. *)
Theorem C12_success cwd s pieces raises pl f u pl' f' :
  ready cwd s f ->
  run (write_file_or_remove cwd s (write_pieces pieces raises)) pl f = (Done u, pl', f') ->
  look f' (target cwd s) = Some (NFile (concat pieces)) /\ raises = None.
Proof. exact (wfr_success cwd s pieces raises pl f u pl' f'). Qed.
Print Assumptions C12_success.

(** C12: when an exception comes out there is no file, unless the last system call made (the
    removal) was itself made to fail. *)
Theorem C12_failure cwd s pieces raises pl f e pl' f' :
  ready cwd s f ->
  run (write_file_or_remove cwd s (write_pieces pieces raises)) pl f = (Raised e, pl', f') ->
  ~ is_file f' (target cwd s) \/ exists u x, pl = u ++ Some x :: pl'.
Proof. exact (wfr_failure cwd s pieces raises pl f e pl' f'). Qed.
Print Assumptions C12_failure.

(** C12: the exception of the block is the one that comes out. *)
Theorem C12_reraise cwd s pieces e pl f u pl1 f1 :
  ready cwd s f -> failures pl = 0%nat ->
  run (write_file_or_remove cwd s (write_pieces pieces None)) pl f = (Done u, pl1, f1) ->
  exists pl' f', run (write_file_or_remove cwd s (write_pieces pieces (Some e))) pl f = (Raised e, pl', f') /\
    ~ is_file f' (target cwd s).
Proof. exact (wfr_reraise cwd s pieces e pl f u pl1 f1). Qed.
Print Assumptions C12_reraise.

Example C12_ready_ex : ready w (d "a/b/c") f0.
Proof. apply f0_ready. plain. Qed.
(** Success; failure of the second write after one byte; failure of the directory creation; crash. *)
Example C12_runs_ex :
  let go pl r := let '(o, _, f) := run (write_file_or_remove w (d "a/b/c") (write_pieces [bl "xy"; bl "z"] r)) pl f0 in
                 (o, look f (target w (d "a/b/c")), look f [d "a"; d "w"]) in
  go [] None = (Done tt, Some (NFile (bl "xyz")), Some NDir) /\
  go [None; None; None; None; None; Some (FErr (OSError EIO) 1)] None = (Raised (OSError EIO), None, Some NDir) /\
  go [None; Some (FErr (OSError EIO) 0)] None = (Raised (OSError EIO), None, None) /\
  go [] (Some ValueError) = (Raised ValueError, None, Some NDir) /\
  go [None; None; None; None; Some (FCrash 1)] None = (Crashed, Some (NFile (bl "x")), Some NDir).
Proof. vm_compute. repeat split. Qed.

(** The guard has limits (the claims above exclude them by [ready]):
    a path without directory part cannot be written at all; ... *)
Theorem C12_bare_name_refuted :
  exists s, s = d "name" /\ forall pieces pl f, exists pl' f',
    run (write_file_or_remove w s (write_pieces pieces None)) pl f = (Crashed, pl', f') \/
    run (write_file_or_remove w s (write_pieces pieces None)) pl f = (Raised (OSError ENOENT), pl', f') \/
    exists e n, In (Some (FErr e n)) pl /\ run (write_file_or_remove w s (write_pieces pieces None)) pl f = (Raised e, pl', f').
Proof.
  exists (d "name"). split; [reflexivity|]. intros pieces pl f.
  unfold write_file_or_remove. change (makedirs w (dirname (d "name"))) with (@Rai unit (OSError ENOENT)). cbn [bind catch].
  rewrite run_bind, run_catch. unfold remove, sys, sys_part. cbn [run].
  assert (Hok : forall x, f_remove w (d "name") f = Err x -> is_oserror x = true) by (intros x; apply f_remove_err).
  destruct pl as [|[[e n|n]|] pl].
  - destruct (f_remove w (d "name") f) as [[[] f']|x]; cbn [run]; [exists [], f'; auto|].
    rewrite (Hok x eq_refl). exists [], f. auto.
  - cbn [run]. exists pl, f. destruct (is_oserror e); cbn [run]; [auto|]. right. right. exists e, n. split; [left|]; reflexivity.
  - exists pl, f. left. reflexivity.
  - destruct (f_remove w (d "name") f) as [[[] f']|x]; cbn [run]; [exists pl, f'; auto|].
    rewrite (Hok x eq_refl). exists pl, f. auto.
Qed.
Print Assumptions C12_bare_name_refuted.

(** ... a failure deletes a complete file written earlier; ... *)
Theorem C12_previous_refuted :
  exists s f e, ready w s f /\ look f (target w s) = Some (NFile (bl "old")) /\
    exists pl' f', run (write_file_or_remove w s (write_pieces [] (Some e))) [] f = (Raised e, pl', f') /\ look f' (target w s) = None.
Proof.
  exists (d "./old"), f0, ValueError. split; [apply f0_ready; plain|]. split; [reflexivity|].
  eexists [], _. split; vm_compute; reflexivity.
Qed.
Print Assumptions C12_previous_refuted.

(** ... and through a symbolic link the file pointed to is left truncated. *)
Theorem C12_link_refuted :
  exists s f e, plain_path s /\ exists pl' f', run (write_file_or_remove w s (write_pieces [bl "n"] (Some e))) [] f = (Raised e, pl', f') /\
    look f [d "old"; d "w"] = Some (NFile (bl "old")) /\ look f' [d "old"; d "w"] = Some (NFile (bl "n")).
Proof.
  exists (d "./link"), (([d "link"; d "w"], NLink (d "old")) :: f0), ValueError. split; [plain|].
  eexists [], _. split; [vm_compute; reflexivity|]. split; vm_compute; reflexivity.
Qed.
Print Assumptions C12_link_refuted.

(** ** C13 *)

Section C13.
  Variable cwd : path.
  Variables base p : str.
  Notation t := (target cwd (path_join base p)).

  (** An existing file is left alone and no use is made of a response. *)
  Theorem C13_existing resp pl f o pl' f' :
    ready cwd (path_join base p) f -> is_file f t ->
    run (download cwd base p false resp) pl f = (o, pl', f') -> f' = f /\ (o = Done tt \/ o = Crashed).
  Proof. exact (download_existing cwd base p resp pl f o pl' f'). Qed.
  Theorem C13_no_request resp1 resp2 pl f :
    ready cwd (path_join base p) f -> is_file f t ->
    run (download cwd base p false resp1) pl f = run (download cwd base p false resp2) pl f.
  Proof.
    intros Hr Hf. unfold download. rewrite !run_bind. unfold isfile.
    destruct (run (query (f_isfile cwd (fspath base p))) pl f) as [[o1 pl1] f1] eqn:E1.
    apply run_query_fs in E1 as [-> [->| ->]]; [|reflexivity].
    apply isfile_ready in Hf; [|exact Hr]. unfold fspath. rewrite Hf. reflexivity.
  Qed.

  (** A successful download of a missing file, or with [force], leaves exactly the response body. *)
  Theorem C13_success force resp pl f u pl' f' :
    ready cwd (path_join base p) f -> (force = true \/ ~ is_file f t) ->
    run (download cwd base p force resp) pl f = (Done u, pl', f') ->
    exists body, resp = Ok body /\ look f' t = Some (NFile body).
  Proof. exact (download_success cwd base p force resp pl f u pl' f'). Qed.

  (** A failed download leaves no file (unless the removal itself fails); a failed request changes
      nothing at all, even with [force]. *)
  Theorem C13_failure resp pl f e pl' f' :
    ready cwd (path_join base p) f ->
    run (download cwd base p false resp) pl f = (Raised e, pl', f') ->
    ~ is_file f t /\ (~ is_file f' t \/ exists u x, pl = u ++ Some x :: pl').
  Proof. exact (download_failure cwd base p resp pl f e pl' f'). Qed.
  Theorem C13_request_error force e pl f o pl' f' :
    ready cwd (path_join base p) f ->
    run (download cwd base p force (Err e)) pl f = (o, pl', f') -> f' = f.
  Proof. exact (download_request_error cwd base p force e pl f o pl' f'). Qed.

  (** In every case only the file changes. *)
  Theorem C13_frame force resp pl f o pl' f' :
    ready cwd (path_join base p) f ->
    run (download cwd base p force resp) pl f = (o, pl', f') -> only_file t f f'.
  Proof. intros H E. exact (proj1 (download_frame cwd base p force resp pl f o pl' f' H E)). Qed.

  (** Repeating a successful download changes nothing. *)
  Theorem C13_idempotent force resp pl f u pl' f1 resp2 pl2 o2 pl2' f2 :
    ready cwd (path_join base p) f ->
    run (download cwd base p force resp) pl f = (Done u, pl', f1) ->
    run (download cwd base p false resp2) pl2 f1 = (o2, pl2', f2) -> f2 = f1.
  Proof.
    intros Hr E1 E2. pose proof E1 as E1'. apply download_frame in E1' as [_ Hr1]; [|exact Hr].
    assert (Hf : is_file f1 t).
    { pose proof E1 as E1'. apply download_cases in E1' as [(_ & -> & [E|[H _]])|(H & _)]; [discriminate | exact H | | exact Hr].
      apply download_success in E1 as (b & _ & E); [exists b; exact E | exact Hr | exact H]. }
    apply download_existing in E2 as [-> _]; [reflexivity | assumption | assumption].
  Qed.

  (** After any number of clean downloads a file holds a complete response. *)
  Theorem C13_complete rs f f' b :
    ready cwd (path_join base p) f -> ~ is_file f t -> clean_downloads cwd base p rs f f' ->
    look f' t = Some (NFile b) -> In (Ok b) rs.
  Proof.
    intros Hr Hf H. assert (Hor : forall b, look f t = Some (NFile b) -> In (Ok b) rs) by (intros b' Hb; exfalso; apply Hf; exists b'; assumption).
    clear Hf. assert (G : forall b, look f' t = Some (NFile b) -> look f t = Some (NFile b) \/ In (Ok b) rs).
    2: { intros Hb. destruct (G b Hb); auto. }
    clear Hor b. induction H as [f|resp rs pl f o pl' f1 f2 E Hc H IH]; [auto|]. intros b Hb.
    pose proof E as E'. apply download_frame in E' as [_ Hr1]; [|exact Hr].
    destruct (IH Hr1 b Hb) as [Hb1|Hi]; [|right; right; exact Hi].
    apply download_cases in E as X; [|exact Hr]. destruct X as [(_ & -> & _)|([X|X] & _)]; [auto | discriminate |].
    destruct o as [u|e|]; [|exfalso|contradiction].
    - apply download_success in E as (b' & -> & E); [|exact Hr | right; exact X]. right. left.
      change (look f1 t = Some (NFile b')) in E. congruence.
    - apply download_failure in E as [_ [E|(u & x & E)]]; [|exact (Hc u x E) | exact Hr]. apply E. exists b. exact Hb1.
  Qed.
End C13.
Print Assumptions C13_existing.
Print Assumptions C13_no_request.
Print Assumptions C13_success.
Print Assumptions C13_failure.
Print Assumptions C13_request_error.
Print Assumptions C13_frame.
Print Assumptions C13_idempotent.
Print Assumptions C13_complete.

(** Whatever the sequence of downloads, failures and crashes, files present are never altered. *)
Theorem C13_never_clobbers cwd base l f q b :
  (forall a, In a l -> ready cwd (path_join base (fst (fst a))) f) ->
  look f q = Some (NFile b) -> look (downloads cwd base l f) q = Some (NFile b).
Proof.
  revert f. induction l as [|[[p resp] pl] l IH]; intros f Hr Hq; cbn [downloads]; [assumption|].
  destruct (run (download cwd base p false resp) pl f) as [[o pl'] f'] eqn:E. cbn [snd].
  assert (Hp : ready cwd (path_join base p) f) by exact (Hr _ (or_introl eq_refl)).
  pose proof E as E'. apply download_frame in E' as [HO Hr']; [|exact Hp].
  apply IH.
  - intros a Ha. eapply ready_only; [exact Hp | exact Hr' | exact HO|]. apply Hr. right. exact Ha.
  - eapply download_preserves; [exact Hp | exact E | exact Hq].
Qed.
Print Assumptions C13_never_clobbers.

Example C13_runs_ex :
  let go force p pl resp := let '(o, _, f) := run (download w (d "/w") p force resp) pl f0 in (o, look f (target w (d "/w" ++ d "/" ++ p))) in
  go false (d "old") [] (Ok (bl "new")) = (Done tt, Some (NFile (bl "old"))) /\
  go true (d "old") [] (Ok (bl "new")) = (Done tt, Some (NFile (bl "new"))) /\
  go false (d "x/new") [] (Ok (bl "new")) = (Done tt, Some (NFile (bl "new"))) /\
  go true (d "old") [] (Err HTTPError) = (Raised HTTPError, Some (NFile (bl "old"))) /\
  go false (d "x/new") [None; None; None; None; Some (FErr (OSError EIO) 2)] (Ok (bl "new")) = (Raised (OSError EIO), None).
Proof. vm_compute. repeat split. Qed.
Example C13_ready_ex : ready w (path_join (d "/w") (d "x/new")) f0 /\ ready w (path_join (d "/w") (d "old")) f0.
Proof. split; apply f0_ready; plain. Qed.

(** The completeness claim fails if a process dies while writing: the partial file is then taken
    for the complete one. *)
Theorem C13_crash_refuted :
  exists base p f n body u pl' pl'' f1 f2,
    ready w (path_join base p) f /\ ~ is_file f (target w (path_join base p)) /\
    run (download w base p false (Ok body)) n f = (Crashed, pl', f1) /\
    run (download w base p false (Ok body)) [] f1 = (Done u, pl'', f2) /\
    look f2 (target w (path_join base p)) <> Some (NFile body).
Proof.
  exists (d "/w"), (d "new"), f0, [None; None; None; None; Some (FCrash 1)], (bl "new"), tt, [], [].
  eexists _, _. split; [apply f0_ready; plain|]. split; [intros [b H]; discriminate H|].
  split; [vm_compute; reflexivity|]. split; [vm_compute; reflexivity|]. vm_compute. discriminate.
Qed.
Print Assumptions C13_crash_refuted.
