(** * C39, C40: bundles downloaded by several threads, and what extractions need *)

From Verif Require Import Base.Py Base.Text Base.PyFacts Base.TextFacts Base.Fs Spec.FsSpec Base.FsFacts Base.FsLinks Base.FsThreads Spec.FilesSpec Model.Files Model.Rman Model.Patcher Spec.PatcherSpec Proofs.PatcherExtractProofs Proofs.PatcherBundleProofs Proofs.PatcherCompleteProofs.

Section Download.
  Variable cwd : path.
  Variable base : str.
  Variable get : str -> result bytes.
  (** Path of a bundle on the CDN. *)
  Local Notation cdn id := (lit "channels/public/bundles/" ++ hexu 16 id ++ lit ".bundle").

  (** The identifiers given to the threads are distinct. *)
  Theorem C40_distinct sdir manif lower langs skip pl f ids pl' f' :
    run (bundle_ids cwd sdir manif lower langs skip) pl f = (Done ids, pl', f') -> NoDup ids.
  Proof. exact (ids_NoDup cwd sdir manif lower langs skip pl f ids pl' f'). Qed.
  (** Whatever the schedule, the storage at the end is the one obtained by downloading the bundles one
      after the other: when no system call failed, or when every job succeeded. *)
  Theorem C40_one_by_one (ids : list (option N)) f faults ps f' : storage_ready cwd base f -> NoDup ids ->
    interleave faults (bundle_jobs cwd base get ids, f) (ps, f') -> Forall ended ps -> faults = false \/ Forall (fun p => p = Ret tt) ps ->
    same_fs (in_turn (bundle_jobs cwd base get ids) f) f'.
  Proof. exact (in_turn_same cwd base get f ids faults ps f'). Qed.
  (** The jobs that succeed do not depend on the schedule either: they are those of the bundles that
      are present, or absent and available on the CDN. *)
  Theorem C40_successes (ids : list (option N)) f ps f' : storage_ready cwd base f -> NoDup ids ->
    interleave false (bundle_jobs cwd base get ids, f) (ps, f') -> Forall ended ps ->
    Forall2 (fun s p => p = Ret tt <-> exists id, s = Some id /\ bundle_dir_free cwd base f /\
      (is_file f (bundle_file cwd base id) \/ (look f (bundle_file cwd base id) = None /\ exists data, get (cdn id) = Ok data))) ids ps.
  Proof. intros R Hnd H. exact (outcomes cwd base get f R ids Hnd ps f' H). Qed.
  (** At any time, with any failures: a job that has succeeded left the complete bundle, and only
      missing bundles of the list have changed. *)
  Theorem C40_content (ids : list (option N)) f faults ps f' : storage_ready cwd base f -> NoDup ids ->
    interleave faults (bundle_jobs cwd base get ids, f) (ps, f') ->
    storage_ready cwd base f' /\
    only_files (fun q => exists id, In (Some id) ids /\ ~ is_file f (bundle_file cwd base id) /\ (exists data, get (cdn id) = Ok data) /\ q = bundle_file cwd base id) f f' /\
    Forall2 (fun s p => p = Ret tt -> exists id, s = Some id /\
      ((is_file f (bundle_file cwd base id) /\ look f' (bundle_file cwd base id) = look f (bundle_file cwd base id)) \/
       (look f (bundle_file cwd base id) = None /\ exists data, get (cdn id) = Ok data /\ look f' (bundle_file cwd base id) = Some (NFile data)))) ids ps.
  Proof. intros R Hnd. exact (untouched cwd base get f R ids Hnd faults ps f'). Qed.
  (** Any execution can be continued until every job has ended. *)
  Theorem C40_ends (ids : list (option N)) f faults ps f1 : interleave faults (bundle_jobs cwd base get ids, f) (ps, f1) ->
    exists ps' f', interleave faults (bundle_jobs cwd base get ids, f) (ps', f') /\ Forall ended ps' /\ interleave false (ps, f1) (ps', f').
  Proof.
    intros H. destruct (turn_interleave false ps [] f1 (Forall_nil _)) as (ps' & H' & HF). exists ps', (in_turn ps f1).
    split; [|split; [exact HF | exact H']]. eapply interleave_trans; [exact H|]. eapply interleave_faults. exact H'.
  Qed.
End Download.
Print Assumptions C40_distinct.
Print Assumptions C40_one_by_one.
Print Assumptions C40_successes.
Print Assumptions C40_content.
Print Assumptions C40_ends.

(** *** Examples *)

Local Notation d := lit.
Local Definition w : path := [d "w"].
Local Definition s_ : str := lit "s".
(** An empty storage; one of the bundles cannot be downloaded. *)
Local Definition f0 : fs := [([d "w"], NDir); ([d "s"; d "w"], NDir)].
Local Definition cdn_get (p : str) : result bytes :=
  if eqb p (lit "channels/public/bundles/00000000000000B3.bundle") then Err HTTPError
  else if eqb p (lit "channels/public/bundles/00000000000000B1.bundle") then Ok (bl "first") else Ok (bl "second").
Local Definition ids3 : list (option N) := [Some 177; Some 178; Some 179].
Local Definition jobs3 := bundle_jobs w s_ cdn_get ids3.
Example C40_ready_ex : storage_ready w s_ f0.
Proof.
  split; [split; [discriminate | vm_compute; intuition discriminate] | | apply wf_check_ok; vm_compute; reflexivity | reflexivity | intros n; apply no_links_ok; reflexivity | intros n; apply no_links_ok; reflexivity].
  repeat constructor; try discriminate. vm_compute. intuition discriminate.
Qed.

(** The three threads in turn: two of them make the directories together.  The states of the
    bundles, and the outcomes. *)
Local Definition turns (n : nat) : list (nat * option (exn * N)) := concat (repeat [(0, None); (1, None); (2, None)]%nat n).
Local Definition shape (p : prog unit) : option (outcome unit) := match p with Ret a => Some (Done a) | Rai e => Some (Raised e) | Act _ _ => None end.
Local Definition view (st : list (prog unit) * fs) :=
  (map shape (fst st), map (fun i => look (snd st) (bundle_file w s_ i)) [177; 178; 179]).
Lemma ended_shape p : shape p <> None -> ended p.
Proof. destruct p; cbn; auto. Qed.
Example C40_schedule_ex :
  view (schedule (turns 8) (jobs3, f0)) = ([None; None; Some (Raised HTTPError)], [Some (NFile []); None; None]) /\
  view (schedule (turns 30) (jobs3, f0)) =
    ([Some (Done tt); Some (Done tt); Some (Raised HTTPError)],
     [Some (NFile (bl "first")); Some (NFile (bl "second")); None]).
Proof. vm_compute. split; reflexivity. Qed.
Example C40_hyp_ex : exists ps f', NoDup ids3 /\ interleave false (jobs3, f0) (ps, f') /\ Forall ended ps /\ bundle_dir_free w s_ f0.
Proof.
  exists (fst (schedule (turns 30) (jobs3, f0))), (snd (schedule (turns 30) (jobs3, f0))). split; [|split; [|split]].
  - repeat (constructor; [cbn; intuition discriminate|]). constructor.
  - rewrite <- surjective_pairing. apply (schedule_interleave false (turns 30)). right. unfold turns. apply Forall_forall. intros x Hx. apply in_concat in Hx as (l & Hl & Hx). apply repeat_spec in Hl as ->. cbn in Hx. intuition (subst; reflexivity).
  - apply Forall_forall. intros p Hp.
    assert (H : forallb (fun p => match shape p with None => false | _ => true end) (fst (schedule (turns 30) (jobs3, f0))) = true) by (vm_compute; reflexivity).
    apply ended_shape. rewrite forallb_forall in H. specialize (H p Hp). destruct (shape p); [discriminate | discriminate H].
  - intros q Hq. destruct q as [|x q]; [right; reflexivity|]. destruct (look f0 (x :: q)) as [n|] eqn:E; [|auto]. right. apply (dget_some_In f0) in E. vm_compute in E. intuition congruence.
Qed.

(** ** C39: the bundles needed by extractions *)

Section Complete.
  Variable cwd : path.
  Variable base : str.
  Variable zstd : bytes -> result bytes.
  Variable sha1 : str -> str.
  Hypothesis sha1_ok : forall s, valid_name (sha1 s).
  Variable get : str -> result bytes.
  Variable sdir : str.
  Variable manif : manifest.
  Variable lower : str -> str.
  Variable langs : langs_arg.
  Variable sel : list mfile.
  (** The files selected by [langs]. *)
  Hypothesis Hsel : selected manif lower langs = Ok sel.
  Variable sym : bool.

  (** After a successful [download_bundles(langs, skip_extracted=True)], every selected file is
      extracted or has its bundles, *)
  Theorem C39_available f pl ids pl' f1 faults ps f2 : storage_ready cwd base f -> outputs_ready cwd base sym (map (extract_path sdir) sel) f ->
    run (bundle_ids cwd sdir manif lower langs true) pl f = (Done ids, pl', f1) ->
    interleave faults (bundle_jobs cwd base get ids, f1) (ps, f2) -> Forall (fun p => p = Ret tt) ps ->
    forall m, In m sel -> extracted cwd sdir m f2 \/ has_bundles cwd base m f2.
  Proof.
    intros R Ho Ei Hil Hps m Hm. eapply (cinv_available cwd base sdir sym sel); [|exact Hm].
    eapply (download_cinv cwd base get sdir); eassumption.
  Qed.
  (** and it is still so when the extraction, with any failures, gets to that file; *)
  Theorem C39_extract f pl ids pl' f1 faults ps f2 l1 m l2 pl2 u pl3 f3 : storage_ready cwd base f -> outputs_ready cwd base sym (map (extract_path sdir) sel) f ->
    run (bundle_ids cwd sdir manif lower langs true) pl f = (Done ids, pl', f1) ->
    interleave faults (bundle_jobs cwd base get ids, f1) (ps, f2) -> Forall (fun p => p = Ret tt) ps ->
    sort_files sel = Ok (l1 ++ m :: l2) ->
    run (for_each l1 (extract_file cwd base zstd sha1 sym sdir false)) pl2 f2 = (Done u, pl3, f3) ->
    extract cwd base zstd sha1 sym sdir manif lower langs false = for_each (l1 ++ m :: l2) (extract_file cwd base zstd sha1 sym sdir false) /\
    (extracted cwd sdir m f3 \/ has_bundles cwd base m f3).
  Proof.
    intros R Ho Ei Hil Hps El E. split; [unfold extract; rewrite Hsel; cbn [lift bind]; rewrite El; reflexivity|].
    assert (Hin : forall x, In x (l1 ++ m :: l2) -> In x sel) by (apply sort_files_In; exact El).
    eapply (cinv_available cwd base sdir sym sel); [|apply Hin; apply in_elt].
    eapply (extract_files_cinv cwd base zstd sha1 sha1_ok sdir sym sel (or_places _ _ _ _ _ Ho) (or_apart _ _ _ _ _ Ho)); [| |exact E].
    - intros x Hx. apply Hin. apply in_app_iff. auto.
    - eapply (download_cinv cwd base get sdir); eassumption.
  Qed.
  (** or when another extraction is started after one that failed or was killed. *)
  Theorem C39_again f pl ids pl' f1 faults ps f2 pl2 r pl3 f3 : storage_ready cwd base f -> outputs_ready cwd base sym (map (extract_path sdir) sel) f ->
    run (bundle_ids cwd sdir manif lower langs true) pl f = (Done ids, pl', f1) ->
    interleave faults (bundle_jobs cwd base get ids, f1) (ps, f2) -> Forall (fun p => p = Ret tt) ps ->
    run (extract cwd base zstd sha1 sym sdir manif lower langs false) pl2 f2 = (r, pl3, f3) ->
    forall m, In m sel -> extracted cwd sdir m f3 \/ has_bundles cwd base m f3.
  Proof.
    intros R Ho Ei Hil Hps E m Hm. eapply (cinv_available cwd base sdir sym sel); [|exact Hm].
    assert (HC : cinv cwd base sdir sym sel f2) by (eapply (download_cinv cwd base get sdir); eassumption).
    unfold extract in E. rewrite Hsel in E. cbn [lift bind] in E. destruct (sort_files sel) as [l|e] eqn:El; cbn [lift bind] in E; [|cbn in E; injection E as <- <- <-; exact HC].
    eapply (extract_files_cinv cwd base zstd sha1 sha1_ok sdir sym sel (or_places _ _ _ _ _ Ho) (or_apart _ _ _ _ _ Ho)); [|exact HC|exact E].
    intros x. apply sort_files_In. exact El.
  Qed.
End Complete.
Print Assumptions C39_available.
Print Assumptions C39_extract.
Print Assumptions C39_again.

(** *** Examples *)

(** Three files in two bundles; "a" is extracted and its bundle is not in the storage. *)
Local Definition unz (b : bytes) : result bytes := Ok (rev b).
Local Definition sha (s : str) : str := hexl 16 (fold_left (fun a c => (a * 257 + c) mod 2 ^ 64) s 0).
Local Definition ck (id b off size : N) : chunk := {| c_id := Some id; c_bundle := Some b; c_offset := off; c_size := Some size; c_target := None |}.
Local Definition mf (name : String.string) (n : N) (cs : list chunk) : mfile := {| f_name := Some (lit name); Rman.f_size := Some n; f_link := None; f_flags := None; f_chunks := cs |}.
Arguments mf name%string_scope n cs.
Local Definition ma : mfile := mf "a" 3 [ck 1 177 0 3].
Local Definition mb : mfile := mf "b" 6 [ck 2 178 0 3; ck 3 179 0 3].
Local Definition mc : mfile := mf "d/c" 3 [ck 3 179 0 3].
Local Definition man : manifest := {| m_bundles := []; m_chunks := []; m_flags := []; m_files := map (fun m => (Rman.f_name m, m)) [mc; mb; ma] |}.
Local Definition rel : str := lit "s/cdtb/releases/pbe/5".
Local Definition fe : fs := [
  ([d "w"], NDir); ([d "s"; d "w"], NDir); ([d "cdtb"; d "s"; d "w"], NDir);
  ([d "files"; d "cdtb"; d "s"; d "w"], NDir);
  ([sha (d "0000000000000001"); d "files"; d "cdtb"; d "s"; d "w"], NFile (bl "AAA"));
  ([d "releases"; d "cdtb"; d "s"; d "w"], NDir); ([d "pbe"; d "releases"; d "cdtb"; d "s"; d "w"], NDir);
  ([d "5"; d "pbe"; d "releases"; d "cdtb"; d "s"; d "w"], NDir);
  ([d "files"; d "5"; d "pbe"; d "releases"; d "cdtb"; d "s"; d "w"], NDir);
  ([d "a"; d "files"; d "5"; d "pbe"; d "releases"; d "cdtb"; d "s"; d "w"], NLink (relpath w (store_path s_ (sha (d "0000000000000001"))) (lit "s/cdtb/releases/pbe/5/files")))].
Local Definition get39 (p : str) : result bytes :=
  if eqb p (lit "channels/public/bundles/00000000000000B2.bundle") then Ok (bl "bbb")
  else if eqb p (lit "channels/public/bundles/00000000000000B3.bundle") then Ok (bl "ccc") else Err HTTPError.
Local Definition needed : list (option N) := [Some 178; Some 179].
Local Definition jobs39 := bundle_jobs w s_ get39 needed.

Lemma sha_name s : valid_name (sha s).
Proof.
  unfold sha. set (n := fold_left _ s 0). pose proof (hexl_value 16 n) as Hv.
  assert (Hd : forall c, is_digit c = false -> ~ 97 <= c <= 102 -> ~ In c (hexl 16 n)) by (intros c; apply hexl_not_in).
  split; [intros E; rewrite E in Hv; discriminate|]. split; [intros E|split; [intros E|]].
  - apply (Hd cDot); [reflexivity | unfold cDot, cSlash; lia | rewrite E; left; reflexivity].
  - apply (Hd cDot); [reflexivity | unfold cDot, cSlash; lia | rewrite E; left; reflexivity].
  - apply Hd; [reflexivity | unfold cDot, cSlash; lia].
Qed.
Lemma plain_ex o : mem dotdot (comps o) = false /\ eqb (dirname o) [] = false /\ eqb (basename o) [] = false /\ eqb (basename o) [cDot] = false -> plain_path o.
Proof.
  intros (H1 & H2 & H3 & H4). split; [intros H; apply mem_In in H; congruence|]. apply eqbF in H2. apply eqbF in H3. apply eqbF in H4. auto.
Qed.
Example C39_ready_ex : storage_ready w s_ fe /\ outputs_ready w s_ true (map (extract_path rel) [mc; mb; ma]) fe /\
  selected man (fun s => s) LTrue = Ok [mc; mb; ma] /\ sort_files [mc; mb; ma] = Ok [ma; mb; mc].
Proof.
  assert (Hlinks : forall q x, look fe q = Some (NLink x) -> q = [d "a"; d "files"; d "5"; d "pbe"; d "releases"; d "cdtb"; d "s"; d "w"] /\ x = relpath w (store_path s_ (sha (d "0000000000000001"))) (lit "s/cdtb/releases/pbe/5/files")).
  { intros q x E. destruct q as [|y q]; [discriminate|]. apply (dget_some_In fe) in E. unfold fe in E. cbn [In] in E.
    repeat (destruct E as [E|E]; [match type of E with (_, NLink _) = _ => idtac | _ => apply (f_equal snd) in E; cbn [snd] in E; discriminate E end|]); [|destruct E].
    pose proof (f_equal fst E) as E1. pose proof (f_equal (fun z => match snd z with NLink t => t | _ => [] end) E) as E2. cbn [fst snd] in E1, E2. auto. }
  assert (Hno : forall p, (forall q, below p q -> q <> [d "a"; d "files"; d "5"; d "pbe"; d "releases"; d "cdtb"; d "s"; d "w"]) -> nolink fe p).
  { intros p H q x Hb E. apply Hlinks in E as [E _]. exact (H q Hb E). }
  assert (Hnb : forall p, below_b p [d "a"; d "files"; d "5"; d "pbe"; d "releases"; d "cdtb"; d "s"; d "w"] = false -> nolink fe p).
  { intros p H. apply Hno. intros q Hb ->. apply below_b_ok in Hb. congruence. }
  split; [|split].
  - split; [split; [discriminate | vm_compute; intuition discriminate] | | apply wf_check_ok; vm_compute; reflexivity | reflexivity | |].
    + repeat constructor; try discriminate. vm_compute. intuition discriminate.
    + intros n. apply Hno. intros q [l E] Hq. rewrite Hq in E. apply (f_equal (@length _)) in E. rewrite app_length in E. change (5 = length l + 8)%nat in E. lia.
    + intros n. apply Hno. intros q [l E] Hq. rewrite Hq in E. apply (f_equal (@length _)) in E. rewrite app_length in E. change (6 = length l + 8)%nat in E. lia.
  - split.
    + cbn [map]. repeat (constructor; [cbn [In]; intros H; repeat (destruct H as [H|H]; [vm_compute in H; discriminate H|]); exact H|]). constructor.
    + intros o o' Ho Ho'. cbn [map In] in Ho, Ho'. intros B. pose proof (proj1 (below_b_ok _ _) (strictly_below_below _ _ B)) as B'.
      repeat (destruct Ho as [<-|Ho]); repeat (destruct Ho' as [<-|Ho']); try contradiction; try (vm_compute in B'; discriminate B'); exact (strictly_below_irrefl _ B).
    + intros o Ho. cbn [map In] in Ho. repeat (destruct Ho as [<-|Ho]); [| | |contradiction];
        (split; [apply plain_ex; vm_compute; repeat split|]; split; [apply Hnb; vm_compute; reflexivity|]; split; apply apart_check; vm_compute; reflexivity).
    + intros o x Ho E. apply Hlinks in E as [E ->]. split; [reflexivity|]. exists (sha (d "0000000000000001")). split; [apply sha_name|].
      cbn [map In] in Ho. repeat (destruct Ho as [<-|Ho]); [| | |contradiction]; try (vm_compute in E; discriminate E). vm_compute. reflexivity.
  - vm_compute. split; reflexivity.
Qed.

(** The two missing bundles are downloaded by two threads, and the extraction succeeds: "b" and
    "d/c" are links to their contents.  The second extraction does nothing. *)
Local Definition turns2 : list (nat * option (exn * N)) := concat (repeat [(0, None); (1, None)]%nat 30).
Local Definition extract39 (overwrite : bool) : prog unit := extract w s_ unz sha true rel man (fun s => s) LTrue overwrite.
Local Definition read39 (o : String.string) : prog bytes := read_file w (fspath s_ (lit o)).
Arguments read39 o%string_scope.
Example C39_ex : exists f2,
  run (bundle_ids w rel man (fun s => s) LTrue true) [] fe = (Done needed, [], fe) /\
  interleave false (jobs39, fe) ([Ret tt; Ret tt], f2) /\
  let f3 := snd (run (extract39 false) [] f2) in
  fst (fst (run (extract39 false) [] f2)) = Done tt /\
  look f2 (bundle_file w s_ 177) = None /\ look f2 (bundle_file w s_ 178) = Some (NFile (bl "bbb")) /\
  fst (fst (run (read39 "cdtb/releases/pbe/5/files/b") [] f3)) = Done (bl "bbbccc") /\
  fst (fst (run (read39 "cdtb/releases/pbe/5/files/d/c") [] f3)) = Done (bl "ccc") /\
  run (extract39 false) [] f3 = (Done tt, [], f3).
Proof.
  exists (snd (schedule turns2 (jobs39, fe))). split; [vm_compute; reflexivity|]. split; [|vm_compute; repeat split].
  assert (E : fst (schedule turns2 (jobs39, fe)) = [Ret tt; Ret tt]) by (vm_compute; reflexivity). rewrite <- E, <- surjective_pairing.
  apply (schedule_interleave false turns2). right. unfold turns2. apply Forall_forall. intros x Hx. apply in_concat in Hx as (l & Hl & Hx). apply repeat_spec in Hl as ->. cbn in Hx. intuition (subst; reflexivity).
Qed.

(** With [extract(overwrite=True)] the statement is false: when "a" was extracted before
    [use_extract_symlinks] was set, its bundle is not downloaded, and the extraction fails although all
    downloads succeeded. *)
Local Definition fa : fs := [
  ([d "w"], NDir); ([d "s"; d "w"], NDir); ([d "cdtb"; d "s"; d "w"], NDir);
  ([d "releases"; d "cdtb"; d "s"; d "w"], NDir); ([d "pbe"; d "releases"; d "cdtb"; d "s"; d "w"], NDir);
  ([d "5"; d "pbe"; d "releases"; d "cdtb"; d "s"; d "w"], NDir);
  ([d "files"; d "5"; d "pbe"; d "releases"; d "cdtb"; d "s"; d "w"], NDir);
  ([d "a"; d "files"; d "5"; d "pbe"; d "releases"; d "cdtb"; d "s"; d "w"], NFile (bl "AAA"))].
Theorem C39_overwrite_refuted : exists cwd base zstd sha1 get sdir manif lower langs f ids f2,
  storage_ready cwd base f /\
  run (bundle_ids cwd sdir manif lower langs true) [] f = (Done ids, [], f) /\
  interleave false (bundle_jobs cwd base get ids, f) (map (fun _ => Ret tt) ids, f2) /\
  fst (fst (run (extract cwd base zstd sha1 true sdir manif lower langs true) [] f2)) = Raised (OSError ENOENT).
Proof.
  exists w, s_, unz, sha, get39, rel, man, (fun s => s), LTrue, fa, needed, (snd (schedule turns2 (jobs39, fa))).
  split.
  { split; [split; [discriminate | vm_compute; intuition discriminate] | | apply wf_check_ok; vm_compute; reflexivity | reflexivity | intros n; apply no_links_ok; reflexivity | intros n; apply no_links_ok; reflexivity].
    repeat constructor; try discriminate. vm_compute. intuition discriminate. }
  split; [vm_compute; reflexivity|]. split; [|vm_compute; reflexivity].
  assert (E : fst (schedule turns2 (jobs39, fa)) = [Ret tt; Ret tt]) by (vm_compute; reflexivity).
  change (map (fun _ : option N => Ret tt) needed) with [Ret tt; Ret tt]. rewrite <- E, <- surjective_pairing.
  apply (schedule_interleave false turns2). right. unfold turns2. apply Forall_forall. intros x Hx. apply in_concat in Hx as (l & Hl & Hx). apply repeat_spec in Hl as ->. cbn in Hx. intuition (subst; reflexivity).
Qed.
Print Assumptions C39_overwrite_refuted.
