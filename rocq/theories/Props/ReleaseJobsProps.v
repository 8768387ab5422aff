(** * C81: download and extraction of whole releases *)

From Verif Require Import Base.Py Base.Text Base.PyFacts Base.TextFacts Base.Fs Spec.FsSpec Base.FsFacts Base.FsLinks Base.FsThreads Spec.FilesSpec Model.Files Model.Rman Model.Patcher Spec.PatcherSpec Spec.PatcherTotalSpec Proofs.PatcherExtractProofs Proofs.PatcherBundleProofs Proofs.PatcherCompleteProofs Model.ReleaseJobs Proofs.ReleaseJobsProofs Props.PatcherBundleProps Props.PatcherTotalProps.

Section Release.
  Variable cwd : path.
  Variable base : str.
  Variable get : str -> result bytes.
  Variable sdir : str.
  Variable lower : str -> str.
  Variable langs : langs_arg.
  Local Notation cdn id := (lit "channels/public/bundles/" ++ hexu 16 id ++ lit ".bundle").

  (** Whether it succeeds or not, the download of a release only makes missing bundles of the CDN, and directories
      above them. *)
  Theorem C81_frame skip mans f r f' : storage_ready cwd base f -> release_download cwd base get sdir lower langs skip mans f r f' ->
    storage_ready cwd base f' /\
    only_files (fun q => exists id data, get (cdn id) = Ok data /\ ~ is_file f (bundle_file cwd base id) /\ q = bundle_file cwd base id) f f'.
  Proof. exact (release_frame cwd base get sdir lower langs skip mans f r f'). Qed.

  Variable zstd : bytes -> result bytes.
  Variable sha1 : str -> str.
  Hypothesis sha1_ok : forall s, valid_name (sha1 s).
  Variable sym : bool.
  (** The manifests of the elements, and the files to extract of each of them; no two files have the same place. *)
  Variable mans : list manifest.
  Variable sels : list (list mfile).
  Local Notation sel := (concat sels).
  Hypothesis Hsels : Forall2 (fun man l => selected man lower langs = Ok l) mans sels.
  Hypothesis Hnames : forall m, In m sel -> f_name m <> None.
  (** The storage and the places of the files are usable; the links of a previous extraction are not dangling. *)
  Variable f0 : fs.
  Hypothesis Hready : storage_ready cwd base f0.
  Hypothesis Hout : outputs_ready cwd base sym (map (extract_path sdir) sel) f0.
  Hypothesis Hfree : bundle_dir_free cwd base f0.
  Hypothesis Hdangle : forall m x, In m sel -> look f0 (target cwd (extract_path sdir m)) = Some (NLink x) -> exists b, reads cwd (extract_path sdir m) b f0.
  (** With shared files, files of the same digest have the same content, and shared files are the right ones. *)
  Variable D : str -> bytes.
  Hypothesis HD : sym = true -> forall m h d, In m sel -> digest sha1 m h -> content cwd base zstd get f0 m d -> D h = d.
  Hypothesis Hstore : sym = true -> store_ok cwd base D f0.
  (** Each file is extracted, or there is room for it and its chunks are in bundles of the storage or of the CDN. *)
  Hypothesis Hneed : forall m, In m sel -> extracted cwd sdir m f0 \/ (rooms cwd base sha1 sym sdir f0 m /\ exists d, content cwd base zstd get f0 m d).

  (** Without failures of the system the elements are downloaded whatever the schedules of the threads, then their
      extractions succeed, and every file of every element can be read, with the content of its chunks unless it was
      already there. *)
  Theorem C81_total :
    (exists f2, release_download cwd base get sdir lower langs true mans f0 (Done tt) f2) /\
    forall r f2, release_download cwd base get sdir lower langs true mans f0 r f2 ->
      r = Done tt /\
      exists f3, run (release_extract cwd base zstd sha1 sym sdir lower langs mans false) [] f2 = (Done tt, [], f3) /\
        forall m, In m sel -> exists d, reads cwd (extract_path sdir m) d f3 /\
          (content cwd base zstd get f0 m d \/ (reads cwd (extract_path sdir m) d f0 /\ (sym = true -> Rman.f_size m = Some (lenN d)))).
  Proof. exact (whole cwd base get sdir lower langs zstd sha1 sha1_ok f0 sym mans sels Hsels Hnames Hready Hout Hfree Hdangle D HD Hstore Hneed). Qed.
  (** It is also so after any download, of this release or of another one, with network failures, and whatever its
      outcome: it can be started again. *)
  Theorem C81_again get' sdir' lower' langs' skip' mans' r' f1 : (forall p b, get' p = Ok b -> get p = Ok b) ->
    release_download cwd base get' sdir' lower' langs' skip' mans' f0 r' f1 ->
    (exists f2, release_download cwd base get sdir lower langs true mans f1 (Done tt) f2) /\
    forall r f2, release_download cwd base get sdir lower langs true mans f1 r f2 ->
      r = Done tt /\
      exists f3, run (release_extract cwd base zstd sha1 sym sdir lower langs mans false) [] f2 = (Done tt, [], f3) /\
        forall m, In m sel -> exists d, reads cwd (extract_path sdir m) d f3 /\
          (content cwd base zstd get f0 m d \/ (reads cwd (extract_path sdir m) d f0 /\ (sym = true -> Rman.f_size m = Some (lenN d)))).
  Proof.
    intros Hg H. apply (whole_from cwd base get sdir lower langs zstd sha1 sha1_ok f0 sym mans sels Hsels Hnames Hready Hout Hfree Hdangle D HD Hstore Hneed).
    apply (grown_mono _ _ _ get' _ _ Hg). exact (release_grown cwd base get' sdir' lower' langs' skip' mans' f0 r' f1 Hready Hfree H).
  Qed.
End Release.
Print Assumptions C81_frame.
Print Assumptions C81_again.
Print Assumptions C81_total.

(** *** Examples *)

Local Notation w := PatcherBundleProps.w.
Local Notation s_ := PatcherBundleProps.s_.
Local Notation fe := PatcherBundleProps.fe.
Local Notation ma := PatcherBundleProps.ma.
Local Notation mb := PatcherBundleProps.mb.
Local Notation mc := PatcherBundleProps.mc.
Local Notation mf := PatcherBundleProps.mf.
Local Notation ck := PatcherBundleProps.ck.
Local Notation rel := PatcherBundleProps.rel.
Local Notation get39 := PatcherBundleProps.get39.
Local Notation unz := PatcherBundleProps.unz.
Local Notation sha := PatcherBundleProps.sha.
Local Notation D73 := PatcherTotalProps.D73.
Local Definition man_of (l : list mfile) : manifest := {| m_bundles := []; m_chunks := []; m_flags := []; m_files := map (fun m => (Rman.f_name m, m)) l |}.
Local Definition id_s (s : str) : str := s.

(** A release with two elements which need the same bundle. *)
Local Definition mans81 := [man_of [mc]; man_of [mb; ma]].
Local Definition sels81 := [[mc]; [mb; ma]].
Example C81_hyp_ex :
  (forall s, valid_name (sha s)) /\ Forall2 (fun man l => selected man id_s LTrue = Ok l) mans81 sels81 /\
  storage_ready w s_ fe /\ outputs_ready w s_ true (map (extract_path rel) (concat sels81)) fe /\ bundle_dir_free w s_ fe /\
  (forall m, In m (concat sels81) -> f_name m <> None) /\
  (forall m x, In m (concat sels81) -> look fe (target w (extract_path rel m)) = Some (NLink x) -> exists b, reads w (extract_path rel m) b fe) /\
  (forall m h b, In m (concat sels81) -> digest sha m h -> content w s_ unz get39 fe m b -> D73 h = b) /\ store_ok w s_ D73 fe /\
  (forall m, In m (concat sels81) -> extracted w rel m fe \/ (rooms w s_ sha true rel fe m /\ exists b, content w s_ unz get39 fe m b)).
Proof.
  split; [exact sha_name|]. split; [repeat constructor|]. destruct C73_hyp_ex as (H1 & H2 & H3 & _ & H5 & H6 & H7 & H8 & H9).
  exact (conj H1 (conj H2 (conj H3 (conj H5 (conj H6 (conj H7 (conj H8 H9))))))).
Qed.
(** Downloads by one thread after the other, and their results. *)
Local Definition turns_of (n : nat) : list (nat * option (exn * N)) := concat (repeat (map (fun i => (i, None)) (seq 0 n)) 30).
Local Definition pooled (get : str -> result bytes) (ids : list (option N)) (f : fs) : list (prog unit) * fs := schedule (turns_of (length ids)) (bundle_jobs w s_ get ids, f).
Lemma pooled_interleave get ids f : interleave false (bundle_jobs w s_ get ids, f) (pooled get ids f).
Proof.
  unfold pooled. apply schedule_interleave. right. apply Forall_forall. intros x Hx. unfold turns_of in Hx. apply in_concat in Hx as (l & Hl & Hx). apply repeat_spec in Hl as ->.
  apply in_map_iff in Hx as (i & <- & _). reflexivity.
Qed.
Lemma pooled_element get skip m f ids f' : run (bundle_ids w rel m id_s LTrue skip) [] f = (Done ids, [], f) ->
  pooled get ids f = (map (fun _ => Ret tt) ids, f') -> element_download w s_ get rel id_s LTrue skip m f (Done tt) f'.
Proof.
  intros Ei E. assert (H : Forall (fun p => p = Ret tt) (map (fun _ : option N => Ret tt) ids)) by (apply Forall_forall; intros x Hx; apply in_map_iff in Hx as (i & <- & _); reflexivity).
  eapply ed_pool; [exact Ei | rewrite <- E; apply pooled_interleave | eapply Forall_impl; [|exact H]; intros p ->; exact I | apply pool_done; exact H].
Qed.
Local Definition read81 (o : String.string) (f : fs) := fst (fst (run (read_file w (fspath s_ (lit o))) [] f)).
Arguments read81 o%string_scope f.
Example C81_ex :
  (exists f2, release_download w s_ get39 rel id_s LTrue true mans81 fe (Done tt) f2 /\
    fst (fst (run (release_extract w s_ unz sha true rel id_s LTrue mans81 false) [] f2)) = Done tt /\
    let f3 := snd (run (release_extract w s_ unz sha true rel id_s LTrue mans81 false) [] f2) in
    read81 "cdtb/releases/pbe/5/files/a" f3 = Done (bl "AAA") /\
    read81 "cdtb/releases/pbe/5/files/b" f3 = Done (bl "bbbccc") /\
    read81 "cdtb/releases/pbe/5/files/d/c" f3 = Done (bl "ccc")).
Proof.
  eexists. split.
  - eapply rd_next; [eapply pooled_element; [vm_compute; reflexivity | vm_compute; reflexivity]|].
    eapply rd_next; [eapply pooled_element; [vm_compute; reflexivity | vm_compute; reflexivity] | apply rd_end].
  - vm_compute. repeat split.
Qed.

(** A first attempt with failures of the network: the bundle of the first element is downloaded, not the one of the
    second element.  The second attempt succeeds. *)
Local Definition flaky (p : str) : result bytes := if eqb p (lit "channels/public/bundles/00000000000000B3.bundle") then get39 p else Err HTTPError.
Example C81_again_ex : (forall p b, flaky p = Ok b -> get39 p = Ok b) /\ exists f1 f2,
  release_download w s_ flaky rel id_s LTrue true mans81 fe (Raised HTTPError) f1 /\ look f1 (bundle_file w s_ 179) = Some (NFile (bl "ccc")) /\ look f1 (bundle_file w s_ 178) = None /\
  release_download w s_ get39 rel id_s LTrue true mans81 f1 (Done tt) f2 /\
  fst (fst (run (release_extract w s_ unz sha true rel id_s LTrue mans81 false) [] f2)) = Done tt.
Proof.
  split; [intros p b; unfold flaky; destruct (eqb p _); [auto | discriminate]|]. eexists; eexists. split; [|split; [|split; [|split]]].
  - eapply rd_next; [eapply pooled_element; [vm_compute; reflexivity | vm_compute; reflexivity]|]. eapply rd_stop.
    match goal with |- element_download _ _ _ _ _ _ _ _ ?f _ _ => pose proof (pooled_interleave flaky [Some 178; Some 179] f) as Hil end.
    set (x := pooled _ _ _) in Hil. vm_compute in x. subst x. eapply ed_pool; [vm_compute; reflexivity | exact Hil | repeat constructor | apply pool_raised; left; reflexivity].
  - vm_compute. reflexivity.
  - vm_compute. reflexivity.
  - eapply rd_next; [eapply pooled_element; [vm_compute; reflexivity | vm_compute; reflexivity]|].
    eapply rd_next; [eapply pooled_element; [vm_compute; reflexivity | vm_compute; reflexivity] | apply rd_end].
  - vm_compute. reflexivity.
Qed.

(** The elements of a release share the directory of the files.  When a file of the second element has the name and
    the size of a file of the first one, everything succeeds but it is taken as extracted and its content is wrong. *)
Local Definition m1 : mfile := mf "b" 3 [ck 2 178 0 3].
Local Definition m2 : mfile := mf "b" 3 [ck 3 179 0 3].
Theorem C81_shared_refuted : exists cwd base get zstd sha1 sym sdir lower langs mans f f2 f3 man m d d',
  storage_ready cwd base f /\ release_download cwd base get sdir lower langs true mans f (Done tt) f2 /\
  run (release_extract cwd base zstd sha1 sym sdir lower langs mans false) [] f2 = (Done tt, [], f3) /\
  In man mans /\ selected man lower langs = Ok [m] /\ content cwd base zstd get f m d /\
  extracted cwd sdir m f3 /\ reads cwd (extract_path sdir m) d' f3 /\ d' <> d.
Proof.
  set (f2 := snd (pooled get39 [Some 179] (snd (pooled get39 [Some 178] PatcherBundleProps.f0)))).
  set (f3 := snd (run (release_extract w s_ unz sha true rel id_s LTrue [man_of [m1]; man_of [m2]] false) [] f2)).
  exists w, s_, get39, unz, sha, true, rel, id_s, LTrue, [man_of [m1]; man_of [m2]], PatcherBundleProps.f0, f2, f3, (man_of [m2]), m2, (bl "ccc"), (bl "bbb").
  split; [exact C40_ready_ex|]. split.
  { eapply rd_next; [eapply (pooled_element _ _ _ _ [Some 178]); [vm_compute; reflexivity | vm_compute; reflexivity]|].
    eapply rd_next; [eapply (pooled_element _ _ _ _ [Some 179]); [vm_compute; reflexivity | vm_compute; reflexivity] | apply rd_end]. }
  split; [vm_compute; reflexivity|]. split; [right; left; reflexivity|]. split; [reflexivity|]. split.
  { exists [bl "ccc"]. split; [|reflexivity]. repeat constructor. exists 179, (bl "ccc"). split; [reflexivity|]. split; [|reflexivity].
    right. split; vm_compute; reflexivity. }
  split; [exists (bl "bbb"); split; vm_compute; reflexivity|]. split; [vm_compute; reflexivity | vm_compute; discriminate].
Qed.
Print Assumptions C81_shared_refuted.
