(** * C82: downloads of patches *)

From Verif Require Import Base.Py Base.Text Base.PyFacts Base.TextFacts Base.PathFacts Base.Fs Spec.FsSpec Base.FsFacts Base.FsLinks Base.FsThreads Spec.FilesSpec Model.Files Model.Rman Model.Patcher Spec.PatcherSpec Spec.PatcherTotalSpec Proofs.PatcherLinkProofs Proofs.PatcherExtractProofs Proofs.PatcherBundleProofs Proofs.PatcherCompleteProofs Model.ReleaseJobs Proofs.ReleaseJobsProofs Spec.PatchDownloadSpec Proofs.PatchDownloadProofs Props.PatcherBundleProps Props.PatcherTotalProps Props.ReleaseJobsProps.

(** Whether it succeeds or not, the download of a patch only changes the places of the files of its elements, their
    copies in the shared directory, missing bundles of the CDN, and makes directories above them. *)
Theorem C82_frame cwd base get lower langs zstd sha1 sym (fl : list (str * mfile)) els f r f' : (forall s, valid_name (sha1 s)) ->
  (forall s man l m, In (s, man) els -> selected man lower langs = Ok l -> In m l -> In (s, m) fl) ->
  storage_ready cwd base f -> outputs_ready cwd base sym (map outp fl) f ->
  patch_download cwd base get zstd sha1 sym lower langs els f r f' ->
  storage_ready cwd base f' /\ only_files (patch_touches cwd base get sha1 sym fl f) f f'.
Proof.
  intros Hsha Hl R Ho H. eapply patch_frame; [exact Hsha | exact (or_apart _ _ _ _ _ Ho) | exact Hl | | exact H]. split; [exact R|]. split.
  - intros x Hx. apply (or_ready _ _ _ _ _ Ho). apply in_map. exact Hx.
  - intros Hs x l Hx E. apply (or_links _ _ _ _ _ Ho (outp x)) in E as [E _]; [congruence | apply in_map; exact Hx].
Qed.
Print Assumptions C82_frame.

Section Patch.
  Variable cwd : path.
  Variable base : str.
  Variable get : str -> result bytes.
  Variable lower : str -> str.
  Variable langs : langs_arg.
  Variable zstd : bytes -> result bytes.
  Variable sha1 : str -> str.
  Hypothesis sha1_ok : forall s, valid_name (sha1 s).
  Variable sym : bool.
  (** The elements, and the files to extract of each of them; no two files have the same place. *)
  Variable parts : list (str * manifest * list mfile).
  Hypothesis Hsels : forall s man l, In (s, man, l) parts -> selected man lower langs = Ok l.
  Hypothesis Hnames : forall s m, In (s, m) (files_of parts) -> f_name m <> None.
  (** The storage and the places of the files are usable; the links of a previous extraction are not dangling. *)
  Variable f0 : fs.
  Hypothesis Hready : storage_ready cwd base f0.
  Hypothesis Hout : outputs_ready cwd base sym (map outp (files_of parts)) f0.
  Hypothesis Hfree : bundle_dir_free cwd base f0.
  Hypothesis Hdangle : forall s m x, In (s, m) (files_of parts) -> look f0 (target cwd (extract_path s m)) = Some (NLink x) -> exists b, reads cwd (extract_path s m) b f0.
  (** With shared files, files of the same digest have the same content, and shared files are the right ones. *)
  Variable D : str -> bytes.
  Hypothesis HD : sym = true -> forall s m h d, In (s, m) (files_of parts) -> digest sha1 m h -> content cwd base zstd get f0 m d -> D h = d.
  Hypothesis Hstore : sym = true -> store_ok cwd base D f0.
  (** Each file is extracted, or there is room for it and its chunks are in bundles of the storage or of the CDN. *)
  Hypothesis Hneed : forall s m, In (s, m) (files_of parts) -> extracted cwd s m f0 \/ (rooms cwd base sha1 sym s f0 m /\ exists d, content cwd base zstd get f0 m d).

  (** Without failures of the system the download of a patch succeeds whatever the schedules of the threads. *)
  Theorem C82_succeeds : exists f', patch_download cwd base get zstd sha1 sym lower langs (map fst parts) f0 (Done tt) f'.
  Proof. exact (proj1 (patch_whole cwd base get lower langs zstd sha1 sha1_ok sym D f0 parts Hsels Hnames Hready Hout Hfree Hdangle HD Hstore Hneed)). Qed.
  Section Run.
    Variable r : outcome unit.
    Variable f' : fs.
    Hypothesis Hrun : patch_download cwd base get zstd sha1 sym lower langs (map fst parts) f0 r f'.
    Theorem C82_done : r = Done tt.
    Proof. apply (patch_whole cwd base get lower langs zstd sha1 sha1_ok sym D f0 parts Hsels Hnames Hready Hout Hfree Hdangle HD Hstore Hneed) in Hrun. apply Hrun. Qed.
    (** Then every file of every element can be read, with the content of its chunks unless it was already there. *)
    Theorem C82_files s m : In (s, m) (files_of parts) -> exists d, reads cwd (extract_path s m) d f' /\
      (content cwd base zstd get f0 m d \/ (reads cwd (extract_path s m) d f0 /\ (sym = true -> Rman.f_size m = Some (lenN d)))).
    Proof. apply (patch_whole cwd base get lower langs zstd sha1 sha1_ok sym D f0 parts Hsels Hnames Hready Hout Hfree Hdangle HD Hstore Hneed) in Hrun. apply Hrun. Qed.
    (** The files of other elements and releases which were extracted before keep their content. *)
    Theorem C82_others s m d : outside cwd base (map outp (files_of parts)) (extract_path s m) f0 ->
      (forall x, look f0 (target cwd (extract_path s m)) = Some (NLink x) -> exists h, valid_name h /\ x = relpath cwd (store_path base h) (dirname (extract_path s m))) ->
      reads cwd (extract_path s m) d f0 -> reads cwd (extract_path s m) d f'.
    Proof. apply (patch_whole cwd base get lower langs zstd sha1 sha1_ok sym D f0 parts Hsels Hnames Hready Hout Hfree Hdangle HD Hstore Hneed) in Hrun. apply Hrun. Qed.
  End Run.
  (** After any attempts during which requests failed, downloading again succeeds and gives the same files. *)
  Theorem C82_again f1 : attempts cwd base get zstd sha1 sym lower langs (map fst parts) f0 f1 ->
    (exists f', patch_download cwd base get zstd sha1 sym lower langs (map fst parts) f1 (Done tt) f') /\
    forall r f', patch_download cwd base get zstd sha1 sym lower langs (map fst parts) f1 r f' ->
      r = Done tt /\
      forall s m, In (s, m) (files_of parts) -> exists d, reads cwd (extract_path s m) d f' /\ (content cwd base zstd get f0 m d \/ reads cwd (extract_path s m) d f0).
  Proof. exact (patch_again cwd base get lower langs zstd sha1 sha1_ok sym D f0 parts Hsels Hnames Hready Hout Hfree Hdangle HD Hstore Hneed f1). Qed.
End Patch.
Print Assumptions C82_succeeds.
Print Assumptions C82_done.
Print Assumptions C82_files.
Print Assumptions C82_others.
Print Assumptions C82_again.

(** *** Examples *)

Local Notation w := PatcherBundleProps.w.
Local Notation s_ := PatcherBundleProps.s_.
Local Notation fe := PatcherBundleProps.fe.
Local Notation ma := PatcherBundleProps.ma.
Local Notation mb := PatcherBundleProps.mb.
Local Notation mc := PatcherBundleProps.mc.
Local Notation ck := PatcherBundleProps.ck.
Local Notation rel := PatcherBundleProps.rel.
Local Notation get39 := PatcherBundleProps.get39.
Local Notation unz := PatcherBundleProps.unz.
Local Notation sha := PatcherBundleProps.sha.
Local Notation D73 := PatcherTotalProps.D73.
Local Notation sel73 := PatcherTotalProps.sel73.
Local Notation man_of := ReleaseJobsProps.man_of.
Local Notation id_s := ReleaseJobsProps.id_s.
Local Notation pooled := ReleaseJobsProps.pooled.
Local Notation d := lit.

(** Elements of two releases which need the same bundle. *)
Local Definition rel4 : str := lit "s/cdtb/releases/pbe/4".
Local Definition parts82 : list (str * manifest * list mfile) := [(rel4, man_of [mc], [mc]); (rel, man_of [mb; ma], [mb; ma])].
Example C82_hyp_ex :
  (forall s, valid_name (sha s)) /\ (forall s man l, In (s, man, l) parts82 -> selected man id_s LTrue = Ok l) /\ storage_ready w s_ fe /\
  outputs_ready w s_ true (map outp (files_of parts82)) fe /\ bundle_dir_free w s_ fe /\
  (forall s m, In (s, m) (files_of parts82) -> f_name m <> None) /\
  (forall s m x, In (s, m) (files_of parts82) -> look fe (target w (extract_path s m)) = Some (NLink x) -> exists b, reads w (extract_path s m) b fe) /\
  (forall s m h b, In (s, m) (files_of parts82) -> digest sha m h -> content w s_ unz get39 fe m b -> D73 h = b) /\ store_ok w s_ D73 fe /\
  (forall s m, In (s, m) (files_of parts82) -> extracted w s m fe \/ (rooms w s_ sha true s fe m /\ exists b, content w s_ unz get39 fe m b)).
Proof.
  destruct C73_hyp_ex as (H1 & H2 & H3 & _ & H5 & H6 & H7 & H8 & H9).
  assert (Hf : forall s m, In (s, m) (files_of parts82) -> (s = rel4 /\ m = mc) \/ (s = rel /\ (m = mb \/ m = ma))).
  { intros s m [E|[E|[E|[]]]]; injection E as <- <-; auto. }
  assert (Hs : forall s m, In (s, m) (files_of parts82) -> In m sel73) by (intros s m H; destruct (Hf s m H) as [[_ ->]|[_ [-> | ->]]]; unfold PatcherTotalProps.sel73; cbn [In]; auto).
  split; [exact sha_name|]. split; [intros s man l [E|[E|[]]]; injection E as <- <- <-; reflexivity|]. split; [exact H1|]. split.
  - assert (Hlinks : forall q x, look fe q = Some (NLink x) -> q = [d "a"; d "files"; d "5"; d "pbe"; d "releases"; d "cdtb"; d "s"; d "w"] /\ x = relpath w (store_path s_ (sha (d "0000000000000001"))) (lit "s/cdtb/releases/pbe/5/files")).
    { intros q x E. destruct q as [|y q]; [discriminate|]. apply (dget_some_In fe) in E. unfold fe in E. cbn [In] in E.
      repeat (destruct E as [E|E]; [match type of E with (_, NLink _) = _ => idtac | _ => apply (f_equal snd) in E; cbn [snd] in E; discriminate E end|]); [|destruct E].
      pose proof (f_equal fst E) as E1. pose proof (f_equal (fun z => match snd z with NLink t => t | _ => [] end) E) as E2. cbn [fst snd] in E1, E2. auto. }
    assert (Hnb : forall p, below_b p [d "a"; d "files"; d "5"; d "pbe"; d "releases"; d "cdtb"; d "s"; d "w"] = false -> nolink fe p).
    { intros p H q x Hb E. apply Hlinks in E as [E _]. subst q. apply below_b_ok in Hb. congruence. }
    split.
    + cbn [map files_of parts82 flat_map app fst snd]. repeat (constructor; [cbn [In]; intros H; repeat (destruct H as [H|H]; [vm_compute in H; discriminate H|]); exact H|]). constructor.
    + intros o o' Ho Ho'. cbn [map In files_of parts82 flat_map app fst snd] in Ho, Ho'. intros B. pose proof (proj1 (below_b_ok _ _) (strictly_below_below _ _ B)) as B'.
      repeat (destruct Ho as [<-|Ho]); repeat (destruct Ho' as [<-|Ho']); try contradiction; try (vm_compute in B'; discriminate B'); exact (strictly_below_irrefl _ B).
    + intros o Ho. cbn [map In files_of parts82 flat_map app fst snd] in Ho. repeat (destruct Ho as [<-|Ho]); [| | |contradiction];
        (split; [apply plain_ex; vm_compute; repeat split|]; split; [apply Hnb; vm_compute; reflexivity|]; split; apply apart_check; vm_compute; reflexivity).
    + intros o x Ho E. apply Hlinks in E as [E ->]. split; [reflexivity|]. exists (sha (d "0000000000000001")). split; [apply sha_name|].
      cbn [map In files_of parts82 flat_map app fst snd] in Ho. repeat (destruct Ho as [<-|Ho]); [| | |contradiction]; try (vm_compute in E; discriminate E). vm_compute. reflexivity.
  - split; [exact H3|]. split; [intros s m H; apply H5; exact (Hs s m H)|]. split.
    { intros s m x H E. destruct (Hf s m H) as [[-> ->]|[-> _]]; [vm_compute in E; discriminate E | exact (H6 m x (Hs _ m H) E)]. }
    split; [intros s m h b H; apply H7; exact (Hs s m H)|]. split; [exact H8|].
    intros s m H. destruct (Hf s m H) as [[-> ->]|[-> _]]; [right | exact (H9 m (Hs _ m H))].
    destruct (H9 mc (Hs _ _ H)) as [(b & Hb & _)|[[_ Hr] Hc]]; [vm_compute in Hb; discriminate Hb|]. split; [|exact Hc]. split; [|exact Hr].
    split; [vm_compute; discriminate|]. intros q (x & l & E).
    assert (Eq : forall p, (exists l, [d "c"; d "d"; d "files"; d "4"; d "pbe"; d "releases"; d "cdtb"; d "s"; d "w"] = l ++ p) -> look fe p = None \/ look fe p = Some NDir).
    { clear. intros p [l E]. do 9 (destruct l as [|? l]; [cbn [app] in E; subst p; vm_compute; auto|]; cbn [app] in E; injection E as _ E).
      destruct l; [cbn [app] in E; subst p; vm_compute; auto | discriminate E]. }
    apply Eq. exists (x :: l). exact E.
Qed.
Lemma pooled_any get s skip m f ids f' : run (bundle_ids w s m id_s LTrue skip) [] f = (Done ids, [], f) ->
  pooled get ids f = (map (fun _ => Ret tt) ids, f') -> element_download w s_ get s id_s LTrue skip m f (Done tt) f'.
Proof.
  intros Ei E. assert (H : Forall (fun p => p = Ret tt) (map (fun _ : option N => Ret tt) ids)) by (apply Forall_forall; intros x Hx; apply in_map_iff in Hx as (i & <- & _); reflexivity).
  eapply ed_pool; [exact Ei | rewrite <- E; apply pooled_interleave | eapply Forall_impl; [|exact H]; intros p ->; exact I | apply pool_done; exact H].
Qed.
Local Notation read81 := ReleaseJobsProps.read81.
Example C82_ex : exists f', patch_download w s_ get39 unz sha true id_s LTrue (map fst parts82) fe (Done tt) f' /\
  read81 "cdtb/releases/pbe/5/files/a" f' = Done (bl "AAA") /\
  read81 "cdtb/releases/pbe/5/files/b" f' = Done (bl "bbbccc") /\
  read81 "cdtb/releases/pbe/4/files/d/c" f' = Done (bl "ccc").
Proof.
  eexists. split.
  - eapply pd_next; [eapply pooled_any; [vm_compute; reflexivity | vm_compute; reflexivity] | vm_compute; reflexivity|].
    eapply pd_next; [eapply pooled_any; [vm_compute; reflexivity | vm_compute; reflexivity] | vm_compute; reflexivity | apply pd_end].
  - vm_compute. repeat split.
Qed.
(** When the CDN misses a bundle of the second element, the files of the first one are there. *)
Local Definition only_b3 (p : str) : result bytes := if eqb p (lit "channels/public/bundles/00000000000000B3.bundle") then get39 p else Err HTTPError.
Example C82_stops_ex : exists f', patch_download w s_ only_b3 unz sha true id_s LTrue (map fst parts82) fe (Raised HTTPError) f' /\
  read81 "cdtb/releases/pbe/4/files/d/c" f' = Done (bl "ccc") /\ read81 "cdtb/releases/pbe/5/files/b" f' = Raised (OSError ENOENT).
Proof.
  eexists. split.
  - eapply pd_next; [eapply pooled_any; [vm_compute; reflexivity | vm_compute; reflexivity] | vm_compute; reflexivity|]. eapply pd_bundles.
    match goal with |- element_download _ _ _ _ _ _ _ _ ?f _ _ => pose proof (pooled_interleave only_b3 [Some 178; Some 179] f) as Hil end.
    set (x := pooled _ _ _) in Hil. vm_compute in x. subst x. eapply ed_pool; [vm_compute; reflexivity | exact Hil | repeat constructor | apply pool_raised; left; reflexivity].
  - vm_compute. repeat split.
Qed.
Example C82_again_ex : exists f1 f', attempts w s_ get39 unz sha true id_s LTrue (map fst parts82) fe f1 /\
  read81 "cdtb/releases/pbe/5/files/b" f1 = Raised (OSError ENOENT) /\
  patch_download w s_ get39 unz sha true id_s LTrue (map fst parts82) f1 (Done tt) f' /\ reads w (extract_path rel mb) (bl "bbbccc") f'.
Proof.
  destruct C82_stops_ex as (f1 & H & _ & Hb). destruct C82_hyp_ex as (H1 & H2 & H3 & H4 & H5 & H6 & H7 & H8 & H9 & H10).
  assert (HA : attempts w s_ get39 unz sha true id_s LTrue (map fst parts82) fe f1).
  { eapply att_more; [|exact H | apply att_none]. intros p b. unfold only_b3. destruct (eqb p _); [auto | discriminate]. }
  destruct (C82_again w s_ get39 id_s LTrue unz sha H1 true parts82 H2 H6 fe H3 H4 H5 H7 D73 (fun _ => H8) (fun _ => H9) H10 f1 HA) as [[f' Hr] Hall].
  exists f1, f'. split; [exact HA|]. split; [exact Hb|]. split; [exact Hr|].
  destruct (Hall _ _ Hr) as [_ Hf]. destruct (Hf rel mb) as (b & Hb' & Hc); [right; left; reflexivity|].
  enough (b = bl "bbbccc") as <- by exact Hb'.
  destruct Hc as [Hc|Hc]; [|vm_compute in Hc; discriminate Hc].
  rewrite <- (H8 rel mb (sha (lit "00000000000000020000000000000003")) b); [vm_compute; reflexivity | right; left; reflexivity | | exact Hc].
  exists [2; 3]. split; [repeat constructor | reflexivity].
Qed.

(** A download that succeeds has downloaded, then extracted every element: no failure is hidden. *)
Theorem C82_no_hidden_failure cwd base get zstd sha1 sym lower langs els f f' :
  patch_download cwd base get zstd sha1 sym lower langs els f (Done tt) f' -> forall s m, In (s, m) els ->
  exists f1 f2 f3, element_download cwd base get s lower langs true m f1 (Done tt) f2 /\
    run (extract cwd base zstd sha1 sym s m lower langs false) [] f2 = (Done tt, [], f3).
Proof.
  intros H. remember (Done tt) as r eqn:Er. induction H as [f|s m l f f1 f2 r f3 Hd He _ IH|s m l f e f1 _|s m l f f1 e f2 _ _]; intros s0 m0 Hin.
  - destruct Hin.
  - destruct Hin as [E|Hin]; [injection E as <- <-; subst r; eauto | exact (IH Er s0 m0 Hin)].
  - discriminate Er.
  - discriminate Er.
Qed.
Print Assumptions C82_no_hidden_failure.
