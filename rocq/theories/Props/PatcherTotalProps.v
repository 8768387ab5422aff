(** * C73: success of the downloads of releases *)

From Verif Require Import Base.Py Base.Text Base.PyFacts Base.TextFacts Base.Fs Spec.FsSpec Base.FsFacts Base.FsLinks Base.FsThreads Spec.FilesSpec Model.Files Model.Rman Model.Patcher Model.Components Spec.PatcherSpec Spec.PatcherTotalSpec Proofs.PatcherExtractProofs Proofs.PatcherBundleProofs Proofs.PatcherCompleteProofs Proofs.PatcherTotalProofs Proofs.ComponentsProofs Props.PatcherBundleProps.

Section Total.
  Variable cwd : path.
  Variable base : str.
  Variable zstd : bytes -> result bytes.
  Variable sha1 : str -> str.
  Hypothesis sha1_ok : forall s, valid_name (sha1 s).
  Variable get : str -> result bytes.
  Variable sdir : str.
  Variable manif : manifest.
  Variable lower : str -> str.
  Variable langs : langs_arg.
  Variable sym : bool.
  Variable sel : list mfile.
  (** The files to extract, according to the manifest and to the languages. *)
  Hypothesis Hsel : selected manif lower langs = Ok sel.
  Hypothesis Hnames : forall m, In m sel -> f_name m <> None.
  (** The storage and the places of the files are usable; the links of a previous extraction are not dangling. *)
  Variable f0 : fs.
  Hypothesis Hready : storage_ready cwd base f0.
  Hypothesis Hout : outputs_ready cwd base sym (map (extract_path sdir) sel) f0.
  Hypothesis Hfree : bundle_dir_free cwd base f0.
  Hypothesis Hdangle : forall m x, In m sel -> look f0 (target cwd (extract_path sdir m)) = Some (NLink x) -> exists b, reads cwd (extract_path sdir m) b f0.
  (** With shared files, files of the same digest have the same content, and shared files are the right ones. *)
  Variable D : str -> bytes.
  Hypothesis HD : sym = true -> forall m h d, In m sel -> digest sha1 m h -> content cwd base zstd get f0 m d -> D h = d.
  Hypothesis Hstore : sym = true -> store_ok cwd base D f0.
  (** Each file is extracted, or there is room for it and its chunks are in bundles of the storage or of the CDN. *)
  Hypothesis Hneed : forall m, In m sel -> extracted cwd sdir m f0 \/ (rooms cwd base sha1 sym sdir f0 m /\ exists d, content cwd base zstd get f0 m d).

  (** Without failures of the system the download succeeds whatever the schedule of its threads, then the extraction
      succeeds, and every file can be read, with the content of its chunks unless it was already there. *)
  Theorem C73_total : exists ids, run (bundle_ids cwd sdir manif lower langs true) [] f0 = (Done ids, [], f0) /\
    forall ps f2, interleave false (bundle_jobs cwd base get ids, f0) (ps, f2) -> Forall ended ps ->
      Forall (fun p => p = Ret tt) ps /\
      exists f3, run (extract cwd base zstd sha1 sym sdir manif lower langs false) [] f2 = (Done tt, [], f3) /\
        forall m, In m sel -> exists d, reads cwd (extract_path sdir m) d f3 /\
          (content cwd base zstd get f0 m d \/ (reads cwd (extract_path sdir m) d f0 /\ (sym = true -> Rman.f_size m = Some (lenN d)))).
  Proof.
    exact (download_total cwd base zstd sha1 sha1_ok get sdir f0 sym sel (or_places _ _ _ _ _ Hout) (or_apart _ _ _ _ _ Hout) D HD manif lower langs Hsel Hready Hout Hfree Hnames Hdangle Hstore Hneed).
  Qed.
  (** The bundles that are downloaded are those of the files that were not extracted. *)
  Theorem C73_needed ids : run (bundle_ids cwd sdir manif lower langs true) [] f0 = (Done ids, [], f0) ->
    forall id, In id ids <-> exists m c, In m sel /\ ~ extracted cwd sdir m f0 /\ In c (f_chunks m) /\ id = c_bundle c.
  Proof. exact (needed_iff cwd sdir f0 sel manif lower langs Hsel ids). Qed.
  (** Listed paths are readable afterwards when the manifest has no links. *)
  Theorem C73_listed : (forall l, filter_files lower manif langs = Ok l -> Forall (fun m => no_link m = true) l) ->
    forall ids ps f2 f3, run (bundle_ids cwd sdir manif lower langs true) [] f0 = (Done ids, [], f0) ->
      interleave false (bundle_jobs cwd base get ids, f0) (ps, f2) -> Forall ended ps ->
      run (extract cwd base zstd sha1 sym sdir manif lower langs false) [] f2 = (Done tt, [], f3) ->
      exists fsp rp, elem_fspaths lower sdir manif langs = (fsp, None) /\ elem_relpaths lower manif langs = (rp, None) /\
        elem_paths lower sdir manif langs = Ok (combine fsp rp) /\
        Forall (fun o => exists d, reads cwd o d f3) fsp.
  Proof.
    intros Hl ids ps f2 f3 Ei Hil Hend Ex. destruct C73_total as (ids' & Ei' & H). rewrite Ei in Ei'. injection Ei' as <-.
    destruct (H ps f2 Hil Hend) as (_ & f3' & Ex' & HR). rewrite Ex in Ex'. injection Ex' as <-.
    assert (Ef : filter_files lower manif langs = Ok sel).
    { unfold selected in Hsel. destruct (filter_files lower manif langs) as [l|] eqn:El; [|discriminate]. cbn [rmap] in Hsel. injection Hsel as Hs. rewrite <- Hs. f_equal.
      specialize (Hl l eq_refl). clear - Hl. induction Hl as [|m l H _ IH]; [reflexivity|]. cbn [filter]. rewrite H. f_equal. exact IH. }
    destruct (relpaths_lines lower manif langs sel Ef Hnames) as (ns & HF & Er).
    exists (map (extract_path sdir) sel), (map lower ns). split; [unfold elem_fspaths; rewrite Ef; reflexivity|]. split; [exact Er|]. split.
    - apply paths_Ok. exists sel. split; [exact Ef|]. clear - HF. induction HF as [|m n l l' H _ IH]; [constructor|]. cbn [map combine]. constructor; [eauto | exact IH].
    - apply Forall_forall. intros o Ho. apply in_map_iff in Ho as (m & <- & Hm). destruct (HR m Hm) as (b & Hb & _). eauto.
  Qed.
End Total.
Print Assumptions C73_total.
Print Assumptions C73_needed.
Print Assumptions C73_listed.

(** *** Examples *)

Local Notation d := lit.
Local Notation w := PatcherBundleProps.w.
Local Notation s_ := PatcherBundleProps.s_.
Local Notation fe := PatcherBundleProps.fe.
Local Notation man := PatcherBundleProps.man.
Local Notation ma := PatcherBundleProps.ma.
Local Notation mb := PatcherBundleProps.mb.
Local Notation mc := PatcherBundleProps.mc.
Local Notation mf := PatcherBundleProps.mf.
Local Notation ck := PatcherBundleProps.ck.
Local Notation rel := PatcherBundleProps.rel.
Local Notation get39 := PatcherBundleProps.get39.
Local Notation unz := PatcherBundleProps.unz.
Local Notation sha := PatcherBundleProps.sha.
Local Notation turns2 := PatcherBundleProps.turns2.
Local Notation needed := PatcherBundleProps.needed.
Local Notation jobs39 := PatcherBundleProps.jobs39.
Local Definition D73 (h : str) : bytes :=
  if eqb h (sha (lit "0000000000000001")) then bl "AAA" else if eqb h (sha (lit "00000000000000020000000000000003")) then bl "bbbccc" else bl "ccc".
Local Definition sel73 := [mc; mb; ma].

Lemma no_bundle_ex id : look fe (bundle_file w s_ id) = None.
Proof.
  destruct (look fe (bundle_file w s_ id)) as [n|] eqn:E; [|reflexivity]. exfalso. unfold bundle_file in E. apply (dget_some_In fe) in E.
  assert (Hl : forall p n, In (p, n) fe -> nth 1 p [] = lit "bundles" -> False).
  { clear. intros p n Hi Hn. unfold fe in Hi. cbn [In] in Hi. repeat (destruct Hi as [Hi|Hi]; [injection Hi as <- _; vm_compute in Hn; discriminate Hn|]). destruct Hi. }
  eapply Hl; [exact E | reflexivity].
Qed.
Example C73_hyp_ex :
  storage_ready w s_ fe /\ outputs_ready w s_ true (map (extract_path rel) sel73) fe /\ bundle_dir_free w s_ fe /\
  selected man (fun s => s) LTrue = Ok sel73 /\ (forall m, In m sel73 -> f_name m <> None) /\
  (forall m x, In m sel73 -> look fe (target w (extract_path rel m)) = Some (NLink x) -> exists b, reads w (extract_path rel m) b fe) /\
  (forall m h b, In m sel73 -> digest sha m h -> content w s_ unz get39 fe m b -> D73 h = b) /\ store_ok w s_ D73 fe /\
  (forall m, In m sel73 -> extracted w rel m fe \/ (rooms w s_ sha true rel fe m /\ exists b, content w s_ unz get39 fe m b)).
Proof.
  destruct C39_ready_ex as (H1 & H2 & H3 & _). split; [exact H1|]. split; [exact H2|]. split.
  { intros q Hq. destruct (look fe q) as [n|] eqn:E; [|auto]. right. destruct q as [|y q]; [rewrite <- E; reflexivity|]. apply (dget_some_In fe) in E. apply below_b_ok in Hq.
    unfold fe in E. cbn [In] in E. repeat (destruct E as [E|E]; [pose proof (f_equal fst E) as E1; pose proof (f_equal snd E) as E2; cbn [fst snd] in E1, E2; rewrite <- E1 in Hq; rewrite <- E2; first [reflexivity | vm_compute in Hq; discriminate Hq]|]); destruct E. }
  split; [exact H3|]. split; [intros m [<-|[<-|[<-|[]]]]; discriminate|]. split.
  { intros m x [<-|[<-|[<-|[]]]] E; [vm_compute in E; discriminate E | vm_compute in E; discriminate E|]. exists (bl "AAA"). vm_compute. reflexivity. }
  assert (Hc : forall m b, In m sel73 -> content w s_ unz get39 fe m b -> (m = mb /\ b = bl "bbbccc") \/ (m = mc /\ b = bl "ccc")).
  { assert (Hck : forall id n x, chunk_content w s_ unz get39 fe (ck id n 0 3) x -> exists y, get39 (lit "channels/public/bundles/" ++ hexu 16 n ++ lit ".bundle") = Ok y /\ x = rev (firstn 3 y)).
    { intros id n x (i & y & Ei & [Hb|[_ Hg]] & Ez); injection Ei as <-; [rewrite no_bundle_ex in Hb; discriminate|]. exists y. split; [exact Hg|]. injection Ez as <-. reflexivity. }
    intros m b Hm (ds & HF & ->). destruct Hm as [<-|[<-|[<-|[]]]]; cbn [f_chunks mc mb ma mf] in HF.
    - right. split; [reflexivity|]. inversion_clear HF as [|? x ? l Hx HF']. inversion_clear HF'. apply Hck in Hx as (y & Hy & ->). vm_compute in Hy. injection Hy as <-. reflexivity.
    - left. split; [reflexivity|]. inversion_clear HF as [|? x ? l Hx HF']. inversion_clear HF' as [|? x2 ? l2 Hx2 HF]. inversion_clear HF. apply Hck in Hx as (y & Hy & ->). apply Hck in Hx2 as (y2 & Hy2 & ->). vm_compute in Hy, Hy2. injection Hy as <-. injection Hy2 as <-. reflexivity.
    - exfalso. inversion_clear HF as [|? x ? l Hx HF']. apply Hck in Hx as (y & Hy & _). vm_compute in Hy. discriminate Hy. }
  split.
  { intros m h b Hm (is & Hi & ->) Hb. destruct (Hc m b Hm Hb) as [[-> ->]|[-> ->]]; cbn [f_chunks mc mb mf] in Hi.
    - inversion_clear Hi as [|? i1 ? l1 E1 Hi']. inversion_clear Hi' as [|? i2 ? l2 E2 Hi]. inversion_clear Hi. injection E1 as <-. injection E2 as <-. vm_compute. reflexivity.
    - inversion_clear Hi as [|? i1 ? l1 E1 Hi']. inversion_clear Hi'. injection E1 as <-. vm_compute. reflexivity. }
  split.
  { intros h b E. apply (dget_some_In fe) in E. unfold fe in E. cbn [In] in E.
    repeat (destruct E as [E|E]; [pose proof (f_equal (fun x => hd [] (fst x)) E) as E1; pose proof (f_equal snd E) as E2; cbn [fst snd hd] in E1, E2; first [discriminate E2 | rewrite <- E1; injection E2 as <-; first [vm_compute; reflexivity | exfalso; apply (f_equal (fun x => length (fst x))) in E; vm_compute in E; discriminate E]]|]); destruct E. }
  assert (Hroom : forall p, p <> [] -> forallb (fun q => if below_b p (fst q) then match snd q with NDir => negb (eqb (fst q) p) | _ => false end else true) fe = true -> room fe p).
  { intros p Hne Hp. rewrite forallb_forall in Hp.
    assert (Hl : forall q n, below p q -> look fe q = Some n -> n = NDir /\ q <> p).
    { intros q n Hb E. apply below_b_ok in Hb. destruct q as [|y q]; [split; [change (Some NDir = Some n) in E; congruence | congruence]|].
      apply (dget_some_In fe) in E. specialize (Hp _ E). cbn [fst snd] in Hp. rewrite Hb in Hp. destruct n; try discriminate Hp. split; [reflexivity|]. apply negb_true_iff in Hp. apply eqbF. exact Hp. }
    split; [intros E; destruct (Hl p NDir (below_refl p) E); congruence|]. intros q Hq. destruct (look fe q) as [n|] eqn:E; [|auto]. right. f_equal. apply (Hl q n); [apply strictly_below_below; exact Hq | exact E]. }
  intros m [<-|[<-|[<-|[]]]]; [right | right | left].
  - split; [split; [apply Hroom; [discriminate | vm_compute; reflexivity]|] | exists (bl "ccc"), [bl "ccc"]; split; [|reflexivity]].
    + intros _. exists (sha (lit "0000000000000003")). split; [exists [3]; split; [repeat constructor | reflexivity]|]. apply Hroom; [discriminate | vm_compute; reflexivity].
    + repeat constructor. exists 179, (bl "ccc"). split; [reflexivity|]. split; [right; split; [apply no_bundle_ex | reflexivity] | reflexivity].
  - split; [split; [apply Hroom; [discriminate | vm_compute; reflexivity]|] | exists (bl "bbbccc"), [bl "bbb"; bl "ccc"]; split; [|reflexivity]].
    + intros _. exists (sha (lit "00000000000000020000000000000003")). split; [exists [2; 3]; split; [repeat constructor | reflexivity]|]. apply Hroom; [discriminate | vm_compute; reflexivity].
    + repeat constructor; [exists 178, (bl "bbb") | exists 179, (bl "ccc")]; (split; [reflexivity|]; split; [right; split; [apply no_bundle_ex | reflexivity] | reflexivity]).
  - exists (bl "AAA"). split; vm_compute; reflexivity.
Qed.

(** Links of a manifest are listed but never made: after a successful download and extraction, the path of the link
    does not exist. *)
Local Definition ml : mfile := {| f_name := Some (lit "l"); Rman.f_size := Some 0; f_link := Some (lit "a"); f_flags := None; f_chunks := [] |}.
Local Definition man_l : manifest := {| m_bundles := []; m_chunks := []; m_flags := []; m_files := map (fun m => (Rman.f_name m, m)) [mc; mb; ma; ml] |}.
Theorem C73_links_refuted : exists cwd base zstd sha1 get sdir manif lower langs f ids f2 f3 o fsp,
  storage_ready cwd base f /\
  run (bundle_ids cwd sdir manif lower langs true) [] f = (Done ids, [], f) /\
  interleave false (bundle_jobs cwd base get ids, f) (map (fun _ => Ret tt) ids, f2) /\
  run (extract cwd base zstd sha1 true sdir manif lower langs false) [] f2 = (Done tt, [], f3) /\
  elem_fspaths lower sdir manif langs = (fsp, None) /\ In o fsp /\
  look f3 (target cwd o) = None /\ run (read_file cwd o) [] f3 = (Raised (OSError ENOENT), [], f3).
Proof.
  set (f2 := snd (schedule turns2 (jobs39, fe))).
  set (f3 := snd (run (extract w s_ unz sha true rel man_l (fun s => s) LTrue false) [] f2)).
  exists w, s_, unz, sha, get39, rel, man_l, (fun s => s), LTrue, fe, needed, f2, f3, (extract_path rel ml), (map (extract_path rel) [mc; mb; ma; ml]).
  split; [apply C39_ready_ex|]. split; [vm_compute; reflexivity|]. split.
  { assert (E : fst (schedule turns2 (jobs39, fe)) = [Ret tt; Ret tt]) by (vm_compute; reflexivity).
    change (map (fun _ : option N => Ret tt) needed) with [Ret tt; Ret tt]. rewrite <- E. unfold f2. rewrite <- surjective_pairing.
    apply (schedule_interleave false turns2). right. unfold turns2. apply Forall_forall. intros x Hx. apply in_concat in Hx as (l & Hl & Hx). apply repeat_spec in Hl as ->. cbn in Hx. intuition (subst; reflexivity). }
  split; [vm_compute; reflexivity|]. split; [reflexivity|]. split; [vm_compute; tauto|]. split; vm_compute; reflexivity.
Qed.
Print Assumptions C73_links_refuted.
