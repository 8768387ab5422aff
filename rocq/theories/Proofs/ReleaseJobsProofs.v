(** * Proofs about whole releases *)

From Verif Require Import Base.Py Base.Text Base.PyFacts Base.TextFacts Base.PathFacts Base.Fs Spec.FsSpec Base.FsFacts Base.FsLinks Base.FsThreads Spec.FilesSpec Model.Files Proofs.FilesProofs Model.Rman Model.Patcher Spec.PatcherSpec Proofs.PatcherLinkProofs Proofs.PatcherExtractProofs Proofs.PatcherBundleProofs Proofs.PatcherCompleteProofs Spec.PatcherTotalSpec Proofs.SymlinksProofs Proofs.PatcherTotalProofs Model.ReleaseJobs.

Lemma not_extracted_same cwd sdir : forall l pl f r pl' f', run (not_extracted cwd sdir l) pl f = (r, pl', f') -> f' = f.
Proof.
  induction l as [|m l IH]; intros pl f r pl' f' E; cbn [not_extracted] in E; [injection E as _ _ <-; reflexivity|].
  rewrite run_bind in E. destruct (run (is_extracted cwd sdir m) pl f) as [[o1 pl1] f1] eqn:E1. apply is_extracted_run in E1 as [-> _].
  destruct o1; [|injection E as _ _ <-; reflexivity | injection E as _ _ <-; reflexivity].
  rewrite run_bind in E. destruct (run (not_extracted cwd sdir l) pl1 f) as [[o2 pl2] f2] eqn:E2. apply IH in E2 as ->.
  destruct o2; injection E as _ _ <-; reflexivity.
Qed.
Lemma bundle_ids_same cwd sdir manif lower langs skip pl f r pl' f' : run (bundle_ids cwd sdir manif lower langs skip) pl f = (r, pl', f') -> f' = f.
Proof.
  unfold bundle_ids. destruct (selected manif lower langs) as [sel|e]; cbn [lift bind]; intros E; [|injection E as _ _ <-; reflexivity].
  rewrite run_bind in E. destruct (run _ pl f) as [[o1 pl1] f1] eqn:E1.
  assert (f1 = f) as -> by (destruct skip; [eapply not_extracted_same; exact E1 | injection E1 as _ _ <-; reflexivity]).
  destruct o1 as [l| |]; [|injection E as _ _ <-; reflexivity..]. destruct (sort_ids (ids_of l)); cbn [lift run] in E; injection E as _ _ <-; reflexivity.
Qed.

Lemma nodup_app_l {A} (a b : list A) : NoDup (a ++ b) -> NoDup a.
Proof. induction a as [|x a IH]; cbn; intros H; [constructor|]. inversion_clear H as [|? ? Hn Hd]. constructor; [intros Hx; apply Hn; apply in_or_app; auto | auto]. Qed.
Lemma nodup_app_r {A} (a b : list A) : NoDup (a ++ b) -> NoDup b.
Proof. induction a as [|x a IH]; cbn; intros H; [exact H|]. inversion_clear H. auto. Qed.
Lemma nodup_app_disj {A} (a b : list A) x : NoDup (a ++ b) -> In x a -> In x b -> False.
Proof. induction a as [|y a IH]; cbn; intros H Ha Hb; [exact Ha|]. inversion_clear H as [|? ? Hn Hd]. destruct Ha as [->|Ha]; [apply Hn; apply in_or_app; auto | eauto]. Qed.

Section Release.
  Variable cwd : path.
  Variable base : str.
  Variable get : str -> result bytes.
  Variable sdir : str.
  Variable lower : str -> str.
  Variable langs : langs_arg.
  Notation ready_ := (storage_ready cwd base).
  Notation outp := (extract_path sdir).
  Notation tgt m := (target cwd (extract_path sdir m)).
  Notation S_ := (store_dir cwd base).
  Notation bf := (bundle_file cwd base).
  Notation cdn id := (lit "channels/public/bundles/" ++ hexu 16 id ++ lit ".bundle").

  Lemma bf_eq i j : bf i = bf j -> i = j.
  Proof. intros E. apply (f_equal (hd [])) in E. cbn [hd bundle_file] in E. apply app_inv_tail in E. apply hexu_inj in E. exact E. Qed.
  Lemma bf_not_above i q : strictly_below (bf i) q -> forall j, q <> bf j.
  Proof. intros B j ->. apply strictly_longer in B. cbn in B. lia. Qed.

  (** ** What downloads change *)

  (** The bundles of [f'] are those of [f] and new ones of the CDN, and the rest is the same but for new directories. *)
  Definition grown (f f' : fs) : Prop :=
    ready_ f' /\ only_files (fun q => exists id, q = bf id) f f' /\
    forall id, look f' (bf id) = look f (bf id) \/ (look f (bf id) = None /\ exists b, get (cdn id) = Ok b /\ look f' (bf id) = Some (NFile b)).
  Lemma grown_refl f : ready_ f -> grown f f.
  Proof. intros R. split; [exact R|]. split; [intros q; auto|]. auto. Qed.
  Lemma grown_trans a b c : grown a b -> grown b c -> grown a c.
  Proof.
    intros (R1 & O1 & G1) (R2 & O2 & G2). split; [exact R2|]. split; [eapply only_files_trans; eassumption|].
    intros id. destruct (G2 id) as [E2|(E2 & d & Ed & E2')], (G1 id) as [E1|(E1 & d' & Ed' & E1')].
    - left. congruence.
    - right. split; [exact E1|]. exists d'. split; [exact Ed' | congruence].
    - right. split; [congruence|]. eauto.
    - congruence.
  Qed.
  Lemma pool_grown f ids ps f' : ready_ f -> NoDup ids -> interleave false (bundle_jobs cwd base get ids, f) (ps, f') ->
    Forall (fun p => p = Ret tt) ps -> grown f f'.
  Proof.
    intros R Hnd Hil Hps. destruct (untouched cwd base get f R ids Hnd false ps f' Hil) as (R' & HO & HF). split; [exact R'|]. split.
    - intros q. destruct (HO q) as [E|[(id & _ & _ & _ & E)|(E1 & E2 & t & (id & _ & _ & _ & Et) & B)]]; [auto | right; left; eauto|]. right. right. split; [exact E1|]. split; [exact E2|]. exists t. eauto.
    - intros id. destruct (HO (bf id)) as [E|[(id' & Hin & Hnf & _ & E)|(E1 & E2 & t & (id' & _ & _ & _ & ->) & B)]]; [auto | | exfalso; exact (bf_not_above _ _ B id eq_refl)].
      apply bf_eq in E as <-.
      assert (X : forall s, In s ids -> exists p, In (s, p) (combine ids ps)).
      { clear - HF. induction HF as [|s p l l' H HF IH]; intros s'; [intros []|]. cbn [combine]. intros [->|Hin]; [exists p; left; reflexivity | destruct (IH s' Hin) as [p2 Hp2]; exists p2; right; exact Hp2]. }
      destruct (X _ Hin) as [p Hp]. assert (Hpp : p = Ret tt) by (rewrite Forall_forall in Hps; apply Hps; eapply in_combine_r; exact Hp).
      assert (G : forall s p, In (s, p) (combine ids ps) -> p = Ret tt -> exists id, s = Some id /\
          ((is_file f (bf id) /\ look f' (bf id) = look f (bf id)) \/ (look f (bf id) = None /\ exists data, get (cdn id) = Ok data /\ look f' (bf id) = Some (NFile data)))).
      { clear - HF. induction HF as [|s p l l' H HF IH]; intros s' p'; cbn [combine]; [intros []|]. intros [E|Hin]; [injection E as <- <-; exact H | apply IH; exact Hin]. }
      destruct (G _ _ Hp Hpp) as (i & Ei & H). injection Ei as <-. destruct H as [[_ E]|(E & b & Eb & E')]; [left; exact E | right; eauto].
  Qed.

  (** Without failures of the system it is so whatever the outcomes. *)
  Lemma pool_grown_any f ids ps f' : ready_ f -> bundle_dir_free cwd base f -> NoDup ids -> interleave false (bundle_jobs cwd base get ids, f) (ps, f') ->
    Forall ended ps -> grown f f'.
  Proof.
    intros R Hf Hnd Hil Hend. destruct (untouched cwd base get f R ids Hnd false ps f' Hil) as (R' & HO & _). split; [exact R'|]. split.
    - intros q. destruct (HO q) as [E|[(id & _ & _ & _ & E)|(E1 & E2 & t & (id & _ & _ & _ & Et) & B)]]; [auto | right; left; eauto|]. right. right. split; [exact E1|]. split; [exact E2|]. exists t. eauto.
    - intros id. destruct (HO (bf id)) as [E|[(id' & Hin & Hnf & _ & E)|(E1 & E2 & t & (id' & _ & _ & _ & ->) & B)]]; [auto | | exfalso; exact (bf_not_above _ _ B id eq_refl)].
      apply bf_eq in E as <-. apply (pool_result false cwd base get f R ids Hnd) in Hil as (_ & _ & HF).
      assert (X : forall s, In s ids -> exists p, ended p /\ post (pdone cwd base get f s) (pfail false cwd base get f s) f' p).
      { clear - HF Hend. induction HF as [|s p l l' H HF IH]; intros s'; [intros []|]. inversion_clear Hend as [|? ? He Hend']. intros [->|Hin]; [exists p; auto | apply IH; assumption]. }
      destruct (X _ Hin) as (p & He & Hp). destruct p as [[]|e|]; [| |destruct He]; cbn [post pdone pfail] in Hp.
      + unfold thread_done in Hp. rewrite (fp_target cwd base f R) in Hp. destruct Hp as [[_ E]|(E & b & Eb & E')]; [left; exact E | right; eauto].
      + unfold thread_failed in Hp. rewrite (fp_target cwd base f R) in Hp. left. apply (Hp eq_refl Hf).
  Qed.

  Section From.
    Variable f0 f : fs.
    Hypothesis R0 : ready_ f0.
    Hypothesis G : grown f0 f.
    Lemma same_node q n : (forall id, q <> bf id) -> n <> NDir -> look f q = Some n <-> look f0 q = Some n.
    Proof. destruct G as (_ & HO & _). intros Hq Hn. destruct (HO q) as [E|[(id & E)|(E1 & E2 & _)]]; [rewrite E; reflexivity | exfalso; exact (Hq id E)|]. rewrite E1, E2. split; congruence. Qed.
    Lemma content_bundle id b : bundle_content cwd base get f0 id b -> bundle_content cwd base get f id b.
    Proof.
      destruct G as (_ & _ & HG). intros [Hb|[Hb Hd]]; (destruct (HG id) as [E|(E & d & Ed & E')]).
      - left. congruence.
      - congruence.
      - right. split; congruence.
      - left. congruence.
    Qed.
    Lemma cdn_bundles : from_cdn cwd base get f0 f.
    Proof. destruct G as (_ & _ & HG). intros id b Hb. destruct (HG id) as [E|(E & d & Ed & E')]; [left; congruence | right; split; congruence]. Qed.
    Lemma content_now zstd m d : content cwd base zstd get f0 m d -> content cwd base zstd get f m d.
    Proof.
      intros (ds & HF & ->). exists ds. split; [|reflexivity]. induction HF as [|c x l l' H HF IH]; [apply Forall2_nil | apply Forall2_cons; [|exact IH]].
      destruct H as (id & b & H1 & H2 & H3). exists id, b. split; [exact H1|]. split; [apply content_bundle; exact H2 | exact H3].
    Qed.
    Lemma free_now : bundle_dir_free cwd base f0 -> bundle_dir_free cwd base f.
    Proof.
      destruct G as (_ & HO & _). intros HF q Bq. destruct (HO q) as [E|[(id & ->)|(_ & E & _)]]; [rewrite E; apply HF; exact Bq | | auto].
      exfalso. apply below_longer in Bq. cbn in Bq. lia.
    Qed.
    Lemma bundle_kept id : is_file f0 (bf id) -> is_file f (bf id).
    Proof. destruct G as (_ & _ & HG). intros [b Hb]. destruct (HG id) as [E|(E & _)]; [exists b; congruence | congruence]. Qed.
    Lemma has_kept m : has_bundles cwd base m f0 -> has_bundles cwd base m f.
    Proof. intros H c Hc. destruct (H c Hc) as (id & E & Hf). exists id. split; [exact E | apply bundle_kept; exact Hf]. Qed.
    Section Out.
      Variable m : mfile.
      Hypothesis Ho : out_ready cwd base (outp m) f0.
      Lemma not_bundle id : tgt m <> bf id.
      Proof. eapply out_not_bundle. exact Ho. Qed.
      Lemma out_now : out_ready cwd base (outp m) f.
      Proof.
        destruct G as (R & HO & _). destruct Ho as (H1 & H2 & H3 & H4). split; [exact H1|]. split; [|auto]. intros q x Bq Eq.
        destruct (HO q) as [E|[(id & ->)|(_ & E & _)]]; [rewrite E in Eq; exact (H2 q x Bq Eq) | | congruence].
        apply (sr_bundle _ _ _ R _ (bf id) x (below_refl _)). exact Eq.
      Qed.
      Lemma linked_now h b : linked cwd base (outp m) h b f <-> linked cwd base (outp m) h b f0.
      Proof. unfold linked. rewrite (same_node (tgt m)), (same_node (h :: S_)); [reflexivity | intros id; apply store_not_bundle | discriminate | apply not_bundle | discriminate]. Qed.
      Lemma at_end_now b : at_end cwd base sdir m b f <-> at_end cwd base sdir m b f0.
      Proof. unfold at_end. rewrite (same_node (tgt m)); [|apply not_bundle | discriminate]. split; (intros [H|(h & Hv & H)]; [left; exact H | right; exists h; split; [exact Hv | apply linked_now; exact H]]). Qed.
      Lemma ext_now : ext cwd base sdir m f <-> ext cwd base sdir m f0.
      Proof. split; intros (b & Hs & H); exists b; (split; [exact Hs|]); apply (at_end_now b); exact H. Qed.
      Lemma rooms_now sha1 sym : rooms cwd base sha1 sym sdir f0 m -> rooms cwd base sha1 sym sdir f m.
      Proof.
        destruct G as (_ & HO & _). intros [Hr1 Hr2]. destruct Ho as (_ & _ & _ & [A1 A2]). split.
        - apply (room_keeps _ f0 f _ HO Hr1).
          + intros t [id ->] B. apply A1. destruct B as (x & l0 & Eq). exists (x :: l0 ++ [hexu 16 id ++ lit ".bundle"]). rewrite Eq. cbn. unfold bundle_file. rewrite <- app_assoc. reflexivity.
          + intros t [id ->] B. apply A2. apply strictly_tl in B. exact B.
          + intros [id E]. exfalso. exact (not_bundle id E).
        - intros Hs. destruct (Hr2 Hs) as (h & Hh & Hr). exists h. split; [exact Hh|]. destruct (store_bundle_apart cwd base) as [B1 B2]. apply (room_keeps _ f0 f _ HO Hr).
          + intros t [id ->] B. apply B1. apply strictly_tl in B. eapply below_trans; [exact B | apply below_cons].
          + intros t [id ->] B. apply B2. apply strictly_tl in B. eapply below_trans; [exact B | apply below_cons].
          + intros [id E]. exfalso. exact (store_not_bundle cwd base h id E).
      Qed.
    End Out.
    Lemma outputs_now sym l : outputs_ready cwd base sym (map outp l) f0 -> outputs_ready cwd base sym (map outp l) f.
    Proof.
      intros H. split; [apply H | apply H | |].
      - intros o Hin. apply in_map_iff in Hin as (m & <- & Hm). apply out_now. apply (or_ready _ _ _ _ _ H). apply in_map. exact Hm.
      - intros o x Hin Hl. apply (or_links _ _ _ _ _ H o); [exact Hin|]. apply in_map_iff in Hin as (m & <- & Hm). apply same_node; [|discriminate | exact Hl].
        apply not_bundle. apply (or_ready _ _ _ _ _ H). apply in_map. exact Hm.
    Qed.
  End From.

  (** ** Whatever happens *)

  (** Only missing bundles appear. *)
  Lemma element_frame skip m f r f' : ready_ f -> element_download cwd base get sdir lower langs skip m f r f' ->
    ready_ f' /\ only_files (fun q => exists id data, get (cdn id) = Ok data /\ ~ is_file f (bf id) /\ q = bf id) f f'.
  Proof.
    intros R H. destruct H as [e f1 E|ids f1 ps f2 r E Hil Hend _].
    - assert (f1 = f) as -> by (apply bundle_ids_same in E; exact E). split; [exact R|]. intros q. auto.
    - pose proof (ids_NoDup _ _ _ _ _ _ _ _ _ _ _ E) as Hnd. assert (f1 = f) as -> by (apply bundle_ids_same in E; exact E).
      destruct (untouched cwd base get f R ids Hnd false ps f2 Hil) as (R' & HO & _). split; [exact R'|].
      intros q. destruct (HO q) as [E1|[(id & _ & Hn & [b Hb] & E1)|(E1 & E2 & t & (id & _ & Hn & [b Hb] & Et) & B)]]; [auto | right; left; exists id, b; auto|].
      right. right. split; [exact E1|]. split; [exact E2|]. exists t. split; [exists id, b; auto | exact B].
  Qed.
  Lemma kept f f' id : only_files (fun q => exists id data, get (cdn id) = Ok data /\ ~ is_file f (bf id) /\ q = bf id) f f' -> is_file f (bf id) -> look f' (bf id) = look f (bf id).
  Proof.
    intros HO Hf. destruct (HO (bf id)) as [E|[(id' & b & _ & Hn & E)|(E1 & _)]]; [exact E | apply bf_eq in E as ->; contradiction|]. destruct Hf as [b Hb]. congruence.
  Qed.
  Lemma release_frame skip l f r f' : ready_ f -> release_download cwd base get sdir lower langs skip l f r f' ->
    ready_ f' /\ only_files (fun q => exists id data, get (cdn id) = Ok data /\ ~ is_file f (bf id) /\ q = bf id) f f'.
  Proof.
    intros R H. revert R. induction H as [f|m l f f1 r f2 He H IH|m l f e f1 He]; intros R.
    - split; [exact R|]. intros q. auto.
    - apply element_frame in He as [R1 O1]; [|exact R]. destruct (IH R1) as [R2 O2]. split; [exact R2|]. eapply only_files_trans; [exact O1|].
      intros q. destruct (O2 q) as [E|[(id & b & Hb & Hn & E)|(E1 & E2 & t & (id & b & Hb & Hn & Et) & B)]]; [auto | |].
      + right. left. exists id, b. split; [exact Hb|]. split; [|exact E]. intros [x Hx]. apply Hn. exists x. rewrite <- Hx. apply (kept _ _ _ O1). exists x. exact Hx.
      + right. right. split; [exact E1|]. split; [exact E2|]. exists t. split; [|exact B]. exists id, b. split; [exact Hb|]. split; [|exact Et]. intros [x Hx]. apply Hn. exists x. rewrite <- Hx. apply (kept _ _ _ O1). exists x. exact Hx.
    - eapply element_frame; eassumption.
  Qed.

  Lemma element_grown skip m f r f' : ready_ f -> bundle_dir_free cwd base f -> element_download cwd base get sdir lower langs skip m f r f' -> grown f f'.
  Proof.
    intros R Hf H. destruct H as [e f1 E|ids f1 ps f2 r E Hil Hend _].
    - assert (f1 = f) as -> by (apply bundle_ids_same in E; exact E). apply grown_refl. exact R.
    - pose proof (ids_NoDup _ _ _ _ _ _ _ _ _ _ _ E) as Hnd. assert (f1 = f) as -> by (apply bundle_ids_same in E; exact E). eapply pool_grown_any; eassumption.
  Qed.
  Lemma release_grown skip l f r f' : ready_ f -> bundle_dir_free cwd base f -> release_download cwd base get sdir lower langs skip l f r f' -> grown f f'.
  Proof.
    intros R Hf H. revert R Hf. induction H as [f|m l f f1 r f2 He H IH|m l f e f1 He]; intros R Hf.
    - apply grown_refl. exact R.
    - apply element_grown in He; [|exact R | exact Hf]. eapply grown_trans; [exact He|]. apply IH; [apply He | eapply free_now; eassumption].
    - eapply element_grown; eassumption.
  Qed.

  (** ** Success *)

  Variable zstd : bytes -> result bytes.
  Variable sha1 : str -> str.
  Hypothesis sha1_ok : forall s, valid_name (sha1 s).
  Variable f0 : fs.
  Variable sym : bool.
  Variable mans : list manifest.
  Variable sels : list (list mfile).
  Notation sel := (concat sels).
  Hypothesis Hsels : Forall2 (fun man l => selected man lower langs = Ok l) mans sels.
  Hypothesis Hnames : forall m, In m sel -> f_name m <> None.
  Hypothesis Hready : ready_ f0.
  Hypothesis Hout : outputs_ready cwd base sym (map outp sel) f0.
  Hypothesis Hfree : bundle_dir_free cwd base f0.
  Hypothesis Hdangle : forall m x, In m sel -> look f0 (tgt m) = Some (NLink x) -> exists b, reads cwd (outp m) b f0.
  Variable D : str -> bytes.
  Hypothesis HD : sym = true -> forall m h d, In m sel -> digest sha1 m h -> content cwd base zstd get f0 m d -> D h = d.
  Hypothesis Hstore : sym = true -> store_ok cwd base D f0.
  Hypothesis Hneed : forall m, In m sel -> extracted cwd sdir m f0 \/ (rooms cwd base sha1 sym sdir f0 m /\ exists d, content cwd base zstd get f0 m d).

  Lemma ready0 m : In m sel -> out_ready cwd base (outp m) f0.
  Proof. intros Hm. apply (or_ready _ _ _ _ _ Hout). apply in_map. exact Hm. Qed.
  Lemma made0 m : In m sel -> forall x, look f0 (tgt m) = Some (NLink x) -> exists h, valid_name h /\ x = relpath cwd (store_path base h) (dirname (outp m)).
  Proof. intros Hm x Hx. apply (or_links _ _ _ _ _ Hout (outp m)); [apply in_map; exact Hm | exact Hx]. Qed.
  Lemma ext0 m : In m sel -> extracted cwd sdir m f0 -> ext cwd base sdir m f0.
  Proof. intros Hm. apply extracted_ext; [exact Hready | apply ready0; exact Hm | apply made0; exact Hm]. Qed.
  Lemma need_now f m : grown f0 f -> In m sel -> extracted cwd sdir m f \/ (rooms cwd base sha1 sym sdir f m /\ exists d, content cwd base zstd get f m d).
  Proof.
    intros G Hm. pose proof (ready0 m Hm) as Ho. destruct (Hneed m Hm) as [He|[Hr [d Hd]]].
    - left. apply (ext_extracted cwd base); [apply G | apply (out_now f0 f G m Ho) | apply (ext_now f0 f G m Ho); apply ext0; assumption].
    - right. split; [apply (rooms_now f0 f G m Ho); exact Hr|]. exists d. apply (content_now f0 f G). exact Hd.
  Qed.
  Lemma part_out l : incl l sel -> NoDup (map (target cwd) (map outp l)) -> outputs_ready cwd base sym (map outp l) f0.
  Proof.
    intros Hi Hnd. assert (Hm : incl (map outp l) (map outp sel)) by (apply incl_map; exact Hi). split; [exact Hnd | | |].
    - intros o o' H H'. apply (or_apart _ _ _ _ _ Hout); apply Hm; assumption.
    - intros o H. apply (or_ready _ _ _ _ _ Hout). apply Hm. exact H.
    - intros o x H. apply (or_links _ _ _ _ _ Hout o x). apply Hm. exact H.
  Qed.

  (** One element *)
  Lemma element_total man l f : selected man lower langs = Ok l -> incl l sel -> NoDup (map (target cwd) (map outp l)) -> grown f0 f ->
    (exists f', element_download cwd base get sdir lower langs true man f (Done tt) f') /\
    forall r f', element_download cwd base get sdir lower langs true man f r f' ->
      r = Done tt /\ grown f f' /\ forall m, In m l -> ext cwd base sdir m f' \/ has_bundles cwd base m f'.
  Proof.
    intros Es Hi Hnd G. pose proof G as (R & _).
    destruct (ids_total cwd base zstd sha1 get sdir f sym l man lower langs Es) as (ids & Ei & Hids); [intros m Hm; apply need_now; [exact G | apply Hi; exact Hm]|].
    pose proof (ids_NoDup _ _ _ _ _ _ _ _ _ _ _ Ei) as Hnd'. pose proof (free_now f0 f G Hfree) as Hf.
    assert (Hall : forall ps f', interleave false (bundle_jobs cwd base get ids, f) (ps, f') -> Forall ended ps -> Forall (fun p => p = Ret tt) ps).
    { intros ps f' Hil Hend. pose proof (outcomes cwd base get f R ids Hnd' ps f' Hil Hend) as Hoc. clear - Hoc Hids Hf.
      induction Hoc as [|s p l l' H HF IH]; [constructor|]. constructor; [|apply IH; intros x Hx; apply Hids; right; exact Hx].
      destruct (Hids s (or_introl eq_refl)) as (id & b & -> & Hb). apply H. exists id. split; [reflexivity|]. split; [exact Hf|].
      destruct Hb as [Hb|[Hb1 Hb2]]; [left; exists b; exact Hb | right; eauto]. }
    split.
    - destruct (turn_interleave false (bundle_jobs cwd base get ids) [] f (Forall_nil _)) as (ps & Hil & Hend). cbn [app] in Hil.
      eexists. eapply ed_pool; [exact Ei | exact Hil | exact Hend|]. apply pool_done. exact (Hall _ _ Hil Hend).
    - intros r f' H. destruct H as [e f1 E|ids' f1 ps f2 r E Hil Hend Hr].
      + exfalso. rewrite Ei in E. discriminate E.
      + rewrite Ei in E. injection E as <- <-. pose proof (Hall _ _ Hil Hend) as Hps. split.
        * destruct Hr as [_|e He]; [reflexivity|]. exfalso. rewrite Forall_forall in Hps. specialize (Hps _ He). discriminate Hps.
        * split; [eapply pool_grown; eassumption|].
          apply (download_cinv cwd base get sdir sym l man lower langs [] f ids [] f false ps f2 Es R (outputs_now f0 f G sym l (part_out l Hi Hnd)) Ei Hil Hps).
  Qed.

  Lemma nodup_parts l1 l2 : NoDup (map (target cwd) (map outp (l1 ++ l2))) -> NoDup (map (target cwd) (map outp l1)) /\ NoDup (map (target cwd) (map outp l2)).
  Proof. rewrite !map_app. intros H. split; [eapply nodup_app_l; exact H | eapply nodup_app_r; exact H]. Qed.

  Lemma release_total : forall ms ss, Forall2 (fun man l => selected man lower langs = Ok l) ms ss -> forall f, incl (concat ss) sel -> NoDup (map (target cwd) (map outp (concat ss))) -> grown f0 f ->
    (exists f', release_download cwd base get sdir lower langs true ms f (Done tt) f') /\
    forall r f', release_download cwd base get sdir lower langs true ms f r f' ->
      r = Done tt /\ grown f f' /\ forall m, In m (concat ss) -> ext cwd base sdir m f' \/ has_bundles cwd base m f'.
  Proof.
    induction 1 as [|man l ms ss Es HF IH]; intros f Hi Hnd G; cbn [concat] in *.
    - split; [exists f; constructor|]. intros r f' H. inversion H; subst. split; [reflexivity|]. split; [apply grown_refl; apply G | intros m []].
    - apply nodup_parts in Hnd as [Hnd1 Hnd2]. assert (Hi1 : incl l sel) by (intros x Hx; apply Hi; apply in_or_app; auto). assert (Hi2 : incl (concat ss) sel) by (intros x Hx; apply Hi; apply in_or_app; auto).
      destruct (element_total man l f Es Hi1 Hnd1 G) as [[f1 H1] Hall]. split.
      + destruct (Hall _ _ H1) as (_ & G1 & _). destruct (IH f1 Hi2 Hnd2 (grown_trans _ _ _ G G1)) as [[f2 H2] _]. exists f2. eapply rd_next; eassumption.
      + intros r f' H. inversion H as [|? ? ? f2 ? ? He Hr|? ? ? e ? He]; subst.
        * destruct (Hall _ _ He) as (_ & G1 & Hx). destruct (IH f2 Hi2 Hnd2 (grown_trans _ _ _ G G1)) as [_ Hall2]. destruct (Hall2 _ _ Hr) as (-> & G2 & Hx2).
          split; [reflexivity|]. split; [eapply grown_trans; eassumption|]. intros m Hm. apply in_app_or in Hm as [Hm|Hm]; [|apply Hx2; exact Hm].
          destruct (Hx m Hm) as [H3|H3]; [left | right].
          -- apply (ext_now f2 f' G2); [apply (out_now f0 f2 (grown_trans _ _ _ G G1)); apply ready0; apply Hi1; exact Hm | exact H3].
          -- eapply has_kept; eassumption.
        * destruct (Hall _ _ He) as (E & _). discriminate E.
  Qed.

  (** ** Extraction *)

  Notation tinv_ := (tinv cwd base zstd sha1 get sdir f0 sym sel D).
  Lemma tinv_ext l l' f : (forall m, In m l <-> In m l') -> tinv_ l f -> tinv_ l' f.
  Proof.
    intros Hl (H1 & H2 & H3 & H4 & H5). split; [exact H1|]. split; [exact H2|]. split; [exact H3|]. split; [intros m Hm; apply H4; apply Hl; exact Hm|].
    intros m Hm. destruct (H5 m Hm) as [H|H]; [left; apply Hl; exact H | auto].
  Qed.
  Lemma after_download f : grown f0 f -> (forall m, In m sel -> ext cwd base sdir m f \/ has_bundles cwd base m f) -> tinv_ sel f.
  Proof.
    intros G Hx. pose proof G as (R & _). split; [|split; [|split; [|split]]].
    - split; [exact R|]. split; [intros m Hm; apply (out_now f0 f G); apply ready0; exact Hm|]. split; [|exact Hx].
      intros Hs m x Hm Hl. apply (or_links _ _ _ _ _ (outputs_now f0 f G sym sel Hout) (outp m)) in Hl as [Hl _]; [congruence | apply in_map; exact Hm].
    - apply cdn_bundles. exact G.
    - intros Hs h b Hb. apply (Hstore Hs). apply (same_node f0 f G (h :: S_)); [intros id; apply store_not_bundle | discriminate | exact Hb].
    - intros m Hm. pose proof (ready0 m Hm) as Ho. split; [|split].
      + intros x Hl. apply (same_node f0 f G) in Hl; [|apply not_bundle with (f0 := f0); exact Ho | discriminate]. destruct (Hdangle m x Hm Hl) as [b Hb].
        apply made_link with (base := base) in Hb; [|exact Hready | exact Ho | apply made0; exact Hm]. destruct Hb as [Hb|(h & Hv & HL)]; [congruence|]. exists h, b. split; [exact Hv|]. apply (linked_now f0 f G m Ho). exact HL.
      + intros b Hb. apply (at_end_now f0 f G m Ho) in Hb. eapply at_end_reads; eassumption.
      + destruct (Hneed m Hm) as [He|[Hr Hd]]; [left; apply (ext_now f0 f G m Ho); apply ext0; assumption | right]. split; [apply (rooms_now f0 f G m Ho); exact Hr | exact Hd].
    - auto.
  Qed.
  Lemma steps_part : forall l rest f, NoDup l -> (forall x, In x l -> ~ In x rest) -> incl l sel -> incl rest sel -> tinv_ (l ++ rest) f ->
    exists f', run (for_each l (extract_file cwd base zstd sha1 sym sdir false)) [] f = (Done tt, [], f') /\ tinv_ rest f'.
  Proof.
    induction l as [|m l IH]; intros rest f Hnd Hd Hl Hr HT; cbn [for_each]; [exists f; split; [reflexivity | exact HT]|].
    inversion_clear Hnd as [|? ? Hni Hnd'].
    destruct (step_total cwd base zstd sha1 sha1_ok get sdir f0 sym sel (or_places _ _ _ _ _ Hout) (or_apart _ _ _ _ _ Hout) D HD m (l ++ rest) f) as (f1 & E1 & HT1).
    - apply Hl. left. reflexivity.
    - intros H. apply in_app_or in H as [H|H]; [contradiction | exact (Hd m (or_introl eq_refl) H)].
    - intros x H. apply in_app_or in H as [H|H]; [apply Hl; right; exact H | apply Hr; exact H].
    - exact HT.
    - rewrite (run_bind0 _ _ _ _ _ E1). apply IH; [exact Hnd' | intros x Hx; apply Hd; right; exact Hx | intros x Hx; apply Hl; right; exact Hx | exact Hr | exact HT1].
  Qed.
  Lemma extract_parts_total : forall ms ss, Forall2 (fun man l => selected man lower langs = Ok l) ms ss -> forall f, incl (concat ss) sel -> NoDup (map (target cwd) (map outp (concat ss))) -> tinv_ (concat ss) f ->
    exists f', run (release_extract cwd base zstd sha1 sym sdir lower langs ms false) [] f = (Done tt, [], f') /\ tinv_ [] f'.
  Proof.
    unfold release_extract. induction 1 as [|man l ms ss Es HF IH]; intros f Hi Hnd HT; cbn [concat for_each] in *; [exists f; split; [reflexivity | exact HT]|].
    assert (Hi1 : incl l sel) by (intros x Hx; apply Hi; apply in_or_app; auto). assert (Hi2 : incl (concat ss) sel) by (intros x Hx; apply Hi; apply in_or_app; auto).
    assert (Hdis : forall x, In x l -> ~ In x (concat ss)).
    { intros x Hx Hx'. rewrite !map_app in Hnd. eapply nodup_app_disj; [exact Hnd | apply in_map; apply in_map; exact Hx | apply in_map; apply in_map; exact Hx']. }
    apply nodup_parts in Hnd as [Hnd1 Hnd2].
    destruct (sorted_total cwd sdir l Hnd1) as (l' & El & Hndl & Hl); [intros m Hm; apply Hnames; apply Hi1; exact Hm|].
    destruct (steps_part l' (concat ss) f Hndl) as (f1 & E1 & HT1); [intros x Hx; apply Hdis; apply Hl; exact Hx | intros x Hx; apply Hi1; apply Hl; exact Hx | exact Hi2 | |].
    - eapply tinv_ext; [|exact HT]. intros m. rewrite !in_app_iff, Hl. reflexivity.
    - assert (E : run (extract cwd base zstd sha1 sym sdir man lower langs false) [] f = (Done tt, [], f1)).
      { unfold extract. rewrite Es. cbn [lift]. rewrite (run_bind0 (Ret l) _ f l f) by reflexivity. rewrite El. cbn [lift]. rewrite (run_bind0 (Ret l') _ f l' f) by reflexivity. exact E1. }
      rewrite (run_bind0 _ _ _ _ _ E). apply IH; assumption.
  Qed.

  Lemma whole_from f1 : grown f0 f1 -> (exists f2, release_download cwd base get sdir lower langs true mans f1 (Done tt) f2) /\
    forall r f2, release_download cwd base get sdir lower langs true mans f1 r f2 ->
      r = Done tt /\ exists f3, run (release_extract cwd base zstd sha1 sym sdir lower langs mans false) [] f2 = (Done tt, [], f3) /\
        forall m, In m sel -> exists d, reads cwd (outp m) d f3 /\ final cwd base zstd get sdir f0 sym m d.
  Proof.
    intros G1. destruct (release_total mans sels Hsels f1 (incl_refl _) (or_places _ _ _ _ _ Hout) G1) as [He Hall]. split; [exact He|].
    intros r f2 H. destruct (Hall r f2 H) as (-> & G & Hx). split; [reflexivity|].
    destruct (extract_parts_total mans sels Hsels f2 (incl_refl _) (or_places _ _ _ _ _ Hout) (after_download f2 (grown_trans _ _ _ G1 G) Hx)) as (f3 & E3 & HC3 & _ & _ & _ & Hfin).
    exists f3. split; [exact E3|]. intros m Hm. destruct (Hfin m Hm) as [[]|(d & Hd & Hfd)]. exists d. split; [|exact Hfd].
    destruct HC3 as (R3 & Ho3 & _). eapply at_end_reads; [exact R3 | apply Ho3; exact Hm | exact Hd].
  Qed.
  Theorem whole : (exists f2, release_download cwd base get sdir lower langs true mans f0 (Done tt) f2) /\
    forall r f2, release_download cwd base get sdir lower langs true mans f0 r f2 ->
      r = Done tt /\ exists f3, run (release_extract cwd base zstd sha1 sym sdir lower langs mans false) [] f2 = (Done tt, [], f3) /\
        forall m, In m sel -> exists d, reads cwd (outp m) d f3 /\ final cwd base zstd get sdir f0 sym m d.
  Proof. apply whole_from. apply grown_refl. exact Hready. Qed.
End Release.
Lemma grown_mono cwd base (get get' : str -> result bytes) f f' : (forall p b, get' p = Ok b -> get p = Ok b) -> grown cwd base get' f f' -> grown cwd base get f f'.
Proof. intros Hg (R & O & G). split; [exact R|]. split; [exact O|]. intros id. destruct (G id) as [E|(E & b & Eb & E')]; [auto | right; split; [exact E|]; exists b; auto]. Qed.
