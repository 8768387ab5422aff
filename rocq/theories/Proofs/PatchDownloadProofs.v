(** * Proofs about downloads of patches *)

From Verif Require Import Base.Py Base.Text Base.PyFacts Base.TextFacts Base.PathFacts Base.Fs Spec.FsSpec Base.FsFacts Base.FsLinks Base.FsThreads Spec.FilesSpec Model.Files Proofs.FilesProofs Model.Rman Model.Patcher Spec.PatcherSpec Proofs.PatcherLinkProofs Proofs.PatcherExtractProofs Proofs.PatcherBundleProofs Proofs.PatcherCompleteProofs Spec.PatcherTotalSpec Proofs.SymlinksProofs Proofs.PatcherTotalProofs Model.ReleaseJobs Proofs.ReleaseJobsProofs Spec.PatchDownloadSpec.

Lemma strictly_parent x (p q : path) : strictly_below p (x :: q) -> below p q.
Proof. intros (y & l & ->). exists (y :: l ++ [x]). cbn. rewrite <- app_assoc. reflexivity. Qed.
Lemma below_self x (p : path) : ~ below p (x :: p).
Proof. intros B. apply below_longer in B. cbn in B. lia. Qed.

Section Patch.
  Variable cwd : path.
  Variable base : str.
  Notation ready_ := (storage_ready cwd base).
  Notation S_ := (store_dir cwd base).
  Notation B_ := (bundle_dir cwd base).
  Notation bf := (bundle_file cwd base).

  (** ** What extractions change *)

  Definition moved (outs : list str) (f f' : fs) : Prop := forall q,
    look f' q = look f q \/ (exists o, In o outs /\ q = target cwd o) \/ (exists h, q = h :: S_ /\ is_file f' q /\ ~ is_file f q) \/
    (look f q = None /\ look f' q = Some NDir /\ ((exists o, In o outs /\ strictly_below (target cwd o) q) \/ below S_ q)).
  Lemma moved_refl f : moved [] f f.
  Proof. intros q. auto. Qed.
  Lemma moved_trans o1 o2 a b c : moved o1 a b -> moved o2 b c -> moved (o1 ++ o2) a c.
  Proof.
    intros H1 H2 q. unfold is_file in *.
    destruct (H2 q) as [E2|[(o & Ho & E2)|[(h & E2 & F2 & N2)|(E2 & E2' & B2)]]], (H1 q) as [E1|[(o' & Ho' & E1)|[(h' & E1 & F1 & N1)|(E1 & E1' & B1)]]];
      try (right; left; eexists; split; [apply in_or_app; eauto | assumption]); unfold is_file in *.
    - left. congruence.
    - right. right. left. exists h'. rewrite E2. auto.
    - right. right. right. rewrite E2. split; [exact E1|]. split; [exact E1'|]. destruct B1 as [(o & Ho & B1)|B1]; [left; exists o; split; [apply in_or_app; auto | exact B1] | auto].
    - right. right. left. exists h. rewrite <- E1. auto.
    - contradiction.
    - right. right. left. exists h. split; [exact E2|]. split; [exact F2|]. intros [x Hx]. congruence.
    - right. right. right. split; [congruence|]. split; [exact E2'|]. destruct B2 as [(o & Ho & B2)|B2]; [left; exists o; split; [apply in_or_app; auto | exact B2] | auto].
    - destruct F1 as [x Hx]. congruence.
    - congruence.
  Qed.

  Notation outside := (outside cwd base).

  Section Moved.
    Variable outs : list str.
    Variable f f' : fs.
    Hypothesis HM : moved outs f f'.
    Hypothesis Hos : forall o, In o outs -> out_ready cwd base o f.
    Lemma moved_bundle id : look f' (bf id) = look f (bf id).
    Proof.
      destruct (HM (bf id)) as [E|[(o & Ho & E)|[(h & E & _)|(_ & _ & [(o & Ho & B)|B])]]]; [exact E | | | |]; exfalso.
      - eapply out_not_bundle; [apply Hos; exact Ho | symmetry; exact E].
      - eapply store_not_bundle. symmetry. exact E.
      - apply strictly_parent in B. destruct (Hos o Ho) as (_ & _ & _ & [A _]). exact (A B).
      - destruct (store_bundle_apart cwd base) as [A _]. apply A. destruct B as [l El]. exists (l ++ [hexu 16 id ++ lit ".bundle"]). rewrite El. unfold bundle_file. rewrite <- app_assoc. reflexivity.
    Qed.
    Lemma moved_free : bundle_dir_free cwd base f -> bundle_dir_free cwd base f'.
    Proof.
      intros HF q Bq. destruct (HM q) as [E|[(o & Ho & ->)|[(h & -> & _)|(_ & E & _)]]]; [rewrite E; apply HF; exact Bq | exfalso | exfalso | auto].
      - destruct (Hos o Ho) as (_ & _ & _ & [_ A]). exact (A Bq).
      - destruct (store_bundle_apart cwd base) as [_ A]. apply A. eapply below_trans; [exact Bq | apply below_cons].
    Qed.
    Lemma moved_store h b : look f (h :: S_) = Some (NFile b) -> look f' (h :: S_) = Some (NFile b).
    Proof.
      intros Hl. destruct (HM (h :: S_)) as [E|[(o & Ho & E)|[(h' & _ & _ & N)|(E & _)]]]; [congruence | exfalso | exfalso | congruence].
      - eapply out_not_store; [apply Hos; exact Ho | symmetry; exact E].
      - apply N. exists b. exact Hl.
    Qed.
    Lemma moved_room_store h : room f (h :: S_) -> room f' (h :: S_).
    Proof.
      intros [H1 H2]. split.
      - destruct (HM (h :: S_)) as [E|[(o & Ho & E)|[(h' & _ & [x Hx] & _)|(_ & _ & [(o & Ho & B)|B])]]]; [congruence | exfalso | congruence | exfalso | exfalso].
        + eapply out_not_store; [apply Hos; exact Ho | symmetry; exact E].
        + apply strictly_parent in B. destruct (Hos o Ho) as (_ & _ & [A _] & _). exact (A B).
        + exact (below_self _ _ B).
      - intros q B. pose proof B as B'. apply strictly_tl in B'. destruct (HM q) as [E|[(o & Ho & ->)|[(h' & -> & _)|(_ & E & _)]]]; [rewrite E; apply H2; exact B | exfalso | exfalso | auto].
        + destruct (Hos o Ho) as (_ & _ & [_ A] & _). exact (A B').
        + exact (below_self _ _ B').
    Qed.
    Section Out.
      Variable o' : str.
      Hypothesis Ho' : outside outs o' f.
      Lemma moved_node : look f' (target cwd o') = look f (target cwd o').
      Proof.
        destruct Ho' as [Hr Ha]. destruct (HM (target cwd o')) as [E|[(o & Ho & E)|[(h & E & _)|(_ & _ & [(o & Ho & B)|B])]]]; [exact E | | | |]; exfalso.
        - destruct (Ha o Ho) as (A & _). exact (A E).
        - eapply out_not_store; [exact Hr | exact E].
        - destruct (Ha o Ho) as (_ & _ & A). exact (A B).
        - destruct Hr as (_ & _ & [_ A] & _). exact (A B).
      Qed.
      Lemma moved_out : out_ready cwd base o' f'.
      Proof.
        destruct Ho' as [(H1 & H2 & H3 & H4) Ha]. split; [exact H1|]. split; [|auto]. intros q x Bq El.
        destruct (HM q) as [E|[(o & Ho & ->)|[(h & _ & [b Hb] & _)|(_ & E & _)]]]; [rewrite E in El; exact (H2 q x Bq El) | | congruence | congruence].
        destruct (Ha o Ho) as (_ & A & _). apply A. rewrite (ot_eq cwd o' H1) in Bq |- *. apply strictly_tl. exact Bq.
      Qed.
      Lemma moved_room : room f (target cwd o') -> room f' (target cwd o').
      Proof.
        destruct Ho' as [Hr Ha]. intros [H1 H2]. split; [rewrite moved_node; exact H1|]. intros q B.
        destruct (HM q) as [E|[(o & Ho & ->)|[(h & -> & _)|(_ & E & _)]]]; [rewrite E; apply H2; exact B | exfalso | exfalso | auto].
        - destruct (Ha o Ho) as (_ & A & _). exact (A B).
        - apply strictly_parent in B. destruct Hr as (_ & _ & [A _] & _). exact (A B).
      Qed.
    End Out.
    Lemma moved_room_at o' : out_ready cwd base o' f -> (forall o, In o outs -> ~ strictly_below (target cwd o') (target cwd o)) -> look f' (target cwd o') <> Some NDir ->
      room f (target cwd o') -> room f' (target cwd o').
    Proof.
      intros Hr Ha Hn [_ H2]. split; [exact Hn|]. intros q B.
      destruct (HM q) as [E|[(o & Ho & ->)|[(h & -> & _)|(_ & E & _)]]]; [rewrite E; apply H2; exact B | exfalso | exfalso | auto].
      - exact (Ha o Ho B).
      - apply strictly_parent in B. destruct Hr as (_ & _ & [A _] & _). exact (A B).
    Qed.
    Section File.
      Variable s : str.
      Variable m : mfile.
      Hypothesis Ho' : outside outs (extract_path s m) f.
      Lemma moved_linked h b : linked cwd base (extract_path s m) h b f -> linked cwd base (extract_path s m) h b f'.
      Proof. intros [H1 H2]. split; [rewrite moved_node; assumption | apply moved_store; exact H2]. Qed.
      Lemma moved_at b : at_end cwd base s m b f -> at_end cwd base s m b f'.
      Proof. intros [H|(h & Hv & H)]; [left; rewrite moved_node; assumption | right; exists h; split; [exact Hv | apply moved_linked; exact H]]. Qed.
      Lemma moved_link : link_ok cwd base s m f -> link_ok cwd base s m f'.
      Proof. intros H x Hx. rewrite moved_node in Hx by assumption. destruct (H x Hx) as (h & b & Hv & HL). exists h, b. split; [exact Hv | apply moved_linked; exact HL]. Qed.
      Lemma moved_back b : ready_ f' -> link_ok cwd base s m f -> at_end cwd base s m b f' -> at_end cwd base s m b f.
      Proof.
        intros R' Hk [H|(h & Hv & [H1 H2])]; [left; rewrite <- (moved_node _ Ho'); exact H|].
        pose proof H1 as H1'. rewrite (moved_node _ Ho') in H1'. destruct (Hk _ H1') as (h' & b' & Hv' & HL).
        assert (b = b') as ->; [|right; eauto]. pose proof (moved_out _ Ho') as Hr.
        apply (reads_det cwd (extract_path s m) b b' f'); apply (at_end_reads cwd base); auto; right; [exists h; split; [exact Hv | split; assumption] | exists h'; split; [exact Hv' | apply moved_linked; exact HL]].
      Qed.
    End File.
  End Moved.

  (** ** One element *)

  Variable get : str -> result bytes.
  Variable lower : str -> str.
  Variable langs : langs_arg.
  Variable zstd : bytes -> result bytes.
  Variable sha1 : str -> str.
  Hypothesis sha1_ok : forall s, valid_name (sha1 s).
  Variable sym : bool.

  Section Element.
    Variable s : str.
    Variable sel : list mfile.
    Notation outp := (extract_path s).
    Hypothesis Hplaces : NoDup (map (target cwd) (map outp sel)).
    Hypothesis Hapart : forall o o', In o (map outp sel) -> In o' (map outp sel) -> ~ strictly_below (target cwd o) (target cwd o').
    Notation cinv_ := (cinv cwd base s sym sel).
    Lemma file_moved m f f' : In m sel -> cinv_ f -> run (extract_file cwd base zstd sha1 sym s false m) [] f = (Done tt, [], f') -> moved [outp m] f f'.
    Proof.
      intros Hm (R & Ho & Hnl & _) E. unfold extract_file in E. destruct (is_extracted_total cwd s m f) as [b Eb]. rewrite (run_bind0 _ _ _ _ _ Eb) in E.
      destruct b; [injection E as <-; intros q; auto|].
      assert (E0 : run (extract_to cwd base zstd sha1 sym m (outp m)) [] f = (Done tt, [], f')) by exact E. clear E. pose proof (Ho m Hm) as Hom. destruct sym.
      - pose proof E0 as E1. apply extract_frame in E1 as (HO & _); [|exact sha1_ok | exact R | exact Hom].
        apply extract_done in E0 as (h & data & Hh & [_ HL] & Hor); [|exact sha1_ok | exact R | exact Hom].
        intros q. destruct (HO q) as [E|[[E|(h' & Hh' & E)]|(E1 & E2 & t & [->|(h' & Hh' & ->)] & B)]].
        + auto.
        + right. left. exists (outp m). split; [left; reflexivity | exact E].
        + assert (h' = h) as -> by (apply hexdigest_iff in Hh; apply hexdigest_iff in Hh'; congruence). subst q. destruct Hor as [E|[N _]]; [left; congruence|].
          right. right. left. exists h. split; [reflexivity|]. split; [exists data; exact HL | exact N].
        + right. right. right. split; [exact E1|]. split; [exact E2|]. left. exists (outp m). split; [left; reflexivity | exact B].
        + right. right. right. split; [exact E1|]. split; [exact E2|]. right. apply strictly_tl in B. exact B.
      - destruct (direct_ready cwd base (outp m) f R Hom) as [Hp Hi]; [intros x; apply Hnl; auto|]. cbn [extract_to] in E0.
        apply real_frame in E0 as [HO _]; [|exact Hp | exact Hi]. intros q. destruct (HO q) as [E|[E|(E1 & E2 & B)]]; [auto | right; left; exists (outp m); split; [left; reflexivity | exact E]|].
        right. right. right. split; [exact E1|]. split; [exact E2|]. left. exists (outp m). split; [left; reflexivity | exact B].
    Qed.
    Lemma file_ext m m' f f' : In m sel -> In m' sel -> cinv_ f -> run (extract_file cwd base zstd sha1 sym s false m') [] f = (Done tt, [], f') -> ext cwd base s m f -> ext cwd base s m f'.
    Proof.
      intros Hm Hm' HC E Hx. pose proof HC as (R & Ho & _). pose proof (file_moved m' f f' Hm' HC E) as HM.
      unfold extract_file in E. destruct (is_extracted_total cwd s m' f) as [b Eb]. rewrite (run_bind0 _ _ _ _ _ Eb) in E.
      destruct b; [injection E as <-; exact Hx|]. clear E.
      assert (Hne : target cwd (outp m) <> target cwd (outp m')).
      { intros Et. apply (places cwd s sel Hplaces) in Et; [|exact Hm | exact Hm']. subst m'. apply ext_extracted in Hx; [|exact R | apply Ho; exact Hm].
        apply is_extracted_run in Eb as [_ Hb]. apply (Hb false eq_refl) in Hx. discriminate Hx. }
      destruct Hx as (b & Hs & Hx). exists b. split; [exact Hs|]. apply (moved_at _ _ _ HM); [intros o [<-|[]]; apply Ho; exact Hm' | | exact Hx].
      split; [apply Ho; exact Hm|]. intros o [<-|[]]. split; [exact Hne|]. split; apply Hapart; apply in_map; assumption.
    Qed.
    Lemma files_ext : forall l f f' m, In m sel -> incl l sel -> cinv_ f -> run (for_each l (extract_file cwd base zstd sha1 sym s false)) [] f = (Done tt, [], f') -> ext cwd base s m f -> ext cwd base s m f'.
    Proof.
      induction l as [|m' l IH]; intros f f' m Hm Hi HC E Hx; cbn [for_each] in E; [injection E as <-; exact Hx|].
      rewrite run_bind in E. destruct (run_nil_plan (extract_file cwd base zstd sha1 sym s false m') f) as (r & f1 & E1). rewrite E1 in E. destruct r as [[]|e|]; [|discriminate E | discriminate E].
      assert (Hm' : In m' sel) by (apply Hi; left; reflexivity). apply (IH f1 f' m Hm); [intros x Hx'; apply Hi; right; exact Hx' | | exact E | eapply file_ext; [exact Hm | exact Hm' | exact HC | exact E1 | exact Hx]].
      eapply (extract_file_cinv cwd base zstd sha1 sha1_ok s sym sel Hplaces Hapart m'); eassumption.
    Qed.
    Lemma files_moved : forall l f f', incl l sel -> cinv_ f -> run (for_each l (extract_file cwd base zstd sha1 sym s false)) [] f = (Done tt, [], f') -> moved (map outp l) f f'.
    Proof.
      induction l as [|m l IH]; intros f f' Hi HC E; cbn [for_each] in E; [injection E as <-; apply moved_refl|].
      rewrite run_bind in E. destruct (run_nil_plan (extract_file cwd base zstd sha1 sym s false m) f) as (r & f1 & E1). rewrite E1 in E. destruct r as [[]|e|]; [|discriminate E | discriminate E].
      assert (Hm : In m sel) by (apply Hi; left; reflexivity). change (map outp (m :: l)) with ([outp m] ++ map outp l). eapply moved_trans; [eapply file_moved; eassumption|].
      apply IH; [intros x Hx; apply Hi; right; exact Hx | | exact E]. eapply (extract_file_cinv cwd base zstd sha1 sha1_ok s sym sel Hplaces Hapart m); eassumption.
    Qed.
  End Element.

  (** ** Files of several elements *)

  Variable D : str -> bytes.
  Record good (fl : list (str * mfile)) (f : fs) : Prop := {
    g_ready : ready_ f;
    g_free : bundle_dir_free cwd base f;
    g_store : sym = true -> store_ok cwd base D f;
    g_out : outputs_ready cwd base sym (map outp fl) f;
    g_names : forall x, In x fl -> f_name (snd x) <> None;
    g_link : forall x, In x fl -> link_ok cwd base (fst x) (snd x) f;
    g_named : sym = true -> forall x h d, In x fl -> digest sha1 (snd x) h -> content cwd base zstd get f (snd x) d -> D h = d;
    g_need : forall x, In x fl -> ext cwd base (fst x) (snd x) f \/ (rooms cwd base sha1 sym (fst x) f (snd x) /\ exists d, content cwd base zstd get f (snd x) d) }.

  Definition same_content (f f' : fs) : Prop := forall id b, bundle_content cwd base get f' id b <-> bundle_content cwd base get f id b.
  Lemma same_contents f f' m d : same_content f f' -> content cwd base zstd get f m d <-> content cwd base zstd get f' m d.
  Proof.
    intros H. split; intros (ds & HF & ->); exists ds; (split; [|reflexivity]); (induction HF as [|c x l l' Hc HF IH]; [apply Forall2_nil | apply Forall2_cons; [|exact IH]]);
      destruct Hc as (id & b & H1 & H2 & H3); exists id, b; (split; [exact H1|]; split; [apply H; exact H2 | exact H3]).
  Qed.
  Lemma grown_content f f' : grown cwd base get f f' -> same_content f f'.
  Proof.
    intros G id b. split; [|apply content_bundle; exact G]. destruct G as (_ & _ & HG). destruct (HG id) as [E|(E & d & Ed & E')]; unfold bundle_content.
    - rewrite E. auto.
    - intros [H|[H _]]; [right; split; [exact E | congruence] | congruence].
  Qed.

  (** What happens to the other files. *)
  Definition keeps (outs : list str) (f f' : fs) : Prop := forall x, outside outs (outp x) f ->
    out_ready cwd base (outp x) f' /\ (forall l, look f' (target cwd (outp x)) = Some (NLink l) -> look f (target cwd (outp x)) = Some (NLink l)) /\
    (forall b, at_end cwd base (fst x) (snd x) b f -> at_end cwd base (fst x) (snd x) b f') /\
    (rooms cwd base sha1 sym (fst x) f (snd x) -> rooms cwd base sha1 sym (fst x) f' (snd x)) /\
    (link_ok cwd base (fst x) (snd x) f -> link_ok cwd base (fst x) (snd x) f' /\ forall b, at_end cwd base (fst x) (snd x) b f' -> at_end cwd base (fst x) (snd x) b f).

  Lemma sub_outputs s sel fl f : good fl f -> (forall m, In m sel -> In (s, m) fl) -> NoDup (map (target cwd) (map (extract_path s) sel)) -> outputs_ready cwd base sym (map (extract_path s) sel) f.
  Proof.
    intros HG Hin Hnd. pose proof (g_out _ _ HG) as H. assert (Hi : incl (map (extract_path s) sel) (map outp fl)).
    { intros o Ho. apply in_map_iff in Ho as (m & <- & Hm). apply in_map_iff. exists (s, m). split; [reflexivity | apply Hin; exact Hm]. }
    split; [exact Hnd | | |].
    - intros o o' H1 H2. apply (or_apart _ _ _ _ _ H); apply Hi; assumption.
    - intros o H1. apply (or_ready _ _ _ _ _ H); apply Hi; exact H1.
    - intros o x H1. apply (or_links _ _ _ _ _ H o x); apply Hi; exact H1.
  Qed.
  (** The extraction, after its bundles were downloaded. *)
  Lemma extract_step s man sel fl f f2 : selected man lower langs = Ok sel -> good fl f -> (forall m, In m sel -> In (s, m) fl) -> NoDup (map (target cwd) (map (extract_path s) sel)) ->
    grown cwd base get f f2 -> (forall m, In m sel -> ext cwd base s m f2 \/ has_bundles cwd base m f2) ->
      exists f3, run (extract cwd base zstd sha1 sym s man lower langs false) [] f2 = (Done tt, [], f3) /\
        ready_ f3 /\ bundle_dir_free cwd base f3 /\ (sym = true -> store_ok cwd base D f3) /\ same_content f f3 /\ keeps (map (extract_path s) sel) f f3 /\
        (forall m, In m sel -> out_ready cwd base (extract_path s m) f3 /\ exists d, at_end cwd base s m d f3 /\ final cwd base zstd get s f sym m d) /\
        (forall m, In m sel -> (ext cwd base s m f -> ext cwd base s m f3) /\ (rooms cwd base sha1 sym s f m -> rooms cwd base sha1 sym s f3 m) /\
          (sym = false -> forall x, look f3 (target cwd (extract_path s m)) <> Some (NLink x))).
  Proof.
    intros Es HG Hin Hnd G Hx. set (outs := map (extract_path s) sel). assert (EC : concat [sel] = sel) by (cbn; apply app_nil_r).
    pose proof (sub_outputs s sel fl f HG Hin Hnd) as Ho. fold outs in Ho.
    assert (Hom : forall m, In m sel -> out_ready cwd base (extract_path s m) f) by (intros m Hm; apply (or_ready _ _ _ _ _ Ho); apply in_map; exact Hm).
    pose proof (g_ready _ _ HG) as R. pose proof (g_free _ _ HG) as HF.
    assert (Hneed : forall m, In m sel -> extracted cwd s m f \/ rooms cwd base sha1 sym s f m /\ (exists d, content cwd base zstd get f m d)).
    { intros m Hm. destruct (g_need _ _ HG (s, m) (Hin m Hm)) as [H|H]; [left; eapply ext_extracted; [exact R | apply Hom; exact Hm | exact H] | right; exact H]. }
    pose proof (after_download cwd base get s zstd sha1 f sym [sel]) as HT. rewrite EC in HT.
    specialize (HT R Ho). specialize (HT ltac:(intros m x Hm Hl; destruct (g_link _ _ HG (s, m) (Hin m Hm) x Hl) as (h & b & Hv & HL); exists b; eapply at_end_reads; [exact R | apply Hom; exact Hm | right; exists h; auto])).
    specialize (HT D (g_store _ _ HG)). specialize (HT Hneed f2 G Hx).
    destruct (sorted_total cwd s sel (or_places _ _ _ _ _ Ho)) as (l' & El & Hndl & Hl); [intros m Hm; apply (g_names _ _ HG (s, m)); apply Hin; exact Hm|].
    pose proof HT as (HC & _).
    pose proof (steps_part cwd base get s zstd sha1 sha1_ok f sym [sel]) as HS. rewrite EC in HS.
    destruct (HS Ho D ltac:(intros Hs m h d Hm; apply (g_named _ _ HG Hs (s, m)); apply Hin; exact Hm) l' [] f2 Hndl) as (f3 & E3 & HC3 & _ & Hst3 & _ & Hfin).
    { intros x _ []. } { intros x Hx'. apply Hl. exact Hx'. } { intros x []. } { rewrite app_nil_r. destruct HT as (A1 & A2 & A3 & A4 & A5). split; [exact A1|]. split; [exact A2|]. split; [exact A3|]. split; [intros m Hm; apply A4; apply Hl; exact Hm|].
      intros m Hm. left. apply Hl. exact Hm. }
    exists f3. split.
    { unfold extract. rewrite Es. cbn [lift]. rewrite (run_bind0 (Ret sel) _ f2 sel f2) by reflexivity. rewrite El. cbn [lift]. rewrite (run_bind0 (Ret l') _ f2 l' f2) by reflexivity. exact E3. }
    assert (HM : moved (map (extract_path s) l') f2 f3) by (apply (files_moved s sel (or_places _ _ _ _ _ Ho) (or_apart _ _ _ _ _ Ho) l'); [intros x Hx'; apply Hl; exact Hx' | exact HC | exact E3]).
    assert (Hos : forall o, In o (map (extract_path s) l') -> out_ready cwd base o f2).
    { intros o Hin'. apply in_map_iff in Hin' as (m & <- & Hm). destruct HC as (_ & H & _). apply H. apply Hl. exact Hm. }
    destruct HC3 as (R3 & Ho3 & Hnl3 & _). split; [exact R3|]. split; [apply (moved_free _ _ _ HM Hos); apply (free_now cwd base get s lower f f2 G HF)|]. split; [exact Hst3|]. split; [|split; [|split]].
    - intros id b. rewrite <- (grown_content f f2 G id b). unfold bundle_content. rewrite (moved_bundle _ _ _ HM Hos id). reflexivity.
    - intros [s' m'] [Ho2 Ha]. unfold outp in *. cbn [fst snd] in *. pose proof (out_now cwd base get s' f f2 G m' Ho2) as Ho2'.
      assert (HO : outside (map (extract_path s) l') (extract_path s' m') f2).
      { split; [exact Ho2'|]. intros o Hin'. apply Ha. apply in_map_iff in Hin' as (m & <- & Hm). apply in_map. apply Hl. exact Hm. }
      split; [apply (moved_out _ _ _ HM _ HO)|]. split; [|split; [|split]].
      + intros l Hl'. rewrite (moved_node _ _ _ HM _ HO) in Hl'. apply (same_node cwd base get f f2 G) in Hl'; [exact Hl' | intros id; eapply out_not_bundle; exact Ho2 | discriminate].
      + intros b Hb. apply (moved_at _ _ _ HM Hos _ _ HO). apply (at_end_now cwd base get s' f f2 G m' Ho2). exact Hb.
      + intros Hr. apply (rooms_now cwd base get s' f f2 G m' Ho2) in Hr. destruct Hr as [Hr1 Hr2]. split; [apply (moved_room _ _ _ HM _ HO); exact Hr1|].
        intros Hs. destruct (Hr2 Hs) as (h & Hh & Hr). exists h. split; [exact Hh | apply (moved_room_store _ _ _ HM Hos); exact Hr].
      + intros Hk. assert (Hk2 : link_ok cwd base s' m' f2).
        { intros x Hx'. apply (same_node cwd base get f f2 G) in Hx'; [|intros id; eapply out_not_bundle; exact Ho2 | discriminate]. destruct (Hk x Hx') as (h & b & Hv & HL). exists h, b. split; [exact Hv|]. apply (linked_now cwd base get s' f f2 G m' Ho2). exact HL. }
        split; [apply (moved_link _ _ _ HM Hos _ _ HO); exact Hk2|]. intros b Hb. apply (at_end_now cwd base get s' f f2 G m' Ho2). eapply (moved_back _ _ _ HM Hos); [exact HO | exact R3 | exact Hk2 | exact Hb].
    - intros m Hm. split; [apply Ho3; exact Hm|]. destruct (Hfin m Hm) as [[]|H]. exact H.
    - intros m Hm. pose proof (Hom m Hm) as Ho2. pose proof (out_now cwd base get s f f2 G m Ho2) as Ho2'. split; [|split].
      + intros Hxt. eapply (files_ext s sel (or_places _ _ _ _ _ Ho) (or_apart _ _ _ _ _ Ho) l'); [exact Hm | intros x Hx'; apply Hl; exact Hx' | exact HC | exact E3 | apply (ext_now cwd base get s f f2 G m Ho2); exact Hxt].
      + intros Hr. apply (rooms_now cwd base get s f f2 G m Ho2) in Hr. destruct Hr as [Hr1 Hr2]. split.
        * apply (moved_room_at _ _ _ HM); [exact Ho2' | | | exact Hr1].
          -- intros o Hin'. apply (or_apart _ _ _ _ _ Ho); [apply in_map; exact Hm|]. apply in_map_iff in Hin' as (m' & <- & Hm'). apply in_map. apply Hl. exact Hm'.
          -- destruct (Hfin m Hm) as [[]|(d & [Hd|(h & _ & Hd & _)] & _)]; congruence.
        * intros Hs. destruct (Hr2 Hs) as (h & Hh & Hr). exists h. split; [exact Hh | apply (moved_room_store _ _ _ HM Hos); exact Hr].
      + intros Hs x. apply Hnl3; [exact Hs | exact Hm].
  Qed.
  Lemma element_step s man sel rest f : selected man lower langs = Ok sel -> good (map (pair s) sel ++ rest) f ->
    (exists f2, element_download cwd base get s lower langs true man f (Done tt) f2) /\
    forall r f2, element_download cwd base get s lower langs true man f r f2 -> r = Done tt /\
      exists f3, run (extract cwd base zstd sha1 sym s man lower langs false) [] f2 = (Done tt, [], f3) /\
        ready_ f3 /\ bundle_dir_free cwd base f3 /\ (sym = true -> store_ok cwd base D f3) /\ same_content f f3 /\ keeps (map (extract_path s) sel) f f3 /\
        forall m, In m sel -> out_ready cwd base (extract_path s m) f3 /\ exists d, at_end cwd base s m d f3 /\ final cwd base zstd get s f sym m d.
  Proof.
    intros Es HG. set (outs := map (extract_path s) sel). assert (EC : concat [sel] = sel) by (cbn; apply app_nil_r).
    assert (Hin : forall m, In m sel -> In (s, m) (map (pair s) sel ++ rest)) by (intros m Hm; apply in_or_app; left; apply in_map; exact Hm).
    assert (Hnd : NoDup (map (target cwd) outs)).
    { pose proof (or_places _ _ _ _ _ (g_out _ _ HG)) as H. rewrite map_app, map_map, map_app in H. unfold outp in H. cbn [fst snd] in H. eapply nodup_app_l; exact H. }
    pose proof (sub_outputs s sel _ f HG Hin Hnd) as Ho. fold outs in Ho.
    assert (Hom : forall m, In m sel -> out_ready cwd base (extract_path s m) f) by (intros m Hm; apply (or_ready _ _ _ _ _ Ho); apply in_map; exact Hm).
    pose proof (g_ready _ _ HG) as R. pose proof (g_free _ _ HG) as HF.
    assert (Hneed : forall m, In m (concat [sel]) -> extracted cwd s m f \/ rooms cwd base sha1 sym s f m /\ (exists d, content cwd base zstd get f m d)).
    { rewrite EC. intros m Hm. destruct (g_need _ _ HG (s, m) (Hin m Hm)) as [H|H]; [left; eapply ext_extracted; [exact R | apply Hom; exact Hm | exact H] | right; exact H]. }
    assert (Ho' : outputs_ready cwd base sym (map (extract_path s) (concat [sel])) f) by (rewrite EC; exact Ho).
    destruct (element_total cwd base get s lower langs zstd sha1 f sym [sel] R Ho' HF Hneed man sel f Es) as [He Hall]; [rewrite EC; apply incl_refl | exact Hnd | apply grown_refl; exact R|].
    split; [exact He|]. intros r f2 H2. destruct (Hall r f2 H2) as (-> & G & Hx). split; [reflexivity|].
    destruct (extract_step s man sel _ f f2 Es HG Hin Hnd G Hx) as (f3 & E3 & A1 & A2 & A3 & A4 & A5 & A6 & _). exists f3. auto 10.
  Qed.

  Lemma good_rest s sel rest f f3 : good (map (pair s) sel ++ rest) f -> ready_ f3 -> bundle_dir_free cwd base f3 -> (sym = true -> store_ok cwd base D f3) -> same_content f f3 ->
    keeps (map (extract_path s) sel) f f3 -> (forall x, In x rest -> outside (map (extract_path s) sel) (outp x) f) -> good rest f3.
  Proof.
    intros HG R HF HS HC HK Hout. assert (Hin : forall x, In x rest -> In x (map (pair s) sel ++ rest)) by (intros x Hx; apply in_or_app; auto). split.
    - exact R.
    - exact HF.
    - exact HS.
    - pose proof (g_out _ _ HG) as H. rewrite map_app in H. split.
      + pose proof (or_places _ _ _ _ _ H) as H1. rewrite map_app in H1. eapply nodup_app_r; exact H1.
      + intros o o' H1 H2. apply (or_apart _ _ _ _ _ H); apply in_or_app; auto.
      + intros o Ho. apply in_map_iff in Ho as (x & <- & Hx). apply (HK x (Hout x Hx)).
      + intros o l Ho Hl. apply (or_links _ _ _ _ _ H o l); [apply in_or_app; auto|]. apply in_map_iff in Ho as (x & <- & Hx). apply (HK x (Hout x Hx)). exact Hl.
    - intros x Hx. apply (g_names _ _ HG). apply Hin. exact Hx.
    - intros x Hx. apply (HK x (Hout x Hx)). apply (g_link _ _ HG). apply Hin. exact Hx.
    - intros Hs x h d Hx Hh Hd. apply (g_named _ _ HG Hs x h d (Hin x Hx) Hh). apply (same_contents f f3); assumption.
    - intros x Hx. destruct (HK x (Hout x Hx)) as (_ & _ & Ha & Hr & _). destruct (g_need _ _ HG x (Hin x Hx)) as [(b & Hs & He)|[H1 (d & Hd)]].
      + left. exists b. split; [exact Hs|]. apply Ha. exact He.
      + right. split; [apply Hr; exact H1|]. exists d. apply (same_contents f f3); assumption.
  Qed.
  Lemma sep_files (a b : list (str * mfile)) f : outputs_ready cwd base sym (map outp (a ++ b)) f ->
    forall x y, In x a -> In y b -> target cwd (outp x) <> target cwd (outp y) /\ ~ strictly_below (target cwd (outp x)) (target cwd (outp y)) /\ ~ strictly_below (target cwd (outp y)) (target cwd (outp x)).
  Proof.
    intros H x y Hx Hy. split; [|split; apply (or_apart _ _ _ _ _ H); apply in_map; apply in_or_app; auto].
    intros E. pose proof (or_places _ _ _ _ _ H) as Hnd. rewrite !map_app in Hnd. eapply nodup_app_disj; [exact Hnd | apply in_map; apply in_map; exact Hx|]. rewrite E. apply in_map. apply in_map. exact Hy.
  Qed.

  (** ** All the elements *)

  Definition all_files (els : list (str * manifest)) (sels : list (list mfile)) : list (str * mfile) := concat (map (fun p => map (pair (fst (fst p))) (snd p)) (combine els sels)).
  Lemma patch_steps : forall els sels, Forall2 (fun e l => selected (snd e) lower langs = Ok l) els sels -> forall f, good (all_files els sels) f ->
    (exists f', patch_download cwd base get zstd sha1 sym lower langs els f (Done tt) f') /\
    forall r f', patch_download cwd base get zstd sha1 sym lower langs els f r f' -> r = Done tt /\ ready_ f' /\ keeps (map outp (all_files els sels)) f f' /\
      forall x, In x (all_files els sels) -> out_ready cwd base (outp x) f' /\ exists d, at_end cwd base (fst x) (snd x) d f' /\ final cwd base zstd get (fst x) f sym (snd x) d.
  Proof.
    induction 1 as [|[s man] sel els sels Es HF IH]; intros f HG.
    - split; [exists f; constructor|]. intros r f' H. inversion H; subst. split; [reflexivity|]. split; [apply (g_ready _ _ HG)|]. split; [|intros x []]. intros x [Ho _]. split; [exact Ho|]. auto.
    - change (all_files ((s, man) :: els) (sel :: sels)) with (map (pair s) sel ++ all_files els sels) in *. set (rest := all_files els sels) in *. cbn [snd] in Es.
      destruct (element_step s man sel rest f Es HG) as [[f2 H2] Hall].
      assert (EM : map outp (map (pair s) sel) = map (extract_path s) sel) by (rewrite map_map; reflexivity).
      pose proof (g_out _ _ HG) as HO.
      assert (Hout : forall x, In x rest -> outside (map (extract_path s) sel) (outp x) f).
      { intros x Hx. split; [apply (or_ready _ _ _ _ _ HO); apply in_map; apply in_or_app; auto|]. intros o Ho. rewrite <- EM in Ho. apply in_map_iff in Ho as (y & <- & Hy).
        destruct (sep_files _ _ _ HO y x Hy Hx) as (A & B & C). split; [congruence | auto]. }
      split.
      + destruct (Hall _ _ H2) as (_ & f3 & E3 & R3 & HF3 & HS3 & HC3 & HK3 & _). destruct (IH f3) as [[f4 H4] _]; [eapply good_rest; eassumption|].
        exists f4. eapply pd_next; eassumption.
      + intros r f' H. inversion H as [|? ? ? ? f2' f3 ? ? He Hx Hr|? ? ? ? e ? He|? ? ? ? f2' e ? He Hx]; subst.
        * destruct (Hall _ _ He) as (_ & f3' & E3 & R3 & HF3 & HS3 & HC3 & HK3 & Hd3). rewrite Hx in E3. injection E3 as <-.
          destruct (IH f3) as [_ IH']; [eapply good_rest; eassumption|]. destruct (IH' _ _ Hr) as (-> & R' & HK' & Hd'). split; [reflexivity|]. split; [exact R'|]. split.
          -- intros x [Ho Ha]. rewrite map_app, EM in Ha.
             destruct (HK3 x) as (A1 & A2 & A3 & A4 & A5); [split; [exact Ho|]; intros o Hi; apply Ha; apply in_or_app; auto|].
             destruct (HK' x) as (B1 & B2 & B3 & B4 & B5); [split; [exact A1|]; intros o Hi; apply Ha; apply in_or_app; auto|].
             split; [exact B1|]. split; [auto|]. split; [auto|]. split; [auto|]. intros Hk. destruct (A5 Hk) as [Hk3 C]. destruct (B5 Hk3) as [Hk4 C']. auto.
          -- intros x Hx'. apply in_app_or in Hx' as [Hx'|Hx'].
             ++ pose proof Hx' as Hx1. apply in_map_iff in Hx1 as (m & <- & Hm). destruct (Hd3 m Hm) as (Ho3 & d & Hd & Hfd).
                destruct (HK' (s, m)) as (B1 & _ & B3 & _); [split; [exact Ho3|]|].
                { intros o Ho. apply in_map_iff in Ho as (y & <- & Hy). exact (sep_files _ _ _ HO _ _ Hx' Hy). }
                split; [exact B1|]. exists d. split; [apply B3; exact Hd | exact Hfd].
             ++ destruct (Hd' x Hx') as (Ho' & d & Hd & Hfd). split; [exact Ho'|]. exists d. split; [exact Hd|]. destruct (HK3 x (Hout x Hx')) as (A1 & _ & _ & _ & A5).
                destruct (A5 (g_link _ _ HG x ltac:(apply in_or_app; auto))) as [Hk3 Hback].
                destruct Hfd as [Hc|[Hrd Hs]]; [left; apply (same_contents f f3); assumption | right]. split; [|exact Hs].
                apply (at_end_reads cwd base); [apply (g_ready _ _ HG) | apply (or_ready _ _ _ _ _ HO); apply (in_map outp); apply in_or_app; auto|]. apply Hback. apply reads_at_end; assumption.
        * destruct (Hall _ _ He) as (E & _). discriminate E.
        * destruct (Hall _ _ He) as (_ & f3' & E3 & _). rewrite Hx in E3. discriminate E3.
  Qed.

  Lemma files_all parts : all_files (map fst parts) (map snd parts) = files_of parts.
  Proof. induction parts as [|[[s man] l] parts IH]; [reflexivity|]. unfold all_files in *. cbn [map combine concat files_of flat_map fst snd]. rewrite IH. reflexivity. Qed.

  Variable f0 : fs.
  Variable parts : list (str * manifest * list mfile).
  Notation fl := (files_of parts).
  Hypothesis Hsels : forall s man l, In (s, man, l) parts -> selected man lower langs = Ok l.
  Hypothesis Hnames : forall s m, In (s, m) fl -> f_name m <> None.
  Hypothesis Hready : ready_ f0.
  Hypothesis Hout : outputs_ready cwd base sym (map outp fl) f0.
  Hypothesis Hfree : bundle_dir_free cwd base f0.
  Hypothesis Hdangle : forall s m x, In (s, m) fl -> look f0 (target cwd (extract_path s m)) = Some (NLink x) -> exists b, reads cwd (extract_path s m) b f0.
  Hypothesis HD : sym = true -> forall s m h d, In (s, m) fl -> digest sha1 m h -> content cwd base zstd get f0 m d -> D h = d.
  Hypothesis Hstore : sym = true -> store_ok cwd base D f0.
  Hypothesis Hneed : forall s m, In (s, m) fl -> extracted cwd s m f0 \/ (rooms cwd base sha1 sym s f0 m /\ exists d, content cwd base zstd get f0 m d).

  Lemma start_good : good fl f0.
  Proof.
    assert (Hom : forall x, In x fl -> out_ready cwd base (outp x) f0) by (intros x Hx; apply (or_ready _ _ _ _ _ Hout); apply in_map; exact Hx).
    assert (Hlk : forall x, In x fl -> forall l, look f0 (target cwd (outp x)) = Some (NLink l) -> exists h, valid_name h /\ l = relpath cwd (store_path base h) (dirname (outp x)))
      by (intros x Hx l Hl; apply (or_links _ _ _ _ _ Hout (outp x)); [apply in_map; exact Hx | exact Hl]).
    split; [exact Hready | exact Hfree | exact Hstore | exact Hout | intros [s m] Hx; eapply Hnames; exact Hx | | intros Hs [s m] h d Hx; apply (HD Hs s m h d Hx) |].
    - intros [s m] Hx l Hl. destruct (Hdangle s m l Hx Hl) as [b Hb]. apply made_link with (base := base) in Hb; [|exact Hready | apply (Hom _ Hx) | apply (Hlk _ Hx)].
      cbn [fst snd] in *. destruct Hb as [Hb|(h & Hv & HL)]; [congruence | eauto].
    - intros [s m] Hx. destruct (Hneed s m Hx) as [H|H]; [left | right; exact H]. apply extracted_ext; [exact Hready | apply (Hom _ Hx) | apply (Hlk _ Hx) | exact H].
  Qed.
  Lemma parts_selected : Forall2 (fun e l => selected (snd e) lower langs = Ok l) (map fst parts) (map snd parts).
  Proof.
    clear - Hsels. induction parts as [|[[s man] l] ps IH]; cbn [map]; [constructor|]. constructor; [apply (Hsels s man l); left; reflexivity|].
    apply IH. intros s' man' l' H. apply (Hsels s' man' l'). right. exact H.
  Qed.
  Theorem patch_whole : (exists f', patch_download cwd base get zstd sha1 sym lower langs (map fst parts) f0 (Done tt) f') /\
    forall r f', patch_download cwd base get zstd sha1 sym lower langs (map fst parts) f0 r f' ->
      r = Done tt /\
      (forall s m, In (s, m) fl -> exists d, reads cwd (extract_path s m) d f' /\ final cwd base zstd get s f0 sym m d) /\
      (forall s m d, outside (map outp fl) (extract_path s m) f0 ->
        (forall x, look f0 (target cwd (extract_path s m)) = Some (NLink x) -> exists h, valid_name h /\ x = relpath cwd (store_path base h) (dirname (extract_path s m))) ->
        reads cwd (extract_path s m) d f0 -> reads cwd (extract_path s m) d f').
  Proof.
    pose proof (patch_steps (map fst parts) (map snd parts) parts_selected f0) as H. rewrite files_all in H. destruct (H start_good) as [He Hall]. split; [exact He|].
    intros r f' Hr. destruct (Hall r f' Hr) as (-> & R' & HK & Hd). split; [reflexivity|]. split.
    - intros s m Hm. destruct (Hd (s, m) Hm) as (Ho & d & Ha & Hf). exists d. split; [eapply at_end_reads; eassumption | exact Hf].
    - intros s m d HO Hl Hrd. destruct (HK (s, m) HO) as (Ho & _ & Ha & _). apply (at_end_reads cwd base); [exact R' | exact Ho|]. apply Ha. apply made_link; [exact Hready | apply HO | exact Hl | exact Hrd].
  Qed.

  (** ** Several attempts *)

  Lemma same_trans a b c : same_content a b -> same_content b c -> same_content a c.
  Proof. intros H1 H2 id x. rewrite (H2 id x). apply H1. Qed.
  Lemma good_grown l f f' : good l f -> grown cwd base get f f' -> good l f'.
  Proof.
    intros HG G. pose proof (g_out _ _ HG) as H.
    assert (Hom : forall x, In x l -> out_ready cwd base (outp x) f) by (intros x Hx; apply (or_ready _ _ _ _ _ H); apply in_map; exact Hx).
    assert (Hlk : forall x k, In x l -> look f' (target cwd (outp x)) = Some (NLink k) -> look f (target cwd (outp x)) = Some (NLink k)).
    { intros x k Hx Hk. apply (same_node cwd base get f f' G) in Hk; [exact Hk | intros id; eapply out_not_bundle; apply (Hom x Hx) | discriminate]. }
    split.
    - apply G.
    - apply (free_now cwd base get [] lower f f' G). apply (g_free _ _ HG).
    - intros Hs h b Hb. apply (g_store _ _ HG Hs). apply (same_node cwd base get f f' G (h :: S_)); [intros id; apply store_not_bundle | discriminate | exact Hb].
    - split; [apply H | apply H | |].
      + intros o Ho. apply in_map_iff in Ho as (x & <- & Hx). apply (out_now cwd base get (fst x) f f' G (snd x)). apply (Hom x Hx).
      + intros o k Ho Hk. apply (or_links _ _ _ _ _ H o k Ho). apply in_map_iff in Ho as (x & <- & Hx). apply Hlk; assumption.
    - apply (g_names _ _ HG).
    - intros x Hx k Hk. destruct (g_link _ _ HG x Hx k (Hlk x k Hx Hk)) as (h & b & Hv & HL). exists h, b. split; [exact Hv|]. apply (linked_now cwd base get (fst x) f f' G (snd x)); [apply (Hom x Hx) | exact HL].
    - intros Hs x h d Hx Hh Hd. apply (g_named _ _ HG Hs x h d Hx Hh). apply (same_contents f f' _ _ (grown_content f f' G)). exact Hd.
    - intros x Hx. destruct (g_need _ _ HG x Hx) as [He|[Hr (d & Hd)]].
      + left. apply (ext_now cwd base get (fst x) f f' G (snd x) (Hom x Hx)). exact He.
      + right. split; [apply (rooms_now cwd base get (fst x) f f' G (snd x) (Hom x Hx)); exact Hr|]. exists d. apply (same_contents f f' _ _ (grown_content f f' G)). exact Hd.
  Qed.

  Definition steady (f : fs) : Prop := good fl f /\ same_content f0 f /\
    forall x b, In x fl -> at_end cwd base (fst x) (snd x) b f -> content cwd base zstd get f0 (snd x) b \/ reads cwd (outp x) b f0.
  Lemma steady_start : steady f0.
  Proof.
    pose proof start_good as HG. split; [exact HG|]. split; [intros id b; reflexivity|]. intros x b Hx Hb. right.
    eapply at_end_reads; [exact Hready | apply (or_ready _ _ _ _ _ Hout); apply (in_map outp); exact Hx | exact Hb].
  Qed.
  Lemma steady_grown f f' : steady f -> grown cwd base get f f' -> steady f'.
  Proof.
    intros (HG & HS & HK) G. split; [eapply good_grown; eassumption|]. split; [eapply same_trans; [exact HS | apply grown_content; exact G]|].
    intros x b Hx Hb. apply (HK x b Hx). apply (at_end_now cwd base get (fst x) f f' G (snd x)); [apply (or_ready _ _ _ _ _ (g_out _ _ HG)); apply (in_map outp); exact Hx | exact Hb].
  Qed.
  Lemma part_in s man l : In (s, man, l) parts -> forall m, In m l -> In (s, m) fl.
  Proof. intros Hi m Hm. apply in_flat_map. exists (s, man, l). split; [exact Hi|]. cbn [fst snd]. apply in_map. exact Hm. Qed.
  Lemma part_nodup s man l : In (s, man, l) parts -> NoDup (map (target cwd) (map (extract_path s) l)).
  Proof.
    intros Hi. pose proof (or_places _ _ _ _ _ Hout) as Hnd. clear - Hi Hnd. induction parts as [|p ps IH]; [destruct Hi|]. unfold files_of in *. cbn [flat_map] in Hnd. rewrite !map_app in Hnd.
    destruct Hi as [->|Hi]; [apply nodup_app_l in Hnd; cbn [fst snd] in Hnd; rewrite (map_map (pair s) outp) in Hnd; exact Hnd | apply IH; [exact Hi | eapply nodup_app_r; exact Hnd]].
  Qed.
  Lemma same_place x y : In x fl -> In y fl -> target cwd (outp x) = target cwd (outp y) -> x = y.
  Proof.
    pose proof (or_places _ _ _ _ _ Hout) as Hnd. rewrite map_map in Hnd. clear - Hnd. revert Hnd. generalize fl. induction l as [|z l IH]; cbn [map In]; intros Hnd; [intros []|].
    inversion_clear Hnd as [|? ? Hn Hd]. intros [->|Hx] [->|Hy] E; [reflexivity | exfalso | exfalso | auto].
    - apply Hn. rewrite E. apply (in_map (fun x => target cwd (outp x))). exact Hy.
    - apply Hn. rewrite <- E. apply (in_map (fun x => target cwd (outp x))). exact Hx.
  Qed.
  Lemma in_or_outside s man l f x : In (s, man, l) parts -> good fl f -> In x fl -> (exists m, In m l /\ x = (s, m)) \/ outside (map (extract_path s) l) (outp x) f.
  Proof.
    intros Hi HG Hx. destruct (in_dec (list_eq_dec (list_eq_dec N.eq_dec)) (target cwd (outp x)) (map (target cwd) (map (extract_path s) l))) as [H|H].
    - left. apply in_map_iff in H as (o & E & H). apply in_map_iff in H as (m & <- & Hm). exists m. split; [exact Hm|]. apply same_place; [exact Hx | eapply part_in; eassumption | symmetry; exact E].
    - right. pose proof (g_out _ _ HG) as HO. split; [apply (or_ready _ _ _ _ _ HO); apply in_map; exact Hx|]. intros o Ho. split; [intros E; apply H; rewrite E; apply in_map; exact Ho|].
      assert (Ho' : In o (map outp fl)) by (apply in_map_iff in Ho as (m & <- & Hm); apply in_map_iff; exists (s, m); split; [reflexivity | eapply part_in; eassumption]).
      split; apply (or_apart _ _ _ _ _ HO); first [exact Ho' | apply in_map; exact Hx].
  Qed.
  Lemma steady_extract s man l f f2 : In (s, man, l) parts -> steady f -> grown cwd base get f f2 -> (forall m, In m l -> ext cwd base s m f2 \/ has_bundles cwd base m f2) ->
    exists f3, run (extract cwd base zstd sha1 sym s man lower langs false) [] f2 = (Done tt, [], f3) /\ steady f3.
  Proof.
    intros Hi (HG & HS & HK) G Hx.
    destruct (extract_step s man l fl f f2 (Hsels s man l Hi) HG (part_in s man l Hi) (part_nodup s man l Hi) G Hx) as (f3 & E3 & R3 & HF3 & HS3 & HC3 & HK3 & Hd3 & Hm3).
    exists f3. split; [exact E3|]. pose proof (g_out _ _ HG) as HO. split; [|split; [eapply same_trans; eassumption|]].
    - split.
      + exact R3.
      + exact HF3.
      + exact HS3.
      + split; [apply HO | apply HO | |].
        * intros o Ho. apply in_map_iff in Ho as (x & <- & Hx'). destruct (in_or_outside s man l f x Hi HG Hx') as [(m & Hm & ->)|Hout']; [apply (Hd3 m Hm) | apply (HK3 x Hout')].
        * intros o k Ho Hk. pose proof Ho as Ho1. apply in_map_iff in Ho1 as (x & <- & Hx'). destruct (in_or_outside s man l f x Hi HG Hx') as [(m & Hm & ->)|Hout'].
          -- unfold outp in *. cbn [fst snd] in *. split; [destruct sym eqn:Hsym; [reflexivity | exfalso; exact (proj2 (proj2 (Hm3 m Hm)) eq_refl k Hk)]|].
             destruct (Hd3 m Hm) as (_ & d & [Hd|(h & Hv & Hd & _)] & _); [congruence|]. exists h. split; [exact Hv | congruence].
          -- apply (or_links _ _ _ _ _ HO _ k Ho). apply (HK3 x Hout'). exact Hk.
      + apply (g_names _ _ HG).
      + intros x Hx'. destruct (in_or_outside s man l f x Hi HG Hx') as [(m & Hm & ->)|Hout'].
        * intros k Hk. cbn [fst snd] in *. destruct (Hd3 m Hm) as (_ & d & [Hd|(h & Hv & Hd)] & _); [congruence | eauto].
        * apply (HK3 x Hout'). apply (g_link _ _ HG x Hx').
      + intros Hs x h d Hx' Hh Hd. apply (g_named _ _ HG Hs x h d Hx' Hh). apply (same_contents f f3); assumption.
      + intros x Hx'. destruct (g_need _ _ HG x Hx') as [He|[Hr (d & Hd)]].
        * left. destruct (in_or_outside s man l f x Hi HG Hx') as [(m & Hm & ->)|Hout']; [apply (Hm3 m Hm); exact He|]. destruct He as (b & Hs & He). exists b. split; [exact Hs|]. apply (HK3 x Hout'). exact He.
        * right. split; [|exists d; apply (same_contents f f3); assumption]. destruct (in_or_outside s man l f x Hi HG Hx') as [(m & Hm & ->)|Hout']; [apply (Hm3 m Hm); exact Hr | apply (HK3 x Hout'); exact Hr].
    - intros x b Hx' Hb. destruct (in_or_outside s man l f x Hi HG Hx') as [(m & Hm & ->)|Hout'].
      + destruct (Hd3 m Hm) as (Ho3 & d & Hd & Hfd). unfold outp in *. cbn [fst snd] in *.
        assert (b = d) as -> by (apply (reads_det cwd (extract_path s m) b d f3); eapply at_end_reads; eassumption).
        destruct Hfd as [Hc|[Hrd _]]; [left; apply (same_contents f0 f _ _ HS); exact Hc|]. apply (HK (s, m) d Hx'). apply reads_at_end; [apply (g_ready _ _ HG) | apply (or_ready _ _ _ _ _ HO); apply (in_map outp fl (s, m)); exact Hx' | apply (g_link _ _ HG (s, m) Hx') | exact Hrd].
      + apply (HK x b Hx'). destruct (HK3 x Hout') as (_ & _ & _ & _ & H5). apply (H5 (g_link _ _ HG x Hx')). exact Hb.
  Qed.
  Lemma attempt_steady get' els f r f' : (forall p b, get' p = Ok b -> get p = Ok b) -> patch_download cwd base get' zstd sha1 sym lower langs els f r f' ->
    (forall s man, In (s, man) els -> exists l, In (s, man, l) parts) -> steady f -> steady f'.
  Proof.
    intros Hg H.
    assert (HB : forall s man f r f', element_download cwd base get' s lower langs true man f r f' -> steady f -> grown cwd base get f f').
    { intros s man g r' g' He (HG & _). apply (grown_mono _ _ _ get' _ _ Hg). eapply element_grown; [apply (g_ready _ _ HG) | apply (g_free _ _ HG) | exact He]. }
    assert (HX : forall s man l f f', In (s, man, l) parts -> element_download cwd base get' s lower langs true man f (Done tt) f' -> steady f -> forall m, In m l -> ext cwd base s m f' \/ has_bundles cwd base m f').
    { intros s man l g g' Hi He (HG & _). inversion He as [|ids g1 ps g2 r' Ei Hil Hend Hr]; subst. inversion Hr as [Hps|]; subst. assert (g1 = g) as -> by (apply bundle_ids_same in Ei; exact Ei).
      apply (download_cinv cwd base get' s sym l man lower langs [] g ids [] g false ps g' (Hsels s man l Hi) (g_ready _ _ HG) (sub_outputs s l fl g HG (part_in s man l Hi) (part_nodup s man l Hi)) Ei Hil Hps). }
    induction H as [f|s m l f f1 f2 r f3 He Hx H IH|s m l f e f1 He|s m l f f1 e f2 He Hx]; intros Hp HS.
    - exact HS.
    - destruct (Hp s m (or_introl eq_refl)) as [sel Hi]. destruct (steady_extract s m sel f f1 Hi HS (HB _ _ _ _ _ He HS) (HX _ _ _ _ _ Hi He HS)) as (f2' & E2 & HS2). rewrite Hx in E2. injection E2 as <-.
      apply IH; [intros s' man' Hi'; apply Hp; right; exact Hi' | exact HS2].
    - eapply steady_grown; [exact HS | eapply HB; eassumption].
    - exfalso. destruct (Hp s m (or_introl eq_refl)) as [sel Hi]. destruct (steady_extract s m sel f f1 Hi HS (HB _ _ _ _ _ He HS) (HX _ _ _ _ _ Hi He HS)) as (f2' & E2 & _). rewrite Hx in E2. discriminate E2.
  Qed.
  Lemma attempts_steady f f' : attempts cwd base get zstd sha1 sym lower langs (map fst parts) f f' -> steady f -> steady f'.
  Proof.
    induction 1 as [f|get' f r f1 f2 Hg H _ IH]; intros HS; [exact HS|]. apply IH. eapply attempt_steady; [exact Hg | exact H | | exact HS].
    intros s man Hi. apply in_map_iff in Hi as ([[s' man'] l] & E & Hi). cbn [fst] in E. injection E as -> ->. eauto.
  Qed.
  Theorem patch_again f1 : attempts cwd base get zstd sha1 sym lower langs (map fst parts) f0 f1 ->
    (exists f', patch_download cwd base get zstd sha1 sym lower langs (map fst parts) f1 (Done tt) f') /\
    forall r f', patch_download cwd base get zstd sha1 sym lower langs (map fst parts) f1 r f' ->
      r = Done tt /\
      (forall s m, In (s, m) fl -> exists d, reads cwd (extract_path s m) d f' /\ (content cwd base zstd get f0 m d \/ reads cwd (extract_path s m) d f0)).
  Proof.
    intros HA. pose proof (attempts_steady _ _ HA steady_start) as (HG & HS & HK).
    pose proof (patch_steps (map fst parts) (map snd parts) parts_selected f1) as H. rewrite files_all in H. destruct (H HG) as [He Hall]. split; [exact He|].
    intros r f' Hr. destruct (Hall r f' Hr) as (-> & R' & _ & Hd). split; [reflexivity|].
    intros s m Hm. destruct (Hd (s, m) Hm) as (Ho & d & Ha & Hf). exists d. split; [eapply at_end_reads; eassumption|].
    destruct Hf as [Hc|[Hrd _]]; [left; apply (same_contents f0 f1 _ _ HS); exact Hc|]. apply (HK (s, m) d Hm). apply reads_at_end; [apply (g_ready _ _ HG) | apply (or_ready _ _ _ _ _ (g_out _ _ HG)); apply (in_map outp fl (s, m)); exact Hm | apply (g_link _ _ HG (s, m) Hm) | exact Hrd].
  Qed.
End Patch.

(** ** Whatever happens *)

Section Frame.
  Variable cwd : path.
  Variable base : str.
  Notation ready_ := (storage_ready cwd base).
  Notation S_ := (store_dir cwd base).
  Notation bf := (bundle_file cwd base).
  Notation cdn id := (lit "channels/public/bundles/" ++ hexu 16 id ++ lit ".bundle").
  Variable get : str -> result bytes.
  Variable lower : str -> str.
  Variable langs : langs_arg.
  Variable zstd : bytes -> result bytes.
  Variable sha1 : str -> str.
  Hypothesis sha1_ok : forall s, valid_name (sha1 s).
  Variable sym : bool.
  Variable fl : list (str * mfile).
  Hypothesis Hapart : forall o o', In o (map outp fl) -> In o' (map outp fl) -> ~ strictly_below (target cwd o) (target cwd o').
  Notation touch := (patch_touches cwd base get sha1 sym fl).

  Definition finv (f : fs) : Prop := ready_ f /\ (forall x, In x fl -> out_ready cwd base (outp x) f) /\
    (sym = false -> forall x l, In x fl -> look f (target cwd (outp x)) <> Some (NLink l)).
  Lemma touch_mono f0 f q : finv f0 -> only_files (touch f0) f0 f -> touch f q -> touch f0 q.
  Proof.
    intros (_ & Ho & _) HO [H|[H|(id & b & Hb & Hn & ->)]]; [left; exact H | right; left; exact H|]. right. right. exists id, b. split; [exact Hb|]. split; [|reflexivity].
    intros [y Hy]. apply Hn. exists y. destruct (HO (bf id)) as [E|[[(x & Hx & E)|[(_ & x & h & _ & _ & E)|(id' & _ & _ & Hn' & E)]]|(E & _)]]; [congruence | exfalso | exfalso | exfalso | congruence].
    - eapply out_not_bundle; [apply (Ho x Hx) | symmetry; exact E].
    - eapply store_not_bundle. symmetry. exact E.
    - apply Hn'. exists y. rewrite <- E. exact Hy.
  Qed.
  Lemma touch_trans f0 f1 f2 : finv f0 -> only_files (touch f0) f0 f1 -> only_files (touch f1) f1 f2 -> only_files (touch f0) f0 f2.
  Proof.
    intros H H1 H2. eapply only_files_trans; [exact H1|]. intros q. destruct (H2 q) as [E|[E|(E1 & E2 & t & Ht & B)]]; [auto | right; left; eapply touch_mono; eassumption|].
    right. right. split; [exact E1|]. split; [exact E2|]. exists t. split; [eapply touch_mono; eassumption | exact B].
  Qed.
  Lemma file_frame x f r f' : In x fl -> finv f -> run (extract_file cwd base zstd sha1 sym (fst x) false (snd x)) [] f = (r, [], f') -> finv f' /\ only_files (touch f) f f'.
  Proof.
    intros Hx HI E. pose proof HI as (R & Ho & Hnl). pose proof (Ho x Hx) as Hox. unfold extract_file in E. destruct (is_extracted_total cwd (fst x) (snd x) f) as [b Eb]. rewrite (run_bind0 _ _ _ _ _ Eb) in E.
    destruct b; [injection E as _ <-; split; [exact HI | intros q; auto]|].
    assert (E0 : run (extract_to cwd base zstd sha1 sym (snd x) (outp x)) [] f = (r, [], f')) by exact E. clear E. destruct sym eqn:Hsym.
    - apply extract_frame in E0 as (HO & R' & Hout); [|exact sha1_ok | exact R | exact Hox]. split.
      + split; [exact R'|]. split; [|intros Hf; congruence]. intros y Hy. apply Hout; [apply Ho; exact Hy | apply Hapart; apply in_map; assumption].
      + assert (HT : forall q, touched cwd base sha1 (snd x) (outp x) q -> patch_touches cwd base get sha1 true fl f q) by (intros q [->|(h & Hh & ->)]; [left; exists x; auto | right; left; split; [reflexivity|]; exists x, h; auto]).
        intros q. destruct (HO q) as [E|[E|(E1 & E2 & t & Ht & B)]]; [auto | right; left; apply HT; exact E | right; right]. split; [exact E1|]. split; [exact E2|]. exists t. split; [apply HT; exact Ht | exact B].
    - destruct (direct_ready cwd base (outp x) f R Hox) as [Hp Hi]; [intros l; apply Hnl; auto|]. cbn [extract_to] in E0.
      apply real_frame in E0 as [HO Hi']; [|exact Hp | exact Hi].
      assert (Hml : forall l, look f' (target cwd (outp x)) <> Some (NLink l)) by (intros l; apply Hi'; apply below_refl). split.
      + split; [eapply winv_storage; eassumption|]. split.
        * intros y Hy. eapply out_only; [exact HO | left; exact Hml | apply Ho; exact Hy].
        * intros _ y l Hy Hl. destruct (HO (target cwd (outp y))) as [E|[E|(_ & E & _)]]; [rewrite E in Hl; exact (Hnl eq_refl y l Hy Hl) | rewrite E in Hl; exact (Hml l Hl) | congruence].
      + eapply only_file_files; [|exact HO]. left. exists x. auto.
  Qed.
  Lemma files_frame s : forall l f r f', (forall m, In m l -> In (s, m) fl) -> finv f -> run (for_each l (extract_file cwd base zstd sha1 sym s false)) [] f = (r, [], f') -> finv f' /\ only_files (touch f) f f'.
  Proof.
    induction l as [|m l IH]; intros f r f' Hl HI E; cbn [for_each] in E; [injection E as _ <-; split; [exact HI | intros q; auto]|].
    rewrite run_bind in E. destruct (run_nil_plan (extract_file cwd base zstd sha1 sym s false m) f) as (r1 & f1 & E1). rewrite E1 in E.
    apply (file_frame (s, m)) in E1 as [HI1 HO1]; [|apply Hl; left; reflexivity | exact HI].
    destruct r1 as [[]|e|]; [|injection E as _ <-; auto | injection E as _ <-; auto]. apply IH in E as [HI2 HO2]; [|intros y Hy; apply Hl; right; exact Hy | exact HI1].
    split; [exact HI2|]. eapply touch_trans; eassumption.
  Qed.
  Lemma bundles_frame s man f r f' : finv f -> element_download cwd base get s lower langs true man f r f' -> finv f' /\ only_files (touch f) f f'.
  Proof.
    intros (R & Ho & Hnl) H. apply element_frame in H as [R' HO]; [|exact R].
    assert (Hlk : forall q x, look f' q = Some (NLink x) -> look f q = Some (NLink x)).
    { intros q x Hx. destruct (HO q) as [E|[(id & b & _ & _ & ->)|(_ & E & _)]]; [congruence | exfalso | congruence]. exact (sr_bundle _ _ _ R' _ (bf id) x (below_refl _) Hx). }
    split; [split; [exact R'|]; split|].
    - intros x Hx. destruct (Ho x Hx) as (H1 & H2 & H3). split; [exact H1|]. split; [|exact H3]. intros q l Bq El. apply (H2 q l Bq). apply Hlk. exact El.
    - intros Hs x l Hx Hl. apply (Hnl Hs x l Hx). apply Hlk. exact Hl.
    - intros q. destruct (HO q) as [E|[E|(E1 & E2 & t & Ht & B)]]; [auto | right; left; right; right; exact E | right; right]. split; [exact E1|]. split; [exact E2|]. exists t. split; [right; right; exact Ht | exact B].
  Qed.
  Lemma element_extract_frame s man f r f' : (forall l, selected man lower langs = Ok l -> forall m, In m l -> In (s, m) fl) -> finv f ->
    run (extract cwd base zstd sha1 sym s man lower langs false) [] f = (r, [], f') -> finv f' /\ only_files (touch f) f f'.
  Proof.
    intros Hl HI E. unfold extract in E. destruct (selected man lower langs) as [l|e] eqn:Es; cbn [lift] in E; [|injection E as _ <-; split; [exact HI | intros q; auto]].
    rewrite (run_bind0 (Ret l) _ f l f) in E by reflexivity. destruct (sort_files l) as [l'|e] eqn:El; cbn [lift] in E; [|injection E as _ <-; split; [exact HI | intros q; auto]].
    rewrite (run_bind0 (Ret l') _ f l' f) in E by reflexivity. eapply files_frame; [|exact HI | exact E]. intros m Hm. apply (Hl l eq_refl). eapply sort_files_In; eassumption.
  Qed.
  Theorem patch_frame els f r f' : (forall s man l m, In (s, man) els -> selected man lower langs = Ok l -> In m l -> In (s, m) fl) -> finv f ->
    patch_download cwd base get zstd sha1 sym lower langs els f r f' -> ready_ f' /\ only_files (touch f) f f'.
  Proof.
    intros Hl HI H. revert Hl HI. induction H as [f|s m l f f1 f2 r f3 He Hx H IH|s m l f e f1 He|s m l f f1 e f2 He Hx]; intros Hl HI.
    - split; [apply HI | intros q; auto].
    - apply bundles_frame in He as [HI1 HO1]; [|exact HI]. apply element_extract_frame in Hx as [HI2 HO2]; [|intros l0 E m0; apply (Hl s m l0); [left; reflexivity | exact E] | exact HI1].
      destruct IH as [R3 HO3]; [intros s' man' l' m' Hi; apply (Hl s' man' l' m'); right; exact Hi | exact HI2|]. split; [exact R3|].
      eapply touch_trans; [exact HI | eapply touch_trans; eassumption | exact HO3].
    - apply bundles_frame in He as [[R1 _] HO1]; [auto | exact HI].
    - apply bundles_frame in He as [HI1 HO1]; [|exact HI]. apply element_extract_frame in Hx as [[R2 _] HO2]; [|intros l0 E m0; apply (Hl s m l0); [left; reflexivity | exact E] | exact HI1].
      split; [exact R2|]. eapply touch_trans; eassumption.
  Qed.
End Frame.
