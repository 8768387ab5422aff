(** * Proofs about the bundles needed by extractions *)

From Verif Require Import Base.Py Base.Text Base.PyFacts Base.TextFacts Base.PathFacts Base.Fs Spec.FsSpec Base.FsFacts Base.FsLinks Base.FsThreads Spec.FilesSpec Model.Files Proofs.FilesProofs Model.Rman Model.Patcher Spec.PatcherSpec Proofs.PatcherLinkProofs Proofs.PatcherExtractProofs Proofs.PatcherBundleProofs.

(** ** Files already extracted *)

Lemma reads_iff cwd o data f : reads cwd o data f <-> exists p, locate cwd f true o = Ok p /\ look f p = Some (NFile data).
Proof.
  unfold reads, read_file. cbn. destruct (locate cwd f true o) as [p|e] eqn:E; cbn [rbind].
  - destruct (look f p) as [[b| |x]|] eqn:El; cbn; (split; [intros H | intros (q & Hq & H); injection Hq as <-; rewrite El in H]); try discriminate.
    + pose proof (f_equal (fun r => match r with (Done y, _, _) => y | _ => b end) H) as H1. cbn in H1. subst b. eauto.
    + injection H as <-. reflexivity.
  - split; [discriminate | intros (q & H & _); discriminate].
Qed.
Lemma run_query_cases {A} (q : fs -> A) pl f r pl' f' : run (query q) pl f = (r, pl', f') -> f' = f /\ (r = Done (q f) \/ r = Crashed).
Proof. intros E. apply run_query_fs in E. exact E. Qed.

Section Complete.
  Variable cwd : path.
  Variable base : str.
  Variable zstd : bytes -> result bytes.
  Variable sha1 : str -> str.
  Hypothesis sha1_ok : forall s, valid_name (sha1 s).
  Variable get : str -> result bytes.
  Variable sdir : str.
  Notation ready_ := (storage_ready cwd base).
  Notation outp := (extract_path sdir).
  Notation tgt m := (target cwd (extract_path sdir m)).
  Notation S_ := (store_dir cwd base).

  Lemma is_extracted_run m pl f r pl' f' : run (is_extracted cwd sdir m) pl f = (r, pl', f') ->
    f' = f /\ forall b, r = Done b -> (b = true <-> extracted cwd sdir m f).
  Proof.
    unfold is_extracted. rewrite run_bind. destruct (run (isfile cwd (outp m)) pl f) as [[o1 pl1] f1] eqn:E1. unfold isfile in E1.
    apply run_query_cases in E1 as [-> [->| ->]]; [|intros E; injection E as <- <- <-; split; [reflexivity | discriminate]].
    destruct (f_isfile cwd (outp m) f) eqn:Ef.
    - rewrite run_bind. destruct (run (getsize cwd (outp m)) pl1 f) as [[o2 pl2] f2] eqn:E2.
      assert (Hfs : f2 = f /\ forall n, o2 = Done n -> exists b, (exists p, locate cwd f true (outp m) = Ok p /\ look f p = Some (NFile b)) /\ n = lenN b).
      { unfold f_isfile, node_of in Ef. destruct (locate cwd f true (outp m)) as [p|e] eqn:El; [|discriminate]. destruct (look f p) as [[b| |x]|] eqn:Elk; try discriminate.
        unfold getsize, sys, sys_part in E2. cbn [run] in E2. rewrite El in E2. cbn [rbind] in E2. rewrite Elk in E2.
        assert (E3 : f2 = f /\ forall n, o2 = Done n -> n = lenN b).
        { destruct pl1 as [|[[]|] pl1]; cbn in E2; injection E2 as <- _ <-; (split; [reflexivity|]); intros n' En; try discriminate; injection En as <-; reflexivity. }
        split; [apply E3|]. intros n Hn. exists b. split; [eauto | apply E3; exact Hn]. }
      destruct Hfs as [-> Hn]. destruct o2 as [n|e|]; intros E; injection E as <- <- <-; (split; [reflexivity|]); [|discriminate..].
      destruct (Hn n eq_refl) as (b & Hb & ->). intros b' Eb. injection Eb as <-. split.
      + intros H. exists b. split; [apply reads_iff; assumption|]. destruct (Rman.f_size m) as [k|]; [|discriminate]. apply N.eqb_eq in H. congruence.
      + intros (d & Hd & Hs). apply reads_iff in Hd as (p & Hp & Hd). destruct Hb as (p' & Hp' & Hb). rewrite Hs. apply N.eqb_eq. congruence.
    - intros E. injection E as <- <- <-. split; [reflexivity|]. intros b Eb. injection Eb as <-. split; [discriminate|].
      intros (d & Hd & _). apply reads_iff in Hd as (p & Hp & Hd). unfold f_isfile, node_of in Ef. rewrite Hp, Hd in Ef. discriminate.
  Qed.

  Lemma not_extracted_run : forall l pl f r pl' f', run (not_extracted cwd sdir l) pl f = (Done r, pl', f') ->
    f' = f /\ forall m, In m l -> extracted cwd sdir m f \/ In m r.
  Proof.
    induction l as [|m l IH]; intros pl f r pl' f' E; cbn [not_extracted] in E.
    - injection E as <- <- <-. split; [reflexivity | intros m []].
    - apply run_bind_done in E as (b & pl1 & f1 & E1 & E). apply is_extracted_run in E1 as [-> Hb]. specialize (Hb b eq_refl).
      apply run_bind_done in E as (r1 & pl2 & f2 & E2 & E). apply IH in E2 as [-> HI].
      pose proof (f_equal snd E) as Ef. pose proof (f_equal (fun x => match x with (Done y, _, _) => y | _ => r end) E) as Er. cbn in Ef, Er. subst f' r.
      split; [reflexivity|]. intros x [<-|Hx].
      + destruct b; [left; apply Hb; reflexivity | right; left; reflexivity].
      + destruct (HI x Hx) as [H|H]; [auto|]. right. destruct b; [exact H | right; exact H].
  Qed.
  Lemma bundle_ids_run manif lower langs pl f ids pl' f' sel : selected manif lower langs = Ok sel ->
    run (bundle_ids cwd sdir manif lower langs true) pl f = (Done ids, pl', f') ->
    f' = f /\ forall m, In m sel -> extracted cwd sdir m f \/ forall c, In c (f_chunks m) -> In (c_bundle c) ids.
  Proof.
    intros Es E. unfold bundle_ids in E. rewrite Es in E. cbn [lift bind] in E. apply run_bind_done in E as (l2 & pl2 & f2 & E2 & E).
    apply not_extracted_run in E2 as [-> HI]. destruct (sort_ids (ids_of l2)) as [l3|e] eqn:El; cbn [lift run] in E; [|discriminate].
    pose proof (f_equal snd E) as Ef. pose proof (f_equal (fun x => match x with (Done y, _, _) => y | _ => ids end) E) as Er. cbn in Ef, Er. subst f' l3.
    split; [reflexivity|]. intros m Hm. destruct (HI m Hm) as [H|H]; [auto|]. right. intros c Hc.
    apply sort_ids_perm in El. eapply Permutation_in; [exact El|]. apply set_of_In. apply in_flat_map. exists m. split; [assumption|]. apply in_map. assumption.
  Qed.

  (** An extracted file: a regular file, or a link to a shared file. *)
  Definition ext (m : mfile) (f : fs) : Prop :=
    exists b, Rman.f_size m = Some (lenN b) /\ (look f (tgt m) = Some (NFile b) \/ exists h, valid_name h /\ linked cwd base (outp m) h b f).
  Lemma ext_extracted m f : ready_ f -> out_ready cwd base (outp m) f -> ext m f -> extracted cwd sdir m f.
  Proof.
    intros R Ho (b & Hs & [Hl|(h & Hv & Hl)]); exists b; (split; [|assumption]).
    - destruct (direct_ready cwd base (outp m) f R Ho) as [Hp Hi]; [congruence|].
      apply reads_iff. exists (tgt m). split; [|assumption]. apply locate_ok; [assumption | assumption | congruence].
    - eapply linked_reads; eassumption.
  Qed.
  Lemma extracted_ext m f : ready_ f -> out_ready cwd base (outp m) f ->
    (forall x, look f (tgt m) = Some (NLink x) -> exists h, valid_name h /\ x = relpath cwd (store_path base h) (dirname (outp m))) ->
    extracted cwd sdir m f -> ext m f.
  Proof.
    intros R Ho Hlk (b & Hr & Hs). exists b. split; [assumption|]. apply reads_iff in Hr as (p & Hp & Hl).
    destruct (look f (tgt m)) as [[c| |x]|] eqn:E.
    - left. destruct (direct_ready cwd base (outp m) f R Ho) as [Hpl Hi]; [congruence|]. rewrite locate_ok in Hp; [congruence | assumption | assumption | congruence].
    - exfalso. destruct (direct_ready cwd base (outp m) f R Ho) as [Hpl Hi]; [congruence|]. rewrite locate_ok in Hp; [congruence | assumption | assumption | congruence].
    - right. destruct (Hlk x eq_refl) as (h & Hv & ->). exists h. split; [assumption|]. split; [assumption|].
      destruct (store_facts cwd base f h R Hv) as [[Hdd _] Ht]. pose proof Ho as (Hpl & _ & [A1 A2] & _).
      destruct (follow_link_iff cwd (outp m) Hpl (store_path base h) f) as (cur & rest & _ & H); try assumption.
      + apply (sr_names _ _ _ R).
      + rewrite Ht. intros B. apply A1. rewrite ot_eq by assumption. eapply below_trans; [apply below_cons|]. eapply below_trans; [exact B | apply below_cons].
      + eapply out_dinv; eassumption.
      + rewrite Ht. apply (sr_store _ _ _ R).
      + apply H in Hp as [-> _]. rewrite Ht in Hl. exact Hl.
    - exfalso. destruct (direct_ready cwd base (outp m) f R Ho) as [Hpl Hi]; [congruence|].
      apply locate_t in Hp as [-> _]; [congruence | assumption | apply Hi].
  Qed.

  (** ** The invariant *)

  Variable sym : bool.
  Variable sel : list mfile.
  Definition cinv (f : fs) : Prop :=
    ready_ f /\ (forall m, In m sel -> out_ready cwd base (outp m) f) /\ (sym = false -> forall m x, In m sel -> look f (tgt m) <> Some (NLink x)) /\
    (forall m, In m sel -> ext m f \/ has_bundles cwd base m f).

  Lemma download_cinv manif lower langs pl f ids pl' f1 faults ps f' : selected manif lower langs = Ok sel ->
    ready_ f -> outputs_ready cwd base sym (map outp sel) f ->
    run (bundle_ids cwd sdir manif lower langs true) pl f = (Done ids, pl', f1) ->
    interleave faults (bundle_jobs cwd base get ids, f1) (ps, f') -> Forall (fun p => p = Ret tt) ps -> cinv f'.
  Proof.
    intros Es R Hout Ei Hil Hps. pose proof (ids_NoDup _ _ _ _ _ _ _ _ _ _ _ Ei) as Hnd. apply (bundle_ids_run _ _ _ _ _ _ _ _ _ Es) in Ei as [-> Hneed].
    destruct (untouched cwd base get f R ids Hnd faults ps f' Hil) as (R' & HO & HF).
    assert (Hids : forall s, In s ids -> exists id, s = Some id /\ is_file f' (bundle_file cwd base id)).
    { clear - HF Hps. induction HF as [|s p l l' H HF IH]; [intros s []|]. inversion_clear Hps as [|? ? Hp Hps']. intros s' [<-|Hin]; [|apply IH; assumption].
      destruct (H Hp) as (id & -> & [[Hf E]|(_ & d & _ & E)]); exists id; (split; [reflexivity|]); [destruct Hf as [b Hb]; exists b; congruence | exists d; exact E]. }
    assert (Hkeep : forall q n, (forall id, q <> bundle_file cwd base id) -> look f q = Some n -> look f' q = Some n).
    { intros q n Hq Hl. destruct (HO q) as [E|[(id & _ & _ & _ & E)|(E & _)]]; [congruence | exfalso; exact (Hq id E) | congruence]. }
    assert (Hlink : forall q x, (forall id, q <> bundle_file cwd base id) -> look f' q = Some (NLink x) -> look f q = Some (NLink x)).
    { intros q x Hq Hl. destruct (HO q) as [E|[(id & _ & _ & _ & E)|(_ & E & _)]]; [congruence | exfalso; exact (Hq id E) | congruence]. }
    assert (Ho : forall m, In m sel -> out_ready cwd base (outp m) f) by (intros m Hm; apply (or_ready _ _ _ _ _ Hout); apply in_map; assumption).
    split; [assumption|]. split; [|split].
    - intros m Hm. destruct (Ho m Hm) as (H1 & H2 & H3 & H4). split; [assumption|]. split; [|auto]. intros q x Bq Eq.
      destruct (HO q) as [E|[(id & _ & _ & _ & ->)|(_ & E & _)]]; [rewrite E in Eq; exact (H2 q x Bq Eq) | | congruence].
      apply (sr_bundle _ _ _ R' _ (bundle_file cwd base id) x (below_refl _)). exact Eq.
    - intros Hsym m x Hm Hl. apply Hlink in Hl; [|intros id; eapply out_not_bundle; apply Ho; assumption].
      apply (or_links _ _ _ _ _ Hout (outp m)) in Hl as [Hl _]; [congruence | apply in_map; assumption].
    - intros m Hm. destruct (Hneed m Hm) as [H|H]; [left|right].
      + apply extracted_ext in H as (b & Hs & Hx); [|assumption | auto |].
        * exists b. split; [assumption|]. destruct Hx as [Hx|(h & Hv & Hx1 & Hx2)]; [left | right; exists h; split; [assumption|]; split].
          -- apply Hkeep; [intros id; eapply out_not_bundle; apply Ho; assumption | assumption].
          -- apply Hkeep; [intros id; eapply out_not_bundle; apply Ho; assumption | assumption].
          -- apply Hkeep; [intros id; apply store_not_bundle | assumption].
        * intros x Hx. apply (or_links _ _ _ _ _ Hout (outp m)); [apply in_map; assumption | assumption].
      + intros c Hc. destruct (Hids _ (H c Hc)) as (id & E & Hf). eauto.
  Qed.

  Hypothesis Hplaces : NoDup (map (target cwd) (map outp sel)).
  Hypothesis Hapart : forall o o', In o (map outp sel) -> In o' (map outp sel) -> ~ strictly_below (target cwd o) (target cwd o').
  Lemma places m m' : In m sel -> In m' sel -> tgt m = tgt m' -> m = m'.
  Proof.
    revert Hplaces. clear Hapart. induction sel as [|x l IH]; intros Hnd Hm Hm' E; [destruct Hm|]. inversion_clear Hnd as [|? ? Hni Hnd'].
    assert (Hin : forall y, In y l -> In (tgt y) (map (target cwd) (map outp l))) by (intros y Hy; apply in_map, in_map; exact Hy).
    destruct Hm as [<-|Hm], Hm' as [<-|Hm']; [reflexivity | | |auto].
    - exfalso. apply Hni. rewrite E. auto.
    - exfalso. apply Hni. rewrite <- E. auto.
  Qed.

  Lemma extract_file_cinv m pl f r pl' f' : In m sel -> cinv f -> run (extract_file cwd base zstd sha1 sym sdir false m) pl f = (r, pl', f') -> cinv f'.
  Proof.
    intros Hm HC E. pose proof HC as (R & Ho & Hnl & Hav). unfold extract_file in E. rewrite run_bind in E.
    destruct (run (is_extracted cwd sdir m) pl f) as [[o1 pl1] f1] eqn:E1. apply is_extracted_run in E1 as [-> Hb].
    destruct o1 as [[|]|e|]; try (injection E as <- <- <-; exact HC).
    assert (Hbun : has_bundles cwd base m f).
    { destruct (Hav m Hm) as [H|H]; [|assumption]. exfalso. apply ext_extracted in H; [|auto..]. apply (Hb false eq_refl) in H. discriminate. }
    clear Hb. destruct sym eqn:Hsym.
    - pose proof E as E'. apply extract_frame in E' as (HO & R' & Hout); [|assumption | assumption | auto].
      pose proof (Ho m Hm) as Hom.
      split; [assumption|]. split; [|split; [intros Hf; congruence|]].
      + intros m' Hm'. apply Hout; [auto|]. apply Hapart; apply in_map; assumption.
      + assert (HBk : forall m', has_bundles cwd base m' f -> has_bundles cwd base m' f').
        { intros m' H c Hc. destruct (H c Hc) as (id & E1 & b & Eb). exists id. split; [assumption|]. exists b. eapply frame_bundles in HO; [|exact Hom]. apply HO. exact Eb. }
        intros m' Hm'. destruct (Hav m' Hm') as [Hx|Hx]; [|auto].
        destruct (eqbP (tgt m') (tgt m)) as [Et|Hne]; [apply places in Et as ->; auto|]. left.
        destruct Hx as (b & Hs & Hx). exists b. split; [assumption|]. destruct Hx as [Hx|(h & Hv & Hx)].
        * left. destruct (HO (tgt m')) as [E1|[[E1|(h & _ & E1)]|(E1 & _)]]; [congruence | contradiction | exfalso; eapply out_not_store; [apply Ho; exact Hm' | exact E1] | congruence].
        * right. exists h. split; [assumption|]. apply (extract_keeps_link cwd base zstd sha1 sha1_ok m (outp m) pl1 f r pl' f'); auto.
    - pose proof (Ho m Hm) as Hom. destruct (direct_ready cwd base (outp m) f R Hom) as [Hp Hi]; [intros x; apply Hnl; auto|]. cbn [extract_to] in E.
      apply real_frame in E as [HO Hi']; [|assumption | assumption].
      assert (Hml : forall x, look f' (tgt m) <> Some (NLink x)) by (intros x; apply Hi'; apply below_refl).
      split; [eapply winv_storage; eassumption|]. split; [|split].
      + intros m' Hm'. eapply out_only; [exact HO | left; exact Hml | auto].
      + intros _ m' x Hm' Hl. destruct (HO (tgt m')) as [E1|[E1|(_ & E1 & _)]]; [rewrite E1 in Hl; exact (Hnl eq_refl m' x Hm' Hl) | rewrite E1 in Hl; exact (Hml x Hl) | congruence].
      + assert (HBk : forall m', has_bundles cwd base m' f -> has_bundles cwd base m' f').
        { intros m' H c Hc. destruct (H c Hc) as (id & E1 & b & Eb). exists id. split; [assumption|]. exists b.
          destruct (HO (bundle_file cwd base id)) as [E2|[E2|(E2 & _)]]; [congruence | exfalso; eapply out_not_bundle; [exact Hom | symmetry; exact E2] | congruence]. }
        intros m' Hm'. destruct (Hav m' Hm') as [Hx|Hx]; [|auto].
        destruct (eqbP (tgt m') (tgt m)) as [Et|Hne]; [apply places in Et as ->; auto|]. left.
        destruct Hx as (b & Hs & Hx). exists b. split; [assumption|]. left. destruct Hx as [Hx|(h & Hv & Hx & _)]; [|exfalso; exact (Hnl eq_refl m' _ Hm' Hx)].
        destruct (HO (tgt m')) as [E1|[E1|(E1 & _)]]; [congruence | contradiction | congruence].
  Qed.
  Lemma extract_files_cinv : forall l pl f r pl' f', (forall m, In m l -> In m sel) -> cinv f ->
    run (for_each l (extract_file cwd base zstd sha1 sym sdir false)) pl f = (r, pl', f') -> cinv f'.
  Proof.
    induction l as [|m l IH]; intros pl f r pl' f' Hl HC E; cbn [for_each] in E.
    - injection E as <- <- <-. exact HC.
    - rewrite run_bind in E. destruct (run (extract_file cwd base zstd sha1 sym sdir false m) pl f) as [[o1 pl1] f1] eqn:E1.
      apply extract_file_cinv in E1; [|apply Hl; left; reflexivity | assumption].
      destruct o1; try (injection E as <- <- <-; exact E1). eapply IH; [|exact E1|exact E]. intros x Hx. apply Hl. right. assumption.
  Qed.
  Lemma cinv_available f m : cinv f -> In m sel -> extracted cwd sdir m f \/ has_bundles cwd base m f.
  Proof. intros (R & Ho & _ & Hav) Hm. destruct (Hav m Hm) as [H|H]; [left; apply ext_extracted; auto | auto]. Qed.
End Complete.

Lemma sort_files_In l l' : sort_files l = Ok l' -> forall m, In m l' -> In m l.
Proof.
  unfold sort_files. destruct (existsb _ l && _); [discriminate|]. intros E. injection E as <-. intros m Hm.
  eapply Permutation_in; [symmetry; apply py_sorted_perm | exact Hm].
Qed.
