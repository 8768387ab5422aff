(** * Proofs about the extraction of files *)

From Verif Require Import Base.Py Base.Text Base.PyFacts Base.TextFacts Base.PathFacts Base.Fs Spec.FsSpec Base.FsFacts Spec.FilesSpec Model.Files Proofs.FilesProofs Base.FsLinks Model.Rman Model.Patcher Spec.PatcherSpec Proofs.PatcherLinkProofs.

Lemma basename_snoc a (n : str) : ~ In cSlash n -> basename (a ++ cSlash :: n) = n.
Proof.
  intros H. rewrite basename_cut. assert (E : cut_last cSlash (a ++ cSlash :: n) = Some (a, n)).
  { assert (E0 : cut_last cSlash n = None).
    { clear a. induction n as [|x n IH]; [reflexivity|]. cbn [cut_last]. rewrite IH by (intros Hi; apply H; right; assumption).
      rewrite (proj2 (eqbF x cSlash)); [reflexivity | intros ->; apply H; left; reflexivity]. }
    induction a as [|x a IH]; cbn [app cut_last]; [rewrite E0, eqbR; reflexivity|]. rewrite IH. reflexivity. }
  rewrite E. reflexivity.
Qed.
Lemma dirname_snoc a (n : str) : ~ In cSlash n -> dirname (a ++ cSlash :: n) <> [].
Proof.
  intros H. pose proof (basename_snoc a n H) as E. pose proof (comps_split (a ++ cSlash :: n)) as _.
  unfold basename, dirname, path_split in *. destruct (cut_last cSlash (a ++ cSlash :: n)) as [[h t]|] eqn:Ec.
  - destruct (forallb (N.eqb cSlash) (h ++ [cSlash])) eqn:Ef; cbn [fst snd] in *.
    + intros E'. apply app_eq_nil in E' as [_ E']. discriminate.
    + apply forallb_slash_rstrip in Ef as (h' & x & Eh & _). rewrite Eh. intros E'. apply app_eq_nil in E' as [_ E']. discriminate.
  - cbn [snd] in E. exfalso. apply H. rewrite <- E. apply in_or_app. right. left. reflexivity.
Qed.

Section Ex.
  Variable cwd : path.
  Variable base : str.
  Variable zstd : bytes -> result bytes.
  Variable sha1 : str -> str.
  Notation S_ := (store_dir cwd base).
  Notation B_ := (bundle_dir cwd base).
  Notation ready_ := (storage_ready cwd base).

  (** ** Paths *)

  Lemma dir_join (dir n : str) : base <> [] -> ~ In dotdot (comps base) -> is_abs dir = false -> dir <> [] -> ~ In dotdot (comps dir) -> valid_name n ->
    plain_path (fspath base (dir ++ cSlash :: n)) /\ target cwd (fspath base (dir ++ cSlash :: n)) = n :: rev (comps dir) ++ target cwd base.
  Proof.
    intros Hb Hd Ha Hdn Hdd (N1 & N2 & N3 & N4). unfold fspath.
    assert (Ha' : is_abs (dir ++ cSlash :: n) = false) by (destruct dir; [congruence | exact Ha]).
    assert (Ec : comps (dir ++ cSlash :: n) = comps dir ++ [n]) by (rewrite comps_app, (comps_one n) by assumption; reflexivity).
    assert (Ej : exists x, path_join base (dir ++ cSlash :: n) = x ++ cSlash :: n).
    { unfold path_join. replace (startswith (dir ++ cSlash :: n) [cSlash]) with false.
      - destruct (_ || _); [exists (base ++ dir); rewrite <- app_assoc; reflexivity|]. exists (base ++ [cSlash] ++ dir). rewrite <- !app_assoc. reflexivity.
      - destruct dir as [|c dir]; [congruence|]. cbn in Ha |- *. destruct (eqbP c cSlash) as [->|]; [discriminate | reflexivity]. }
    split.
    - split; [|destruct Ej as [x ->]; rewrite basename_snoc by assumption; split; [apply dirname_snoc; assumption | auto]].
      rewrite comps_join by assumption. rewrite Ec. intros Hi. apply in_app_or in Hi as [Hi|Hi]; [contradiction|].
      apply in_app_or in Hi as [Hi|[Hi|[]]]; [contradiction | congruence].
    - rewrite target_join by assumption. rewrite Ec, rev_app_distr. reflexivity.
  Qed.
  Lemma store_facts f h : ready_ f -> valid_name h -> plain_path (store_path base h) /\ target cwd (store_path base h) = h :: S_.
  Proof.
    intros R Hh. destruct (sr_base _ _ _ R) as [Hb Hd]. unfold store_path.
    change (lit "cdtb/files/" ++ h) with (lit "cdtb/files" ++ cSlash :: h).
    apply (dir_join (lit "cdtb/files") h Hb Hd eq_refl ltac:(discriminate)); [|assumption].
    intros Hi. cbn in Hi. repeat (destruct Hi as [Hi|Hi]; [discriminate|]). exact Hi.
  Qed.
  Lemma bundle_name_valid id : valid_name (hexu 16 id ++ lit ".bundle").
  Proof.
    assert (H : forall c, In c (hexu 16 id ++ lit ".bundle") -> c <> cSlash).
    { intros c Hc. apply in_app_or in Hc as [Hc|Hc].
      - pose proof (hexu_chars 16 id) as HF. rewrite Forall_forall in HF. apply HF in Hc. intros ->. discriminate.
      - intros ->. cbn in Hc. repeat (destruct Hc as [Hc|Hc]; [discriminate|]). exact Hc. }
    assert (Hl : (7 <= length (hexu 16 id ++ lit ".bundle"))%nat) by (rewrite app_length; cbn; lia).
    split; [intros E; rewrite E in Hl; cbn in Hl; lia|]. split; [intros E; rewrite E in Hl; cbn in Hl; lia|].
    split; [intros E; rewrite E in Hl; cbn in Hl; lia|]. intros Hi. apply H in Hi. congruence.
  Qed.
  Lemma bundle_facts f id p : ready_ f -> bundle_path (Some id) = Ok p ->
    plain_path (fspath base p) /\ target cwd (fspath base p) = bundle_file cwd base id.
  Proof.
    intros R E. destruct (sr_base _ _ _ R) as [Hb Hd]. unfold bundle_path, fmt_id in E. cbn [of_opt rmap] in E.
    apply (f_equal (fun r => match r with Ok x => x | Err _ => p end)) in E. cbv beta iota in E. subst p.
    change (lit "channels/public/bundles/" ++ hexu 16 id ++ lit ".bundle") with (lit "channels/public/bundles" ++ cSlash :: (hexu 16 id ++ lit ".bundle")).
    apply (dir_join (lit "channels/public/bundles") _ Hb Hd eq_refl ltac:(discriminate)); [|apply bundle_name_valid].
    intros Hi. cbn in Hi. repeat (destruct Hi as [Hi|Hi]; [discriminate|]). exact Hi.
  Qed.
  Lemma bundle_path_ok o p : bundle_path o = Ok p -> exists id, o = Some id.
  Proof. destruct o as [id|]; [eauto | discriminate]. Qed.

  Lemma ready_store f h : ready_ f -> valid_name h -> ready cwd (store_path base h) f.
  Proof.
    intros R Hh. destruct (store_facts f h R Hh) as [Hp Ht]. split; [assumption|]. rewrite Ht.
    split; [apply (sr_store _ _ _ R)|]. split; [apply (sr_wf _ _ _ R) | apply (sr_cwd _ _ _ R)].
  Qed.
  Lemma ready_bundle f id p : ready_ f -> bundle_path (Some id) = Ok p -> ready cwd (fspath base p) f.
  Proof.
    intros R E. destruct (bundle_facts f id p R E) as [Hp Ht]. split; [assumption|]. rewrite Ht.
    split; [apply (sr_bundle _ _ _ R)|]. split; [apply (sr_wf _ _ _ R) | apply (sr_cwd _ _ _ R)].
  Qed.

  Lemma store_bundle_apart : apart S_ B_.
  Proof.
    unfold store_dir, bundle_dir. split; intros [l E].
    - apply (f_equal (@rev _)) in E. rewrite rev_app_distr in E. cbn [rev] in E. rewrite <- !app_assoc in E. apply app_inv_head in E. discriminate.
    - apply (f_equal (@rev _)) in E. rewrite rev_app_distr in E. cbn [rev] in E. rewrite <- !app_assoc in E. apply app_inv_head in E. discriminate.
  Qed.
  Lemma store_not_bundle h id : h :: S_ <> bundle_file cwd base id.
  Proof.
    intros E. apply (proj1 store_bundle_apart). exists []. apply (f_equal (@tl _)) in E. exact E.
  Qed.
  Lemma out_not_bundle o f id : out_ready cwd base o f -> target cwd o <> bundle_file cwd base id.
  Proof. intros (_ & _ & _ & [H _]) E. apply H. rewrite E. apply below_cons. Qed.
  Lemma out_not_store o f h : out_ready cwd base o f -> target cwd o <> h :: S_.
  Proof. intros (_ & _ & [H _] & _) E. apply H. rewrite E. apply below_cons. Qed.
  Lemma out_not_above_store o f h : out_ready cwd base o f -> ~ below (h :: S_) (target cwd o).
  Proof.
    intros H. destruct H as (Ho & _ & [H1 H2] & _). intros B. apply below_cases in B as [E|(x & l & E)]; [apply H1; rewrite <- E; apply below_cons|].
    apply H2. exists l. injection E as _ E. exact E.
  Qed.
  Lemma out_not_above_bundle o f h : out_ready cwd base o f -> ~ below (h :: B_) (target cwd o).
  Proof.
    intros H. destruct H as (Ho & _ & _ & [H1 H2]). intros B. apply below_cases in B as [E|(x & l & E)]; [apply H1; rewrite <- E; apply below_cons|].
    apply H2. exists l. injection E as _ E. exact E.
  Qed.

  (** ** Preservation *)

  (** [f'] differs from [f] at [t] only, where it has no link unless [t] is an output. *)
  Lemma storage_only t f f' : ready_ f -> only_file t f f' -> fs_wf f' -> look f' cwd = Some NDir ->
    (forall x, look f' t <> Some (NLink x)) \/ (forall n, ~ below (n :: S_) t /\ ~ below (n :: B_) t) -> ready_ f'.
  Proof.
    intros R HO Hw Hc Ht. destruct R as [R1 R2 R3 R4 R5 R6]. constructor; try assumption.
    - intros n q x Bq E. destruct (HO q) as [E'|[->|(_ & E' & _)]]; [rewrite E' in E; exact (R5 n q x Bq E) | | congruence].
      destruct Ht as [Ht|Ht]; [exact (Ht x E) | exact (proj1 (Ht n) Bq)].
    - intros n q x Bq E. destruct (HO q) as [E'|[->|(_ & E' & _)]]; [rewrite E' in E; exact (R6 n q x Bq E) | | congruence].
      destruct Ht as [Ht|Ht]; [exact (Ht x E) | exact (proj2 (Ht n) Bq)].
  Qed.
  Lemma nolink_only t f f' d : only_file t f f' -> (forall x, look f' t <> Some (NLink x)) \/ ~ below d t -> nolink f d -> nolink f' d.
  Proof.
    intros HO Ht Hn q x Bq E. destruct (HO q) as [E'|[->|(_ & E' & _)]]; [rewrite E' in E; exact (Hn q x Bq E) | | congruence].
    destruct Ht as [Ht|Ht]; [exact (Ht x E) | contradiction].
  Qed.
  Lemma out_only t f f' o : only_file t f f' -> (forall x, look f' t <> Some (NLink x)) \/ ~ below (tl (target cwd o)) t ->
    out_ready cwd base o f -> out_ready cwd base o f'.
  Proof.
    intros HO Ht (H1 & H2 & H3). split; [assumption|]. split; [|assumption]. eapply nolink_only; eassumption.
  Qed.
  Lemma chunk_data_only t f f' c d : only_file t f f' -> (forall id, t <> bundle_file cwd base id) ->
    chunk_data cwd base zstd f c d <-> chunk_data cwd base zstd f' c d.
  Proof.
    intros HO Ht.
    assert (H : forall id b, look f (bundle_file cwd base id) = Some (NFile b) <-> look f' (bundle_file cwd base id) = Some (NFile b)).
    { intros id b. destruct (HO (bundle_file cwd base id)) as [E|[E|(E & E' & _)]]; [rewrite E; reflexivity | exfalso; exact (Ht id (eq_sym E))|].
      rewrite E, E'. split; discriminate. }
    split; intros (id & b & H1 & H2 & H3); exists id, b; (split; [assumption|]; split; [apply H; assumption | assumption]).
  Qed.
  Lemma file_data_only t f f' m d : only_file t f f' -> (forall id, t <> bundle_file cwd base id) ->
    file_data cwd base zstd f m d <-> file_data cwd base zstd f' m d.
  Proof.
    intros HO Ht. split; intros (ds & HF & ->); exists ds; (split; [|reflexivity]);
      (induction HF as [|c x l l' H HF IH]; [apply Forall2_nil | apply Forall2_cons; [|exact IH]]).
    - apply (chunk_data_only t f f' c x HO Ht). exact H.
    - apply (chunk_data_only t f f' c x HO Ht). exact H.
  Qed.
  Lemma file_data_det f m d d' : file_data cwd base zstd f m d -> file_data cwd base zstd f m d' -> d = d'.
  Proof.
    intros (ds & HF & ->) (ds' & HF' & ->). f_equal. revert ds' HF'. induction HF as [|c x l l' H HF IH]; intros ds' HF'; inversion_clear HF' as [|? x' ? l'' H' HF'']; [reflexivity|].
    f_equal; [|apply IH; assumption]. destruct H as (id & b & H1 & H2 & H3), H' as (id' & b' & H1' & H2' & H3').
    rewrite H1 in H1'. injection H1' as <-. rewrite H2 in H2'. injection H2' as <-. rewrite H3 in H3'. injection H3' as <-. reflexivity.
  Qed.

  (** ** Digests *)

  Lemma hexdigest_iff m h : hexdigest sha1 m = Ok h <-> digest sha1 m h.
  Proof.
    unfold hexdigest, digest. split.
    - destruct (rmapM _ (f_chunks m)) as [l|] eqn:E; [|discriminate]. cbn [rmap]. intros E'. injection E' as <-.
      apply rmapM_Ok in E. revert l E. induction (f_chunks m) as [|c cs IH]; intros l E; inversion_clear E as [|? x ? l' E1 E2]; [exists []; auto|].
      destruct (IH _ E2) as (ids & HF & _). destruct (c_id c) as [id|] eqn:Ec; [|discriminate]. exists (id :: ids). split; [constructor; assumption|].
      cbn [map concat]. unfold fmt_id in E1. cbn in E1. injection E1 as <-.
      f_equal. f_equal. clear - HF E2. revert l' E2. induction HF as [|c0 i0 cs0 is0 H HF IH]; intros l' E2; inversion_clear E2 as [|? y ? l'' F1 F2]; [reflexivity|].
      unfold fmt_id in F1. rewrite H in F1. cbn in F1. injection F1 as <-. cbn [map concat]. f_equal. apply IH. assumption.
    - intros (ids & HF & ->). replace (rmapM _ (f_chunks m)) with (@Ok (list str) (map (hexu 16) ids)); [reflexivity|]. symmetry. apply rmapM_Ok.
      induction HF as [|c i cs is H HF IH]; [constructor|]. cbn [map]. constructor; [unfold fmt_id; rewrite H; reflexivity | assumption].
  Qed.

  (** ** Chunks *)

  Lemma chunk_slice_eq c b : chunk_slice c b = match c_size c with
            | Some n => firstn (N.to_nat n) (skipn (N.to_nat (c_offset c)) b)
            | None => skipn (N.to_nat (c_offset c)) b end.
  Proof. unfold chunk_slice. destruct (c_size c); rewrite ?takeN_firstn, dropN_skipn; reflexivity. Qed.
  Lemma load_done c pl f d pl' f' : ready_ f -> run (load_chunk cwd base zstd c) pl f = (Done d, pl', f') ->
    f' = f /\ chunk_data cwd base zstd f c d.
  Proof.
    intros R. unfold load_chunk. destruct (bundle_path (c_bundle c)) as [p|] eqn:Ep; cbn [lift bind run]; [|discriminate].
    rewrite run_bind. destruct (run (read_file cwd (fspath base p)) pl f) as [[[data|e|] pl1] f1] eqn:E1; try discriminate.
    apply run_sys_done in E1. apply rbind_Ok in E1 as (q & Eq & E1). intros E.
    destruct (bundle_path_ok _ _ Ep) as [id Eid]. rewrite Eid in Ep. pose proof (ready_bundle f id p R Ep) as Hr. destruct (bundle_facts f id p R Ep) as [Hp Ht].
    apply locate_t in Eq as [-> _]; [|assumption | apply Hr]. rewrite Ht in E1. destruct (look f (bundle_file cwd base id)) as [[b| |]|] eqn:El; try discriminate.
    pose proof (f_equal (fun r => match r with Ok (x, _) => x | Err _ => data end) E1) as X1. pose proof (f_equal (fun r => match r with Ok (_, x) => x | Err _ => f1 end) E1) as X2.
    cbn in X1, X2. subst data f1. destruct (zstd (chunk_slice c b)) as [d'|] eqn:Ez; cbn [lift run] in E; [|discriminate]. injection E as <- <- <-.
    split; [reflexivity|]. exists id, b. split; [assumption|]. split; [assumption|]. rewrite <- chunk_slice_eq. assumption.
  Qed.
  Lemma load_safe (I : fs -> Prop) (R : fs -> fs -> Prop) c : (forall f : fs, R f f) -> safe I R (fun _ => True) (load_chunk cwd base zstd c).
  Proof.
    intros HR. unfold load_chunk. eapply (safe_bind _ _ (fun _ => True)); [apply safe_lift; auto|]. intros p _.
    eapply (safe_bind _ _ (fun _ => True)); [|intros d _; apply safe_lift; auto].
    apply safe_sys; [exact HR|]. intros f a f' Hi E. apply rbind_Ok in E as (q & _ & E). destruct (look f q) as [[]|]; try discriminate.
    apply (f_equal (fun r => match r with Ok (_, x) => x | Err _ => f' end)) in E. cbn in E. subst f'. auto.
  Qed.

  (** ** Writing the chunks *)

  Section Real.
    Variable real : str.
    Variable m : mfile.
    Hypothesis Hreal : plain_path real.
    Notation t := (target cwd real).
    Hypothesis Hnb : forall id, t <> bundle_file cwd base id.

    Lemma chunks_safe : forall Q : unit -> Prop, (forall a, Q a) -> safe (winv cwd real) (only_file t) Q (write_chunks cwd base zstd m t).
    Proof.
      intros Q HQ. eapply (safe_weaken _ _ (fun _ => True)); [auto|]. apply safe_for_each. intros c _.
      eapply (safe_bind _ _ (fun _ => True)); [apply load_safe; apply only_file_refl|]. intros d _. apply fwrite_safe. assumption.
    Qed.
    Lemma real_safe : safe (winv cwd real) (only_file t) (fun _ => True) (extract_real cwd base zstd m real).
    Proof.
      unfold extract_real. eapply (safe_bind _ _ (fun _ => True)); [apply safe_query; [apply only_file_refl | auto]|]. intros [|] _; [exact Logic.I|].
      apply wfr_safe; [assumption|]. apply chunks_safe. auto.
    Qed.
    Lemma winv_storage f f' : winv cwd real f' -> only_file t f f' -> ready_ f -> ready_ f'.
    Proof.
      intros (H1 & H2 & H3) HO R. eapply storage_only; [exact R | exact HO | assumption | assumption|]. left. intros x. apply H1. apply below_refl.
    Qed.
    Lemma chunks_done : forall pl f u b pl' f', ready_ f -> winv cwd real f -> look f t = Some (NFile b) ->
      run (write_chunks cwd base zstd m t) pl f = (Done u, pl', f') ->
      exists ds, Forall2 (chunk_data cwd base zstd f) (f_chunks m) ds /\ look f' t = Some (NFile (b ++ concat ds)).
    Proof.
      unfold write_chunks. induction (f_chunks m) as [|c cs IH]; intros pl f u b pl' f' R Hi Hl; cbn [for_each].
      - cbn [run]. intros E. injection E as <- <- <-. exists []. split; [constructor|]. cbn [concat]. rewrite app_nil_r. assumption.
      - rewrite run_bind, run_bind. destruct (run (load_chunk cwd base zstd c) pl f) as [[[d|e|] pl1] f1] eqn:E1; try discriminate.
        apply load_done in E1 as [-> Hd]; [|assumption].
        destruct (run (fwrite t d) pl1 f) as [[[u2|e|] pl2] f2] eqn:E2; try discriminate.
        pose proof E2 as E2'. eapply (safe_run _ _ (only_file_refl _) (only_file_trans _)) in E2' as (HO & Hi2 & _); [|apply fwrite_safe; assumption | assumption].
        apply run_fwrite in E2. intros E. assert (Hl2 : look f2 t = Some (NFile (b ++ d))).
        { subst f2. unfold f_append. rewrite Hl. apply look_put_same. apply target_nonempty. assumption. }
        destruct (IH pl2 f2 u (b ++ d) pl' f') as (ds & HF & Hl'); [eapply winv_storage; eassumption | assumption | assumption | exact E|].
        exists (d :: ds). split; [|cbn [concat]; rewrite app_assoc; assumption]. constructor; [assumption|].
        clear - HF HO Hnb. induction HF as [|c0 x l l' H HF IHF]; [apply Forall2_nil | apply Forall2_cons; [|assumption]; apply (chunk_data_only t f f2 c0 x HO Hnb); exact H].
    Qed.

    Lemma real_frame pl f o pl' f' : winv cwd real f -> run (extract_real cwd base zstd m real) pl f = (o, pl', f') ->
      only_file t f f' /\ winv cwd real f'.
    Proof.
      intros Hi E. eapply (safe_run _ _ (only_file_refl _) (only_file_trans _)) in E as (HO & Hi' & _); [|apply real_safe | exact Hi]. split; [exact HO | exact Hi'].
    Qed.
    Lemma isfile_winv f : winv cwd real f -> f_isfile cwd real f = true <-> is_file f t.
    Proof. intros Hi. apply isfile_ready. apply winv_ready; assumption. Qed.
    Lemma real_done pl f u pl' f' : ready_ f -> winv cwd real f -> run (extract_real cwd base zstd m real) pl f = (Done u, pl', f') ->
      exists data, look f' t = Some (NFile data) /\
        ((look f t = Some (NFile data) /\ f' = f) \/ (~ is_file f t /\ file_data cwd base zstd f m data)).
    Proof.
      intros R Hi. unfold extract_real. rewrite run_bind. destruct (run (isfile cwd real) pl f) as [[o1 pl1] f1] eqn:E1.
      unfold isfile in E1. apply run_query_fs in E1 as [-> [->| ->]]; [|discriminate].
      destruct (f_isfile cwd real f) eqn:Ei.
      - cbn [run]. intros E. injection E as <- <- <-. apply isfile_winv in Ei as [b Hb]; [|assumption]. exists b. auto.
      - intros E. apply (wfr_done cwd real Hreal) in E as (pl2 & f2 & pl3 & Hl & Hi2 & HO & E); [|assumption | apply chunks_safe].
        apply (chunks_done _ _ _ [] _ _) in E as (ds & HF & Hl'); [|eapply winv_storage; eassumption | assumption | assumption].
        exists (concat ds). split; [exact Hl'|]. right. split; [intros H; apply isfile_winv in H; [congruence | assumption]|].
        apply (file_data_only t f f2 m (concat ds) HO Hnb). exists ds. auto.
    Qed.
    Lemma real_raised pl f e pl' f' : winv cwd real f -> run (extract_real cwd base zstd m real) pl f = (Raised e, pl', f') ->
      ~ is_file f t /\ (~ is_file f' t \/ exists u x, pl = u ++ Some x :: pl').
    Proof.
      intros Hi. unfold extract_real. rewrite run_bind. destruct (run (isfile cwd real) pl f) as [[o1 pl1] f1] eqn:E1.
      pose proof E1 as E1'. apply run_consumes in E1' as [u ->].
      unfold isfile in E1. apply run_query_fs in E1 as [-> [->| ->]]; [|discriminate].
      destruct (f_isfile cwd real f) eqn:Ei; [discriminate|]. intros E.
      split; [intros H; apply isfile_winv in H; [congruence | assumption]|].
      apply (wfr_raised cwd real Hreal) in E as [E|(v & x & ->)]; [auto | | assumption | apply chunks_safe].
      right. exists (u ++ v), x. rewrite app_assoc. reflexivity.
    Qed.
  End Real.

  (** ** Extraction through the shared directory *)

  Hypothesis sha1_ok : forall s, valid_name (sha1 s).

  Lemma digest_valid m h : digest sha1 m h -> valid_name h.
  Proof. intros (ids & _ & ->). apply sha1_ok. Qed.

  Lemma out_dinv o f : out_ready cwd base o f -> ready_ f -> dinv cwd (target cwd (dirname o)) f.
  Proof.
    intros (H1 & H2 & _) R. rewrite ot_tl in H2 by assumption. split; [assumption|]. split; [apply (sr_wf _ _ _ R) | apply (sr_cwd _ _ _ R)].
  Qed.


  (** The parts of an execution. *)
  Lemma extract_parts m o pl f r pl' f' : run (extract_to cwd base zstd sha1 true m o) pl f = (r, pl', f') ->
    (exists e, r = Raised e /\ f' = f) \/
    exists h, digest sha1 m h /\
      ((run (extract_real cwd base zstd m (store_path base h)) pl f = (r, pl', f') /\ r <> Done tt) \/
       exists pl1 f1, run (extract_real cwd base zstd m (store_path base h)) pl f = (Done tt, pl1, f1) /\
         run (make_link cwd (store_path base h) o) pl1 f1 = (r, pl', f')).
  Proof.
    unfold extract_to. destruct (hexdigest sha1 m) as [h|e] eqn:Eh; cbn [lift bind run].
    - intros E. right. exists h. split; [apply hexdigest_iff; assumption|]. rewrite run_bind in E.
      destruct (run (extract_real cwd base zstd m (store_path base h)) pl f) as [[[[]|e|] pl1] f1] eqn:E1.
      + right. eauto.
      + left. injection E as <- <- <-. split; [reflexivity | discriminate].
      + left. injection E as <- <- <-. split; [reflexivity | discriminate].
    - intros E. injection E as <- <- <-. left. eauto.
  Qed.

  Lemma store_winv f h : ready_ f -> valid_name h -> plain_path (store_path base h) /\ winv cwd (store_path base h) f.
  Proof. intros R Hh. apply ready_winv. apply ready_store; assumption. Qed.

  (** First part. *)
  Lemma part1 m h pl f r pl' f' : ready_ f -> valid_name h ->
    run (extract_real cwd base zstd m (store_path base h)) pl f = (r, pl', f') ->
    only_file (h :: S_) f f' /\ ready_ f' /\ (forall x, look f' (h :: S_) <> Some (NLink x)) /\ (forall o, out_ready cwd base o f -> out_ready cwd base o f').
  Proof.
    intros R Hh E. destruct (store_winv f h R Hh) as [Hp Hi]. destruct (store_facts f h R Hh) as [_ Ht].
    apply real_frame in E as [HO Hi']; [|assumption | assumption].
    assert (Hl : forall x, look f' (h :: S_) <> Some (NLink x)) by (intros x; rewrite <- Ht; apply Hi'; apply below_refl).
    split; [rewrite <- Ht; assumption|]. split; [eapply winv_storage; eassumption|]. split; [assumption|].
    intros o Ho. eapply out_only; [exact HO | left; rewrite Ht; exact Hl | assumption].
  Qed.
  (** Second part. *)
  Lemma dinv_storage o f f' : ready_ f -> out_ready cwd base o f -> only_file (target cwd o) f f' -> dinv cwd (target cwd (dirname o)) f' -> ready_ f'.
  Proof.
    intros R Ho HO (H1 & H2 & H3). eapply storage_only; [exact R | exact HO | assumption | assumption|].
    right. intros n. split; [eapply out_not_above_store; exact Ho | eapply out_not_above_bundle; exact Ho].
  Qed.
  Lemma part2 h o pl f r pl' f' : ready_ f -> out_ready cwd base o f ->
    run (make_link cwd (store_path base h) o) pl f = (r, pl', f') ->
    only_file (target cwd o) f f' /\ ready_ f' /\
    (forall o2, out_ready cwd base o2 f -> ~ strictly_below (target cwd o2) (target cwd o) -> out_ready cwd base o2 f').
  Proof.
    intros R Ho E. pose proof (out_dinv o f Ho R) as Hi. pose proof Ho as (Hp & _).
    eapply (safe_run _ _ (only_file_refl _) (only_file_trans _)) in E as (HO & Hi' & _); [|apply make_link_safe; assumption | assumption].
    split; [assumption|]. split; [eapply dinv_storage; eassumption|].
    intros o2 H2 Hs. eapply out_only; [exact HO | | assumption]. right. intros [l E]. apply Hs.
    destruct H2 as (Hp2 & _). rewrite (ot_eq cwd o2 Hp2) in E |- *. cbn [tl] in E. rewrite E. exists (basename o2), l. reflexivity.
  Qed.

  Lemma only_file_files (T : path -> Prop) t f f' : T t -> only_file t f f' -> only_files T f f'.
  Proof. intros HT HO q. destruct (HO q) as [E|[->|(E & E' & Bq)]]; [auto | auto | right; right; eauto]. Qed.
  Lemma only_files_refl (T : path -> Prop) f : only_files T f f.
  Proof. intros q. auto. Qed.
  Lemma only_files_trans (T : path -> Prop) a b c : only_files T a b -> only_files T b c -> only_files T a c.
  Proof.
    intros H1 H2 q. destruct (H1 q) as [E1|[E1|(E1 & E1' & B1)]]; [|auto|].
    - destruct (H2 q) as [E2|[E2|(E2 & E2' & B2)]]; [left; congruence | auto | right; right; rewrite <- E1; auto].
    - destruct (H2 q) as [E2|[E2|(E2 & E2' & B2)]]; [right; right; rewrite E2; auto | auto | congruence].
  Qed.

  Definition touched m o (q : path) : Prop := q = target cwd o \/ exists h, digest sha1 m h /\ q = h :: S_.
  Lemma extract_frame m o pl f r pl' f' : ready_ f -> out_ready cwd base o f ->
    run (extract_to cwd base zstd sha1 true m o) pl f = (r, pl', f') ->
    only_files (touched m o) f f' /\ ready_ f' /\
    (forall o2, out_ready cwd base o2 f -> ~ strictly_below (target cwd o2) (target cwd o) -> out_ready cwd base o2 f').
  Proof.
    intros R Ho E. apply extract_parts in E as [(e & _ & ->)|(h & Hh & [[E _]|(pl1 & f1 & E1 & E2)])].
    - split; [apply only_files_refl | auto].
    - apply part1 in E as (HO & R' & _ & Hout); [|assumption | eapply digest_valid; exact Hh].
      split; [eapply only_file_files; [|exact HO]; right; eauto|]. auto.
    - apply part1 in E1 as (HO & R' & _ & Hout); [|assumption | eapply digest_valid; exact Hh].
      apply part2 in E2 as (HO2 & R2 & Hout2); [|assumption | auto].
      split; [|auto]. eapply only_files_trans; (eapply only_file_files; [|eassumption]); [right; eauto | left; reflexivity].
  Qed.

  (** Whatever is in the shared directory after an extraction was there before or is complete. *)
  Lemma extract_store m o pl f r pl' f' h b : ready_ f -> out_ready cwd base o f ->
    run (extract_to cwd base zstd sha1 true m o) pl f = (r, pl', f') -> clean r pl pl' ->
    look f' (h :: S_) = Some (NFile b) ->
    look f (h :: S_) = Some (NFile b) \/ (digest sha1 m h /\ file_data cwd base zstd f m b).
  Proof.
    intros R Ho E Hc Hl. apply extract_parts in E as [(e & _ & ->)|(h' & Hh & [[E Hr]|(pl1 & f1 & E1 & E2)])]; [auto| |].
    - pose proof (digest_valid _ _ Hh) as Hv. destruct (store_facts f h' R Hv) as [Hp Ht]. destruct (store_winv f h' R Hv) as [_ Hi].
      pose proof E as E'. apply part1 in E' as (HO & _); [|assumption | assumption].
      destruct r as [[]|e|]; [congruence | | contradiction].
      apply real_raised in E as [_ [E|(u & x & ->)]]; [|exfalso; eapply Hc; reflexivity | assumption | assumption].
      rewrite Ht in E. destruct (HO (h :: S_)) as [E1|[E1|(_ & E1 & _)]]; [left; congruence | exfalso; apply E; rewrite <- E1; exists b; assumption | congruence].
    - pose proof (digest_valid _ _ Hh) as Hv. destruct (store_facts f h' R Hv) as [Hp Ht]. destruct (store_winv f h' R Hv) as [_ Hi].
      pose proof E1 as E1'. apply part1 in E1' as (HO & R1 & _ & Hout); [|assumption | assumption].
      apply part2 in E2 as (HO2 & _ & _); [|assumption | auto].
      assert (Hl1 : look f1 (h :: S_) = Some (NFile b)).
      { destruct (HO2 (h :: S_)) as [E|[E|(_ & E & _)]]; [congruence | exfalso; eapply out_not_store; [exact Ho | symmetry; exact E] | congruence]. }
      apply real_done in E1 as (data & Hd & H); [|assumption | intros id; rewrite Ht; apply store_not_bundle | assumption | assumption]. rewrite Ht in Hd, H.
      destruct (HO (h :: S_)) as [E|[E|(_ & E & _)]]; [left; congruence | | congruence].
      assert (h = h') as -> by (injection E; auto). rewrite Hl1 in Hd. injection Hd as ->. destruct H as [[H _]|[_ H]]; [auto | right; auto].
  Qed.

  (** A link to the shared file. *)
  Definition linked (o h : str) (b : bytes) (f : fs) : Prop :=
    look f (target cwd o) = Some (NLink (relpath cwd (store_path base h) (dirname o))) /\ look f (h :: S_) = Some (NFile b).
  Lemma linked_locate o h b f : ready_ f -> out_ready cwd base o f -> valid_name h -> linked o h b f -> locate cwd f true o = Ok (h :: S_).
  Proof.
    intros R Ho Hv [H1 H2]. destruct (store_facts f h R Hv) as [[Hdd _] Ht]. pose proof Ho as (Hp & _ & [A1 A2] & _). rewrite <- Ht.
    apply follow_link; try assumption.
    - apply (sr_names _ _ _ R).
    - rewrite Ht. intros B. apply A1. rewrite ot_eq by assumption. eapply below_trans; [apply below_cons|]. eapply below_trans; [exact B | apply below_cons].
    - apply out_dinv; assumption.
    - rewrite Ht. apply (sr_store _ _ _ R).
    - rewrite Ht, H2. discriminate.
  Qed.
  Lemma run_sys_nil {A} (op : fs -> result (A * fs)) f a f' : op f = Ok (a, f') -> run (sys op) [] f = (Done a, [], f').
  Proof. intros E. cbn. rewrite E. reflexivity. Qed.
  Lemma linked_reads o h b f : ready_ f -> out_ready cwd base o f -> valid_name h -> linked o h b f -> reads cwd o b f.
  Proof.
    intros R Ho Hv HL. pose proof (linked_locate _ _ _ _ R Ho Hv HL) as El. destruct HL as [_ H2].
    apply run_sys_nil. rewrite El. cbn [rbind]. rewrite H2. reflexivity.
  Qed.
  Lemma extract_done m o pl f u pl' f' : ready_ f -> out_ready cwd base o f ->
    run (extract_to cwd base zstd sha1 true m o) pl f = (Done u, pl', f') ->
    exists h data, digest sha1 m h /\ linked o h data f' /\
      (look f (h :: S_) = Some (NFile data) \/ (~ is_file f (h :: S_) /\ file_data cwd base zstd f m data)).
  Proof.
    intros R Ho E. destruct u. apply extract_parts in E as [(e & E & _)|(h & Hh & [[_ E]|(pl1 & f1 & E1 & E2)])]; [discriminate | congruence|].
    pose proof (digest_valid _ _ Hh) as Hv. destruct (store_facts f h R Hv) as [Hp Ht]. destruct (store_winv f h R Hv) as [_ Hi].
    pose proof E1 as E1'. apply part1 in E1' as (HO & R1 & _ & Hout); [|assumption | assumption].
    apply real_done in E1 as (data & Hd & H); [|assumption | intros id; rewrite Ht; apply store_not_bundle | assumption | assumption]. rewrite Ht in Hd, H.
    exists h, data. split; [assumption|]. split; [|destruct H as [[H _]|H]; auto].
    pose proof E2 as E2'. apply part2 in E2' as (HO2 & _ & _); [|assumption | auto].
    apply make_link_done in E2 as [_ Hl]; [|apply Ho | apply out_dinv; auto].
    split; [assumption|]. destruct (HO2 (h :: S_)) as [E|[E|(E & _)]]; [congruence | exfalso; eapply out_not_store; [exact Ho | symmetry; exact E] | congruence].
  Qed.

  Lemma extract_store_ok D m o pl f r pl' f' : ready_ f -> out_ready cwd base o f ->
    run (extract_to cwd base zstd sha1 true m o) pl f = (r, pl', f') -> clean r pl pl' ->
    store_ok cwd base D f -> named cwd base zstd sha1 D f m -> store_ok cwd base D f'.
  Proof.
    intros R Ho E Hc HS HN h b Hl. eapply extract_store in Hl as [Hl|[Hd Hf]]; [| |exact R|exact Ho|exact E|exact Hc].
    - apply HS. assumption.
    - symmetry. apply HN; assumption.
  Qed.
  Lemma extract_reads D m o pl f u pl' f' : ready_ f -> out_ready cwd base o f ->
    store_ok cwd base D f -> named cwd base zstd sha1 D f m ->
    run (extract_to cwd base zstd sha1 true m o) pl f = (Done u, pl', f') ->
    exists h, digest sha1 m h /\ reads cwd o (D h) f' /\ linked o h (D h) f'.
  Proof.
    intros R Ho HS HN E. pose proof E as E'. apply extract_frame in E' as (_ & R' & Hout); [|assumption | assumption].
    apply extract_done in E as (h & data & Hd & HL & H); [|assumption | assumption].
    assert (data = D h) as -> by (destruct H as [H|[_ H]]; [apply HS; assumption | symmetry; apply HN; assumption]).
    exists h. split; [assumption|]. split; [|assumption].
    eapply linked_reads; [exact R' | apply Hout; [assumption|apply strictly_below_irrefl] | eapply digest_valid; exact Hd | exact HL].
  Qed.

  (** Effects of an extraction on what other extractions rely on. *)
  Lemma frame_bundles m o f f' id b : out_ready cwd base o f -> only_files (touched m o) f f' ->
    look f (bundle_file cwd base id) = Some (NFile b) <-> look f' (bundle_file cwd base id) = Some (NFile b).
  Proof.
    intros Ho HO. destruct (HO (bundle_file cwd base id)) as [E|[[E|(h & _ & E)]|(E & E' & _)]].
    - rewrite E. reflexivity.
    - exfalso. eapply out_not_bundle; [exact Ho | symmetry; exact E].
    - exfalso. eapply store_not_bundle. symmetry. exact E.
    - rewrite E, E'. split; discriminate.
  Qed.
  Lemma frame_data m o f f' m2 d : out_ready cwd base o f -> only_files (touched m o) f f' ->
    file_data cwd base zstd f m2 d <-> file_data cwd base zstd f' m2 d.
  Proof.
    intros Ho HO. pose proof (fun id b => frame_bundles m o f f' id b Ho HO) as HB.
    assert (HC : forall c x, chunk_data cwd base zstd f c x <-> chunk_data cwd base zstd f' c x).
    { intros c x. split; intros (id & b & H1 & H2 & H3); exists id, b; (split; [assumption|]; split; [apply HB; assumption | assumption]). }
    split; intros (ds & HF & ->); exists ds; (split; [|reflexivity]);
      (induction HF as [|c x l l' H HF IH]; [apply Forall2_nil | apply Forall2_cons; [apply HC; exact H | exact IH]]).
  Qed.
  Lemma extract_keeps_store m o pl f r pl' f' h b : ready_ f -> out_ready cwd base o f ->
    run (extract_to cwd base zstd sha1 true m o) pl f = (r, pl', f') -> look f (h :: S_) = Some (NFile b) -> look f' (h :: S_) = Some (NFile b).
  Proof.
    intros R Ho E Hl. apply extract_parts in E as [(e & _ & ->)|(h' & Hh & H)]; [assumption|].
    pose proof (digest_valid _ _ Hh) as Hv. destruct (store_facts f h' R Hv) as [Hp Ht]. destruct (store_winv f h' R Hv) as [_ Hi].
    assert (H1 : forall r pl' f', run (extract_real cwd base zstd m (store_path base h')) pl f = (r, pl', f') -> look f' (h :: S_) = Some (NFile b)).
    { clear H r pl' f'. intros r pl' f' E. pose proof E as E'. apply part1 in E' as (HO & _); [|assumption | assumption].
      destruct (HO (h :: S_)) as [E1|[E1|(E1 & _)]]; [congruence | | congruence]. assert (h = h') as -> by (injection E1; auto).
      unfold extract_real in E. rewrite run_bind in E. destruct (run (isfile cwd (store_path base h')) pl f) as [[o1 pl1] f1] eqn:Ei.
      unfold isfile in Ei. apply run_query_fs in Ei as [-> [->| ->]]; [|injection E as <- <- <-; assumption].
      replace (f_isfile cwd (store_path base h') f) with true in E; [cbn [run] in E; injection E as <- <- <-; assumption|].
      symmetry. apply isfile_winv; [assumption | assumption|]. rewrite Ht. exists b. assumption. }
    destruct H as [[E _]|(pl1 & f1 & E1 & E2)]; [eapply H1; exact E|].
    apply H1 in E1 as Hl1. apply part1 in E1 as (HO & R1 & _ & Hout); [|assumption | assumption].
    apply part2 in E2 as (HO2 & _); [|assumption | auto].
    destruct (HO2 (h :: S_)) as [E|[E|(E & _)]]; [congruence | exfalso; eapply out_not_store; [exact Ho | symmetry; exact E] | congruence].
  Qed.
  Lemma extract_keeps_link m o pl f r pl' f' o2 h b : ready_ f -> out_ready cwd base o f -> out_ready cwd base o2 f -> target cwd o2 <> target cwd o ->
    run (extract_to cwd base zstd sha1 true m o) pl f = (r, pl', f') -> linked o2 h b f -> linked o2 h b f'.
  Proof.
    intros R Ho Ho2 Hne E [H1 H2]. pose proof E as E'. apply extract_frame in E' as (HO & _); [|assumption | assumption].
    split; [|eapply (extract_keeps_store m o); [exact R | exact Ho | exact E | exact H2]].
    destruct (HO (target cwd o2)) as [E1|[[E1|(h' & _ & E1)]|(E1 & _)]]; [congruence | exfalso; apply Hne; exact E1 | exfalso; eapply out_not_store; [exact Ho2 | exact E1] | congruence].
  Qed.

  (** Sequences of extractions. *)
  Lemma extractions_ok D : forall l f f', extractions cwd base zstd sha1 true l f f' ->
    ready_ f -> store_ok cwd base D f ->
    (forall m o r, In (m, o, r) l -> out_ready cwd base o f /\ named cwd base zstd sha1 D f m) ->
    (forall x y, In x l -> In y l -> ~ strictly_below (target cwd (snd (fst x))) (target cwd (snd (fst y)))) ->
    NoDup (map (fun x => target cwd (snd (fst x))) l) ->
    ready_ f' /\ store_ok cwd base D f' /\
    (forall o h, out_ready cwd base o f -> (forall x, In x l -> ~ below (target cwd o) (target cwd (snd (fst x)))) ->
       out_ready cwd base o f' /\ (linked o h (D h) f -> linked o h (D h) f')) /\
    (forall m o, In (m, o, Done tt) l -> out_ready cwd base o f' /\ exists h, digest sha1 m h /\ linked o h (D h) f').
  Proof.
    induction 1 as [f|m o r l pl f pl' f1 f2 E Hc HX IH]; intros R HS Hall Hpf Hnd.
    - split; [assumption|]. split; [assumption|]. split; [auto | intros m o []].
    - destruct (Hall m o r (or_introl eq_refl)) as [Ho HN]. pose proof E as E'. apply extract_frame in E' as (HO & R1 & Hout); [|assumption | assumption].
      assert (HS1 : store_ok cwd base D f1) by (apply (extract_store_ok D m o pl f r pl' f1 R Ho E Hc HS HN)).
      inversion_clear Hnd as [|? ? Hni Hnd'].
      assert (Hall1 : forall m' o' r', In (m', o', r') l -> out_ready cwd base o' f1 /\ named cwd base zstd sha1 D f1 m').
      { intros m' o' r' Hin. destruct (Hall m' o' r' (or_intror Hin)) as [H1 H2]. split.
        - apply Hout; [assumption|]. apply (Hpf (m', o', r') (m, o, r)); [right; assumption | left; reflexivity].
        - intros h d Hd Hf. apply H2; [assumption|]. apply (proj2 (frame_data m o f f1 m' d Ho HO)). exact Hf. }
      destruct (IH R1 HS1 Hall1) as (R2 & HS2 & Hkeep & Hdone); [intros x y Hx Hy; apply Hpf; right; assumption | assumption|].
      split; [assumption|]. split; [assumption|]. split.
      + intros o2 h Ho2 Hdis. assert (Ho2' : out_ready cwd base o2 f1).
        { apply Hout; [assumption|]. intros Hb. apply (Hdis (m, o, r) (or_introl eq_refl)). apply strictly_below_below. assumption. }
        destruct (Hkeep o2 h Ho2') as [K1 K2]; [intros x Hx; apply Hdis; right; assumption|]. split; [assumption|]. intros HL. apply K2.
        eapply (extract_keeps_link m o); [exact R | exact Ho | exact Ho2 | | exact E | exact HL].
        intros Eq. apply (Hdis (m, o, r) (or_introl eq_refl)). cbn [fst snd]. rewrite Eq. apply below_refl.
      + intros m' o' [Heq|Hin]; [|apply Hdone; assumption]. injection Heq as -> -> ->.
        pose proof E as E2. apply extract_reads with (D := D) in E2 as (h & Hd & _ & HL); [|assumption..].
        destruct (Hkeep o' h) as [K1 K2].
        * apply Hout; [assumption | apply strictly_below_irrefl].
        * intros x Hx Hb. apply below_cases in Hb as [Hb|Hb].
          -- apply Hni. cbn [fst snd]. rewrite Hb. apply in_map_iff. exists x. auto.
          -- apply (Hpf (m', o', Done tt) x); [left; reflexivity | right; assumption | assumption].
        * split; [assumption|]. exists h. auto.
  Qed.

  Lemma extractions_reads D l f f' m o : extractions cwd base zstd sha1 true l f f' ->
    ready_ f -> store_ok cwd base D f ->
    (forall m o r, In (m, o, r) l -> out_ready cwd base o f /\ named cwd base zstd sha1 D f m) ->
    (forall x y, In x l -> In y l -> ~ strictly_below (target cwd (snd (fst x))) (target cwd (snd (fst y)))) ->
    NoDup (map (fun x => target cwd (snd (fst x))) l) ->
    In (m, o, Done tt) l -> exists h, digest sha1 m h /\ reads cwd o (D h) f'.
  Proof.
    intros HX R HS HA HP HN Hin. destruct (extractions_ok D l f f' HX R HS HA HP HN) as (R' & _ & _ & Hd).
    destruct (Hd m o Hin) as [Ho (h & Hh & HL)]. exists h. split; [assumption|].
    eapply linked_reads; [exact R' | exact Ho | eapply digest_valid; exact Hh | exact HL].
  Qed.

  (** Without links. *)
  Lemma direct_ready o f : ready_ f -> out_ready cwd base o f -> (forall x, look f (target cwd o) <> Some (NLink x)) -> plain_path o /\ winv cwd o f.
  Proof.
    intros R (Hp & Hn & _) Hl. apply ready_winv. split; [assumption|]. split; [|split; [apply R | apply R]].
    intros q x B. rewrite (ot_eq cwd o Hp) in B, Hl. apply below_cases in B as [<-|B]; [apply Hl|].
    rewrite (ot_eq cwd o Hp) in Hn. apply Hn. cbn [tl]. destruct B as (y & l & E). exists l. injection E as _ ->. reflexivity.
  Qed.
  Lemma direct_done m o pl f u pl' f' : ready_ f -> out_ready cwd base o f -> (forall x, look f (target cwd o) <> Some (NLink x)) ->
    run (extract_to cwd base zstd sha1 false m o) pl f = (Done u, pl', f') ->
    exists data, reads cwd o data f' /\
      ((look f (target cwd o) = Some (NFile data) /\ f' = f) \/ (~ is_file f (target cwd o) /\ file_data cwd base zstd f m data)).
  Proof.
    intros R Ho Hl E. destruct (direct_ready o f R Ho Hl) as [Hp Hi]. cbn [extract_to] in E. pose proof E as E'.
    apply real_frame in E' as [_ Hi']; [|assumption | assumption].
    apply real_done in E as (data & Hd & H); [|assumption | intros id; eapply out_not_bundle; exact Ho | assumption | assumption].
    exists data. split; [|assumption]. apply run_sys_nil. rewrite locate_ok; [|assumption|assumption|congruence]. cbn [rbind]. rewrite Hd. reflexivity.
  Qed.
  Lemma direct_frame m o pl f r pl' f' : ready_ f -> out_ready cwd base o f -> (forall x, look f (target cwd o) <> Some (NLink x)) ->
    run (extract_to cwd base zstd sha1 false m o) pl f = (r, pl', f') -> only_file (target cwd o) f f' /\ ready_ f'.
  Proof.
    intros R Ho Hl E. destruct (direct_ready o f R Ho Hl) as [Hp Hi]. cbn [extract_to] in E.
    apply real_frame in E as [HO Hi']; [|assumption | assumption]. split; [assumption|]. eapply winv_storage; eassumption.
  Qed.
  Lemma direct_raised m o pl f e pl' f' : ready_ f -> out_ready cwd base o f -> (forall x, look f (target cwd o) <> Some (NLink x)) ->
    run (extract_to cwd base zstd sha1 false m o) pl f = (Raised e, pl', f') -> clean (Raised e : outcome unit) pl pl' -> ~ is_file f' (target cwd o).
  Proof.
    intros R Ho Hl E Hc. destruct (direct_ready o f R Ho Hl) as [Hp Hi]. cbn [extract_to] in E.
    apply real_raised in E as [_ [H|(u & x & ->)]]; [assumption | exfalso; eapply Hc; reflexivity | assumption | assumption].
  Qed.
End Ex.
