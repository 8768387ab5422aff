(** * Proofs about the success of downloads *)

From Verif Require Import Base.Py Base.Text Base.PyFacts Base.TextFacts Base.PathFacts Base.Fs Spec.FsSpec Base.FsFacts Base.FsLinks Base.FsThreads Spec.FilesSpec Model.Files Proofs.FilesProofs Model.Rman Model.Patcher Spec.PatcherSpec Proofs.PatcherLinkProofs Proofs.PatcherExtractProofs Proofs.PatcherBundleProofs Proofs.PatcherCompleteProofs Spec.PatcherTotalSpec Proofs.SymlinksProofs.

Lemma below_longer (p q : path) : below p q -> (length q <= length p)%nat.
Proof. intros [l ->]. rewrite app_length. lia. Qed.
Lemma strictly_longer (p q : path) : strictly_below p q -> (length q < length p)%nat.
Proof. intros (x & l & ->). cbn. rewrite app_length. lia. Qed.
Lemma strictly_tl x (p q : path) : strictly_below (x :: p) q <-> below p q.
Proof. split; [intros (y & l & E); exists l; injection E as _ ->; reflexivity | intros [l ->]; exists x, l; reflexivity]. Qed.

(** ** One guarded write *)

Section Write.
  Variable cwd : path.
  Variable s : str.
  Hypothesis Hs : plain_path s.
  Notation t := (target cwd s).

  Lemma dirs_total f : winv cwd s f -> room f t ->
    exists f1, run (makedirs cwd (dirname s)) [] f = (Done tt, [], f1) /\ winv cwd s f1 /\ only_file t f f1 /\ look f1 t = look f t /\
      locate cwd f1 true s = Ok t /\ dirs_to f1 (if is_abs s then [] else cwd) (comps s).
  Proof.
    intros Hi [Hr1 Hr2]. pose proof Hi as (Hn & Hw & Hc). pose proof (t_eq cwd s Hs) as Et.
    assert (Hnd : nolink f (target cwd (dirname s))) by (intros q x B; apply Hn; rewrite Et; eapply below_trans; [apply below_cons | exact B]).
    destruct (makedirs_total cwd (dirname s) f) as [f1 E1]; [apply Hs | exact Hc | exact Hw | exact Hnd | apply dirname_dotdot; exact Hs | |].
    { intros q B. apply Hr2. rewrite Et. apply strictly_tl. exact B. }
    exists f1. split; [exact E1|]. pose proof E1 as E2. apply makedirs_text_done in E2 as [_ Hd]; [|exact Hnd | apply dirname_dotdot; exact Hs].
    pose proof E1 as E3. eapply (safe_run _ _ (only_file_refl _) (only_file_trans _)) in E3 as (HO & Hi1 & _); [|apply makedirs_dir_safe; exact Hs | exact Hi].
    eapply (safe_run _ _ (adds_dirs_refl _) (adds_dirs_trans _)) in E1 as (HA & _ & _); [|apply makedirs_dinv; apply dirname_dotdot; exact Hs | split; auto].
    split; [exact Hi1|]. split; [exact HO|].
    assert (Elk : look f1 t = look f t).
    { destruct (HA t) as [E|(_ & _ & B)]; [exact E|]. exfalso. apply below_longer in B. rewrite Et in B. cbn in B. lia. }
    split; [exact Elk|].
    assert (Hdt : dirs_to f1 (if is_abs s then [] else cwd) (comps s)).
    { rewrite (plain_path_comps s Hs). assert (Hd2 : look f1 (rev (comps (dirname s)) ++ (match is_abs s return list str with true => [] | false => cwd end)) = Some NDir).
      { rewrite <- Hd. unfold target. rewrite is_abs_dirname by apply Hs. reflexivity. }
      apply dirs_to_snoc; [|exact Hd2]. apply wf_dirs_to; [apply Hi1|]. intros EE. assert (X : Some NDir = None) by (etransitivity; [symmetry; exact Hd2 | exact EE]). discriminate. }
    split; [|exact Hdt]. apply locate_plain; [apply plain_nonempty; exact Hs | apply Hs | apply Hi1|]. split; [reflexivity | exact Hdt].
  Qed.
  Lemma wfr_total {A} (body : path -> prog A) f : winv cwd s f -> room f t ->
    (forall f1, winv cwd s f1 -> only_file t f f1 -> look f1 t = Some (NFile []) -> exists a f2, run (body t) [] f1 = (Done a, [], f2)) ->
    exists a f2, run (write_file_or_remove cwd s body) [] f = (Done a, [], f2).
  Proof.
    intros Hi Hr Hb. destruct (dirs_total f Hi Hr) as (f1 & E1 & Hi1 & HO & Elk & El & _).
    assert (Eo : run (open_w cwd s) [] f1 = (Done t, [], put t (NFile []) f1)).
    { unfold open_w, sys, sys_part. cbn [run]. unfold f_open_w. rewrite El. cbn [rbind]. rewrite Elk. destruct Hr as [Hr _].
      destruct (look f t) as [[y| |z]|]; [reflexivity | congruence | reflexivity | reflexivity]. }
    pose proof Eo as Eo2. eapply (safe_run _ _ (only_file_refl _) (only_file_trans _)) in Eo2 as (HO2 & Hi2 & _); [|apply open_safe; exact Hs | exact Hi1].
    destruct (Hb (put t (NFile []) f1)) as (a & f2 & E2); [exact Hi2 | eapply only_file_trans; eassumption | apply look_put_same; apply target_nonempty; exact Hs|].
    exists a, f2. unfold write_file_or_remove. rewrite run_catch, (run_bind0 _ _ _ tt f1 E1), (run_bind0 _ _ _ t _ Eo).
    unfold with_close. rewrite (run_bind0 _ _ _ a f2); [reflexivity|]. rewrite run_catch, E2. reflexivity.
  Qed.
End Write.

Section Total.
  Variable cwd : path.
  Variable base : str.
  Variable zstd : bytes -> result bytes.
  Variable sha1 : str -> str.
  Hypothesis sha1_ok : forall s, valid_name (sha1 s).
  Variable get : str -> result bytes.
  Variable sdir : str.
  Notation ready_ := (storage_ready cwd base).
  Notation outp := (extract_path sdir).
  Notation tgt m := (target cwd (extract_path sdir m)).
  Notation S_ := (store_dir cwd base).
  Notation cdn id := (lit "channels/public/bundles/" ++ hexu 16 id ++ lit ".bundle").

  (** ** One extraction *)

  Lemma load_total c f d : ready_ f -> chunk_data cwd base zstd f c d -> run (load_chunk cwd base zstd c) [] f = (Done d, [], f).
  Proof.
    intros R (id & b & Hc & Hl & Hz). unfold load_chunk. rewrite Hc. unfold bundle_path, fmt_id. cbn [of_opt rmap lift].
    set (p := lit "channels/public/bundles/" ++ hexu 16 id ++ lit ".bundle"). rewrite (run_bind0 (Ret p) _ f p f) by reflexivity.
    assert (Ep : bundle_path (Some id) = Ok p) by reflexivity.
    destruct (bundle_facts cwd base sha1 f id p R Ep) as [Hp Ht]. pose proof (ready_bundle cwd base sha1 f id p R Ep) as Hr. apply ready_winv in Hr as [_ Hi].
    assert (El : locate cwd f true (fspath base p) = Ok (bundle_file cwd base id)) by (rewrite <- Ht; apply locate_ok; [exact Hp | exact Hi | rewrite Ht; congruence]).
    rewrite (run_bind0 (read_file cwd (fspath base p)) _ f b f) by (apply run_sys_nil; rewrite El; cbn [rbind]; rewrite Hl; reflexivity).
    rewrite chunk_slice_eq, Hz. reflexivity.
  Qed.
  Lemma chunks_total real m : plain_path real -> (forall id, target cwd real <> bundle_file cwd base id) ->
    forall f d, ready_ f -> winv cwd real f -> file_data cwd base zstd f m d -> exists f', run (write_chunks cwd base zstd m (target cwd real)) [] f = (Done tt, [], f').
  Proof.
    intros Hp Hnb. unfold write_chunks, file_data. induction (f_chunks m) as [|c cs IH]; intros f d R Hi (ds & HF & _); cbn [for_each]; [exists f; reflexivity|].
    inversion_clear HF as [|? x ? l Hx HF']. rewrite run_bind, (run_bind0 _ _ _ _ _ (load_total c f x R Hx)).
    assert (E2 : run (fwrite (target cwd real) x) [] f = (Done tt, [], f_append (target cwd real) x f)) by reflexivity. rewrite E2.
    pose proof E2 as E3. eapply (safe_run _ _ (only_file_refl _) (only_file_trans _)) in E3 as (HO & Hi2 & _); [|apply fwrite_safe; exact Hp | exact Hi].
    apply (IH _ (concat l)); [eapply winv_storage; [| exact HO | exact R]; eassumption | exact Hi2|]. exists l. split; [|reflexivity].
    clear - HF' HO Hnb. induction HF' as [|c0 y l0 l' H HF IHF]; [apply Forall2_nil | apply Forall2_cons; [|exact IHF]].
    apply (chunk_data_only cwd base zstd _ _ _ c0 y HO Hnb). exact H.
  Qed.
  Lemma real_total real m f d : plain_path real -> (forall id, target cwd real <> bundle_file cwd base id) -> ready_ f -> winv cwd real f ->
    room f (target cwd real) -> file_data cwd base zstd f m d -> exists f', run (extract_real cwd base zstd m real) [] f = (Done tt, [], f').
  Proof.
    intros Hp Hnb R Hi Hr Hd. unfold extract_real, isfile. rewrite (run_bind0 _ _ _ _ _ (run_queryL _ f)).
    destruct (f_isfile cwd real f); [exists f; reflexivity|].
    destruct (wfr_total cwd real Hp (write_chunks cwd base zstd m) f Hi Hr) as ([] & f2 & E); [|eauto].
    intros f1 Hi1 HO _. destruct (chunks_total real m Hp Hnb f1 d) as [f2 E]; [eapply winv_storage; eassumption | exact Hi1 | apply (file_data_only cwd base zstd _ f f1 m d HO Hnb); exact Hd|]. eauto.
  Qed.
  Lemma link_total real o f : plain_path o -> dinv cwd (target cwd (dirname o)) f -> room f (target cwd o) ->
    exists f', run (make_link cwd real o) [] f = (Done tt, [], f').
  Proof.
    intros Ho Hi [Hr1 Hr2]. unfold make_link. pose proof (ot_eq cwd o Ho) as Et.
    set (p0 := catch (remove cwd o) (fun x => if is_oserror x then Ret tt else Rai x)).
    assert (E0 : exists f0, run p0 [] f = (Done tt, [], f0) /\ dinv cwd (target cwd (dirname o)) f0 /\ look f0 (target cwd o) = None /\
      forall q, q <> target cwd o -> look f0 q = look f q).
    { assert (Hs : safe (dinv cwd (target cwd (dirname o))) (only_file (target cwd o)) (fun _ => True) p0) by (apply safe_catch; [apply remove_link_safe; exact Ho|]; intros x; destruct (is_oserror x); exact Logic.I).
      assert (E : exists f0, run p0 [] f = (Done tt, [], f0) /\ look f0 (target cwd o) = None /\ forall q, q <> target cwd o -> look f0 q = look f q).
      { unfold p0. rewrite run_catch. unfold remove, sys, sys_part. cbn [run]. unfold f_remove.
        destruct (locate cwd f false o) as [p|e] eqn:El; cbn [rbind].
        - apply (locate_out cwd o Ho f) in El as [-> _]; [|apply Hi]. pose proof (ot_ne cwd o Ho) as Hne.
          assert (G : look (del (target cwd o) f) (target cwd o) = None /\ forall q, q <> target cwd o -> look (del (target cwd o) f) q = look f q).
          { split; [apply look_del_same; exact Hne|]. intros q Hq. rewrite look_del by exact Hne. apply eqbF in Hq. rewrite Hq. reflexivity. }
          destruct (look f (target cwd o)) as [[y| |z]|] eqn:Elk; [exists (del (target cwd o) f); split; [reflexivity | exact G] | congruence | exists (del (target cwd o) f); split; [reflexivity | exact G] | exists f; split; [reflexivity | auto]].
        - assert (Elk : look f (target cwd o) = None).
          { destruct (look f (target cwd o)) eqn:Elk; [|reflexivity]. exfalso. assert (X : Ok (target cwd o) = Err e); [|discriminate].
            rewrite <- El. symmetry. apply locate_out; [exact Ho | apply Hi|]. split; [reflexivity|]. apply wf_dirs_to; [apply Hi|]. change (look f (target cwd o) <> None). congruence. }
          exists f. apply locate_err in El. cbn [run]. replace (is_oserror e) with true by (destruct e; try contradiction; reflexivity). split; [reflexivity | auto]. }
      destruct E as (f0 & E & H1 & H2). exists f0. split; [exact E|].
      eapply (safe_run _ _ (only_file_refl _) (only_file_trans _)) in E as (_ & Hi0 & _); [|exact Hs | exact Hi]. auto. }
    destruct E0 as (f0 & E0 & Hi0 & Hl0 & Hq0). rewrite (run_bind0 _ _ _ _ _ E0). clear E0.
    destruct (makedirs_total cwd (dirname o) f0) as [f1 E1]; [apply Ho | apply Hi0 | apply Hi0 | apply Hi0 | apply d_dotdot; exact Ho | |].
    { intros q B. rewrite Hq0; [apply Hr2; rewrite Et; apply strictly_tl; exact B|]. apply (ot_not_d cwd o Ho). exact B. }
    rewrite (run_bind0 _ _ _ _ _ E1). pose proof E1 as E2. apply makedirs_text_done in E2 as [_ Hd]; [|apply Hi0 | apply d_dotdot; exact Ho].
    eapply (safe_run _ _ (adds_dirs_refl _) (adds_dirs_trans _)) in E1 as (HA & Hi1 & _); [|apply makedirs_dinv; apply d_dotdot; exact Ho | exact Hi0].
    assert (Hl1 : look f1 (target cwd o) = None).
    { destruct (HA (target cwd o)) as [E|(_ & _ & B)]; [congruence|]. exfalso. apply below_longer in B. rewrite Et in B. cbn in B. lia. }
    assert (Ep : at_loc f1 false (loc_of cwd o) = Ok (target cwd o)).
    { apply at_out; [exact Ho | apply Hi1|]. split; [reflexivity|]. rewrite (plain_path_comps o Ho).
      assert (Hd2 : look f1 (rev (comps (dirname o)) ++ (match is_abs o return list str with true => [] | false => cwd end)) = Some NDir).
      { rewrite <- Hd. symmetry. f_equal. apply (d_eq' cwd o Ho). }
      apply dirs_to_snoc; [|exact Hd2]. apply wf_dirs_to; [apply Hi1|]. intros EE. assert (X : Some NDir = None) by (etransitivity; [symmetry; exact Hd2 | exact EE]). discriminate. }
    exists (put (target cwd o) (NLink (relpath cwd real (dirname o))) f1). unfold symlink, sys, sys_part. cbn [run].
    destruct o as [|c o'] eqn:Eo; [exfalso; apply (plain_nonempty _ Ho); reflexivity|]. rewrite <- Eo in *. unfold create_at. rewrite Ep. cbn [rbind]. rewrite Hl1. reflexivity.
  Qed.

  (** Creating a file keeps room for the other ones. *)
  Lemma room_keeps (T : path -> Prop) f f' p : only_files T f f' -> room f p ->
    (forall t, T t -> ~ strictly_below p t) -> (forall t, T t -> strictly_below t p -> False) -> (T p -> look f' p <> Some NDir) -> room f' p.
  Proof.
    intros HO [H1 H2] Ha Hb Hp. split.
    - destruct (HO p) as [E|[E|(_ & _ & t & Ht & B)]]; [congruence | auto | exfalso; eauto].
    - intros q Bq. destruct (HO q) as [E|[E|(_ & E & _)]]; [rewrite E; auto | exfalso; eapply Ha; eassumption | auto].
  Qed.

  Lemma extract_total sym m o f d : ready_ f -> out_ready cwd base o f -> (sym = false -> forall x, look f (target cwd o) <> Some (NLink x)) ->
    room f (target cwd o) -> (sym = true -> exists h, digest sha1 m h /\ room f (h :: S_)) -> file_data cwd base zstd f m d ->
    exists f', run (extract_to cwd base zstd sha1 sym m o) [] f = (Done tt, [], f').
  Proof.
    intros R Ho Hl Hr Hh Hd. unfold extract_to. destruct sym.
    - destruct (Hh eq_refl) as (h & Hdg & Hrh). pose proof (digest_valid sha1 sha1_ok _ _ Hdg) as Hv.
      destruct (store_facts cwd base f h R Hv) as [Hp Ht]. destruct (store_winv cwd base f h R Hv) as [_ Hi].
      rewrite (proj2 (hexdigest_iff sha1 m h) Hdg). cbn [lift]. rewrite (run_bind0 (Ret h) _ f h f) by reflexivity.
      destruct (real_total (store_path base h) m f d Hp) as [f1 E1]; try assumption; [intros id; rewrite Ht; apply store_not_bundle | rewrite Ht; assumption|].
      rewrite (run_bind0 _ _ _ _ _ E1). pose proof E1 as E2. apply (part1 cwd base zstd) in E2 as (HO & R1 & _ & Hout); [|assumption | assumption].
      apply link_total; [apply Ho | apply (out_dinv cwd base); [apply Hout; exact Ho | exact R1]|].
      destruct Ho as (Hpo & Hn & [A1 A2] & _).
      apply (room_keeps (fun q => q = h :: S_) f f1); [| exact Hr | | |].
      + intros q. destruct (HO q) as [E|[E|(E & E' & B)]]; [auto | auto|]. right. right. split; [exact E|]. split; [exact E'|]. eauto.
      + intros t -> B. apply A1. destruct B as (x & l & E). exists (x :: l ++ [h]). rewrite E. cbn. rewrite <- app_assoc. reflexivity.
      + intros t -> B. apply A2. apply strictly_tl in B. exact B.
      + intros E. exfalso. apply A1. rewrite E. apply below_cons.
    - destruct (direct_ready cwd base o f R Ho (Hl eq_refl)) as [Hp Hi]. apply (real_total o m f d); try assumption.
      intros id. eapply out_not_bundle. exact Ho.
  Qed.

  (** ** What is at an output *)

  Definition at_end (m : mfile) (b : bytes) (f : fs) : Prop :=
    look f (tgt m) = Some (NFile b) \/ exists h, valid_name h /\ linked cwd base (outp m) h b f.
  Definition link_ok (m : mfile) (f : fs) : Prop :=
    forall x, look f (tgt m) = Some (NLink x) -> exists h b, valid_name h /\ linked cwd base (outp m) h b f.
  Lemma at_end_reads m b f : ready_ f -> out_ready cwd base (outp m) f -> at_end m b f -> reads cwd (outp m) b f.
  Proof.
    intros R Ho [Hl|(h & Hv & Hl)].
    - destruct (direct_ready cwd base (outp m) f R Ho) as [Hp Hi]; [congruence|].
      apply reads_iff. exists (tgt m). split; [|assumption]. apply locate_ok; [assumption | assumption | congruence].
    - eapply linked_reads; eassumption.
  Qed.
  Lemma reads_det o b b' f : reads cwd o b f -> reads cwd o b' f -> b = b'.
  Proof. intros H H'. apply reads_iff in H as (p & Hp & H). apply reads_iff in H' as (p' & Hp' & H'). congruence. Qed.
  Lemma reads_at_end m b f : ready_ f -> out_ready cwd base (outp m) f -> link_ok m f -> reads cwd (outp m) b f -> at_end m b f.
  Proof.
    intros R Ho Hk Hr. destruct (look f (tgt m)) as [[c| |x]|] eqn:E.
    - left. rewrite E. do 2 f_equal. apply (reads_det (outp m) c b f); [apply at_end_reads; [assumption.. | left; exact E] | exact Hr].
    - exfalso. apply reads_iff in Hr as (p & Hp & Hl). destruct (direct_ready cwd base (outp m) f R Ho) as [Hpl Hi]; [congruence|].
      rewrite locate_ok in Hp; [congruence | assumption | assumption | congruence].
    - destruct (Hk x E) as (h & c & Hv & Hl). right. exists h. split; [exact Hv|].
      replace b with c; [exact Hl|]. apply (reads_det (outp m) c b f); [|exact Hr]. apply at_end_reads; [assumption.. | right; eauto].
    - exfalso. apply reads_iff in Hr as (p & Hp & Hl). destruct (direct_ready cwd base (outp m) f R Ho) as [Hpl Hi]; [congruence|].
      apply locate_t in Hp as [-> _]; [congruence | assumption | apply Hi].
  Qed.

  (** ** The bundles *)

  Variable f0 : fs.
  Definition from_cdn (f : fs) : Prop := forall id b, look f (bundle_file cwd base id) = Some (NFile b) -> bundle_content cwd base get f0 id b.
  Lemma bundle_content_det id b b' : bundle_content cwd base get f0 id b -> bundle_content cwd base get f0 id b' -> b = b'.
  Proof. intros [H|[H1 H2]] [H'|[H1' H2']]; try congruence. Qed.
  Lemma data_content f m d : from_cdn f -> file_data cwd base zstd f m d -> content cwd base zstd get f0 m d.
  Proof.
    intros HB (ds & HF & ->). exists ds. split; [|reflexivity]. induction HF as [|c x l l' H HF IH]; [apply Forall2_nil | apply Forall2_cons; [|exact IH]].
    destruct H as (id & b & H1 & H2 & H3). exists id, b. auto.
  Qed.
  Lemma content_data f m d : from_cdn f -> has_bundles cwd base m f -> content cwd base zstd get f0 m d -> file_data cwd base zstd f m d.
  Proof.
    intros HB Hh (ds & HF & ->). exists ds. split; [|reflexivity]. unfold has_bundles in Hh. revert Hh.
    induction HF as [|c x l l' H HF IH]; intros Hh; [apply Forall2_nil | apply Forall2_cons; [|apply IH; intros c' Hc'; apply Hh; right; exact Hc']].
    destruct H as (id & b & H1 & H2 & H3). destruct (Hh c (or_introl eq_refl)) as (id' & E & b' & Hb'). assert (id' = id) as -> by congruence.
    exists id, b. split; [exact H1|]. split; [|exact H3]. rewrite Hb'. do 2 f_equal. eapply bundle_content_det; [apply HB; exact Hb' | exact H2].
  Qed.

  (** ** All the extractions *)

  Variable sym : bool.
  Variable sel : list mfile.
  Hypothesis Hplaces : NoDup (map (target cwd) (map outp sel)).
  Hypothesis Hapart : forall o o', In o (map outp sel) -> In o' (map outp sel) -> ~ strictly_below (target cwd o) (target cwd o').
  Variable D : str -> bytes.
  Hypothesis HD : sym = true -> forall m h d, In m sel -> digest sha1 m h -> content cwd base zstd get f0 m d -> D h = d.

  Definition final (m : mfile) (d : bytes) : Prop :=
    content cwd base zstd get f0 m d \/ (reads cwd (outp m) d f0 /\ (sym = true -> Rman.f_size m = Some (lenN d))).
  Definition pending (m : mfile) (f : fs) : Prop :=
    link_ok m f /\ (forall b, at_end m b f -> reads cwd (outp m) b f0) /\
    (ext cwd base sdir m f \/ (rooms cwd base sha1 sym sdir f m /\ exists d, content cwd base zstd get f0 m d)).
  Definition tinv (l : list mfile) (f : fs) : Prop :=
    cinv cwd base sdir sym sel f /\ from_cdn f /\ (sym = true -> store_ok cwd base D f) /\
    (forall m, In m l -> pending m f) /\ (forall m, In m sel -> In m l \/ exists d, at_end m d f /\ final m d).

  (** Another extraction. *)
  Lemma other m m' f f' : In m sel -> In m' sel -> m <> m' -> cinv cwd base sdir sym sel f -> cinv cwd base sdir sym sel f' ->
    run (extract_to cwd base zstd sha1 sym m' (outp m')) [] f = (Done tt, [], f') ->
    (forall b, at_end m b f -> at_end m b f') /\ (pending m f -> pending m f').
  Proof.
    intros Hm Hm' Hne HC HC' E. pose proof HC as (R & Ho & Hnl & _). pose proof HC' as (R' & Ho' & Hnl' & _).
    assert (Hnt : tgt m <> tgt m') by (intros Et; apply Hne; eapply places; eassumption).
    pose proof (Hapart (outp m) (outp m') (in_map _ _ _ Hm) (in_map _ _ _ Hm')) as Ha1.
    pose proof (Hapart (outp m') (outp m) (in_map _ _ _ Hm') (in_map _ _ _ Hm)) as Ha2.
    set (T := fun q => q = tgt m' \/ (sym = true /\ exists h, digest sha1 m' h /\ q = h :: S_)).
    assert (HO : only_files T f f').
    { unfold T. destruct sym.
      - apply extract_frame in E as (HO & _); [|exact sha1_ok | exact R | apply Ho; exact Hm'].
        intros q. destruct (HO q) as [E1|[[E1|(h & Hh & E1)]|(E1 & E2 & t & [Et|(h & Hh & Et)] & B)]]; [auto | auto | right; left; right; eauto | |].
        + right. right. split; [exact E1|]. split; [exact E2|]. exists t. split; [left; exact Et | exact B].
        + right. right. split; [exact E1|]. split; [exact E2|]. exists t. split; [right; eauto | exact B].
      - destruct (direct_ready cwd base (outp m') f R (Ho m' Hm')) as [Hp Hi]; [intros x; apply Hnl; auto|].
        cbn [extract_to] in E. apply real_frame in E as [HO _]; [|exact Hp | exact Hi].
        intros q. destruct (HO q) as [E1|[E1|(E1 & E2 & B)]]; [auto | auto|]. right. right. split; [exact E1|]. split; [exact E2|]. exists (tgt m'). auto. }
    assert (Hst : forall h, sym = true -> digest sha1 m' h -> exists b, look f' (h :: S_) = Some (NFile b)).
    { intros h Hsym Hh. rewrite Hsym in E. apply extract_done in E as (h' & data & Hh' & [_ HL] & _); [|exact sha1_ok | exact R | apply Ho; exact Hm'].
      apply hexdigest_iff in Hh. apply hexdigest_iff in Hh'. assert (h' = h) as -> by congruence. eauto. }
    assert (Hlook : look f' (tgt m) = look f (tgt m) \/ look f' (tgt m) = Some NDir).
    { destruct (HO (tgt m)) as [E1|[[E1|(_ & h & _ & E1)]|(_ & E1 & _)]]; [auto | congruence | | auto]. exfalso. eapply out_not_store; [apply Ho; exact Hm | exact E1]. }
    assert (Hkeep : forall h b, linked cwd base (outp m) h b f -> linked cwd base (outp m) h b f').
    { intros h b HL. pose proof HL as [HL1 _]. destruct sym eqn:Hsym; [|exfalso; exact (Hnl eq_refl m _ Hm HL1)].
      eapply (extract_keeps_link cwd base zstd sha1 sha1_ok m' (outp m')); [exact R | apply Ho; exact Hm' | apply Ho; exact Hm | exact Hnt | exact E | exact HL]. }
    assert (Hfile : forall n, n <> NDir -> look f (tgt m) = Some n -> look f' (tgt m) = Some n).
    { intros n Hn El. destruct (HO (tgt m)) as [E1|[[E1|(_ & h & _ & E1)]|(E1 & _)]]; [congruence | congruence | | congruence]. exfalso. eapply out_not_store; [apply Ho; exact Hm | exact E1]. }
    assert (Hat : forall b, at_end m b f -> at_end m b f').
    { intros b [Hl|(h & Hv & Hl)]; [left; apply Hfile; [discriminate | exact Hl] | right; exists h; auto]. }
    split; [exact Hat|]. intros (Hk & Hb & Hx). split; [|split].
    - intros x El. destruct Hlook as [E1|E1]; [|congruence]. rewrite E1 in El. destruct (Hk x El) as (h & b & Hv & HL). exists h, b. auto.
    - intros b [Hl|(h & Hv & [Hl1 Hl2])].
      + destruct Hlook as [E1|E1]; [|congruence]. apply Hb. left. congruence.
      + destruct Hlook as [E1|E1]; [|congruence]. rewrite E1 in Hl1. destruct (Hk _ Hl1) as (h' & b' & Hv' & HL).
        assert (b = b') as ->; [|apply Hb; right; eauto].
        apply (reads_det (outp m) b b' f'); apply at_end_reads; auto; right; [exists h; split; [exact Hv|]; split; [congruence | exact Hl2] | exists h'; auto].
    - destruct Hx as [(b & Hs & Hl)|[[Hr1 Hr2] Hd]].
      + left. exists b. split; [exact Hs|]. apply Hat. exact Hl.
      + right. split; [|exact Hd]. destruct (Ho m Hm) as (_ & _ & [A1 A2] & _). destruct (Ho m' Hm') as (_ & _ & [B1 B2] & _). split.
        * apply (room_keeps T f f' (tgt m) HO Hr1).
          -- intros t [->|(_ & h & _ & ->)] B; [exact (Ha1 B)|]. apply A1. destruct B as (x & l & Eq). exists (x :: l ++ [h]). rewrite Eq. cbn. rewrite <- app_assoc. reflexivity.
          -- intros t [->|(_ & h & _ & ->)] B; [exact (Ha2 B)|]. apply A2. apply strictly_tl in B. exact B.
          -- intros [Et|(_ & h & _ & Et)]; [congruence|]. exfalso. apply A1. rewrite Et. apply below_cons.
        * intros Hsym. destruct (Hr2 Hsym) as (h & Hh & Hr). exists h. split; [exact Hh|]. apply (room_keeps T f f' (h :: S_) HO Hr).
          -- intros t [->|(_ & h' & _ & ->)] B; apply strictly_tl in B; [exact (B2 B)|]. apply below_longer in B. cbn in B. lia.
          -- intros t [->|(_ & h' & _ & ->)] B; [|apply strictly_longer in B; cbn in B; lia]. apply B1. destruct B as (x & l & Eq). exists (x :: l ++ [h]). rewrite Eq. cbn. rewrite <- app_assoc. reflexivity.
          -- intros [Et|(_ & h' & Hh' & Et)]; [exfalso; apply B1; rewrite <- Et; apply below_cons|].
             destruct (Hst h' Hsym Hh') as [b Eb]. rewrite Et, Eb. discriminate.
  Qed.
  Lemma from_cdn_step m f f' : In m sel -> cinv cwd base sdir sym sel f -> run (extract_to cwd base zstd sha1 sym m (outp m)) [] f = (Done tt, [], f') -> from_cdn f -> from_cdn f'.
  Proof.
    intros Hm (R & Ho & Hnl & _) E HB id b Hl. apply HB. destruct sym.
    - apply extract_frame in E as (HO & _); [|exact sha1_ok | exact R | apply Ho; exact Hm]. apply (frame_bundles cwd base sha1 m (outp m) f f' id b (Ho m Hm) HO). exact Hl.
    - destruct (direct_ready cwd base (outp m) f R (Ho m Hm)) as [Hp Hi]; [intros x; apply Hnl; auto|].
      cbn [extract_to] in E. apply real_frame in E as [HO _]; [|exact Hp | exact Hi].
      destruct (HO (bundle_file cwd base id)) as [E1|[E1|(_ & E1 & _)]]; [congruence | | congruence]. exfalso. eapply out_not_bundle; [apply Ho; exact Hm | symmetry; exact E1].
  Qed.
  Lemma is_extracted_total m f : exists b, run (is_extracted cwd sdir m) [] f = (Done b, [], f).
  Proof.
    unfold is_extracted, isfile. rewrite (run_bind0 _ _ _ _ _ (run_queryL _ f)).
    destruct (f_isfile cwd (outp m) f) eqn:Ef; [|eexists; reflexivity]. unfold f_isfile, node_of in Ef.
    destruct (locate cwd f true (outp m)) as [p|] eqn:El; [|discriminate]. destruct (look f p) as [[b| |x]|] eqn:Elk; try discriminate.
    rewrite (run_bind0 (getsize cwd (outp m)) _ f (lenN b) f) by (apply run_sys_nil; rewrite El; cbn [rbind]; rewrite Elk; reflexivity).
    eexists. reflexivity.
  Qed.
  Lemma step_total m l f : In m sel -> ~ In m l -> (forall x, In x l -> In x sel) -> tinv (m :: l) f ->
    exists f', run (extract_file cwd base zstd sha1 sym sdir false m) [] f = (Done tt, [], f') /\ tinv l f'.
  Proof.
    intros Hm Hni Hl (HC & HB & HS & HP & HF). pose proof HC as (R & Ho & Hnl & Hav). destruct (HP m (or_introl eq_refl)) as (Hk & Hb & Hx).
    unfold extract_file. destruct (run_nil_plan (is_extracted cwd sdir m) f) as (o1 & f1 & E1). pose proof E1 as E1'. apply is_extracted_run in E1 as [-> He].
    assert (Hnr : exists b, o1 = Done b) by (destruct (is_extracted_total m f) as [b Eb]; exists b; congruence).
    destruct Hnr as [b ->]. specialize (He b eq_refl). rewrite (run_bind0 _ _ _ _ _ E1'). destruct b.
    - exists f. split; [reflexivity|]. split; [exact HC|]. split; [exact HB|]. split; [exact HS|]. split; [intros x Hx'; apply HP; right; exact Hx'|].
      intros x Hxs. destruct (HF x Hxs) as [[<-|Hin]|H]; [|auto | auto]. right. destruct He as [He _]. destruct (He eq_refl) as (d & Hrd & Hsz).
      apply reads_at_end in Hrd; [|exact R | apply Ho; exact Hm | exact Hk]. exists d. split; [exact Hrd|]. right. split; [apply Hb; exact Hrd | auto].
    - assert (Hne : ~ ext cwd base sdir m f).
      { intros Hxx. apply (ext_extracted cwd base) in Hxx; [|exact R | apply Ho; exact Hm]. apply He in Hxx. discriminate. }
      destruct Hx as [Hx|[[Hr1 Hr2] [d Hd]]]; [contradiction|]. destruct (Hav m Hm) as [Hx|Hbun]; [contradiction|].
      pose proof (content_data f m d HB Hbun Hd) as Hfd.
      destruct (extract_total sym m (outp m) f d R (Ho m Hm)) as [f' E]; [intros Hs x; apply Hnl; [exact Hs | exact Hm] | exact Hr1 | exact Hr2 | exact Hfd|].
      exists f'. split; [exact E|].
      assert (HC' : cinv cwd base sdir sym sel f').
      { eapply (extract_file_cinv cwd base zstd sha1 sha1_ok sdir sym sel Hplaces Hapart m [] f (Done tt) [] f' Hm HC). unfold extract_file. rewrite (run_bind0 _ _ _ _ _ E1'). exact E. }
      pose proof HC' as (R' & Ho' & Hnl' & _).
      assert (HN : sym = true -> named cwd base zstd sha1 D f m) by (intros Hs h d' Hh Hfd'; apply (HD Hs m h d' Hm Hh); eapply data_content; eassumption).
      split; [exact HC'|]. split; [exact (from_cdn_step m f f' Hm HC E HB)|]. split; [|split].
      + intros Hs. specialize (HS Hs). specialize (HN Hs). rewrite Hs in E. eapply extract_store_ok; [exact sha1_ok | exact R | apply Ho; exact Hm | exact E | exact Logic.I | exact HS | exact HN].
      + intros x Hxl. apply (other x m f f' (Hl x Hxl) Hm); [intros ->; contradiction | exact HC | exact HC' | exact E | apply HP; right; exact Hxl].
      + intros x Hxs. assert (Hdec : x = m \/ x <> m) by (destruct (eqbP (tgt x) (tgt m)) as [Et|Hnt]; [left; eapply places; eassumption | right; congruence]).
        destruct Hdec as [->|Hxm].
        * right. destruct sym eqn:Hs.
          -- apply (extract_reads cwd base zstd sha1 sha1_ok D) in E as (h & Hh & _ & HL); [|exact R | apply Ho; exact Hm | apply HS; reflexivity | apply HN; reflexivity].
             exists (D h). split; [right; exists h; split; [eapply digest_valid; eassumption | exact HL]|]. left. rewrite (HD eq_refl m h d Hm Hh Hd). exact Hd.
          -- destruct (direct_ready cwd base (outp m) f R (Ho m Hm)) as [Hp Hi]; [intros y; apply Hnl; auto|]. cbn [extract_to] in E.
             apply (real_done cwd base zstd sha1) in E as (data & Hld & Hor); [|exact Hp | intros id; eapply out_not_bundle; apply Ho; exact Hm | exact R | exact Hi].
             exists data. split; [left; exact Hld|]. destruct Hor as [[Hlf _]|[_ Hff]]; [right; split; [apply Hb; left; exact Hlf | intros; congruence] | left; eapply data_content; eassumption].
        * destruct (HF x Hxs) as [[E2|Hin]|(d' & Hat & Hfi)]; [congruence | auto|]. right. exists d'. split; [|exact Hfi]. apply (other x m f f'); auto.
  Qed.
  Lemma steps_total : forall l f, NoDup l -> (forall x, In x l -> In x sel) -> tinv l f ->
    exists f', run (for_each l (extract_file cwd base zstd sha1 sym sdir false)) [] f = (Done tt, [], f') /\ tinv [] f'.
  Proof.
    induction l as [|m l IH]; intros f Hnd Hl HT; cbn [for_each]; [exists f; split; [reflexivity | exact HT]|].
    inversion_clear Hnd as [|? ? Hni Hnd']. destruct (step_total m l f) as (f1 & E1 & HT1); [apply Hl; left; reflexivity | exact Hni | intros x Hx; apply Hl; right; exact Hx | exact HT|].
    rewrite (run_bind0 _ _ _ _ _ E1). apply IH; [exact Hnd' | intros x Hx; apply Hl; right; exact Hx | exact HT1].
  Qed.

  (** ** The whole download *)

  Lemma not_extracted_total : forall l f, exists r, run (not_extracted cwd sdir l) [] f = (Done r, [], f) /\ forall m, In m r -> In m l /\ ~ extracted cwd sdir m f.
  Proof.
    induction l as [|m l IH]; intros f; cbn [not_extracted]; [exists []; split; [reflexivity | intros m []]|].
    destruct (is_extracted_total m f) as [b Eb]. rewrite (run_bind0 _ _ _ _ _ Eb). apply is_extracted_run in Eb as [_ Hb]. specialize (Hb b eq_refl).
    destruct (IH f) as (r & E & Hr). rewrite (run_bind0 _ _ _ _ _ E). destruct b.
    - exists r. split; [reflexivity|]. intros x Hx. destruct (Hr x Hx). split; [right; assumption | assumption].
    - exists (m :: r). split; [reflexivity|]. intros x [<-|Hx]; [split; [left; reflexivity | intros He; apply Hb in He; discriminate] | destruct (Hr x Hx); split; [right; assumption | assumption]].
  Qed.
  Lemma made_link m b f : ready_ f -> out_ready cwd base (outp m) f ->
    (forall x, look f (tgt m) = Some (NLink x) -> exists h, valid_name h /\ x = relpath cwd (store_path base h) (dirname (outp m))) ->
    reads cwd (outp m) b f -> at_end m b f.
  Proof.
    intros R Ho Hlk Hr. set (m' := {| f_name := f_name m; Rman.f_size := Some (lenN b); f_link := f_link m; f_flags := f_flags m; f_chunks := f_chunks m |}).
    destruct (extracted_ext cwd base sdir m' f R Ho Hlk) as (c & Hs & Hc); [exists b; split; [exact Hr | reflexivity]|].
    assert (c = b) as <-; [|exact Hc]. apply (reads_det (outp m) c b f); [|exact Hr]. apply at_end_reads; assumption.
  Qed.

  Variable manif : manifest.
  Variable lower : str -> str.
  Variable langs : langs_arg.
  Hypothesis Hsel : selected manif lower langs = Ok sel.
  Hypothesis Hready : ready_ f0.
  Hypothesis Hout : outputs_ready cwd base sym (map outp sel) f0.
  Hypothesis Hfree : bundle_dir_free cwd base f0.
  Hypothesis Hnames : forall m, In m sel -> f_name m <> None.
  Hypothesis Hdangle : forall m x, In m sel -> look f0 (tgt m) = Some (NLink x) -> exists b, reads cwd (outp m) b f0.
  Hypothesis Hstore : sym = true -> store_ok cwd base D f0.
  Hypothesis Hneed : forall m, In m sel -> extracted cwd sdir m f0 \/ (rooms cwd base sha1 sym sdir f0 m /\ exists d, content cwd base zstd get f0 m d).

  Lemma ids_total : exists ids, run (bundle_ids cwd sdir manif lower langs true) [] f0 = (Done ids, [], f0) /\
    forall s, In s ids -> exists id b, s = Some id /\ bundle_content cwd base get f0 id b.
  Proof.
    unfold bundle_ids. rewrite Hsel. cbn [lift]. rewrite (run_bind0 (Ret sel) _ f0 sel f0) by reflexivity.
    destruct (not_extracted_total sel f0) as (r & E & Hr). rewrite (run_bind0 _ _ _ _ _ E).
    assert (Hi : forall s, In s (ids_of r) -> exists id b, s = Some id /\ bundle_content cwd base get f0 id b).
    { intros s Hs. unfold ids_of in Hs. rewrite set_of_In in Hs. apply in_flat_map in Hs as (m & Hm & Hs). apply in_map_iff in Hs as (c & <- & Hc).
      destruct (Hr m Hm) as [Hms Hne]. destruct (Hneed m Hms) as [He|[_ (d & ds & HF & _)]]; [contradiction|].
      clear - HF Hc. induction HF as [|c0 x l l' H HF IH]; [destruct Hc|]. destruct Hc as [<-|Hc]; [|auto]. destruct H as (id & b & H1 & H2 & _). eauto. }
    unfold sort_ids. replace (mem None (ids_of r)) with false.
    - cbn [andb lift]. eexists. split; [reflexivity|]. intros s Hs. apply Hi. eapply Permutation_in; [symmetry; apply py_sorted_perm | exact Hs].
    - symmetry. apply mem_false. intros Hin. destruct (Hi _ Hin) as (id & b & E1 & _). discriminate.
  Qed.
  Lemma needed_iff ids : run (bundle_ids cwd sdir manif lower langs true) [] f0 = (Done ids, [], f0) ->
    forall id, In id ids <-> exists m c, In m sel /\ ~ extracted cwd sdir m f0 /\ In c (f_chunks m) /\ id = c_bundle c.
  Proof.
    unfold bundle_ids. rewrite Hsel. cbn [lift]. rewrite (run_bind0 (Ret sel) _ f0 sel f0) by reflexivity.
    destruct (not_extracted_total sel f0) as (r & E & Hr). rewrite (run_bind0 _ _ _ _ _ E). apply not_extracted_run in E as [_ Hr'].
    destruct (sort_ids (ids_of r)) as [l|e] eqn:Es; cbn [lift]; intros E; [|discriminate]. apply (f_equal (fun x => match fst (fst x) with Done y => y | _ => [] end)) in E. cbn in E. subst l.
    apply sort_ids_perm in Es. intros id. assert (Hi : In id ids <-> In id (ids_of r)) by (split; apply Permutation_in; [symmetry|]; exact Es).
    rewrite Hi. unfold ids_of. rewrite set_of_In, in_flat_map. split.
    - intros (m & Hm & Hc). apply in_map_iff in Hc as (c & <- & Hc). destruct (Hr m Hm). exists m, c. auto.
    - intros (m & c & Hm & He & Hc & ->). exists m. destruct (Hr' m Hm) as [H|H]; [contradiction|]. split; [exact H | apply in_map; exact Hc].
  Qed.
  Lemma sorted_total : exists l, sort_files sel = Ok l /\ NoDup l /\ forall m, In m l <-> In m sel.
  Proof.
    unfold sort_files. replace (existsb _ sel) with false.
    - cbn [andb]. eexists. split; [reflexivity|]. pose proof (py_sorted_perm name_lt sel) as HP. split.
      + eapply Permutation_NoDup; [exact HP|]. apply NoDup_map_inv in Hplaces. apply NoDup_map_inv in Hplaces. exact Hplaces.
      + intros m. split; intros H; [eapply Permutation_in; [symmetry; exact HP | exact H] | eapply Permutation_in; [exact HP | exact H]].
    - symmetry. apply not_true_is_false. intros H. apply existsb_exists in H as (m & Hm & E). destruct (f_name m) eqn:En; [discriminate|]. exact (Hnames m Hm En).
  Qed.

  Lemma download_total : exists ids, run (bundle_ids cwd sdir manif lower langs true) [] f0 = (Done ids, [], f0) /\
    forall ps f2, interleave false (bundle_jobs cwd base get ids, f0) (ps, f2) -> Forall ended ps ->
      Forall (fun p => p = Ret tt) ps /\
      exists f3, run (extract cwd base zstd sha1 sym sdir manif lower langs false) [] f2 = (Done tt, [], f3) /\
        forall m, In m sel -> exists d, reads cwd (outp m) d f3 /\ final m d.
  Proof.
    destruct ids_total as (ids & Eids & Hids). exists ids. split; [exact Eids|]. intros ps f2 Hil Hend.
    pose proof (ids_NoDup _ _ _ _ _ _ _ _ _ _ _ Eids) as Hnd.
    pose proof (outcomes cwd base get f0 Hready ids Hnd ps f2 Hil Hend) as Hoc.
    assert (Hps : Forall (fun p => p = Ret tt) ps).
    { clear - Hoc Hids Hfree. induction Hoc as [|s p l l' H HF IH]; [constructor|]. constructor; [|apply IH; intros x Hx; apply Hids; right; exact Hx].
      destruct (Hids s (or_introl eq_refl)) as (id & b & -> & Hb). apply H. exists id. split; [reflexivity|]. split; [exact Hfree|].
      destruct Hb as [Hb|[Hb1 Hb2]]; [left; exists b; exact Hb | right; eauto]. }
    split; [exact Hps|].
    pose proof (download_cinv cwd base get sdir sym sel manif lower langs [] f0 ids [] f0 false ps f2 Hsel Hready Hout Eids Hil Hps) as HC.
    destruct (untouched cwd base get f0 Hready ids Hnd false ps f2 Hil) as (R2 & HO & HF2).
    assert (Ho : forall m, In m sel -> out_ready cwd base (outp m) f0) by (intros m Hm; apply (or_ready _ _ _ _ _ Hout); apply in_map; exact Hm).
    assert (Hsame : forall q n, (forall id, q <> bundle_file cwd base id) -> n <> NDir -> look f2 q = Some n <-> look f0 q = Some n).
    { intros q n Hq Hn. destruct (HO q) as [E|[(id & _ & _ & _ & E)|(E1 & E2 & _)]]; [rewrite E; reflexivity | exfalso; exact (Hq id E)|]. rewrite E1, E2. split; congruence. }
    assert (Hob : forall m, In m sel -> forall id, tgt m <> bundle_file cwd base id) by (intros m Hm id; eapply out_not_bundle; apply Ho; exact Hm).
    assert (Hsb : forall h id, h :: S_ <> bundle_file cwd base id) by (intros h id; apply store_not_bundle).
    assert (Hlinked : forall m h b, In m sel -> linked cwd base (outp m) h b f2 <-> linked cwd base (outp m) h b f0).
    { intros m h b Hm. unfold linked. rewrite (Hsame (tgt m)), (Hsame (h :: S_)); [reflexivity | apply Hsb | discriminate | apply Hob; exact Hm | discriminate]. }
    assert (Hat : forall m b, In m sel -> at_end m b f2 <-> at_end m b f0).
    { intros m b Hm. unfold at_end. rewrite (Hsame (tgt m)); [|apply Hob; exact Hm | discriminate]. split; (intros [H|(h & Hv & H)]; [left; exact H | right; exists h; split; [exact Hv | apply (Hlinked m h b Hm); exact H]]). }
    assert (Hmade : forall m, In m sel -> forall x, look f0 (tgt m) = Some (NLink x) -> exists h, valid_name h /\ x = relpath cwd (store_path base h) (dirname (outp m))).
    { intros m Hm x Hx. apply (or_links _ _ _ _ _ Hout (outp m)); [apply in_map; exact Hm | exact Hx]. }
    assert (HT : forall l, (forall m, In m l <-> In m sel) -> tinv l f2).
    { intros l Hl. split; [exact HC|]. split; [|split; [|split]].
      - intros id b Hb. destruct (HO (bundle_file cwd base id)) as [E|[(id' & Hin & Hnf & _ & E)|(_ & E & _)]]; [left; congruence | | congruence].
        assert (id' = id) as ->.
        { apply (f_equal (hd [])) in E. cbn [hd bundle_file] in E. apply app_inv_tail in E. apply hexu_inj in E. symmetry. exact E. }
        destruct (In_nth _ _ None Hin) as (k & Hk & Ek).
        assert (G : forall s p, In (s, p) (combine ids ps) -> p = Ret tt -> exists id, s = Some id /\
          ((is_file f0 (bundle_file cwd base id) /\ look f2 (bundle_file cwd base id) = look f0 (bundle_file cwd base id)) \/
           (look f0 (bundle_file cwd base id) = None /\ exists data, get (cdn id) = Ok data /\ look f2 (bundle_file cwd base id) = Some (NFile data)))).
        { clear - HF2. induction HF2 as [|s p l l' H HF IH]; intros s' p'; cbn [combine]; [intros []|]. intros [E|Hin]; [injection E as <- <-; exact H | apply IH; exact Hin]. }
        assert (X : exists p, In (Some id, p) (combine ids ps)).
        { clear - HF2 Hin. induction HF2 as [|s p l l' H HF IH]; [destruct Hin|]. cbn [combine]. destruct Hin as [->|Hin]; [exists p; left; reflexivity | destruct (IH Hin) as [p' Hp']; exists p'; right; exact Hp']. }
        destruct X as [p Hp]. assert (Hpp : p = Ret tt) by (rewrite Forall_forall in Hps; apply Hps; eapply in_combine_r; exact Hp).
        destruct (G _ _ Hp Hpp) as (i & Ei & [[Hf _]|(H1 & d & H2 & H3)]); injection Ei as <-; [contradiction|]. right. split; [exact H1|]. rewrite H2. congruence.
      - intros Hs h b Hb. apply (Hstore Hs). apply (Hsame (h :: S_)); [apply Hsb | discriminate | exact Hb].
      - intros m Hm. apply Hl in Hm. split; [|split].
        + intros x Hx. apply Hsame in Hx; [|apply Hob; exact Hm | discriminate]. destruct (Hdangle m x Hm Hx) as [b Hb].
          apply made_link in Hb; [|exact Hready | apply Ho; exact Hm | apply Hmade; exact Hm]. destruct Hb as [Hb|(h & Hv & HL)]; [congruence|]. exists h, b. split; [exact Hv|]. apply Hlinked; [exact Hm | exact HL].
        + intros b Hb. apply Hat in Hb; [|exact Hm]. apply at_end_reads; [exact Hready | apply Ho; exact Hm | exact Hb].
        + destruct (Hneed m Hm) as [He|[[Hr1 Hr2] Hd]]; [left|right].
          * destruct He as (b & Hb & Hsz). apply made_link in Hb; [|exact Hready | apply Ho; exact Hm | apply Hmade; exact Hm]. exists b. split; [exact Hsz|]. apply (Hat m b Hm). exact Hb.
          * split; [|exact Hd]. destruct (Ho m Hm) as (_ & _ & _ & [A1 A2]).
            assert (HO' : only_files (fun q => exists id, q = bundle_file cwd base id) f0 f2).
            { intros q. destruct (HO q) as [E|[(id & _ & _ & _ & E)|(E1 & E2 & t & (id & _ & _ & _ & Et) & B)]]; [auto | right; left; eauto|]. right. right. split; [exact E1|]. split; [exact E2|]. exists t. eauto. }
            split.
            -- apply (room_keeps _ f0 f2 _ HO' Hr1).
               ++ intros t [id ->] B. apply A1. destruct B as (x & l0 & Eq). exists (x :: l0 ++ [hexu 16 id ++ lit ".bundle"]). rewrite Eq. cbn. unfold bundle_file. rewrite <- app_assoc. reflexivity.
               ++ intros t [id ->] B. apply A2. apply strictly_tl in B. exact B.
               ++ intros [id E]. exfalso. exact (Hob m Hm id E).
            -- intros Hs. destruct (Hr2 Hs) as (h & Hh & Hr). exists h. split; [exact Hh|]. destruct (store_bundle_apart cwd base) as [B1 B2]. apply (room_keeps _ f0 f2 _ HO' Hr).
               ++ intros t [id ->] B. apply B1. apply strictly_tl in B. eapply below_trans; [exact B | apply below_cons].
               ++ intros t [id ->] B. apply B2. apply strictly_tl in B. eapply below_trans; [exact B | apply below_cons].
               ++ intros [id E]. exfalso. exact (Hsb h id E).
      - intros m Hm. left. apply Hl. exact Hm. }
    destruct sorted_total as (l & El & Hndl & Hl). destruct (steps_total l f2 Hndl (fun x Hx => proj1 (Hl x) Hx) (HT l Hl)) as (f3 & E3 & HC3 & _ & _ & _ & Hfin).
    exists f3. split.
    - unfold extract. rewrite Hsel. cbn [lift]. rewrite (run_bind0 (Ret sel) _ f2 sel f2) by reflexivity. rewrite El. cbn [lift]. rewrite (run_bind0 (Ret l) _ f2 l f2) by reflexivity. exact E3.
    - intros m Hm. destruct (Hfin m Hm) as [[]|(d & Hd & Hfd)]. exists d. split; [|exact Hfd]. destruct HC3 as (R3 & Ho3 & _). apply at_end_reads; [exact R3 | apply Ho3; exact Hm | exact Hd].
  Qed.
End Total.
