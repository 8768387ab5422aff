(** * Proofs about bundles downloaded by several threads *)

From Verif Require Import Base.Py Base.Text Base.PyFacts Base.TextFacts Base.PathFacts Base.Fs Spec.FsSpec Base.FsFacts Spec.FilesSpec Model.Files Proofs.FilesProofs Base.FsLinks Base.FsThreads Model.Rman Model.Patcher Spec.PatcherSpec Proofs.PatcherExtractProofs.

Lemma dirs_to_snoc f start cs x : fs_wf f -> look f (rev cs ++ start) = Some NDir -> dirs_to f start (cs ++ [x]).
Proof.
  intros Hw Hl a b E Ha Hb. destruct (exists_last Hb) as (b' & y & ->). rewrite app_assoc in E. apply app_inj_tail in E as [-> _].
  destruct b' as [|z b']; [rewrite app_nil_r in Hl; exact Hl|]. rewrite rev_app_distr, <- app_assoc in Hl.
  eapply wf_parents; [exact Hw | rewrite Hl; discriminate|]. cbn [rev]. intros E. apply app_eq_nil in E as [_ E]. discriminate.
Qed.
(** A conclusion under a condition. *)
Lemma rgt_under {A} flt (I : fs -> Prop) (Rely : fs -> fs -> Prop) (P : Prop) (Q : A -> fs -> Prop) (X : exn -> fs -> Prop) (p : prog A) : forall f,
  (P -> rgt flt I Rely Q X p f) -> rgt flt I Rely (fun a f => P -> Q a f) (fun e f => P -> X e f) p f.
Proof.
  induction p as [a|e|eff k IH]; cbn [rgt]; intros f H; [intros; apply H; assumption | intros; apply H; assumption|].
  intros f' o H1 H2 H3. apply IH. intros HP. apply H; assumption.
Qed.

(** ** One download among other threads *)

Section Thread.
  Variable flt : bool.
  Variable cwd : path.
  Variable fp : str.
  Hypothesis Hp : plain_path fp.
  Notation t := (target cwd fp).
  Notation B := (target cwd (dirname fp)).
  (** The filesystem when the thread starts. *)
  Variable f0 : fs.
  (** Nothing but directories on the way. *)
  Variable unb : Prop.
  Variable I : fs -> Prop.
  Variable Rely : fs -> fs -> Prop.
  Hypothesis Rrefl : forall f, Rely f f.
  Hypothesis Rtrans : forall a b c, Rely a b -> Rely b c -> Rely a c.
  Hypothesis Rt : forall f f', Rely f f' -> look f' t = look f t.
  Hypothesis Rdir : forall f f' q, Rely f f' -> below B q -> look f q = Some NDir -> look f' q = Some NDir.
  Hypothesis Radd : forall f f', adds_dirs B f f' -> Rely f f'.
  Hypothesis Iw : forall f, I f -> winv cwd fp f.
  Hypothesis Iu : forall f q, I f -> unb -> below B q -> look f q = None \/ look f q = Some NDir.
  Notation rg := (rgt flt I Rely).

  Lemma t_cons : t = basename fp :: B.
  Proof. apply t_eq. exact Hp. Qed.
  Lemma t_below q : below B q -> below t q.
  Proof. intros H. rewrite t_cons. eapply below_trans; [apply below_cons | exact H]. Qed.
  Lemma nolink_r f r start : I f -> below B (r ++ start) -> nolink f (rev (rev r) ++ start).
  Proof. intros Hi Hb. rewrite rev_involutive. eapply nolink_anc; [apply Iw; exact Hi | apply t_below; exact Hb]. Qed.
  Lemma at_dir f fo r start : I f -> below B (r ++ start) -> ~ In dotdot r -> look f (r ++ start) = Some NDir -> at_loc f fo (start, rev r) = Ok (r ++ start).
  Proof.
    intros Hi Hb Hd Hl. apply at_loc_plain; [apply nolink_r; assumption | rewrite <- in_rev; assumption|]. rewrite rev_involutive. split; [reflexivity|].
    apply wf_dirs_to; [apply Iw; assumption | rewrite rev_involutive, Hl; discriminate].
  Qed.
  Lemma exists_dir f r start : I f -> unb -> below B (r ++ start) -> ~ In dotdot r -> loc_exists (start, rev r) f = true -> look f (r ++ start) = Some NDir.
  Proof.
    intros Hi Hu Hb Hd. unfold loc_exists. destruct (at_loc f true (start, rev r)) as [p|] eqn:E; cbn [node_of]; [|discriminate].
    apply at_loc_plain in E as [-> _]; [|apply nolink_r; assumption | rewrite <- in_rev; assumption]. rewrite rev_involutive.
    destruct (Iu f (r ++ start) Hi Hu Hb) as [E|E]; rewrite E; [discriminate | auto].
  Qed.
  Lemma mkdir_rg start r f : flt = false -> unb -> below B (r ++ start) -> ~ In dotdot r ->
    (forall f', Rely f f' -> I f' -> look f' (tl r ++ start) = Some NDir) ->
    rg (fun _ f => look f (r ++ start) = Some NDir) (fun _ _ => False) (mkdir_ok (start, rev r)) f.
  Proof.
    intros Hf Hu Hb Hd Hpar. unfold mkdir_ok.
    apply (rgt_catch flt I Rely Rrefl _ (fun e f => is_oserror e = true /\ look f (r ++ start) = Some NDir)).
    - intros e f1 Hi [Ho Hl]. rewrite Ho. apply (rgt_bind flt I Rely Rrefl (fun b f => b = true /\ look f (r ++ start) = Some NDir)).
      + intros b f2 _ [-> Hl2] f3 HR _. eapply Rdir; eassumption.
      + apply rgt_query. intros f2 f3 HR Hi2 HR2 Hi3. assert (Hl2 : look f2 (r ++ start) = Some NDir) by (eapply Rdir; eassumption).
        split; [|eapply Rdir; eassumption]. unfold loc_isdir. rewrite at_dir by assumption. cbn [node_of]. rewrite Hl2. reflexivity.
    - apply rgt_sys_part; [| |rewrite Hf; discriminate].
      + intros f1 a f1' f2 HR Hi E HR2 _. unfold create_at in E. apply rbind_Ok in E as (p & Ep & E).
        apply at_loc_plain in Ep as [-> _]; [|apply nolink_r; assumption | rewrite <- in_rev; assumption]. rewrite rev_involutive in E.
        destruct (look f1 (r ++ start)) eqn:El; [discriminate|]. pose proof (f_equal (fun x => match x with Ok (_, y) => y | Err _ => f1' end) E) as E2. cbn in E2. subst f1'.
        eapply Rdir; [exact HR2 | exact Hb|]. apply look_put_same. eapply look_none. exact El.
      + intros f1 e f2 HR Hi E HR2 _. unfold create_at in E.
        assert (Ep : at_loc f1 false (start, rev r) = Ok (r ++ start)).
        { apply at_loc_plain; [apply nolink_r; assumption | rewrite <- in_rev; assumption|]. rewrite rev_involutive. split; [reflexivity|].
          destruct r as [|x r]; [intros [|] ? Ea; [congruence | discriminate]|]. cbn [rev]. apply dirs_to_snoc; [apply Iw; assumption|].
          rewrite rev_involutive. apply (Hpar f1); assumption. }
        rewrite Ep in E. cbn [rbind] in E. destruct (Iu f1 (r ++ start) Hi Hu Hb) as [El|El]; rewrite El in E; [discriminate|].
        injection E as <-. split; [reflexivity|]. eapply Rdir; eassumption.
  Qed.
  Lemma makedirs_rg start : flt = false -> unb -> (forall f, I f -> look f start = Some NDir) -> forall r, below B (r ++ start) -> ~ In dotdot r -> forall f,
    rg (fun _ f => look f (r ++ start) = Some NDir) (fun _ _ => False) (makedirs_r start r) f.
  Proof.
    intros Hf Hu Hs. induction r as [|x r IH]; intros Hb Hd f.
    - cbn [makedirs_r]. apply (rgt_bind flt I Rely Rrefl (fun _ _ => True)); [|intros f' _ _; exact Logic.I]. intros _ f1 _ _.
      apply mkdir_rg; try assumption. intros f' _ Hi. apply Hs. assumption.
    - assert (Hb' : below B (r ++ start)) by (eapply below_trans; [exact Hb | exists [x]; reflexivity]).
      assert (Hd' : ~ In dotdot r) by (intros Hi; apply Hd; right; assumption).
      cbn [makedirs_r]. apply (rgt_bind flt I Rely Rrefl (fun _ f => look f (r ++ start) = Some NDir)).
      + intros _ f1 _ Hl. apply mkdir_rg; try assumption. intros f' HR _. cbn [tl]. eapply Rdir; eassumption.
      + destruct r as [|y r]; [intros f' _ Hi; apply Hs; assumption|].
        apply (rgt_bind flt I Rely Rrefl (fun b f => b = true -> look f ((y :: r) ++ start) = Some NDir)).
        * intros [|] f1 _ Hl; [intros f2 HR _; eapply Rdir; [exact HR | exact Hb' | apply Hl; reflexivity]|].
          apply (rgt_catch flt I Rely Rrefl _ (fun _ _ => False)); [intros e f2 _ []|]. apply IH; assumption.
        * apply rgt_query. intros f1 f2 _ Hi HR _ E. apply exists_dir in E; [|assumption..]. eapply Rdir; eassumption.
  Qed.

  Definition same_t (f : fs) : Prop := look f t = look f0 t.
  Lemma same_t_stable f f' : same_t f -> Rely f f' -> same_t f'.
  Proof. unfold same_t. intros H HR. rewrite (Rt f f' HR). assumption. Qed.

  Lemma dirs_rg f : same_t f ->
    rg (fun _ f => same_t f /\ (flt = false -> unb -> look f B = Some NDir)) (fun _ f => same_t f /\ (flt = false -> ~ unb)) (makedirs cwd (dirname fp)) f.
  Proof.
    intros Hs.
    assert (H1 : rg (fun _ f' => Rely f f' /\ True) (fun _ f' => Rely f f') (makedirs cwd (dirname fp)) f).
    { apply (rgt_of_safe flt I Rely Rtrans (fun f => nolink f B) (adds_dirs B)).
      - intros f1 Hi. eapply nolink_anc; [apply Iw; exact Hi | apply t_below; apply below_refl].
      - intros f1 f2 _ Ha. apply Radd. exact Ha.
      - apply makedirs_text_safe; [apply below_refl | apply dirname_dotdot; exact Hp].
      - apply Rrefl. }
    assert (H2 : rg (fun _ f => flt = false /\ unb -> look f B = Some NDir) (fun _ f => flt = false /\ unb -> False) (makedirs cwd (dirname fp)) f).
    { apply rgt_under. intros [Hf Hu]. pose proof Hp as (Hdd & Hdn & _).
      assert (Em : makedirs cwd (dirname fp) = makedirs_r (if is_abs (dirname fp) then [] else cwd) (rev (comps (dirname fp)))) by (unfold makedirs; destruct (dirname fp); [congruence | reflexivity]).
      rewrite Em. apply (makedirs_rg (if is_abs (dirname fp) then [] else cwd)).
      - assumption.
      - assumption.
      - intros f1 Hi. destruct (is_abs (dirname fp)); [reflexivity | apply (Iw f1 Hi)].
      - apply below_refl.
      - rewrite <- in_rev. apply dirname_dotdot. exact Hp. }
    eapply rgt_weaken; [| |apply (rgt_and flt I Rely _ _ _ _ _ _ H1 H2)].
    - intros _ f1 _ [[HR _] H]. split; [eapply same_t_stable; eassumption | intros; apply H; auto].
    - intros _ f1 _ [HR H]. split; [eapply same_t_stable; eassumption | intros; intros Hu; apply H; auto].
  Qed.

  (** The target is a directory: it stays. *)
  Definition stuck (f : fs) : Prop := flt = false -> unb -> look f t = look f0 t /\ look f0 t = Some NDir.
  Lemma stuck_stable f f' : stuck f -> Rely f f' -> stuck f'.
  Proof. unfold stuck. intros H HR Hf Hu. rewrite (Rt f f' HR). auto. Qed.

  Lemma write_rg data f : same_t f -> ~ is_file f0 t ->
    rg (fun _ f => look f0 t = None /\ look f t = Some (NFile data)) (fun _ f => stuck f) (write_file_or_remove cwd fp (fun h => fwrite h data)) f.
  Proof.
    intros Hs Hnf. unfold write_file_or_remove. apply (rgt_catch flt I Rely Rrefl _ (fun _ f => stuck f)).
    - (* the removal *)
      intros e f1 Hi Hst. apply (rgt_bind flt I Rely Rrefl (fun _ f => stuck f)).
      + intros _ f2 _ H2 f3 HR _. eapply stuck_stable; eassumption.
      + apply (rgt_catch flt I Rely Rrefl _ (fun _ f => stuck f)).
        * intros x f2 _ H2. destruct (is_oserror x); intros f3 HR _; eapply stuck_stable; eassumption.
        * apply rgt_sys_part.
          -- intros f2 a f2' f3 HR Hi2 E HR2 _ Hf Hu. exfalso. destruct (Hst Hf Hu) as [E1 E2].
             unfold f_remove in E. apply rbind_Ok in E as (p & Ep & E). apply locate_t in Ep as [-> _]; [|exact Hp | apply Iw; assumption].
             rewrite (Rt _ _ HR), E1, E2 in E. discriminate.
          -- intros f2 x f3 HR _ _ HR2 _. eapply stuck_stable; [eapply stuck_stable; eassumption | exact HR2].
          -- intros Hf f2 x n f3 HR _ HR2 _. eapply stuck_stable; [eapply stuck_stable; eassumption | exact HR2].
    - eapply (rgt_bind flt I Rely Rrefl (fun _ f => same_t f /\ (flt = false -> unb -> look f B = Some NDir))).
      2:{ eapply rgt_weaken; [| |apply dirs_rg; exact Hs]; [auto|]. intros e f1 _ [_ H] Hf Hu. destruct (H Hf Hu). }
      intros _ f1 _ [Hs1 HB]. apply (rgt_bind flt I Rely Rrefl (fun h f => h = t /\ look f0 t = None /\ look f t = Some (NFile []))).
      + (* writing *)
        intros h f2 _ (-> & Hn & Hl). unfold with_close.
        apply (rgt_bind flt I Rely Rrefl (fun _ f => look f0 t = None /\ look f t = Some (NFile data))).
        * intros a f3 _ [_ Hl3]. apply (rgt_bind flt I Rely Rrefl (fun _ f => look f0 t = None /\ look f t = Some (NFile data))).
          -- intros _ f4 _ [_ H4] f5 HR _. rewrite (Rt _ _ HR). auto.
          -- apply rgt_sys_part.
             ++ intros f4 u f4' f5 HR _ E HR2 _. injection E as _ <-. rewrite (Rt _ _ HR2), (Rt _ _ HR). auto.
             ++ discriminate.
             ++ intros Hf f4 x n f5 _ _ _ _ Hf'. congruence.
        * apply (rgt_catch flt I Rely Rrefl _ (fun _ _ => flt = true)).
          -- intros x f3 _ Hf. eapply (rgt_bind flt I Rely Rrefl (fun _ _ => True)).
             ++ intros _ f4 _ _ f5 _ _ Hf'. congruence.
             ++ eapply rgt_weaken; [| |apply rgt_true]; [auto|]. intros y f4 _ _ Hf'. congruence.
          -- apply rgt_sys_part.
             ++ intros f3 u f3' f4 HR _ E HR2 _. injection E as _ <-. rewrite (Rt _ _ HR2). split; [assumption|]. unfold f_append. rewrite (Rt _ _ HR), Hl.
                rewrite look_put_same by (apply target_nonempty; exact Hp). reflexivity.
             ++ discriminate.
             ++ auto.
      + (* opening *)
        apply rgt_sys_part.
        * intros f2 h f2' f3 HR Hi E HR2 _. unfold f_open_w in E. apply rbind_Ok in E as (p & Ep & E). apply locate_t in Ep as [-> _]; [|exact Hp | apply Iw; assumption].
          assert (Hs2 : same_t f2) by (eapply same_t_stable; eassumption).
          assert (Hnl : forall x, look f2 t <> Some (NLink x)) by (intros x; apply (Iw f2 Hi); apply below_refl).
          assert (Hn : look f0 t = None).
          { rewrite <- Hs2. destruct (look f2 t) as [[b| |x]|] eqn:El; [exfalso; apply Hnf; exists b; rewrite <- Hs2; exact El | discriminate | exfalso; apply (Hnl x); reflexivity | reflexivity]. }
          unfold same_t in Hs2. rewrite Hs2, Hn in E. injection E as <- <-. split; [reflexivity|]. split; [assumption|]. rewrite (Rt _ _ HR2). apply look_put_same. apply target_nonempty. exact Hp.
        * intros f2 e f3 HR Hi E HR2 _ Hf Hu. assert (Hs2 : same_t f2) by (eapply same_t_stable; eassumption).
          rewrite (Rt _ _ HR2). split; [exact Hs2|]. unfold f_open_w in E. assert (HB2 : look f2 B = Some NDir) by (eapply Rdir; [exact HR | apply below_refl | apply HB; assumption]).
          assert (El : locate cwd f2 true fp = Ok t).
          { apply locate_plain; [apply plain_nonempty; exact Hp | apply Hp | apply Iw; assumption|]. split; [reflexivity|]. rewrite plain_path_comps by exact Hp.
            apply dirs_to_snoc; [apply Iw; assumption|]. rewrite <- (is_abs_dirname fp) by apply Hp. exact HB2. }
          rewrite El in E. cbn [rbind] in E. unfold same_t in Hs2. rewrite Hs2 in E. destruct (look f0 t) as [[]|]; try discriminate. reflexivity.
        * intros Hf f2 e n f3 _ _ _ _ Hf'. congruence.
  Qed.

  Lemma isfile_t f : I f -> f_isfile cwd fp f = true <-> is_file f t.
  Proof. intros Hi. apply isfile_ready. apply winv_ready; [exact Hp | apply Iw; exact Hi]. Qed.
  (** How the thread ends. *)
  Definition thread_done (resp : result bytes) (f : fs) : Prop :=
    (is_file f0 t /\ look f t = look f0 t) \/ (look f0 t = None /\ exists data, resp = Ok data /\ look f t = Some (NFile data)).
  Definition thread_failed (resp : result bytes) (f : fs) : Prop :=
    flt = false -> unb -> look f t = look f0 t /\ ~ is_file f0 t /\ ((exists e, resp = Err e) \/ look f0 t = Some NDir).
  Lemma download_rg resp f : same_t f ->
    rg (fun _ f => thread_done resp f) (fun _ f => thread_failed resp f)
      (let~ b := isfile cwd fp in if b : bool then Ret tt else let~ data := lift resp in write_file_or_remove cwd fp (fun h => fwrite h data)) f.
  Proof.
    intros Hs. apply (rgt_bind flt I Rely Rrefl (fun b f => same_t f /\ (b = true <-> is_file f0 t))).
    - intros [|] f1 _ [Hs1 [H1 H2]].
      + intros f2 HR _. left. split; [auto|]. rewrite (Rt _ _ HR). exact Hs1.
      + assert (Hnf : ~ is_file f0 t) by (intros H; discriminate (H2 H)). destruct resp as [data|e]; cbn [lift bind].
        * eapply rgt_weaken; [| |apply write_rg; assumption].
          -- intros a f2 _ [Hn Hl]. right. eauto.
          -- intros e f2 _ Hst Hf Hu. destruct (Hst Hf Hu) as [E1 E2]. auto.
        * intros f2 HR _ _ _. rewrite (Rt _ _ HR). split; [exact Hs1|]. split; [assumption|]. left. eauto.
    - apply rgt_query. intros f1 f2 HR Hi HR2 _. assert (Hs1 : same_t f1) by (eapply same_t_stable; eassumption).
      split; [eapply same_t_stable; eassumption|]. rewrite isfile_t by assumption. unfold is_file. unfold same_t in Hs1. rewrite Hs1. reflexivity.
  Qed.
End Thread.

(** ** The pool *)

Lemma is_file_dec f p : is_file f p \/ ~ is_file f p.
Proof. destruct (look f p) as [[b| |x]|] eqn:E; [left; exists b; exact E | | |]; right; intros [b' H]; congruence. Qed.
(** The way to [d] is free, or blocked by a file. *)
Lemma way_dec f : forall d, nolink f d -> (forall q, below d q -> look f q = None \/ look f q = Some NDir) \/ exists q b, below d q /\ look f q = Some (NFile b).
Proof.
  induction d as [|x d IH]; intros Hn.
  - left. intros q [l E]. symmetry in E. apply app_eq_nil in E as [_ ->]. right. reflexivity.
  - destruct IH as [IH|(q & b & Hq & E)]; [eapply nolink_anc; [exact Hn | apply below_cons] | | right; exists q, b; split; [eapply below_trans; [apply below_cons | exact Hq] | exact E]].
    destruct (look f (x :: d)) as [[b| |y]|] eqn:E.
    + right. exists (x :: d), b. split; [apply below_refl | exact E].
    + left. intros q Hq. apply below_cases in Hq as [<-|(z & l & Eq)]; [auto|]. apply IH. exists l. injection Eq as _ ->. reflexivity.
    + exfalso. exact (Hn (x :: d) y (below_refl _) E).
    + left. intros q Hq. apply below_cases in Hq as [<-|(z & l & Eq)]; [auto|]. apply IH. exists l. injection Eq as _ ->. reflexivity.
Qed.
(** Two directories that lead to the same place. *)
Lemma below_comparable : forall (d p q : path), below d p -> below d q -> below p q \/ below q p.
Proof.
  induction d as [|x d IH]; intros p q Hp Hq.
  - destruct Hp as [l E]. symmetry in E. apply app_eq_nil in E as [_ ->]. destruct Hq as [l' E]. symmetry in E. apply app_eq_nil in E as [_ ->]. left. apply below_refl.
  - apply below_cases in Hp as [<-|(y & l & E)]; [auto|]. apply below_cases in Hq as [<-|(y' & l' & E')].
    + right. exists (y :: l). exact E.
    + apply IH; [exists l; injection E as _ E; exact E | exists l'; injection E' as _ E'; exact E'].
Qed.
Lemma wf_up f p q : fs_wf f -> look f p <> None -> strictly_below p q -> look f q = Some NDir.
Proof. intros Hw Hl (x & l & ->). apply (wf_parents f (x :: l) q); [assumption | assumption | discriminate]. Qed.

Section Pool.
  Variable flt : bool.
  Variable cwd : path.
  Variable base : str.
  Variable get : str -> result bytes.
  Variable f0 : fs.
  Notation B_ := (bundle_dir cwd base).
  Notation bf := (bundle_file cwd base).
  Notation ready_ := (storage_ready cwd base).
  Hypothesis R0 : ready_ f0.

  Definition bp (id : N) : str := lit "channels/public/bundles/" ++ hexu 16 id ++ lit ".bundle".
  Lemma bp_ok id : bundle_path (Some id) = Ok (bp id).
  Proof. reflexivity. Qed.
  Lemma fp_plain id : plain_path (fspath base (bp id)).
  Proof. apply (bundle_facts cwd base (fun s => s) f0 id _ R0 (bp_ok id)). Qed.
  Lemma fp_target id : target cwd (fspath base (bp id)) = bf id.
  Proof. apply (bundle_facts cwd base (fun s => s) f0 id _ R0 (bp_ok id)). Qed.
  Lemma fp_dir id : target cwd (dirname (fspath base (bp id))) = B_.
  Proof. pose proof (t_eq cwd (fspath base (bp id)) (fp_plain id)) as E. rewrite fp_target in E. apply (f_equal (@tl _)) in E. symmetry. exact E. Qed.
  Lemma bf_inj i j : bf i = bf j -> i = j.
  Proof.
    intros E. apply (f_equal (hd [])) in E. cbn [hd bundle_file] in E. apply app_inv_tail in E. apply hexu_inj in E. exact E.
  Qed.

  Definition unb : Prop := forall q, below B_ q -> look f0 q = None \/ look f0 q = Some NDir.
  Definition active (id : N) : Prop := ~ is_file f0 (bf id) /\ exists data, get (bp id) = Ok data.
  Definition pinv (f : fs) : Prop :=
    ready_ f /\ (unb -> forall q, below B_ q -> look f q = None \/ look f q = Some NDir) /\
    (forall id, is_file f0 (bf id) -> look f (bf id) = look f0 (bf id)).
  Definition prely (s : option N) (f f' : fs) : Prop :=
    forall q, look f' q = look f q \/ (exists id, s <> Some id /\ q = bf id) \/ (look f q = None /\ look f' q = Some NDir /\ below B_ q).
  Definition pguar (s : option N) (f f' : fs) : Prop :=
    exists id, s = Some id /\ ((active id /\ only_file (bf id) f f') \/ f' = f).
  Definition pdone (s : option N) (_ : unit) (f : fs) : Prop :=
    match s with Some id => thread_done cwd (fspath base (bp id)) f0 (get (bp id)) f | None => False end.
  Definition pfail (s : option N) (_ : exn) (f : fs) : Prop :=
    match s with Some id => thread_failed flt cwd (fspath base (bp id)) f0 unb (get (bp id)) f | None => True end.

  Lemma prely_refl s f : prely s f f.
  Proof. intros q. auto. Qed.
  Lemma prely_trans s a b c : prely s a b -> prely s b c -> prely s a c.
  Proof.
    intros H1 H2 q. destruct (H1 q) as [E1|[E1|(E1 & E1' & B1)]]; [|auto|].
    - destruct (H2 q) as [E2|[E2|(E2 & E2' & B2)]]; [left; congruence | auto | right; right; rewrite <- E1; auto].
    - destruct (H2 q) as [E2|[E2|(E2 & E2' & B2)]]; [right; right; rewrite E2; auto | auto | congruence].
  Qed.
  Lemma above_not_bf q id : below B_ q -> q <> bf id.
  Proof.
    intros Hb ->. assert (H : strictly_below (bf id) (bf id)); [|exact (strictly_below_irrefl _ H)].
    destruct Hb as [l E]. exists (hexu 16 id ++ lit ".bundle"), l. unfold bundle_file at 1. rewrite <- E. reflexivity.
  Qed.
  Lemma prely_dir s f f' q : prely s f f' -> below B_ q -> look f q = Some NDir -> look f' q = Some NDir.
  Proof.
    intros H Hb Hl. destruct (H q) as [E|[(id & _ & ->)|(E & _)]]; [congruence | exfalso; exact (above_not_bf _ id Hb eq_refl) | congruence].
  Qed.
  Lemma prely_own id f f' : prely (Some id) f f' -> look f' (bf id) = look f (bf id).
  Proof.
    intros H. destruct (H (bf id)) as [E|[(id' & Hn & E)|(_ & _ & Hb)]]; [exact E | apply bf_inj in E; congruence | exfalso; exact (above_not_bf _ id Hb eq_refl)].
  Qed.
  Lemma prely_add s f f' : adds_dirs B_ f f' -> prely s f f'.
  Proof. intros H q. destruct (H q) as [E|(E & E' & Hb)]; auto. Qed.
  Lemma strictly_bf q id : strictly_below (bf id) q <-> below B_ q.
  Proof.
    unfold bundle_file. split.
    - intros (x & l & E). exists l. injection E as _ E. exact E.
    - intros [l E]. exists (hexu 16 id ++ lit ".bundle"), l. rewrite E. reflexivity.
  Qed.

  Lemma pinv_winv id f : pinv f -> winv cwd (fspath base (bp id)) f.
  Proof. intros (R & _). exact (proj2 (ready_winv _ _ _ (ready_bundle cwd base (fun s => s) f id _ R (bp_ok id)))). Qed.
  Lemma pinv_step id f f' : active id -> pinv f -> winv cwd (fspath base (bp id)) f' -> only_file (bf id) f f' -> pinv f'.
  Proof.
    intros [Hna _] (R & Hu & He) Hw HO. split; [|split].
    - eapply (winv_storage cwd base (fspath base (bp id))); [exact Hw | rewrite fp_target; exact HO | exact R].
    - intros U q Hq. destruct (HO q) as [E|[->|(_ & E & _)]]; [rewrite E; auto | exfalso; exact (above_not_bf _ id Hq eq_refl) | auto].
    - intros id' Hf. destruct (HO (bf id')) as [E|[E|(E & _)]].
      + rewrite E. auto.
      + exfalso. apply bf_inj in E as ->. contradiction.
      + rewrite (He id' Hf) in E. destruct Hf as [b Hb]. congruence.
  Qed.

  Lemma job_safe s : safe pinv (pguar s) (fun _ => True) (download_bundle cwd base get s).
  Proof.
    destruct s as [id|]; [|exact I]. unfold download_bundle. rewrite bp_ok. cbn [lift bind]. unfold download.
    assert (Hsame : forall f, pguar (Some id) f f) by (intros f; exists id; auto).
    destruct (is_file_dec f0 (bf id)) as [Hf|Hf]; [|destruct (get (bp id)) as [data|e] eqn:Eg].
    - intros f Hi. split; [intros o; auto|]. intros o. cbn [bind].
      rewrite (proj2 (isfile_t cwd (fspath base (bp id)) (fp_plain id) pinv (pinv_winv id) f Hi)); [exact I|].
      rewrite fp_target. destruct Hf as [b Hb]. exists b. rewrite <- Hb. apply Hi. exists b. exact Hb.
    - assert (Ha : active id) by (split; [assumption | eauto]).
      assert (H : safe (winv cwd (fspath base (bp id))) (only_file (target cwd (fspath base (bp id)))) (fun _ => True)
        (let~ b := isfile cwd (fspath base (bp id)) in if b : bool then Ret tt else let~ d := lift (Ok data) in write_file_or_remove cwd (fspath base (bp id)) (fun h => fwrite h d))).
      { eapply (safe_bind _ _ (fun _ => True)); [apply safe_query; [apply only_file_refl | auto]|]. intros [|] _; [exact I|]. cbn [lift bind].
        apply wfr_safe; [apply fp_plain|]. apply fwrite_safe. apply fp_plain. }
      rewrite fp_target in H. eapply (safe_keep _ pinv) in H.
      + eapply safe_conseq; [|eapply safe_iff; [|exact H]].
        * intros f f' _ HO. exists id. auto.
        * intros f. split; [intros [_ Hi]; exact Hi | intros Hi; split; [apply pinv_winv; exact Hi | exact Hi]].
      + intros f f' _ Hi Hw HO. eapply pinv_step; eassumption.
    - intros f Hi. split; [intros o; auto|]. intros o. cbn [bind]. destruct (f_isfile cwd (fspath base (bp id)) f); exact I.
  Qed.
  Lemma job_rg s f : (forall id, look f (bf id) = look f0 (bf id)) -> rgt flt pinv (prely s) (pdone s) (pfail s) (download_bundle cwd base get s) f.
  Proof.
    destruct s as [id|]; [|intros _ f' _ _; exact I]. intros Hs. unfold download_bundle. rewrite bp_ok. cbn [lift bind]. unfold download.
    apply (download_rg flt cwd (fspath base (bp id)) (fp_plain id) f0 unb pinv (prely (Some id))).
    - apply prely_refl.
    - apply prely_trans.
    - intros f1 f2 HR. rewrite fp_target. apply prely_own. exact HR.
    - intros f1 f2 q HR Hb. rewrite fp_dir in Hb. eapply prely_dir; eassumption.
    - intros f1 f2 Ha. rewrite fp_dir in Ha. apply prely_add. exact Ha.
    - intros f1 Hi. apply pinv_winv. exact Hi.
    - intros f1 q Hi Hu Hb. rewrite fp_dir in Hb. apply Hi; assumption.
    - unfold same_t. rewrite fp_target. apply Hs.
  Qed.

  Variable ids : list (option N).
  Hypothesis Hnd : NoDup ids.
  Definition changed (q : path) : Prop := exists id, In (Some id) ids /\ active id /\ q = bf id.

  Lemma pinv0 : pinv f0.
  Proof. split; [exact R0|]. split; [auto | reflexivity]. Qed.
  Lemma pool_result ps f' : interleave flt (bundle_jobs cwd base get ids, f0) (ps, f') ->
    pinv f' /\ only_files changed f0 f' /\ Forall2 (fun s p => post (pdone s) (pfail s) f' p) ids ps.
  Proof.
    intros H. eapply (pool_ok flt (option N) unit pinv prely pguar pdone pfail (only_files changed)) in H as (H1 & H2 & H3).
    - split; [exact H1|]. split; [exact H2|]. eapply Forall2_weak; [|exact H3]. intros s p Ht. eapply thread_post; [|exact H1|exact Ht]. apply prely_refl.
    - apply prely_refl.
    - apply prely_trans.
    - apply only_files_refl.
    - apply only_files_trans.
    - exact Hnd.
    - intros s s' f f1 _ _ Hne _ _ (id & -> & [[_ HO]| ->]) q; [|auto].
      destruct (HO q) as [E|[->|(E & E' & Hb)]]; [auto | right; left; exists id; auto | right; right; split; [assumption|]; split; [assumption | apply strictly_bf in Hb; exact Hb]].
    - intros s f f1 Hin _ _ (id & -> & [[Ha HO]| ->]); [|apply only_files_refl].
      eapply only_file_files; [|exact HO]. exists id. auto.
    - exact pinv0.
    - unfold bundle_jobs. cbn [fst snd]. clear Hnd H. induction ids as [|s l IH]; cbn [map]; constructor; [|exact IH].
      split; [apply job_safe | apply job_rg; reflexivity].
  Qed.

  (** What is true at the end. *)
  Definition settled (f' : fs) : Prop := unb -> forall id, In (Some id) ids ->
    (is_file f0 (bf id) /\ look f' (bf id) = look f0 (bf id)) \/
    (look f0 (bf id) = None /\ exists data, get (bp id) = Ok data /\ look f' (bf id) = Some (NFile data)) \/
    (look f' (bf id) = look f0 (bf id) /\ ~ is_file f0 (bf id) /\ ((exists e, get (bp id) = Err e) \/ look f0 (bf id) = Some NDir)).
  Lemma pool_settled ps f' : interleave flt (bundle_jobs cwd base get ids, f0) (ps, f') -> Forall finished ps ->
    flt = false \/ Forall (fun p => p = Ret tt) ps -> pinv f' /\ only_files changed f0 f' /\ settled f'.
  Proof.
    intros H HF Hok. apply pool_result in H as (H1 & H2 & H3). split; [exact H1|]. split; [exact H2|].
    intros Hu. clear Hnd H1 H2. revert HF Hok. induction H3 as [|s p l l' Hp H3 IH]; intros HF Hok id Hin; [destruct Hin|].
    inversion_clear HF as [|? ? Hfin HF']. destruct Hin as [->|Hin].
    - cbn [pdone pfail] in Hp. destruct p as [u|e|]; [| |destruct Hfin]; cbn [post pdone pfail] in Hp.
      + unfold thread_done in Hp. rewrite fp_target in Hp. destruct Hp as [Hp|Hp]; auto.
      + destruct Hok as [Hok|Hok]; [|inversion_clear Hok; discriminate]. unfold thread_failed in Hp. rewrite fp_target in Hp. right. right. apply Hp; assumption.
    - apply IH; [assumption | | assumption]. destruct Hok as [Hok|Hok]; [auto | right; inversion_clear Hok; assumption].
  Qed.
  Lemma blocked_same f' q b : pinv f' -> only_files changed f0 f' -> below B_ q -> look f0 q = Some (NFile b) -> same_fs f0 f'.
  Proof.
    intros (R & _) HO Hb Hl p.
    assert (Hq : look f' q = Some (NFile b)).
    { destruct (HO q) as [E|[(id & _ & _ & E)|(E & _)]]; [congruence | exfalso; exact (above_not_bf _ id Hb E) | congruence]. }
    assert (Hnone : forall f id, ready_ f -> look f q = Some (NFile b) -> look f (bf id) = None).
    { intros f id Rf Hlf. destruct (look f (bf id)) eqn:E; [|reflexivity]. exfalso.
      rewrite (wf_up f (bf id) q) in Hlf; [discriminate | apply Rf | congruence | apply strictly_bf; exact Hb]. }
    destruct (HO p) as [E|[(id & _ & _ & ->)|(E & E' & t & (id & _ & _ & ->) & Hs)]]; [exact E | rewrite !Hnone by assumption; reflexivity|].
    exfalso. apply strictly_bf in Hs. destruct (below_comparable _ _ _ Hs Hb) as [H|H].
    - apply below_cases in H as [->|H]; [congruence|]. rewrite (wf_up f' p q) in Hq; [discriminate | apply R | congruence | exact H].
    - apply below_cases in H as [<-|H]; [congruence|]. rewrite (wf_up f0 q p) in E; [discriminate | apply R0 | congruence | exact H].
  Qed.
End Pool.

Section Unique.
  Variable cwd : path.
  Variable base : str.
  Variable get : str -> result bytes.
  Variable f0 : fs.
  Hypothesis R0 : storage_ready cwd base f0.
  Variable ids : list (option N).
  Hypothesis Hnd : NoDup ids.
  Notation bf := (bundle_file cwd base).

  Lemma unique_dir f1 f2 q : pinv cwd base f0 f2 -> only_files (changed cwd base get f0 ids) f0 f1 -> only_files (changed cwd base get f0 ids) f0 f2 ->
    settled cwd base get f0 ids f2 -> unb cwd base f0 -> (forall id, In (Some id) ids -> q <> bf id) ->
    look f0 q = None -> look f1 q = Some NDir -> look f2 q = Some NDir.
  Proof.
    intros (R2 & _) HO1 HO2 HS Hu Hq H0 H1. destruct (HO1 q) as [E|[(id & Hin & _ & E)|(_ & _ & t & (id & Hin & [Hna [data Hg]] & ->) & Hs)]]; [congruence | exfalso; exact (Hq id Hin E)|].
    destruct (HS Hu id Hin) as [[Hf _]|[(Hn & d & Hd & Hl)|(Hl & _ & [[e He]|Hd])]]; [contradiction | | congruence|].
    - apply (wf_up f2 (bf id) q); [apply R2 | congruence | exact Hs].
    - exfalso. rewrite (wf_up f0 (bf id) q) in H0; [discriminate | apply R0 | congruence | exact Hs].
  Qed.
  Lemma unique f1 f2 : pinv cwd base f0 f1 -> pinv cwd base f0 f2 -> only_files (changed cwd base get f0 ids) f0 f1 -> only_files (changed cwd base get f0 ids) f0 f2 ->
    settled cwd base get f0 ids f1 -> settled cwd base get f0 ids f2 -> same_fs f1 f2.
  Proof.
    intros I1 I2 HO1 HO2 HS1 HS2.
    destruct (way_dec f0 (bundle_dir cwd base)) as [Hu|(q & b & Hb & Hl)].
    - eapply nolink_anc; [apply (sr_bundle _ _ _ R0 []) | apply below_cons].
    - intros q.
      assert (Hdec : (exists id, In (Some id) ids /\ q = bf id) \/ (forall id, In (Some id) ids -> q <> bf id)).
      { clear. induction ids as [|s l IH]; [right; intros id []|]. destruct IH as [(id & Hi & E)|IH]; [left; exists id; split; [right; assumption | assumption]|].
        destruct s as [id|]; [|right; intros id [Hi|Hi]; [discriminate | auto]].
        destruct (eqbP q (bf id)) as [->|Hne]; [left; exists id; split; [left; reflexivity | reflexivity]|].
        right. intros id' [Hi|Hi]; [injection Hi as <-; assumption | auto]. }
      destruct Hdec as [(id & Hin & ->)|Hq].
      + destruct (HS1 Hu id Hin) as [[A1 A2]|[(A1 & d1 & A2 & A3)|(A1 & A2 & A3)]], (HS2 Hu id Hin) as [[B1 B2]|[(B1 & d2 & B2 & B3)|(B1 & B2 & B3)]]; try congruence.
        * destruct A1 as [b A1]. congruence.
        * destruct B1 as [b B1]. congruence.
        * destruct B3 as [[e B3]|B3]; congruence.
        * destruct A3 as [[e A3]|A3]; congruence.
      + destruct (look f0 q) as [n|] eqn:E0.
        * assert (H : forall f, only_files (changed cwd base get f0 ids) f0 f -> look f q = Some n).
          { intros f HO. destruct (HO q) as [E|[(id & Hin & _ & E)|(E & _)]]; [congruence | exfalso; exact (Hq id Hin E) | congruence]. }
          rewrite (H f1 HO1), (H f2 HO2). reflexivity.
        * assert (H : forall f, only_files (changed cwd base get f0 ids) f0 f -> look f q = None \/ look f q = Some NDir).
          { intros f HO. destruct (HO q) as [E|[(id & Hin & _ & E)|(_ & E & _)]]; [left; congruence | exfalso; exact (Hq id Hin E) | auto]. }
          destruct (H f1 HO1) as [E1|E1].
          -- destruct (H f2 HO2) as [E2|E2]; [congruence|]. rewrite (unique_dir f2 f1 q) in E1; try assumption. discriminate.
          -- rewrite E1. apply (unique_dir f1 f2 q); assumption.
    - pose proof (blocked_same cwd base get f0 R0 ids f1 q b I1 HO1 Hb Hl) as S1. pose proof (blocked_same cwd base get f0 R0 ids f2 q b I2 HO2 Hb Hl) as S2.
      intros p. rewrite S1, S2. reflexivity.
  Qed.
  (** Two complete schedules. *)
  Lemma schedules flt1 flt2 ps1 ps2 f1 f2 :
    interleave flt1 (bundle_jobs cwd base get ids, f0) (ps1, f1) -> Forall finished ps1 -> flt1 = false \/ Forall (fun p => p = Ret tt) ps1 ->
    interleave flt2 (bundle_jobs cwd base get ids, f0) (ps2, f2) -> Forall finished ps2 -> flt2 = false \/ Forall (fun p => p = Ret tt) ps2 ->
    same_fs f1 f2.
  Proof.
    intros H1 F1 O1 H2 F2 O2.
    eapply pool_settled in H1 as (A1 & A2 & A3); [|assumption..]. eapply pool_settled in H2 as (B1 & B2 & B3); [|assumption..].
    apply unique; assumption.
  Qed.

  Lemma blocked_none f id q b : fs_wf f -> below (bundle_dir cwd base) q -> look f q = Some (NFile b) -> look f (bf id) = None.
  Proof.
    intros Hw Hb Hl. destruct (look f (bf id)) eqn:E; [|reflexivity]. exfalso.
    rewrite (wf_up f (bf id) q) in Hl; [discriminate | assumption | congruence | eapply strictly_bf; exact Hb].
  Qed.
  (** The jobs that succeed. *)
  Lemma outcomes ps f' : interleave false (bundle_jobs cwd base get ids, f0) (ps, f') -> Forall ended ps ->
    Forall2 (fun s p => p = Ret tt <-> exists id, s = Some id /\ unb cwd base f0 /\
      (is_file f0 (bf id) \/ (look f0 (bf id) = None /\ exists data, get (bp id) = Ok data))) ids ps.
  Proof.
    intros H HF. apply (pool_result false cwd base get f0 R0 ids Hnd) in H as (H1 & H2 & H3).
    revert HF. revert H3. generalize ids at 1 2. intros l H3. induction H3 as [|s p l l' Hp H3 IH]; intros HF; [constructor|].
    inversion_clear HF as [|? ? Hfin HF']. constructor; [|apply IH; assumption]. clear IH H3 HF'.
    destruct s as [id|]; cbn [pdone pfail] in Hp.
    - destruct p as [[]|e|]; [| |destruct Hfin]; cbn [post pdone pfail] in Hp; unfold thread_done, thread_failed in Hp.
      + rewrite (fp_target cwd base f0 R0) in Hp. split; [intros _|reflexivity]. exists id. split; [reflexivity|].
        destruct (way_dec f0 (bundle_dir cwd base)) as [Hu|(q & b & Hb & Hl)]; [eapply nolink_anc; [apply (sr_bundle _ _ _ R0 []) | apply below_cons]| |].
        * split; [exact Hu|]. destruct Hp as [[Hp _]|(Hp & d & Hd & _)]; eauto.
        * exfalso. pose proof (blocked_same cwd base get f0 R0 ids f' q b H1 H2 Hb Hl) as HS.
          pose proof (blocked_none f0 id q b (sr_wf _ _ _ R0) Hb Hl) as E0. destruct Hp as [[[c Hc] _]|(_ & d & _ & Hd)]; [congruence|].
          rewrite HS, E0 in Hd. discriminate.
      + split; [discriminate|]. intros (id' & E & Hu & Hc). injection E as <-. rewrite (fp_target cwd base f0 R0) in Hp.
        destruct (Hp eq_refl Hu) as (_ & Hn & [[x Hx]|Hd]); destruct Hc as [Hc|(Hc & d & Hd')]; contradiction || congruence.
    - split; [|intros (id & E & _); discriminate]. intros ->. destruct Hp.
  Qed.
  Lemma untouched flt ps f' : interleave flt (bundle_jobs cwd base get ids, f0) (ps, f') ->
    storage_ready cwd base f' /\
    only_files (fun q => exists id, In (Some id) ids /\ ~ is_file f0 (bf id) /\ (exists data, get (bp id) = Ok data) /\ q = bf id) f0 f' /\
    Forall2 (fun s p => p = Ret tt -> exists id, s = Some id /\
      ((is_file f0 (bf id) /\ look f' (bf id) = look f0 (bf id)) \/ (look f0 (bf id) = None /\ exists data, get (bp id) = Ok data /\ look f' (bf id) = Some (NFile data)))) ids ps.
  Proof.
    intros H. apply (pool_result flt cwd base get f0 R0 ids Hnd) in H as (H1 & H2 & H3). split; [apply H1|]. split.
    - intros q. destruct (H2 q) as [E|[(id & Hi & [Ha Hg] & E)|(E & E' & t & (id & Hi & [Ha Hg] & Et) & Hs)]]; [auto | right; left; exists id; auto|].
      right. right. split; [assumption|]. split; [assumption|]. exists t. split; [exists id; auto | assumption].
    - eapply Forall2_weak; [|exact H3]. intros s p Hp ->. destruct s as [id|]; cbn [post pdone] in Hp; [|destruct Hp]. exists id. split; [reflexivity|].
      unfold thread_done in Hp. rewrite (fp_target cwd base f0 R0) in Hp. exact Hp.
  Qed.
End Unique.

(** ** One after the other *)

Lemma ended_finished p : ended p <-> finished p.
Proof. destruct p; cbn; tauto. Qed.
Lemma turn_interleave flt : forall l done f, Forall ended done -> exists ps, interleave flt (done ++ l, f) (ps, in_turn l f) /\ Forall ended ps.
Proof.
  induction l as [|p l IH]; intros done f Hd; cbn [in_turn].
  - exists done. rewrite app_nil_r. split; [apply il_refl | assumption].
  - destruct (IH (done ++ [fst (alone p f)]) (snd (run p [] f))) as (ps & H & HF).
    + apply Forall_app. split; [assumption|]. constructor; [apply ended_finished, alone_finished | constructor].
    + exists ps. split; [|assumption]. rewrite <- app_assoc in H. apply alone_interleave. rewrite alone_run. exact H.
Qed.
Lemma in_turn_same cwd base get f ids flt ps f' : storage_ready cwd base f -> NoDup ids ->
  interleave flt (bundle_jobs cwd base get ids, f) (ps, f') -> Forall ended ps -> flt = false \/ Forall (fun p => p = Ret tt) ps ->
  same_fs (in_turn (bundle_jobs cwd base get ids) f) f'.
Proof.
  intros R Hnd H HF Hok. destruct (turn_interleave false (bundle_jobs cwd base get ids) [] f (Forall_nil _)) as (ps' & H' & HF').
  apply (schedules cwd base get f R ids Hnd false flt ps' ps _ _ H'); [|auto|exact H| |exact Hok].
  - eapply Forall_impl; [|exact HF']. apply ended_finished.
  - eapply Forall_impl; [|exact HF]. apply ended_finished.
Qed.

(** ** The identifiers *)

Lemma run_bind_done {A B} (p : prog A) (k : A -> prog B) pl f b pl' f' : run (bind p k) pl f = (Done b, pl', f') ->
  exists a pl1 f1, run p pl f = (Done a, pl1, f1) /\ run (k a) pl1 f1 = (Done b, pl', f').
Proof. rewrite run_bind. destruct (run p pl f) as [[[a|e|] pl1] f1]; [eauto 6 | discriminate | discriminate]. Qed.

Lemma query_done {A} (q : fs -> A) pl f a pl' f' : run (query q) pl f = (Done a, pl', f') -> f' = f /\ a = q f.
Proof. unfold query. cbn [run]. destruct pl as [|[[]|] pl]; cbn; intros E; try discriminate; pose proof (f_equal snd E) as E1; pose proof (f_equal (fun r => match r with (Done x, _, _) => x | _ => a end) E) as E2; cbn in E1, E2; auto. Qed.
Lemma sort_ids_perm l l' : sort_ids l = Ok l' -> Permutation l l'.
Proof. unfold sort_ids. destruct (mem None l && _); [discriminate|]. intros E. injection E as <-. apply py_sorted_perm. Qed.
Lemma ids_NoDup cwd sdir manif lower langs skip pl f ids pl' f' :
  run (bundle_ids cwd sdir manif lower langs skip) pl f = (Done ids, pl', f') -> NoDup ids.
Proof.
  unfold bundle_ids. intros E. apply run_bind_done in E as (l1 & pl1 & f1 & _ & E). apply run_bind_done in E as (l2 & pl2 & f2 & _ & E).
  destruct (sort_ids (ids_of l2)) as [l3|e] eqn:Es; cbn [lift run] in E; [|discriminate].
  pose proof (f_equal (fun r => match r with (Done x, _, _) => x | _ => ids end) E) as E3. cbn in E3. subst l3.
  apply sort_ids_perm in Es. eapply Permutation_NoDup; [exact Es | apply set_of_NoDup].
Qed.
