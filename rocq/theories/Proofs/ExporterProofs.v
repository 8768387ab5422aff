(** * Proofs about lists of exported files *)

From Verif Require Import Base.Py Base.Text Base.PyFacts Base.TextFacts Model.Version Model.Wad Model.ExportTree Model.Exporter Spec.ExportTreeSpec Spec.ExporterSpec Proofs.ExportTreeProofs.

(** ** Filters *)

Lemma ddel_filter {V} (d : list (str * V)) ks : fold_left (fun d k => ddel k d) ks d = filter (fun kv => negb (mem (fst kv) ks)) d.
Proof.
  revert d. induction ks as [|k ks IH]; intros d; cbn [fold_left].
  - induction d as [|x d IHd]; cbn [filter mem existsb negb]; [reflexivity | f_equal; exact IHd].
  - rewrite IH. unfold ddel. induction d as [|x d IHd]; [reflexivity|]. cbn [filter]. unfold mem at 2. cbn [existsb]. fold (mem (fst x) ks).
    destruct (eqbP k (fst x)) as [->|Hk].
    + rewrite eqbR. cbn [negb orb]. exact IHd.
    + replace (eqb (fst x) k) with false by (symmetry; apply eqbF; congruence). cbn [negb orb filter]. destruct (mem (fst x) ks); cbn [negb]; [exact IHd | f_equal; exact IHd].
Qed.

Lemma filter_export_plain pred e : ex_plain (filter_export_paths pred e) = filter (fun kv => pred (Some (fst kv))) (ex_plain e).
Proof. reflexivity. Qed.

(** Removing the entries whose key is that of an entry with [f], when keys are unique. *)
Lemma drop_keys {V} (f : str * V -> bool) (d : list (str * V)) : NoDup (dkeys d) ->
  fold_left (fun d k => ddel k d) (map fst (filter f d)) d = filter (fun kv => negb (f kv)) d.
Proof.
  intros HN. rewrite ddel_filter. apply filter_ext_in. intros [k v] Hi. f_equal. cbn [fst].
  destruct (f (k, v)) eqn:Ef.
  - apply mem_In. apply in_map_iff. exists (k, v). split; [reflexivity|]. apply filter_In. auto.
  - destruct (mem k (map fst (filter f d))) eqn:Em; [|reflexivity]. apply mem_In in Em. apply in_map_iff in Em as ([k' v'] & E & Hf). cbn in E. subst k'.
    apply filter_In in Hf as [Hi' Hf]. pose proof (dget_In_NoDup _ _ _ HN Hi). pose proof (dget_In_NoDup _ _ _ HN Hi'). congruence.
Qed.
Lemma dkeys_map {V W} (g : str * V -> W) (d : list (str * V)) : dkeys (map (fun kw => (fst kw, g kw)) d) = dkeys d.
Proof. unfold dkeys. rewrite map_map. apply map_ext. reflexivity. Qed.
Lemma filter_export_wads pred e : NoDup (dkeys (ex_wads e)) ->
  ex_wads (filter_export_paths pred e) =
  filter (fun kw => nonempty (ew_files (snd kw))) (map (fun kw => (fst kw, with_files (snd kw) (filter (fun f => pred (w_path f)) (ew_files (snd kw))))) (ex_wads e)).
Proof.
  intros HN. unfold filter_export_paths. cbn [ex_wads]. rewrite drop_keys; [apply filter_ext; intros kw; destruct (nonempty (ew_files (snd kw))); reflexivity|].
  rewrite dkeys_map. exact HN.
Qed.
Lemma NoDup_filter_keys {V} (f : str * V -> bool) (d : list (str * V)) : NoDup (dkeys d) -> NoDup (dkeys (filter f d)).
Proof.
  unfold dkeys. induction d as [|x d IH]; intros HN; [constructor|]. cbn [map] in HN. inversion_clear HN as [|? ? Hx HN']. cbn [filter]. destruct (f x); [|apply IH; exact HN'].
  cbn [map]. constructor; [|apply IH; exact HN']. intros H. apply Hx. apply in_map_iff in H as (y & <- & H). apply filter_In in H as [H _]. apply in_map. exact H.
Qed.

(** ** Filtering against another exporter *)

Lemma filter_plain_list other d : NoDup (dkeys other) -> NoDup (dkeys d) ->
  fold_left filter_plain1 other d = filter (fun kv => negb (eqb (dget (fst kv) other) (Some (snd kv)))) d.
Proof.
  revert d. induction other as [|[k s] other IH]; intros d HO HD; cbn [fold_left].
  - induction d as [|x d IHd]; [reflexivity|]. cbn [filter]. change (negb (eqb (dget (fst x) []) (Some (snd x)))) with true. cbv beta iota. f_equal. apply IHd. unfold dkeys in *. cbn [map] in HD. inversion HD; assumption.
  - cbn [dkeys map fst] in HO. inversion_clear HO as [|? ? Hk HO'].
    assert (E : filter_plain1 d (k, s) = filter (fun kv => negb (eqb (fst kv) k && eqb (snd kv) s)) d).
    { unfold filter_plain1. cbn [fst snd]. destruct (eqbP (dget k d) (Some s)) as [Eg|Eg].
      - unfold ddel. apply filter_ext_in. intros [k' s'] Hi. cbn [fst snd]. f_equal. destruct (eqbP k k') as [->|Hn].
        + rewrite (dget_In_NoDup _ _ _ HD Hi) in Eg. injection Eg as ->. rewrite !eqbR. reflexivity.
        + replace (eqb k' k) with false by (symmetry; apply eqbF; congruence). reflexivity.
      - symmetry. rewrite <- (filter_ext_in (fun _ => true)); [clear; induction d as [|x d IHd]; [reflexivity | cbn [filter]; f_equal; exact IHd]|].
        intros [k' s'] Hi. cbn [fst snd]. destruct (eqbP k' k) as [->|Hn]; [|reflexivity]. destruct (eqbP s' s) as [->|Hs]; [|reflexivity].
        rewrite (dget_In_NoDup _ _ _ HD Hi) in Eg. congruence. }
    rewrite E, IH; [|exact HO' | apply NoDup_filter_keys; exact HD]. clear E IH.
    induction d as [|[k' s'] d IHd]; [reflexivity|]. cbn [filter fst snd dget]. unfold dkeys in HD. cbn [map] in HD. inversion_clear HD as [|? ? _ HD']. specialize (IHd HD').
    destruct (eqbP k' k) as [->|Hn]; cbn [andb].
    + destruct (eqbP s' s) as [->|Hs]; cbn [negb].
      * rewrite eqbR. cbn [negb]. exact IHd.
      * replace (eqb (Some s) (Some s')) with false by (symmetry; apply eqbF; congruence). cbn [negb filter fst snd].
        apply dget_None in Hk. rewrite Hk. replace (eqb None (Some s')) with false by (symmetry; apply eqbF; discriminate). cbn [negb]. f_equal. exact IHd.
    + cbn [negb filter fst snd]. destruct (negb (eqb (dget k' other) (Some s'))); [f_equal|]; exact IHd.
Qed.

(** What becomes of one archive. *)
Definition wad_left (other : list (str * ewad)) (kw : str * ewad) : list (str * ewad) :=
  match dget (fst kw) other with
  | None => [kw]
  | Some o =>
    if eqb (ew_src (snd kw)) (ew_src o) then []
    else let files := filter_files1 (ew_files (snd kw)) (ew_files o) in
         if nonempty files then [(fst kw, with_files (snd kw) files)] else []
  end.
Lemma flat_map_single {A} (l : list A) : flat_map (fun x => [x]) l = l.
Proof. induction l as [|x l IH]; [reflexivity|]. cbn [flat_map app]. f_equal. exact IH. Qed.
Lemma flat_map_ext_in {A B} (f g : A -> list B) l : (forall x, In x l -> f x = g x) -> flat_map f l = flat_map g l.
Proof. induction l as [|x l IH]; intros H; [reflexivity|]. cbn [flat_map]. rewrite H by (left; reflexivity). f_equal. apply IH. intros y Hy. apply H. right. exact Hy. Qed.
Lemma flat_map_flat_map {A B C} (g : B -> list C) (f : A -> list B) l : flat_map g (flat_map f l) = flat_map (fun x => flat_map g (f x)) l.
Proof. induction l as [|x l IH]; [reflexivity|]. cbn [flat_map]. rewrite flat_map_app. f_equal. exact IH. Qed.
Lemma wad_left_keys other kw x : In x (wad_left other kw) -> fst x = fst kw.
Proof.
  unfold wad_left. destruct (dget (fst kw) other) as [o|]; [|intros [<-|[]]; reflexivity]. destruct (eqb (ew_src (snd kw)) (ew_src o)); [intros []|].
  cbn zeta. destruct (nonempty _); [intros [<-|[]]; reflexivity | intros []].
Qed.
Lemma wad_left_NoDup other d : NoDup (dkeys d) -> NoDup (dkeys (flat_map (wad_left other) d)).
Proof.
  unfold dkeys. induction d as [|kw d IH]; intros HN; [constructor|]. cbn [map] in HN. inversion_clear HN as [|? ? Hk HN']. cbn [flat_map]. rewrite map_app.
  apply NoDup_app_intro; [| apply IH; exact HN' |].
  - unfold wad_left. destruct (dget (fst kw) other) as [o|]; [|repeat constructor; intros []]. destruct (eqb (ew_src (snd kw)) (ew_src o)); [constructor|].
    cbn zeta. destruct (nonempty _); [repeat constructor; intros [] | constructor].
  - intros k H1 H2. apply in_map_iff in H1 as (x & <- & H1). apply wad_left_keys in H1. apply in_map_iff in H2 as (y & E & H2). apply in_flat_map in H2 as (kw2 & H2 & H3).
    apply wad_left_keys in H3. apply Hk. rewrite <- H1, <- E, H3. apply in_map. exact H2.
Qed.
Lemma filter_wad1_list k o d : NoDup (dkeys d) -> filter_wad1 d (k, o) = flat_map (wad_left [(k, o)]) d.
Proof.
  intros HN. unfold filter_wad1.
  assert (Hstay : forall x, In x d -> fst x <> k -> wad_left [(k, o)] x = [x]).
  { intros [k' w'] _ Hk. unfold wad_left. cbn [fst snd dget]. replace (eqb k' k) with false by (symmetry; apply eqbF; exact Hk). reflexivity. }
  destruct (dget k d) as [w|] eqn:Eg.
  - assert (Hsplit : exists a b, d = a ++ (k, w) :: b /\ ~ In k (dkeys a) /\ ~ In k (dkeys b)).
    { apply dget_Some_In in Eg. apply in_split in Eg as (a & b & ->). exists a, b. split; [reflexivity|]. unfold dkeys in HN. rewrite map_app in HN. cbn [map fst] in HN.
      apply NoDup_remove in HN as [_ HN]. rewrite in_app_iff in HN. tauto. }
    destruct Hsplit as (a & b & -> & Ha & Hb).
    assert (HA : forall l, ~ In k (dkeys l) -> incl l (a ++ (k, w) :: b) -> flat_map (wad_left [(k, o)]) l = l).
    { intros l Hl Hi. rewrite <- (flat_map_single l) at 2. apply flat_map_ext_in. intros x Hx. apply Hstay; [apply Hi; exact Hx|]. intros <-. apply Hl. apply in_map. exact Hx. }
    rewrite flat_map_app. cbn [flat_map]. rewrite (HA a Ha), (HA b Hb) by (intros x Hx; rewrite in_app_iff; cbn [In]; tauto).
    assert (HD : ddel k (a ++ (k, w) :: b) = a ++ b).
    { unfold ddel. rewrite filter_app. cbn [filter fst]. rewrite eqbR. cbn [negb].
      assert (HF : forall l : list (str * ewad), ~ In k (dkeys l) -> filter (fun p => negb (eqb k (fst p))) l = l).
      { induction l as [|x l IH]; intros Hl; [reflexivity|]. cbn [filter]. cbn [dkeys map In] in Hl. replace (eqb k (fst x)) with false by (symmetry; apply eqbF; intros ->; tauto). cbn [negb]. f_equal. apply IH. unfold dkeys. tauto. }
      rewrite !HF by assumption. reflexivity. }
    assert (HS : forall v, dset k v (a ++ (k, w) :: b) = a ++ (k, v) :: b).
    { intros v. clear -Ha. induction a as [|[k' x] a IH]; cbn [app dset]; [rewrite eqbR; reflexivity|]. cbn [dkeys map fst In] in Ha.
      replace (eqb k k') with false by (symmetry; apply eqbF; intros ->; tauto). f_equal. apply IH. unfold dkeys. tauto. }
    rewrite HD. unfold wad_left. cbn [fst snd dget]. rewrite eqbR. destruct (eqb (ew_src w) (ew_src o)); [reflexivity|]. cbn zeta. destruct (nonempty _); [rewrite HS|]; reflexivity.
  - rewrite <- (flat_map_single d) at 1. apply flat_map_ext_in. intros x Hx. symmetry. apply Hstay; [exact Hx|]. intros <-. apply dget_None in Eg. apply Eg. apply in_map. exact Hx.
Qed.
Lemma filter_wads_list other d : NoDup (dkeys other) -> NoDup (dkeys d) -> fold_left filter_wad1 other d = flat_map (wad_left other) d.
Proof.
  revert d. induction other as [|[k o] other IH]; intros d HO HD; cbn [fold_left].
  - symmetry. rewrite <- (flat_map_single d) at 2. reflexivity.
  - cbn [dkeys map fst] in HO. inversion_clear HO as [|? ? Hk HO']. rewrite filter_wad1_list by exact HD. rewrite IH; [|exact HO' | apply wad_left_NoDup; exact HD].
    rewrite flat_map_flat_map. apply flat_map_ext_in. intros [k' w] _. unfold wad_left at 2 3. cbn [fst snd dget]. destruct (eqbP k' k) as [->|Hn].
    + destruct (eqb (ew_src w) (ew_src o)); [reflexivity|]. cbn zeta. destruct (nonempty _); [|reflexivity]. cbn [flat_map]. rewrite app_nil_r. unfold wad_left. cbn [fst snd].
      apply dget_None in Hk. rewrite Hk. reflexivity.
    + cbn [flat_map]. rewrite app_nil_r. reflexivity.
Qed.
Lemma filter_exporter_wads self other : dicts self -> dicts other -> ex_wads (filter_exporter self other) = flat_map (wad_left (ex_wads other)) (ex_wads self).
Proof. intros [H1 _] [H2 _]. apply filter_wads_list; assumption. Qed.
Lemma filter_exporter_dicts self other : dicts self -> dicts other -> dicts (filter_exporter self other).
Proof.
  intros HS HO. split.
  - rewrite filter_exporter_wads by assumption. apply wad_left_NoDup. apply HS.
  - destruct HS as [_ HS], HO as [_ HO]. cbn [filter_exporter ex_plain]. rewrite filter_plain_list by assumption. apply NoDup_filter_keys. exact HS.
Qed.

(** The entry of the other archive with the given hash. *)
Lemma last_sha other h : NoDup (map w_hash other) -> forall s, dget h (dict_of (map (fun f => (w_hash f, w_sha f)) other)) = Some s <-> exists g, In g other /\ w_hash g = h /\ w_sha g = s.
Proof.
  intros HN s. assert (HN' : NoDup (dkeys (map (fun f => (w_hash f, w_sha f)) other))) by (unfold dkeys; rewrite map_map; exact HN).
  rewrite dict_of_NoDup_id by exact HN'. split.
  - intros E. apply dget_Some_In in E. apply in_map_iff in E as (g & E & Hg). injection E as E1 E2. eauto.
  - intros (g & Hg & <- & <-). apply dget_In_NoDup; [exact HN'|]. apply in_map_iff. eauto.
Qed.
Definition keeps (other : list wfile) (f : wfile) : bool :=
  negb (eqb (w_sha f) (match dget (w_hash f) (dict_of (map (fun f => (w_hash f, w_sha f)) other)) with Some s => s | None => None end)).
Lemma keeps_iff other f : NoDup (map w_hash other) -> w_sha f <> None -> keeps other f = true <-> ~ exists g, In g other /\ w_hash g = w_hash f /\ w_sha g = w_sha f.
Proof.
  intros HN HS. unfold keeps. rewrite negb_true_iff, eqbF. rewrite <- (last_sha other (w_hash f) HN). destruct (dget _ _) as [s|]; [split; congruence|]. split; [discriminate | auto].
Qed.

Lemma filter_plain_In self other k s : dicts self -> dicts other -> In (k, s) (ex_plain (filter_exporter self other)) <-> In (k, s) (ex_plain self) /\ ~ In (k, s) (ex_plain other).
Proof.
  intros [_ HS] [_ HO]. cbn [filter_exporter ex_plain]. rewrite filter_plain_list by assumption. rewrite filter_In. cbn [fst snd]. rewrite negb_true_iff, eqbF. split; intros [H1 H2]; (split; [exact H1|]).
  - intros H. apply H2. apply dget_In_NoDup; assumption.
  - intros H. apply H2. apply dget_Some_In. exact H.
Qed.
Lemma filter_wads_In self other k w' : dicts self -> dicts other -> In (k, w') (ex_wads (filter_exporter self other)) <-> exists w, In (k, w) (ex_wads self) /\
  match dget k (ex_wads other) with
  | None => w' = w
  | Some o => ew_src w <> ew_src o /\ w' = with_files w (filter (keeps (ew_files o)) (ew_files w)) /\ ew_files w' <> []
  end.
Proof.
  intros HS HO. rewrite filter_exporter_wads by assumption. rewrite in_flat_map. unfold wad_left. split.
  - intros ([k' w] & Hi & H). cbn [fst snd] in H. destruct (dget k' (ex_wads other)) as [o|] eqn:Eo.
    + destruct (eqbP (ew_src w) (ew_src o)) as [|Hne]; [destruct H|]. cbn zeta in H. destruct (nonempty (filter_files1 _ _)) eqn:En; [|destruct H]. destruct H as [E|[]].
      assert (E1 : k' = k) by congruence. assert (E2 : w' = with_files w (filter_files1 (ew_files w) (ew_files o))) by congruence. subst k'. exists w. split; [exact Hi|]. rewrite Eo.
      split; [exact Hne|]. split; [exact E2|]. subst w'. cbn [with_files ew_files]. destruct (filter_files1 _ _); [discriminate | congruence].
    + destruct H as [E|[]]. assert (k' = k /\ w = w') as [-> ->] by (split; congruence). exists w'. rewrite Eo. auto.
  - intros (w & Hi & H). exists (k, w). split; [exact Hi|]. cbn [fst snd]. destruct (dget k (ex_wads other)) as [o|].
    + destruct H as (Hne & -> & Hf). cbn [with_files ew_files] in Hf. apply eqbF in Hne. rewrite Hne. cbn zeta. change (filter_files1 (ew_files w) (ew_files o)) with (filter (keeps (ew_files o)) (ew_files w)).
      destruct (filter (keeps (ew_files o)) (ew_files w)) eqn:E; [congruence|]. left. reflexivity.
    + subst w'. left. reflexivity.
Qed.

(** Entries left in archives. *)
Lemma filter_entries self other k w' : dicts self -> dicts other -> summed self -> unique_hashes other -> In (k, w') (ex_wads (filter_exporter self other)) ->
  exists w keep, In (k, w) (ex_wads self) /\ ew_src w' = ew_src w /\ ew_toc w' = ew_toc w /\ ew_files w' = filter keep (ew_files w) /\
    forall f, In f (ew_files w) -> keep f = true <-> forall o, In (k, o) (ex_wads other) -> ~ provides (ew_src w) f o.
Proof.
  intros HS HO HX HU Hi. apply filter_wads_In in Hi as (w & Hi & H); [|assumption|assumption]. destruct (dget k (ex_wads other)) as [o|] eqn:Eo.
  - destruct H as (Hne & -> & Hf). exists w, (keeps (ew_files o)). split; [exact Hi|]. split; [reflexivity|]. split; [reflexivity|]. split; [reflexivity|]. intros f Hf'.
    pose proof (dget_Some_In _ _ _ Eo) as Ho. rewrite keeps_iff; [|eapply HU; exact Ho | eapply HX; eassumption]. split.
    + intros Hn o' Ho' [E|E]; assert (o' = o) as -> by (pose proof (dget_In_NoDup _ _ _ (proj1 HO) Ho'); congruence); [congruence | contradiction].
    + intros H HE. apply (H o Ho). right. exact HE.
  - subst w'. exists w, (fun _ => true). split; [exact Hi|]. split; [reflexivity|]. split; [reflexivity|].
    split; [clear; induction (ew_files w) as [|x l IH]; [reflexivity | cbn [filter]; f_equal; exact IH]|].
    intros f _. split; [|reflexivity]. intros _ o Ho. apply dget_None in Eo. exfalso. apply Eo. apply in_map_iff. exists (k, o). auto.
Qed.
(** Each remaining entry is in an archive that is left. *)
Lemma filter_entries_left self other k w f : dicts self -> dicts other -> summed self -> unique_hashes other -> In (k, w) (ex_wads self) -> In f (ew_files w) ->
  (forall o, In (k, o) (ex_wads other) -> ~ provides (ew_src w) f o) -> exists w', In (k, w') (ex_wads (filter_exporter self other)) /\ In f (ew_files w').
Proof.
  intros HS HO HX HU Hi Hf Hn. destruct (dget k (ex_wads other)) as [o|] eqn:Eo.
  - pose proof (dget_Some_In _ _ _ Eo) as Ho. exists (with_files w (filter (keeps (ew_files o)) (ew_files w))).
    assert (Hk : In f (filter (keeps (ew_files o)) (ew_files w))).
    { apply filter_In. split; [exact Hf|]. apply keeps_iff; [eapply HU; exact Ho | eapply HX; eassumption|]. intros HE. apply (Hn o Ho). right. exact HE. }
    split; [|exact Hk]. apply filter_wads_In; [assumption|assumption|]. exists w. split; [exact Hi|]. rewrite Eo. split; [intros E; apply (Hn o Ho); left; congruence|].
    split; [reflexivity|]. cbn [with_files ew_files]. intros E. rewrite E in Hk. destruct Hk.
  - exists w. split; [|exact Hf]. apply filter_wads_In; [assumption|assumption|]. exists w. rewrite Eo. auto.
Qed.
Lemma filter_emptied self other k w' : dicts self -> dicts other -> In (k, w') (ex_wads (filter_exporter self other)) -> ew_files w' = [] -> In (k, w') (ex_wads self) /\ ~ In k (dkeys (ex_wads other)).
Proof.
  intros HS HO Hi He. apply filter_wads_In in Hi as (w & Hi & H); [|assumption|assumption]. destruct (dget k (ex_wads other)) as [o|] eqn:Eo; [tauto|]. subst w'. split; [exact Hi|]. apply dget_None. exact Eo.
Qed.

(** ** Paths of the exported files *)

Section Plan.
  Variable cs : list conv.

  Lemma all_converted_ok e : named e -> exists l, all_converted cs e = Ok l /\ forall x, In x l <-> produces cs e x.
  Proof.
    intros HN. assert (HP : forall o, In o (exported_paths e) -> exists p, o = Some p /\ exports e p).
    { intros o Ho. unfold exported_paths in Ho. apply in_app_or in Ho as [Ho|Ho].
      - apply in_map_iff in Ho as ([k s] & <- & Ho). exists k. split; [reflexivity|]. left. eauto.
      - apply in_flat_map in Ho as ([k w] & Hi & Ho). cbn [snd] in Ho. apply in_map_iff in Ho as (f & <- & Hf). destruct (w_path f) as [p|] eqn:Ep; [|destruct (HN k w f Hi Hf Ep)].
        exists p. split; [reflexivity|]. right. exists k, w, f. auto. }
    assert (HQ : forall p, exports e p -> In (Some p) (exported_paths e)).
    { intros p [[s H]|(k & w & f & H1 & H2 & H3)]; unfold exported_paths; apply in_or_app.
      - left. apply in_map_iff. exists (p, s). auto.
      - right. apply in_flat_map. exists (k, w). split; [exact H1|]. cbn [snd]. apply in_map_iff. exists f. auto. }
    unfold all_converted. revert HP HQ. generalize (exported_paths e) as l. intros l HP HQ.
    assert (HM : exists ll, rmapM (fun o => rmap (converted_exported_paths cs) (of_opt TypeError o)) l = Ok ll /\ forall x, In x (concat ll) <-> exists p, In (Some p) l /\ In x (converted_exported_paths cs p)).
    { clear HQ. induction l as [|o l IH]; [exists []; split; [reflexivity|]; intros x; cbn; split; [intros [] | intros (p & [] & _)]|].
      destruct IH as (ll & E & HL); [intros o' Ho'; apply HP; right; exact Ho'|]. destruct (HP o (or_introl eq_refl)) as (p & -> & _).
      exists (converted_exported_paths cs p :: ll). split; [cbn [rmapM of_opt rmap rbind]; rewrite E; reflexivity|]. intros x. cbn [concat In]. rewrite in_app_iff, HL. split.
      - intros [H|(q & H & H')]; [exists p; auto | exists q; auto].
      - intros (q & [H|H] & H'); [injection H as <-; auto | right; eauto]. }
    destruct HM as (ll & E & HL). exists (concat ll). split; [rewrite E; reflexivity|]. intros x. rewrite HL. unfold produces, converted_exported_paths. split; intros (p & H1 & H2); exists p; (split; [|exact H2]).
    - destruct (HP _ H1) as (p' & E' & H). injection E' as <-. exact H.
    - apply HQ. exact H1.
  Qed.
  Lemma filter_named e prev : dicts e -> dicts prev -> named e -> named (filter_exporter e prev).
  Proof.
    intros HD HD' HN k w f Hi Hf. apply filter_wads_In in Hi as (w0 & Hi & H); [|assumption|assumption]. destruct (dget k (ex_wads prev)) as [o|].
    - destruct H as (_ & -> & _). cbn [with_files ew_files] in Hf. apply filter_In in Hf as [Hf _]. eapply HN; eassumption.
    - subst w0. eapply HN; eassumption.
  Qed.
  Lemma filter_exports e prev p : dicts e -> dicts prev -> exports (filter_exporter e prev) p -> exports e p.
  Proof.
    intros HD HD' [[s H]|(k & w & f & Hi & Hf & Ep)].
    - left. exists s. apply filter_plain_In in H; [tauto | assumption | assumption].
    - right. apply filter_wads_In in Hi as (w0 & Hi & H); [|assumption|assumption]. destruct (dget k (ex_wads prev)) as [o|].
      + destruct H as (_ & -> & _). cbn [with_files ew_files] in Hf. apply filter_In in Hf as [Hf _]. eauto 7.
      + subst w0. eauto 7.
  Qed.

  (** A path that is not produced any more after filtering is produced by the other exporter. *)
  Lemma filter_produced e prev x : dicts e -> dicts prev -> named e -> summed e -> unique_hashes prev -> same_paths e prev ->
    produces cs e x -> produces cs (filter_exporter e prev) x \/ produces cs prev x.
  Proof.
    intros HD HD' HN HX HU HC (p & Hp & Hx). destruct Hp as [[s Hp]|(k & w & f & Hi & Hf & Ep)].
    - destruct (eqbP (dget p (ex_plain prev)) (Some s)) as [E|E].
      + right. exists p. split; [|exact Hx]. left. exists s. apply dget_Some_In. exact E.
      + left. exists p. split; [|exact Hx]. left. exists s. apply filter_plain_In; [assumption|assumption|]. split; [exact Hp|]. intros H. apply E. apply dget_In_NoDup; [apply HD' | exact H].
    - assert (HL : (forall o, In (k, o) (ex_wads prev) -> ~ provides (ew_src w) f o) -> produces cs (filter_exporter e prev) x \/ produces cs prev x).
      { intros Hno. destruct (filter_entries_left e prev k w f HD HD' HX HU Hi Hf Hno) as (w' & Hi' & Hf'). left. exists p. split; [|exact Hx]. right. eauto 7. }
      destruct (dget k (ex_wads prev)) as [o|] eqn:Eo.
      + pose proof (dget_Some_In _ _ _ Eo) as Ho. destruct (HC k w o Hi Ho) as [HC1 HC2]. destruct (eqbP (ew_src w) (ew_src o)) as [Es|Es].
        * right. exists p. split; [|exact Hx]. right. assert (Hin : In (w_path f) (map w_path (ew_files w))) by (apply in_map; exact Hf). rewrite (HC1 Es) in Hin.
          apply in_map_iff in Hin as (g & Eg & Hg). exists k, o, g. split; [exact Ho|]. split; [exact Hg | congruence].
        * destruct (keeps (ew_files o) f) eqn:Ek.
          -- apply HL. intros o' Ho' [E|E]; assert (o' = o) as -> by (pose proof (dget_In_NoDup _ _ _ (proj1 HD') Ho'); congruence); [congruence|].
             apply (proj1 (keeps_iff _ f (HU _ _ Ho) (HX _ _ _ Hi Hf)) Ek E).
          -- right. assert (HE : exists g, In g (ew_files o) /\ w_hash g = w_hash f /\ w_sha g = w_sha f).
             { unfold keeps in Ek. apply negb_false_iff in Ek. apply eqb_true in Ek. pose proof (last_sha (ew_files o) (w_hash f) (HU _ _ Ho)) as HL'.
               destruct (dget (w_hash f) _) as [s|]; [apply HL'; congruence|]. destruct (HX _ _ _ Hi Hf Ek). }
             destruct HE as (g & Hg & E1 & E2). exists p. split; [|exact Hx]. right. exists k, o, g. split; [exact Ho|]. split; [exact Hg|]. rewrite (HC2 f g Hf Hg E1 E2). exact Ep.
      + apply HL. intros o Ho. apply dget_None in Eo. exfalso. apply Eo. apply in_map_iff. exists (k, o). auto.
  Qed.
End Plan.

(** ** The plan *)

Lemma no_nesting_list (P : str -> Prop) l : (forall x, In x l -> P x) -> no_nesting P -> files_only l.
Proof. intros H HN p q Hp Hq. apply HN; apply H; assumption. Qed.

Lemma plan_links_ok cs e prev : dicts e -> dicts prev -> named e -> named prev -> summed e -> unique_hashes prev -> same_paths e prev ->
  no_nesting (produces cs e) -> no_nesting (produces cs prev) ->
  exists pl, plan_links cs e prev = Ok pl /\ pl_exporter pl = filter_exporter e prev /\
    (forall x, In x (pl_new pl) <-> produces cs e x) /\
    (forall x, In x (pl_changed pl) <-> x = lit "cdragon" \/ produces cs (filter_exporter e prev) x) /\
    (forall x, produces cs e x -> produces cs (filter_exporter e prev) x \/
       exists r, In r (pl_links pl) /\ inside x r /\ forall r', In r' (pl_links pl) -> inside x r' -> r' = r) /\
    (forall x r, produces cs (filter_exporter e prev) x -> In r (pl_links pl) -> ~ inside x r /\ ~ inside r x) /\
    (forall r b, In r (pl_links pl) -> produces cs prev b -> inside b r -> produces cs e b /\ ~ produces cs (filter_exporter e prev) b) /\
    (forall r b, In r (pl_links pl) -> produces cs e b -> inside b r -> produces cs prev b) /\
    (forall r, In r (pl_links pl) -> exists b, produces cs e b /\ inside b r) /\
    NoDup (pl_links pl) /\ (forall r1 r2, In r1 (pl_links pl) -> In r2 (pl_links pl) -> inside r1 r2 -> r1 = r2).
Proof.
  intros D D' NA NA' SU UH SP NN NN'.
  destruct (all_converted_ok cs e NA) as (new & E1 & HNew), (all_converted_ok cs prev NA') as (old & E2 & HOld), (all_converted_ok cs _ (filter_named e prev D D' NA)) as (ch & E3 & HCh).
  set (p1 := filter (fun p => negb (mem p (set_of ch))) (set_of new)).
  assert (H1 : forall x, In x p1 <-> produces cs e x /\ ~ produces cs (filter_exporter e prev) x).
  { intros x. unfold p1. rewrite filter_In, set_of_In, HNew, negb_true_iff. split; intros [H H']; (split; [exact H|]).
    - intros Hc. apply HCh, set_of_In, mem_In in Hc. congruence.
    - destruct (mem x (set_of ch)) eqn:Em; [|reflexivity]. apply mem_In, set_of_In, HCh in Em. contradiction. }
  assert (H2 : forall x, In x (set_of old) <-> produces cs prev x) by (intros x; rewrite set_of_In; apply HOld).
  assert (H3 : forall x, In x (set_of ch) <-> produces cs (filter_exporter e prev) x) by (intros x; rewrite set_of_In; apply HCh).
  assert (HSub : forall x, produces cs (filter_exporter e prev) x -> produces cs e x).
  { intros x (p & Hp & Hx). exists p. split; [|exact Hx]. eapply filter_exports; eassumption. }
  assert (F1 : files_only p1) by (apply (no_nesting_list _ p1 (fun x H => proj1 (proj1 (H1 x) H)) NN)).
  assert (F2 : files_only (set_of old)) by (apply (no_nesting_list _ _ (fun x H => proj1 (H2 x) H) NN')).
  assert (FX : files_only (set_of ch)) by (apply (no_nesting_list _ _ (fun x H => HSub x (proj1 (H3 x) H)) NN)).
  assert (FA : files_only (p1 ++ set_of ch)).
  { apply (no_nesting_list (produces cs e)); [|exact NN]. intros x Hx. apply in_app_or in Hx as [Hx|Hx]; [apply H1, Hx | apply HSub, H3, Hx]. }
  assert (HI : incl p1 (set_of old)).
  { intros x Hx. apply H1 in Hx as [Hx Hn]. apply H2. destruct (filter_produced cs e prev x D D' NA SU UH SP Hx) as [H|H]; [contradiction | exact H]. }
  destruct (reduce_paths p1 (set_of old) (set_of ch) F1 F2 FX HI) as (links & Er & HND & HC & HU & HO & _ & HA & _).
  pose proof (reduce_paths_excluded p1 (set_of old) (set_of ch) links FA F2 HI (fun x Hx Hp => proj2 (proj1 (H1 x) Hp) (proj1 (H3 x) Hx)) Er) as HX.
  eexists. split; [unfold plan_links; rewrite E1, E2; cbn [rbind]; rewrite E3; cbn [rbind]; fold p1; rewrite Er; cbn [rbind]; reflexivity|].
  cbn [pl_exporter pl_new pl_changed pl_links]. split; [reflexivity|]. split; [intros x; rewrite set_of_In; apply HNew|].
  split; [intros x; rewrite set_add_In, H3; reflexivity|]. split; [|split; [|split; [|split; [|split; [|split]]]]].
  - intros x Hx. destruct (mem x (set_of ch)) eqn:Em; [left; apply H3, mem_In, Em|]. right. apply HC. apply H1. split; [exact Hx|]. intros Hc. apply H3, mem_In in Hc. congruence.
  - intros x r Hx Hr. apply HX; [exact Hr | apply H3; exact Hx].
  - intros r b Hr Hb Hi. apply H1. eapply HO; [exact Hr | apply H2; exact Hb | exact Hi].
  - intros r b Hr Hb Hi. destruct (mem b (set_of ch)) eqn:Em.
    + apply mem_In, H3 in Em. destruct (HX r b Hr) as [Hn _]; [apply H3; exact Em | contradiction].
    + apply H2, HI, H1. split; [exact Hb|]. intros Hc. apply H3, mem_In in Hc. congruence.
  - intros r Hr. destruct (HU r Hr) as (a & Ha & Hi). exists a. split; [apply H1; exact Ha | exact Hi].
  - exact HND.
  - exact HA.
Qed.

(** ** Selected files *)

Section Transform.
  Variable cs : list conv.

  Definition subdir_of (v : version) (k : str) : str := match game_subdir v k with Ok s => s | Err _ => [] end.
  (** Path given to an entry of the archive [k], and whether it is selected. *)
  Definition tr_path (k : str) (v : version) (f : wfile) : str :=
    let p := path_text (w_path (set_unknown_path (unknown_dir k) f)) in
    if endswith k (lit ".wad.client") then subdir_of v k ++ lit "/" ++ p else p.
  Definition tr_keep (k : str) (v : version) (f : wfile) : bool :=
    not_executable (w_path (set_unknown_path (unknown_dir k) f)) && (if endswith k (lit ".wad.client") then filter_path cs (tr_path k v f) else true).
  Definition tr_file (k : str) (v : version) (f : wfile) : wfile := set_path f (Some (tr_path k v f)).
  Definition tr_files (k : str) (v : version) (files : list wfile) : list wfile := map (tr_file k v) (filter (tr_keep k v) files).

  Lemma set_unknown_keep dir f : set_unknown_path dir f = set_path f (w_path (set_unknown_path dir f)).
  Proof. unfold set_unknown_path. destruct (truthy (w_path f)); [destruct f; reflexivity|]. destruct (truthy (w_ext f)); reflexivity. Qed.
  Lemma not_executable_some p : not_executable p = true -> p = Some (path_text p).
  Proof. destruct p as [[|c p]|]; [discriminate | reflexivity | discriminate]. Qed.
  Lemma filter_map {A B} (f : A -> B) (p : B -> bool) l : filter p (map f l) = map f (filter (fun x => p (f x)) l).
  Proof. induction l as [|x l IH]; [reflexivity|]. cbn [map filter]. destruct (p (f x)); cbn [map]; rewrite IH; reflexivity. Qed.
  Lemma filter_filter {A} (p q : A -> bool) l : filter p (filter q l) = filter (fun x => q x && p x) l.
  Proof. induction l as [|x l IH]; [reflexivity|]. cbn [filter]. destruct (q x); cbn [filter andb]; [destruct (p x); rewrite IH; reflexivity | exact IH]. Qed.

  Lemma with_files2 w a b : with_files (with_files w a) b = with_files w b.
  Proof. reflexivity. Qed.
  Lemma game_wad_ok v k w r : game_wad cs v (k, with_files w (filter (fun f => not_executable (w_path f)) (set_unknown_paths (unknown_dir k) (ew_files w)))) = Ok r ->
    r = (k, with_files w (tr_files k v (ew_files w))).
  Proof.
    unfold game_wad, tr_files, set_unknown_paths. cbn [with_files ew_files]. rewrite filter_map. destruct (endswith k (lit ".wad.client")) eqn:Ee.
    - unfold subdir_of, tr_file, tr_keep, tr_path. rewrite Ee. unfold subdir_of. destruct (game_subdir v k) as [sub|] eqn:Es; cbn [rbind]; [|discriminate].
      intros E. injection E as <-. f_equal. rewrite with_files2. f_equal. rewrite map_map, filter_map, filter_filter. unfold move_file. cbn [set_path w_path path_text].
      apply map_ext. intros f. rewrite set_unknown_keep. reflexivity.
    - intros E. injection E as <-. f_equal. f_equal. unfold tr_keep, tr_file, tr_path. rewrite Ee.
      transitivity (map (set_unknown_path (unknown_dir k)) (filter (fun x => not_executable (w_path (set_unknown_path (unknown_dir k) x)) && true) (ew_files w))).
      + f_equal. apply filter_ext. intros f. rewrite andb_true_r. reflexivity.
      + apply map_ext_in. intros f Hf. apply filter_In in Hf as [_ Hf]. rewrite andb_true_r in Hf. apply not_executable_some in Hf. rewrite set_unknown_keep at 1. rewrite Hf at 1. reflexivity.
  Qed.

  Lemma rmapM_In {A B} (f : A -> result B) l l' : rmapM f l = Ok l' -> (forall y, In y l' <-> exists x, In x l /\ f x = Ok y).
  Proof.
    intros H. apply rmapM_Ok in H. induction H as [|x y l l' H1 H IH]; intros z; cbn [In]; [split; [intros [] | intros (x & [] & _)]|]. rewrite IH. split.
    - intros [<-|(x' & H' & E)]; [exists x; auto | exists x'; auto].
    - intros (x' & [<-|H'] & E); [left; congruence | right; eauto].
  Qed.
  Lemma rmapM_keys v (l l' : list (str * ewad)) : rmapM (game_wad cs v) l = Ok l' -> dkeys l' = dkeys l.
  Proof.
    intros H. apply rmapM_Ok in H. unfold dkeys. induction H as [|[k w] y l l' H1 H IH]; [reflexivity|]. cbn [map fst]. f_equal; [|exact IH].
    unfold game_wad in H1. destruct (endswith k (lit ".wad.client")); [destruct (game_subdir v k); cbn [rbind] in H1; [|discriminate]|]; injection H1 as <-; reflexivity.
  Qed.

  Lemma transform_ok v e e' : NoDup (dkeys (ex_wads e)) -> transform cs v e = Ok e' ->
    ex_plain e' = filter (fun kv => negb (endswith (fst kv) (lit "/description.json"))) (filter (fun kv => not_executable (Some (fst kv))) (ex_plain e)) /\
    NoDup (dkeys (ex_wads e')) /\
    forall k w', In (k, w') (ex_wads e') <-> exists w, In (k, w) (ex_wads e) /\ w' = with_files w (tr_files k v (ew_files w)) /\ ew_files w' <> [].
  Proof.
    intros HN. unfold transform. set (e1 := {| ex_wads := _ |}).
    assert (HN1 : NoDup (dkeys (ex_wads e1))) by (unfold e1; cbn [ex_wads]; rewrite dkeys_map; exact HN).
    intros E. apply rbind_Ok in E as (wads & Ew & E). injection E as <-. cbn [ex_plain ex_wads]. split; [reflexivity|].
    pose proof (rmapM_keys _ _ _ Ew) as Ek. rewrite (filter_export_wads _ _ HN1) in Ek, Ew.
    assert (HN2 : NoDup (dkeys wads)) by (rewrite Ek; apply NoDup_filter_keys; rewrite dkeys_map; exact HN1).
    rewrite (drop_keys (fun kw => negb (nonempty (ew_files (snd kw)))) wads HN2). split; [apply NoDup_filter_keys; exact HN2|].
    intros k w'. rewrite filter_In, negb_involutive. cbn [snd]. rewrite (rmapM_In _ _ _ Ew). split.
    - intros [([k0 w0] & H0 & Eg) Hne]. apply filter_In in H0 as [H0 Hne0]. apply in_map_iff in H0 as ([k1 w1] & E1 & H1). unfold e1 in H1. cbn [ex_wads] in H1. apply in_map_iff in H1 as ([k2 w2] & E2 & H2).
      cbn [fst snd] in *. injection E2 as <- <-. injection E1 as <- <-. apply (game_wad_ok v k2 w2) in Eg. injection Eg as -> ->.
      exists w2. split; [exact H2|]. split; [reflexivity|]. cbn [with_files ew_files] in *. destruct (tr_files _ _ _); [discriminate | discriminate].
    - intros (w & Hi & -> & Hne). cbn [with_files ew_files] in Hne.
      set (w0 := with_files w (filter (fun f => not_executable (w_path f)) (set_unknown_paths (unknown_dir k) (ew_files w)))).
      assert (Hin : In (k, w0) (filter (fun kw => nonempty (ew_files (snd kw))) (map (fun kw => (fst kw, with_files (snd kw) (filter (fun f => not_executable (w_path f)) (ew_files (snd kw))))) (ex_wads e1)))).
      { apply filter_In. split.
        - apply in_map_iff. exists (k, with_files w (set_unknown_paths (unknown_dir k) (ew_files w))). split; [reflexivity|]. unfold e1. cbn [ex_wads]. apply in_map_iff. exists (k, w). auto.
        - cbn [snd w0 with_files ew_files]. destruct (filter (fun f => not_executable (w_path f)) (set_unknown_paths (unknown_dir k) (ew_files w))) eqn:Ef; [|reflexivity]. exfalso. apply Hne. unfold tr_files. unfold set_unknown_paths in Ef. rewrite filter_map in Ef. apply map_eq_nil in Ef.
          replace (filter (tr_keep k v) (ew_files w)) with (@nil wfile); [reflexivity|]. symmetry. unfold tr_keep.
          transitivity (filter (fun f => if endswith k (lit ".wad.client") then filter_path cs (tr_path k v f) else true) (filter (fun f => not_executable (w_path (set_unknown_path (unknown_dir k) f))) (ew_files w))).
          + rewrite filter_filter. reflexivity.
          + rewrite Ef. reflexivity. }
      split; [|cbn [with_files ew_files]; destruct (tr_files _ _ _); [congruence | reflexivity]].
      exists (k, w0). split; [exact Hin|].
      assert (Hok : exists r, game_wad cs v (k, w0) = Ok r).
      { apply rmapM_Ok in Ew. clear -Ew Hin. induction Ew as [|x y l l' H1 H IH]; [destruct Hin|]. destruct Hin as [->|Hin]; [eauto | apply IH; exact Hin]. }
      destruct Hok as [r Er]. rewrite Er. f_equal. apply game_wad_ok in Er. exact Er.
  Qed.

  Lemma tr_files_In k v files f' : In f' (tr_files k v files) <-> exists f, In f files /\ tr_keep k v f = true /\ f' = tr_file k v f.
  Proof.
    unfold tr_files. rewrite in_map_iff. split.
    - intros (f & <- & H). apply filter_In in H as [H1 H2]. eauto.
    - intros (f & H1 & H2 & ->). exists f. split; [reflexivity|]. apply filter_In. auto.
  Qed.
  Lemma tr_path_same k v v' f g : by_lang v = by_lang v' -> w_hash g = w_hash f -> w_path g = w_path f -> w_ext g = w_ext f -> tr_path k v' g = tr_path k v f.
  Proof.
    intros Hv Hh Hp He. unfold tr_path, subdir_of, game_subdir. rewrite <- Hv. unfold set_unknown_path. rewrite Hh, Hp, He.
    assert (E : path_text (w_path (match truthy (w_path f) with Some _ => g | None => match truthy (w_ext f) with Some e => set_path g (Some (unknown_dir k ++ lit "/" ++ hexl 16 (w_hash f) ++ lit "." ++ e)) | None => set_path g (Some (unknown_dir k ++ lit "/" ++ hexl 16 (w_hash f))) end end))
      = path_text (w_path (match truthy (w_path f) with Some _ => f | None => match truthy (w_ext f) with Some e => set_path f (Some (unknown_dir k ++ lit "/" ++ hexl 16 (w_hash f) ++ lit "." ++ e)) | None => set_path f (Some (unknown_dir k ++ lit "/" ++ hexl 16 (w_hash f))) end end))).
    { destruct (truthy (w_path f)); [congruence|]. destruct (truthy (w_ext f)); reflexivity. }
    rewrite E. reflexivity.
  Qed.

  Lemma transform_dicts v e e' : dicts e -> transform cs v e = Ok e' -> dicts e'.
  Proof. intros [H1 H2] E. destruct (transform_ok v e e' H1 E) as (Ep & Hn & _). split; [exact Hn|]. rewrite Ep. apply NoDup_filter_keys, NoDup_filter_keys, H2. Qed.
  Lemma transform_named v e e' : dicts e -> transform cs v e = Ok e' -> named e'.
  Proof.
    intros [H1 H2] E k w' f' Hi Hf. destruct (transform_ok v e e' H1 E) as (_ & _ & HW). apply HW in Hi as (w & Hi & -> & _). cbn [with_files ew_files] in Hf.
    apply tr_files_In in Hf as (f & _ & _ & ->). discriminate.
  Qed.
  Lemma transform_summed v e e' : dicts e -> summed e -> transform cs v e = Ok e' -> summed e'.
  Proof.
    intros [H1 H2] HS E k w' f' Hi Hf. destruct (transform_ok v e e' H1 E) as (_ & _ & HW). apply HW in Hi as (w & Hi & -> & _). cbn [with_files ew_files] in Hf.
    apply tr_files_In in Hf as (f & Hf & _ & ->). apply (HS k w f Hi Hf).
  Qed.
  Lemma transform_unique v e e' : dicts e -> unique_hashes e -> transform cs v e = Ok e' -> unique_hashes e'.
  Proof.
    intros [H1 H2] HS E k w' Hi. destruct (transform_ok v e e' H1 E) as (_ & _ & HW). apply HW in Hi as (w & Hi & -> & _). cbn [with_files ew_files].
    unfold tr_files. rewrite map_map. change (map (fun x => w_hash (tr_file k v x))) with (map w_hash). specialize (HS k w Hi). revert HS. generalize (ew_files w) as l. intros l.
    induction l as [|x l IH]; intros HN; [constructor|]. cbn [map] in HN. inversion_clear HN as [|? ? Hx HN']. cbn [filter]. destruct (tr_keep k v x); [|apply IH; exact HN'].
    cbn [map]. constructor; [|apply IH; exact HN']. intros H. apply Hx. apply in_map_iff in H as (y & <- & H). apply filter_In in H as [H _]. apply in_map. exact H.
  Qed.
  Lemma transform_same v v' e prev e' prev' : dicts e -> dicts prev -> by_lang v = by_lang v' -> same_entries e prev ->
    transform cs v e = Ok e' -> transform cs v' prev = Ok prev' -> same_paths e' prev'.
  Proof.
    intros [H1 _] [H1' _] Hv HS E E' k w o Hw Ho. destruct (transform_ok v e e' H1 E) as (_ & _ & HW), (transform_ok v' prev prev' H1' E') as (_ & _ & HO).
    apply HW in Hw as (w0 & Hw & -> & _). apply HO in Ho as (o0 & Ho & -> & _). destruct (HS k w0 o0 Hw Ho) as [HS1 HS2]. cbn [with_files ew_files ew_src]. split.
    - intros Es. rewrite (HS1 Es). unfold tr_files. rewrite !map_map. cbn [tr_file set_path w_path].
      replace (filter (tr_keep k v') (ew_files o0)) with (filter (tr_keep k v) (ew_files o0)).
      + apply map_ext. intros f. f_equal. symmetry. apply tr_path_same; auto.
      + apply filter_ext. intros f. unfold tr_keep. rewrite (tr_path_same k v v' f f); auto.
    - intros f g Hf Hg Hh Hs. apply tr_files_In in Hf as (f0 & Hf & _ & ->), Hg as (g0 & Hg & _ & ->). cbn [tr_file set_path w_path w_hash w_sha] in *.
      destruct (HS2 f0 g0 Hf Hg Hh Hs) as [Ep Ee]. f_equal. apply tr_path_same; assumption.
  Qed.
End Transform.
