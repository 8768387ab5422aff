(** * Proofs about patch listings *)

From Verif Require Import Base.TextFacts Model.Version Model.Storage Spec.VersionSpec Spec.StorageSpec Proofs.VersionProofs.

(** ** groupby *)

Section GroupBy.
  Context {A : Type} (same : A -> A -> bool).
  Context (same_refl : forall a, same a a = true).
  Context (same_sym : forall a b, same a b = true -> same b a = true).
  Context (same_trans : forall a b c, same a b = true -> same b c = true -> same a c = true).

  Lemma groupby_concat l : concat (groupby same l) = l.
  Proof.
    induction l as [|x t IH]; cbn [groupby]; [reflexivity|].
    destruct (groupby same t) as [|[|y g] gs]; cbn [concat app] in *; try (rewrite <- IH; reflexivity).
    destruct (same x y); cbn [concat app]; rewrite <- IH; reflexivity.
  Qed.
  Lemma groupby_groups l :
    Forall (fun g => g <> [] /\ forall a b, In a g -> In b g -> same a b = true) (groupby same l).
  Proof.
    induction l as [|x t IH]; cbn [groupby]; [constructor|].
    assert (H1 : [x] <> [] /\ forall a b, In a [x] -> In b [x] -> same a b = true).
    { split; [discriminate|]. intros a b [<-|[]] [<-|[]]. apply same_refl. }
    destruct (groupby same t) as [|[|y g] gs]; try (constructor; assumption).
    inversion IH as [|? ? [_ Hg] Hgs]; subst. destruct (same x y) eqn:E; [|constructor; assumption].
    constructor; [|assumption]. split; [discriminate|].
    assert (Hx : forall b, In b (y :: g) -> same x b = true).
    { intros b Hb. apply same_trans with y; [assumption|]. apply Hg; [left; reflexivity | assumption]. }
    intros a b [<-|Ha] [<-|Hb]; auto.
  Qed.
  Lemma groupby_adjacent l pre g1 g2 post a b :
    groupby same l = pre ++ g1 :: g2 :: post -> In a g1 -> In b g2 -> same a b = false.
  Proof.
    revert pre g1 g2 post a b. induction l as [|x t IH]; intros pre g1 g2 post a b E Ha Hb; cbn [groupby] in E.
    { destruct pre; discriminate. }
    pose proof (groupby_groups t) as HG.
    destruct (groupby same t) as [|[|y g] gs] eqn:Et.
    - destruct pre as [|? [|? ?]]; discriminate.
    - inversion HG as [|? ? [? _] _]; congruence.
    - inversion HG as [|? ? [_ Hg] Hgs]; subst. destruct (same x y) eqn:Exy.
      + destruct pre as [|p0 pre].
        * injection E as <- E. destruct gs as [|g2' post']; [discriminate|]. injection E as -> ->.
          destruct Ha as [<-|Ha].
          -- destruct (same x b) eqn:Exb; [|reflexivity].
             rewrite <- (IH [] (y :: g) g2 post y b eq_refl (or_introl eq_refl) Hb).
             symmetry. apply same_trans with x; [apply same_sym; assumption | assumption].
          -- exact (IH [] (y :: g) g2 post a b eq_refl Ha Hb).
        * injection E as <- E. rewrite E in IH. exact (IH ((y :: g) :: pre) g1 g2 post a b eq_refl Ha Hb).
      + destruct pre as [|p0 pre].
        * injection E as <- <- E. destruct Ha as [<-|[]].
          destruct (same x b) eqn:Exb; [|reflexivity]. rewrite <- Exy. symmetry.
          apply same_trans with b; [assumption|]. apply Hg; [assumption | left; reflexivity].
        * injection E as <- E. rewrite E in IH. exact (IH pre g1 g2 post a b eq_refl Ha Hb).
  Qed.
End GroupBy.

Lemma same_ver_refl a : same_ver a a = true.
Proof. unfold same_ver, v_eq. apply eqbR. Qed.
Lemma same_ver_iff a b : same_ver a b = true <-> v_s (e_ver a) = v_s (e_ver b).
Proof. unfold same_ver, v_eq. apply eqbT. Qed.
Lemma same_ver_sym a b : same_ver a b = true -> same_ver b a = true.
Proof. rewrite !same_ver_iff. congruence. Qed.
Lemma same_ver_trans a b c : same_ver a b = true -> same_ver b c = true -> same_ver a c = true.
Proof. rewrite !same_ver_iff. congruence. Qed.

Lemma groupby_version_groups l : version_groups l (groupby same_ver l).
Proof.
  repeat split.
  - apply groupby_concat.
  - eapply Forall_impl; [|apply (groupby_groups same_ver same_ver_refl same_ver_sym same_ver_trans)].
    cbn. intros g [Hne Hg]. split; [assumption|]. intros a b Ha Hb. apply same_ver_iff. auto.
  - intros pre g1 g2 post a b E Ha Hb Ev.
    pose proof (groupby_adjacent same_ver same_ver_refl same_ver_sym same_ver_trans l pre g1 g2 post a b E Ha Hb) as Hf.
    apply same_ver_iff in Ev. congruence.
Qed.

(** ** First element of each name *)

Definition fbn_dict (g : list element) (d : list (str * element)) : list (str * element) :=
  fold_left (fun d e => if dhas (e_name e) d then d else dset (e_name e) e d) g d.

Lemma fbn_keyed g d :
  Forall (fun p => fst p = e_name (snd p)) d -> NoDup (dkeys d) ->
  Forall (fun p => fst p = e_name (snd p)) (fbn_dict g d) /\ NoDup (dkeys (fbn_dict g d)).
Proof.
  revert d. induction g as [|e g IH]; intros d HF Hd; cbn [fbn_dict fold_left]; [split; assumption|].
  apply IH.
  - unfold dhas. destruct (dget (e_name e) d) eqn:E; [assumption|]. rewrite dset_new by assumption.
    apply Forall_app. split; [assumption | repeat constructor].
  - unfold dhas. destruct (dget (e_name e) d); [assumption | apply dset_NoDup; assumption].
Qed.

Lemma fbn_get g d k :
  dget k (fbn_dict g d) =
  match dget k d with Some e => Some e | None => find (fun e => eqb k (e_name e)) g end.
Proof.
  revert d. induction g as [|e g IH]; intros d; cbn [fbn_dict fold_left find].
  - destruct (dget k d); reflexivity.
  - fold (fbn_dict g (if dhas (e_name e) d then d else dset (e_name e) e d)).
    rewrite IH. unfold dhas. destruct (dget (e_name e) d) as [e'|] eqn:E.
    + destruct (dget k d) eqn:Ek; [reflexivity|]. destruct (eqbP k (e_name e)) as [->|]; [congruence | reflexivity].
    + rewrite dget_dset. destruct (eqbP k (e_name e)) as [->|]; [rewrite E; reflexivity | reflexivity].
Qed.

Lemma find_first k g e :
  find (fun e => eqb k (e_name e)) g = Some e <-> e_name e = k /\ first_of_name g e.
Proof.
  induction g as [|x g IH]; cbn [find].
  - split; [discriminate|]. intros (_ & pre & post & E & _). destruct pre; discriminate.
  - destruct (eqbP k (e_name x)) as [->|Hk].
    + split.
      * intros E. injection E as <-. split; [reflexivity|]. exists [], g. split; [reflexivity | intros y []].
      * intros (En & pre & post & E & Hpre). destruct pre as [|y pre]; [injection E as -> _; reflexivity|].
        injection E as <- ->. exfalso. apply (Hpre x); [left; reflexivity | congruence].
    + rewrite IH. split; intros (En & pre & post & E & Hpre).
      * split; [assumption|]. exists (x :: pre), post. split; [rewrite E; reflexivity|].
        intros y [<-|Hy]; [congruence | auto].
      * split; [assumption|]. destruct pre as [|y pre]; [injection E as -> _; congruence|].
        injection E as <- ->. exists pre, post. split; [reflexivity|]. intros y Hy. apply Hpre. right. assumption.
Qed.

Lemma first_by_name_In g e : In e (first_by_name g) <-> first_of_name g e.
Proof.
  unfold first_by_name. fold (fbn_dict g []).
  destruct (fbn_keyed g []) as [HF Hd]; [constructor | constructor |].
  unfold dvals. rewrite in_map_iff. split.
  - intros ([k e'] & <- & Hi). cbn [snd]. pose proof (dget_In_NoDup _ _ _ Hd Hi) as Eg.
    rewrite fbn_get in Eg. cbn [dget] in Eg. apply find_first in Eg. tauto.
  - intros Hf. exists (e_name e, e). split; [reflexivity|]. apply dget_Some_In. rewrite fbn_get. cbn [dget].
    apply find_first. split; [reflexivity | assumption].
Qed.
Lemma first_by_name_names g : map e_name (first_by_name g) = dkeys (fbn_dict g []).
Proof.
  unfold first_by_name. fold (fbn_dict g []). unfold dvals, dkeys. rewrite map_map.
  destruct (fbn_keyed g []) as [HF _]; [constructor | constructor |].
  induction HF as [|p d Hp HF IH]; cbn [map]; [reflexivity|]. rewrite IH, Hp. reflexivity.
Qed.
Lemma first_by_name_NoDup g : NoDup (map e_name (first_by_name g)).
Proof. rewrite first_by_name_names. apply fbn_keyed; constructor. Qed.
Lemma first_of_name_In g e : first_of_name g e -> In e g.
Proof. intros (pre & post & -> & _). apply in_elt. Qed.
Lemma first_by_name_nonempty g : g <> [] -> first_by_name g <> [].
Proof.
  destruct g as [|e g]; [congruence|]. intros _ E.
  assert (Hi : In e (first_by_name (e :: g))).
  { apply first_by_name_In. exists [], g. split; [reflexivity | intros x []]. }
  rewrite E in Hi. contradiction.
Qed.

Lemma patch_create_group g :
  g <> [] -> (forall a b, In a g -> In b g -> v_s (e_ver a) = v_s (e_ver b)) ->
  exists p, patch_create (first_by_name g) = Ok p /\ patch_of_group g p /\ p_elems p = first_by_name g.
Proof.
  intros Hne Hg. pose proof (first_by_name_nonempty g Hne) as Hfe.
  pose proof (first_by_name_In g) as HI. pose proof (first_by_name_NoDup g) as HN.
  destruct (first_by_name g) as [|e t] eqn:E; [congruence|]. cbn [patch_create].
  replace (forallb _ t) with true.
  - eexists. split; [reflexivity|]. split; [|reflexivity]. unfold patch_of_group. cbn [p_elems p_ver].
    assert (He : In e g) by (apply first_of_name_In, HI; left; reflexivity).
    repeat split; [apply HI | apply HI | assumption | exists e; split; [assumption | reflexivity] |].
    intros e' He'. apply Hg; assumption.
  - symmetry. apply forallb_forall. intros x Hx. unfold v_eq. apply eqbT. apply Hg; apply first_of_name_In, HI; [left; reflexivity | right; assumption].
Qed.

Lemma patches_spec l :
  exists ps gs, patches l = Ok ps /\ version_groups l gs /\ Forall2 patch_of_group gs ps.
Proof.
  pose proof (groupby_version_groups l) as HV. unfold patches. destruct HV as (Hc & HF & Hadj).
  set (gs := groupby same_ver l) in *.
  assert (E : exists ps, rmapM (fun g => patch_create (first_by_name g)) gs = Ok ps /\ Forall2 patch_of_group gs ps).
  { clear -HF. induction HF as [|g gs [Hne Hg] HF IH]; cbn [rmapM].
    - exists []. split; [reflexivity | constructor].
    - destruct IH as (ps & -> & HF2). destruct (patch_create_group g Hne Hg) as (p & -> & Hp & _).
      exists (p :: ps). split; [reflexivity | constructor; assumption]. }
  destruct E as (ps & Ep & HF2). exists ps, gs. split; [assumption|]. split; [|assumption]. repeat split; assumption.
Qed.

(** ** patch, patch_element *)

Lemma find_spec {A} (f : A -> bool) l :
  match find f l with
  | Some x => exists pre post, l = pre ++ x :: post /\ f x = true /\ forall y, In y pre -> f y = false
  | None => forall y, In y l -> f y = false
  end.
Proof.
  induction l as [|x t IH]; cbn [find]; [intros y []|].
  destruct (f x) eqn:E.
  - exists [], t. repeat split; [assumption | intros y []].
  - destruct (find f t) as [z|].
    + destruct IH as (pre & post & -> & Hz & Hpre). exists (x :: pre), post. repeat split; [assumption|].
      intros y [<-|Hy]; auto.
    + intros y [<-|Hy]; auto.
Qed.

Lemma storage_patch_spec l v ps :
  patches l = Ok ps ->
  match storage_patch (Some v) l with
  | Ok (Some p) => exists pre post, ps = pre ++ p :: post /\ v_s (p_ver p) = v /\ forall q, In q pre -> v_s (p_ver q) <> v
  | Ok None => forall q, In q ps -> v_s (p_ver q) <> v
  | Err _ => False
  end.
Proof.
  intros E. unfold storage_patch. rewrite E. cbn [rbind].
  pose proof (find_spec (fun p => v_eq_str (p_ver p) v) ps) as HS.
  destruct (find _ ps) as [p|].
  - destruct HS as (pre & post & -> & Hp & Hpre). exists pre, post. unfold v_eq_str in *.
    rewrite eqbT in Hp. repeat split; [assumption|]. intros q Hq. specialize (Hpre q Hq). apply eqbF in Hpre. assumption.
  - intros q Hq. specialize (HS q Hq). apply eqbF in HS. assumption.
Qed.
Lemma storage_patch_latest l :
  storage_patch None l = match l with [] => Err StopIteration | _ => storage_patch None l end /\
  (l <> [] -> exists p ps, patches l = Ok (p :: ps) /\ storage_patch None l = Ok (Some p)).
Proof.
  split; [destruct l; reflexivity|]. intros Hl. destruct (patches_spec l) as (ps & gs & E & (Hc & _) & HF).
  unfold storage_patch. rewrite E. cbn [rbind]. destruct HF as [|g p gs ps Hg HF]; [cbn in Hc; congruence|].
  exists p, ps. split; reflexivity.
Qed.
Lemma patch_element_spec name version l :
  let matches e := e_name e = name /\ match version with None => True | Some v => v_s (e_ver e) = v end in
  match patch_element name version l with
  | Some e => exists pre post, l = pre ++ e :: post /\ matches e /\ forall x, In x pre -> ~ matches x
  | None => forall x, In x l -> ~ matches x
  end.
Proof.
  intros matches. unfold patch_element.
  set (f := fun e => eqb (e_name e) name && match version with None => true | Some v => v_eq_str (e_ver e) v end).
  assert (Hf : forall e, f e = true <-> matches e).
  { intros e. unfold f, matches. rewrite andb_true_iff, eqbT. destruct version; [unfold v_eq_str; rewrite eqbT; tauto | tauto]. }
  pose proof (find_spec f l) as HS. destruct (find f l) as [e|].
  - destruct HS as (pre & post & -> & He & Hpre). exists pre, post. repeat split; try (apply Hf; assumption).
    intros x Hx Hm. apply Hf in Hm. rewrite Hpre in Hm by assumption. discriminate.
  - intros x Hx Hm. apply Hf in Hm. rewrite HS in Hm by assumption. discriminate.
Qed.

(** ** latest *)

Lemma groupby_names_singletons l :
  NoDup (map e_name l) -> groupby same_name l = map (fun e => [e]) l.
Proof.
  induction l as [|x t IH]; cbn [groupby map]; [reflexivity|]. intros Hd. inversion Hd as [|? ? Hn Hd']; subst.
  rewrite IH by assumption. destruct t as [|y t']; [reflexivity|]. cbn [map].
  replace (same_name x y) with false; [reflexivity|]. symmetry. unfold same_name. apply eqbF. intros E.
  apply Hn. rewrite E. left. reflexivity.
Qed.
Lemma patch_latest_id p :
  NoDup (map e_name (p_elems p)) -> patch_create (p_elems p) = Ok p -> patch_latest p = Ok p.
Proof.
  intros Hd Hc. unfold patch_latest. rewrite groupby_names_singletons by assumption.
  rewrite rmapM_map. cbn [max_elem].
  replace (rmapM (fun x => Ok x) (p_elems p)) with (@Ok (list element) (p_elems p)); [exact Hc|].
  induction (p_elems p) as [|e t IH]; cbn [rmapM]; [reflexivity|]. cbn [map] in Hd. inversion Hd; subst.
  cbn [rbind]. clear -t. induction t as [|x t IH]; cbn [rmapM rbind] in *; [reflexivity|].
  destruct (rmapM (fun x => Ok x) t); cbn [rbind] in *; congruence.
Qed.

Lemma patches_latest l ps p :
  patches l = Ok ps -> In p ps -> patch_latest p = Ok p.
Proof.
  intros E Hp. unfold patches in E. apply rmapM_Ok in E.
  assert (exists g, patch_create (first_by_name g) = Ok p) as (g & Eg).
  { clear -E Hp. induction E as [|g q gs qs Hq HF IH]; [contradiction|]. destruct Hp as [->|Hp]; eauto. }
  assert (Ee : p_elems p = first_by_name g).
  { unfold patch_create in Eg. destruct (first_by_name g); [discriminate|]. destruct (forallb _ _); [|discriminate].
    injection Eg as <-. reflexivity. }
  apply patch_latest_id; rewrite Ee; [apply first_by_name_NoDup | assumption].
Qed.

Lemma groupby_name_groups l : name_groups l (groupby same_name l).
Proof.
  assert (I : forall a b, same_name a b = true <-> e_name a = e_name b) by (intros; unfold same_name; apply eqbT).
  assert (R : forall a, same_name a a = true) by (intros; apply I; reflexivity).
  assert (S : forall a b, same_name a b = true -> same_name b a = true) by (intros a b; rewrite !I; congruence).
  assert (T : forall a b c, same_name a b = true -> same_name b c = true -> same_name a c = true) by (intros a b c; rewrite !I; congruence).
  split; [apply groupby_concat|]. split.
  - eapply Forall_impl; [|apply (groupby_groups same_name R S T)]. intros g [H1 H2]. split; [assumption|]. intros a b Ha Hb. apply I. auto.
  - intros pre g1 g2 post a b E Ha Hb Hn. apply I in Hn.
    rewrite (groupby_adjacent same_name R S T l pre g1 g2 post a b E Ha Hb) in Hn. discriminate.
Qed.
Definition newer (a b : element) : Prop :=
  exists x y, v_t (e_ver a) = VNum x /\ v_t (e_ver b) = VNum y /\ comps_before y x.
Lemma newer_gt a b g : v_gt (e_ver a) (e_ver b) = Ok g -> (g = true <-> newer a b).
Proof.
  intros E. unfold newer. destruct (v_t (e_ver a)) as [|x] eqn:Ea; destruct (v_t (e_ver b)) as [|y] eqn:Eb;
    try (unfold v_gt in E; rewrite Ea, Eb in E; injection E as <-; split; [discriminate|]; intros (x' & y' & H & _); discriminate);
    try (unfold v_gt in E; rewrite Ea, Eb in E; discriminate).
  destruct (v_cmp_spec _ _ x y Ea Eb) as (lt & le & gt & ge & _ & _ & Eg & _ & _ & _ & Hg & _).
  rewrite Eg in E. injection E as ->. rewrite Hg. split; [eauto 6|]. intros (x' & y' & Hx & Hy & H). congruence.
Qed.
Lemma max_elem_spec l : forall pre0 best post0 e,
  (forall x, In x pre0 -> newer best x) -> (forall x, In x post0 -> v_gt (e_ver x) (e_ver best) = Ok false) ->
  max_elem best l = Ok e -> first_greatest newer (pre0 ++ best :: post0 ++ l) e.
Proof.
  induction l as [|x l IH]; intros pre0 best post0 e H1 H2 E; cbn [max_elem] in E.
  - injection E as <-. exists pre0, post0. rewrite app_nil_r. split; [reflexivity|]. split; [assumption|].
    intros x Hx Hn. apply (newer_gt _ _ _ (H2 x Hx)) in Hn. discriminate.
  - destruct (v_gt (e_ver x) (e_ver best)) as [g|] eqn:Eg; cbn [rbind] in E; [|discriminate].
    pose proof (newer_gt _ _ _ Eg) as Hn. destruct g.
    + replace (pre0 ++ best :: post0 ++ x :: l) with ((pre0 ++ best :: post0) ++ x :: [] ++ l) by (rewrite <- app_assoc; reflexivity).
      pose proof (proj1 Hn eq_refl) as Hx.
      apply IH; [|intros ? []|exact E]. intros y Hy. apply in_app_or in Hy.
      destruct comps_before_strict_total as (_ & TR & TO & _).
      assert (Htr : forall b c, newer x b -> newer b c -> newer x c).
      { intros b c (u & v & A1 & A2 & A3) (v' & w & B1 & B2 & B3). rewrite A2 in B1. injection B1 as <-. exists u, w. eauto. }
      destruct Hy as [Hy|[<-|Hy]]; [eauto | assumption |].
      pose proof (H2 y Hy) as Ey. pose proof Hx as (u & v & A1 & A2 & A3).
      destruct (v_t (e_ver y)) as [|w] eqn:Evy; [unfold v_gt in Ey; rewrite Evy, A2 in Ey; discriminate|].
      exists u, w. split; [assumption|]. split; [assumption|].
      destruct (TO w v) as [H|[->|H]]; [eauto | assumption |].
      exfalso. assert (Hc : newer y best) by (exists w, v; auto). apply (newer_gt _ _ _ Ey) in Hc. discriminate.
    + replace (post0 ++ x :: l) with ((post0 ++ [x]) ++ l) by (rewrite <- app_assoc; reflexivity).
      apply IH; [assumption | | exact E]. intros y Hy. apply in_app_or in Hy. destruct Hy as [Hy|[<-|[]]]; auto.
Qed.
Lemma patch_latest_spec p q : patch_latest p = Ok q ->
  exists gs, name_groups (p_elems p) gs /\ Forall2 (first_greatest newer) gs (p_elems q).
Proof.
  intros E. unfold patch_latest in E. exists (groupby same_name (p_elems p)). split; [apply groupby_name_groups|].
  destruct (rmapM _ _) as [es|] eqn:Em in E; cbn [rbind] in E; [|discriminate].
  assert (p_elems q = es) as ->.
  { unfold patch_create in E. destruct es; [discriminate|]. destruct (forallb _ _); [|discriminate]. injection E as <-. reflexivity. }
  apply rmapM_Ok in Em. clear -Em. induction Em as [|g e gs es Hm _ IH]; constructor; [|exact IH]. destruct g as [|x g]; [discriminate|].
  exact (max_elem_spec g [] x [] e ltac:(intros ? []) ltac:(intros ? []) Hm).
Qed.

(** ** Sorted listings give strictly decreasing patches *)

Definition comps_of (v : version) : list Z := match v_t v with VNum t => t | VMain => [] end.
Definition canonical (v : version) : Prop := exists t, v_t v = VNum t /\ dotted_spell t (v_s v).
Definition not_newer (a b : version) : Prop := comps_before (comps_of b) (comps_of a) \/ comps_of a = comps_of b.

Lemma canonical_comps a b : canonical a -> canonical b -> (v_s a = v_s b <-> comps_of a = comps_of b).
Proof.
  intros (x & Ea & Ha) (y & Eb & Hb). unfold comps_of. rewrite Ea, Eb.
  apply dotted_spell_dotted in Ha as [Hx ->]. apply dotted_spell_dotted in Hb as [Hy ->].
  split; [apply dotted_inj; assumption | congruence].
Qed.

Lemma StronglySorted_app {A} (R : A -> A -> Prop) l1 l2 :
  StronglySorted R (l1 ++ l2) -> forall a b, In a l1 -> In b l2 -> R a b.
Proof.
  induction l1 as [|x l1 IH]; cbn [app]; intros Hs a b Ha Hb; [contradiction|].
  inversion Hs as [|? ? Hs' HF]; subst. destruct Ha as [<-|Ha]; [|eapply IH; eassumption].
  rewrite Forall_forall in HF. apply HF. apply in_or_app. right. assumption.
Qed.

Lemma patches_sorted l ps :
  Forall (fun e => canonical (e_ver e)) l ->
  StronglySorted (fun a b => not_newer (e_ver a) (e_ver b)) l ->
  patches l = Ok ps ->
  StronglySorted (fun p q => comps_before (comps_of (p_ver q)) (comps_of (p_ver p))) ps.
Proof.
  intros HC HS E. destruct (patches_spec l) as (ps' & gs & E' & (Hc & HF & Hadj) & H2).
  assert (ps' = ps) by congruence. subst ps'. clear E E'.
  destruct comps_before_strict_total as (Hirr & Htr & Htot & Has).
  (* every version of a group is strictly newer than every version of a later group *)
  revert l HC HS Hc. induction H2 as [|g p gs ps Hg H2 IH]; intros l HC HS Hc; [constructor|].
  cbn [concat] in Hc. inversion HF as [|? ? [Hne Hsame] HF']; subst.
  assert (HC1 : Forall (fun e => canonical (e_ver e)) g /\ Forall (fun e => canonical (e_ver e)) (concat gs)) by (apply Forall_app; assumption).
  destruct HC1 as [HCg HCr]. rewrite Forall_forall in HCg, HCr.
  assert (Hord := StronglySorted_app _ _ _ HS).
  assert (HSr : StronglySorted (fun a b => not_newer (e_ver a) (e_ver b)) (concat gs)).
  { clear -HS. induction g as [|x g IHg]; [exact HS|]. inversion HS; subst. auto. }
  constructor.
  - apply IH with (l := concat gs); auto.
    + intros pre g1 g2 post a b Eg. apply (Hadj (g :: pre) g1 g2 post). rewrite Eg. reflexivity.
    + apply Forall_forall. assumption.
  - apply Forall_forall. intros q Hq.
    destruct Hg as (_ & _ & (e & He & ->) & _).
    (* q belongs to some later group g' *)
    assert (exists g', In g' gs /\ patch_of_group g' q) as (g' & Hg' & Hgq).
    { clear -H2 Hq. induction H2 as [|g' q' gs qs Hq' H2 IH]; [contradiction|].
      destruct Hq as [->|Hq]; [exists g'; split; [left; reflexivity | assumption]|].
      destruct (IH Hq) as (g'' & ? & ?). exists g''. split; [right; assumption | assumption]. }
    destruct Hgq as (_ & _ & (e' & He' & ->) & _).
    destruct gs as [|h gs']; [contradiction|].
    assert (Hh : exists d, In d h) by (inversion HF' as [|? ? [Hhne _] _]; subst; destruct h as [|d h]; [congruence | exists d; left; reflexivity]).
    destruct Hh as (d & Hd).
    assert (Hdr : In d (concat (h :: gs'))) by (apply in_or_app; left; assumption).
    assert (He'r : In e' (concat (h :: gs'))) by (apply in_concat; exists g'; split; assumption).
    assert (H1 : comps_before (comps_of (e_ver d)) (comps_of (e_ver e))).
    { destruct (Hord e d He Hdr) as [H|H]; [assumption|]. exfalso.
      apply (Hadj [] g h gs' e d eq_refl He Hd). apply canonical_comps; auto. }
    destruct Hg' as [->|Hg'].
    + replace (comps_of (e_ver e')) with (comps_of (e_ver d)); [assumption|].
      apply canonical_comps; auto. inversion HF' as [|? ? [_ Hhs] _]; subst. apply Hhs; assumption.
    + assert (H2' : not_newer (e_ver d) (e_ver e')).
      { cbn [concat] in HSr. apply (StronglySorted_app _ _ _ HSr); [assumption|]. apply in_concat. exists g'. split; assumption. }
      destruct H2' as [H|H]; [eapply Htr; eassumption | rewrite <- H; assumption].
Qed.

(** ** RADS merge *)

Definition homogeneous (l : list element) : Prop :=
  (forall e, In e l -> exists t, v_t (e_ver e) = VNum t) \/ (forall e, In e l -> v_t (e_ver e) = VMain).

Lemma homogeneous_gt l a b : homogeneous l -> In a l -> In b l ->
  v_gt (e_ver a) (e_ver b) = Ok (tuple_lt (comps_of (e_ver b)) (comps_of (e_ver a))).
Proof.
  intros [H|H] Ha Hb; unfold v_gt, comps_of.
  - destruct (H a Ha) as (x & ->), (H b Hb) as (y & ->). reflexivity.
  - rewrite (H a Ha), (H b Hb). reflexivity.
Qed.
Lemma homogeneous_incl l l' : homogeneous l -> incl l' l -> homogeneous l'.
Proof. intros [H|H] Hi; [left | right]; intros e He; apply H, Hi, He. Qed.

Lemma not_newer_lt a b : not_newer a b <-> tuple_lt (comps_of a) (comps_of b) = false.
Proof.
  unfold not_newer. rewrite <- tuple_lt_before. split.
  - intros [E|E]; [apply tuple_lt_asym; assumption | rewrite E; apply tuple_lt_irrefl].
  - intros E. destruct (tuple_lt_total (comps_of a) (comps_of b)) as [?|[?|?]]; auto. congruence.
Qed.
Lemma not_newer_refl a : not_newer a a.
Proof. right. reflexivity. Qed.
Lemma not_newer_trans a b c : not_newer a b -> not_newer b c -> not_newer a c.
Proof. rewrite !not_newer_lt. intros H1 H2. eapply tuple_lt_ntrans; eassumption. Qed.

Definition sorted_newest (l : list element) : Prop := StronglySorted (fun a b => not_newer (e_ver a) (e_ver b)) l.

Lemma merge_two fuel a b :
  homogeneous (a ++ b) -> (length a + length b <= fuel)%nat ->
  exists r, merge_loop fuel [a; b] = Ok r /\ interleave a b r /\
    (sorted_newest a -> sorted_newest b ->
     sorted_newest r /\
     forall v, filter (fun e => eqb (comps_of (e_ver e)) v) r =
               filter (fun e => eqb (comps_of (e_ver e)) v) a ++ filter (fun e => eqb (comps_of (e_ver e)) v) b).
Proof.
  revert a b. induction fuel as [|f IH]; intros a b Hh Hf.
  { destruct a, b; cbn [length] in Hf; try lia. exists []. split; [reflexivity|]. split; [constructor|].
    intros _ _. split; [constructor | reflexivity]. }
  assert (HI : forall r, interleave a b r -> forall e, In e r <-> In e a \/ In e b).
  { clear. induction 1 as [|x a b r H IH|x a b r H IH]; intros e; cbn [In]; [tauto | rewrite IH; tauto | rewrite IH; tauto]. }
  assert (Hleft : forall x a', a = x :: a' ->
    (forall y b', b = y :: b' -> tuple_lt (comps_of (e_ver x)) (comps_of (e_ver y)) = false) ->
    exists r, merge_loop f [a'; b] = Ok r /\ interleave a b (x :: r) /\
    (sorted_newest a -> sorted_newest b ->
     sorted_newest (x :: r) /\
     forall v, filter (fun e => eqb (comps_of (e_ver e)) v) (x :: r) =
               filter (fun e => eqb (comps_of (e_ver e)) v) a ++ filter (fun e => eqb (comps_of (e_ver e)) v) b)).
  { intros x a' -> Hxy. destruct (IH a' b) as (r & Er & Hil & Hs).
    - eapply homogeneous_incl; [exact Hh|]. intros e He. right. exact He.
    - cbn [length] in Hf. lia.
    - exists r. split; [assumption|]. split; [constructor; assumption|]. intros Ha Hb.
      inversion Ha as [|? ? Ha' HFa]; subst. destruct (Hs Ha' Hb) as [Hsr Hfil]. split.
      + constructor; [assumption|]. apply Forall_forall. intros e He.
        assert (In e a' \/ In e b) as [Hea|Heb].
        { clear -Hil He. induction Hil as [|z a b r H IH|z a b r H IH]; cbn [In] in *; [tauto | |]; destruct He as [->|He]; auto; destruct (IH He); auto. }
        * rewrite Forall_forall in HFa. apply HFa. assumption.
        * destruct b as [|y b']; [contradiction|]. apply not_newer_trans with (e_ver y).
          -- apply not_newer_lt. eapply Hxy. reflexivity.
          -- destruct Heb as [<-|Heb]; [apply not_newer_refl|]. inversion Hb as [|? ? _ HFb]; subst.
             rewrite Forall_forall in HFb. apply HFb. assumption.
      + intros v. cbn [filter]. rewrite Hfil. destruct (eqb (comps_of (e_ver x)) v); reflexivity. }
  destruct a as [|x a'].
  - destruct b as [|y b'].
    + exists []. split; [reflexivity|]. split; [constructor|]. intros _ _. split; [constructor | reflexivity].
    + destruct (IH [] b') as (r & Er & Hil & Hs).
      * eapply homogeneous_incl; [exact Hh|]. intros e He. right. exact He.
      * cbn [length] in *. lia.
      * exists (y :: r). cbn [merge_loop best_peeker rbind drop_head tl]. rewrite Er. split; [reflexivity|].
        split; [constructor; assumption|]. intros Ha Hb. inversion Hb as [|? ? Hb' HFb]; subst.
        destruct (Hs Ha Hb') as [Hsr Hfil]. split.
        -- constructor; [assumption|]. apply Forall_forall. intros e He. rewrite Forall_forall in HFb. apply HFb.
           assert (Hi : forall (a b r : list element), interleave a b r -> a = [] -> r = b).
           { clear. induction 1 as [|x a b r H IH|x a b r H IH]; intros E; [reflexivity | discriminate | f_equal; auto]. }
           rewrite (Hi _ _ _ Hil eq_refl) in He. assumption.
        -- intros v. cbn [filter app]. rewrite Hfil. reflexivity.
  - destruct b as [|y b'].
    + destruct (Hleft x a' eq_refl) as (r & Er & Hil & Hs); [discriminate|].
      exists (x :: r). cbn [merge_loop best_peeker rbind drop_head tl]. rewrite Er. split; [reflexivity|]. split; assumption.
    + cbn [merge_loop best_peeker].
      rewrite (homogeneous_gt _ y x Hh) by (apply in_or_app; cbn [In]; auto).
      cbn [rbind best_peeker]. destruct (tuple_lt (comps_of (e_ver x)) (comps_of (e_ver y))) eqn:Elt; cbn [rbind drop_head tl].
      * destruct (IH (x :: a') b') as (r & Er & Hil & Hs).
        -- eapply homogeneous_incl; [exact Hh|]. intros e He. apply in_app_or in He as [He|He]; apply in_or_app; cbn [In]; auto.
        -- cbn [length] in *. lia.
        -- exists (y :: r). cbn [best_peeker rbind drop_head tl]. rewrite Er. split; [reflexivity|]. split; [constructor; assumption|].
           intros Ha Hb. inversion Hb as [|? ? Hb' HFb]; subst. inversion Ha as [|? ? Ha' HFa]; subst. destruct (Hs Ha Hb') as [Hsr Hfil]. split.
           ++ constructor; [assumption|]. apply Forall_forall. intros e He.
              assert (In e (x :: a') \/ In e b') as [Hea|Heb].
              { clear -Hil He. induction Hil as [|z a b r H IH|z a b r H IH]; cbn [In] in *; [tauto | |]; destruct He as [->|He]; auto; destruct (IH He); auto. }
              ** apply not_newer_trans with (e_ver x).
                 --- apply not_newer_lt. apply tuple_lt_asym. assumption.
                 --- destruct Hea as [<-|Hea]; [apply not_newer_refl|]. rewrite Forall_forall in HFa. apply HFa. assumption.
              ** rewrite Forall_forall in HFb. apply HFb. assumption.
           ++ intros v. cbn [filter]. rewrite Hfil. cbn [filter]. destruct (eqbP (comps_of (e_ver y)) v) as [Ey|_]; [|reflexivity].
              subst v.
              (* no element of a has y's version, since y is strictly newer than all of them *)
              assert (Hnil : filter (fun e => eqb (comps_of (e_ver e)) (comps_of (e_ver y))) (x :: a') = []).
              { assert (HN : forall e, In e (x :: a') -> comps_of (e_ver e) <> comps_of (e_ver y)).
                { intros e He Ee. assert (Hxe : tuple_lt (comps_of (e_ver x)) (comps_of (e_ver e)) = false).
                  { destruct He as [<-|He]; [apply tuple_lt_irrefl|]. apply not_newer_lt. rewrite Forall_forall in HFa. apply HFa. assumption. }
                  congruence. }
                clear -HN. induction (x :: a') as [|z l IHl]; [reflexivity|]. cbn [filter].
                destruct (eqbP (comps_of (e_ver z)) (comps_of (e_ver y))) as [E|_].
                - exfalso. apply (HN z); [left; reflexivity | assumption].
                - apply IHl. intros e He. apply HN. right. assumption. }
              cbn [filter] in Hnil. rewrite Hnil. reflexivity.
      * destruct (Hleft x a' eq_refl) as (r & Er & Hil & Hs).
        { intros y0 b0 E. injection E as <- <-. assumption. }
        exists (x :: r). rewrite Er. split; [reflexivity|]. split; assumption.
Qed.

(** ** versions() *)

Definition is_rads (v : version) : Prop := exists t, v_t v = VNum t.
Lemma rads_versions_spec l :
  Forall is_rads l ->
  Permutation l (rads_versions l) /\ StronglySorted not_newer (rads_versions l) /\
  (forall t, filter (fun v => eqb (comps_of v) t) (rads_versions l) = filter (fun v => eqb (comps_of v) t) l).
Proof.
  intros HF.
  set (lt' := fun a b => tuple_lt (comps_of b) (comps_of a)).
  assert (E : rads_versions l = py_sorted lt' l).
  { unfold rads_versions. clear -HF.
    assert (Hins : forall x m, is_rads x -> Forall is_rads m -> insert_sorted rads_lt x m = insert_sorted lt' x m).
    { intros x m Hx Hm. induction Hm as [|y m Hy Hm IH]; cbn [insert_sorted]; [reflexivity|]. rewrite IH.
      replace (rads_lt y x) with (lt' y x); [reflexivity|]. unfold rads_lt, lt', v_gt, comps_of.
      destruct Hx as (tx & ->), Hy as (ty & ->). reflexivity. }
    induction HF as [|x m Hx Hm IH]; cbn [py_sorted fold_right]; [reflexivity|].
    fold (py_sorted rads_lt m). fold (py_sorted lt' m). rewrite IH. apply Hins; [assumption|].
    eapply Permutation_Forall; [apply py_sorted_perm | assumption]. }
  assert (Has : forall a b, lt' a b = true -> lt' b a = false) by (intros a b; apply tuple_lt_asym).
  assert (Hnt : forall a b c, lt' a b = false -> lt' b c = false -> lt' a c = false).
  { intros a b c H1 H2. unfold lt' in *. eapply tuple_lt_ntrans; eassumption. }
  rewrite E. split; [apply py_sorted_perm|]. split.
  - pose proof (py_sorted_sorted lt' Has Hnt l) as Hs. 
    clear E. induction Hs as [|x m Hs IH HF']; [constructor|]. constructor; [assumption|]. eapply Forall_impl; [|exact HF'].
    cbn. intros y Hy. apply not_newer_lt. exact Hy.
  - intros t. destruct (in_dec eq_dec t (map comps_of l)) as [Hi|Hn].
    + apply in_map_iff in Hi as (v & <- & Hv).
      assert (Eeq : forall w, equivb lt' v w = eqb (comps_of w) (comps_of v)).
      { intros w. unfold equivb, lt'. destruct (eqbP (comps_of w) (comps_of v)) as [->|Hne].
        - rewrite tuple_lt_irrefl. reflexivity.
        - destruct (tuple_lt_total (comps_of w) (comps_of v)) as [-> | [? | ->]]; [reflexivity | congruence |].
          rewrite andb_comm. reflexivity. }
      rewrite <- !(filter_ext _ _ Eeq). apply py_sorted_stable; assumption.
    + assert (Hz : forall m, (forall w, In w m -> comps_of w <> t) -> filter (fun v => eqb (comps_of v) t) m = []).
      { induction m as [|w m IH]; intros Hm; [reflexivity|]. cbn [filter].
        destruct (eqbP (comps_of w) t) as [Ew|_]; [exfalso; apply (Hm w); [left; reflexivity | assumption]|].
        apply IH. intros w' Hw'. apply Hm. right. assumption. }
      rewrite !Hz; [reflexivity | |]; intros w Hw Ew; apply Hn; subst t; apply in_map; [assumption|].
      eapply Permutation_in; [symmetry; apply py_sorted_perm | exact Hw].
Qed.

Lemma gen_elements_spec name pv svs id :
  subseq (map (fun e => e_ver e) (gen_solution_elements name pv svs id))
         (flat_map (fun v => match pv v with Some p => [p] | None => [] end) svs) /\
  map (fun e => e_ver e) (gen_solution_elements name pv svs id) =
  flat_map (fun v => match pv v with Some p => [p] | None => [] end) svs /\
  Forall (fun e => e_name e = name) (gen_solution_elements name pv svs id).
Proof.
  revert id. induction svs as [|v svs IH]; intros id; cbn [gen_solution_elements flat_map map].
  - split; [constructor|]. split; [reflexivity | constructor].
  - destruct (IH (id + 1)) as (H1 & H2 & H3). destruct (pv v) as [p|]; cbn [map app].
    + split; [constructor; assumption|]. split; [cbn [e_ver]; rewrite H2; reflexivity | constructor; [reflexivity | assumption]].
    + auto.
Qed.
(** Monotone patch versions: a listing sorted by solution version is sorted by patch version. *)
Lemma gen_elements_sorted name pv svs id :
  (forall a b p q, pv a = Some p -> pv b = Some q -> not_newer a b -> not_newer p q) ->
  StronglySorted not_newer svs -> sorted_newest (gen_solution_elements name pv svs id).
Proof.
  intros Hm Hs. revert id. induction Hs as [|v svs Hs IH HF]; intros id; cbn [gen_solution_elements]; [constructor|].
  destruct (pv v) as [p|] eqn:Ep; [|apply IH]. constructor; [apply IH|]. cbn [e_ver].
  clear IH. revert id. assert (G : forall id, Forall (fun e => not_newer p (e_ver e)) (gen_solution_elements name pv svs id)).
  { induction HF as [|w ws Hw HF IHF]; intros id; cbn [gen_solution_elements]; [constructor|].
    inversion Hs; subst. destruct (pv w) as [q|] eqn:Eq; [constructor; [|apply IHF; assumption] | apply IHF; assumption].
    cbn [e_ver]. eapply Hm; eassumption. }
  intros id. apply G.
Qed.
