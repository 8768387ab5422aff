(** * Proofs about the commands on components *)

From Verif Require Import Base.Py Base.Text Base.PyFacts Base.TextFacts Base.Fs Base.FsFacts Model.Rman Model.Patcher Model.Version Model.Storage Model.Component Model.Cli Model.Components Spec.ComponentSpec Spec.ComponentsSpec Spec.StorageSpec Proofs.ComponentProofs Proofs.StorageProofs.

Lemma looked_up_iff v w : looked_up v w <-> w = match v with [] => None | _ => Some (if eqb (last v 0) 46 then removelast v else v) end.
Proof.
  split.
  - intros [[-> ->]|[(x & -> & ->)|(Hne & Hx & ->)]]; [reflexivity | |].
    + rewrite last_last, removelast_last. destruct (x ++ [46]) eqn:E; [apply app_eq_nil in E as [_ E]; discriminate | reflexivity].
    + destruct v as [|c v]; [congruence|]. destruct (eqbP (last (c :: v) 0) 46) as [E|]; [|reflexivity].
      exfalso. apply (Hx (removelast (c :: v))). rewrite <- E. apply app_removelast_last. discriminate.
  - intros ->. destruct v as [|c v]; [left; auto|]. right. destruct (eqbP (last (c :: v) 0) 46) as [E|Hne].
    + left. exists (removelast (c :: v)). split; [|reflexivity]. rewrite (app_removelast_last 0 (l := c :: v)) at 1 by discriminate. rewrite E. reflexivity.
    + right. split; [discriminate|]. split; [|reflexivity]. intros x Ex. apply Hne. rewrite Ex. apply last_last.
Qed.
Lemma first_with_det {A} (P : A -> Prop) l x y : first_with P l x -> first_with P l y -> x = y.
Proof.
  intros (a & b & -> & Hx & Ha) (c & d & E & Hy & Hc). revert c E Hc. induction a as [|z a IH]; intros [|u c] E Hc; cbn in E.
  - congruence.
  - injection E as -> _. inversion_clear Hc. contradiction.
  - injection E as -> _. inversion_clear Ha. contradiction.
  - injection E as -> E. inversion_clear Ha. inversion_clear Hc. eapply IH; eassumption.
Qed.
Lemma first_with_In {A} (P : A -> Prop) l x : first_with P l x -> In x l /\ P x.
Proof. intros (a & b & -> & H & _). split; [apply in_elt | exact H]. Qed.
Lemma storage_patch_first w l ps p : patches l = Ok ps -> storage_patch w l = Ok (Some p) <-> first_with (fun p => has_version w (p_ver p)) ps p.
Proof.
  intros E. destruct w as [v|].
  - pose proof (storage_patch_spec l v ps E) as H. destruct (storage_patch (Some v) l) as [[q|]|e].
    + destruct H as (a & b & -> & H1 & H2). assert (HF : first_with (fun p => has_version (Some v) (p_ver p)) (a ++ q :: b) q) by (exists a, b; split; [reflexivity|]; split; [exact H1 | apply Forall_forall; exact H2]).
      split; [intros E1; injection E1 as <-; exact HF | intros HF'; do 2 f_equal; eapply first_with_det; eassumption].
    + split; [discriminate|]. intros HF. apply first_with_In in HF as [Hi Hv]. exfalso. exact (H p Hi Hv).
    + contradiction.
  - unfold storage_patch. rewrite E. cbn [rbind]. destruct ps as [|q ps].
    + split; [discriminate|]. intros HF. apply first_with_In in HF as [[] _].
    + assert (HF : first_with (fun p => has_version None (p_ver p)) (q :: ps) q) by (exists [], ps; split; [reflexivity|]; split; [exact I | constructor]).
      split; [intros E1; injection E1 as <-; exact HF | intros HF'; do 2 f_equal; eapply first_with_det; eassumption].
Qed.
Lemma patch_element_first name w l e : patch_element name w l = Some e <-> first_with (fun e => e_name e = name /\ has_version w (e_ver e)) l e.
Proof.
  pose proof (patch_element_spec name w l) as H. cbv zeta in H. destruct (patch_element name w l) as [q|].
  - destruct H as (a & b & -> & H1 & H2). assert (HF : first_with (fun e => e_name e = name /\ has_version w (e_ver e)) (a ++ q :: b) q) by (exists a, b; split; [reflexivity|]; split; [exact H1 | apply Forall_forall; exact H2]).
    split; [intros E1; injection E1 as <-; exact HF | intros HF'; f_equal; eapply first_with_det; eassumption].
  - split; [discriminate|]. intros HF. apply first_with_In in HF as [Hi Hv]. exfalso. exact (H e Hi Hv).
Qed.

(** ** Patches by groups *)

Lemma groupby_group g l : g <> [] -> (forall a b, In a g -> In b g -> v_s (e_ver a) = v_s (e_ver b)) ->
  (forall a b t, In a g -> l = b :: t -> v_s (e_ver a) <> v_s (e_ver b)) -> groupby same_ver (g ++ l) = g :: groupby same_ver l.
Proof.
  induction g as [|x g IH]; [congruence|]. intros _ Hg Hl. destruct g as [|y g].
  - cbn [app groupby]. pose proof (groupby_version_groups l) as (Hc & HF & _). destruct (groupby same_ver l) as [|h hs] eqn:E; [reflexivity|].
    inversion_clear HF as [|? ? [Hne _] _]. destruct h as [|b h]; [congruence|]. cbn [concat app] in Hc. symmetry in Hc.
    destruct (same_ver x b) eqn:Es; [|reflexivity]. exfalso. apply same_ver_iff in Es. apply (Hl x b _ (or_introl eq_refl) Hc). exact Es.
  - cbn [app]. assert (E : groupby same_ver (y :: g ++ l) = (y :: g) :: groupby same_ver l).
    { apply IH; [discriminate | |]; intros; [apply Hg | eapply Hl]; try (right; eassumption). eassumption. }
    cbn [groupby] in E |- *. rewrite E. replace (same_ver x y) with true; [reflexivity|]. symmetry. apply same_ver_iff. apply Hg; [left | right; left]; reflexivity.
Qed.
Lemma groups_unique l gs : version_groups l gs -> gs = groupby same_ver l.
Proof.
  revert l. induction gs as [|g gs IH]; intros l (<- & HF & Hadj); [reflexivity|]. inversion_clear HF as [|? ? [Hne Hg] HF']. cbn [concat].
  rewrite groupby_group; [|exact Hne | exact Hg |].
  - f_equal. apply IH. split; [reflexivity|]. split; [exact HF'|]. intros pre g1 g2 post a b E. apply (Hadj (g :: pre) g1 g2 post a b). rewrite E. reflexivity.
  - intros a b t Ha E. destruct gs as [|h gs]; [discriminate|]. inversion_clear HF' as [|? ? [Hh _] _]. destruct h as [|b' h]; [congruence|]. cbn in E. injection E as -> _.
    apply (Hadj [] g (b :: h) gs a b eq_refl Ha). left. reflexivity.
Qed.
Lemma fbn_first_ones g : forall d, exists es, first_ones (dkeys d) g es /\ dvals (fbn_dict g d) = dvals d ++ es.
Proof.
  induction g as [|e g IH]; intros d; [exists []; split; [constructor | symmetry; apply app_nil_r]|]. cbn [fbn_dict fold_left]. unfold dhas.
  destruct (dget (e_name e) d) as [e'|] eqn:E.
  - destruct (IH d) as (es & H & Ev). exists es. split; [|exact Ev]. apply fo_skip; [|exact H]. apply dget_Some_In in E. apply (in_map fst) in E. exact E.
  - destruct (IH (d ++ [(e_name e, e)])) as (es & H & Ev). rewrite dset_new by exact E. exists (e :: es). split.
    + apply fo_keep; [apply dget_None; exact E | unfold dkeys in H |- *; rewrite map_app in H; exact H].
    + unfold fbn_dict, dhas in Ev. rewrite Ev. unfold dvals. rewrite map_app, <- app_assoc. reflexivity.
Qed.
Lemma first_ones_det g : forall seen a b, first_ones seen g a -> first_ones seen g b -> a = b.
Proof.
  induction g as [|e g IH]; intros seen a b Ha Hb; inversion Ha; subst; inversion Hb; subst; try contradiction; [reflexivity | eauto | f_equal; eauto].
Qed.
Lemma first_by_name_ones g es : first_by_name g = es <-> first_ones [] g es.
Proof.
  destruct (fbn_first_ones g []) as (es' & H & E). change (first_by_name g = es') in E. split; [intros <-; rewrite E; exact H | intros H'; rewrite E; eapply first_ones_det; eassumption].
Qed.
Lemma patches_groups l ps : patches l = Ok ps -> Forall2 (fun g p => p_elems p = first_by_name g /\ forall e, In e g -> v_s (p_ver p) = v_s (e_ver e)) (groupby same_ver l) ps.
Proof.
  pose proof (groupby_version_groups l) as (_ & HF & _). unfold patches. intros E. apply rmapM_Ok in E. induction E as [|g p gs ps H HF2 IH]; [constructor|].
  inversion_clear HF as [|? ? [Hne Hg] HF']. constructor; [|exact (IH HF')]. destruct (patch_create_group g Hne Hg) as (q & Eq & Hq & He). rewrite Eq in H. injection H as ->. split; [exact He | apply Hq].
Qed.
Lemma has_version_same w a b : v_s a = v_s b -> has_version w a -> has_version w b.
Proof. destruct w; cbn; [congruence | trivial]. Qed.
Lemma Forall2_In_r {A B} (R : A -> B -> Prop) l l' y : Forall2 R l l' -> In y l' -> exists x, In x l /\ R x y.
Proof. induction 1 as [|a b l l' H HF IH]; [intros []|]. intros [<-|Hi]; [exists a; split; [left; reflexivity | exact H]|]. destruct (IH Hi) as (x & Hx & HR). exists x. split; [right; exact Hx | exact HR]. Qed.
Lemma Forall2_In_l {A B} (R : A -> B -> Prop) l l' x : Forall2 R l l' -> In x l -> exists y, In y l' /\ R x y.
Proof. induction 1 as [|a b l l' H HF IH]; [intros []|]. intros [<-|Hi]; [exists b; split; [left; reflexivity | exact H]|]. destruct (IH Hi) as (y & Hy & HR). exists y. split; [right; exact Hy | exact HR]. Qed.
Lemma Forall2_first {A B} (R : A -> B -> Prop) (P : A -> Prop) (Q : B -> Prop) l l' : Forall2 R l l' -> (forall a b, In a l -> R a b -> (P a <-> Q b)) ->
  (forall a, first_with P l a -> exists b, R a b /\ first_with Q l' b) /\ (forall b, first_with Q l' b -> exists a, R a b /\ first_with P l a).
Proof.
  intros HF H. split.
  - intros a (l1 & l2 & -> & Ha & Hl). apply Forall2_app_inv_l in HF as (m1 & m2 & HF1 & HF2 & ->). inversion_clear HF2 as [|? b ? m3 Hab HF3]. exists b. split; [exact Hab|].
    exists m1, m3. split; [reflexivity|]. split; [apply (H a b); [apply in_elt | exact Hab | exact Ha]|].
    apply Forall_forall. intros y Hy HQ. destruct (Forall2_In_r _ _ _ y HF1 Hy) as (x & Hx & HR). apply (proj1 (Forall_forall _ _) Hl x Hx). apply (H x y); [apply in_or_app; left; exact Hx | exact HR | exact HQ].
  - intros b (m1 & m2 & -> & Hb & Hl). apply Forall2_app_inv_r in HF as (l1 & l2 & HF1 & HF2 & ->). inversion HF2 as [|a ? l3 ? Hab HF3]; subst. exists a. split; [exact Hab|].
    exists l1, l3. split; [reflexivity|]. split; [apply (H a b); [apply in_elt | exact Hab | exact Hb]|].
    apply Forall_forall. intros x Hx HP. destruct (Forall2_In_l _ _ _ x HF1 Hx) as (y & Hy & HR). apply (proj1 (Forall_forall _ _) Hl y Hy). apply (H x y); [apply in_or_app; left; exact Hx | exact HR | exact HP].
Qed.
Lemma patch_elements_iff l ps w es : patches l = Ok ps -> patch_elements l w es <-> exists p, first_with (fun p => has_version w (p_ver p)) ps p /\ es = p_elems p.
Proof.
  intros E. pose proof (patches_groups l ps E) as HF. pose proof (groupby_version_groups l) as HG.
  assert (HP : forall g p, In g (groupby same_ver l) -> p_elems p = first_by_name g /\ (forall e, In e g -> v_s (p_ver p) = v_s (e_ver e)) -> (Exists (fun e => has_version w (e_ver e)) g <-> has_version w (p_ver p))).
  { intros g p Hg (_ & Hv). rewrite Exists_exists. split.
    - intros (e & He & H). eapply has_version_same; [symmetry; apply Hv; exact He | exact H].
    - intros H. destruct HG as (_ & HG & _). rewrite Forall_forall in HG. destruct (HG g Hg) as [Hne _]. destruct g as [|e g]; [congruence|]. exists e. split; [left; reflexivity|]. eapply has_version_same; [apply Hv; left; reflexivity | exact H]. }
  destruct (Forall2_first _ _ _ _ _ HF HP) as [F1 F2]. split.
  - intros (gs & g & Hgs & Hf & Ho). apply groups_unique in Hgs as ->. destruct (F1 g Hf) as (p & [Hp _] & Hfp). exists p. split; [exact Hfp|]. rewrite Hp. symmetry. apply first_by_name_ones. exact Ho.
  - intros (p & Hfp & ->). destruct (F2 p Hfp) as (g & [Hp _] & Hf). exists (groupby same_ver l), g. split; [exact HG|]. split; [exact Hf|]. apply first_by_name_ones. congruence.
Qed.

Section Components.
  Variable listing : bool -> list element.

  (** What a well-formed component gives. *)
  Lemma arg_cases name v w c : component_text name v c -> looked_up v w ->
    parse_component_arg listing c =
      if eqb name (lit "patch") then
        match storage_patch w (listing false) with Ok (Some p) => Ok (p_elems p) | Ok None => Err SysExit | Err ValueError => Err SysExit | Err e => Err e end
      else match patch_element name w (listing (match w with Some _ => true | None => false end)) with Some e => Ok [e] | None => Err SysExit end.
  Proof.
    intros Hc Hw. apply looked_up_iff in Hw. unfold parse_component_arg. rewrite (parse_component_meaning listing name v c Hc). cbv zeta.
    match goal with |- context [storage_patch ?x _] => replace x with w by (rewrite Hw; reflexivity) end.
    destruct (eqb name (lit "patch")).
    - destruct (storage_patch w (listing false)) as [[p|]|e] eqn:E; [|reflexivity | reflexivity].
      destruct (patches_spec (listing false)) as (ps & _ & Ep & _). pose proof E as E2. apply (storage_patch_first w _ ps p Ep) in E2. apply first_with_In in E2 as [Hi _].
      rewrite (patches_latest _ ps p Ep Hi). destruct (match v with [] => true | _ => _ end); reflexivity.
    - destruct (patch_element name w _); reflexivity.
  Qed.
  Lemma arg_designates c es : parse_component_arg listing c = Ok es <-> designates listing c es.
  Proof.
    split.
    - intros E. assert (Hc : exists name v, component_text name v c).
      { unfold parse_component_arg in E. destruct (match_component c) as [[name v]|] eqn:Em; [exists name, v; apply match_component_iff; exact Em|].
        unfold parse_component in E. rewrite Em in E. discriminate. }
      destruct Hc as (name & v & Hc). assert (exists w, looked_up v w) as [w Hw] by (eexists; apply looked_up_iff; reflexivity). pose proof (arg_cases name v w c Hc Hw) as E2. rewrite E in E2.
      exists name, v, w. split; [exact Hc|]. split; [exact Hw|]. destruct (eqbP name (lit "patch")) as [->|Hn].
      + left. split; [reflexivity|]. destruct (patches_spec (listing false)) as (ps & _ & Ep & _).
        destruct (storage_patch w (listing false)) as [[p|]|e] eqn:Es; [|discriminate | destruct e; discriminate]. injection E2 as ->.
        apply (patch_elements_iff _ ps w _ Ep). exists p. split; [apply (storage_patch_first w _ ps p Ep); exact Es | reflexivity].
      + right. split; [exact Hn|]. destruct (patch_element name w (listing (match w with Some _ => true | None => false end))) as [e|] eqn:Ee; [|discriminate]. injection E2 as ->.
        exists e. split; [|reflexivity]. replace (match w with None => false | Some _ => true end) with (match w with Some _ => true | None => false end) by (destruct w; reflexivity). apply patch_element_first. exact Ee.
    - intros (name & v & w & Hc & Hw & H). rewrite (arg_cases name v w c Hc Hw). destruct H as [[-> Hpe]|[Hn (e & Hf & ->)]].
      + destruct (patches_spec (listing false)) as (ps & _ & Ep & _). apply (patch_elements_iff _ ps w _ Ep) in Hpe; destruct Hpe as (p & Hf & ->). apply (storage_patch_first w _ ps p Ep) in Hf. rewrite Hf. reflexivity.
      + apply eqbF in Hn. rewrite Hn. apply patch_element_first in Hf. replace (match w with Some _ => true | None => false end) with (match w with None => false | Some _ => true end) by (destruct w; reflexivity). rewrite Hf. reflexivity.
  Qed.
  (** The exception when nothing is designated. *)
  Lemma arg_refused c e : parse_component_arg listing c = Err e <->
    (forall es, ~ designates listing c es) /\ e = (if mem c [lit "patch="; lit "patch=" ++ [10]] && eqb (lenN (listing false)) 0 then StopIteration else SysExit).
  Proof.
    assert (G : forall e', parse_component_arg listing c = Err e' -> e' = if mem c [lit "patch="; lit "patch=" ++ [10]] && eqb (lenN (listing false)) 0 then StopIteration else SysExit).
    { intros e' E. destruct (match_component c) as [[name v]|] eqn:Em.
      - apply match_component_iff in Em. assert (exists w, looked_up v w) as [w Hw] by (eexists; apply looked_up_iff; reflexivity). pose proof (arg_cases name v w c Em Hw) as E2. rewrite E in E2. apply looked_up_iff in Hw.
        destruct (eqbP name (lit "patch")) as [->|Hn].
        + destruct v as [|x v]; subst w.
          * assert (Hm : mem c [lit "patch="; lit "patch=" ++ [10]] = true) by (destruct Em as (_ & _ & [-> | ->]); reflexivity).
            rewrite Hm. cbn [andb]. unfold storage_patch in E2. destruct (patches_spec (listing false)) as (ps & gs & Ep & HG & HF). rewrite Ep in E2. cbn [rbind] in E2.
            destruct ps as [|p ps]; [|discriminate]. inversion HF; subst. destruct HG as [HG _]. cbn in HG. rewrite <- HG. cbn. congruence.
          * assert (Hm : mem c [lit "patch="; lit "patch=" ++ [10]] = false).
            { apply mem_false. assert (Hx : x <> 10). { intros ->. destruct Em as (_ & Hv & _). apply version_part_no_nl in Hv. apply Hv. left. reflexivity. }
              intros [Hc|[Hc|[]]]; destruct Em as (_ & _ & [-> | ->]); injection Hc; intros; congruence. }
            rewrite Hm. cbn [andb]. unfold storage_patch in E2. destruct (patches_spec (listing false)) as (ps & gs & Ep & _). rewrite Ep in E2. cbn [rbind] in E2.
            destruct (find _ ps); [discriminate | congruence].
        + assert (Hm : mem c [lit "patch="; lit "patch=" ++ [10]] = false).
          { apply mem_false. destruct Em as ([<-|[<-|[<-|[]]]] & _ & Hc); [congruence | |]; intros [<-|[<-|[]]]; destruct Hc as [Hc|Hc]; discriminate. }
          rewrite Hm. cbn [andb]. destruct (patch_element _ _ _); congruence.
      - unfold parse_component_arg, parse_component in E. rewrite Em in E.
        assert (Hm : mem c [lit "patch="; lit "patch=" ++ [10]] = false).
        { apply mem_false. intros [<-|[<-|[]]]; discriminate. }
        rewrite Hm. cbn [andb]. congruence. }
    split.
    - intros E. split; [|auto]. intros es Hd. apply arg_designates in Hd. congruence.
    - intros [Hn ->]. destruct (parse_component_arg listing c) as [es|e'] eqn:E; [exfalso; apply (Hn es); apply arg_designates; exact E|]. f_equal. apply G. reflexivity.
  Qed.

  Lemma args_Ok cs es : parse_component_args listing cs = Ok es <-> exists ess, Forall2 (designates listing) cs ess /\ es = concat ess.
  Proof.
    unfold parse_component_args. split.
    - destruct (rmapM _ cs) as [ess|] eqn:E; [|discriminate]. cbn [rmap]. intros E2. injection E2 as <-. exists ess. split; [|reflexivity].
      apply rmapM_Ok in E. induction E as [|c x l l' H HF IH]; [constructor|]. constructor; [apply arg_designates; exact H | exact IH].
    - intros (ess & HF & ->). assert (E : rmapM (parse_component_arg listing) cs = Ok ess); [|rewrite E; reflexivity].
      apply rmapM_Ok. induction HF as [|c x l l' H HF IH]; [constructor|]. constructor; [apply arg_designates; exact H | exact IH].
  Qed.
  Lemma args_Err cs : (exists c, In c cs /\ forall es, ~ designates listing c es) <-> exists e, parse_component_args listing cs = Err e.
  Proof.
    unfold parse_component_args. induction cs as [|c cs IH]; [split; [intros (c & [] & _) | intros [e E]; discriminate]|]. cbn [rmapM].
    destruct (parse_component_arg listing c) as [es|e] eqn:E; cbn [rbind].
    - split.
      + intros (c' & [<-|Hin] & Hn); [exfalso; apply (Hn es); apply arg_designates; exact E|]. destruct (proj1 IH) as [e He]; [eauto|].
        destruct (rmapM (parse_component_arg listing) cs); [discriminate|]. eexists. reflexivity.
      + intros [e He]. destruct (rmapM (parse_component_arg listing) cs) as [l|e'] eqn:Em; [discriminate|]. destruct (proj2 IH) as (c' & Hin & Hn); [eexists; reflexivity|]. exists c'. split; [right; exact Hin | exact Hn].
    - split; [eexists; reflexivity|]. intros _. exists c. split; [left; reflexivity|]. apply (arg_refused c e). exact E.
  Qed.

  Lemma download_run dl cs pl f : 
    (exists c e, In c cs /\ (forall es, ~ designates listing c es) /\ run (command_download listing dl cs) pl f = (Raised e, pl, f))
    \/ exists ess, Forall2 (designates listing) cs ess /\ run (command_download listing dl cs) pl f = run (for_each (concat ess) dl) pl f.
  Proof.
    unfold command_download. destruct (parse_component_args listing cs) as [es|e] eqn:E.
    - right. apply args_Ok in E as (ess & HF & ->). exists ess. split; [exact HF | reflexivity].
    - left. destruct (proj2 (args_Err cs)) as (c & Hc & Hn); [eauto|]. exists c, e. split; [exact Hc|]. split; [exact Hn | reflexivity].
  Qed.
End Components.

(** ** Lines *)

Lemma print_all_ok {A} (f : A -> printed) l os : Forall2 (fun x o => f x = (o, None)) l os -> print_all f l = (concat os, None).
Proof. induction 1 as [|x o l l' H HF IH]; [reflexivity|]. cbn [print_all concat]. rewrite H, IH. reflexivity. Qed.
Lemma print_all_interrupted {A} (f : A -> printed) l1 os x o e l2 : Forall2 (fun x o => f x = (o, None)) l1 os -> f x = (o, Some e) -> print_all f (l1 ++ x :: l2) = (concat os ++ o, Some e).
Proof. induction 1 as [|y o' l l' H HF IH]; intros Hx; cbn [app print_all concat]; [rewrite Hx; reflexivity|]. rewrite H, (IH Hx), app_assoc. reflexivity. Qed.

Lemma versions_lines l type : exists gs os, version_groups l gs /\
  Forall2 (fun g o => (offers type g /\ exists e, In e g /\ o = [v_s (e_ver e)]) \/ (~ offers type g /\ o = [])) gs os /\ command_versions l type = (concat os, None).
Proof.
  pose proof (groupby_version_groups l) as HG. exists (groupby same_ver l).
  assert (H : exists os, Forall2 (fun g o => (offers type g /\ exists e, In e g /\ o = [v_s (e_ver e)]) \/ (~ offers type g /\ o = [])) (groupby same_ver l) os /\ command_versions l type = (concat os, None));
    [|destruct H as (os & H1 & H2); exists os; auto].
  unfold command_versions. destruct HG as (_ & HF & _). induction HF as [|g gs [Hne Hg] HF IH]; [exists []; split; [constructor | reflexivity]|].
  destruct IH as (os & H1 & H2). cbn [print_versions]. destruct (patch_create_group g Hne Hg) as (p & -> & (Hin & _ & (e & He & Ev) & _) & _). rewrite H2.
  assert (Ho : eqb type (lit "patch") || mem type (map e_name (p_elems p)) = true <-> offers type g).
  { rewrite orb_true_iff, eqbT, mem_In, in_map_iff. unfold offers. split; (intros [H|H]; [left; exact H|]; right).
    - destruct H as (x & <- & Hx). exists x. split; [|reflexivity]. apply first_of_name_In. apply Hin. exact Hx.
    - destruct H as (x & Hx & <-). clear - Hx Hin. assert (Hf : exists y, first_of_name g y /\ e_name y = e_name x).
      { clear Hin. induction g as [|z g IH]; [destruct Hx|]. destruct (eqbP (e_name z) (e_name x)) as [Ez|Hz]; [exists z; split; [exists [], g; split; [reflexivity | intros ? []] | exact Ez]|].
        destruct Hx as [->|Hx]; [congruence|]. destruct (IH Hx) as (y & (a & b & -> & Hp) & Ey). exists y. split; [|exact Ey]. exists (z :: a), b. split; [reflexivity|]. intros u [<-|Hu]; [congruence | exact (Hp u Hu)]. }
      destruct Hf as (y & Hy & Ey). exists y. split; [exact Ey | apply Hin; exact Hy]. }
  destruct (eqb type (lit "patch") || mem type (map e_name (p_elems p))).
  - exists ([v_s (p_ver p)] :: os). split; [constructor; [left; split; [apply Ho; reflexivity | exists e; split; [exact He | rewrite Ev; reflexivity]] | exact H1] | reflexivity].
  - exists ([] :: os). split; [constructor; [right; split; [intros H; apply Ho in H; discriminate | reflexivity] | exact H1] | reflexivity].
Qed.

Section Paths.
  Variable lower : str -> str.
  Variable sdir : str.
  Variable manif : manifest.
  Lemma relpaths_lines langs l : filter_files lower manif langs = Ok l ->
    (forall m, In m l -> f_name m <> None) -> exists ns, Forall2 (fun m n => f_name m = Some n) l ns /\ elem_relpaths lower manif langs = (map lower ns, None).
  Proof.
    intros E Hn. unfold elem_relpaths. rewrite E. clear E. induction l as [|m l IH]; [exists []; split; [constructor | reflexivity]|].
    destruct (f_name m) as [n|] eqn:En; [|exfalso; exact (Hn m (or_introl eq_refl) En)]. destruct IH as (ns & HF & Ep); [intros x Hx; apply Hn; right; exact Hx|].
    exists (n :: ns). split; [constructor; assumption|]. cbn [print_all]. unfold lower_name. rewrite En. cbn [of_opt rmap]. unfold lower_name in Ep. rewrite Ep. reflexivity.
  Qed.
  Lemma relpaths_interrupted langs l1 m l2 : filter_files lower manif langs = Ok (l1 ++ m :: l2) -> f_name m = None ->
    (forall x, In x l1 -> f_name x <> None) -> exists ns, Forall2 (fun m n => f_name m = Some n) l1 ns /\ elem_relpaths lower manif langs = (map lower ns, Some AttributeError).
  Proof.
    intros E Hm Hn. unfold elem_relpaths. rewrite E. clear E. induction l1 as [|x l1 IH]; cbn [app].
    - exists []. split; [constructor|]. cbn [print_all]. unfold lower_name. rewrite Hm. reflexivity.
    - destruct (f_name x) as [n|] eqn:En; [|exfalso; exact (Hn x (or_introl eq_refl) En)]. destruct IH as (ns & HF & Ep); [intros y Hy; apply Hn; right; exact Hy|].
      exists (n :: ns). split; [constructor; assumption|]. cbn [print_all]. unfold lower_name. rewrite En. cbn [of_opt rmap]. unfold lower_name in Ep. rewrite Ep. reflexivity.
  Qed.
  (** [paths] pairs the two. *)
  Lemma lower_names l ps : rmapM (fun f => rmap (pair (extract_path sdir f)) (lower_name lower f)) l = Ok ps <->
    Forall2 (fun m p => exists n, f_name m = Some n /\ p = (extract_path sdir m, lower n)) l ps.
  Proof.
    rewrite rmapM_Ok. split; (induction 1 as [|m p l0 l' H HF IH]; [constructor|]; constructor; [|exact IH]).
    - unfold lower_name in H. destruct (f_name m) as [n|]; [|discriminate]. cbn in H. injection H as <-. eauto.
    - destruct H as (n & En & ->). unfold lower_name. rewrite En. reflexivity.
  Qed.
  Lemma paths_Ok langs ps : elem_paths lower sdir manif langs = Ok ps <->
    exists l, filter_files lower manif langs = Ok l /\ Forall2 (fun m p => exists n, f_name m = Some n /\ p = (extract_path sdir m, lower n)) l ps.
  Proof.
    unfold elem_paths. split.
    - intros E. apply rbind_Ok in E as (l & El & E). exists l. split; [exact El|]. apply lower_names. exact E.
    - intros (l & El & HF). rewrite El. cbn [rbind]. apply lower_names. exact HF.
  Qed.
End Paths.
