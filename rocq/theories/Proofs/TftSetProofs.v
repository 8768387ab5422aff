(** * Proofs on the traits and sets of the TFT data *)

From Verif Require Import Base.Py Base.PyFacts Base.Text Base.TextFacts Base.FsThreads Spec.DictSpec Spec.BinAccessSpec Spec.GameDataSpec Spec.TftSpec Model.Tft.
From Verif Require Import Proofs.DictProofs Proofs.BinAccessProofs Proofs.GameDataProofs Proofs.TftProofs Proofs.HashesProofs.
From Coq Require Import ZArith Lia Permutation Sorted.

Lemma dict_loop_list {A K V} `{EqDec K} (f : A -> result (option (K * V))) l d :
  dict_loop f l d = rmap (fun kvs => fold_left (fun d kv => dset (fst kv) (snd kv) d) kvs d) (list_loop f l).
Proof.
  revert d. induction l as [|x l IH]; intros d; cbn [dict_loop list_loop]; [reflexivity|]. destruct (f x) as [o|e]; [|reflexivity]. cbn [rbind]. rewrite IH. destruct (list_loop f l) as [r|e]; [|reflexivity]. cbn [rbind rmap]. destruct o as [[k v]|]; reflexivity.
Qed.
Lemma dict_loop_nil {A K V} `{EqDec K} (f : A -> result (option (K * V))) l : dict_loop f l [] = rmap dict_of (list_loop f l).
Proof. rewrite dict_loop_list. reflexivity. Qed.

Lemma dget_dunion {V} (d d' : list (str * V)) k : NoDup (map fst d') -> dget k (dunion d d') = match dget k d' with Some v => Some v | None => dget k d end.
Proof.
  unfold dunion. revert d. induction d' as [|[k' v'] d' IH]; intros d Hn; [reflexivity|]. cbn [fold_left fst snd]. inversion Hn as [|? ? Hk Hn']; subst. rewrite (IH _ Hn'). cbn [dget]. rewrite dget_dset. destruct (eqbP k k') as [->|Hne].
  - destruct (dget k' d') as [v|] eqn:E; [|reflexivity]. exfalso. apply Hk. apply dget_Some_In in E. apply (in_map fst) in E. exact E.
  - reflexivity.
Qed.

Section Traits.
Variable nm : names.
Variable repr : pyres -> str.
Notation kind := (of_kind nm).

Lemma effects_NoDup fs d : effects_of nm repr fs d -> NoDup (map fst d).
Proof. intros H. inversion H as [r l kvs d0 _ _ _ [Hd _] | v o c kvs d0 _ _ _ _ _ [Hd _] | _ _]; subst; [exact Hd | exact Hd | constructor]. Qed.

Lemma base_effects_ok pre l d c : common_effects nm repr pre d -> base_effects nm repr l d = Ok c -> common_effects nm repr (pre ++ l) c.
Proof.
  revert pre d. induction l as [|v l IH]; intros pre d H E; cbn [base_effects] in E; [injection E as <-; rewrite app_nil_r; exact H|].
  apply rbind_Ok in E as (o & Eo & E). apply rbind_Ok in E as (e & Ee & E). apply bobj_iff in Eo. apply collect_effects_ok in Ee.
  change (pre ++ v :: l) with (pre ++ [v] ++ l). rewrite app_assoc. refine (IH _ _ _ E). eapply CE_snoc; [exact H | exact Eo | exact Ee|]. intros k. apply dget_dunion. exact (effects_NoDup _ _ Ee).
Qed.
Lemma base_effects_total l c : common_effects nm repr l c -> forall d, exists c', base_effects nm repr l d = Ok c'.
Proof.
  intros H. assert (G : forall v, In v l -> exists fs d, object_fields v = Some fs /\ effects_of nm repr fs d).
  { induction H as [|l c v fs d c' H IH Hf He _]; intros w Hw; [destruct Hw|]. apply in_app_or in Hw as [Hw|[<-|[]]]; [exact (IH w Hw) | eauto]. }
  clear H. induction l as [|v l IH]; intros d; cbn [base_effects]; [eauto|]. destruct (G v (or_introl eq_refl)) as (fs & e & Hf & He). apply bobj_iff in Hf. rewrite Hf. cbn [rbind]. apply collect_effects_complete in He as (e' & -> & _). cbn [rbind]. apply IH. intros w Hw. apply G. right. exact Hw.
Qed.
Lemma parse_effect_ok p kmin kmax kstyle base v e : ascii kmin -> ascii kmax -> ascii kstyle ->
  p ++ lit "MinUnits" = lit kmin -> p ++ lit "MaxUnits" = lit kmax -> p ++ lit "Style" = lit kstyle ->
  parse_effect nm repr p base v = Ok e -> effect_of nm repr kmin kmax kstyle base v e.
Proof.
  intros A1 A2 A3 E1 E2 E3 E. unfold parse_effect in E. rewrite E1, E2, E3 in E. apply rbind_Ok in E as (o & Eo & E). apply rbind_Ok in E as (a & Ea & E). apply rbind_Ok in E as (b & Eb & E). apply rbind_Ok in E as (s & Es & E). apply rbind_Ok in E as (d & Ed & E). injection E as <-.
  apply bobj_iff in Eo. apply (getn_iff kmin) in Ea; [|exact A1]. apply (getn_iff kmax) in Eb; [|exact A2]. apply (getd_iff kstyle) in Es; [|exact A3]. apply collect_effects_ok in Ed. exists o, d. cbn [ef_min ef_max ef_style ef_vars]. split; [exact Eo|]. split; [exact Ea|]. split.
  - exists b. split; [exact Eb|]. assert (Hb : b <> RDefault) by (apply (field_proper _ _ _ _ Eb proper_none)). unfold py_or. destruct (py_true b) eqn:Et; [left | right]; (split; [|reflexivity]); [intros Hf; apply (py_true_iff b Hb) in Hf; congruence | apply (py_true_iff b Hb); exact Et].
  - split; [exact Es|]. split; [exact Ed|]. intros k. apply dget_dunion. exact (effects_NoDup _ _ Ed).
Qed.
Lemma parse_effect_total p kmin kmax kstyle base base' v e : ascii kmin -> ascii kmax -> ascii kstyle ->
  p ++ lit "MinUnits" = lit kmin -> p ++ lit "MaxUnits" = lit kmax -> p ++ lit "Style" = lit kstyle ->
  effect_of nm repr kmin kmax kstyle base v e -> exists e', parse_effect nm repr p base' v = Ok e'.
Proof.
  intros A1 A2 A3 E1 E2 E3 (fs & d & Eo & Ea & (m & Em & _) & Es & Ed & _). unfold parse_effect. rewrite E1, E2, E3. apply bobj_iff in Eo. apply (getn_iff kmin) in Ea; [|exact A1]. apply (getn_iff kmax) in Em; [|exact A2]. apply (getd_iff kstyle) in Es; [|exact A3]. apply collect_effects_complete in Ed as (d' & Ed & _).
  rewrite Eo. cbn [rbind]. unfold fld in *. rewrite Ea. cbn [rbind]. rewrite Em. cbn [rbind]. rewrite Es. cbn [rbind]. rewrite Ed. cbn [rbind]. eauto.
Qed.

Definition trait_pair (x : bentry) (kv : N * trait) : Prop := fst kv = be_path x /\ trait_of nm repr x (snd kv).
Lemma parse_trait_ok x r : kind "TftTraitData" x -> parse_trait nm repr x = Ok r -> match r with None => ~ trait_entry nm x | Some kv => trait_entry nm x /\ trait_pair x kv end.
Proof.
  intros Hk E. unfold parse_trait in E. apply rbind_Ok in E as (n & En & E). apply rbind_Ok in E as (s & Es & E). apply getn_iff in En; [|asc]. apply name_str_iff in Es. subst n. destruct (has_sub (lit "Template") s) eqn:Eb.
  - injection E as <-. intros (_ & s' & Hs & Hp). pose proof (field_value_fun "mName" _ _ _ _ eq_refl En Hs) as E'. injection E' as <-. apply has_sub_iff in Eb. contradiction.
  - apply rbind_Ok in E as (inn & Ei & E). apply rbind_Ok in E as (il & Eil & E). apply rbind_Ok in E as (base & Ebase & E). apply rbind_Ok in E as (has & Eh & E). apply rbind_Ok in E as (sets & Esets & E). apply rbind_Ok in E as (sl & Esl & E). apply rbind_Ok in E as (eff & Eeff & E).
    apply rbind_Ok in E as (dn & Edn & E). apply rbind_Ok in E as (dd & Edd & E). apply rbind_Ok in E as (di & Edi & E). injection E as <-. apply getn_iff in Edn, Edd, Edi; try asc. apply getd_iff in Ei; [|asc]. apply py_iter_iff in Eil, Esl. split.
    + split; [exact Hk|]. exists s. split; [exact En|]. intros Hp. apply has_sub_iff in Hp. congruence.
    + split; [reflexivity|]. unfold trait_of. cbn [snd tr_api tr_name tr_desc tr_icon tr_effects]. split; [exact En|]. split; [exact Edn|]. split; [exact Edd|]. split; [exists di; split; [exact Edi | apply py_str_of; exact (field_proper _ _ _ _ Edi proper_none)]|].
      exists il, base. split; [exists inn; auto|]. split; [exact (base_effects_ok [] il [] base (CE_nil _ _) Ebase)|]. apply rmapM_Ok in Eeff.
      destruct (contains_cases "mTraitSets" (be_fields x) eq_refl) as [[Ec Hp]|[Ec Hm]]; rewrite Ec in Eh; injection Eh as <-.
      * left. apply getn_iff in Esets; [|asc]. apply present_value in Esets; [|asc | exact Hp]. exists sets, sl. split; [exact Esets|]. split; [exact Esl|]. eapply Forall2_weak; [|exact Eeff]. intros v e. apply parse_effect_ok; reflexivity.
      * right. split; [exact Hm|]. apply getd_iff in Esets; [|asc]. exists sl. split; [exists sets; auto|]. eapply Forall2_weak; [|exact Eeff]. intros v e. apply parse_effect_ok; reflexivity.
Qed.
Lemma parse_trait_complete x s : field_value "mName" (be_fields x) RNone (RVal (VStr s)) -> (trait_entry nm x -> exists t, trait_of nm repr x t) -> kind "TftTraitData" x -> exists r, parse_trait nm repr x = Ok r.
Proof.
  intros Hn Hr Hk. unfold parse_trait. rewrite (proj2 (getn_iff "mName" (be_fields x) _ eq_refl) Hn). cbn [rbind name_str]. destruct (has_sub (lit "Template") s) eqn:Eb; [eauto|].
  destruct Hr as [t Hr]; [split; [exact Hk|]; exists s; split; [exact Hn | intros Hp; apply has_sub_iff in Hp; congruence]|].
  destruct Hr as (_ & Hdn & Hdd & (di & Hdi & _) & il & base & (inn & Hi & Hil) & Hb & Hs). apply getn_iff in Hdn, Hdd, Hdi; try asc. apply getd_iff in Hi; [|asc]. apply py_iter_iff in Hil. rewrite Hi. cbn [rbind]. rewrite Hil. cbn [rbind]. destruct (base_effects_total il base Hb []) as [b' ->]. cbn [rbind].
  assert (tot : forall p kmin kmax kstyle l es, Forall2 (effect_of nm repr kmin kmax kstyle base) l es ->
    ascii kmin -> ascii kmax -> ascii kstyle -> p ++ lit "MinUnits" = lit kmin -> p ++ lit "MaxUnits" = lit kmax -> p ++ lit "Style" = lit kstyle -> exists es', rmapM (parse_effect nm repr p b') l = Ok es').
  { intros p kmin kmax kstyle l es F A1 A2 A3 E1 E2 E3. destruct (Forall2_total (fun v e => parse_effect nm repr p b' v = Ok e) l) as [es' F'].
    - intros v Hv. destruct (Forall2_in_l _ _ _ _ F Hv) as (e & _ & He). exact (parse_effect_total p kmin kmax kstyle base b' v e A1 A2 A3 E1 E2 E3 He).
    - exists es'. apply rmapM_Ok. exact F'. }
  destruct Hs as [(r & l & Hp & Hl & F)|(Hm & l & (r & Hf & Hl) & F)].
  - rewrite (proj2 (contains_true "mTraitSets" _ eq_refl) (ex_intro _ r Hp)). cbn [rbind]. rewrite (proj2 (getn_iff "mTraitSets" _ r eq_refl) (or_introl Hp)). cbn [rbind]. apply py_iter_iff in Hl. rewrite Hl. cbn [rbind]. destruct (tot (lit "m") _ _ _ l _ F eq_refl eq_refl eq_refl eq_refl eq_refl eq_refl) as [es' ->]. cbn [rbind]. rewrite Hdn. cbn [rbind]. rewrite Hdd. cbn [rbind]. rewrite Hdi. cbn [rbind]. eauto.
  - rewrite (proj2 (contains_false "mTraitSets" _ eq_refl) Hm). cbn [rbind]. apply getd_iff in Hf; [|asc]. rewrite Hf. cbn [rbind]. apply py_iter_iff in Hl. rewrite Hl. cbn [rbind]. destruct (tot [] _ _ _ l _ F eq_refl eq_refl eq_refl eq_refl eq_refl eq_refl) as [es' ->]. cbn [rbind]. rewrite Hdn. cbn [rbind]. rewrite Hdd. cbn [rbind]. rewrite Hdi. cbn [rbind]. eauto.
Qed.
Lemma trait_kind x : trait_entry nm x -> of_type nm (lit "TftTraitData") x = true.
Proof. intros [H _]. apply (of_type_iff nm "TftTraitData" x eq_refl). exact H. Qed.

Lemma table_loop {A} (P : bentry -> Prop) (Q : bentry -> A -> Prop) p f es d : (forall x, P x -> p x = true) ->
  (forall x o, In x es -> p x = true -> f x = Ok o -> match o with None => ~ P x | Some kv => P x /\ fst kv = be_path x /\ Q x (snd kv) end) ->
  dict_loop f (filter p es) [] = Ok d -> table_of P Q es d.
Proof.
  intros Hp Hf E. rewrite dict_loop_nil in E. apply rmap_Ok in E as (kvs & E & ->).
  destruct (list_loop_picks P (fun x kv => fst kv = be_path x /\ Q x (snd kv)) f (filter p es) kvs) as (sel & Hs & F); [|exact E|].
  - intros x o Hx Eo. apply filter_In in Hx as [Hx Hpx]. exact (Hf x o Hx Hpx Eo).
  - apply (proj1 (picks_through P p es sel Hp)) in Hs. intros h. destruct (dget_parallel Q sel kvs h F) as [H1 H2]. split.
    + intros a Ea. destruct (H1 a Ea) as (x & Hx & HQ). exists x. split; [apply (last_entry_picks P es sel h x Hs); exact Hx | exact HQ].
    + intros x Hx. apply H2. apply (last_entry_picks P es sel h x Hs). exact Hx.
Qed.
Lemma parse_traits_ok es ts : parse_traits nm repr es = Ok ts -> table_of (trait_entry nm) (trait_of nm repr) es ts.
Proof.
  apply table_loop; [exact trait_kind|]. intros x o _ Hp Eo. pose proof (parse_trait_ok x o (proj1 (of_type_iff nm "TftTraitData" x eq_refl) Hp) Eo) as H. destruct o; exact H.
Qed.
Lemma list_loop_all {A B} (f : A -> result (option B)) l r : list_loop f l = Ok r -> forall x, In x l -> exists o, f x = Ok o.
Proof. revert r. induction l as [|y l IH]; intros r E x Hx; [destruct Hx|]. cbn [list_loop] in E. apply rbind_Ok in E as (o & Eo & E). apply rbind_Ok in E as (r' & Er & _). destruct Hx as [->|Hx]; [eauto | exact (IH r' Er x Hx)]. Qed.
Lemma parse_traits_total es : (exists ts, parse_traits nm repr es = Ok ts) <->
  (forall x, In x es -> kind "TftTraitData" x -> exists s, field_value "mName" (be_fields x) RNone (RVal (VStr s))) /\ (forall x, In x es -> trait_entry nm x -> exists t, trait_of nm repr x t).
Proof.
  unfold parse_traits. rewrite dict_loop_nil. split.
  - intros [ts E]. apply rmap_Ok in E as (kvs & E & _). pose proof (list_loop_all _ _ _ E) as H. assert (G : forall x, In x es -> kind "TftTraitData" x -> exists o, parse_trait nm repr x = Ok o).
    { intros x Hx Hk. apply H. apply filter_In. split; [exact Hx | apply (of_type_iff nm "TftTraitData" x eq_refl); exact Hk]. }
    split.
    + intros x Hx Hk. destruct (G x Hx Hk) as [o Eo]. unfold parse_trait in Eo. apply rbind_Ok in Eo as (n & En & Eo). apply rbind_Ok in Eo as (s & Es & _). apply name_str_iff in Es. subst n. exists s. apply getn_iff in En; [exact En | asc].
    + intros x Hx Ht. destruct (G x Hx (proj1 Ht)) as [o Eo]. pose proof (parse_trait_ok x o (proj1 Ht) Eo) as Ho. destruct o as [[k t]|]; [|contradiction]. exists t. apply Ho.
  - intros [HN HT]. destruct (list_loop_total (parse_trait nm repr) (filter (of_type nm (lit "TftTraitData")) es)) as [r ->]; [|cbn [rmap]; eauto].
    intros x Hx. apply filter_In in Hx as [Hx Hk]. apply (of_type_iff nm "TftTraitData" x eq_refl) in Hk. destruct (HN x Hx Hk) as [s Hs]. exact (parse_trait_complete x s Hs (HT x Hx) Hk).
Qed.
End Traits.

Lemma gathers_collect {A B} (d : list (N * A)) (look : bval -> A -> Prop) (R : A -> list B -> Prop) f l r : (forall v a, hget v d = Some a <-> look v a) -> (forall a b, f a = Ok b -> R a b) ->
  collect d f l = Ok r -> gathers look R l r.
Proof.
  intros Hd Hf. revert r. induction l as [|v l IH]; intros r E; cbn [collect] in E; [injection E as <-; constructor|]. destruct (hget v d) as [a|] eqn:Ev.
  - apply rbind_Ok in E as (b & Eb & E). apply rbind_Ok in E as (r' & Er & E). injection E as <-. eapply G_take; [apply Hd; exact Ev | apply Hf; exact Eb | apply IH; exact Er].
  - apply G_skip; [intros a Ha; apply Hd in Ha; congruence | apply IH; exact E].
Qed.
Lemma gathers_In {A B} (look : bval -> A -> Prop) (R : A -> list B -> Prop) l r y : (forall v a a', look v a -> look v a' -> a = a') -> (forall a b b', R a b -> R a b' -> b = b') ->
  gathers look R l r -> (In y r <-> exists v a b, In v l /\ look v a /\ R a b /\ In y b).
Proof.
  intros Hl HR H. induction H as [|v l r Hn H IH|v a b l r Ha Hb H IH].
  - split; [intros [] | intros (v & a & b & [] & _)].
  - rewrite IH. split; [intros (w & a & b & Hw & G); exists w, a, b; split; [right; exact Hw | exact G]|]. intros (w & a & b & [<-|Hw] & Ha & G); [destruct (Hn a Ha) | exists w, a, b; auto].
  - rewrite in_app_iff, IH. split.
    + intros [Hy|(w & a' & b' & Hw & G)]; [exists v, a, b; split; [left; reflexivity | auto] | exists w, a', b'; split; [right; exact Hw | exact G]].
    + intros (w & a' & b' & [<-|Hw] & Ha' & Hb' & Hy); [left; rewrite (Hl _ _ _ Ha' Ha) in Hb'; rewrite (HR _ _ _ Hb' Hb) in Hy; exact Hy | right; exists w, a', b'; auto].
Qed.
Lemma last_entry_fun P es h x y : last_entry P es h x -> last_entry P es h y -> x = y.
Proof.
  intros (p1 & q1 & E1 & H1 & P1 & N1) (p2 & q2 & E2 & H2 & P2 & N2). rewrite E1 in E2. clear E1 es.
  revert p2 E2. induction p1 as [|a p1 IH]; intros [|b p2] E; cbn [app] in E; injection E as Ea E.
  - exact Ea.
  - exfalso. subst b. apply (N1 y); [rewrite E; apply in_or_app; right; left; reflexivity | exact H2 | exact P2].
  - exfalso. subst a. apply (N2 x); [rewrite <- E; apply in_or_app; right; left; reflexivity | exact H1 | exact P1].
  - exact (IH p2 E).
Qed.
Lemma last_entry_dec (P : bentry -> Prop) es h : (forall x, P x \/ ~ P x) -> (exists x, last_entry P es h x) \/ (forall y, In y es -> be_path y = h -> ~ P y).
Proof.
  intros D. induction es as [|z l IH]; [right; intros y []|]. destruct IH as [(x & pre & post & -> & G)|IH]; [left; exists x, (z :: pre), post; split; [reflexivity | exact G]|].
  destruct (N.eq_dec (be_path z) h) as [Ez|Ez]; [destruct (D z) as [Hz|Hz]; [left; exists z, [], l; split; [reflexivity | auto]|]|]; right; intros y [<-|Hy] Ey; auto.
Qed.
Lemma refers_fun v h h' : refers v h -> refers v h' -> h = h'.
Proof. intros H H'. apply key_hash_iff in H, H'. congruence. Qed.
Lemma at_key_fun P es v x y : at_key P es v x -> at_key P es v y -> x = y.
Proof. intros (h & Hr & Hx) (h' & Hr' & Hy). rewrite (refers_fun v h' h Hr' Hr) in Hy. exact (last_entry_fun P es h x y Hx Hy). Qed.
Lemma hget_path (P : bentry -> Prop) p es v x : (forall x, p x = true <-> P x) -> (hget v (by_path (filter p es)) = Some x <-> at_key P es v x).
Proof.
  intros Hp. rewrite hget_iff. unfold at_key. split; intros (h & Hr & H); exists h; (split; [exact Hr|]); apply (dget_filter_path P p es h x Hp); exact H.
Qed.

(** ** Sorted names *)
Lemma opt_name_iff r o : opt_name r = Ok o <-> r = match o with Some s => RVal (VStr s) | None => RNone end.
Proof.
  destruct r as [| | |v| |]; cbn [opt_name]; try (split; [discriminate | destruct o; discriminate]).
  - split; [intros E; injection E as <-; reflexivity | destruct o; [discriminate | reflexivity]].
  - destruct v; try (split; [discriminate | destruct o; discriminate]). split; [intros E; injection E as <-; reflexivity | destruct o; [intros E; injection E as <-; reflexivity | discriminate]].
Qed.
Lemma sorted_names_ok l r : sorted_names l = Ok r -> sorted_set r /\ forall n, In n r <-> In n l.
Proof.
  unfold sorted_names. intros E. apply rbind_Ok in E as (os & Eo & E). apply (rmapM_iff _ _ _ _ opt_name_iff) in Eo.
  assert (HI : forall n, In n l <-> exists o, In o os /\ n = match o with Some s => RVal (VStr s) | None => RNone end).
  { intros n. clear E. induction Eo as [|x o l os Hx F IH]; [split; [intros [] | intros (o & [] & _)]|]. cbn [In]. rewrite IH. split.
    - intros [<-|(o' & Ho & E)]; [exists o; auto | exists o'; auto].
    - intros (o' & [<-|Ho] & E); [left; congruence | right; exists o'; auto]. }
  assert (HS : forall ss, rmapM (of_opt TypeError) (set_of os) = Ok ss -> sorted_set (map (fun x => RVal (VStr x)) (py_sorted str_lt ss)) /\ forall n, In n (map (fun x => RVal (VStr x)) (py_sorted str_lt ss)) <-> In n l).
  { intros ss Es. assert (Em : set_of os = map Some ss).
    { apply rmapM_Ok in Es. clear -Es. induction Es as [|o s os' ss Ho F IH]; [reflexivity|]. cbn [map]. destruct o; [|discriminate]. injection Ho as ->. f_equal. exact IH. }
    assert (Hn : NoDup ss) by (apply (NoDup_map_inv Some); rewrite <- Em; apply set_of_NoDup). split.
    - left. exists (py_sorted str_lt ss). split; [reflexivity | apply str_sorted_strict; exact Hn].
    - intros n. rewrite HI, in_map_iff. split.
      + intros (s & <- & Hs). exists (Some s). split; [|reflexivity]. apply (set_of_In (Some s) os). rewrite Em. apply in_map. apply (Permutation_in _ (Permutation_sym (py_sorted_perm str_lt ss)) Hs).
      + intros (o & Ho & ->). apply (set_of_In o os) in Ho. rewrite Em in Ho. apply in_map_iff in Ho as (s & <- & Hs). exists s. split; [reflexivity | apply (Permutation_in _ (py_sorted_perm str_lt ss) Hs)]. }
  destruct (set_of os) as [|[s|] [|o2 os2]] eqn:Eset.
  - apply rbind_Ok in E as (ss & Es & E). injection E as <-. exact (HS ss Es).
  - apply rbind_Ok in E as (ss & Es & E). injection E as <-. exact (HS ss Es).
  - apply rbind_Ok in E as (ss & Es & E). injection E as <-. exact (HS ss Es).
  - injection E as <-. split; [right; reflexivity|]. intros n. rewrite HI. split.
    + intros [<-|[]]. exists None. split; [apply (set_of_In None os); rewrite Eset; left; reflexivity | reflexivity].
    + intros (o & Ho & ->). apply (set_of_In o os) in Ho. rewrite Eset in Ho. destruct Ho as [<-|[]]. left. reflexivity.
  - apply rbind_Ok in E as (ss & Es & E). injection E as <-. exact (HS ss Es).
Qed.

Section Sets.
Variable nm : names.
Variable repr : pyres -> str.
Variable plower : str -> str.
Variable set_order : list N -> list N.
Hypothesis order_perm : forall l, Permutation (set_order l) l.
Notation kind := (of_kind nm).

Lemma name_lower_iff r n : name_lower plower r = Ok n <-> exists s, r = RVal (VStr s) /\ n = plower s.
Proof.
  destruct r as [| | |v| |]; cbn [name_lower]; try (split; [discriminate | intros (s & E & _); discriminate]). destruct v; try (split; [discriminate | intros (s' & E & _); discriminate]). split; [intros E; injection E as <-; eauto | intros (s' & E & ->); injection E as <-; reflexivity].
Qed.
Lemma character_type x : (of_type nm (lit "Character") x || of_type nm (lit "TftCharacter") x) = true <-> character_entry nm x.
Proof. unfold character_entry. rewrite Bool.orb_true_iff. rewrite (of_type_iff nm "Character" x eq_refl), (of_type_iff nm "TftCharacter" x eq_refl). tauto. Qed.
Lemma list_type x : (of_type nm (lit "MapCharacterList") x || of_type nm (lit "TftCharacterList") x) = true <-> character_list nm x.
Proof. unfold character_list. rewrite Bool.orb_true_iff. rewrite (of_type_iff nm "MapCharacterList" x eq_refl), (of_type_iff nm "TftCharacterList" x eq_refl). tauto. Qed.
Lemma lower_name_iff x n : (let! r := getn (be_fields x) (fld "name") in name_lower plower r) = Ok n <-> lower_name plower x n.
Proof.
  unfold lower_name. rewrite rbind_Ok. split.
  - intros (r & Er & En). apply getn_iff in Er; [|asc]. apply name_lower_iff in En as (s & -> & ->). eauto.
  - intros (s & Hs & ->). apply getn_iff in Hs; [|asc]. exists (RVal (VStr s)). split; [exact Hs | reflexivity].
Qed.
Lemma names_ok es d : parse_character_names nm plower es = Ok d -> table_of (character_entry nm) (lower_name plower) es d.
Proof.
  apply table_loop; [intros x Hx; apply character_type; exact Hx|]. intros x o _ Hp E. apply rbind_Ok in E as (r & Er & E). apply rbind_Ok in E as (s & Es & E). injection E as <-. cbn [fst snd]. split; [apply character_type; exact Hp|]. split; [reflexivity|]. apply lower_name_iff. rewrite Er. exact Es.
Qed.
Lemma names_total es : (exists d, parse_character_names nm plower es = Ok d) <-> forall x, In x es -> character_entry nm x -> exists n, lower_name plower x n.
Proof.
  unfold parse_character_names. rewrite dict_loop_nil. split.
  - intros [d E] x Hx Hc. apply rmap_Ok in E as (kvs & E & _). destruct (list_loop_all _ _ _ E x) as [o Eo]; [apply filter_In; split; [exact Hx | apply character_type; exact Hc]|]. apply rbind_Ok in Eo as (r & Er & Eo). apply rbind_Ok in Eo as (s & Es & _). exists s. apply lower_name_iff. rewrite Er. exact Es.
  - intros H. match goal with |- exists d, rmap dict_of (list_loop ?f ?l) = Ok d => destruct (list_loop_total f l) as [r Er]; [|exists (dict_of r); rewrite Er; reflexivity] end.
    intros x Hx. apply filter_In in Hx as [Hx Hc]. apply character_type in Hc. destruct (H x Hx Hc) as [n Hn]. apply lower_name_iff in Hn. apply rbind_Ok in Hn as (r & Er & En). rewrite Er. cbn [rbind]. rewrite En. cbn [rbind]. eauto.
Qed.

Lemma table_None {A} (P : bentry -> Prop) (Q : bentry -> A -> Prop) es d v : table_of P Q es d -> hget v d = None -> forall x, ~ at_key P es v x.
Proof. intros H E x (h & Hr & Hx). destruct (H h) as [_ H2]. destruct (H2 x Hx) as (a & Ea & _). assert (E' : hget v d = Some a) by (apply hget_iff; eauto). congruence. Qed.
Lemma table_Some {A} (P : bentry -> Prop) (Q : bentry -> A -> Prop) es d v a : table_of P Q es d -> hget v d = Some a -> exists x, at_key P es v x /\ Q x a.
Proof. intros H E. apply hget_iff in E as (h & Hr & E). destruct (H h) as [H1 _]. destruct (H1 a E) as (x & Hx & HQ). exists x. split; [exists h; auto | exact HQ]. Qed.

Variable es : list bentry.
Variable cn : list (N * str).
Variable ts : list (N * trait).
Hypothesis cn_ok : table_of (character_entry nm) (lower_name plower) es cn.
Hypothesis ts_ok : table_of (trait_entry nm) (trait_of nm repr) es ts.

Lemma set_characters_ok x l : set_characters cn x = Ok l -> characters nm plower es x l.
Proof.
  unfold set_characters. intros E. apply rbind_Ok in E as (r & Er & E). apply rbind_Ok in E as (vs & Ev & E). injection E as <-. apply getn_iff in Er; [|asc]. apply py_iter_iff in Ev. exists r, vs. split; [exact Er|]. split; [exact Ev|]. clear Ev Er.
  induction vs as [|v vs IH]; cbn [flat_map]; [constructor|]. destruct (hget v cn) as [n|] eqn:E.
  - destruct (table_Some _ _ _ _ _ _ cn_ok E) as (c & Hc & Hn). eapply G_take; [exact Hc | exists n; split; [reflexivity | exact Hn] | exact IH].
  - apply G_skip; [exact (table_None _ _ _ _ _ cn_ok E) | exact IH].
Qed.
Lemma trait_dec z : trait_entry nm z \/ ~ trait_entry nm z.
Proof.
  destruct (of_type nm (lit "TftTraitData") z) eqn:Ek.
  - apply (of_type_iff nm "TftTraitData" z eq_refl) in Ek. destruct (field_value_total "mName" (be_fields z) RNone eq_refl) as [r Hr]. destruct (name_str r) as [s|] eqn:Es.
    + apply name_str_iff in Es. subst r. destruct (has_sub (lit "Template") s) eqn:Eb.
      * right. intros (_ & s' & Hs & Hp). pose proof (field_value_fun "mName" _ _ _ _ eq_refl Hr Hs) as E'. injection E' as <-. apply has_sub_iff in Eb. contradiction.
      * left. split; [exact Ek|]. exists s. split; [exact Hr|]. intros Hp. apply has_sub_iff in Hp. congruence.
    + right. intros (_ & s & Hs & _). rewrite (field_value_fun "mName" _ _ _ _ eq_refl Hr Hs) in Es. discriminate.
  - right. intros [Hk _]. apply (of_type_iff nm "TftTraitData" z eq_refl) in Hk. congruence.
Qed.
Lemma trait_known h : dhas h ts = true <-> exists y, In y es /\ trait_entry nm y /\ be_path y = h.
Proof.
  unfold dhas. destruct (ts_ok h) as [H1 H2]. split.
  - intros E. destruct (dget h ts) as [t|]; [|discriminate]. destruct (H1 t eq_refl) as (x & (pre & post & -> & Eh & HP & _) & _). exists x. split; [apply in_or_app; right; left; reflexivity | auto].
  - intros (y & Hy & HP & Eh). assert (G : exists x, last_entry (trait_entry nm) es h x).
    { destruct (last_entry_dec (trait_entry nm) es h trait_dec) as [[x Hx]|Hn]; [eauto|]. destruct (Hn y Hy Eh HP). }
    destruct G as [x Hx]. destruct (H2 x Hx) as (t & -> & _). reflexivity.
Qed.

Lemma collect_In {A B} (d : list (N * A)) (look : bval -> A -> Prop) (f : A -> result (list B)) l r y : (forall v a, hget v d = Some a <-> look v a) -> collect d f l = Ok r ->
  (In y r <-> exists v a b, In v l /\ look v a /\ f a = Ok b /\ In y b).
Proof.
  intros Hd E. apply (gathers_In look (fun a b => f a = Ok b)); [|congruence|].
  - intros v a a' Ha Ha'. apply Hd in Ha, Ha'. congruence.
  - exact (gathers_collect d look _ f l r Hd (fun _ _ H => H) E).
Qed.
Lemma collect_done {A B} (d : list (N * A)) (look : bval -> A -> Prop) (f : A -> result (list B)) l r v a : (forall v a, hget v d = Some a <-> look v a) -> collect d f l = Ok r ->
  In v l -> look v a -> exists b, f a = Ok b.
Proof.
  intros Hd. revert r. induction l as [|w l IH]; intros r E Hv Ha; [destruct Hv|]. cbn [collect] in E. destruct Hv as [->|Hv].
  - apply Hd in Ha. rewrite Ha in E. apply rbind_Ok in E as (b & Eb & _). eauto.
  - destruct (hget w d); [apply rbind_Ok in E as (b & Eb & E); apply rbind_Ok in E as (r' & Er & _); exact (IH r' Er Hv Ha) | exact (IH r E Hv Ha)].
Qed.
Lemma kind_path s v x : ascii s -> (hget v (by_path (filter (of_type nm (lit s)) es)) = Some x <-> at_key (kind s) es v x).
Proof. intros Ha. apply hget_path. intros y. apply of_type_iff. exact Ha. Qed.
Arguments kind_path s%string_scope v x _.

Lemma set_item_name_In x b y : set_item_name x = Ok b -> (In y b <-> exists a, field_value "IsAugment" (be_fields x) RNone a /\ (falsy a <-> fst y = false) /\ field_value "mName" (be_fields x) RNone (snd y)).
Proof.
  unfold set_item_name. intros E. apply rbind_Ok in E as (a & Ea & E). apply rbind_Ok in E as (n & En & E). apply rbind_Ok in E as (_ & _ & E). injection E as <-. apply getn_iff in Ea, En; try asc.
  assert (Ht : py_true a = false <-> falsy a) by (apply py_true_iff; apply (field_proper _ _ _ _ Ea proper_none)). cbn [In]. split.
  - intros [<-|[]]. exists a. cbn [fst snd]. split; [exact Ea|]. split; [rewrite Ht; tauto | exact En].
  - intros (a' & Ha' & Hf & Hn). rewrite (field_value_fun "IsAugment" _ _ _ _ eq_refl Ha' Ea) in Hf. left. destruct y as [b' n']. cbn [fst snd] in *. f_equal; [|exact (field_value_fun "mName" _ _ _ _ eq_refl En Hn)].
    destruct (py_true a), b'; try reflexivity; [exfalso; assert (H : falsy a) by (apply Hf; reflexivity); apply Ht in H; discriminate | exfalso; assert (E : true = false) by (apply Hf, Ht; reflexivity); discriminate].
Qed.
Lemma set_item_names_In x b y : set_item_names (by_path (filter (of_type nm (lit "TftItemData")) es)) x = Ok b ->
  (In y b <-> exists vs w i a, field_list "mItems" (be_fields x) vs /\ In w vs /\ at_key (kind "TftItemData") es w i /\ field_value "IsAugment" (be_fields i) RNone a /\ (falsy a <-> fst y = false) /\ field_value "mName" (be_fields i) RNone (snd y)).
Proof.
  unfold set_item_names. intros E. apply rbind_Ok in E as (r & Er & E). apply rbind_Ok in E as (vs & Ev & E). apply getd_iff in Er; [|asc]. apply py_iter_iff in Ev. assert (Hl : field_list "mItems" (be_fields x) vs) by (exists r; auto).
  rewrite (collect_In _ (at_key (kind "TftItemData") es) _ _ _ y (fun v a => kind_path "TftItemData" v a eq_refl) E). split.
  - intros (w & i & b0 & Hw & Hi & Eb & Hy). apply (set_item_name_In i b0 y Eb) in Hy as (a & Ha). exists vs, w, i, a. auto.
  - intros (vs' & w & i & a & Hl' & Hw & Hi & Ha). rewrite (field_list_fun "mItems" _ _ _ eq_refl Hl' Hl) in Hw. destruct (collect_done _ (at_key (kind "TftItemData") es) _ _ _ w i (fun v a => kind_path "TftItemData" v a eq_refl) E Hw Hi) as [b0 Eb]. exists w, i, b0. split; [exact Hw|]. split; [exact Hi|]. split; [exact Eb|]. apply (set_item_name_In i b0 y Eb). eauto.
Qed.

Lemma set_name_ok x info n : field_value "ScriptData" (be_fields x) RNone info -> set_name_of info = Ok n -> set_name x n.
Proof.
  intros Hi E. unfold set_name_of in E. destruct info as [|d| |v| |]; try discriminate.
  - destruct (find (fun kv => key_eq (VStr (lit "SetName")) (fst kv)) d) as [[k v]|] eqn:Ef; [|discriminate]. apply rbind_Ok in E as (o & Eo & E). apply bobj_iff in Eo. apply getn_iff in E; [|asc]. exists d, v, o. split; [exact Hi|]. split; [|auto].
    clear Hi Eo E. induction d as [|[k' v'] d IH]; cbn [find] in Ef; [discriminate|]. destruct (key_eq (VStr (lit "SetName")) (fst (k', v'))) eqn:Ek.
    + injection Ef as -> ->. cbn [fst] in Ek. destruct k; try discriminate. cbn [key_eq] in Ek. destruct (eqbP (lit "SetName") s) as [<-|]; [|discriminate]. exists [], d. split; [reflexivity | intros w []].
    + destruct (IH Ef) as (d1 & d2 & -> & Hn). exists ((k', v') :: d1), d2. split; [reflexivity|]. intros w [Hw|Hw]; [|exact (Hn w Hw)]. injection Hw as -> ->. cbn [fst key_eq] in Ek. rewrite eqbR in Ek. discriminate.
  - destruct v; try discriminate; apply rbind_Ok in E as (f & _ & E); discriminate.
Qed.

Lemma parse_set_ok x o : parse_set nm set_order es cn ts x = Ok o -> match o with None => skipped_set x | Some s => set_of_entry nm plower es x s end.
Proof.
  intros E. unfold parse_set in E. cbv zeta in E. apply rbind_Ok in E as (number & Enu & E). apply rbind_Ok in E as (mu & Emu & E). apply rbind_Ok in E as (mu' & Emu' & E). apply rbind_Ok in E as (c1 & Ec1 & E). apply rbind_Ok in E as (c2 & Ec2 & E). apply rbind_Ok in E as (cl & Ecl & E).
  apply getn_iff in Enu, Emu; try asc. apply getd_iff in Ec1, Ec2; try asc. destruct c1 as [c1| | | | |], c2 as [c2| | | | |]; try discriminate. injection Ecl as <-. destruct (eqbP (lenN (c1 ++ c2)) 0) as [E0|E0].
  - injection E as <-. left. apply lenN_0 in E0. apply app_eq_nil in E0 as [-> ->]. auto.
  - apply rbind_Ok in E as (tl & Etl & E). apply getn_iff in Etl; [|asc]. destruct (is_none tl) eqn:Entl; [injection E as <-; apply is_none_iff in Entl; subst tl; right; left; exact Etl|].
    apply rbind_Ok in E as (info & Einfo & E). apply rbind_Ok in E as (name & Ename & E). apply getn_iff in Einfo; [|asc]. apply (set_name_ok x info name Einfo) in Ename.
    destruct (is_none number || is_none name) eqn:Enn; [injection E as <-; apply Bool.orb_true_iff in Enn as [Hn|Hn]; apply is_none_iff in Hn; subst; right; right; [left; exact Enu | right; exact Ename]|]. apply Bool.orb_false_iff in Enn as [Hnn1 Hnn2]. apply is_none_false in Hnn1, Hnn2, Entl.
    apply rbind_Ok in E as (chars & Ech & E). apply rbind_Ok in E as (tll & Etll & E). apply rbind_Ok in E as (paths & Ep & E). apply rbind_Ok in E as (il & Eil & E). apply rbind_Ok in E as (ill & Eill & E). apply rbind_Ok in E as (items & Eit & E). apply rbind_Ok in E as (aug & Eaug & E). apply rbind_Ok in E as (oth & Eoth & E). injection E as <-.
    apply py_iter_iff in Etll, Eill. apply getd_iff in Eil; [|asc]. exists (c1 ++ c2), tll, ill. cbn [ts_number ts_name ts_mutator ts_chars ts_traits ts_augments ts_items].
    split; [split; [exists c1, c2; auto|]; split; [intros E; apply E0; rewrite E; reflexivity | exists tl; auto]|]. split; [exists il; auto|]. split; [exact Enu|]. split; [exact Hnn1|]. split; [exact Ename|]. split; [exact Hnn2|].
    split; [exists mu; split; [exact Emu|]; destruct (is_none mu) eqn:Em; [right; split; [apply is_none_iff; exact Em | apply getn_iff in Emu'; [exact Emu' | asc]] | left; split; [apply is_none_false; exact Em | congruence]]|].
    split; [refine (gathers_collect _ _ _ _ _ _ _ set_characters_ok Ech); intros v a; apply hget_path; exact list_type|].
    split; [apply NoDup_filter; eapply Permutation_NoDup; [apply Permutation_sym, order_perm | apply set_of_NoDup]|]. split.
    { intros h. rewrite filter_In, trait_known. assert (G : In h (set_order (set_of (flat_map (fun v => match key_hash v with Some h => [h] | None => [] end) paths))) <-> listed_trait nm es tll h); [|rewrite G; tauto].
      assert (P : In h (set_order (set_of (flat_map (fun v => match key_hash v with Some h => [h] | None => [] end) paths))) <-> exists w, In w paths /\ refers w h).
      { split; [intros H; apply (Permutation_in _ (order_perm _)) in H | intros H; apply (Permutation_in _ (Permutation_sym (order_perm _)))].
        - apply (proj1 (set_of_In _ _)) in H. apply in_flat_map in H as (w & Hw & Hh). exists w. split; [exact Hw|]. apply key_hash_iff. destruct (key_hash w); [destruct Hh as [->|[]]; reflexivity | destruct Hh].
        - apply (proj2 (set_of_In _ _)). apply in_flat_map. destruct H as (w & Hw & Hh). exists w. split; [exact Hw|]. apply key_hash_iff in Hh. rewrite Hh. left. reflexivity. }
      rewrite P. unfold listed_trait. split.
      - intros (w & Hw & Hr). apply (collect_In _ (at_key (kind "TftTraitList") es) _ _ _ w (fun v a => kind_path "TftTraitList" v a eq_refl) Ep) in Hw as (v & y & b & Hv & Hy & Eb & Hw). unfold set_trait_paths in Eb. apply rbind_Ok in Eb as (r & Er & Eb). apply getn_iff in Er; [|asc]. apply py_iter_iff in Eb. exists v, y, r, b, w. auto 10.
      - intros (v & y & r & vs & w & Hv & Hy & Hr & Hvs & Hw & Hh). exists w. split; [|exact Hh]. apply (collect_In _ (at_key (kind "TftTraitList") es) _ _ _ w (fun v a => kind_path "TftTraitList" v a eq_refl) Ep). exists v, y, vs. split; [exact Hv|]. split; [exact Hy|]. split; [|exact Hw]. unfold set_trait_paths. apply getn_iff in Hr; [|asc]. rewrite Hr. cbn [rbind]. apply py_iter_iff. exact Hvs. }
    assert (HI : forall b n, In (b, n) items <-> listed_item nm es ill b n).
    { intros b n. rewrite (collect_In _ (at_key (kind "TFTItemList") es) _ _ _ (b, n) (fun v a => kind_path "TFTItemList" v a eq_refl) Eit). unfold listed_item. split.
      - intros (v & y & b0 & Hv & Hy & Eb & Hin). apply (set_item_names_In y b0 (b, n) Eb) in Hin as (vs & w & i & a & Hl & Hw & Hi & Ha & Hf & Hn). exists v, y, vs, w, i, a. cbn [fst snd] in *. auto 10.
      - intros (v & y & vs & w & i & a & Hv & Hy & Hl & Hw & Hi & Ha & Hf & Hn). destruct (collect_done _ (at_key (kind "TFTItemList") es) _ _ _ v y (fun v a => kind_path "TFTItemList" v a eq_refl) Eit Hv Hy) as [b0 Eb]. exists v, y, b0. split; [exact Hv|]. split; [exact Hy|]. split; [exact Eb|]. apply (set_item_names_In y b0 (b, n) Eb). exists vs, w, i, a. cbn [fst snd]. auto 10. }
    apply sorted_names_ok in Eaug as [Sa Ia], Eoth as [So Io]. split; [exact Sa|]. split; [|split; [exact So|]].
    + intros n. rewrite Ia, in_map_iff, <- HI. split; [intros ([b m] & <- & H); apply filter_In in H as [H Hb]; cbn [fst snd] in *; subst b; exact H | intros H; exists (true, n); split; [reflexivity | apply filter_In; auto]].
    + intros n. rewrite Io, in_map_iff, <- HI. split; [intros ([b m] & <- & H); apply filter_In in H as [H Hb]; cbn [fst snd] in *; destruct b; [discriminate | exact H] | intros H; exists (false, n); split; [reflexivity | apply filter_In; auto]].
Qed.
Lemma set_not_skipped x s : set_of_entry nm plower es x s -> ~ skipped_set x.
Proof.
  intros (chars & traits & items & ((c1 & c2 & H1 & H2 & ->) & Hne & r & Ht & Hr & _) & _ & Hnu & Hnn & Hna & Hnan & _) [[K1 K2]|[K|[K|K]]].
  - pose proof (field_value_fun "characterLists" _ _ _ _ eq_refl H1 K1) as E1. pose proof (field_value_fun "tftCharacterLists" _ _ _ _ eq_refl H2 K2) as E2. injection E1 as ->. injection E2 as ->. exact (Hne eq_refl).
  - exact (Hr (field_value_fun "TraitLists" _ _ _ _ eq_refl Ht K)).
  - exact (Hnn (field_value_fun "number" _ _ _ _ eq_refl Hnu K)).
  - destruct Hna as (d & v & fs & Hd & (d1 & d2 & Ed & Hn1) & Hv & Hfs), K as (d' & v' & fs' & Hd' & (d1' & d2' & Ed' & Hn1') & Hv' & Hfs'). pose proof (field_value_fun "ScriptData" _ _ _ _ eq_refl Hd Hd') as E. injection E as <-. apply Hnan.
    assert (v = v').
    { rewrite Ed in Ed'. clear -Ed' Hn1 Hn1'. revert d1' Ed' Hn1'. induction d1 as [|a d1 IH]; intros [|b d1'] E Hn'; cbn [app] in E; injection E as Ea E.
      - exact Ea.
      - exfalso. apply (Hn' v). left. symmetry. exact Ea.
      - exfalso. apply (Hn1 v'). left. exact Ea.
      - exact (IH (fun w Hw => Hn1 w (or_intror Hw)) d1' E (fun w Hw => Hn' w (or_intror Hw))). }
    subst v'. rewrite Hv in Hv'. injection Hv' as <-. exact (field_value_fun "mValue" _ _ _ _ eq_refl Hfs Hfs').
Qed.
Lemma parse_sets_ok sets : parse_sets nm set_order es cn ts = Ok (Some sets) -> exists sel, picks (fun x => kind "TFTSetData" x /\ ~ skipped_set x) es sel /\ Forall2 (set_of_entry nm plower es) sel sets.
Proof.
  unfold parse_sets. intros E. assert (E' : list_loop (parse_set nm set_order es cn ts) (filter (of_type nm (lit "TFTSetData")) es) = Ok sets).
  { destruct (filter (of_type nm (lit "TFTSetData")) es) as [|y l].
    - apply rbind_Ok in E as (u & _ & E). apply rbind_Ok in E as (u' & _ & E). discriminate.
    - apply rmap_Ok in E as (sets' & E & Es). injection Es as <-. exact E. }
  assert (HL : forall x o, In x (filter (of_type nm (lit "TFTSetData")) es) -> parse_set nm set_order es cn ts x = Ok o ->
    match o with None => ~ (kind "TFTSetData" x /\ ~ skipped_set x) | Some y => (kind "TFTSetData" x /\ ~ skipped_set x) /\ set_of_entry nm plower es x y end).
  { intros x o Hx Eo. apply filter_In in Hx as [_ Hk]. apply (of_type_iff nm "TFTSetData" x eq_refl) in Hk. apply parse_set_ok in Eo. destruct o as [t|]; [|tauto]. split; [split; [exact Hk | exact (set_not_skipped x t Eo)] | exact Eo]. }
  destruct (list_loop_picks (fun x => kind "TFTSetData" x /\ ~ skipped_set x) (set_of_entry nm plower es) _ _ _ HL E') as (sel & Hp & F).
  exists sel. split; [|exact F]. exact (proj1 (picks_through _ _ _ _ (fun x H => proj2 (of_type_iff nm "TFTSetData" x eq_refl) (proj1 H))) Hp).
Qed.

(** ** Success *)

Lemma collect_total {A B} (d : list (N * A)) (look : bval -> A -> Prop) (f : A -> result (list B)) l (P : B -> Prop) : (forall v a, hget v d = Some a <-> look v a) ->
  (forall v a, In v l -> look v a -> exists b, f a = Ok b /\ Forall P b) -> exists r, collect d f l = Ok r /\ Forall P r.
Proof.
  intros Hd. induction l as [|v l IH]; intros H; cbn [collect]; [exists []; auto|]. destruct (IH (fun w a Hw => H w a (or_intror Hw))) as (r & Er & Hr).
  destruct (hget v d) as [a|] eqn:E; [|eauto]. apply Hd in E. destruct (H v a (or_introl eq_refl) E) as (b & -> & Hb). cbn [rbind]. rewrite Er. cbn [rbind]. exists (b ++ r). split; [reflexivity | apply Forall_app; auto].
Qed.
Lemma sorted_names_total l : Forall (fun n => exists s, n = RVal (VStr s)) l \/ Forall (eq RNone) l -> exists r, sorted_names l = Ok r.
Proof.
  intros [H|H]; unfold sorted_names.
  - assert (exists ss, rmapM opt_name l = Ok (map Some ss)) as [ss ->].
    { induction H as [|n l [s ->] _ [ss IH]]; [exists []; reflexivity|]. exists (s :: ss). cbn [rmapM opt_name rbind]. rewrite IH. reflexivity. }
    cbn [rbind]. assert (Hs : Forall (fun o => exists s : str, o = Some s) (set_of (map Some ss))).
    { apply Forall_forall. intros o Ho. apply (proj1 (set_of_In _ _)) in Ho. apply in_map_iff in Ho as (s & <- & _). eauto. }
    assert (E : exists r, rmapM (of_opt TypeError) (set_of (map Some ss)) = Ok r).
    { induction Hs as [|o os [s ->] _ [r IH]]; [exists []; reflexivity|]. exists (s :: r). cbn [rmapM of_opt rbind]. rewrite IH. reflexivity. }
    destruct E as [r Er]. destruct (set_of (map Some ss)) as [|[s|] [|o os]]; first [rewrite Er; cbn [rbind]; eauto | eauto].
  - assert (exists os, rmapM opt_name l = Ok os /\ Forall (eq None) os) as (os & -> & Ho).
    { induction H as [|n l <- _ (os & IH & Ho)]; [exists []; auto|]. exists (None :: os). cbn [rmapM opt_name rbind]. rewrite IH. auto. }
    cbn [rbind]. assert (Hs : Forall (eq None) (set_of os)).
    { apply Forall_forall. intros o Hin. apply (proj1 (set_of_In _ _)) in Hin. apply (proj1 (Forall_forall _ _) Ho o Hin). }
    pose proof (set_of_NoDup os) as Hn. destruct (set_of os) as [|a [|b t]]; [cbn; eauto | |].
    + inversion Hs as [|? ? <- _]; subst. eauto.
    + exfalso. inversion Hs as [|? ? <- Hs']; subst. inversion Hs' as [|? ? <- _]; subst. inversion Hn as [|? ? Hn1 _]; subst. apply Hn1. left. reflexivity.
Qed.
Lemma set_name_total x n : set_name x n -> exists info, getn (be_fields x) (fld "ScriptData") = Ok info /\ set_name_of info = Ok n.
Proof.
  intros (d & v & fs & Hd & (d1 & d2 & -> & Hn) & Hv & Hf). exists (RDict (d1 ++ (VStr (lit "SetName"), v) :: d2)). split; [apply getn_iff; [asc | exact Hd]|]. cbn [set_name_of].
  assert (E : find (fun kv => key_eq (VStr (lit "SetName")) (fst kv)) (d1 ++ (VStr (lit "SetName"), v) :: d2) = Some (VStr (lit "SetName"), v)).
  { clear Hd. induction d1 as [|[k w] d1 IH]; cbn [app find fst]; [cbn [key_eq]; rewrite eqbR; reflexivity|].
    destruct (key_eq (VStr (lit "SetName")) k) eqn:Ek; [|apply IH; intros w' Hw'; exact (Hn w' (or_intror Hw'))].
    exfalso. destruct k; try discriminate Ek. cbn [key_eq] in Ek. destruct (eqbP (lit "SetName") s) as [<-|]; [|discriminate]. exact (Hn w (or_introl eq_refl)). }
  rewrite E. apply bobj_iff in Hv. rewrite Hv. cbn [rbind]. apply getn_iff; [asc | exact Hf].
Qed.
Lemma items_In l items b n : collect (by_path (filter (of_type nm (lit "TFTItemList")) es)) (set_item_names (by_path (filter (of_type nm (lit "TftItemData")) es))) l = Ok items ->
  (In (b, n) items <-> listed_item nm es l b n).
Proof.
  intros E. rewrite (collect_In _ (at_key (kind "TFTItemList") es) _ _ _ (b, n) (fun v a => kind_path "TFTItemList" v a eq_refl) E). unfold listed_item. split.
  - intros (v & y & b0 & Hv & Hy & Eb & Hin). apply (set_item_names_In y b0 (b, n) Eb) in Hin as (vs & w & i & a & Hl & Hw & Hi & Ha & Hf & Hn). exists v, y, vs, w, i, a. cbn [fst snd] in *. auto 10.
  - intros (v & y & vs & w & i & a & Hv & Hy & Hl & Hw & Hi & Ha & Hf & Hn). destruct (collect_done _ (at_key (kind "TFTItemList") es) _ _ _ v y (fun v a => kind_path "TFTItemList" v a eq_refl) E Hv Hy) as [b0 Eb]. exists v, y, b0. split; [exact Hv|]. split; [exact Hy|]. split; [exact Eb|]. apply (set_item_names_In y b0 (b, n) Eb). exists vs, w, i, a. cbn [fst snd]. auto 10.
Qed.
Lemma sorted_kinds l r : sorted_names l = Ok r -> (forall n, In n l -> exists s, n = RVal (VStr s)) \/ (forall n, In n l -> n = RNone).
Proof.
  intros E. apply sorted_names_ok in E as [[(ss & -> & _)| -> ] HI].
  - left. intros n Hn. apply HI in Hn. apply in_map_iff in Hn as (s & <- & _). eauto.
  - right. intros n Hn. apply HI in Hn. destruct Hn as [<-|[]]. reflexivity.
Qed.
Lemma parse_set_total x : (exists o, parse_set nm set_order es cn ts x = Ok o) <-> usual_set nm es x.
Proof.
  split.
  - intros [o E]. unfold parse_set in E. cbv zeta in E. apply rbind_Ok in E as (number & Enu & E). apply rbind_Ok in E as (mu & Emu & E). apply rbind_Ok in E as (mu' & Emu' & E). apply rbind_Ok in E as (c1 & Ec1 & E). apply rbind_Ok in E as (c2 & Ec2 & E). apply rbind_Ok in E as (cl & Ecl & E).
    apply getn_iff in Enu; try asc. apply getd_iff in Ec1, Ec2; try asc. destruct c1 as [c1| | | | |], c2 as [c2| | | | |]; try discriminate. injection Ecl as <-. exists c1, c2. split; [exact Ec1|]. split; [exact Ec2|].
    destruct (eqbP (lenN (c1 ++ c2)) 0) as [E0|E0]; [left; apply lenN_0; exact E0|]. right. apply rbind_Ok in E as (tl & Etl & E). apply getn_iff in Etl; [|asc].
    destruct (is_none tl) eqn:Entl; [apply is_none_iff in Entl; subst tl; left; exact Etl|]. right.
    apply rbind_Ok in E as (info & Einfo & E). apply rbind_Ok in E as (name & Ename & E). apply getn_iff in Einfo; [|asc]. exists name. split; [exact (set_name_ok x info name Einfo Ename)|].
    destruct (is_none number || is_none name) eqn:Enn; [apply Bool.orb_true_iff in Enn as [Hn|Hn]; apply is_none_iff in Hn; subst; auto|]. right. right.
    apply rbind_Ok in E as (chars & Ech & E). apply rbind_Ok in E as (tll & Etll & E). apply rbind_Ok in E as (paths & Ep & E). apply rbind_Ok in E as (il & Eil & E). apply rbind_Ok in E as (ill & Eill & E). apply rbind_Ok in E as (items & Eit & E). apply rbind_Ok in E as (aug & Eaug & E). apply rbind_Ok in E as (oth & Eoth & _).
    apply py_iter_iff in Etll, Eill. apply getd_iff in Eil; [|asc]. split; [|split].
    + intros v y Hv Hy. destruct (collect_done _ (at_key (character_list nm) es) _ _ _ v y (fun v a => hget_path _ _ es v a list_type) Ech Hv Hy) as [b Eb].
      unfold set_characters in Eb. apply rbind_Ok in Eb as (r & Er & Eb). apply rbind_Ok in Eb as (vs & Ev & _). apply getn_iff in Er; [|asc]. apply py_iter_iff in Ev. eauto.
    + exists tl, tll. split; [exact Etl|]. split; [exact Etll|]. intros v y Hv Hy. destruct (collect_done _ (at_key (kind "TftTraitList") es) _ _ _ v y (fun v a => kind_path "TftTraitList" v a eq_refl) Ep Hv Hy) as [b Eb].
      unfold set_trait_paths in Eb. apply rbind_Ok in Eb as (r & Er & Eb). apply getn_iff in Er; [|asc]. apply py_iter_iff in Eb. eauto.
    + exists ill. split; [exists il; auto|]. split.
      * intros v y Hv Hy. destruct (collect_done _ (at_key (kind "TFTItemList") es) _ _ _ v y (fun v a => kind_path "TFTItemList" v a eq_refl) Eit Hv Hy) as [b Eb].
        unfold set_item_names in Eb. apply rbind_Ok in Eb as (r & Er & Eb). apply rbind_Ok in Eb as (vs & Ev & _). apply getd_iff in Er; [|asc]. apply py_iter_iff in Ev. exists vs. exists r. auto.
      * intros [|]; [destruct (sorted_kinds _ _ Eaug) as [H|H] | destruct (sorted_kinds _ _ Eoth) as [H|H]]; [left | right | left | right]; intros n Hn; apply (items_In ill items _ n Eit) in Hn; apply H; apply in_map_iff; eexists; (split; [|apply filter_In; split; [exact Hn|]]); reflexivity.
  - intros (c1 & c2 & H1 & H2 & H). unfold parse_set. cbv zeta.
    destruct (getd_total "number" (be_fields x) RNone eq_refl) as [number Enu]. unfold getn at 1. rewrite Enu. cbn [rbind].
    destruct (getd_total "Mutator" (be_fields x) RNone eq_refl) as [mu Emu]. unfold getn at 1. rewrite Emu. cbn [rbind].
    destruct (getd_total "name" (be_fields x) RNone eq_refl) as [na Ena].
    assert (Em : exists m, (if is_none mu then getn (be_fields x) (fld "name") else Ok mu) = Ok m) by (unfold getn; rewrite Ena; destruct (is_none mu); eauto). destruct Em as [m ->]. cbn [rbind].
    apply getd_iff in H1, H2; try asc. rewrite H1. cbn [rbind]. rewrite H2. cbn [rbind py_concat].
    destruct (eqbP (lenN (c1 ++ c2)) 0) as [|E0]; [eauto|]. destruct H as [H|H]; [exfalso; apply E0; rewrite H; reflexivity|].
    destruct H as [Ht|(n & Hn & H)]; [apply getn_iff in Ht; [|asc]; rewrite Ht; cbn [rbind is_none]; eauto|]. destruct (set_name_total x n Hn) as (info & Ein & Ena').
    destruct (getd_total "TraitLists" (be_fields x) RNone eq_refl) as [tr Etr]. unfold getn at 1. rewrite Etr. cbn [rbind].
    destruct (is_none tr); [eauto|]. rewrite Ein. cbn [rbind]. rewrite Ena'. cbn [rbind]. destruct (is_none number || is_none n) eqn:Enn; [eauto|]. apply Bool.orb_false_iff in Enn as [Hnn1 Hnn2].
    destruct H as [->|[H|H]]; [discriminate Hnn2 | apply getn_iff in H; [|asc]; unfold getn in H; rewrite Enu in H; injection H as ->; discriminate Hnn1|].
    destruct H as (Hc & (tr' & tl & Ht & Htl & Hts) & (il & (ir & Hir & Hil) & Hi & Hk)). apply getn_iff in Ht; [|asc]. unfold getn in Ht. rewrite Etr in Ht. injection Ht as <-.
    destruct (collect_total (by_path (filter (fun y => of_type nm (lit "MapCharacterList") y || of_type nm (lit "TftCharacterList") y) es)) (at_key (character_list nm) es) (set_characters cn) (c1 ++ c2) (fun _ => True)) as (chars & -> & _).
    { intros v a. apply hget_path. exact list_type. }
    { intros v y Hv Hy. destruct (Hc v y Hv Hy) as (r & vs & Hr & Hvs). unfold set_characters. apply getn_iff in Hr; [|asc]. apply py_iter_iff in Hvs. rewrite Hr. cbn [rbind]. rewrite Hvs. cbn [rbind]. eexists. split; [reflexivity | apply Forall_forall; auto]. }
    cbn [rbind]. apply py_iter_iff in Htl. rewrite Htl. cbn [rbind].
    destruct (collect_total (by_path (filter (of_type nm (lit "TftTraitList")) es)) (at_key (kind "TftTraitList") es) set_trait_paths tl (fun _ => True)) as (paths & -> & _).
    { intros v a. apply (kind_path "TftTraitList"). asc. }
    { intros v y Hv Hy. destruct (Hts v y Hv Hy) as (r & vs & Hr & Hvs). unfold set_trait_paths. apply getn_iff in Hr; [|asc]. apply py_iter_iff in Hvs. rewrite Hr. cbn [rbind]. exists vs. split; [exact Hvs | apply Forall_forall; auto]. }
    cbn [rbind]. apply getd_iff in Hir; [|asc]. rewrite Hir. cbn [rbind]. apply py_iter_iff in Hil. rewrite Hil. cbn [rbind].
    destruct (collect_total (by_path (filter (of_type nm (lit "TFTItemList")) es)) (at_key (kind "TFTItemList") es) (set_item_names (by_path (filter (of_type nm (lit "TftItemData")) es))) il (fun _ => True)) as (items & Eit & _).
    { intros v a. apply (kind_path "TFTItemList"). asc. }
    { intros v y Hv Hy. destruct (Hi v y Hv Hy) as (vs & Hvs). pose proof Hvs as (r & Hr & Hel). unfold set_item_names. apply getd_iff in Hr; [|asc]. apply py_iter_iff in Hel. rewrite Hr. cbn [rbind]. rewrite Hel. cbn [rbind].
      apply (collect_total _ (at_key (kind "TftItemData") es)); [intros w a; apply (kind_path "TftItemData"); asc|]. intros w i Hin Hat. unfold set_item_name.
      destruct (getd_total "IsAugment" (be_fields i) RNone eq_refl) as [a Ea]. unfold getn at 1. rewrite Ea. cbn [rbind]. destruct (getd_total "mName" (be_fields i) RNone eq_refl) as [nn En]. unfold getn at 1. rewrite En. cbn [rbind].
      apply getd_iff in Ea, En; try asc.
      assert (HL : listed_item nm es il (py_true a) nn).
      { exists v, y, vs, w, i, a. repeat (split; [assumption|]). split; [|exact En]. rewrite <- (py_true_iff a); [tauto | apply (field_proper _ _ _ _ Ea proper_none)]. }
      assert (exists q, opt_name nn = Ok q) as [q ->]; [|cbn [rbind]; eexists; split; [reflexivity | apply Forall_forall; auto]].
      destruct (Hk (py_true a)) as [K|K]; [destruct (K nn HL) as [s ->] | rewrite (K nn HL)]; cbn; eauto. }
    rewrite Eit. cbn [rbind].
    assert (HS : forall b p, (forall y, p y = true <-> fst y = b) -> exists r, sorted_names (map snd (filter p items)) = Ok r).
    { intros b p Hp. apply sorted_names_total.
      assert (HL : forall n, In n (map snd (filter p items)) -> listed_item nm es il b n).
      { intros n' Hn'. apply in_map_iff in Hn' as ([b' n''] & <- & Hy). apply filter_In in Hy as [Hy Hb]. apply Hp in Hb. cbn [fst snd] in *. subst b'. apply (items_In il items b n'' Eit). exact Hy. }
      destruct (Hk b) as [K|K]; [left | right]; apply Forall_forall; intros n' Hn'; [apply K; auto | symmetry; apply K; auto]. }
    destruct (HS true fst) as [a ->]; [intros y; tauto|]. cbn [rbind]. destruct (HS false (fun y => negb (fst y))) as [o ->]; [intros [[|] ?]; cbn; split; congruence|]. cbn [rbind]. eauto.
Qed.
Lemma parse_sets_total : (exists sets, parse_sets nm set_order es cn ts = Ok (Some sets)) <-> (exists x, In x es /\ kind "TFTSetData" x) /\ forall x, In x es -> kind "TFTSetData" x -> usual_set nm es x.
Proof.
  unfold parse_sets. split.
  - intros [sets E]. destruct (filter (of_type nm (lit "TFTSetData")) es) as [|y l] eqn:Ef.
    { apply rbind_Ok in E as (u & _ & E). apply rbind_Ok in E as (u' & _ & E). discriminate. }
    apply rmap_Ok in E as (sets' & E & _). rewrite <- Ef in E. split.
    + exists y. assert (Hy : In y (filter (of_type nm (lit "TFTSetData")) es)) by (rewrite Ef; left; reflexivity). apply filter_In in Hy as [Hy Ky]. split; [exact Hy | apply (of_type_iff nm "TFTSetData" y eq_refl); exact Ky].
    + intros x Hx Hk. apply parse_set_total. apply (list_loop_all _ _ _ E x). apply filter_In. split; [exact Hx | apply (of_type_iff nm "TFTSetData" x eq_refl); exact Hk].
  - intros [(x & Hx & Hk) H].
    destruct (list_loop_total (parse_set nm set_order es cn ts) (filter (of_type nm (lit "TFTSetData")) es)) as [sets E].
    { intros y Hy. apply filter_In in Hy as [Hy Ky]. apply parse_set_total. apply H; [exact Hy | apply (of_type_iff nm "TFTSetData" y eq_refl); exact Ky]. }
    assert (Hin : In x (filter (of_type nm (lit "TFTSetData")) es)) by (apply filter_In; split; [exact Hx | apply (of_type_iff nm "TFTSetData" x eq_refl); exact Hk]).
    destruct (filter (of_type nm (lit "TFTSetData")) es) as [|y l]; [destruct Hin|]. rewrite E. exists sets. reflexivity.
Qed.
End Sets.
