(** * Proofs on the TFT data *)

From Verif Require Import Base.Py Base.PyFacts Base.Text Base.TextFacts Base.FsThreads Spec.DictSpec Spec.BinAccessSpec Spec.GameDataSpec Spec.TftSpec Model.Tft.
From Verif Require Import Proofs.DictProofs Proofs.BinAccessProofs Proofs.GameDataProofs.
From Coq Require Import ZArith Lia.

Ltac asc := reflexivity.

Lemma last_entry_picks (P : bentry -> Prop) es sel h x : picks P es sel -> (last_entry (fun _ => True) sel h x <-> last_entry P es h x).
Proof.
  intros H. split.
  - intros (pre & post & E & Eh & _ & Hn). revert pre E. induction H as [|y l r Hy H IH|y l r Hy H IH]; intros pre E.
    + destruct pre; discriminate.
    + destruct pre as [|z pre]; cbn [app] in E; injection E as E1 E2.
      * subst y. exists [], l. split; [reflexivity|]. split; [exact Eh|]. split; [exact Hy|]. intros y Hy' Hh HP. apply (Hn y); [|exact Hh | exact I]. rewrite <- E2. apply (picks_In P l r y H). auto.
      * destruct (IH pre E2) as (e1 & e2 & -> & G). exists (y :: e1), e2. split; [reflexivity | exact G].
    + destruct (IH pre E) as (e1 & e2 & -> & G). exists (y :: e1), e2. split; [reflexivity | exact G].
  - intros (pre & post & E & Eh & HP & Hn). revert pre E. induction H as [|y l r Hy H IH|y l r Hy H IH]; intros pre E.
    + destruct pre; discriminate.
    + destruct pre as [|z pre]; cbn [app] in E; injection E as E1 E2.
      * subst y l. exists [], r. split; [reflexivity|]. split; [exact Eh|]. split; [exact I|]. intros y Hy' Hh _. apply (picks_In P post r y H) in Hy' as [H1 H2]. exact (Hn y H1 Hh H2).
      * destruct (IH pre E2) as (e1 & e2 & -> & G). exists (y :: e1), e2. split; [reflexivity | exact G].
    + destruct pre as [|z pre]; cbn [app] in E; injection E as E1 E2; [subst y; contradiction|]. exact (IH pre E2).
Qed.
(** Data computed for each entry, in a dictionary indexed by paths. *)
Lemma dget_parallel {A} (Q : bentry -> A -> Prop) sel (kvs : list (N * A)) h : Forall2 (fun x kv => fst kv = be_path x /\ Q x (snd kv)) sel kvs ->
  (forall a, dget h (dict_of kvs) = Some a -> exists x, last_entry (fun _ => True) sel h x /\ Q x a) /\
  (forall x, last_entry (fun _ => True) sel h x -> exists a, dget h (dict_of kvs) = Some a /\ Q x a).
Proof.
  intros F. pose proof (dict_of_last h kvs) as H. split.
  - intros a E. rewrite E in H. inversion H as [|pre v post Hp E1 E2]; subst. apply Forall2_app_inv_r in F as (s1 & s2 & F1 & F2 & ->). inversion F2 as [|x y s2' l' [Ek HQ] F3]; subst. cbn [fst snd] in *. exists x. split; [|exact HQ].
    exists s1, s2'. split; [reflexivity|]. split; [congruence|]. split; [exact I|]. intros y Hy Eh _. apply In_nth_error in Hy as [n Hn]. revert n Hn. clear -F3 Hp Eh. induction F3 as [|x0 kv s l [Ek _] F3 IH]; intros [|n] Hn; cbn [nth_error] in Hn; try discriminate.
    + injection Hn as ->. destruct kv as [k v]. cbn [fst] in Ek. apply (Hp v). left. congruence.
    + apply (IH (fun w Hw => Hp w (or_intror Hw)) n Hn).
  - intros x (pre & post & -> & Eh & _ & Hn). apply Forall2_app_inv_l in F as (k1 & k2 & F1 & F2 & ->). inversion F2 as [|? kv ? k2' [Ek HQ] F3]; subst. destruct kv as [k a]. cbn [fst snd] in *. subst k. exists a. split; [|exact HQ].
    eapply (last_value_fun (be_path x)); [exact H|]. apply LV_some. intros w Hw. clear -F3 Hw Hn. induction F3 as [|y kv s l [Ek _] F3 IH]; [destruct Hw|]. destruct Hw as [->|Hw]; [exact (Hn y (or_introl eq_refl) (eq_sym Ek) I) | exact (IH (fun y Hy => Hn y (or_intror Hy)) Hw)].
Qed.
Lemma dict_from_of {K V} `{EqDec K} (l : list (K * V)) : dict_from l (dict_of l).
Proof. split; [apply dict_of_NoDup | intros k; apply dict_of_last]. Qed.

Lemma list_loop_picks {A B} (P : A -> Prop) (R : A -> B -> Prop) (f : A -> result (option B)) l r :
  (forall x o, In x l -> f x = Ok o -> match o with None => ~ P x | Some y => P x /\ R x y end) -> list_loop f l = Ok r -> exists sel, picks P l sel /\ Forall2 R sel r.
Proof.
  revert r. induction l as [|x l IH]; cbn [list_loop]; intros r H E.
  - injection E as <-. exists []. split; constructor.
  - apply rbind_Ok in E as (o & Eo & E). apply rbind_Ok in E as (r0 & Er & E). injection E as <-. pose proof (H x o (or_introl eq_refl) Eo) as Hx. destruct (IH r0 (fun y o Hy => H y o (or_intror Hy)) Er) as (sel & Hp & F).
    destruct o as [y|]; [destruct Hx as [Hx HR]; exists (x :: sel); split; constructor; assumption | exists sel; split; [constructor; assumption | exact F]].
Qed.
Lemma list_loop_total {A B} (f : A -> result (option B)) l : (forall x, In x l -> exists o, f x = Ok o) -> exists r, list_loop f l = Ok r.
Proof.
  induction l as [|x l IH]; cbn [list_loop]; intros H; [eauto|]. destruct (H x (or_introl eq_refl)) as [o ->]. destruct (IH (fun y Hy => H y (or_intror Hy))) as [r ->]. cbn [rbind]. eauto.
Qed.
Lemma picks_through {A} (P : A -> Prop) (p : A -> bool) l sel : (forall x, P x -> p x = true) -> (picks P (filter p l) sel <-> picks P l sel).
Proof.
  intros H. revert sel. induction l as [|x l IH]; intros sel; cbn [filter]; [tauto|]. destruct (p x) eqn:E.
  - split; intros Hp; inversion Hp; subst; constructor; try assumption; apply IH; assumption.
  - rewrite IH. split; intros Hp; [constructor; [intros HP; apply H in HP; congruence | exact Hp]|]. inversion Hp; subst; [apply H in H2; congruence | assumption].
Qed.
Lemma Forall2_map_r {A B C} (R : A -> C -> Prop) (g : B -> C) l l' : Forall2 R l (map g l') <-> Forall2 (fun x y => R x (g y)) l l'.
Proof.
  split.
  - revert l. induction l' as [|y l' IH]; intros l F; inversion F; subst; constructor; auto.
  - induction 1; cbn [map]; constructor; auto.
Qed.
Lemma Forall2_trans {A B C} (R : A -> B -> Prop) (S : B -> C -> Prop) (T : A -> C -> Prop) l m n : (forall a b c, R a b -> S b c -> T a c) -> Forall2 R l m -> Forall2 S m n -> Forall2 T l n.
Proof. intros H F. revert n. induction F as [|a b l m HR F IH]; intros n G; inversion G; subst; constructor; eauto. Qed.
Lemma Forall2_total {A B} (R : A -> B -> Prop) l : (forall x, In x l -> exists y, R x y) -> exists l', Forall2 R l l'.
Proof. induction l as [|x l IH]; intros H; [exists []; constructor|]. destruct (H x (or_introl eq_refl)) as [y Hy]. destruct (IH (fun z Hz => H z (or_intror Hz))) as [l' F]. exists (y :: l'). constructor; assumption. Qed.
Lemma Forall2_in_l {A B} (R : A -> B -> Prop) l l' x : Forall2 R l l' -> In x l -> exists y, In y l' /\ R x y.
Proof. intros F. induction F as [|a b l l' H F IH]; intros Hx; [destruct Hx|]. destruct Hx as [->|Hx]; [exists b; split; [left; reflexivity | exact H]|]. destruct (IH Hx) as (y & Hy & HR). exists y. split; [right; exact Hy | exact HR]. Qed.

Lemma field_list_fun s fs l l' : ascii s -> field_list s fs l -> field_list s fs l' -> l = l'.
Proof. intros Ha (r & Hf & He) (r' & Hf' & He'). rewrite (field_value_fun s _ _ _ _ Ha Hf' Hf) in He'. apply py_iter_iff in He, He'. congruence. Qed.
Arguments field_list_fun s%string_scope.

Section Tft.
Variable nm : names.
Variable repr : pyres -> str.
Notation text := (text_of nm repr).
Notation kind := (of_kind nm).

Lemma amount_iff v kv : (let! o := bobj v in let! n := getn o (fld "name") in let! w := getn o (fld "value") in Ok (py_str nm repr n, w)) = Ok kv <-> amount nm repr v kv.
Proof.
  split.
  - intros E. apply rbind_Ok in E as (o & Eo & E). apply rbind_Ok in E as (n & En & E). apply rbind_Ok in E as (w & Ew & E). injection E as <-. apply bobj_iff in Eo. apply getn_iff in En, Ew; try asc. exists o, n. split; [exact Eo|]. split; [exact En|]. cbn [fst snd]. split; [apply py_str_of; exact (field_proper _ _ _ _ En proper_none) | exact Ew].
  - intros (o & n & Eo & En & Ht & Ew). apply bobj_iff in Eo. apply getn_iff in En, Ew; try asc. rewrite Eo. cbn [rbind]. rewrite En. cbn [rbind]. rewrite Ew. cbn [rbind]. rewrite <- (text_of_fun _ _ _ _ Ht). destruct kv; reflexivity.
Qed.
Lemma constant_iff c kv : (let! o := bobj (snd c) in let! v := getn o (fld "mValue") in Ok (py_str nm repr (RVal (fst c)), v)) = Ok kv <-> constant nm repr c kv.
Proof.
  split.
  - intros E. apply rbind_Ok in E as (o & Eo & E). apply rbind_Ok in E as (w & Ew & E). injection E as <-. apply bobj_iff in Eo. apply getn_iff in Ew; try asc. exists o. cbn [fst snd]. split; [apply py_str_of, proper_val|]. split; [exact Eo | exact Ew].
  - intros (o & Ht & Eo & Ew). apply bobj_iff in Eo. apply getn_iff in Ew; try asc. rewrite Eo. cbn [rbind]. rewrite Ew. cbn [rbind]. rewrite <- (text_of_fun _ _ _ _ Ht). destruct kv; reflexivity.
Qed.
Lemma value_at_iff h fs d r : getd fs (KInt (Z.of_N h)) d = Ok r <-> value_at h fs d r.
Proof. apply getd_at. constructor. Qed.

Lemma collect_effects_ok fs d : collect_effects nm repr fs = Ok d -> effects_of nm repr fs d.
Proof.
  unfold collect_effects. destruct (contains_cases "effectAmounts" fs eq_refl) as [[-> Hp]|[-> Hm]]; cbn [rbind]; intros E.
  - apply rbind_Ok in E as (r & Er & E). apply rbind_Ok in E as (l & El & E). apply rmap_Ok in E as (kvs & Ek & ->). apply getn_iff in Er; [|asc]. apply present_value in Er; [|asc | exact Hp]. apply py_iter_iff in El. apply (rmapM_iff _ _ _ _ amount_iff) in Ek.
    eapply EF_amounts; [exact Er | exact El | exact Ek | apply dict_from_of].
  - destruct (contains_cases "constants" fs eq_refl) as [[Ec Hp]|[Ec Hm']]; rewrite Ec in E; cbn [rbind] in E.
    + apply rbind_Ok in E as (r & Er & E). apply rbind_Ok in E as (o & Eo & E). apply rbind_Ok in E as (c & Ed & E). apply getn_iff in Er; [|asc]. apply present_value in Er; [|asc | exact Hp]. apply obj_iff in Eo as (v & -> & Eo). apply (value_at_iff 3741866899) in Ed. destruct c as [|c| | | |]; try discriminate. apply rmap_Ok in E as (kvs & Ek & ->). apply (rmapM_iff _ _ _ _ constant_iff) in Ek.
      eapply EF_constants; [exact Hm | exact Er | exact Eo | exact Ed | exact Ek | apply dict_from_of].
    + injection E as <-. apply EF_none; assumption.
Qed.
Lemma collect_effects_complete fs d' : effects_of nm repr fs d' -> exists d, collect_effects nm repr fs = Ok d /\ effects_of nm repr fs d.
Proof.
  intros H. assert (G : exists d, collect_effects nm repr fs = Ok d); [|destruct G as [d G]; exists d; split; [exact G | apply collect_effects_ok; exact G]]. unfold collect_effects. inversion H as [r l kvs d0 Hp El Ek _ | v o c kvs d0 Hm Hp Eo Ec Ek _ | Hm Hm']; subst.
  - rewrite (proj2 (contains_true "effectAmounts" fs eq_refl) (ex_intro _ r Hp)). cbn [rbind]. rewrite (proj2 (getn_iff "effectAmounts" fs r eq_refl) (or_introl Hp)). cbn [rbind]. rewrite (proj2 (py_iter_iff r l) El). cbn [rbind]. apply (rmapM_iff _ _ _ _ amount_iff) in Ek. rewrite Ek. cbn [rmap]. eauto.
  - rewrite (proj2 (contains_false "effectAmounts" fs eq_refl) Hm). cbn [rbind]. rewrite (proj2 (contains_true "constants" fs eq_refl) (ex_intro _ _ Hp)). cbn [rbind]. rewrite (proj2 (getn_iff "constants" fs _ eq_refl) (or_introl Hp)). cbn [rbind obj]. rewrite (proj2 (bobj_iff v o) Eo). cbn [rbind]. apply (value_at_iff 3741866899) in Ec. change (KInt 0xdf085b93) with (KInt (Z.of_N 3741866899)). rewrite Ec. cbn [rbind]. apply (rmapM_iff _ _ _ _ constant_iff) in Ek. rewrite Ek. cbn [rmap]. eauto.
  - rewrite (proj2 (contains_false "effectAmounts" fs eq_refl) Hm). cbn [rbind]. rewrite (proj2 (contains_false "constants" fs eq_refl) Hm'). cbn [rbind]. eauto.
Qed.

(** ** Items *)

Definition raw_of (x : bentry) (r : raw_item) : Prop :=
  let fs := be_fields x in let '(path, i, (comp, assoc, incomp)) := r in
  path = be_path x /\ field_value "mName" fs RNone (ti_api i) /\ field_value "mId" fs RNone (ti_id i) /\ field_value "mDisplayNameTra" fs RNone (ti_name i) /\
  field_value "mDescriptionNameTra" fs RNone (ti_desc i) /\ (exists r, field_value "mIconPath" fs RNone r /\ text r (ti_icon i)) /\
  field_value "IsAugment" fs (RVal (VBool false)) (ti_augment i) /\ field_value "mIsUnique" fs (RVal (VBool false)) (ti_unique i) /\
  effects_of nm repr fs (ti_effects i) /\
  (exists l, field_list "ItemTags" fs l /\ Forall2 (fun v s => text (RVal v) s) l (ti_tags i)) /\
  (exists l, field_list "mComposition" fs l /\ Forall2 hash_value l comp) /\
  (exists l, field_list "AssociatedTraits" fs l /\ Forall2 hash_value l assoc) /\
  (exists l, field_list "IncompatibleTraits" fs l /\ Forall2 hash_value l incomp).
Lemma hashes_of_iff s fs l : ascii s -> (hashes_of fs (fld s) = Ok l <-> exists vs, field_list s fs vs /\ Forall2 hash_value vs l).
Proof.
  intros Ha. unfold hashes_of, field_list. split.
  - intros E. apply rbind_Ok in E as (r & Er & E). apply rbind_Ok in E as (vs & Ev & E). apply getd_iff in Er; [|exact Ha]. apply py_iter_iff in Ev. apply (rmapM_iff _ _ _ _ attr_h_iff) in E. exists vs. split; [exists r; auto | exact E].
  - intros (vs & (r & Er & Ev) & F). apply getd_iff in Er; [|exact Ha]. apply py_iter_iff in Ev. apply (rmapM_iff _ _ _ _ attr_h_iff) in F. rewrite Er. cbn [rbind]. rewrite Ev. exact F.
Qed.
Arguments hashes_of_iff s%string_scope.
Lemma name_str_iff r s : name_str r = Ok s <-> r = RVal (VStr s).
Proof. destruct r as [| | |v| |]; cbn [name_str]; try (split; discriminate). destruct v; try (split; discriminate). split; congruence. Qed.
Lemma parse_item_ok x r : kind "TftItemData" x -> parse_item nm repr x = Ok r ->
  match r with None => ~ item_entry nm x | Some raw => item_entry nm x /\ raw_of x raw end.
Proof.
  intros Hk E. unfold parse_item in E. apply rbind_Ok in E as (n & En & E). apply rbind_Ok in E as (s & Es & E). apply getn_iff in En; [|asc]. apply name_str_iff in Es. subst n.
  destruct (has_sub (lit "Template") s || eqb s (lit "TFT_Item_Null")) eqn:Eb.
  - injection E as <-. intros (_ & s' & Hs & Hp & Hz). pose proof (field_value_fun "mName" _ _ _ _ eq_refl En Hs) as E'. injection E' as <-. apply Bool.orb_true_iff in Eb as [Eb|Eb]; [apply has_sub_iff in Eb; contradiction|]. destruct (eqbP s (lit "TFT_Item_Null")); [contradiction | discriminate].
  - apply Bool.orb_false_iff in Eb as [Eb1 Eb2].
    apply rbind_Ok in E as (id & Ei & E). apply rbind_Ok in E as (name & Ename & E). apply rbind_Ok in E as (desc & Ed & E). apply rbind_Ok in E as (icon & Eic & E).
    apply rbind_Ok in E as (aug & Ea & E). apply rbind_Ok in E as (uniq & Eu & E). apply rbind_Ok in E as (comp & Ec & E). apply rbind_Ok in E as (assoc & Eas & E). apply rbind_Ok in E as (incomp & Ein & E).
    apply rbind_Ok in E as (eff & Ee & E). apply rbind_Ok in E as (tags & Et & E). apply rbind_Ok in E as (tl & Etl & E). injection E as <-.
    apply getn_iff in Ei, Ename, Ed, Eic; try asc. apply getd_iff in Ea, Eu, Et; try asc. apply hashes_of_iff in Ec, Eas, Ein; try asc. apply collect_effects_ok in Ee. apply py_iter_iff in Etl. split.
    + split; [exact Hk|]. exists s. split; [exact En|]. split; [intros Hp; apply has_sub_iff in Hp; congruence|]. intros ->. destruct (eqbP (lit "TFT_Item_Null") (lit "TFT_Item_Null")); [discriminate | congruence].
    + cbn [raw_of ti_api ti_id ti_name ti_desc ti_icon ti_augment ti_unique ti_effects ti_tags]. split; [reflexivity|]. split; [exact En|]. split; [exact Ei|]. split; [exact Ename|]. split; [exact Ed|]. split; [exists icon; split; [exact Eic | apply py_str_of; exact (field_proper _ _ _ _ Eic proper_none)]|].
      split; [exact Ea|]. split; [exact Eu|]. split; [exact Ee|]. split; [|auto]. exists tl. split; [exists tags; auto|]. clear. induction tl as [|v tl IH]; cbn [map]; constructor; [apply py_str_of, proper_val | exact IH].
Qed.
Lemma parse_item_complete x s : field_value "mName" (be_fields x) RNone (RVal (VStr s)) -> (item_entry nm x -> exists raw, raw_of x raw) -> kind "TftItemData" x -> exists r, parse_item nm repr x = Ok r.
Proof.
  intros Hn Hr Hk. unfold parse_item. pose proof (proj2 (getn_iff "mName" (be_fields x) _ eq_refl) Hn) as En. rewrite En. cbn [rbind name_str].
  destruct (has_sub (lit "Template") s || eqb s (lit "TFT_Item_Null")) eqn:Eb; [eauto|]. apply Bool.orb_false_iff in Eb as [Eb1 Eb2].
  destruct Hr as [[[p i] [[comp assoc] incomp]] Hr].
  { split; [exact Hk|]. exists s. split; [exact Hn|]. split; [intros Hp; apply has_sub_iff in Hp; congruence|]. intros ->. destruct (eqbP (lit "TFT_Item_Null") (lit "TFT_Item_Null")); [discriminate | congruence]. }
  cbn [raw_of] in Hr. destruct Hr as (_ & _ & Hi & Hname & Hd & (icon & Hic & _) & Ha & Hu & He & (tl & (tags & Htg & Htl) & _) & Hc & Has & Hin).
  apply getn_iff in Hi, Hname, Hd, Hic; try asc. apply getd_iff in Ha, Hu, Htg; try asc. apply (hashes_of_iff "mComposition") in Hc; [|asc]. apply (hashes_of_iff "AssociatedTraits") in Has; [|asc]. apply (hashes_of_iff "IncompatibleTraits") in Hin; [|asc]. apply collect_effects_complete in He as (eff & He & _). apply py_iter_iff in Htl.
  rewrite Hi. cbn [rbind]. rewrite Hname. cbn [rbind]. rewrite Hd. cbn [rbind]. rewrite Hic. cbn [rbind]. rewrite Ha. cbn [rbind]. rewrite Hu. cbn [rbind]. rewrite Hc. cbn [rbind]. rewrite Has. cbn [rbind]. rewrite Hin. cbn [rbind]. rewrite He. cbn [rbind]. rewrite Htg. cbn [rbind]. rewrite Htl. cbn [rbind]. eauto.
Qed.

Lemma trait_names_ok es d : rmap dict_of (rmapM (fun x => let! n := getn (be_fields x) (fld "mName") in Ok (be_path x, n)) (filter (of_type nm (lit "TftTraitData")) es)) = Ok d ->
  (forall h n, dget h d = Some n <-> exists x, last_entry (kind "TftTraitData") es h x /\ field_value "mName" (be_fields x) RNone n).
Proof.
  intros E h n. apply rmap_Ok in E as (kvs & Ek & ->). apply rmapM_Ok in Ek.
  assert (F : Forall2 (fun x kv => fst kv = be_path x /\ field_value "mName" (be_fields x) RNone (snd kv)) (filter (of_type nm (lit "TftTraitData")) es) kvs).
  { eapply Forall2_weak; [|exact Ek]. intros x kv E. cbv beta in E. apply rbind_Ok in E as (m & Em & E). injection E as <-. split; [reflexivity | apply getn_iff in Em; [exact Em | asc]]. }
  destruct (dget_parallel (fun x n => field_value "mName" (be_fields x) RNone n) _ _ h F) as [H1 H2]. pose proof (fun x => last_entry_filter (kind "TftTraitData") _ es h x (fun y => of_type_iff nm "TftTraitData" y eq_refl)) as HL. split.
  - intros E. destruct (H1 n E) as (x & Hx & Hn). exists x. split; [apply HL; exact Hx | exact Hn].
  - intros (x & Hx & Hn). apply HL in Hx. destruct (H2 x Hx) as (a & Ea & Ha). rewrite Ea. f_equal. exact (field_value_fun "mName" _ _ _ _ eq_refl Ha Hn).
Qed.
Lemma trait_names_total es : exists d, rmap dict_of (rmapM (fun x => let! n := getn (be_fields x) (fld "mName") in Ok (be_path x, n)) (filter (of_type nm (lit "TftTraitData")) es)) = Ok d.
Proof.
  destruct (Forall2_total (fun x kv => (let! n := getn (be_fields x) (fld "mName") in Ok (be_path x, n)) = Ok kv) (filter (of_type nm (lit "TftTraitData")) es)) as [kvs F].
  - intros x _. destruct (getd_total "mName" (be_fields x) RNone eq_refl) as [n En]. exists (be_path x, n). unfold getn. rewrite En. reflexivity.
  - exists (dict_of kvs). apply rmapM_Ok in F. rewrite F. reflexivity.
Qed.

Lemma linked_of (get : N -> result pyres) (P : bentry -> Prop) es k vs hs ns : (forall h n, get h = Ok n <-> exists x, last_entry P es h x /\ field_value k (be_fields x) RNone n) ->
  Forall2 hash_value vs hs -> (rmapM get hs = Ok ns <-> Forall2 (linked P es k) vs ns).
Proof.
  intros H F. rewrite rmapM_Ok. revert ns. induction F as [|v h vs hs Hv F IH]; intros ns.
  - split; intros G; inversion G; constructor.
  - split; intros G; inversion G as [|? n ? ns' Hn G']; subst; constructor; try (apply IH; assumption).
    + exists h. apply H in Hn as (x & Hx & Hn). exists x. auto.
    + destruct Hn as (h' & x & Hv' & Hx & Hn). apply H. exists x. split; [|exact Hn]. apply attr_h_iff in Hv, Hv'. congruence.
Qed.
Arguments linked_of get P es k%string_scope vs hs ns _ _.
Lemma linked_hashes P es k vs ns : Forall2 (linked P es k) vs ns -> exists hs, Forall2 hash_value vs hs.
Proof. intros F. apply Forall2_total. intros v Hv. destruct (Forall2_in_l _ _ _ _ F Hv) as (n & _ & h & x & H & _). eauto. Qed.

Lemma items_dict es sel raw : picks (item_entry nm) es sel -> Forall2 raw_of sel raw ->
  let d := dict_of (map (fun r : raw_item => (fst (fst r), snd (fst r))) raw) in
  (forall h n, rmap ti_api (of_opt KeyError (dget h d)) = Ok n <-> exists x, last_entry (item_entry nm) es h x /\ field_value "mName" (be_fields x) RNone n) /\
  (forall h n, rmap ti_id (of_opt KeyError (dget h d)) = Ok n <-> exists x, last_entry (item_entry nm) es h x /\ field_value "mId" (be_fields x) RNone n).
Proof.
  intros Hp F d.
  assert (F' : Forall2 (fun x kv => fst kv = be_path x /\ field_value "mName" (be_fields x) RNone (ti_api (snd kv)) /\ field_value "mId" (be_fields x) RNone (ti_id (snd kv))) sel (map (fun r : raw_item => (fst (fst r), snd (fst r))) raw)).
  { apply Forall2_map_r. eapply Forall2_weak; [|exact F]. intros x [[p i] [[c a] n]] H. cbn [raw_of] in H. cbn [fst snd]. tauto. }
  split; intros h n; destruct (dget_parallel (fun x i => field_value "mName" (be_fields x) RNone (ti_api i) /\ field_value "mId" (be_fields x) RNone (ti_id i)) _ _ h F') as [H1 H2]; fold d in H1, H2; split.
  - intros E. apply rmap_Ok in E as (i & Ei & ->). destruct (dget h d) as [j|]; [|discriminate]. injection Ei as ->. destruct (H1 i eq_refl) as (x & Hx & Hn & _). exists x. split; [apply (last_entry_picks _ _ _ _ _ Hp); exact Hx | exact Hn].
  - intros (x & Hx & Hn). apply (last_entry_picks _ _ _ _ _ Hp) in Hx. destruct (H2 x Hx) as (i & -> & Hi & _). cbn [of_opt rmap]. f_equal. exact (field_value_fun "mName" _ _ _ _ eq_refl Hi Hn).
  - intros E. apply rmap_Ok in E as (i & Ei & ->). destruct (dget h d) as [j|]; [|discriminate]. injection Ei as ->. destruct (H1 i eq_refl) as (x & Hx & _ & Hn). exists x. split; [apply (last_entry_picks _ _ _ _ _ Hp); exact Hx | exact Hn].
  - intros (x & Hx & Hn). apply (last_entry_picks _ _ _ _ _ Hp) in Hx. destruct (H2 x Hx) as (i & -> & _ & Hi). cbn [of_opt rmap]. f_equal. exact (field_value_fun "mId" _ _ _ _ eq_refl Hi Hn).
Qed.

Definition named_items (es : list bentry) : Prop := forall x, In x es -> kind "TftItemData" x -> exists s, field_value "mName" (be_fields x) RNone (RVal (VStr s)).

Lemma item_kind x : item_entry nm x -> of_type nm (lit "TftItemData") x = true.
Proof. intros [H _]. apply (of_type_iff nm "TftItemData" x eq_refl). exact H. Qed.
Lemma loop_items es raw : list_loop (parse_item nm repr) (filter (of_type nm (lit "TftItemData")) es) = Ok raw -> exists sel, picks (item_entry nm) es sel /\ Forall2 raw_of sel raw.
Proof.
  intros E. destruct (list_loop_picks (item_entry nm) raw_of _ _ _ (fun x o Hx E => parse_item_ok x o (proj1 (of_type_iff nm "TftItemData" x eq_refl) (proj2 (proj1 (filter_In _ _ _) Hx))) E) E) as (sel & Hp & F).
  exists sel. split; [|exact F]. exact (proj1 (picks_through _ _ _ _ item_kind) Hp).
Qed.
Lemma loop_names es raw : list_loop (parse_item nm repr) (filter (of_type nm (lit "TftItemData")) es) = Ok raw -> named_items es.
Proof.
  intros E x Hx Hk. assert (Hi : In x (filter (of_type nm (lit "TftItemData")) es)) by (apply filter_In; split; [exact Hx | apply (of_type_iff nm "TftItemData" x eq_refl); exact Hk]).
  revert raw E Hi. generalize (filter (of_type nm (lit "TftItemData")) es). intros l. induction l as [|y l IH]; intros raw E Hi; [destruct Hi|]. cbn [list_loop] in E. apply rbind_Ok in E as (o & Eo & E). apply rbind_Ok in E as (r & Er & _). destruct Hi as [->|Hi]; [|exact (IH r Er Hi)].
  unfold parse_item in Eo. apply rbind_Ok in Eo as (n & En & Eo). apply rbind_Ok in Eo as (s & Es & _). apply name_str_iff in Es. subst n. exists s. apply getn_iff in En; [exact En | asc].
Qed.

Lemma parse_items_ok es items : parse_items nm repr es = Ok items -> named_items es /\ exists sel, picks (item_entry nm) es sel /\ Forall2 (item_of nm repr es) sel items.
Proof.
  intros E. unfold parse_items in E. apply rbind_Ok in E as (td & Et & E). apply rbind_Ok in E as (raw & Er & E). cbv zeta in E. split; [exact (loop_names es raw Er)|]. destruct (loop_items es raw Er) as (sel & Hp & F). exists sel. split; [exact Hp|].
  destruct (items_dict es sel raw Hp F) as [HA HI]. pose proof (trait_names_ok es td Et) as HT. apply rmapM_Ok in E. eapply Forall2_trans; [|exact F | exact E]. clear Er F E.
  intros x [[p i] [[comp assoc] incomp]] j Hr El. cbn [raw_of] in Hr. destruct Hr as (_ & Hn & Hi & Hname & Hd & Hic & Ha & Hu & He & Htg & (lc & Hlc & Fc) & (la & Hla & Fa) & (li & Hli & Fi)).
  cbn [link_item] in El. apply rbind_Ok in El as (from & Ef & El). apply rbind_Ok in El as (comp' & Ec & El). apply rbind_Ok in El as (incomp' & Ein & El). apply rbind_Ok in El as (assoc' & Eas & El). injection El as <-.
  assert (HT' : forall h n, of_opt KeyError (dget h td) = Ok n <-> exists x, last_entry (kind "TftTraitData") es h x /\ field_value "mName" (be_fields x) RNone n).
  { intros h n. rewrite <- HT. destruct (dget h td); cbn [of_opt]; split; congruence. }
  unfold item_of. cbn [ti_api ti_id ti_name ti_desc ti_icon ti_augment ti_unique ti_effects ti_tags ti_associated ti_incompatible ti_composition ti_from]. split; [exact Hn|]. split; [exact Hi|]. split; [exact Hname|]. split; [exact Hd|]. split; [exact Hic|]. split; [exact Ha|]. split; [exact Hu|]. split; [exact He|]. split; [exact Htg|].
  split; [exists la; split; [exact Hla | apply (linked_of _ _ es "mName" _ _ _ HT' Fa); exact Eas]|]. split; [exists li; split; [exact Hli | apply (linked_of _ _ es "mName" _ _ _ HT' Fi); exact Ein]|].
  exists lc. split; [exact Hlc|]. split; [apply (linked_of _ _ es "mName" _ _ _ HA Fc); exact Ec|].
  destruct (is_none (ti_id i)) eqn:En; [injection Ef as <-; apply is_none_iff; exact En|]. apply rmap_Ok in Ef as (from' & Ef & ->). split; [apply is_none_false; exact En | apply (linked_of _ _ es "mId" _ _ _ HI Fc); exact Ef].
Qed.
Lemma parse_items_complete es sel items : named_items es -> picks (item_entry nm) es sel -> Forall2 (item_of nm repr es) sel items -> exists items', parse_items nm repr es = Ok items'.
Proof.
  intros HN Hp F. unfold parse_items. destruct (trait_names_total es) as [td Et]. rewrite Et. cbn [rbind].
  assert (HR : forall x, In x es -> item_entry nm x -> exists raw, raw_of x raw).
  { intros x Hx HI. assert (Hs : In x sel) by (apply (picks_In _ _ _ x Hp); auto). destruct (Forall2_in_l _ _ _ _ F Hs) as (i & _ & Hi). destruct Hi as (H1 & H2 & H3 & H4 & H5 & H6 & H7 & H8 & H9 & (la & Hla & Fa) & (li & Hli & Fi) & (lc & Hlc & Fc & _)).
    apply linked_hashes in Fa as [ha Fa]. apply linked_hashes in Fi as [hi Fi]. apply linked_hashes in Fc as [hc Fc]. exists (be_path x, i, (hc, ha, hi)). cbn [raw_of]. repeat (split; [first [exact H1|exact H2|exact H3|exact H4|exact H5|exact H6|exact H7|exact H8|exact H9|reflexivity]|]). split; [exists lc; auto|]. split; [exists la; auto | exists li; auto]. }
  destruct (list_loop_total (parse_item nm repr) (filter (of_type nm (lit "TftItemData")) es)) as [raw Er].
  { intros x Hx. apply filter_In in Hx as [Hx Hk]. apply (of_type_iff nm "TftItemData" x eq_refl) in Hk. destruct (HN x Hx Hk) as [s Hs]. exact (parse_item_complete x s Hs (HR x Hx) Hk). }
  rewrite Er. cbn [rbind]. destruct (loop_items es raw Er) as (sel' & Hp' & F'). rewrite <- (picks_fun _ _ _ _ Hp Hp') in F'. clear Hp' sel'.
  destruct (items_dict es sel raw Hp F') as [HA HI]. pose proof (trait_names_ok es td Et) as HT.
  assert (HT' : forall h n, of_opt KeyError (dget h td) = Ok n <-> exists x, last_entry (kind "TftTraitData") es h x /\ field_value "mName" (be_fields x) RNone n).
  { intros h n. rewrite <- HT. destruct (dget h td); cbn [of_opt]; split; congruence. }
  set (d := dict_of (map (fun r : raw_item => (fst (fst r), snd (fst r))) raw)) in *.
  assert (G : exists items', Forall2 (fun r i => link_item d td r = Ok i) raw items'); [|destruct G as [items' G]; exists items'; apply rmapM_Ok; exact G].
  clearbody d. clear -F F' HA HI HT'. revert items F. induction F' as [|x raw0 sel raws Hr F' IH]; intros items F; [exists []; constructor|]. inversion F as [|? i ? items0 Hi F0]; subst. destruct (IH items0 F0) as [is' G]. clear IH.
  assert (L : exists j, link_item d td raw0 = Ok j); [|destruct L as [j L]; exists (j :: is'); constructor; assumption].
  destruct raw0 as [[p i0] [[comp assoc] incomp]]. cbn [raw_of] in Hr. destruct Hr as (_ & _ & Hid & _ & _ & _ & _ & _ & _ & _ & (lc & Hlc & Fc) & (la & Hla & Fa) & (li & Hli & Fi)).
  destruct Hi as (_ & Hid' & _ & _ & _ & _ & _ & _ & _ & (la' & Hla' & Fa') & (li' & Hli' & Fi') & (lc' & Hlc' & Fc' & Hfrom)).
  rewrite (field_list_fun "AssociatedTraits" _ _ _ eq_refl Hla' Hla) in Fa'. rewrite (field_list_fun "IncompatibleTraits" _ _ _ eq_refl Hli' Hli) in Fi'. rewrite (field_list_fun "mComposition" _ _ _ eq_refl Hlc' Hlc) in Fc', Hfrom.
  pose proof (field_value_fun "mId" _ _ _ _ eq_refl Hid' Hid) as Eid.
  apply (linked_of _ _ es "mName" _ _ _ HT' Fa) in Fa'. apply (linked_of _ _ es "mName" _ _ _ HT' Fi) in Fi'. apply (linked_of _ _ es "mName" _ _ _ HA Fc) in Fc'. cbn [link_item]. rewrite Eid in Hfrom.
  destruct (is_none (ti_id i0)) eqn:En.
  - cbn [rbind]. rewrite Fc'. cbn [rbind]. rewrite Fi'. cbn [rbind]. rewrite Fa'. cbn [rbind]. eauto.
  - apply is_none_false in En. destruct (ti_from i) as [from|]; [|congruence]. destruct Hfrom as [_ Ff]. apply (linked_of _ _ es "mId" _ _ _ HI Fc) in Ff. rewrite Ff. cbn [rmap rbind]. rewrite Fc'. cbn [rbind]. rewrite Fi'. cbn [rbind]. rewrite Fa'. cbn [rbind]. eauto.
Qed.
End Tft.
