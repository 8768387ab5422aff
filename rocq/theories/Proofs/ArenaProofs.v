(** * Proofs about the Arena data *)

From Verif Require Import Base.Py Base.PyFacts Base.Text Base.TextFacts Spec.DictSpec Spec.BinAccessSpec Spec.GameDataSpec Spec.TftSpec Spec.TftChampSpec Spec.TftExportSpec Spec.ArenaSpec Model.BinFile Model.Rst Model.Translations Model.Tft Model.Tables Model.Arena.
From Verif Require Import Proofs.DictProofs Proofs.BinAccessProofs Proofs.GameDataProofs Proofs.TftProofs Proofs.TftSetProofs Proofs.TftChampProofs Proofs.TftExportProofs Proofs.TablesProofs.

Arguments ascii_hash s%string_scope.
Arguments kind_path nm es s%string_scope.

(** ** Values by names *)

Fixpoint keyed_once (d : list (pyres * pyres)) : Prop := match d with [] => True | (k, _) :: t => keyed_once t /\ forall s v, k = text_key s -> ~ In (text_key s, v) t end.
Lemma res_text s k : res_eq (text_key s) k = true <-> k = text_key s.
Proof. destruct k as [| | |v| |]; cbn [res_eq text_key]; try (split; discriminate). destruct v; cbn [key_eq]; split; try discriminate; intros H; [destruct (eqbP s s0); [subst; reflexivity | discriminate] | injection H as ->; apply eqbR]. Qed.
Lemma res_text_l s k : res_eq k (text_key s) = true <-> k = text_key s.
Proof. destruct k as [| | |v| |]; cbn [res_eq text_key]; try (split; discriminate). destruct v; cbn [key_eq]; split; try discriminate; intros H; [destruct (eqbP s0 s); [subst; reflexivity | discriminate] | injection H as ->; apply eqbR]. Qed.
Lemma res_In k x d s y : keyed_once d -> (In (text_key s, y) (res_set k x d) <-> k = text_key s /\ y = x \/ k <> text_key s /\ In (text_key s, y) d).
Proof.
  induction d as [|[k' x'] d IH]; cbn [res_set keyed_once]; intros Hd.
  - cbn [In]. split.
    + intros [E|[]]. inversion E; subst. left. auto.
    + intros [[-> ->]|[_ []]]. left. reflexivity.
  - destruct Hd as [Hd Hk]. specialize (IH Hd). destruct (res_eq k k') eqn:Ek; cbn [In].
    + split.
      * intros [E|Hin]; [inversion E; subst; left; apply res_text_l in Ek; auto|]. right. split; [|right; exact Hin]. intros ->. apply res_text in Ek. exact (Hk s y Ek Hin).
      * intros [[-> ->]|[Hn [E|Hin]]]; [left; apply res_text in Ek; rewrite Ek; reflexivity | inversion E; subst; apply res_text_l in Ek; destruct (Hn Ek) | right; exact Hin].
    + split.
      * intros [E|Hin].
        -- inversion E; subst. right. split; [|left; reflexivity]. intros ->. rewrite (proj2 (res_text s (text_key s)) eq_refl) in Ek. discriminate.
        -- apply IH in Hin as [H|[Hn Hin]]; [left; exact H | right; auto].
      * intros [H|[Hn [E|Hin]]]; [right; apply IH; left; exact H | left; exact E | right; apply IH; right; auto].
Qed.
Lemma res_once k x d : keyed_once d -> keyed_once (res_set k x d).
Proof.
  induction d as [|[k' x'] d IH]; cbn [res_set keyed_once]; intros Hd; [split; [exact I | intros s v _ []]|]. destruct Hd as [Hd Hk].
  destruct (res_eq k k') eqn:Ek; cbn [keyed_once]; [split; assumption|]. split; [apply IH, Hd|]. intros s v -> Hin. apply res_In in Hin as [[-> ->]|[Hn Hin]]; [|exact (Hk s v eq_refl Hin) | exact Hd].
  rewrite (proj2 (res_text s (text_key s)) eq_refl) in Ek. discriminate.
Qed.
Lemma res_from k x d k' y : In (k', y) (res_set k x d) -> (y = x \/ In y (map snd d)) /\ (k' = k \/ In k' (map fst d)).
Proof.
  induction d as [|[k1 x1] d IH]; cbn [res_set]; [intros [E|[]]; injection E as -> ->; auto|]. destruct (res_eq k k1); cbn [In map fst snd].
  - intros [E|H]; [injection E as -> ->; auto | split; right; right; [exact (in_map snd _ _ H) | exact (in_map fst _ _ H)]].
  - intros [E|H]; [injection E as -> ->; auto|]. apply IH in H as [[->|A] [->|B]]; auto.
Qed.
Lemma first_iff r x : py_first r = Ok x <-> first_of r x.
Proof.
  split.
  - destruct r as [l| | |v| |]; try discriminate; [destruct l as [|v l]; [discriminate|]; intros E; injection E as <-; constructor|].
    destruct v as [l| | | |l|l|l| | | | | | | |]; try discriminate; destruct l as [|v l]; try discriminate; cbn [py_first]; intros E; injection E as <-; constructor.
  - intros H. destruct H; reflexivity.
Qed.
Lemma data_value_iff v kv : data_value v = Ok kv <-> data_value_of v kv.
Proof.
  unfold data_value, data_value_of. split.
  - intros E. apply rbind_Ok in E as (o & Eo & E). apply rbind_Ok in E as (n & En & E). apply rbind_Ok in E as (n' & En' & E). apply rbind_Ok in E as (m & Em & E). apply rbind_Ok in E as (x & Ex & E). apply rbind_Ok in E as (m' & Em' & E). injection E as <-.
    exists o, m, x. split; [apply bobj_iff, Eo|]. split; [apply prefer_iff; [asc | asc |]; fold (getn o (fld "mName")); rewrite En; exact En'|]. split; [apply getd_iff; [asc | exact Em]|]. split; [apply first_iff, Ex | apply getd_iff; [asc | exact Em']].
  - intros (o & m & x & Eo & Hn & Em & Ex & Em'). apply bobj_iff in Eo. rewrite Eo. cbn [rbind]. apply prefer_iff in Hn; [|asc|asc]. apply rbind_Ok in Hn as (n & En & En'). unfold getn. rewrite En. cbn [rbind]. rewrite En'. cbn [rbind].
    rewrite (proj2 (getd_iff "mValues" o _ _ eq_refl) Em). cbn [rbind]. rewrite (proj2 (first_iff _ _) Ex). cbn [rbind]. rewrite (proj2 (getd_iff "values" o _ _ eq_refl) Em'). cbn [rbind]. destruct kv; reflexivity.
Qed.
Lemma last_value_snoc {A B} (h k : A) (v : B) l w : last_value h (l ++ [(k, v)]) (Some w) <-> k = h /\ v = w \/ k <> h /\ last_value h l (Some w).
Proof.
  split.
  - intros H. inversion H as [|pre v' post Hn E]; subst. destruct (exists_last (l := (h, w) :: post)) as (post' & [k' v'] & Ep); [discriminate|].
    rewrite Ep, app_assoc in E. apply app_inj_tail in E as [El E]. injection E as -> ->. destruct post' as [|p post'].
    + injection Ep as -> -> _. left. auto.
    + injection Ep as <- ->. right. split.
      * intros ->. apply (Hn v). apply in_or_app. right. left. reflexivity.
      * rewrite <- El. constructor. intros u Hu. apply (Hn u). apply in_or_app. left. exact Hu.
  - intros [[-> ->]|[Hn H]]; [constructor; intros u []|]. inversion H as [|pre v' post Hn' E]; subst. rewrite <- app_assoc. cbn [app]. constructor. intros u Hu. apply in_app_or in Hu as [Hu|[E|[]]]; [exact (Hn' u Hu) | injection E as -> _; exact (Hn eq_refl)].
Qed.
Lemma data_values_ok l d d' done : data_values l d = Ok d' -> keyed_once d -> named_values done d ->
  exists kvs, Forall2 data_value_of l kvs /\ named_values (done ++ kvs) d' /\ forall kv, In kv kvs -> (forall l, fst kv <> RList l) /\ forall d, fst kv <> RDict d.
Proof.
  revert d done. induction l as [|v l IH]; intros d done E Hd Hn; cbn [data_values] in E.
  - injection E as <-. exists []. rewrite app_nil_r. split; [constructor|]. split; [exact Hn | intros kv []].
  - apply rbind_Ok in E as ([n m] & Ev & E). assert (Hkey : (forall l, n <> RList l) /\ forall d, n <> RDict d) by (destruct n; try discriminate; split; discriminate).
    assert (E' : data_values l (res_set n m d) = Ok d') by (destruct n; try discriminate; exact E). clear E.
    destruct (IH _ (done ++ [(n, m)]) E' (res_once _ _ _ Hd)) as (kvs & F & Hk & Hh).
    { destruct Hn as [Hn1 Hn2]. split.
      - intros s w. rewrite (res_In _ _ _ _ _ Hd), last_value_snoc, Hn1. split; intros [[H1 H2]|H]; [left; auto | right; exact H | left; auto | right; exact H].
      - intros k w Hin. apply res_from in Hin as [A B]. rewrite !map_app. split; apply in_or_app.
        + destruct A as [->|A]; [right; left; reflexivity | left]. apply in_map_iff in A as ((k1 & w1) & Ew & Hw). cbn in Ew. subst w1. exact (proj1 (Hn2 _ _ Hw)).
        + destruct B as [->|B]; [right; left; reflexivity | left]. apply in_map_iff in B as ((k1 & w1) & Ew & Hw). cbn in Ew. subst k1. exact (proj2 (Hn2 _ _ Hw)). }
    exists ((n, m) :: kvs). split; [constructor; [apply data_value_iff, Ev | exact F]|]. split; [rewrite <- app_assoc in Hk; exact Hk|]. intros kv [<-|Hin]; [exact Hkey | exact (Hh kv Hin)].
Qed.
Lemma data_values_total l kvs : Forall2 data_value_of l kvs -> (forall kv, In kv kvs -> (forall l, fst kv <> RList l) /\ forall d, fst kv <> RDict d) -> forall d, exists d', data_values l d = Ok d'.
Proof.
  intros F. induction F as [|v [n m] l kvs Hv F IH]; intros Hh d; cbn [data_values]; [eauto|]. apply data_value_iff in Hv. rewrite Hv. cbn [rbind].
  destruct (Hh (n, m) (or_introl eq_refl)) as [H1 H2]. cbn [fst] in H1, H2. specialize (IH (fun kv H => Hh kv (or_intror H))). destruct n; try apply IH; [destruct (H1 _ eq_refl) | destruct (H2 _ eq_refl)].
Qed.

Lemma getitem_cases s fs : ascii s -> (exists h f, name_hash (lit s) h /\ first_named h fs f /\ getitem fs (fld s) = Ok f) \/ (missing s fs /\ getitem fs (fld s) = Err KeyError).
Proof.
  intros Ha. destruct (ascii_hash s Ha) as (h & Hh & Hc). destruct (getitem fs (fld s)) as [f|e] eqn:E.
  - left. exists h, f. split; [exact Hh|]. split; [|reflexivity]. exact (proj1 (getitem_first _ _ fs f (D_str _ _ Hh)) E).
  - right. assert (Ee : e = KeyError). { unfold getitem, fld in E. cbn [key_to_hash] in E. rewrite Hc in E. cbn [rmap rbind] in E. destruct (find _ fs); cbn [of_opt] in E; congruence. }
    subst e. split; [|reflexivity]. exists h. split; [exact Hh|]. exact (proj1 (getitem_absent _ _ fs (D_str _ _ Hh)) E).
Qed.
Arguments getitem_cases s%string_scope.

Section Arena.
Variable nm : names.
Variable repr : pyres -> str.
Variable plower : str -> str.
Notation kind := (of_kind nm).

Lemma right_json v : right_names nm -> clean nm v -> exists y, ser nm v = Ok y /\ json nm v y.
Proof. intros (ph & A & B & C & D). exact (clean_json nm ph A B C D v). Qed.
Lemma spell_values_ok a d c : spell_values_of nm a = Ok (d, c) -> spell_data_of nm (Some a) d c /\ readable (Some a).
Proof.
  unfold spell_values_of. intros E. apply rbind_Ok in E as (old & Eo & E). apply rbind_Ok in E as (r & Er & E). apply rbind_Ok in E as (l & El & E). apply rbind_Ok in E as (values & Ev & E). apply rbind_Ok in E as (calc & Ec & E). injection E as <- <-.
  assert (Hp : prefer "DataValues" "mDataValues" a (RList []) r) by (apply prefer_iff; [asc | asc |]; rewrite Eo; exact Er). apply py_iter_iff in El.
  destruct (data_values_ok l [] values [] Ev I) as (kvs & F & Hn & Hh). { split; [|intros k v []]. intros s v. split; [intros []|]. intros H. inversion H as [|pre v' post Hn E]. destruct pre; discriminate. }
  split; [|exists r, l, kvs; auto]. exists r, l, kvs. do 4 (split; [assumption|]). destruct (getitem_cases "mSpellCalculations" a eq_refl) as [(h & f & Hh' & Hf & Eg)|[Hm Eg]]; rewrite Eg in Ec.
  - left. exists h, f. split; [exact Hh'|]. split; [exact Hf|]. intros Hfa Hcl. destruct (right_json _ Hfa Hcl) as (y & Ey & Hy). rewrite Ey in Ec. injection Ec as <-. exact Hy.
  - right. injection Ec as <-. auto.
Qed.
Lemma icon_ok k fs r : ascii k -> getn fs (fld k) = Ok r -> icon_of nm repr plower k fs (convert_cdragon_path plower (py_str nm repr r)).
Proof. intros A E. apply getn_iff in E; [|exact A]. exists r, (py_str nm repr r). split; [exact E|]. split; [apply py_str_of; exact (field_proper _ _ _ _ E proper_none) | apply convert_image]. Qed.
Arguments icon_ok k%string_scope.
Notation spells es := (by_path (filter (of_type nm (lit "SpellObject")) es)).
Lemma parse_augment_ok es x o : parse_augment nm repr plower (spells es) x = Ok o ->
  match o with None => ~ enabled x | Some a => enabled x /\ augment_of nm repr plower es x a /\ exists s, root_spell nm es x s /\ readable s end.
Proof.
  unfold parse_augment. intros E. apply rbind_Ok in E as (en & Een & E). apply getd_iff in Een; [|asc]. destruct (py_true en) eqn:Et; cbn [negb] in E.
  - assert (Hen : enabled x). { exists en. split; [exact Een|]. intros Hf. apply py_true_iff in Hf; [congruence|]. exact (field_not_default _ _ _ _ Een ltac:(discriminate)). }
    apply rbind_Ok in E as (ref & Er & E). apply getn_iff in Er; [|asc]. apply rbind_Ok in E as ([values calc] & Ev & E).
    apply rbind_Ok in E as (id & Eid & E). apply rbind_Ok in E as (api & Eapi & E). apply rbind_Ok in E as (name & Ename & E). apply rbind_Ok in E as (desc & Edesc & E). apply rbind_Ok in E as (tip & Etip & E).
    apply rbind_Ok in E as (small & Esm & E). apply rbind_Ok in E as (large & Elg & E). apply rbind_Ok in E as (rar & Erar & E). injection E as <-.
    assert (Hs : exists s, root_spell nm es x s /\ spell_data_of nm s values calc /\ readable s).
    { destruct (py_true ref) eqn:Etr.
      - apply rbind_Ok in Ev as (y & Ey & Ev). destruct ref as [| | |v| |]; try discriminate. destruct (hget v (spells es)) as [y'|] eqn:Eh; [|discriminate]. injection Ey as ->.
        apply rbind_Ok in Ev as (sp & Esp & Ev). apply getn_iff in Esp; [|asc]. apply rbind_Ok in Ev as (a & Ea & Ev). apply obj_iff in Ea as (w & -> & Ea). apply spell_values_ok in Ev as [Hd Hr].
        exists (Some a). split; [|auto]. eapply RS_some; [exact Er | | apply (kind_path nm es "SpellObject" v y eq_refl); exact Eh | exact Esp | exact Ea]. intros Hf. apply py_true_iff in Hf; [congruence | discriminate].
      - injection Ev as <- <-. exists None. split; [|split; [split; reflexivity | exact I]]. eapply RS_none; [exact Er|]. apply py_true_iff; [exact (field_not_default _ _ _ _ Er ltac:(discriminate)) | exact Etr]. }
    destruct Hs as (s & Hs & Hd & Hr). split; [exact Hen|]. split; [|exists s; auto]. unfold augment_of. cbn [au_id au_api au_name au_desc au_tooltip au_small au_large au_rarity au_values au_calculations].
    do 5 (split; [apply getn_iff; [asc | assumption]|]). split; [apply (icon_ok "AugmentSmallIconPath"); [asc | exact Esm]|]. split; [apply (icon_ok "AugmentLargeIconPath"); [asc | exact Elg]|]. split; [apply getd_iff; [asc | exact Erar]|]. exists s. auto.
  - injection E as <-. intros (r & Hr & Hf). apply Hf. rewrite (field_value_fun "enabled" _ _ _ _ eq_refl Hr Een). apply py_true_iff; [exact (field_not_default _ _ _ _ Een ltac:(discriminate)) | exact Et].
Qed.
Lemma parse_augments_ok es l : parse_augments nm repr plower es = Ok l -> exists sel, picks (fun x => kind "AugmentData" x /\ enabled x) es sel /\ Forall2 (augment_of nm repr plower es) sel l.
Proof.
  unfold parse_augments. intros E.
  assert (HL : forall x o, In x (filter (of_type nm (lit "AugmentData")) es) -> parse_augment nm repr plower (spells es) x = Ok o ->
    match o with None => ~ (kind "AugmentData" x /\ enabled x) | Some a => (kind "AugmentData" x /\ enabled x) /\ augment_of nm repr plower es x a end).
  { intros x o Hx Eo. apply filter_In in Hx as [_ Hk]. apply of_type_iff in Hk; [|asc]. apply parse_augment_ok in Eo. destruct o as [a|]; tauto. }
  destruct (list_loop_picks (fun x => kind "AugmentData" x /\ enabled x) (augment_of nm repr plower es) _ _ _ HL E) as (sel & Hp & F).
  exists sel. split; [|exact F]. exact (proj1 (picks_through _ _ _ _ (fun x H => proj2 (of_type_iff nm "AugmentData" x eq_refl) (proj1 H))) Hp).
Qed.
Lemma parse_augments_total es : right_names nm ->
  (forall x y w a h f, In x es -> In y es -> kind "SpellObject" y -> field_value "mSpell" (be_fields y) RNone (RVal w) -> object_fields w = Some a -> name_hash (lit "mSpellCalculations") h -> first_named h a f -> clean nm (snd f)) ->
  ((exists l, parse_augments nm repr plower es = Ok l) <-> forall x, In x es -> kind "AugmentData" x -> enabled x -> exists s, root_spell nm es x s /\ readable s).
Proof.
  intros Hfa Hcl. unfold parse_augments. split.
  - intros (l & E) x Hx Hk Hen. assert (Hin : In x (filter (of_type nm (lit "AugmentData")) es)) by (apply filter_In; split; [exact Hx | apply of_type_iff; [asc | exact Hk]]).
    destruct (list_loop_all _ _ _ E x Hin) as ([a|] & Eo); apply parse_augment_ok in Eo; [exact (proj2 (proj2 Eo)) | destruct (Eo Hen)].
  - intros H. apply list_loop_total. intros x Hin. apply filter_In in Hin as [Hx Hk]. apply of_type_iff in Hk; [|asc]. specialize (H x Hx Hk). unfold parse_augment.
    destruct (getd_total "enabled" (be_fields x) (RVal (VBool true)) eq_refl) as (en & Een). rewrite Een. cbn [rbind]. apply getd_iff in Een; [|asc]. destruct (py_true en) eqn:Et; cbn [negb]; [|eauto].
    destruct H as (s & Hs & Hr). { exists en. split; [exact Een|]. intros Hf. apply py_true_iff in Hf; [congruence|]. exact (field_not_default _ _ _ _ Een ltac:(discriminate)). }
    assert (Hfin : forall vc : list (pyres * pyres) * pyval, exists o, (let! (values, calculations) := Ok vc in
      let! id := getn (be_fields x) (fld "AugmentPlatformId") in let! api := getn (be_fields x) (fld "AugmentNameId") in let! name := getn (be_fields x) (fld "NameTra") in let! desc := getn (be_fields x) (fld "DescriptionTra") in
      let! tooltip := getn (be_fields x) (fld "AugmentTooltipTra") in let! small := getn (be_fields x) (fld "AugmentSmallIconPath") in let! large := getn (be_fields x) (fld "AugmentLargeIconPath") in
      let! rarity := getd (be_fields x) (fld "rarity") (RVal (VInt 0)) in
      Ok (Some {| au_id := id; au_api := api; au_name := name; au_desc := desc; au_tooltip := tooltip;
        au_small := convert_cdragon_path plower (py_str nm repr small); au_large := convert_cdragon_path plower (py_str nm repr large);
        au_rarity := rarity; au_values := values; au_calculations := calculations |})) = Ok o).
    { intros [values calc]. cbn [rbind]. unfold getn. destruct (getd_total "AugmentPlatformId" (be_fields x) RNone eq_refl) as (? & ->). destruct (getd_total "AugmentNameId" (be_fields x) RNone eq_refl) as (? & ->).
      destruct (getd_total "NameTra" (be_fields x) RNone eq_refl) as (? & ->). destruct (getd_total "DescriptionTra" (be_fields x) RNone eq_refl) as (? & ->). destruct (getd_total "AugmentTooltipTra" (be_fields x) RNone eq_refl) as (? & ->).
      destruct (getd_total "AugmentSmallIconPath" (be_fields x) RNone eq_refl) as (? & ->). destruct (getd_total "AugmentLargeIconPath" (be_fields x) RNone eq_refl) as (? & ->). destruct (getd_total "rarity" (be_fields x) (RVal (VInt 0)) eq_refl) as (? & ->). cbn [rbind]. eauto. }
    destruct Hs as [r Hr' Hf|v y w a Hv Hnf Hy Hw Ha].
    + rewrite (proj2 (getn_iff "RootSpell" _ _ eq_refl) Hr'). cbn [rbind]. assert (Hff : py_true r = false) by (apply py_true_iff; [exact (field_not_default _ _ _ _ Hr' ltac:(discriminate)) | exact Hf]). rewrite Hff. apply Hfin.
    + rewrite (proj2 (getn_iff "RootSpell" _ _ eq_refl) Hv). cbn [rbind]. destruct (py_true (RVal v)) eqn:Etr; [|apply py_true_iff in Etr; [destruct (Hnf Etr) | discriminate]].
      rewrite (proj2 (kind_path nm es "SpellObject" v y eq_refl) Hy). cbn [rbind]. rewrite (proj2 (getn_iff "mSpell" _ _ eq_refl) Hw). cbn [rbind]. rewrite (proj2 (obj_iff _ _) (ex_intro _ w (conj eq_refl Ha))). cbn [rbind].
      destruct Hr as (r & l & kvs & Hp & Hl & F & Hh). unfold spell_values_of. apply prefer_iff in Hp; [|asc|asc]. apply rbind_Ok in Hp as (old & Eold & Er). rewrite Eold. cbn [rbind]. rewrite Er. cbn [rbind]. apply py_iter_iff in Hl. rewrite Hl. cbn [rbind].
      destruct (data_values_total l kvs F Hh []) as (d & ->). cbn [rbind]. assert (Hy' : In y es /\ kind "SpellObject" y). { destruct Hy as (h0 & _ & pre & post & -> & Hp0 & Hk0 & _). split; [apply in_elt | first [exact Hk0 | exact Hp0]]. }
      destruct (getitem_cases "mSpellCalculations" a eq_refl) as [(h & f & Hh' & Hf & Eg)|[Hm Eg]]; rewrite Eg.
      * destruct (right_json (snd f) Hfa) as (c & Ec & _); [exact (Hcl x y w a h f Hx (proj1 Hy') (proj2 Hy') Hw Ha Hh' Hf)|]. rewrite Ec. apply Hfin.
      * apply Hfin.
Qed.

Variable xxh3 xxh64 : str -> N.
Lemma translate_augment_ok r a b : translate_augment plower xxh3 xxh64 r a = Ok b -> augment_translated xxh3 xxh64 plower r a b.
Proof.
  unfold translate_augment. intros E. apply rbind_Ok in E as (n & En & E). apply rbind_Ok in E as (d & Ed & E). apply rbind_Ok in E as (t & Et & E). injection E as <-.
  unfold augment_translated. cbn [au_id au_api au_name au_desc au_tooltip au_small au_large au_rarity au_values au_calculations]. do 3 (split; [apply replace_ok; assumption|]). repeat split.
Qed.
End Arena.
