(** * Proofs on the TFT champions *)

From Verif Require Import Base.Py Base.PyFacts Base.Text Base.TextFacts Base.FsThreads Spec.DictSpec Spec.BinAccessSpec Spec.GameDataSpec Spec.TftSpec Spec.TftChampSpec Model.Tft.
From Verif Require Import Proofs.DictProofs Proofs.BinAccessProofs Proofs.GameDataProofs Proofs.TftProofs Proofs.TftSetProofs.
From Coq Require Import ZArith Lia.

Lemma prefer_iff s s' fs d r : ascii s -> ascii s' -> ((let! x := getd fs (fld s') d in getd fs (fld s) x) = Ok r <-> prefer s s' fs d r).
Proof.
  intros A A'. rewrite rbind_Ok. unfold prefer. split.
  - intros (x & Ex & E). apply getd_iff in Ex, E; try assumption. destruct E as [E|[E ->]]; auto.
  - intros [H|[H G]].
    + destruct (getd_total s' fs d A') as [x Ex]. exists x. split; [exact Ex|]. apply getd_iff; [exact A | left; exact H].
    + exists r. split; [apply getd_iff; assumption|]. apply getd_iff; [exact A | right; auto].
Qed.
Lemma base_value_ok s s' fs d r : ascii s -> ascii s' -> modifiable fs (fld s) (fld "BaseValue") (fld s') d = Ok r -> base_value s s' fs d r.
Proof.
  intros A A' E. unfold modifiable in E. apply rbind_Ok in E as (m & Em & E). apply getn_iff in Em; [|exact A]. destruct (is_none m) eqn:En.
  - apply is_none_iff in En. subst m. apply getd_iff in E; [|exact A']. apply BV_plain; assumption.
  - apply rbind_Ok in E as (o & Eo & E). apply obj_iff in Eo as (v & -> & Eo). apply getd_iff in E; [|asc]. eapply BV_object; eassumption.
Qed.
Arguments base_value_ok (s s')%string_scope.
Lemma mana_ok fs r : (let! res := getn fs (fld "primaryAbilityResource") in
  if is_none res then Ok (RVal (VInt 100)) else let! o := obj res in modifiable o (KInt 0x726ee5cd) (fld "BaseValue") (fld "arBase") (RVal (VInt 100))) = Ok r -> mana_of fs r.
Proof.
  intros E. apply rbind_Ok in E as (res & Er & E). apply getn_iff in Er; [|asc]. destruct (is_none res) eqn:En.
  - injection E as <-. apply is_none_iff in En. subst res. apply MA_none. exact Er.
  - apply rbind_Ok in E as (o & Eo & E). apply obj_iff in Eo as (v & -> & Eo). unfold modifiable in E. apply rbind_Ok in E as (m & Em & E). apply (value_at_iff 1919870413) in Em. destruct (is_none m) eqn:En'.
    + apply is_none_iff in En'. subst m. apply getd_iff in E; [|asc]. eapply MA_old; eassumption.
    + apply rbind_Ok in E as (o' & Eo' & E). apply obj_iff in Eo' as (w & -> & Eo'). apply getd_iff in E; [|asc]. eapply MA_new; eassumption.
Qed.
Lemma cost_ok record champ r : cost_of record champ = Ok r -> cost record champ r.
Proof.
  unfold cost_of. intros E. apply rbind_Ok in E as (t & Et & E). apply getn_iff in Et; [|asc]. destruct (is_none t) eqn:En.
  - apply is_none_iff in En. subst t. apply rbind_Ok in E as (m & Em & E). apply getd_iff in Em; [|asc]. destruct m as [| | |v| |]; try discriminate. destruct v; try discriminate. injection E as <-. apply CO_rarity; assumption.
  - apply is_none_false in En. injection E as <-. apply CO_tier; assumption.
Qed.
Lemma last_part_ok s : after_slash s (last_part s).
Proof.
  unfold last_part, after_slash. destruct (cut_last cSlash s) as [[a b]|] eqn:E.
  - apply cut_last_Some in E as [-> Hn]. split; [exact Hn | right; eauto].
  - apply cut_last_None in E. auto.
Qed.
Lemma first_ref_ok l o : first_ref l = Ok o -> first_hash l o.
Proof.
  induction l as [|v l IH]; cbn [first_ref]; intros E; [injection E as <-; constructor|]. apply rbind_Ok in E as (h & Eh & E). apply attr_h_iff in Eh. destruct (N.eqb_spec h 0) as [->|Hh]; [apply FH_zero; [exact Eh | exact (IH E)] | injection E as <-; apply FH_hash; assumption].
Qed.
Lemma first_one_fun {A} (P : A -> Prop) l x y : first_one P l x -> first_one P l y -> x = y.
Proof.
  intros (p & q & -> & Hx & Hp) (p' & q' & E & Hy & Hp'). revert p' E Hp'. induction p as [|a p IH]; intros [|b p'] E Hp'; cbn [app] in E; injection E as Ea E.
  - exact Ea.
  - destruct (Hp' x); [left; symmetry; exact Ea | exact Hx].
  - destruct (Hp y); [left; exact Ea | exact Hy].
  - exact (IH (fun z Hz => Hp z (or_intror Hz)) p' E (fun z Hz => Hp' z (or_intror Hz))).
Qed.
Lemma find_one {A} (P : A -> Prop) p (l : list A) : (forall x, p x = true <-> P x) -> match find p l with Some x => first_one P l x | None => forall x, In x l -> ~ P x end.
Proof.
  intros Hp. induction l as [|y l IH]; cbn [find]; [intros x []|]. destruct (p y) eqn:E.
  - exists [], l. split; [reflexivity|]. split; [apply Hp; exact E | intros z []].
  - assert (Hy : ~ P y) by (intros H; apply Hp in H; congruence). destruct (find p l) as [x|].
    + destruct IH as (pre & post & -> & Hx & Hn). exists (y :: pre), post. split; [reflexivity|]. split; [exact Hx|]. intros z [<-|Hz]; auto.
    + intros z [<-|Hz]; auto.
Qed.
Lemma dict_str_ok d s : map_value d s (dict_str d (lit s)).
Proof.
  unfold dict_str, map_value. assert (K : forall k, key_eq (VStr (lit s)) k = true <-> k = VStr (lit s)).
  { intros k. destruct k; cbn [key_eq]; try (split; discriminate). destruct (eqbP (lit s) s0) as [<-|H]; split; try reflexivity; try discriminate. intros E. injection E as ->. congruence. }
  induction d as [|[k v] d IH]; cbn [find fst]; [right; split; [intros w [] | reflexivity]|]. destruct (key_eq (VStr (lit s)) k) eqn:E.
  - apply K in E. subst k. left. exists [], d, v. split; [reflexivity|]. split; [intros w [] | reflexivity].
  - destruct IH as [(d1 & d2 & w & -> & Hn & Er)|[Hn Er]].
    + left. exists ((k, v) :: d1), d2, w. split; [reflexivity|]. split; [|exact Er]. intros u [Hu|Hu]; [injection Hu as -> ->; rewrite (proj2 (K _) eq_refl) in E; discriminate | exact (Hn u Hu)].
    + right. split; [|exact Er]. intros u [Hu|Hu]; [injection Hu as -> ->; rewrite (proj2 (K _) eq_refl) in E; discriminate | exact (Hn u Hu)].
Qed.
Arguments dict_str_ok d s%string_scope.
Lemma value_or_ok a b : a <> RDefault -> value_or a b (py_or a b).
Proof. intros Ha. unfold value_or, py_or. destruct (py_true a) eqn:E; [left; split; [intros H; apply (py_true_iff a Ha) in H; congruence | reflexivity] | right; split; [apply (py_true_iff a Ha); exact E | reflexivity]]. Qed.

Lemma picks_split {A} (P : A -> Prop) l s1 x s2 : picks P l (s1 ++ x :: s2) -> exists e1 e2, l = e1 ++ x :: e2 /\ picks P e2 s2.
Proof.
  intros H. remember (s1 ++ x :: s2) as s eqn:E. revert s1 E. induction H as [|y l r Hy H IH|y l r Hy H IH]; intros s1 E; [destruct s1; discriminate| |].
  - destruct s1 as [|z s1]; cbn [app] in E; injection E as Ea E; [subst y r; exists [], l; auto|]. destruct (IH s1 E) as (e1 & e2 & -> & G). exists (y :: e1), e2. auto.
  - destruct (IH s1 E) as (e1 & e2 & -> & G). exists (y :: e1), e2. auto.
Qed.

Section Champ.
Variable nm : names.
Variable repr : pyres -> str.
Variable plower : str -> str.
Variable exists_bin : str -> bool.
Variable load_bin : str -> result (list bentry).
Variable fdiv : N -> bval.
Variable dir : str.
Notation kind := (of_kind nm).

Lemma text_or_ok a b : proper a -> text_or (text_of nm repr) a b (str_or nm repr a b).
Proof. intros Ha. exists (py_str nm repr a). split; [apply py_str_of; exact Ha|]. unfold str_or. destruct (py_str nm repr a) as [|c s]; [right; auto | left; split; [discriminate | reflexivity]]. Qed.
Lemma range_ok r r' : range_of fdiv r = Ok r' -> cells fdiv r r'.
Proof. intros E. destruct r as [| | |v| |]; try discriminate. destruct v; try discriminate; injection E as <-; constructor. Qed.
Lemma file_iff n f : champ_file exists_bin dir n = Some f <-> file_of exists_bin dir n f.
Proof.
  unfold champ_file. cbv zeta. split.
  - destruct (exists_bin (path_join (path_join dir (lit "characters")) (n ++ lit ".cdtb.bin"))) eqn:E1; [intros E; injection E as <-; apply FO_new; exact E1|]. match goal with |- (if ?b then _ else _) = _ -> _ => destruct b eqn:E2 end; [|discriminate]. intros E. injection E as <-. apply FO_old; assumption.
  - intros H. inversion H as [E1|E1 E2]; subst; rewrite E1; [reflexivity|]. rewrite E2. reflexivity.
Qed.
(** How [find_match] describes the spell. *)
Definition wanted (m : spell_match) (x : bentry) : Prop :=
  match m with
  | ByPath o => o = Some (be_path x)
  | ByName s => exists n, field_value "mScriptName" (be_fields x) (RVal (VStr [])) (RVal (VStr n)) /\ plower n = s
  end.
Lemma find_match_ok record m : find_match plower record = Ok (Some m) -> spell_of plower record (wanted m).
Proof.
  unfold find_match. destruct (contains_cases "spells" record eq_refl) as [[-> Hp]|[-> Hm]]; cbn [rbind]; intros E.
  - apply rbind_Ok in E as (r & Er & E). apply rbind_Ok in E as (l & El & E). apply rbind_Ok in E as (o & Eo & E). injection E as <-. apply getn_iff in Er; [|asc]. apply present_value in Er; [|asc | exact Hp]. apply py_iter_iff in El. apply first_ref_ok in Eo. exact (SP_path plower record r l o Er El Eo).
  - destruct (contains_cases "spellNames" record eq_refl) as [[Ec Hp]|[Ec Hm']]; rewrite Ec in E; cbn [rbind] in E; [|discriminate]. apply rbind_Ok in E as (r & Er & E). apply getn_iff in Er; [|asc]. apply present_value in Er; [|asc | exact Hp].
    assert (G : exists s, first_text r s /\ m = ByName (plower (last_part s))).
    { destruct r as [[|v l]| | |v| |]; try discriminate; destruct v as [| | | | | |s| | | | | | | |]; try discriminate; [injection E as <-; exists s; split; [constructor | reflexivity]|]. destruct s as [|c s]; [discriminate|]. injection E as <-. exists [c]. split; [constructor | reflexivity]. }
    destruct G as (s & Hs & ->). exact (SP_name plower record r s (last_part s) Hm Er Hs (last_part_ok s)).
Qed.
Lemma find_match_none record : find_match plower record = Ok None <-> missing "spells" record /\ missing "spellNames" record.
Proof.
  unfold find_match. destruct (contains_cases "spells" record eq_refl) as [[-> [r0 Hp]]|[-> Hm]]; cbn [rbind].
  - split; [|intros [H _]; destruct (present_missing _ _ _ Hp H)]. intros E. apply rbind_Ok in E as (r & Er & E). apply rbind_Ok in E as (l & El & E). apply rbind_Ok in E as (o & Eo & E). discriminate.
  - destruct (contains_cases "spellNames" record eq_refl) as [[-> [r0 Hp]]|[-> Hm']]; cbn [rbind]; [|split; auto]. split; [|intros [_ H]; destruct (present_missing _ _ _ Hp H)]. intros E. apply rbind_Ok in E as (r & Er & E). destruct r as [[|v l]| | |v| |]; try discriminate; destruct v as [| | | | | |s| | | | | | | |]; try discriminate. destruct s; discriminate.
Qed.
Lemma matches_ok m x b : matches plower m x = Ok b -> (b = true <-> wanted m x).
Proof.
  destruct m as [[h|]|s]; cbn [matches wanted]; intros E.
  - injection E as <-. rewrite N.eqb_eq. split; congruence.
  - injection E as <-. split; discriminate.
  - apply rbind_Ok in E as (r & Er & E). apply rbind_Ok in E as (n & En & E). injection E as <-. apply getd_iff in Er; [|asc]. apply name_lower_iff in En as (t & -> & ->). destruct (eqbP (plower t) s) as [Ht|Ht]; split; try discriminate; try reflexivity; [intros _; exists t; auto|].
    intros (n & Hn & Hl). pose proof (field_value_fun "mScriptName" _ _ _ _ eq_refl Er Hn) as E'. injection E' as ->. congruence.
Qed.
Lemma find_spell_ok m es o : find_spell nm plower m es = Ok o ->
  match o with Some x => first_one (fun x => kind "SpellObject" x /\ wanted m x) es x | None => forall x, In x es -> kind "SpellObject" x -> ~ wanted m x end.
Proof.
  revert o. induction es as [|y es IH]; intros o E; cbn [find_spell] in E; [injection E as <-; intros x []|]. destruct (of_type nm (lit "SpellObject") y) eqn:Ek.
  - apply (of_type_iff nm "SpellObject" y eq_refl) in Ek. apply rbind_Ok in E as (b & Eb & E). apply matches_ok in Eb. destruct b.
    + injection E as <-. exists [], es. split; [reflexivity|]. split; [split; [exact Ek | apply Eb; reflexivity] | intros z []].
    + assert (Hw : ~ wanted m y) by (intros H; apply Eb in H; discriminate). specialize (IH o E). destruct o as [x|].
      * destruct IH as (pre & post & -> & Hx & Hn). exists (y :: pre), post. split; [reflexivity|]. split; [exact Hx|]. intros z [<-|Hz]; [tauto | auto].
      * intros z [<-|Hz]; [tauto | auto].
  - assert (Hk : ~ kind "SpellObject" y) by (intros H; apply (of_type_iff nm "SpellObject" y eq_refl) in H; congruence). specialize (IH o E). destruct o as [x|].
    + destruct IH as (pre & post & -> & Hx & Hn). exists (y :: pre), post. split; [reflexivity|]. split; [exact Hx|]. intros z [<-|Hz]; [tauto | auto].
    + intros z [<-|Hz]; [tauto | auto].
Qed.
Lemma variable_ok v nv : (let! o := bobj v in let! n := getn o (fld "mName") in let! n := getd o (fld "name") n in
  let! w := getn o (fld "mValues") in let! w := getd o (fld "values") w in Ok (n, w)) = Ok nv -> variable_of v nv.
Proof.
  intros E. apply rbind_Ok in E as (o & Eo & E). apply bobj_iff in Eo. apply rbind_Ok in E as (n0 & En0 & E). apply rbind_Ok in E as (n & En & E). apply rbind_Ok in E as (w0 & Ew0 & E). apply rbind_Ok in E as (w & Ew & E). injection E as <-. exists o. cbn [fst snd]. split; [exact Eo|].
  split; [apply prefer_iff; [asc | asc|]; unfold getn in En0; rewrite En0; exact En | apply prefer_iff; [asc | asc|]; unfold getn in Ew0; rewrite Ew0; exact Ew].
Qed.
Lemma spell_data_ok es m vars n t : spell_data nm plower es m = Ok (vars, n, t) -> spell_values nm es (wanted m) vars n t.
Proof.
  unfold spell_data. intros E. apply rbind_Ok in E as (o & Eo & E). apply find_spell_ok in Eo. destruct o as [x|]; [|injection E as <- <- <-; apply SV_none; exact Eo].
  apply rbind_Ok in E as (a & Ea & E). apply rbind_Ok in E as (a' & Ea' & E). apply rbind_Ok in E as (md & Emd & E). apply rbind_Ok in E as (dv & Edv & E). apply rbind_Ok in E as (l & El & E). apply rbind_Ok in E as (vs & Evs & E). apply rbind_Ok in E as (loc & Eloc & E).
  apply getn_iff in Ea; [|asc]. apply obj_iff in Ea' as (v & -> & Ea'). apply py_iter_iff in El. apply rmapM_Ok in Evs. assert (Hvs : Forall2 variable_of l vs) by (eapply Forall2_weak; [|exact Evs]; intros v0 nv; apply variable_ok).
  assert (Hdv : prefer "DataValues" "mDataValues" a' (RList []) dv) by (apply prefer_iff; [asc | asc|]; rewrite Emd; exact Edv).
  assert (G : vs = vars /\ spell_keys a' n t).
  { assert (NK : py_true loc = false -> n = RNone -> t = RNone -> spell_keys a' n t).
    { intros Hf -> ->. apply SK_none. intros v0 r Hv Hr. change [fld "mClientData"; fld "mTooltipData"; fld "mLocKeys"] with loc_path in Eloc. apply plain_iff in Hr. rewrite (get_path_follows a' loc_path v0 Hv), Hr in Eloc. injection Eloc as <-. apply py_true_iff; [intros ->; symmetry in Hr; destruct v0 as [| | | | | | | | | | | | |? [|]|]; discriminate | exact Hf]. }
    destruct loc as [ll|[|kv d]| |w| |].
    - destruct (py_true (RList ll)) eqn:Ht; [discriminate|]. injection E as <- <- <-. auto.
    - injection E as <- <- <-. auto.
    - injection E as <- <- <-. split; [reflexivity|]. destruct (get_path_only a' loc_path (RDict (kv :: d))) as (v0 & Hv & Hr); [discriminate | exact Eloc | discriminate|]. eapply SK_map; [exact Hv | apply plain_iff; symmetry; exact Hr | discriminate | apply dict_str_ok | apply dict_str_ok].
    - injection E as <- <- <-. auto.
    - destruct (py_true (RVal w)) eqn:Ht; [destruct w; discriminate|]. injection E as <- <- <-. auto.
    - discriminate.
    - injection E as <- <- <-. auto. }
  destruct G as [-> G]. eapply SV_some; eassumption.
Qed.
Lemma linked_traits_ok record keys : linked_traits nm record = Ok keys -> exists l, field_list "mLinkedTraits" record l /\ trait_keys nm l keys.
Proof.
  unfold linked_traits. intros E. apply rbind_Ok in E as (r & Er & E). apply rbind_Ok in E as (l & El & E). apply rmap_Ok in E as (ks & Ek & ->). apply getd_iff in Er; [|asc]. apply py_iter_iff in El. exists l. split; [exists r; auto|]. clear Er El. apply rmapM_Ok in Ek.
  induction Ek as [|v k l ks Hk F IH]; cbn [concat]; [constructor|].
  assert (G : (let! h := attr_h v in Ok [VInt (Z.of_N h)]) = Ok k -> trait_keys nm (v :: l) (k ++ concat ks)) by (intros E; apply rbind_Ok in E as (h & Eh & E); injection E as <-; apply attr_h_iff in Eh; cbn [app]; apply TK_hash; assumption).
  destruct v; try exact (G Hk). injection Hk as <-. apply TK_object; [|exact IH]. apply picks_filter. intros f. apply named_iff. asc.
Qed.

(** Success *)
Lemma getn_total s fs : ascii s -> exists r, getn fs (fld s) = Ok r.
Proof. apply getd_total. Qed.
Lemma base_value_complete s s' fs d r : base_value s s' fs d r -> ascii s -> ascii s' -> modifiable fs (fld s) (fld "BaseValue") (fld s') d = Ok r.
Proof.
  intros H A A'. unfold modifiable. destruct H as [r H1 H2|v o r H1 H2 H3]; apply getn_iff in H1; try exact A; rewrite H1; cbn [rbind is_none].
  - apply getd_iff; assumption.
  - rewrite (proj2 (obj_iff (RVal v) o)) by eauto. cbn [rbind]. apply getd_iff; [asc | exact H3].
Qed.
Lemma mana_complete fs r : mana_of fs r -> (let! res := getn fs (fld "primaryAbilityResource") in
  if is_none res then Ok (RVal (VInt 100)) else let! o := obj res in modifiable o (KInt 0x726ee5cd) (fld "BaseValue") (fld "arBase") (RVal (VInt 100))) = Ok r.
Proof.
  intros H. destruct H as [H1|v o r H1 H2 H3 H4|v o w o' r H1 H2 H3 H4 H5]; apply getn_iff in H1; try asc; rewrite H1; cbn [rbind is_none]; [reflexivity | |]; rewrite (proj2 (obj_iff (RVal v) o)) by eauto; cbn [rbind]; unfold modifiable;
    pose proof (proj2 (value_at_iff 1919870413 _ _ _) H3) as H3'; change (Z.of_N 1919870413) with 0x726ee5cd%Z in H3'; unfold getn; rewrite H3'; cbn [rbind is_none].
  - apply getd_iff; [asc | exact H4].
  - rewrite (proj2 (obj_iff (RVal w) o')) by eauto. cbn [rbind]. apply getd_iff; [asc | exact H5].
Qed.
Lemma cost_complete record champ r : cost record champ r -> exists r', cost_of record champ = Ok r'.
Proof.
  unfold cost_of. intros [t H1 H2|z H1 H2]; apply getn_iff in H1; try asc; rewrite H1; cbn [rbind].
  - apply is_none_false in H2. rewrite H2. eauto.
  - cbn [is_none]. apply getd_iff in H2; [|asc]. unfold num in H2. rewrite H2. cbn [rbind]. eauto.
Qed.
Lemma first_ref_complete l o : first_hash l o -> first_ref l = Ok o.
Proof.
  intros H. induction H as [|v l o Hv _ IH|v h l Hv Hh]; cbn [first_ref]; [reflexivity | |]; apply attr_h_iff in Hv; rewrite Hv; cbn [rbind]; [exact IH|]. destruct (N.eqb_spec h 0); [contradiction | reflexivity].
Qed.
Lemma after_slash_fun s t t' : after_slash s t -> after_slash s t' -> t = t'.
Proof.
  intros [Hn H] [Hn' H'].
  assert (Hc : forall a b t t' : str, ~ In cSlash t -> ~ In cSlash t' -> a ++ cSlash :: t = b ++ cSlash :: t' -> t = t').
  { clear. induction a as [|c a IH]; intros [|c' b] t t' Hn Hn' E; cbn [app] in E; [injection E as E2; exact E2 | injection E as E1 E2 ..].
    - exfalso. apply Hn. rewrite E2. apply in_or_app. right. left. reflexivity.
    - exfalso. apply Hn'. rewrite <- E2. apply in_or_app. right. left. reflexivity.
    - eapply IH; eassumption. }
  destruct H as [->|[a ->]], H' as [H'|[b H']]; auto.
  - exfalso. apply Hn. rewrite H'. apply in_or_app. right. left. reflexivity.
  - exfalso. apply Hn'. rewrite <- H'. apply in_or_app. right. left. reflexivity.
  - eapply Hc; eassumption.
Qed.
Lemma find_match_complete record want : spell_of plower record want -> exists m, find_match plower record = Ok (Some m) /\ forall x, want x <-> wanted m x.
Proof.
  intros H. unfold find_match. destruct H as [r l o H1 H2 H3|r s t H1 H2 H3 H4].
  - rewrite (proj2 (contains_true "spells" record eq_refl)) by eauto. cbn [rbind]. assert (E : getn record (fld "spells") = Ok r) by (apply getn_iff; [asc | left; exact H1]). rewrite E. cbn [rbind]. apply py_iter_iff in H2. rewrite H2. cbn [rbind]. rewrite (first_ref_complete _ _ H3). cbn [rbind].
    exists (ByPath o). split; [reflexivity|]. intros x. reflexivity.
  - rewrite (proj2 (contains_false "spells" record eq_refl)) by exact H1. cbn [rbind]. rewrite (proj2 (contains_true "spellNames" record eq_refl)) by eauto. cbn [rbind]. assert (E : getn record (fld "spellNames") = Ok r) by (apply getn_iff; [asc | left; exact H2]). rewrite E. cbn [rbind].
    exists (ByName (plower (last_part s))). rewrite (after_slash_fun _ _ _ H4 (last_part_ok s)). split; [destruct H3; reflexivity | intros x; reflexivity].
Qed.
Lemma find_spell_total m es : usable_spells nm es -> exists o, find_spell nm plower m es = Ok o.
Proof.
  induction es as [|y es IH]; intros H; cbn [find_spell]; [eauto|]. destruct IH as [o IH]; [intros x Hx; apply H; right; exact Hx|]. destruct (of_type nm (lit "SpellObject") y) eqn:Ek; [|eauto].
  apply (of_type_iff nm "SpellObject" y eq_refl) in Ek. destruct (H y (or_introl eq_refl) Ek) as [[n Hn] _].
  assert (G : exists b, matches plower m y = Ok b). { destruct m as [[h|]|s]; cbn [matches]; eauto. apply getd_iff in Hn; [|asc]. rewrite Hn. cbn [rbind name_lower]. eauto. }
  destruct G as [[|] ->]; cbn [rbind]; eauto.
Qed.
Lemma variable_complete v nv : variable_of v nv -> (let! o := bobj v in let! n := getn o (fld "mName") in let! n := getd o (fld "name") n in
  let! w := getn o (fld "mValues") in let! w := getd o (fld "values") w in Ok (n, w)) = Ok nv.
Proof.
  intros (fs & Hf & Hn & Hv). apply bobj_iff in Hf. rewrite Hf. cbn [rbind]. destruct nv as [n w]. cbn [fst snd] in *. apply prefer_iff in Hn; [|asc|asc]. apply prefer_iff in Hv; [|asc|asc]. apply rbind_Ok in Hn as (n' & E1 & E2). apply rbind_Ok in Hv as (w' & E3 & E4).
  unfold getn. rewrite E1. cbn [rbind]. rewrite E2. cbn [rbind]. rewrite E3. cbn [rbind]. rewrite E4. reflexivity.
Qed.
Lemma spell_data_complete es m want vars n t : usable_spells nm es -> (forall x, want x <-> wanted m x) -> spell_values nm es want vars n t -> exists r, spell_data nm plower es m = Ok r.
Proof.
  intros Hu Hw H. unfold spell_data. destruct (find_spell_total m es Hu) as [o Eo]. rewrite Eo. cbn [rbind]. apply find_spell_ok in Eo. destruct o as [x|]; [|eauto]. destruct H as [Hnone|x' v a r l vs n t Hx Hv Ha Hr Hl Hvs Hk].
  - destruct Eo as (pre & post & -> & [Hk Hx] & _). destruct (Hnone x); [apply in_or_app; right; left; reflexivity | exact Hk | apply Hw, Hx].
  - assert (x' = x) as ->. { apply (first_one_fun (fun x => kind "SpellObject" x /\ wanted m x) es); [|exact Eo]. destruct Hx as (pre & post & E & [Hk' Hx] & Hn). exists pre, post. split; [exact E|]. split; [split; [exact Hk' | apply Hw, Hx]|]. intros y Hy [H1 H2]. apply (Hn y Hy). split; [exact H1 | apply Hw, H2]. }
    assert (Hin : In x es) by (destruct Eo as (pre & post & -> & _); apply in_or_app; right; left; reflexivity). assert (Hkx : kind "SpellObject" x) by (destruct Eo as (pre & post & _ & [Hk' _] & _); exact Hk').
    pose proof (proj2 (Hu x Hin Hkx) v a Hv Ha) as Hloc. apply getn_iff in Hv; [|asc]. rewrite Hv. cbn [rbind]. rewrite (proj2 (obj_iff (RVal v) a)) by eauto. cbn [rbind]. apply prefer_iff in Hr; [|asc|asc]. apply rbind_Ok in Hr as (md & E1 & E2). rewrite E1. cbn [rbind]. rewrite E2. cbn [rbind]. apply py_iter_iff in Hl. rewrite Hl. cbn [rbind].
    assert (Ev : rmapM (fun v => let! o := bobj v in let! n := getn o (fld "mName") in let! n := getd o (fld "name") n in let! w := getn o (fld "mValues") in let! w := getd o (fld "values") w in Ok (n, w)) l = Ok vs) by (apply rmapM_Ok; eapply Forall2_weak; [|exact Hvs]; intros v0 nv; apply variable_complete).
    rewrite Ev. cbn [rbind]. change [fld "mClientData"; fld "mTooltipData"; fld "mLocKeys"] with loc_path. destruct Hk as [w d n t Hf Hp Hd _ _|Hnone].
    + rewrite (get_path_follows a loc_path w Hf). apply plain_iff in Hp. rewrite Hp. cbn [rbind]. destruct d as [|kv d]; [contradiction|]. eauto.
    + destruct Hloc as [Hm|[w Hf]]; [rewrite (get_path_misses a loc_path Hm); cbn [rbind py_true]; eauto|]. rewrite (get_path_follows a loc_path w Hf). cbn [rbind]. pose proof (Hnone w (to_python w) Hf (proj2 (plain_iff _ _) eq_refl)) as Hfa.
      assert (Hnd : to_python w <> RDefault) by (destruct w as [| | | | | | | | | | | | |? [|]|]; discriminate). apply py_true_iff in Hfa; [|exact Hnd]. rewrite Hfa. destruct (to_python w) as [ll|[|kv d]| |w'| |]; eauto.
Qed.
Lemma linked_traits_complete record l keys : field_list "mLinkedTraits" record l -> trait_keys nm l keys -> exists ks, linked_traits nm record = Ok ks.
Proof.
  intros (r & Hr & Hl) H. unfold linked_traits. apply getd_iff in Hr; [|asc]. rewrite Hr. cbn [rbind]. apply py_iter_iff in Hl. rewrite Hl. cbn [rbind].
  match goal with |- exists ks, rmap _ (rmapM ?f l) = Ok ks => assert (G : exists ks, rmapM f l = Ok ks) end.
  { clear Hr Hl. induction H as [|h fs fs' l r' _ _ [ks IH]|v h l r' Hv _ [ks IH]]; [exists []; reflexivity | |]; cbn [rmapM]; rewrite IH.
    - cbn [rbind]. eauto.
    - destruct Hv; cbn [rbind attr_h]; eauto. }
  destruct G as [ks E]. rewrite E. eexists. reflexivity.
Qed.

Variable map22 : list bentry.
Variable ts : list (N * trait).
Hypothesis ts_ok : table_of (trait_entry nm) (trait_of nm repr) map22 ts.

Lemma traits_named keys : gathers (at_key (trait_entry nm) map22) (fun t ns => exists n, ns = [n] /\ field_value "mDisplayNameTra" (be_fields t) RNone n) keys
  (flat_map (fun v => match hget v ts with Some t => [tr_name t] | None => [] end) keys).
Proof.
  induction keys as [|v keys IH]; cbn [flat_map]; [constructor|]. destruct (hget v ts) as [t|] eqn:E.
  - destruct (table_Some _ _ _ _ _ _ ts_ok E) as (x & Hx & _ & Hn & _). eapply G_take; [exact Hx | exists (tr_name t); split; [reflexivity | exact Hn] | exact IH].
  - apply G_skip; [exact (table_None _ _ _ _ _ ts_ok E) | exact IH].
Qed.

Lemma parse_champ_ok x o : kind "TftShopData" x -> parse_champ nm repr plower exists_bin load_bin fdiv dir (by_path (filter (of_type nm (lit "TFTCharacterRoleData")) map22)) ts x = Ok o ->
  match o with None => ~ champ_entry nm plower exists_bin load_bin dir x | Some (n, c) => champ_of nm repr plower exists_bin load_bin fdiv dir map22 x c /\ shop_name plower x n end.
Proof.
  intros Hk E. unfold parse_champ in E. cbv zeta in E. apply rbind_Ok in E as (api & Eapi & E). apply rbind_Ok in E as (name & Ename & E). apply getn_iff in Eapi; [|asc]. apply name_lower_iff in Ename as (s & -> & ->).
  assert (Hname : shop_name plower x (plower s)) by (exists s; auto).
  assert (Huniq : forall n, shop_name plower x n -> n = plower s) by (intros n (s' & Hs & ->); pose proof (field_value_fun "mName" _ _ _ _ eq_refl Eapi Hs) as E'; injection E' as ->; reflexivity).
  destruct (eqbP (plower s) (lit "tft_template")) as [Et|Et].
  { injection E as <-. intros (es & rec & _ & n & file & Hn & Hne & _). apply Huniq in Hn. congruence. }
  destruct (champ_file exists_bin dir (plower s)) as [file|] eqn:Ef.
  2:{ injection E as <-. intros (es & rec & _ & n & file & Hn & _ & Hf & _). apply Huniq in Hn. subst n. apply file_iff in Hf. congruence. }
  apply rbind_Ok in E as (es & Ees & E). apply file_iff in Ef. pose proof (find_one (kind "TFTCharacterRecord") _ es (fun y => of_type_iff nm "TFTCharacterRecord" y eq_refl)) as Hrec. 
  assert (Hfile : forall f, file_of exists_bin dir (plower s) f -> f = file) by (intros f Hf; apply file_iff in Hf, Ef; congruence).
  destruct (find (of_type nm (lit "TFTCharacterRecord")) es) as [rec|].
  2:{ injection E as <-. intros (es' & rec & _ & n & f & Hn & _ & Hf & Hl & (pre & post & Ee & Hr & _) & _). apply Huniq in Hn. subst n. rewrite (Hfile f Hf), Ees in Hl. injection Hl as <-. apply (Hrec rec); [rewrite Ee; apply in_or_app; right; left; reflexivity | exact Hr]. }
  apply rbind_Ok in E as (m & Em & E). destruct m as [m|].
  2:{ injection E as <-. apply find_match_none in Em. intros (es' & rec' & _ & n & f & Hn & _ & Hf & Hl & Hr & Hs). apply Huniq in Hn. subst n. rewrite (Hfile f Hf), Ees in Hl. injection Hl as <-. rewrite (first_one_fun _ _ _ _ Hr Hrec) in Hs. exact (Hs Em). }
  assert (Hs : ~ (missing "spells" (be_fields rec) /\ missing "spellNames" (be_fields rec))) by (intros H; apply find_match_none in H; congruence).
  apply find_match_ok in Em.
  apply rbind_Ok in E as (keys & Ekeys & E). apply rbind_Ok in E as ([[vars kname] ktip] & Espell & E). apply rbind_Ok in E as (cst & Ecost & E). apply rbind_Ok in E as (rk & Erk & E). apply rbind_Ok in E as (role & Erole & E).
  apply rbind_Ok in E as (res & Eres & E). apply rbind_Ok in E as (mana & Emana & E). apply rbind_Ok in E as (character & Echar & E). apply rbind_Ok in E as (display & Edisp & E). apply rbind_Ok in E as (splash & Esplash & E). apply rbind_Ok in E as (icon & Eicon & E). apply rbind_Ok in E as (tile & Etile & E). apply rbind_Ok in E as (square & Esquare & E).
  apply rbind_Ok in E as (hp & Ehp & E). apply rbind_Ok in E as (initial & Einit & E). apply rbind_Ok in E as (damage & Edam & E). apply rbind_Ok in E as (armor & Earm & E). apply rbind_Ok in E as (mr & Emr & E). apply rbind_Ok in E as (crit & Ecrit & E). apply rbind_Ok in E as (chance & Echance & E). apply rbind_Ok in E as (speed & Espeed & E). apply rbind_Ok in E as (range & Erange & E). apply rbind_Ok in E as (range' & Erange' & E).
  apply rbind_Ok in E as (aname & Ean & E). apply rbind_Ok in E as (adesc & Ead & E). apply rbind_Ok in E as (aicon & Eai & E). apply rbind_Ok in E as (picon & Epi & E). injection E as <-. split; [|exact Hname].
  assert (Hmana : mana_of (be_fields rec) mana) by (apply mana_ok; rewrite Eres; exact Emana).
  apply getn_iff in Erk, Echar, Edisp, Esplash, Eicon, Etile, Esquare, Ecrit, Echance, Ean, Ead, Eai, Epi; try asc. apply getd_iff in Einit; [|asc].
  apply linked_traits_ok in Ekeys as (l & Hl & Hkeys). apply spell_data_ok in Espell. apply cost_ok in Ecost. apply range_ok in Erange'.
  exists es, rec. split; [split; [exact Hk|]; exists (plower s), file; auto 10|]. cbv zeta. cbn [ch_api ch_character ch_name ch_cost ch_role ch_stats ch_icon ch_tile ch_square ch_traits ch_ability ab_vars ab_name ab_desc ab_icon].
  split; [exact Eapi|]. split; [exact Echar|]. split; [exact Edisp|]. split; [exact Ecost|]. split.
  { destruct rk as [| | |v| |]; try discriminate; [injection Erole as <-; left; auto|]. right. destruct (hget v _) as [y|] eqn:Ey in Erole; [|discriminate]. apply getn_iff in Erole; [|asc]. exists v, y. split; [exact Erk|]. split; [|exact Erole]. apply (hget_path (kind "TFTCharacterRoleData") (of_type nm (lit "TFTCharacterRoleData")) map22 v y); [intros z; apply of_type_iff; asc | exact Ey]. }
  split.
  { exists hp, mana, initial, damage, armor, mr, crit, chance, speed, range', range. split; [reflexivity|]. split; [apply base_value_ok; [asc | asc | exact Ehp]|]. split; [exact Hmana|]. split; [exact Einit|]. split; [apply base_value_ok; [asc | asc | exact Edam]|]. split; [apply base_value_ok; [asc | asc | exact Earm]|]. split; [apply base_value_ok; [asc | asc | exact Emr]|].
    split; [exact Ecrit|]. split; [exact Echance|]. split; [apply base_value_ok; [asc | asc | exact Espeed]|]. split; [apply base_value_ok; [asc | asc | exact Erange] | exact Erange']. }
  split; [exists splash, icon; split; [exact Esplash|]; split; [exact Eicon | apply text_or_ok; exact (field_proper _ _ _ _ Esplash proper_none)]|].
  split; [exists tile; split; [exact Etile | apply py_str_of; exact (field_proper _ _ _ _ Etile proper_none)]|]. split; [exists square; split; [exact Esquare | apply py_str_of; exact (field_proper _ _ _ _ Esquare proper_none)]|].
  split; [exists l, keys; split; [exact Hl|]; split; [exact Hkeys | apply traits_named]|].
  exists (wanted m), kname, ktip. split; [exact Em|]. split; [exact Espell|]. split; [exists aname; split; [exact Ean | apply value_or_ok; exact (proj1 (field_proper _ _ _ _ Ean proper_none))]|]. split; [exists adesc; split; [exact Ead | apply value_or_ok; exact (proj1 (field_proper _ _ _ _ Ead proper_none))]|].
  exists aicon, picon. split; [exact Eai|]. split; [exact Epi | apply text_or_ok; exact (field_proper _ _ _ _ Eai proper_none)].
Qed.

Lemma parse_champ_complete x : kind "TftShopData" x -> champ_ready nm repr plower exists_bin load_bin fdiv dir map22 x ->
  exists o, parse_champ nm repr plower exists_bin load_bin fdiv dir (by_path (filter (of_type nm (lit "TFTCharacterRoleData")) map22)) ts x = Ok o.
Proof.
  intros Hk (s & Hs & H). assert (Huniq : forall n, shop_name plower x n -> n = plower s) by (intros n (s' & Hs' & ->); pose proof (field_value_fun "mName" _ _ _ _ eq_refl Hs Hs') as E'; injection E' as ->; reflexivity).
  unfold parse_champ. cbv zeta. assert (Eapi : getn (be_fields x) (fld "mName") = Ok (RVal (VStr s))) by (apply getn_iff; [asc | exact Hs]). rewrite Eapi. cbn [rbind name_lower].
  destruct (eqbP (plower s) (lit "tft_template")) as [Et|Et]; [eauto|]. destruct (champ_file exists_bin dir (plower s)) as [file|] eqn:Ef; [|eauto]. apply file_iff in Ef. destruct (H file Et Ef) as (es & Ees & Hu & Hc). rewrite Ees. cbn [rbind].
  pose proof (find_one (kind "TFTCharacterRecord") _ es (fun y => of_type_iff nm "TFTCharacterRecord" y eq_refl)) as Hrec. destruct (find (of_type nm (lit "TFTCharacterRecord")) es) as [rec|]; [|eauto].
  assert (Hd : (missing "spells" (be_fields rec) /\ missing "spellNames" (be_fields rec)) \/ ~ (missing "spells" (be_fields rec) /\ missing "spellNames" (be_fields rec))).
  { destruct (contains_cases "spells" (be_fields rec) eq_refl) as [[_ [r Hp]]|[_ Hm]]; [right; intros [Hm _]; exact (present_missing _ _ _ Hp Hm)|]. destruct (contains_cases "spellNames" (be_fields rec) eq_refl) as [[_ [r Hp]]|[_ Hm']]; [right; intros [_ Hm']; exact (present_missing _ _ _ Hp Hm') | left; auto]. }
  destruct Hd as [Hd|Hd]; [apply (find_match_none (be_fields rec)) in Hd; rewrite Hd; cbn [rbind]; eauto|].
  destruct Hc as (c & es' & rec' & (_ & n & f & Hn & _ & Hf & Hl & Hr & _) & Hc). { exists es, rec. split; [exact Hk|]. exists (plower s), file. split; [exists s; auto|]. auto 10. }
  apply Huniq in Hn. subst n. assert (f = file) as -> by (apply file_iff in Hf, Ef; congruence). rewrite Ees in Hl. injection Hl as <-. rewrite (first_one_fun _ _ _ _ Hr Hrec) in Hc. clear rec' Hr. cbv zeta in Hc.
  destruct Hc as (_ & _ & _ & Hcost & Hrole & Hstats & _ & _ & _ & (l & keys & Hl & Hkeys & _) & want & kname & ktip & Hwant & Hspell & _).
  destruct (find_match_complete _ _ Hwant) as (m & -> & Hw). cbn [rbind]. destruct (linked_traits_complete _ _ _ Hl Hkeys) as [ks ->]. cbn [rbind]. destruct (spell_data_complete _ _ _ _ _ _ Hu Hw Hspell) as [[[vars kn] kt] ->]. cbn [rbind]. destruct (cost_complete _ _ _ Hcost) as [cst ->]. cbn [rbind].
  assert (Hrl : exists rk role, getn (be_fields rec) (fld "CharacterRole") = Ok rk /\ (match rk with RNone => Ok RNone | RVal v => match hget v (by_path (filter (of_type nm (lit "TFTCharacterRoleData")) map22)) with Some r => getn (be_fields r) (fld "name") | None => Err KeyError end | _ => Err TypeError end) = Ok role).
  { destruct Hrole as [[Hr _]|(v & y & Hr & Hy & Hn)]; apply getn_iff in Hr; try asc; [eauto|]. exists (RVal v), (ch_role c). split; [exact Hr|]. apply (hget_path (kind "TFTCharacterRoleData") (of_type nm (lit "TFTCharacterRoleData")) map22 v y) in Hy; [|intros z; apply of_type_iff; asc]. rewrite Hy. apply getn_iff; [asc | exact Hn]. }
  destruct Hrl as (rk & role & -> & Er). cbn [rbind]. rewrite Er. cbn [rbind].
  destruct Hstats as (hp & mana & initial & damage & armor & mr & crit & chance & speed & range & range' & _ & Hhp & Hmana & Hinit & Hdam & Harm & Hmr & _ & _ & Hspeed & Hrange & Hcells).
  pose proof (mana_complete _ _ Hmana) as Em. match type of Em with context [getn ?fs (fld ?k)] => destruct (getn_total k fs eq_refl) as [res Eres] end. rewrite Eres in Em |- *. cbn [rbind] in Em |- *. rewrite Em. cbn [rbind].
  repeat match goal with |- context [getn ?fs (fld ?k)] => destruct (getn_total k fs eq_refl) as [? ->] end. cbn [rbind].
  rewrite (base_value_complete _ _ _ _ _ Hhp eq_refl eq_refl). apply getd_iff in Hinit; [|asc]. cbn [rbind]. unfold num in Hinit. rewrite Hinit. cbn [rbind].
  rewrite (base_value_complete _ _ _ _ _ Hdam eq_refl eq_refl). cbn [rbind]. rewrite (base_value_complete _ _ _ _ _ Harm eq_refl eq_refl). cbn [rbind]. rewrite (base_value_complete _ _ _ _ _ Hmr eq_refl eq_refl). cbn [rbind].
  repeat match goal with |- context [getn ?fs (fld ?k)] => destruct (getn_total k fs eq_refl) as [? ->] end. cbn [rbind].
  rewrite (base_value_complete _ _ _ _ _ Hspeed eq_refl eq_refl). cbn [rbind]. pose proof (base_value_complete _ _ _ _ _ Hrange eq_refl eq_refl) as Erange. unfold num in Erange. rewrite Erange. cbn [rbind].
  assert (Ec : range_of fdiv range' = Ok range) by (destruct Hcells; reflexivity). rewrite Ec. cbn [rbind].
  repeat match goal with |- context [getn ?fs (fld ?k)] => destruct (getn_total k fs eq_refl) as [? ->] end. cbn [rbind]. eauto.
Qed.
Lemma parse_champs_total : (forall x, In x map22 -> kind "TftShopData" x -> champ_ready nm repr plower exists_bin load_bin fdiv dir map22 x) -> exists d, parse_champs nm repr plower exists_bin load_bin fdiv dir map22 ts = Ok d.
Proof.
  intros H. unfold parse_champs. rewrite dict_loop_nil. destruct (list_loop_total (parse_champ nm repr plower exists_bin load_bin fdiv dir (by_path (filter (of_type nm (lit "TFTCharacterRoleData")) map22)) ts) (filter (of_type nm (lit "TftShopData")) map22)) as [r E]; [|rewrite E; cbn [rmap rbind]; eauto].
  intros x Hx. apply filter_In in Hx as [Hx Hk]. apply (of_type_iff nm "TftShopData" x eq_refl) in Hk. apply parse_champ_complete; auto.
Qed.

Lemma champ_kind x : champ_entry nm plower exists_bin load_bin dir x -> of_type nm (lit "TftShopData") x = true.
Proof. intros (es & rec & Hk & _). apply of_type_iff; [asc | exact Hk]. Qed.
Lemma champ_of_entry x c : champ_of nm repr plower exists_bin load_bin fdiv dir map22 x c -> champ_entry nm plower exists_bin load_bin dir x.
Proof. intros (es & rec & H & _). exists es, rec. exact H. Qed.
Lemma parse_champs_ok d : parse_champs nm repr plower exists_bin load_bin fdiv dir map22 ts = Ok d ->
  (forall n c, dget n d = Some c -> exists pre x post, map22 = pre ++ x :: post /\ shop_name plower x n /\ champ_of nm repr plower exists_bin load_bin fdiv dir map22 x c /\
    forall y, In y post -> champ_entry nm plower exists_bin load_bin dir y -> ~ shop_name plower y n) /\
  (forall x n, In x map22 -> champ_entry nm plower exists_bin load_bin dir x -> shop_name plower x n -> exists c, dget n d = Some c) /\ NoDup (map fst d).
Proof.
  unfold parse_champs. rewrite dict_loop_nil. intros E. apply rmap_Ok in E as (kvs & E & ->).
  set (P := champ_entry nm plower exists_bin load_bin dir). set (Q := champ_of nm repr plower exists_bin load_bin fdiv dir map22).
  assert (HL : forall x o, In x (filter (of_type nm (lit "TftShopData")) map22) -> parse_champ nm repr plower exists_bin load_bin fdiv dir (by_path (filter (of_type nm (lit "TFTCharacterRoleData")) map22)) ts x = Ok o ->
    match o with None => ~ P x | Some kv => P x /\ Q x (snd kv) /\ shop_name plower x (fst kv) end).
  { intros x o Hx Eo. apply filter_In in Hx as [_ Hk]. apply (of_type_iff nm "TftShopData" x eq_refl) in Hk. pose proof (parse_champ_ok x o Hk Eo) as H. destruct o as [[n c]|]; [|exact H]. cbn [fst snd]. split; [exact (champ_of_entry x c (proj1 H)) | exact H]. }
  destruct (list_loop_picks P (fun x kv => Q x (snd kv) /\ shop_name plower x (fst kv)) _ _ _ HL E) as (sel & Hp & F). apply (proj1 (picks_through P _ map22 sel champ_kind)) in Hp.
  assert (fn : forall x n n', shop_name plower x n -> shop_name plower x n' -> n = n') by (intros x n n' (s & Hs & ->) (s' & Hs' & ->); pose proof (field_value_fun "mName" _ _ _ _ eq_refl Hs Hs') as E'; injection E' as ->; reflexivity).
  split; [|split; [|apply dict_of_NoDup]].
  - intros n c Ec. pose proof (dict_of_last n kvs) as H. rewrite Ec in H. inversion H as [|k1 v k2 Hn E1 E2]; subst. apply Forall2_app_inv_r in F as (s1 & s2 & F1 & F2 & ->). inversion F2 as [|x y s2' l' [HQ Hx] F3]; subst. cbn [fst snd] in *.
    destruct (picks_split P map22 s1 x s2' Hp) as (e1 & e2 & -> & Hp2). exists e1, x, e2. split; [reflexivity|]. split; [exact Hx|]. split; [exact HQ|]. intros y Hy HP Hyn.
    assert (Hs : In y s2') by (apply (picks_In P e2 s2' y Hp2); auto). destruct (Forall2_in_l _ _ _ _ F3 Hs) as ([n' c'] & Hin & _ & Hn'). cbn [fst] in Hn'. rewrite (fn y n' n Hn' Hyn) in Hin. exact (Hn c' Hin).
  - intros x n Hx HP Hn. assert (Hs : In x sel) by (apply (picks_In P map22 sel x Hp); auto). destruct (Forall2_in_l _ _ _ _ F Hs) as ([n' c'] & Hin & _ & Hn'). cbn [fst] in Hn'. rewrite (fn x n' n Hn' Hn) in Hin.
    destruct (dget n (dict_of kvs)) as [c|] eqn:Ec; [eauto|]. pose proof (dict_of_last n kvs) as H. rewrite Ec in H. inversion H as [l Hno|]; subst. destruct (Hno c' Hin).
Qed.
End Champ.
