(** * Proofs about the export of the TFT data *)

From Verif Require Import Base.Py Base.PyFacts Base.Text Base.TextFacts Spec.DictSpec Spec.BinAccessSpec Spec.GameDataSpec Spec.TftSpec Spec.TftChampSpec Spec.TftExportSpec Proofs.BinAccessProofs Model.BinFile Model.Rst Model.Translations Model.Tft.
From Coq Require Import Permutation.
From Verif Require Import Proofs.DictProofs Proofs.GameDataProofs Proofs.TftProofs Proofs.TftSetProofs Proofs.TftChampProofs Props.RstProps.

Lemma entry_fun xxh3 xxh64 plower tr r t t' : entry_for xxh3 xxh64 plower tr r t -> entry_for xxh3 xxh64 plower tr r t' -> t = t'.
Proof. intros H H'. destruct H; inversion H'; subst; try discriminate; match goal with G : _ = ?f _ |- _ => injection G as -> end; congruence. Qed.
Lemma translation_ok xxh3 xxh64 plower tr r o : translation xxh3 xxh64 plower tr r = Ok o -> match o with Some t => entry_for xxh3 xxh64 plower tr r t | None => forall t, ~ entry_for xxh3 xxh64 plower tr r t end.
Proof.
  unfold translation. destruct tr as [x|d].
  - assert (Hd : forall e, rst_get xxh3 xxh64 plower x (rkey_of r) None = Ok e -> forall t, (rst_getitem xxh3 xxh64 plower x (rkey_of r) = Ok t <-> e = Some t)).
    { intros e He t. destruct (C32_agree xxh3 xxh64 plower x (rkey_of r) None) as [(_ & t' & A & B)|(_ & A & B)]; rewrite B in He; injection He as <-; rewrite A; split; congruence. }
    intros E. specialize (Hd o E).
    assert (He : forall t, entry_for xxh3 xxh64 plower (FromRst x) r t <-> rst_getitem xxh3 xxh64 plower x (rkey_of r) = Ok t).
    { intros t. split.
      - intros H. inversion H as [d s u Et Ed|y s u Et Ed|y z u Et Ed|y b u Et Ed]; subst; try discriminate; injection Et as <-; cbn [rkey_of].
        + rewrite C32_lookup, Ed. reflexivity.
        + rewrite C32_lookup_int, Ed. reflexivity.
        + rewrite C32_lookup_int, Ed. reflexivity.
      - destruct r as [| | |v| |]; try (cbn [rkey_of]; discriminate). destruct v; cbn [rkey_of]; try discriminate.
        + rewrite C32_lookup_int. intros H. eapply EN_bool; [reflexivity|]. destruct (dget _ _); [injection H as ->; reflexivity | discriminate].
        + rewrite C32_lookup_int. intros H. eapply EN_int; [reflexivity|]. destruct (dget _ _); [injection H as ->; reflexivity | discriminate].
        + rewrite C32_lookup. intros H. eapply EN_rst; [reflexivity|]. destruct (dget _ _); [injection H as ->; reflexivity | discriminate]. }
    destruct o as [t|]; [apply He, Hd; reflexivity|]. intros t H. apply He, Hd in H. discriminate.
  - intros E. destruct o as [t|].
    + destruct r as [| | |v| |]; try discriminate. destruct v; try discriminate. injection E as E. eapply EN_text; [reflexivity | exact E].
    + intros t H. inversion H as [d' s u Et Ed|y s u Et Ed|y z u Et Ed|y b u Et Ed]; subst; try discriminate. injection Et as <-. congruence.
Qed.

Section Translation.
Variable xxh3 xxh64 : str -> N.
Variable plower : str -> str.
Variable tr : translations.
Notation entry_for := (entry_for xxh3 xxh64 plower tr).
Notation translated := (translated xxh3 xxh64 plower tr).
Notation replace := (replace xxh3 xxh64 plower tr).
Notation translation := (translation xxh3 xxh64 plower tr).

Lemma replace_ok r r' : replace r = Ok r' -> translated r r'.
Proof.
  unfold replace. intros E. apply rbind_Ok in E as (o & Eo & E). injection E as <-. apply translation_ok in Eo. destruct o as [t|]; [left; eauto | right; auto].
Qed.
Lemma translated_fun r a b : translated r a -> translated r b -> a = b.
Proof. intros [(t & H & ->)|[H ->]] [(t' & H' & ->)|[H' ->]]; try reflexivity; [rewrite (entry_fun _ _ _ _ _ _ _ H H'); reflexivity | destruct (H' _ H) | destruct (H _ H')]. Qed.
Lemma translated_again r a b : final xxh3 xxh64 plower tr -> translated r a -> translated a b -> b = a.
Proof.
  intros F [(t & H & ->)|[H ->]] [(t' & H' & ->)|[H' ->]]; try reflexivity; [rewrite (F _ _ _ H H'); reflexivity | destruct (H _ H')].
Qed.

Lemma replace_trait_ok x y : replace_trait xxh3 xxh64 plower tr x = Ok y -> trait_translated xxh3 xxh64 plower tr x y.
Proof. unfold replace_trait. intros E. apply rbind_Ok in E as (n & En & E). apply rbind_Ok in E as (d & Ed & E). injection E as <-. repeat split; cbn [tr_name tr_desc]; apply replace_ok; assumption. Qed.
Lemma replace_ability_ok x y : replace_ability xxh3 xxh64 plower tr x = Ok y -> ability_translated xxh3 xxh64 plower tr x y.
Proof. unfold replace_ability. intros E. apply rbind_Ok in E as (n & En & E). apply rbind_Ok in E as (d & Ed & E). injection E as <-. repeat split; cbn [ab_name ab_desc]; apply replace_ok; assumption. Qed.
Lemma replace_champ_ok x y : replace_champ xxh3 xxh64 plower tr x = Ok y -> champ_translated xxh3 xxh64 plower tr x y.
Proof.
  unfold replace_champ. intros E. apply rbind_Ok in E as (n & En & E). apply rbind_Ok in E as (l & El & E). apply rbind_Ok in E as (a & Ea & E). injection E as <-.
  split; [apply replace_ok, En|]. split; [|split; [apply replace_ability_ok, Ea | repeat split]]. cbn [ch_traits].
  apply rmapM_Ok in El. induction El as [|u v l l' Huv _ IH]; constructor; [apply replace_ok, Huv | exact IH].
Qed.
Lemma replace_item_ok x y : replace_item xxh3 xxh64 plower tr x = Ok y -> item_translated xxh3 xxh64 plower tr x y.
Proof. unfold replace_item. intros E. apply rbind_Ok in E as (n & En & E). apply rbind_Ok in E as (d & Ed & E). injection E as <-. repeat split; cbn [ti_name ti_desc]; apply replace_ok; assumption. Qed.

Hypothesis F : final xxh3 xxh64 plower tr.
Lemma trait_again x y z : trait_translated xxh3 xxh64 plower tr x y -> trait_translated xxh3 xxh64 plower tr y z -> z = y.
Proof.
  intros (A1 & A2 & _) (B1 & B2 & B3 & B4 & B5). pose proof (translated_again _ _ _ F A1 B1). pose proof (translated_again _ _ _ F A2 B2). destruct y, z. cbn in *. congruence.
Qed.
Lemma list_again l m n : Forall2 translated l m -> Forall2 translated m n -> n = m.
Proof. intros H. revert n. induction H as [|a b l m Hab _ IH]; intros n H'; inversion H'; subst; [reflexivity|]. f_equal; [eapply translated_again; eassumption | apply IH; assumption]. Qed.
Lemma champ_again x y z : champ_translated xxh3 xxh64 plower tr x y -> champ_translated xxh3 xxh64 plower tr y z -> z = y.
Proof.
  intros (A1 & A2 & (A3 & A4 & _) & _) (B1 & B2 & (B3 & B4 & B5 & B6) & C1 & C2 & C3 & C4 & C5 & C6 & C7 & C8). pose proof (translated_again _ _ _ F A1 B1). pose proof (list_again _ _ _ A2 B2).
  pose proof (translated_again _ _ _ F A3 B3). pose proof (translated_again _ _ _ F A4 B4). destruct y as [? ? ? ? ? ? ? ? ? ? [? ? ? ?]], z as [? ? ? ? ? ? ? ? ? ? [? ? ? ?]]. cbn in *. congruence.
Qed.
End Translation.

Lemma times_once {A} (R : A -> A -> Prop) n x z : (forall x y z, R x y -> R y z -> z = y) -> times R (S n) x z -> R x z.
Proof.
  intros HR H. inversion H as [|n' x' y z' Hxy Hyz]; subst. clear H. revert x Hxy Hyz. induction n as [|n IH]; intros x Hxy Hyz; inversion Hyz as [|n' x' y' z' Hyy Hyz']; subst; [exact Hxy|].
  pose proof (HR _ _ _ Hxy Hyy). subst y'. apply IH; assumption.
Qed.
Lemma times_app {A} (R : A -> A -> Prop) n m x y z : times R n x y -> times R m y z -> times R (n + m) x z.
Proof. induction 1 as [|n x y' y Hxy _ IH]; intros Hz; [exact Hz|]. econstructor; [exact Hxy | apply IH, Hz]. Qed.
Lemma appears_app {K} (k : K) l m a b : appears k l a -> appears k m b -> appears k (l ++ m) (a + b).
Proof. induction 1; intros Hb; [exact Hb | cbn; constructor; auto | cbn; constructor; auto]. Qed.
Lemma appears_In {K} (k : K) l n : appears k l n -> In k l -> exists m, n = S m.
Proof. induction 1 as [|l n _ IH|k' l n Hn _ IH]; intros Hin; [destruct Hin | eauto |]. destruct Hin as [->|Hin]; [destruct (Hn eq_refl) | apply IH, Hin]. Qed.
Lemma appears_total {K} `{EqDec K} (k : K) l : exists n, appears k l n.
Proof. induction l as [|x l (n & IH)]; [exists 0%nat; constructor|]. destruct (eqbP x k) as [->|Hn]; [exists (S n) | exists n]; constructor; assumption. Qed.

(** Each object is modified as many times as its key appears. *)
Definition modified {K V} `{EqDec K} (R : V -> V -> Prop) (ks : list K) (d d' : list (K * V)) : Prop :=
  forall k n, appears k ks n -> match dget k d with Some v => exists v', dget k d' = Some v' /\ times R n v v' | None => dget k d' = None end.
Lemma modified_app {K V} `{EqDec K} (R : V -> V -> Prop) (ks ks' : list K) d e f : modified R ks d e -> modified R ks' e f -> modified R (ks ++ ks') d f.
Proof.
  intros A B k n Hn. destruct (appears_total k ks) as (a & Ha). destruct (appears_total k ks') as (b & Hb).
  assert (Hab : n = (a + b)%nat).
  { pose proof (appears_app _ _ _ _ _ Ha Hb) as Hc. revert Hc Hn. generalize (ks ++ ks') (a + b)%nat. clear. intros l m Hm. revert n. induction Hm; intros n' Hn; inversion Hn; subst; try congruence; auto. }
  subst n. specialize (A k a Ha). specialize (B k b Hb). destruct (dget k d) as [v|].
  - destruct A as (v' & Ev & T). rewrite Ev in B. destruct B as (v'' & Ev' & T'). exists v''. split; [exact Ev' | eapply times_app; eassumption].
  - rewrite A in B. exact B.
Qed.
Lemma modified_nil {K V} `{EqDec K} (R : V -> V -> Prop) (d : list (K * V)) : modified R [] d d.
Proof. intros k n Hn. inversion Hn; subst. destruct (dget k d) as [v|]; [exists v; split; [reflexivity | constructor] | reflexivity]. Qed.
Lemma dmodify_ok {K V} `{EqDec K} (R : V -> V -> Prop) (f : V -> result V) k (d d' : list (K * V)) : (forall v v', f v = Ok v' -> R v v') -> dmodify f k d = Ok d' -> modified R [k] d d'.
Proof.
  unfold dmodify. intros Hf E k' n Hn. destruct (dget k d) as [v|] eqn:Ek.
  - apply rbind_Ok in E as (v' & Ev & E). injection E as <-. rewrite dget_dset. inversion Hn as [|l m Hm|k2 l m Hk Hm]; subst; inversion Hm; subst.
    + rewrite Ek, eqbR. exists v'. split; [reflexivity|]. econstructor; [apply Hf, Ev | constructor].
    + destruct (eqbP k' k) as [->|_]; [destruct (Hk eq_refl)|]. destruct (dget k' d) as [w|]; [exists w; split; [reflexivity | constructor] | reflexivity].
  - injection E as <-. inversion Hn as [|l m Hm|k2 l m Hk Hm]; subst; inversion Hm; subst; [rewrite Ek; reflexivity|].
    destruct (dget k' d) as [w|]; [exists w; split; [reflexivity | constructor] | reflexivity].
Qed.
Lemma modify_all_ok {K V} `{EqDec K} (R : V -> V -> Prop) (f : V -> result V) ks (d d' : list (K * V)) : (forall v v', f v = Ok v' -> R v v') -> modify_all f ks d = Ok d' -> modified R ks d d'.
Proof.
  intros Hf. revert d. induction ks as [|k ks IH]; intros d E; cbn [modify_all] in E; [injection E as <-; apply modified_nil|].
  apply rbind_Ok in E as (d1 & Ed & E). change (k :: ks) with ([k] ++ ks). eapply modified_app; [eapply dmodify_ok; eassumption | apply IH, E].
Qed.

Section Sets.
Variable xxh3 xxh64 : str -> N.
Variable plower : str -> str.
Variable tr : translations.
Notation RT := (trait_translated xxh3 xxh64 plower tr).
Notation RC := (champ_translated xxh3 xxh64 plower tr).
Definition trait_refs (l : list (tset * list str)) : list N := flat_map (fun s => ts_traits (fst s)) l.
Definition champ_refs (l : list (tset * list str)) : list str := flat_map snd l.
Lemma replace_sets_ok l o o' : replace_sets xxh3 xxh64 plower tr l o = Ok o' -> modified RT (trait_refs l) (fst o) (fst o') /\ modified RC (champ_refs l) (snd o) (snd o').
Proof.
  revert o. induction l as [|s l IH]; intros o E; cbn [replace_sets] in E; [injection E as <-; split; apply modified_nil|].
  apply rbind_Ok in E as (o1 & E1 & E). unfold replace_set in E1. apply rbind_Ok in E1 as (ts & Et & E1). apply rbind_Ok in E1 as (cs & Ec & E1). injection E1 as <-.
  apply IH in E as [A B]. split; cbn [trait_refs champ_refs flat_map]; (eapply modified_app; [|eassumption]).
  - eapply modify_all_ok; [apply replace_trait_ok | exact Et].
  - eapply modify_all_ok; [apply replace_champ_ok | exact Ec].
Qed.
Lemma translate_ok t t' : translate xxh3 xxh64 plower tr t = Ok t' ->
  modified RT (trait_refs (map snd (tp_sets t) ++ tp_data t)) (tp_traits t) (tp_traits t') /\ modified RC (champ_refs (map snd (tp_sets t) ++ tp_data t)) (tp_champs t) (tp_champs t') /\
  tp_sets t' = tp_sets t /\ tp_data t' = tp_data t /\ Forall2 (item_translated xxh3 xxh64 plower tr) (tp_items t) (tp_items t').
Proof.
  unfold translate. intros E. apply rbind_Ok in E as (o & Eo & E). apply rbind_Ok in E as ([ts cs] & Ec & E). apply rbind_Ok in E as (is & Ei & E). injection E as <-. cbn [tp_traits tp_champs tp_sets tp_data tp_items].
  apply replace_sets_ok in Eo as [A1 B1]. apply replace_sets_ok in Ec as [A2 B2]. cbn [fst snd] in *. unfold trait_refs, champ_refs in *. rewrite !flat_map_app. split; [eapply modified_app; eassumption|]. split; [eapply modified_app; eassumption|]. split; [reflexivity|]. split; [reflexivity|].
  apply rmapM_Ok in Ei. induction Ei as [|u v l l' Huv _ IH]; constructor; [apply replace_item_ok, Huv | exact IH].
Qed.
End Sets.

(** ** Sets by number *)

Notation aset := (tset * list str)%type.
Definition by_number (l : list aset) : list (pyres * aset) := map (fun s => (ts_number (fst s), s)) l.
Fixpoint once (d : list (bval * aset)) : Prop := match d with [] => True | (k, _) :: t => once t /\ forall z s, k = VInt z -> ~ In (VInt z, s) t end.
Lemma key_int z k : key_eq (VInt z) k = true <-> k = VInt z.
Proof. destruct k; cbn [key_eq]; split; try discriminate; intros H; [apply Z.eqb_eq in H; subst; reflexivity | injection H as ->; apply Z.eqb_refl]. Qed.
Lemma key_int_l z k : key_eq k (VInt z) = true <-> k = VInt z.
Proof. destruct k; cbn [key_eq]; split; try discriminate; intros H; [apply Z.eqb_eq in H; subst; reflexivity | injection H as ->; apply Z.eqb_refl]. Qed.
Lemma number_In v s d z y : once d -> (In (VInt z, y) (number_set v s d) <-> v = VInt z /\ y = s \/ v <> VInt z /\ In (VInt z, y) d).
Proof.
  induction d as [|[k x] d IH]; cbn [number_set once]; intros Hd.
  - cbn [In]. split.
    + intros [E|[]]. injection E as -> ->. left. auto.
    + intros [[-> ->]|[_ []]]. left. reflexivity.
  - destruct Hd as [Hd Hk]. specialize (IH Hd). destruct (key_eq v k) eqn:Ek; cbn [In].
    + split.
      * intros [E|Hin]; [injection E as -> ->; left; apply key_int_l in Ek; auto|]. right. split; [|right; exact Hin]. intros ->. apply key_int in Ek. exact (Hk z y Ek Hin).
      * intros [[-> ->]|[Hn [E|Hin]]]; [left; apply key_int in Ek; rewrite Ek; reflexivity | injection E as -> ->; apply key_int_l in Ek; destruct (Hn Ek) | right; exact Hin].
    + split.
      * intros [E|Hin].
        -- injection E as -> ->. right. split; [|left; reflexivity]. intros ->. rewrite (proj2 (key_int z (VInt z)) eq_refl) in Ek. discriminate.
        -- apply IH in Hin as [H|[Hn Hin]]; [left; exact H | right; auto].
      * intros [H|[Hn [E|Hin]]]; [right; apply IH; left; exact H | left; exact E | right; apply IH; right; auto].
Qed.
Lemma number_once v s d : once d -> once (number_set v s d).
Proof.
  induction d as [|[k x] d IH]; cbn [number_set once]; intros Hd; [split; [exact I | intros z y _ []]|]. destruct Hd as [Hd Hk].
  destruct (key_eq v k) eqn:Ek; cbn [once]; [split; assumption|]. split; [apply IH, Hd|]. intros z y -> Hin. apply number_In in Hin as [[-> ->]|[Hn Hin]]; [|exact (Hk z y eq_refl Hin) | exact Hd].
  rewrite (proj2 (key_int z (VInt z)) eq_refl) in Ek. discriminate.
Qed.
Lemma last_value_cons {A B} (h k : A) (v : B) l w : last_value h ((k, v) :: l) (Some w) <-> last_value h l (Some w) \/ (forall u, ~ In (h, u) l) /\ k = h /\ v = w.
Proof.
  split.
  - intros H. inversion H as [|pre v' post Hn E]; subst. destruct pre as [|p pre]; [injection E as -> -> ->; right; auto|]. injection E as _ E. rewrite <- E. left. constructor. exact Hn.
  - intros [H|(Hn & -> & ->)]; [|exact (LV_some h [] w l Hn)]. inversion H as [|pre v' post Hn E]; subst. exact (LV_some h ((k, v) :: pre) w post Hn).
Qed.
Lemma output_In data d out z y : output_sets data d = Ok out -> once d ->
  (In (VInt z, y) out <-> last_value (num z) (by_number data) (Some y) \/ (forall s, ~ In (num z, s) (by_number data)) /\ In (VInt z, y) d).
Proof.
  revert d. induction data as [|s data IH]; intros d E Hd; cbn [output_sets] in E.
  - injection E as <-. split; [intros H; right; split; [intros s [] | exact H]|]. intros [H|[_ H]]; [|exact H]. inversion H as [|pre v post Hn E]. destruct pre; discriminate.
  - destruct (ts_number (fst s)) as [| | |v| |] eqn:En; try discriminate. rewrite (IH _ E (number_once _ _ _ Hd)), number_In by exact Hd. cbn [by_number map]. fold (by_number data). rewrite En, last_value_cons.
    split.
    + intros [H|[Hn [[-> ->]|[Hv Hin]]]]; [left; left; exact H | left; right; auto | right]. split; [|exact Hin]. intros s' [E'|Hin']; [injection E' as -> _; exact (Hv eq_refl) | exact (Hn s' Hin')].
    + intros [[H|(Hn & Ev & ->)]|[Hn Hin]].
      * left. exact H.
      * right. split; [exact Hn|]. left. injection Ev as ->. auto.
      * right. split; [intros s' Hs; exact (Hn s' (or_intror Hs))|]. right. split; [|exact Hin]. intros ->. exact (Hn s (or_introl eq_refl)).
Qed.
Lemma output_data data d out v y : output_sets data d = Ok out -> In (v, y) out -> In y data \/ In (v, y) d.
Proof.
  revert d. induction data as [|s data IH]; intros d E Hin; cbn [output_sets] in E; [injection E as <-; right; exact Hin|].
  destruct (ts_number (fst s)) as [| | |v'| |]; try discriminate. destruct (IH _ E Hin) as [H|H]; [left; right; exact H|].
  assert (Hs : y = s \/ In (v, y) d).
  { clear - H. induction d as [|[k x] d IH]; cbn [number_set] in H; [destruct H as [H|[]]; injection H as _ ->; left; reflexivity|].
    destruct (key_eq v' k); destruct H as [H|H]; [injection H as _ ->; left; reflexivity | right; right; exact H | right; left; exact H |]. destruct (IH H) as [->|H']; [left; reflexivity | right; right; exact H']. }
  destruct Hs as [->|Hs]; [left; left; reflexivity | right; exact Hs].
Qed.

(** ** The whole export *)

Lemma flat_map_found {K V} `{EqDec K} (d : list (K * V)) (R : K -> V -> Prop) ks : (forall k, In k ks -> exists v, dget k d = Some v /\ R k v) ->
  Forall2 R ks (flat_map (fun k => match dget k d with Some x => [x] | None => [] end) ks).
Proof.
  induction ks as [|k ks IH]; intros Hk; cbn [flat_map]; [constructor|]. destruct (Hk k (or_introl eq_refl)) as (v & -> & HR). cbn [app]. constructor; [exact HR | apply IH; intros k' Hk'; apply Hk; right; exact Hk'].
Qed.
Lemma flat_map_In_r {A B} (f : A -> list B) l x y : In x l -> In y (f x) -> In y (flat_map f l).
Proof. intros Hx Hy. apply in_flat_map. eauto. Qed.
Lemma modified_once {K V} `{EqDec K} (R : V -> V -> Prop) ks d d' k v : (forall x y z, R x y -> R y z -> z = y) -> modified R ks d d' -> In k ks -> dget k d = Some v -> exists v', dget k d' = Some v' /\ R v v'.
Proof.
  intros HR HM Hk Hv. destruct (appears_total k ks) as (n & Hn). destruct (appears_In _ _ _ Hn Hk) as (m & ->). specialize (HM k _ Hn). rewrite Hv in HM. destruct HM as (v' & E & T). exists v'. split; [exact E | exact (times_once R m v v' HR T)].
Qed.

Section Export.
Variable nm : names.
Variable repr : pyres -> str.
Variable plower : str -> str.
Variable set_order : list N -> list N.
Hypothesis Hp : forall l, Permutation (set_order l) l.
Variable exists_bin : str -> bool.
Variable load_bin : str -> result (list bentry).
Variable fdiv : N -> bval.
Variable dir : str.
Variable xxh3 xxh64 : str -> N.
Variable tr : translations.
Notation last_champ := (last_champ nm plower exists_bin load_bin dir).

Lemma champ_known es ts champs n : table_of (trait_entry nm) (trait_of nm repr) es ts -> parse_champs nm repr plower exists_bin load_bin fdiv dir es ts = Ok champs ->
  (forall c, dget n champs = Some c -> exists x, last_champ es n x /\ champ_of nm repr plower exists_bin load_bin fdiv dir es x c) /\ (dhas n champs = true <-> exists x, last_champ es n x).
Proof.
  intros Ht E. destruct (parse_champs_ok nm repr plower exists_bin load_bin fdiv dir es ts Ht champs E) as (A & B & _).
  assert (A' : forall c, dget n champs = Some c -> exists x, last_champ es n x /\ champ_of nm repr plower exists_bin load_bin fdiv dir es x c).
  { intros c Hc. destruct (A n c Hc) as (pre & x & post & Ee & Hn & Hc' & Hl). exists x. split; [|exact Hc']. exists pre, post. split; [exact Ee|]. split; [eapply champ_of_entry; exact Hc' | auto]. }
  split; [exact A'|]. unfold dhas. destruct (dget n champs) as [c|] eqn:Ec; split; intros H; try reflexivity; try discriminate.
  - destruct (A' c eq_refl) as (x & Hx & _). eauto.
  - destruct H as (x & pre & post & Ee & Hk & Hn & _). destruct (B x n) as (c & Hc); [rewrite Ee; apply in_elt | exact Hk | exact Hn | congruence].
Qed.

Lemma export_ok es t t' : final xxh3 xxh64 plower tr -> build_template nm repr plower set_order exists_bin load_bin fdiv dir es = Ok t -> translate xxh3 xxh64 plower tr t = Ok t' ->
  exists sel sets isel out data items, show t' = (out, data, items) /\ picks (fun x => of_kind nm "TFTSetData" x /\ ~ skipped_set x) es sel /\ Forall2 (set_of_entry nm plower es) sel sets /\
  Forall2 (shown_set nm repr plower exists_bin load_bin fdiv dir xxh3 xxh64 tr es) sets data /\
  (forall z o, In (VInt z, o) out <-> last_value (num z) (map (fun o => (o_number o, o)) data) (Some o)) /\
  picks (item_entry nm) es isel /\ Forall2 (shown_item nm repr plower xxh3 xxh64 tr es) isel items.
Proof.
  intros F E E'. unfold build_template in E. apply rbind_Ok in E as (cn & Ecn & E). apply rbind_Ok in E as (ts & Ets & E). apply rbind_Ok in E as (osets & Es & E). apply rbind_Ok in E as (champs & Ech & E).
  destruct osets as [sets|]; [|discriminate]. apply rbind_Ok in E as (out & Eo & E). apply rbind_Ok in E as (items & Ei & E). injection E as <-.
  pose proof (names_ok nm plower es cn Ecn) as Hcn. pose proof (parse_traits_ok nm repr es ts Ets) as Hts. destruct (parse_sets_ok nm repr plower set_order Hp es cn ts Hcn Hts sets Es) as (sel & Hsel & Fsel).
  destruct (parse_items_ok nm repr es items Ei) as (_ & isel & Hisel & Fi). apply translate_ok in E' as (MT & MC & Esets & Edata & FI). cbn [tp_traits tp_champs tp_sets tp_data tp_items] in *.
  set (mk := fun s : tset => (s, filter (fun n => dhas n champs) (ts_chars s))) in *.
  exists sel, sets, isel, (map (fun kv => (fst kv, show_set t' (snd kv))) out), (map (fun s => show_set t' (mk s)) sets), (tp_items t').
  split; [unfold show; rewrite Esets, Edata, map_map; reflexivity|]. split; [exact Hsel|]. split; [exact Fsel|]. split; [|split; [|split; [exact Hisel|]]].
  - apply Forall2_map_r. assert (Hall : forall s, In s sets -> shown_set nm repr plower exists_bin load_bin fdiv dir xxh3 xxh64 tr es s (show_set t' (mk s))).
    { intros s Hs. assert (Hin : In (mk s) (map snd out ++ map mk sets)) by (apply in_or_app; right; apply in_map, Hs).
      unfold shown_set, show_set. cbn [mk fst snd o_number o_mutator o_name o_augments o_items o_traits o_champions]. do 5 (split; [reflexivity|]). split.
      - apply flat_map_found. intros h Hh. destruct (Forall2_in_r _ _ _ _ Fsel Hs) as (x & Hx & Hset). destruct Hset as (a & b & c & _ & _ & _ & _ & _ & _ & _ & _ & _ & Htr & _). apply Htr in Hh as Hy. destruct Hy as [_ Hy].
        apply (proj2 (trait_known nm repr plower es cn ts Hcn Hts h)) in Hy. unfold dhas in Hy. destruct (dget h ts) as [t0|] eqn:Eh; [|discriminate]. destruct (proj1 (Hts h) t0 Eh) as (y & Hl & Ht0).
        destruct (modified_once _ _ _ _ h t0 (trait_again xxh3 xxh64 plower tr F) MT) as (t1 & Et1 & H1); [eapply flat_map_In_r; [exact Hin | exact Hh] | exact Eh|].
        exists t1. split; [exact Et1|]. exists y, t0. auto.
      - exists (filter (fun n => dhas n champs) (ts_chars s)). split; [apply picks_filter; intros n; exact (proj2 (champ_known es ts champs n Hts Ech))|].
        apply flat_map_found. intros n Hn. apply filter_In in Hn as Hn'. destruct Hn' as [_ Hn']. unfold dhas in Hn'. destruct (dget n champs) as [c0|] eqn:En; [|discriminate]. destruct (proj1 (champ_known es ts champs n Hts Ech) c0 En) as (x & Hl & Hc0).
        destruct (modified_once _ _ _ _ n c0 (champ_again xxh3 xxh64 plower tr F) MC) as (c1 & Ec1 & H1); [eapply flat_map_In_r; [exact Hin | exact Hn] | exact En|].
        exists c1. split; [exact Ec1|]. exists x, c0. auto. }
    clear - Hall. induction sets as [|s l IH]; constructor; [apply Hall; left; reflexivity | apply IH; intros s' Hs'; apply Hall; right; exact Hs'].
  - intros z o. rewrite map_map. assert (Hlv : forall w, last_value (num z) (map (fun s => (o_number (show_set t' (mk s)), show_set t' (mk s))) sets) (Some w) <-> exists y, last_value (num z) (by_number (map mk sets)) (Some y) /\ w = show_set t' y).
    { intros w. unfold by_number. rewrite map_map. clear. induction sets as [|s l IH]; cbn [map].
      - split; [intros H; inversion H as [|pre v post Hn E]; destruct pre; discriminate | intros (y & H & _); inversion H as [|pre v post Hn E]; destruct pre; discriminate].
      - rewrite last_value_cons, IH. setoid_rewrite last_value_cons. cbn [show_set o_number mk fst].
        assert (Hno : (forall u, ~ In (num z, u) (map (fun s => (ts_number s, show_set t' (mk s))) l)) <-> (forall u, ~ In (num z, u) (map (fun s => (ts_number s, mk s)) l))).
        { split; intros H u Hin; apply in_map_iff in Hin as (s' & E & Hs'); injection E as E <-; [apply (H (show_set t' (mk s'))) | apply (H (mk s'))]; apply in_map_iff; exists s'; (split; [rewrite E; reflexivity | exact Hs']). }
        split.
        + intros [(y & H & ->)|(Hn & Ez & <-)]; [exists y; auto|]. exists (mk s). split; [right; split; [apply Hno, Hn | auto] | reflexivity].
        + intros (y & [H|(Hn & Ez & <-)] & ->); [left; eauto|]. right. split; [apply Hno, Hn | auto]. }
    rewrite Hlv. rewrite in_map_iff. split.
    + intros ((v & y) & E & Hin). injection E as -> <-. exists y. split; [|reflexivity]. apply (output_In _ _ _ z y Eo I) in Hin as [H|[_ []]]. exact H.
    + intros (y & H & ->). exists (VInt z, y). split; [reflexivity|]. apply (output_In _ _ _ z y Eo I). left. exact H.
  - eapply Forall2_trans; [|exact Fi | exact FI]. intros x i0 i A B. exists i0. auto.
Qed.
End Export.
