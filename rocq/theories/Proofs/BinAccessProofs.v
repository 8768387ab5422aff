(** * Proofs about the access to BIN objects and their JSON form *)

From Verif Require Import Base.TextFacts Spec.BinSpec Spec.BinAccessSpec Model.BinFile Proofs.BinProofs.

(** ** Keys *)

Lemma fnv1a_fold l : fnv1a l (fold_left fnv_step l 0x811c9dc5).
Proof.
  induction l as [|c l IH] using rev_ind; [constructor|]. rewrite fold_left_app. cbn [fold_left]. apply FNV_snoc. exact IH.
Qed.
Lemma fnv1a_fun l h : fnv1a l h -> h = fold_left fnv_step l 0x811c9dc5.
Proof. induction 1 as [|l h c H ->]; [reflexivity|]. rewrite fold_left_app. reflexivity. Qed.
Lemma lower_of_fun c d : lower_of c d <-> d = ascii_lower c.
Proof.
  unfold lower_of, ascii_lower. destruct (N.leb_spec 65 c), (N.leb_spec c 90); cbn [andb]; split; lia.
Qed.
Lemma lower_map s l : Forall2 lower_of s l <-> l = map ascii_lower s.
Proof.
  split.
  - induction 1 as [|c d s l H HF IH]; [reflexivity|]. apply lower_of_fun in H. cbn [map]. congruence.
  - intros ->. induction s; cbn [map]; constructor; [apply lower_of_fun; reflexivity | assumption].
Qed.
Lemma binhash_iff s h : compute_binhash s = Ok h <-> name_hash s h.
Proof.
  unfold compute_binhash, name_hash. destruct (forallb (fun c => c <? 128) s) eqn:E.
  - assert (HF : Forall (fun c => c < 128) s).
    { apply Forall_forall. rewrite forallb_forall in E. intros c Hc. apply N.ltb_lt, E, Hc. }
    split.
    + intros E1. injection E1 as <-. split; [exact HF|]. exists (map ascii_lower s). split; [apply lower_map; reflexivity | apply fnv1a_fold].
    + intros (_ & l & Hl & Hh). apply lower_map in Hl. subst l. apply fnv1a_fun in Hh. congruence.
  - split; [discriminate|]. intros [HF _]. exfalso. apply Bool.not_true_iff_false in E. apply E. apply forallb_forall.
    rewrite Forall_forall in HF. intros c Hc. apply N.ltb_lt, HF, Hc.
Qed.
Lemma binhash_error s : ~ Forall (fun c => c < 128) s <-> compute_binhash s = Err ValueError.
Proof.
  unfold compute_binhash. destruct (forallb (fun c => c <? 128) s) eqn:E.
  - split; [|discriminate]. intros H. exfalso. apply H. apply Forall_forall. rewrite forallb_forall in E. intros c Hc. apply N.ltb_lt, E, Hc.
  - split; [reflexivity|]. intros _ HF. apply Bool.not_true_iff_false in E. apply E. apply forallb_forall.
    rewrite Forall_forall in HF. intros c Hc. apply N.ltb_lt, HF, Hc.
Qed.
Lemma denotes_key k h : denotes k h <-> key_to_hash k = Ok (Some h).
Proof.
  split.
  - intros []; cbn [key_to_hash]; [reflexivity | |].
    + apply binhash_iff in H. rewrite H. reflexivity.
    + destruct (Z.ltb_spec (Z.of_N h0) 0); [lia|]. rewrite N2Z.id. reflexivity.
  - destruct k; cbn [key_to_hash].
    + intros E. injection E as <-. constructor.
    + destruct (compute_binhash s) eqn:E; [|discriminate]. cbn. intros E1. injection E1 as <-. constructor. apply binhash_iff. exact E.
    + destruct (Z.ltb_spec z 0); [discriminate|]. intros E. injection E as <-. rewrite <- (Z2N.id z) at 1 by lia. constructor.
    + discriminate.
Qed.
Lemma denotes_fun k h h' : denotes k h -> denotes k h' -> h = h'.
Proof. rewrite !denotes_key. congruence. Qed.
Lemma same_case_lower c d : same_case c d -> c < 128 /\ d < 128 \/ c = d.
Proof. unfold same_case. lia. Qed.
Lemma case_hash s t : Forall2 same_case s t -> compute_binhash s = compute_binhash t.
Proof.
  intros H. unfold compute_binhash.
  assert (E1 : forallb (fun c => c <? 128) s = forallb (fun c => c <? 128) t).
  { induction H as [|c d s t Hc H IH]; [reflexivity|]. cbn [forallb]. rewrite IH. f_equal.
    unfold same_case in Hc. destruct (N.ltb_spec c 128), (N.ltb_spec d 128); try reflexivity; lia. }
  assert (E2 : map ascii_lower s = map ascii_lower t).
  { clear E1. induction H as [|c d s t Hc H IH]; [reflexivity|]. cbn [map]. rewrite IH. f_equal.
    unfold same_case in Hc. unfold ascii_lower.
    destruct (N.leb_spec 65 c), (N.leb_spec c 90), (N.leb_spec 65 d), (N.leb_spec d 90); cbn [andb]; lia. }
  rewrite E1, E2. reflexivity.
Qed.

(** ** Access *)

Lemma named_eq h f : is_named (Some h) f = (f_name f =? h).
Proof.
  unfold is_named. destruct (N.eqb_spec (f_name f) h) as [->|Hn].
  - apply eqbR.
  - apply (proj2 (eqbF _ _)). congruence.
Qed.
Lemma named_none f : is_named None f = false. Proof. reflexivity. Qed.
Lemma find_first h fs f : find (is_named (Some h)) fs = Some f <-> first_named h fs f.
Proof.
  unfold first_named. split.
  - induction fs as [|g fs IH]; cbn [find]; [discriminate|]. rewrite named_eq. destruct (N.eqb_spec (f_name g) h) as [E|E].
    + intros E1. injection E1 as <-. exists [], fs. auto.
    + intros E1. destruct (IH E1) as (l1 & l2 & -> & Hn & HF). exists (g :: l1), l2. split; [reflexivity|]. split; [exact Hn|]. constructor; assumption.
  - intros (l1 & l2 & -> & Hn & HF). induction HF as [|g l1 Hg HF IH]; cbn [app find]; rewrite named_eq.
    + unfold f_name. rewrite Hn, N.eqb_refl. reflexivity.
    + unfold f_name. destruct (N.eqb_spec (fst (fst g)) h); [contradiction|]. exact IH.
Qed.
Lemma find_absent h fs : find (is_named (Some h)) fs = None <-> absent h fs.
Proof.
  unfold absent. split.
  - intros E. apply Forall_forall. intros g Hg En. pose proof (find_none _ _ E g Hg) as Hx. rewrite named_eq in Hx. unfold f_name in Hx.
    rewrite En, N.eqb_refl in Hx. discriminate.
  - intros HF. induction HF as [|g l1 Hg HF IH]; cbn [find]; [reflexivity|]. rewrite named_eq. unfold f_name.
    destruct (N.eqb_spec (fst (fst g)) h); [contradiction|]. exact IH.
Qed.
Lemma getitem_first k h fs f : denotes k h -> (getitem fs k = Ok f <-> first_named h fs f).
Proof.
  intros Hk. apply denotes_key in Hk. unfold getitem. rewrite Hk. cbn [rbind]. rewrite <- find_first.
  destruct (find _ fs); cbn [of_opt]; split; congruence.
Qed.
Lemma getitem_absent k h fs : denotes k h -> (getitem fs k = Err KeyError <-> absent h fs).
Proof.
  intros Hk. apply denotes_key in Hk. unfold getitem. rewrite Hk. cbn [rbind]. rewrite <- find_absent.
  destruct (find _ fs); cbn [of_opt]; split; congruence.
Qed.
Lemma existsb_find {A} (p : A -> bool) l : existsb p l = match find p l with Some _ => true | None => false end.
Proof. induction l as [|a l IH]; cbn [existsb find]; [reflexivity|]. destruct (p a); [reflexivity | exact IH]. Qed.
Lemma key_error k er : key_to_hash k = Err er -> er = ValueError.
Proof.
  destruct k; cbn [key_to_hash]; try discriminate. destruct (compute_binhash s) eqn:E; [discriminate|]. cbn. intros E1.
  injection E1 as <-. unfold compute_binhash in E. destruct (forallb _ s); congruence.
Qed.
(** What the operations return, in terms of [obj[k]]. *)
Lemma agree fs k d :
  contains fs k = match getitem fs k with Ok _ => Ok true | Err KeyError => Ok false | Err er => Err er end /\
  get fs k d = match getitem fs k with Ok f => Ok (Some f) | Err KeyError => Ok d | Err er => Err er end /\
  getv fs k = match getitem fs k with Ok f => Ok (to_python (snd f)) | Err KeyError => Ok RDefault | Err er => Err er end.
Proof.
  split; [|split; reflexivity]. unfold contains, getitem. destruct (key_to_hash k) as [h|er] eqn:E; cbn [rbind].
  - rewrite existsb_find. destruct (find _ fs); reflexivity.
  - apply key_error in E. subst er. reflexivity.
Qed.
Lemma getitem_errors fs k er : getitem fs k = Err er -> er = KeyError \/ er = ValueError /\ exists s, k = KStr s /\ ~ Forall (fun c => c < 128) s.
Proof.
  unfold getitem. destruct (key_to_hash k) as [h|e1] eqn:E; cbn [rbind].
  - destruct (find _ fs); cbn [of_opt]; [discriminate|]. intros E1. injection E1 as <-. left. reflexivity.
  - intros E1. injection E1 as <-. right. pose proof (key_error _ _ E). subst e1. split; [reflexivity|].
    destruct k; cbn [key_to_hash] in E; try discriminate. exists s. split; [reflexivity|]. apply binhash_error.
    destruct (compute_binhash s); [discriminate | cbn in E; congruence].
Qed.

Lemma set_field_cases h f fs :
  (exists l1 g l2, fs = l1 ++ g :: l2 /\ f_name g = h /\ absent h l1 /\ set_field (Some h) f fs = l1 ++ f :: l2) \/
  (absent h fs /\ set_field (Some h) f fs = fs ++ [f]).
Proof.
  induction fs as [|g fs IH]; cbn [set_field]; [right; split; [constructor | reflexivity]|].
  rewrite named_eq. destruct (N.eqb_spec (f_name g) h) as [E|E].
  - left. exists [], g, fs. split; [reflexivity|]. split; [exact E|]. split; [constructor | reflexivity].
  - destruct IH as [(l1 & g0 & l2 & -> & Hg & Ha & E1)|[Ha E1]].
    + left. exists (g :: l1), g0, l2. split; [reflexivity|]. split; [exact Hg|]. split; [constructor; [exact E | exact Ha]|]. rewrite E1. reflexivity.
    + right. split; [constructor; [exact E | exact Ha]|]. rewrite E1. reflexivity.
Qed.
Lemma find_set_other h h' f : f_name f <> h' -> h <> h' -> forall fs,
  find (is_named (Some h')) (set_field (Some h) f fs) = find (is_named (Some h')) fs.
Proof.
  intros Hf Hh. induction fs as [|g fs IH]; cbn [set_field find].
  - rewrite named_eq. destruct (N.eqb_spec (f_name f) h'); [contradiction | reflexivity].
  - rewrite (named_eq h). destruct (N.eqb_spec (f_name g) h) as [E|E]; cbn [find]; rewrite !named_eq.
    + destruct (N.eqb_spec (f_name f) h'); [contradiction|]. destruct (N.eqb_spec (f_name g) h'); [congruence | reflexivity].
    + destruct (N.eqb_spec (f_name g) h'); [reflexivity | exact IH].
Qed.
Lemma set_spec fs k f : denotes k (f_name f) -> exists fs', setitem fs k f = Ok fs' /\ getitem fs' k = Ok f /\
  (forall k' h', denotes k' h' -> h' <> f_name f -> getitem fs' k' = getitem fs k') /\
  ((absent (f_name f) fs /\ fs' = fs ++ [f]) \/
   exists l1 g l2, fs = l1 ++ g :: l2 /\ f_name g = f_name f /\ absent (f_name f) l1 /\ fs' = l1 ++ f :: l2).
Proof.
  intros Hk. pose proof (proj1 (denotes_key _ _) Hk) as Ek. unfold setitem. rewrite Ek. cbn [rbind].
  exists (set_field (Some (f_name f)) f fs). split; [reflexivity|].
  pose proof (set_field_cases (f_name f) f fs) as Hc. split; [|split].
  - apply (getitem_first k _ _ _ Hk). destruct Hc as [(l1 & g & l2 & -> & Hg & Ha & ->)|[Ha ->]].
    + exists l1, l2. split; [reflexivity|]. split; [reflexivity | exact Ha].
    + exists fs, []. split; [reflexivity|]. split; [reflexivity | exact Ha].
  - intros k' h' Hk' Hne. apply denotes_key in Hk'. unfold getitem. rewrite Hk'. cbn [rbind].
    rewrite find_set_other by congruence. reflexivity.
  - destruct Hc as [(l1 & g & l2 & E & Hg & Ha & E1)|[Ha E1]]; rewrite E1; [right; exists l1, g, l2; auto | left; auto].
Qed.

(** ** Paths *)

Lemma item_fields v fs k : object_fields v = Some fs -> item_value v k = rmap f_value (getitem fs k).
Proof. destruct v; cbn [object_fields item_value]; intros E; congruence. Qed.
Lemma path_follows ks : forall fs v k, ks <> [] -> follows fs ks v -> object_fields k = Some fs -> path_loop k ks = Ok (to_python v).
Proof.
  intros fs v k _ H. revert k. induction H as [fs k0 h f Hd Hf | fs k0 h f fs' ks v Hd Hf Ho H IH]; intros k Hk; cbn [path_loop];
    rewrite (item_fields _ _ _ Hk), (proj2 (getitem_first _ _ _ _ Hd) Hf); cbn [rmap rbind]; [reflexivity|]. apply IH. exact Ho.
Qed.
Lemma path_misses ks : forall fs k, misses fs ks -> object_fields k = Some fs -> path_loop k ks = Err KeyError.
Proof.
  intros fs k H. revert k. induction H as [fs k0 h ks Hd Hf | fs k0 h f fs' ks Hd Hf Ho H IH]; intros k Hk; cbn [path_loop]; rewrite (item_fields _ _ _ Hk).
  - rewrite (proj2 (getitem_absent _ _ _ Hd) Hf). reflexivity.
  - rewrite (proj2 (getitem_first _ _ _ _ Hd) Hf). cbn [rmap rbind]. apply IH. exact Ho.
Qed.
Lemma get_path_loop fs ks : ks <> [] -> get_path fs ks = match path_loop (VEmbedded 0 fs) ks with Err KeyError => Ok RDefault | r => r end.
Proof. destruct ks as [|k ks]; [congruence|]. reflexivity. Qed.
Lemma get_path_follows fs ks v : follows fs ks v -> get_path fs ks = Ok (to_python v).
Proof.
  intros H. assert (Hn : ks <> []) by (inversion H; discriminate).
  rewrite get_path_loop by exact Hn. rewrite (path_follows ks fs v (VEmbedded 0 fs) Hn H eq_refl). reflexivity.
Qed.
Lemma get_path_misses fs ks : misses fs ks -> get_path fs ks = Ok RDefault.
Proof.
  intros H. assert (Hn : ks <> []) by (inversion H; discriminate).
  rewrite get_path_loop by exact Hn. rewrite (path_misses ks fs (VEmbedded 0 fs) H eq_refl). reflexivity.
Qed.
Lemma key_cases fs k : (exists h f, denotes k h /\ first_named h fs f /\ getitem fs k = Ok f) \/
  (exists h, denotes k h /\ absent h fs /\ getitem fs k = Err KeyError) \/
  ((forall h, ~ denotes k h) /\ exists er, getitem fs k = Err er).
Proof.
  unfold getitem. destruct (key_to_hash k) as [[h|]|er] eqn:E; cbn [rbind].
  - assert (Hk : denotes k h) by (apply denotes_key; exact E). destruct (find (is_named (Some h)) fs) as [f|] eqn:Ef; cbn [of_opt].
    + left. exists h, f. split; [exact Hk|]. split; [apply find_first; exact Ef | reflexivity].
    + right. left. exists h. split; [exact Hk|]. split; [apply find_absent; exact Ef | reflexivity].
  - right. right. split; [intros h Hh; apply denotes_key in Hh; congruence|]. 
    destruct (find (is_named None) fs) as [f|] eqn:Ef; [apply find_some in Ef as [_ Ef]; discriminate|]. exists KeyError. reflexivity.
  - right. right. split; [intros h Hh; apply denotes_key in Hh; congruence|]. exists er. reflexivity.
Qed.
(** Only these: a value is obtained by following fields. *)
Lemma path_loop_inv ks : forall v0 fs r, ks <> [] -> object_fields v0 = Some fs -> path_loop v0 ks = Ok r ->
  exists v, follows fs ks v /\ r = to_python v.
Proof.
  induction ks as [|k ks IH]; intros v0 fs r Hn Ho E; [congruence|]. cbn [path_loop] in E. rewrite (item_fields _ _ _ Ho) in E.
  destruct (key_cases fs k) as [(h & f & Hd & Hf & Eg)|[(h & Hd & Ha & Eg)|(_ & er & Eg)]]; rewrite Eg in E; cbn [rmap rbind] in E; try discriminate.
  destruct ks as [|k1 ks].
  - cbn [path_loop] in E. injection E as <-. exists (f_value f). split; [|reflexivity]. apply (F_one fs k h f Hd Hf).
  - destruct (object_fields (f_value f)) as [fs'|] eqn:Eo.
    + destruct (IH (f_value f) fs' r ltac:(discriminate) Eo E) as (v & Hv & ->). exists v. split; [|reflexivity]. apply (F_more fs k h f fs'); assumption.
    + exfalso. cbn [path_loop] in E. revert E. destruct (f_value f); cbn [object_fields item_value] in Eo |- *; try discriminate;
        destruct k1; cbn [seq_item rbind]; try discriminate; match goal with |- context [if ?c then _ else _] => destruct c end; discriminate.
Qed.
Lemma get_path_only fs ks r : ks <> [] -> get_path fs ks = Ok r -> r <> RDefault -> exists v, follows fs ks v /\ r = to_python v.
Proof.
  intros Hn E Hr. rewrite get_path_loop in E by exact Hn. apply (path_loop_inv ks (VEmbedded 0 fs)); [exact Hn | reflexivity|].
  destruct (path_loop (VEmbedded 0 fs) ks) as [r'|er]; [exact E|]. destruct er; congruence.
Qed.

(** ** JSON *)

Lemma shown_str w known h s : shown w known h s <-> s = hash_str w known h.
Proof. unfold shown, hash_str. destruct (known h) as [t|]; split; intros H; [destruct H as [H|[H _]]; congruence | left; congruence | destruct H as [H|[_ H]]; congruence | right; auto]. Qed.
Lemma hash_str_inj hash w known h h' : faithful hash known -> hash_str w known h = hash_str w known h' -> h = h'.
Proof.
  intros HF. unfold hash_str. destruct (known h) as [s|] eqn:E, (known h') as [s'|] eqn:E'.
  - intros <-. destruct (HF h s E) as [H1 _]. destruct (HF h' s E') as [H2 _]. congruence.
  - intros ->. destruct (HF h _ E) as [_ H]. exfalso. apply H. exists (hexl w h'). reflexivity.
  - intros <-. destruct (HF h' _ E') as [_ H]. exfalso. apply H. exists (hexl w h). reflexivity.
  - intros H. apply (hexl_inj w). apply app_inv_head, app_inv_tail in H. exact H.
Qed.

Section BvalInd.
Variable P : bval -> Prop.
Hypothesis Hleaf : forall v, leaf_kind v <> None -> P v.
Hypothesis Hlist : forall t l, Forall P l -> P (VList t l).
Hypothesis Hstruct : forall h fs, Forall (fun f => P (snd f)) fs -> P (VStruct h fs).
Hypothesis Hembedded : forall h fs, Forall (fun f => P (snd f)) fs -> P (VEmbedded h fs).
Hypothesis Hnone : forall t, P (VOption t None).
Hypothesis Hsome : forall t v, P v -> P (VOption t (Some v)).
Hypothesis Hmap : forall kt vt d, Forall (fun kv => P (fst kv) /\ P (snd kv)) d -> P (VMap kt vt d).
Fixpoint bval_ind' (v : bval) : P v :=
  match v with
  | VList t l => Hlist t l ((fix go l := match l return Forall P l with [] => Forall_nil _ | x :: l => Forall_cons x (bval_ind' x) (go l) end) l)
  | VStruct h fs => Hstruct h fs ((fix go l := match l return Forall (fun f => P (snd f)) l with
      [] => Forall_nil _ | x :: l => @Forall_cons _ (fun f => P (snd f)) x l (bval_ind' (snd x)) (go l) end) fs)
  | VEmbedded h fs => Hembedded h fs ((fix go l := match l return Forall (fun f => P (snd f)) l with
      [] => Forall_nil _ | x :: l => @Forall_cons _ (fun f => P (snd f)) x l (bval_ind' (snd x)) (go l) end) fs)
  | VOption t None => Hnone t
  | VOption t (Some v) => Hsome t v (bval_ind' v)
  | VMap kt vt d => Hmap kt vt d ((fix go l := match l return Forall (fun kv => P (fst kv) /\ P (snd kv)) l with
      [] => Forall_nil _ | x :: l => @Forall_cons _ (fun kv => P (fst kv) /\ P (snd kv)) x l (conj (bval_ind' (fst x)) (bval_ind' (snd x))) (go l) end) d)
  | VInts l => Hleaf (VInts l) ltac:(discriminate)
  | VBool l => Hleaf (VBool l) ltac:(discriminate)
  | VInt l => Hleaf (VInt l) ltac:(discriminate)
  | VFloat l => Hleaf (VFloat l) ltac:(discriminate)
  | VVec l => Hleaf (VVec l) ltac:(discriminate)
  | VMatrix l => Hleaf (VMatrix l) ltac:(discriminate)
  | VStr l => Hleaf (VStr l) ltac:(discriminate)
  | VHash l => Hleaf (VHash l) ltac:(discriminate)
  | VPath l => Hleaf (VPath l) ltac:(discriminate)
  | VLink l => Hleaf (VLink l) ltac:(discriminate)
  end.
End BvalInd.

Section Json.
Variable nm : names.
Fixpoint ser_map (l : list (bval * bval)) (d : list (pyval * pyval)) : result (list (pyval * pyval)) :=
  match l with
  | [] => Ok d
  | (k, x) :: t =>
    let! k' := ser nm k in
    let! x' := ser nm x in
    if pyhashable k' then ser_map t (pydict_set k' x' d) else Err TypeError
  end.
Lemma ser_list t l : ser nm (VList t l) = rmap PList (rmapM (ser nm) l).
Proof. cbn [ser]. f_equal. induction l as [|x l IH]; [reflexivity|]. cbn [rmapM]. rewrite IH. reflexivity. Qed.
Lemma ser_struct h fs : ser nm (VStruct h fs) = if h =? 0 then Ok PNone else rmap (ser_object nm h) (ser_fields nm fs).
Proof. cbn [ser]. destruct (h =? 0); [reflexivity|]. reflexivity. Qed.
Lemma ser_embedded h fs : ser nm (VEmbedded h fs) = rmap (ser_object nm h) (ser_fields nm fs).
Proof. cbn [ser]. reflexivity. Qed.
Lemma ser_vmap kt vt d : ser nm (VMap kt vt d) = rmap PMap (ser_map d []).
Proof. reflexivity. Qed.
Lemma pyeq_tuple a b : pyeq (PTuple a) (PTuple b) = all2 pyeq a b.
Proof. revert b. induction a as [|x a IH]; intros [|y b]; try reflexivity. cbn [all2]. rewrite <- IH. reflexivity. Qed.
Lemma all2_map {A B} (p : B -> B -> bool) (g : A -> B) a : forall b, all2 p (map g a) (map g b) = all2 (fun x y => p (g x) (g y)) a b.
Proof. induction a as [|x a IH]; intros [|y b]; cbn [map all2]; try reflexivity. rewrite IH. reflexivity. Qed.
Lemma all2_ext {A} (p q : A -> A -> bool) a : (forall x y, p x y = q x y) -> forall b, all2 p a b = all2 q a b.
Proof. intros E. induction a as [|x a IH]; intros [|y b]; cbn [all2]; try reflexivity. rewrite IH, E. reflexivity. Qed.
Lemma pyhashable_map {A} (g : A -> pyval) l : (forall x, pyhashable (g x) = true) -> pyhashable (PTuple (map g l)) = true.
Proof. intros H. cbn [pyhashable]. induction l; cbn [map forallb]; [reflexivity|]. rewrite H. assumption. Qed.
Lemma leaf_ser v : leaf_kind v <> None -> exists y, ser nm v = Ok y /\ json nm v y /\ pyhashable y = true.
Proof.
  destruct v; cbn [leaf_kind]; intros H; try congruence; cbn [ser]; eexists; split; try reflexivity; split.
  all: try (constructor; apply shown_str; reflexivity).
  all: try (constructor; fail). all: try reflexivity.
  all: try (apply pyhashable_map; reflexivity). apply pyhashable_map. intros r. apply pyhashable_map. reflexivity.
Qed.

Variable path_hash : str -> result N.
Hypothesis Ff : faithful compute_binhash (n_field nm).
Hypothesis Fh : faithful compute_binhash (n_hash nm).
Hypothesis Fe : faithful compute_binhash (n_entry nm).
Hypothesis Fp : faithful path_hash (n_path nm).
(** Different plain keys are shown differently. *)
Lemma leaf_inj k k' kd y y' : leaf_kind k = Some kd -> leaf_kind k' = Some kd -> ser nm k = Ok y -> ser nm k' = Ok y' ->
  pyeq y y' = key_eq k k'.
Proof.
  destruct k, k'; cbn [leaf_kind]; intros H H'; try congruence; cbn [ser]; intros E E'; injection E as <-; injection E' as <-.
  - rewrite pyeq_tuple, all2_map. apply all2_ext. intros x y. cbn [pyeq pyint]. 
    destruct (N.eqb_spec x y) as [->|Hn]; [apply Z.eqb_refl|]. apply Z.eqb_neq. lia.
  - destruct b, b0; reflexivity.
  - reflexivity.
  - reflexivity.
  - rewrite pyeq_tuple, all2_map. reflexivity.
  - rewrite pyeq_tuple, all2_map. apply all2_ext. intros x y. rewrite pyeq_tuple, all2_map. reflexivity.
  - reflexivity.
  - cbn [pyeq key_eq]. destruct (N.eqb_spec h h0) as [->|Hn]; [apply eqbR|]. apply (proj2 (eqbF _ _)). intros E. apply (hash_str_inj _ _ _ _ _ Fh) in E. contradiction.
  - cbn [pyeq key_eq]. destruct (N.eqb_spec h h0) as [->|Hn]; [apply eqbR|]. apply (proj2 (eqbF _ _)). intros E. apply (hash_str_inj _ _ _ _ _ Fp) in E. contradiction.
  - cbn [pyeq key_eq]. destruct (N.eqb_spec h h0) as [->|Hn]; [apply eqbR|]. apply (proj2 (eqbF _ _)). intros E. apply (hash_str_inj _ _ _ _ _ Fe) in E. contradiction.
Qed.
Lemma pydict_new k v d : Forall (fun kv => pyeq k (fst kv) = false) d -> pydict_set k v d = d ++ [(k, v)].
Proof. induction 1 as [|[k' v'] d H HF IH]; cbn [pydict_set app fst] in *; [reflexivity|]. rewrite H, IH. reflexivity. Qed.

Lemma fields_json fs : NoDup (map f_name fs) -> Forall (fun f => exists y, ser nm (snd f) = Ok y /\ json nm (snd f) y) fs ->
  exists ds, ser_fields nm fs = Ok ds /\ Forall2 (fun f d => shown 8 (n_field nm) (fst (fst f)) (fst d) /\ json nm (snd f) (snd d)) fs ds.
Proof.
  intros _ HF. induction HF as [|[[h t] x] fs (y & Ey & Hy) HF IH]; [exists []; split; [reflexivity | constructor]|].
  destruct IH as (ds & Eds & HF2). cbn [snd] in Ey, Hy. exists ((hash_str 8 (n_field nm) h, y) :: ds). cbn [ser_fields]. rewrite Ey. cbn [rbind]. rewrite Eds.
  split; [reflexivity|]. constructor; [|exact HF2]. split; [apply shown_str; reflexivity | exact Hy].
Qed.
Lemma keys_distinct (known : N -> option str) hash {A B} (name : A -> N) (fs : list A) (ds : list (str * B)) (R : A -> str * B -> Prop) :
  faithful hash known -> Forall2 (fun f d => shown 8 known (name f) (fst d) /\ R f d) fs ds -> NoDup (map name fs) -> NoDup (dkeys ds).
Proof.
  intros Hf HF. induction HF as [|f d fs ds [Hs _] HF IH]; intros HN; [constructor|]. cbn [map dkeys] in *. apply NoDup_cons_iff in HN as [Hn HN].
  constructor; [|apply IH; exact HN]. intros Hi. apply in_map_iff in Hi as (d' & Ed & Hd'). apply Hn.
  assert (G : exists f', In f' fs /\ shown 8 known (name f') (fst d')).
  { clear -HF Hd'. induction HF as [|f0 d0 fs ds [Hs _] HF IH]; [destruct Hd'|]. destruct Hd' as [->|Hd']; [exists f0; split; [left; reflexivity | exact Hs]|].
    destruct (IH Hd') as (f' & ? & ?). exists f'. split; [right; assumption | assumption]. }
  destruct G as (f' & Hf' & Hs'). apply in_map_iff. exists f'. split; [|exact Hf'].
  apply shown_str in Hs, Hs'. apply (hash_str_inj hash 8 known); [exact Hf|]. congruence.
Qed.
Lemma object_json h fs : clean_fields nm fs -> Forall (fun f => exists y, ser nm (snd f) = Ok y /\ json nm (snd f) y) fs ->
  exists d, rmap (ser_object nm h) (ser_fields nm fs) = Ok (PObj d) /\ members nm h fs d.
Proof.
  intros Hc HF. inversion Hc as [fs0 HN HT _ E]; subst fs0. destruct (fields_json fs HN HF) as (ds & Eds & HF2). rewrite Eds. cbn [rmap rbind].
  exists (ds ++ [(lit "__type", PStr (hash_str 8 (n_type nm) h))]). split; [|constructor; [exact HF2 | apply shown_str; reflexivity]].
  unfold ser_object. rewrite dict_of_NoDup_id by (eapply keys_distinct; [exact Ff | exact HF2 | exact HN]).
  rewrite dset_new; [reflexivity|]. apply dget_None. intros Hi. unfold dkeys in Hi. apply in_map_iff in Hi as (d' & Ed & Hd').
  assert (G : exists f', In f' fs /\ shown 8 (n_field nm) (fst (fst f')) (fst d')).
  { clear -HF2 Hd'. induction HF2 as [|f0 d0 fs ds [Hs _] HF IH]; [destruct Hd'|]. destruct Hd' as [->|Hd']; [exists f0; split; [left; reflexivity | exact Hs]|].
    destruct (IH Hd') as (f' & ? & ?). exists f'. split; [right; assumption | assumption]. }
  destruct G as (f' & Hf' & Hs'). rewrite Ed in Hs'. apply (HT f' Hf' Hs').
Qed.
Lemma map_json kd d : Forall (fun kv => leaf_kind (fst kv) = Some kd) d ->
  ForallOrdPairs (fun a b => ~ same_key (fst b) (fst a)) d ->
  Forall (fun kv => exists y, ser nm (snd kv) = Ok y /\ json nm (snd kv) y) d ->
  exists d', ser_map d [] = Ok d' /\ Forall2 (fun kv kv' => json nm (fst kv) (fst kv') /\ json nm (snd kv) (snd kv')) d d'.
Proof.
  assert (G : forall acc acc', Forall (fun kv => leaf_kind (fst kv) = Some kd) (acc ++ d) ->
    ForallOrdPairs (fun a b => ~ same_key (fst b) (fst a)) (acc ++ d) ->
    Forall (fun kv => exists y, ser nm (snd kv) = Ok y /\ json nm (snd kv) y) d ->
    Forall2 (fun kv kv' => (ser nm (fst kv) = Ok (fst kv') /\ json nm (fst kv) (fst kv')) /\ json nm (snd kv) (snd kv')) acc acc' ->
    exists d', ser_map d acc' = Ok d' /\ Forall2 (fun kv kv' => json nm (fst kv) (fst kv') /\ json nm (snd kv) (snd kv')) (acc ++ d) d').
  { induction d as [|[k x] d IH]; intros acc acc' HK HO HV HA; cbn [ser_map].
    - exists acc'. split; [reflexivity|]. rewrite app_nil_r. eapply Forall2_weaken; [|exact HA]. cbn beta. tauto.
    - inversion HV as [|? ? (y & Ey & Hy) HV']; subst. cbn [snd] in Ey, Hy.
      assert (Hk : leaf_kind k = Some kd) by (rewrite Forall_forall in HK; apply (HK (k, x)); apply in_app_iff; right; left; reflexivity).
      destruct (leaf_ser k ltac:(congruence)) as (yk & Eyk & Hyk & Hh). rewrite Eyk. cbn [rbind]. rewrite Ey. cbn [rbind]. rewrite Hh.
      assert (Hnew : Forall (fun kv => pyeq yk (fst kv) = false) acc').
      { assert (HA' : Forall (fun kv => leaf_kind (fst kv) = Some kd /\ ~ same_key k (fst kv)) acc).
        { clear -HK HO. induction acc as [|a acc IH]; [constructor|]. cbn [app] in HK, HO. inversion HK; subst. inversion HO; subst.
          constructor; [|apply IH; assumption]. split; [assumption|]. rewrite Forall_forall in H3. apply (H3 (k, x)). apply in_app_iff. right. left. reflexivity. }
        clear -HA HA' Eyk Hk Fh Fp Fe. induction HA as [|a a' acc acc' [[Ea _] _] HA IH]; [constructor|]. inversion HA' as [|? ? [Hl Hs] HA'']; subst.
        constructor; [|apply IH; assumption]. rewrite (leaf_inj k (fst a) kd yk (fst a') Hk Hl Eyk Ea).
        destruct (key_eq k (fst a)) eqn:Ek; [|reflexivity]. exfalso. apply Hs. apply key_eq_spec. exact Ek. }
      rewrite pydict_new by exact Hnew. replace (acc ++ (k, x) :: d) with ((acc ++ [(k, x)]) ++ d) in * by (rewrite <- app_assoc; reflexivity).
      apply IH; try assumption. apply Forall2_app; [exact HA|]. constructor; [|constructor]. cbn [fst snd]. auto. }
  intros HK HO HV. destruct (G [] [] HK HO HV) as (d' & E & HF); [constructor|]. exists d'. auto.
Qed.
(** A clean value has a JSON form with all of it. *)
Theorem clean_json : forall v, clean nm v -> exists y, ser nm v = Ok y /\ json nm v y.
Proof.
  apply (bval_ind' (fun v => clean nm v -> exists y, ser nm v = Ok y /\ json nm v y)).
  - intros v Hv _. destruct (leaf_ser v Hv) as (y & ? & ? & _). eauto.
  - intros t l HF Hc. inversion Hc; subst; [cbn in *; congruence|]. rewrite ser_list.
    assert (G : exists l', rmapM (ser nm) l = Ok l' /\ Forall2 (json nm) l l').
    { clear Hc. induction HF as [|x l Hx HF IH]; [exists []; split; [reflexivity | constructor]|]. inversion H0; subst.
      destruct (Hx H2) as (y & Ey & Hy). destruct (IH H3) as (l' & El & Hl). exists (y :: l'). cbn [rmapM]. rewrite Ey. cbn [rbind]. rewrite El. split; [reflexivity | constructor; assumption]. }
    destruct G as (l' & -> & Hl). exists (PList l'). split; [reflexivity | constructor; exact Hl].
  - intros h fs HF Hc. rewrite ser_struct. destruct (N.eqb_spec h 0) as [->|Hh]; [exists PNone; split; [reflexivity | constructor]|].
    inversion Hc; subst; [cbn in *; congruence | congruence|].
    destruct (object_json h fs H0) as (d & Ed & Hd).
    { inversion H0; subst. apply Forall_forall. intros f Hf. rewrite Forall_forall in HF, H2. apply (HF f Hf). apply H2. exact Hf. }
    exists (PObj d). split; [exact Ed | constructor; assumption].
  - intros h fs HF Hc. rewrite ser_embedded. inversion Hc; subst; [cbn in *; congruence|].
    destruct (object_json h fs H0) as (d & Ed & Hd).
    { inversion H0; subst. apply Forall_forall. intros f Hf. rewrite Forall_forall in HF, H2. apply (HF f Hf). apply H2. exact Hf. }
    exists (PObj d). split; [exact Ed | constructor; assumption].
  - intros t _. exists PNone. split; [reflexivity | constructor].
  - intros t v IH Hc. inversion Hc; subst; [cbn in *; congruence|]. destruct (IH H0) as (y & Ey & Hy). exists y. split; [exact Ey | constructor; exact Hy].
  - intros kt vt d HF Hc. inversion Hc; subst; [cbn in *; congruence|]. rewrite ser_vmap.
    destruct (map_json kd d H2 H3) as (d' & Ed & Hd).
    { apply Forall_forall. intros kv Hkv. rewrite Forall_forall in HF, H4. apply (proj2 (HF kv Hkv)). apply H4. exact Hkv. }
    rewrite Ed. exists (PMap d'). split; [reflexivity | constructor; exact Hd].
Qed.

Lemma clean_members h fs : clean_fields nm fs -> exists d, rmap (ser_object nm h) (ser_fields nm fs) = Ok (PObj d) /\ members nm h fs d.
Proof.
  intros Hc. apply object_json; [exact Hc|]. inversion Hc; subst. eapply Forall_impl; [|eassumption]. intros f. apply clean_json.
Qed.
Lemma rmapM_all {A B} (g : A -> result B) (R : A -> B -> Prop) l : (forall x, In x l -> exists y, g x = Ok y /\ R x y) ->
  exists l', rmapM g l = Ok l' /\ Forall2 R l l'.
Proof.
  induction l as [|x l IH]; intros H; [exists []; split; [reflexivity | constructor]|].
  destruct (H x (or_introl eq_refl)) as (y & Ey & Hy). destruct (IH (fun x Hx => H x (or_intror Hx))) as (l' & El & Hl).
  exists (y :: l'). cbn [rmapM]. rewrite Ey. cbn [rbind]. rewrite El. split; [reflexivity | constructor; assumption].
Qed.
Lemma Forall2_in_r {A B} (R : A -> B -> Prop) l l' y : Forall2 R l l' -> In y l' -> exists x, In x l /\ R x y.
Proof.
  induction 1 as [|a b l l' H HF IH]; intros Hi; [destruct Hi|]. destruct Hi as [->|Hi]; [exists a; split; [left; reflexivity | exact H]|].
  destruct (IH Hi) as (x & ? & ?). exists x. split; [right; assumption | assumption].
Qed.
Lemma fresh_key {A B} (name : A -> N) (R : A -> str * B -> Prop) fs ds s :
  Forall2 (fun f d => shown 8 (n_entry nm) (name f) (fst d) /\ R f d) fs ds -> (forall f, In f fs -> ~ shown 8 (n_entry nm) (name f) s) -> ~ In s (dkeys ds).
Proof.
  intros HF Hs Hi. unfold dkeys in Hi. apply in_map_iff in Hi as (d & Ed & Hd). destruct (Forall2_in_r _ _ _ _ HF Hd) as (f & Hf & Hx & _).
  apply (Hs f Hf). rewrite <- Ed. exact Hx.
Qed.
Theorem clean_file_json f : clean_file nm f -> exists y, ser_file nm f = Ok y /\ json_file nm f y.
Proof.
  intros (HN & HE & HP). unfold ser_file.
  destruct (rmapM_all (fun e => let! y := ser_entry nm e in Ok (hash_str 8 (n_entry nm) (be_path e), y))
    (fun e kv => shown 8 (n_entry nm) (be_path e) (fst kv) /\ exists d, snd kv = PObj d /\ members nm (be_type e) (be_fields e) d) (bf_entries f)) as (es & Ees & HF).
  { intros e He. destruct (HE e He) as (_ & _ & Hc). destruct (clean_members (be_type e) (be_fields e) Hc) as (d & Ed & Hd).
    unfold ser_entry. rewrite Ed. eexists. split; [reflexivity|]. cbn [fst snd]. split; [apply shown_str; reflexivity|]. exists d. auto. }
  rewrite Ees. cbn [rbind]. clear Ees.
  assert (Hk : NoDup (dkeys es)) by (eapply (keys_distinct (n_entry nm) compute_binhash be_path); [exact Fe | exact HF | exact HN]).
  rewrite (dict_of_NoDup_id es Hk). cbv zeta.
  assert (Hl : ~ In (lit "__linked") (dkeys es)) by (eapply fresh_key; [exact HF | intros e He; apply (HE e He)]).
  assert (Hp : ~ In (lit "__patches") (dkeys es)) by (eapply fresh_key; [exact HF | intros e He; apply (HE e He)]).
  set (l := match bf_linked f with Some l => [(lit "__linked", PList (map PStr l))] | None => [] end).
  replace (match bf_linked f with Some l => dset (lit "__linked") (PList (map PStr l)) es | None => es end) with (es ++ l).
  2: { unfold l. destruct (bf_linked f); [|apply app_nil_r]. rewrite dset_new by (apply dget_None; exact Hl). reflexivity. }
  unfold json_file. destruct (bf_patches f) as [ps|] eqn:Eps.
  - destruct (HP ps eq_refl) as [HNp HQ].
    destruct (rmapM_all (fun p => let! y := ser_patch nm p in Ok (hash_str 8 (n_entry nm) (fst p), y))
      (fun q kv => shown 8 (n_entry nm) (fst q) (fst kv) /\
        exists d, snd kv = PObj d /\ Forall2 (fun pf m => fst m = fst (fst pf) /\ json nm (snd pf) (snd m)) (snd q) d) ps) as (qs & Eqs & HFq).
    { intros q Hq. destruct (HQ q Hq) as [HNq HCq].
      destruct (rmapM_all (fun f : pfield => let! y := ser nm (snd f) in Ok (fst (fst f), y)) (fun pf m => fst m = fst (fst pf) /\ json nm (snd pf) (snd m)) (snd q)) as (d & Ed & Hd).
      { intros pf Hpf. rewrite Forall_forall in HCq. destruct (clean_json (snd pf) (HCq pf Hpf)) as (y & Ey & Hy). rewrite Ey. eexists. split; [reflexivity|]. auto. }
      unfold ser_patch. rewrite Ed. cbn [rmap rbind]. eexists. split; [reflexivity|]. cbn [fst snd]. split; [apply shown_str; reflexivity|].
      exists d. split; [|exact Hd]. rewrite dict_of_NoDup_id; [reflexivity|]. unfold dkeys.
      replace (map fst d) with (map (fun pf : pfield => fst (fst pf)) (snd q)); [exact HNq|].
      clear -Hd. induction Hd as [|a b l l' [H _] HF IH]; [reflexivity|]. cbn [map]. rewrite H, IH. reflexivity. }
    rewrite Eqs. cbn [rbind].
    assert (Hkq : NoDup (dkeys qs)) by (eapply (keys_distinct (n_entry nm) compute_binhash (@fst N (list pfield))); [exact Fe | exact HFq | exact HNp]).
    rewrite (dict_of_NoDup_id qs Hkq). eexists. split; [reflexivity|]. exists es, l, [(lit "__patches", PObj qs)]. split; [|split; [exact HF | split; [reflexivity|]]].
    + rewrite dset_new; [rewrite app_assoc; reflexivity|]. apply dget_None. unfold dkeys. rewrite map_app. intros Hi. apply in_app_iff in Hi as [Hi|Hi]; [exact (Hp Hi)|].
      unfold l in Hi. destruct (bf_linked f); cbn [map fst] in Hi; [destruct Hi as [Hi|[]]; discriminate Hi | destruct Hi].
    + exists qs. auto.
  - eexists. split; [reflexivity|]. exists es, l, []. rewrite app_nil_r. split; [reflexivity|]. split; [exact HF|]. auto.
Qed.
End Json.

Lemma plain_iff v r : plain_value v r <-> to_python v = r.
Proof.
  split.
  - intros H. destruct H as [| | | |v H1 H2 H3]; try reflexivity.
    destruct v; try reflexivity; [destruct (H1 _ _ eq_refl) | destruct (H3 _ _ eq_refl) | destruct (H2 _ _ _ eq_refl)].
  - intros <-. destruct v; try (apply PV_other; intros; discriminate); try constructor.
    match goal with |- plain_value (VOption _ ?o) _ => destruct o; constructor end.
Qed.
Lemma getv_plain fs k r : getv fs k = Ok r <->
  (exists f, getitem fs k = Ok f /\ plain_value (snd f) r) \/ (getitem fs k = Err KeyError /\ r = RDefault).
Proof.
  unfold getv. destruct (getitem fs k) as [f|er].
  - split.
    + intros H. injection H as <-. left. exists f. split; [reflexivity | apply plain_iff; reflexivity].
    + intros [(g & E & H)|[E _]]; [|discriminate]. injection E as <-. apply plain_iff in H. rewrite <- H. reflexivity.
  - split.
    + destruct er; try discriminate. intros H. injection H as <-. right. split; reflexivity.
    + intros [(g & E & _)|[E ->]]; [discriminate|]. injection E as ->. reflexivity.
Qed.
