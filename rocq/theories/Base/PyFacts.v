(** * Facts about the Python substrate *)

From Verif Require Export Base.Py.

(** ** Bytes *)

Lemma b2n_lt b : b2n b < 256.
Proof. pose proof (Strings.Byte.to_N_bounded b). unfold b2n. lia. Qed.

Lemma n2b_b2n b : n2b (b2n b) = b.
Proof.
  unfold n2b. pose proof (b2n_lt b). rewrite N.mod_small by assumption.
  unfold b2n. rewrite Strings.Byte.of_to_N. reflexivity.
Qed.

Lemma b2n_n2b n : b2n (n2b n) = n mod 256.
Proof.
  unfold n2b. assert (Hm : n mod 256 < 256) by (apply N.mod_lt; discriminate).
  destruct (Strings.Byte.of_N (n mod 256)) as [b|] eqn:E.
  - unfold b2n. apply Strings.Byte.to_of_N. assumption.
  - apply Strings.Byte.of_N_None_iff in E. lia.
Qed.

Lemma b2n_n2b_small n : n < 256 -> b2n (n2b n) = n.
Proof. intros Hn. rewrite b2n_n2b. apply N.mod_small. assumption. Qed.

Lemma b2n_inj a b : b2n a = b2n b -> a = b.
Proof. intros E. rewrite <- (n2b_b2n a), <- (n2b_b2n b), E. reflexivity. Qed.

(** ** Equality *)

Section EqbFacts.
  Context {A : Type} `{EqDec A}.
  Lemma eqbT (x y : A) : eqb x y = true <-> x = y.
  Proof. unfold eqb. destruct (eq_dec x y); split; congruence. Qed.
  Lemma eqbF (x y : A) : eqb x y = false <-> x <> y.
  Proof. unfold eqb. destruct (eq_dec x y); split; congruence. Qed.
  Lemma eqb_true (x y : A) : eqb x y = true -> x = y.
  Proof. apply eqbT. Qed.
  Lemma eqb_false (x y : A) : eqb x y = false -> x <> y.
  Proof. apply eqbF. Qed.
  Lemma eqbR (x : A) : eqb x x = true.
  Proof. apply eqbT. reflexivity. Qed.
  Lemma eqbS (x y : A) : eqb x y = eqb y x.
  Proof. unfold eqb. destruct (eq_dec x y), (eq_dec y x); congruence. Qed.
  Lemma eqbP (x y : A) : reflect (x = y) (eqb x y).
  Proof. unfold eqb. destruct (eq_dec x y); constructor; assumption. Qed.
  Lemma mem_In (x : A) l : mem x l = true <-> In x l.
  Proof.
    unfold mem. rewrite existsb_exists. split.
    - intros (y & Hy & E). apply eqbT in E. subst. assumption.
    - intros Hx. exists x. split; [assumption | apply eqbR].
  Qed.
  Lemma mem_false (x : A) l : mem x l = false <-> ~ In x l.
  Proof. rewrite <- mem_In. destruct (mem x l); split; congruence. Qed.
End EqbFacts.

(** ** Results *)

Lemma rbind_Ok {A B} (m : result A) (k : A -> result B) b :
  rbind m k = Ok b <-> exists a, m = Ok a /\ k a = Ok b.
Proof.
  destruct m as [a|e]; cbn [rbind]; split.
  - intros E. exists a. split; [reflexivity | assumption].
  - intros (a' & E & E'). congruence.
  - discriminate.
  - intros (a' & E & E'). discriminate.
Qed.

Lemma rmapM_Ok {A B} (f : A -> result B) l l' :
  rmapM f l = Ok l' <-> Forall2 (fun x y => f x = Ok y) l l'.
Proof.
  revert l'. induction l as [|x t IH]; intros l'; cbn [rmapM].
  - split; intros E; [injection E as <-; constructor | inversion E; reflexivity].
  - rewrite rbind_Ok. split.
    + intros (y & Ey & E). apply rbind_Ok in E as (ys & Eys & E). injection E as <-.
      constructor; [assumption | apply IH; assumption].
    + intros F. inversion F as [|? y ? ys Ey Eys]; subst. exists y. split; [assumption|].
      apply rbind_Ok. exists ys. split; [apply IH; assumption | reflexivity].
Qed.

Lemma rmapM_ext {A B} (f g : A -> result B) l :
  (forall x, In x l -> f x = g x) -> rmapM f l = rmapM g l.
Proof.
  induction l as [|x t IH]; intros E; cbn [rmapM]; [reflexivity|].
  rewrite (E x (or_introl eq_refl)), IH; [reflexivity|]. intros y Hy. apply E. right. assumption.
Qed.

Lemma rmapM_map {A B C} (f : B -> result C) (g : A -> B) l :
  rmapM f (map g l) = rmapM (fun x => f (g x)) l.
Proof. induction l as [|x t IH]; cbn [rmapM map]; [reflexivity | rewrite IH; reflexivity]. Qed.

(** ** Lengths and slices *)

Section Slices.
  Context {A : Type}.
  Implicit Types l : list A.

  Lemma lenN_acc_eq (acc : N) l : lenN_acc acc l = acc + N.of_nat (length l).
  Proof.
    revert acc. induction l as [|x t IH]; intros acc; cbn [lenN_acc length].
    - lia.
    - rewrite IH. lia.
  Qed.
  Lemma lenN_length l : lenN l = N.of_nat (length l).
  Proof. unfold lenN. rewrite lenN_acc_eq. lia. Qed.
  Lemma lenN_nil : lenN (@nil A) = 0.
  Proof. reflexivity. Qed.
  Lemma lenN_cons x l : lenN (x :: l) = N.succ (lenN l).
  Proof. rewrite !lenN_length. cbn [length]. lia. Qed.
  Lemma lenN_app l1 l2 : lenN (l1 ++ l2) = lenN l1 + lenN l2.
  Proof. rewrite !lenN_length, app_length. lia. Qed.
  Lemma lenN_0 l : lenN l = 0 <-> l = [].
  Proof. destruct l; rewrite ?lenN_cons, ?lenN_nil; split; intros; try reflexivity; try discriminate; lia. Qed.

  Lemma takeN_firstn n l : takeN n l = firstn (N.to_nat n) l.
  Proof.
    revert n. induction l as [|x t IH]; intros n; cbn [takeN].
    - rewrite firstn_nil. reflexivity.
    - destruct (N.eqb_spec n 0) as [->|Hn]; [reflexivity|].
      replace (N.to_nat n) with (S (N.to_nat (N.pred n))) by lia.
      cbn [firstn]. rewrite IH. reflexivity.
  Qed.
  Lemma dropN_skipn n l : dropN n l = skipn (N.to_nat n) l.
  Proof.
    revert n. induction l as [|x t IH]; intros n; cbn [dropN].
    - rewrite skipn_nil. reflexivity.
    - destruct (N.eqb_spec n 0) as [->|Hn]; [reflexivity|].
      replace (N.to_nat n) with (S (N.to_nat (N.pred n))) by lia.
      cbn [skipn]. rewrite IH. reflexivity.
  Qed.
  Lemma takeN_dropN n l : takeN n l ++ dropN n l = l.
  Proof. rewrite takeN_firstn, dropN_skipn. apply firstn_skipn. Qed.
  Lemma lenN_takeN n l : lenN (takeN n l) = N.min n (lenN l).
  Proof. rewrite takeN_firstn, !lenN_length, firstn_length. lia. Qed.
  Lemma lenN_dropN n l : lenN (dropN n l) = lenN l - n.
  Proof. rewrite dropN_skipn, !lenN_length, skipn_length. lia. Qed.
  Lemma takeN_all n l : lenN l <= n -> takeN n l = l.
  Proof. intros E. rewrite lenN_length in E. rewrite takeN_firstn. apply firstn_all2. lia. Qed.
  Lemma dropN_all n l : lenN l <= n -> dropN n l = [].
  Proof. intros E. rewrite lenN_length in E. rewrite dropN_skipn. apply skipn_all2. lia. Qed.
  Lemma takeN_0 l : takeN 0 l = [].
  Proof. rewrite takeN_firstn. reflexivity. Qed.
  Lemma dropN_0 l : dropN 0 l = l.
  Proof. rewrite dropN_skipn. reflexivity. Qed.
  Lemma takeN_app n l1 l2 : takeN n (l1 ++ l2) = takeN n l1 ++ takeN (n - lenN l1) l2.
  Proof.
    rewrite !takeN_firstn, firstn_app, lenN_length. f_equal. f_equal. lia.
  Qed.
  Lemma dropN_app n l1 l2 : dropN n (l1 ++ l2) = dropN n l1 ++ dropN (n - lenN l1) l2.
  Proof.
    rewrite !dropN_skipn, skipn_app, lenN_length. f_equal. f_equal. lia.
  Qed.
  Lemma takeN_app_exact l1 l2 : takeN (lenN l1) (l1 ++ l2) = l1.
  Proof. rewrite takeN_app, N.sub_diag, takeN_0, app_nil_r. apply takeN_all. lia. Qed.
  Lemma dropN_app_exact l1 l2 : dropN (lenN l1) (l1 ++ l2) = l2.
  Proof. rewrite dropN_app, N.sub_diag, dropN_0, dropN_all by lia. reflexivity. Qed.
  Lemma dropN_dropN n m l : dropN n (dropN m l) = dropN (m + n) l.
  Proof.
    rewrite !dropN_skipn.
    assert (E : forall j k l, skipn j (skipn k l) = skipn (k + j)%nat l).
    { clear. intros j k. revert j. induction k as [|k IH]; intros j l; [reflexivity|].
      destruct l as [|x t]; cbn [skipn Nat.add]; [apply skipn_nil | apply IH]. }
    rewrite E. f_equal. lia.
  Qed.
  Lemma takeN_takeN n m l : takeN n (takeN m l) = takeN (N.min n m) l.
  Proof.
    rewrite !takeN_firstn, firstn_firstn. f_equal. lia.
  Qed.
  Lemma takeN_add n m l : takeN (n + m) l = takeN n l ++ takeN m (dropN n l).
  Proof.
    destruct (N.le_gt_cases (lenN l) n) as [Hl|Hl].
    - rewrite (takeN_all n) by lia. rewrite (takeN_all (n+m)) by lia.
      rewrite dropN_all by lia. cbn [takeN]. rewrite app_nil_r. reflexivity.
    - rewrite <- (takeN_dropN n l) at 1. rewrite takeN_app, lenN_takeN.
      rewrite takeN_takeN. f_equal; f_equal; lia.
  Qed.

  Lemma nthN_nth_error l n : nthN l n = nth_error l (N.to_nat n).
  Proof.
    revert n. induction l as [|x t IH]; intros n; cbn [nthN].
    - destruct (N.to_nat n); reflexivity.
    - destruct (N.eqb_spec n 0) as [->|Hn]; [reflexivity|].
      replace (N.to_nat n) with (S (N.to_nat (N.pred n))) by lia.
      cbn [nth_error]. apply IH.
  Qed.
  Lemma nthN_lt l n : n < lenN l -> exists x, nthN l n = Some x.
  Proof.
    rewrite nthN_nth_error, lenN_length. intros Hn.
    destruct (nth_error l (N.to_nat n)) as [x|] eqn:E; [exists x; reflexivity|].
    apply nth_error_None in E. lia.
  Qed.
  Lemma nthN_ge l n : lenN l <= n -> nthN l n = None.
  Proof. rewrite nthN_nth_error, lenN_length. intros Hn. apply nth_error_None. lia. Qed.
  Lemma nthN_app_exact l1 x l2 : nthN (l1 ++ x :: l2) (lenN l1) = Some x.
  Proof.
    rewrite nthN_nth_error, lenN_length, Nnat.Nat2N.id.
    rewrite nth_error_app2, Nat.sub_diag by lia. reflexivity.
  Qed.
  Lemma nthN_In l n x : nthN l n = Some x -> In x l.
  Proof. rewrite nthN_nth_error. apply nth_error_In. Qed.
  Lemma In_nthN l x : In x l -> exists n, n < lenN l /\ nthN l n = Some x.
  Proof.
    intros Hx. apply In_nth_error in Hx as (k & Hk). exists (N.of_nat k).
    rewrite nthN_nth_error, Nnat.Nat2N.id. split; [|assumption].
    rewrite lenN_length. assert (k < length l)%nat; [|lia].
    apply nth_error_Some. congruence.
  Qed.
End Slices.

Lemma lenN_map {A B} (f : A -> B) l : lenN (map f l) = lenN l.
Proof. rewrite !lenN_length, map_length. reflexivity. Qed.
Lemma lenN_rev {A} (l : list A) : lenN (rev l) = lenN l.
Proof. rewrite !lenN_length, rev_length. reflexivity. Qed.
Lemma takeN_map {A B} (f : A -> B) n l : takeN n (map f l) = map f (takeN n l).
Proof. rewrite !takeN_firstn. apply firstn_map. Qed.
Lemma dropN_map {A B} (f : A -> B) n l : dropN n (map f l) = map f (dropN n l).
Proof. rewrite !dropN_skipn. apply skipn_map. Qed.

Lemma pyidx_pos len i : (0 <= i)%Z -> pyidx len i = N.min len (Z.to_N i).
Proof. intros Hi. unfold pyidx. destruct (Z.ltb_spec i 0); lia. Qed.

Lemma takeN_min {A} n (l : list A) : takeN (N.min (lenN l) n) l = takeN n l.
Proof.
  destruct (N.le_gt_cases (lenN l) n).
  - rewrite !takeN_all by lia. reflexivity.
  - rewrite N.min_r by lia. reflexivity.
Qed.
Lemma dropN_min {A} n (l : list A) : dropN (N.min (lenN l) n) l = dropN n l.
Proof.
  destruct (N.le_gt_cases (lenN l) n).
  - rewrite !dropN_all by lia. reflexivity.
  - rewrite N.min_r by lia. reflexivity.
Qed.
Lemma py_take_pos {A} (l : list A) i : (0 <= i)%Z -> py_take l i = takeN (Z.to_N i) l.
Proof. intros Hi. unfold py_take. rewrite pyidx_pos by assumption. apply takeN_min. Qed.
Lemma py_drop_pos {A} (l : list A) i : (0 <= i)%Z -> py_drop l i = dropN (Z.to_N i) l.
Proof. intros Hi. unfold py_drop. rewrite pyidx_pos by assumption. apply dropN_min. Qed.

(** ** Ranges *)

Lemma rangeN_from_In start n x :
  In x (rangeN_from start n) <-> start <= x < start + N.of_nat n.
Proof.
  revert start. induction n as [|n IH]; intros start; cbn [rangeN_from In].
  - lia.
  - rewrite IH. lia.
Qed.
Lemma rangeN_from_length start n : length (rangeN_from start n) = n.
Proof. revert start. induction n as [|n IH]; intros start; cbn [rangeN_from length]; [reflexivity|]. rewrite IH. reflexivity. Qed.
Lemma rangeN_In n x : In x (rangeN n) <-> x < n.
Proof. unfold rangeN. rewrite rangeN_from_In. lia. Qed.

(** ** Dictionaries *)

Section DictFacts.
  Context {K V : Type} `{EqDec K}.
  Implicit Types d : list (K * V).

  Lemma dget_dset (k k' : K) (v : V) d :
    dget k (dset k' v d) = if eqb k k' then Some v else dget k d.
  Proof.
    induction d as [|[k1 v1] t IH]; cbn [dset dget].
    - reflexivity.
    - destruct (eqbP k' k1) as [->|Hk']; cbn [dget].
      + destruct (eqbP k k1); reflexivity.
      + rewrite IH. destruct (eqbP k k1) as [->|Hk]; [|reflexivity].
        destruct (eqbP k1 k'); [congruence | reflexivity].
  Qed.
  Lemma dget_dset_same (k : K) (v : V) d : dget k (dset k v d) = Some v.
  Proof. rewrite dget_dset, eqbR. reflexivity. Qed.
  Lemma dget_dset_other (k k' : K) (v : V) d : k <> k' -> dget k (dset k' v d) = dget k d.
  Proof. intros Hk. rewrite dget_dset. destruct (eqbP k k'); [congruence | reflexivity]. Qed.

  Lemma dget_None (k : K) d : dget k d = None <-> ~ In k (dkeys d).
  Proof.
    induction d as [|[k1 v1] t IH]; cbn [dget dkeys map fst In].
    - split; [intros _ [] | reflexivity].
    - destruct (eqbP k k1) as [->|Hk].
      + split; [discriminate | intros Hn; exfalso; apply Hn; left; reflexivity].
      + rewrite IH. unfold dkeys. split; [intros Hn [E|Hi]; [congruence | auto] | intros Hn Hi; apply Hn; right; assumption].
  Qed.
  Lemma dget_Some_In (k : K) (v : V) d : dget k d = Some v -> In (k, v) d.
  Proof.
    induction d as [|[k1 v1] t IH]; cbn [dget]; [discriminate|].
    destruct (eqbP k k1) as [->|Hk]; intros E.
    - injection E as ->. left. reflexivity.
    - right. apply IH. assumption.
  Qed.
  Lemma dget_In_NoDup (k : K) (v : V) d : NoDup (dkeys d) -> In (k, v) d -> dget k d = Some v.
  Proof.
    induction d as [|[k1 v1] t IH]; cbn [dget dkeys map fst]; intros Hd Hi; [contradiction|].
    inversion Hd as [|? ? Hn Hd']; subst. destruct Hi as [E|Hi].
    - injection E as -> ->. rewrite eqbR. reflexivity.
    - destruct (eqbP k k1) as [->|Hk]; [|apply IH; assumption].
      exfalso. apply Hn. change k1 with (fst (k1, v)). apply in_map. assumption.
  Qed.
  Lemma dkeys_dset (k : K) (v : V) d :
    dkeys (dset k v d) = if dhas k d then dkeys d else dkeys d ++ [k].
  Proof.
    unfold dhas. induction d as [|[k1 v1] t IH]; cbn [dset dget dkeys map fst app]; [reflexivity|].
    destruct (eqbP k k1) as [->|Hk]; cbn [map fst]; [reflexivity|].
    unfold dkeys in IH. rewrite IH. destruct (dget k t); reflexivity.
  Qed.
  Lemma dset_NoDup (k : K) (v : V) d : NoDup (dkeys d) -> NoDup (dkeys (dset k v d)).
  Proof.
    intros Hd. rewrite dkeys_dset. unfold dhas. destruct (dget k d) as [w|] eqn:E; [assumption|].
    apply dget_None in E. apply Permutation_NoDup with (l := k :: dkeys d).
    - apply Permutation_cons_append.
    - constructor; assumption.
  Qed.
  Lemma dset_In_keys (k k' : K) (v : V) d :
    In k (dkeys (dset k' v d)) <-> k = k' \/ In k (dkeys d).
  Proof.
    destruct (dget k (dset k' v d)) as [w|] eqn:E.
    - split; intros Hi.
      + rewrite dget_dset in E. destruct (eqbP k k') as [->|Hk]; [left; reflexivity|].
        right. apply dget_Some_In in E. change k with (fst (k, w)). apply in_map. assumption.
      + apply dget_Some_In in E. change k with (fst (k, w)). apply in_map. assumption.
    - pose proof E as E0. apply dget_None in E. rewrite dget_dset in E0.
      destruct (eqbP k k') as [->|Hk]; [discriminate|]. apply dget_None in E0. intuition congruence.
  Qed.
  Lemma dset_new (k : K) (v : V) d : dget k d = None -> dset k v d = d ++ [(k, v)].
  Proof.
    induction d as [|[k1 v1] t IH]; cbn [dset dget app]; [reflexivity|].
    destruct (eqbP k k1); [discriminate|]. intros E. rewrite IH by assumption. reflexivity.
  Qed.

  Lemma dget_app (k : K) d1 d2 :
    dget k (d1 ++ d2) = match dget k d1 with Some v => Some v | None => dget k d2 end.
  Proof.
    induction d1 as [|[k1 v1] t IH]; cbn [dget app]; [reflexivity|].
    destruct (eqb k k1); [reflexivity | assumption].
  Qed.

  Lemma fold_dset_get (k : K) (l : list (K * V)) d :
    dget k (fold_left (fun d p => dset (fst p) (snd p) d) l d) =
    match dget k (rev l) with Some v => Some v | None => dget k d end.
  Proof.
    revert d. induction l as [|[k1 v1] t IH]; intros d; cbn [fold_left rev fst snd]; [reflexivity|].
    rewrite IH, dget_app, dget_dset. cbn [dget].
    destruct (dget k (rev t)); [reflexivity|]. destruct (eqb k k1); reflexivity.
  Qed.
  (** A dict comprehension maps each key to its last value. *)
  Lemma dict_of_get (k : K) (l : list (K * V)) : dget k (dict_of l) = dget k (rev l).
  Proof. unfold dict_of. rewrite fold_dset_get. cbn [dget]. destruct (dget k (rev l)); reflexivity. Qed.
  Lemma fold_dset_NoDup (l : list (K * V)) d :
    NoDup (dkeys d) -> NoDup (dkeys (fold_left (fun d p => dset (fst p) (snd p) d) l d)).
  Proof.
    revert d. induction l as [|[k1 v1] t IH]; intros d Hd; cbn [fold_left]; [assumption|].
    apply IH, dset_NoDup, Hd.
  Qed.
  Lemma dict_of_NoDup (l : list (K * V)) : NoDup (dkeys (dict_of l)).
  Proof. apply fold_dset_NoDup. constructor. Qed.
  Lemma fold_dset_new (l : list (K * V)) d :
    NoDup (dkeys (d ++ l)) -> fold_left (fun d p => dset (fst p) (snd p) d) l d = d ++ l.
  Proof.
    revert d. induction l as [|[k v] t IH]; intros d Hd; cbn [fold_left fst snd].
    - rewrite app_nil_r. reflexivity.
    - rewrite dset_new.
      + rewrite IH; rewrite <- app_assoc; [reflexivity | assumption].
      + apply dget_None. unfold dkeys in *. rewrite map_app in Hd. cbn [map fst] in Hd.
        apply NoDup_remove_2 in Hd. intros Hi. apply Hd. apply in_or_app. left. assumption.
  Qed.
  Lemma dict_of_NoDup_id (l : list (K * V)) : NoDup (dkeys l) -> dict_of l = l.
  Proof. intros Hd. unfold dict_of. rewrite fold_dset_new; [reflexivity | assumption]. Qed.
  Lemma dict_of_keys (k : K) (l : list (K * V)) : In k (dkeys (dict_of l)) <-> In k (dkeys l).
  Proof.
    destruct (dget k (dict_of l)) as [v|] eqn:E.
    - split; intros _.
      + rewrite dict_of_get in E. apply dget_Some_In, in_rev in E.
        change k with (fst (k, v)). apply in_map. assumption.
      + apply dget_Some_In in E. change k with (fst (k, v)). apply in_map. assumption.
    - pose proof E as E0. apply dget_None in E. rewrite dict_of_get in E0. apply dget_None in E0.
      split; intros Hi; [contradiction|]. exfalso. apply E0. unfold dkeys. rewrite map_rev.
      apply in_rev in Hi. assumption.
  Qed.
  Lemma dget_ddel (k k' : K) d : dget k (ddel k' d) = if eqb k k' then None else dget k d.
  Proof.
    unfold ddel. induction d as [|[k1 v1] t IH]; cbn [filter dget fst].
    - destruct (eqb k k'); reflexivity.
    - destruct (eqbP k' k1) as [->|Hk1]; cbn [negb dget].
      + rewrite IH. destruct (eqbP k k1); reflexivity.
      + destruct (eqbP k k1) as [->|Hk]; [|exact IH].
        destruct (eqbP k1 k'); [congruence | reflexivity].
  Qed.
End DictFacts.

Section SetFacts.
  Context {A : Type} `{EqDec A}.
  Lemma set_add_In (x y : A) s : In x (set_add y s) <-> x = y \/ In x s.
  Proof.
    unfold set_add. destruct (mem y s) eqn:E.
    - apply mem_In in E. intuition congruence.
    - rewrite in_app_iff. cbn [In]. intuition.
  Qed.
  Lemma set_add_NoDup (y : A) s : NoDup s -> NoDup (set_add y s).
  Proof.
    intros Hs. unfold set_add. destruct (mem y s) eqn:E; [assumption|].
    apply mem_false in E. apply Permutation_NoDup with (l := y :: s).
    - apply Permutation_cons_append.
    - constructor; assumption.
  Qed.
  Lemma set_fold_In (x : A) l s :
    In x (fold_left (fun s x => set_add x s) l s) <-> In x s \/ In x l.
  Proof.
    revert s. induction l as [|y t IH]; intros s; cbn [fold_left In]; [tauto|].
    rewrite IH, set_add_In. intuition.
  Qed.
  Lemma set_of_In (x : A) l : In x (set_of l) <-> In x l.
  Proof. unfold set_of. rewrite set_fold_In. cbn [In]. tauto. Qed.
  Lemma set_of_NoDup (l : list A) : NoDup (set_of l).
  Proof.
    unfold set_of. assert (forall s, NoDup s -> NoDup (fold_left (fun s x => set_add x s) l s)) as E.
    { induction l as [|y t IH]; intros s Hs; cbn [fold_left]; [assumption|]. apply IH, set_add_NoDup, Hs. }
    apply E. constructor.
  Qed.
End SetFacts.
