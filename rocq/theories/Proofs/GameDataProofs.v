(** * Facts on the values found in BIN data *)

From Verif Require Import Base.Py Base.PyFacts Base.Text Base.TextFacts Spec.DictSpec Spec.BinAccessSpec Spec.GameDataSpec Model.GameData Proofs.DictProofs Proofs.BinAccessProofs Base.FsThreads.
From Coq Require Import ZArith Lia.

Lemma rmapM_iff {A B} (f : A -> result B) (R : A -> B -> Prop) l l' : (forall x y, f x = Ok y <-> R x y) -> (rmapM f l = Ok l' <-> Forall2 R l l').
Proof. intros H. rewrite rmapM_Ok. split; intros F; (eapply Forall2_weak; [|exact F]); intros x y; apply H. Qed.
Lemma rmap_Ok {A B} (f : A -> B) m b : rmap f m = Ok b <-> exists a, m = Ok a /\ b = f a.
Proof. destruct m as [a|e]; cbn [rmap]; split; [intros E; injection E as <-; eauto | intros (a' & E & ->); injection E as <-; reflexivity | discriminate | intros (a' & E & _); discriminate]. Qed.

Definition ascii (s : String.string) : Prop := forallb (fun c => c <? 128) (lit s) = true.
Lemma ascii_hash s : ascii s -> exists h, name_hash (lit s) h /\ compute_binhash (lit s) = Ok h.
Proof. unfold ascii. intros H. eexists. rewrite <- binhash_iff. unfold compute_binhash. rewrite H. split; reflexivity. Qed.
Lemma name_hash_fun s h h' : name_hash s h -> name_hash s h' -> h = h'.
Proof. rewrite <- !binhash_iff. congruence. Qed.

Lemma plain_not_default v : ~ plain_value v RDefault.
Proof. intros H. inversion H. Qed.
Lemma getd_at fs k h d r : denotes k h -> (getd fs k d = Ok r <-> (exists f, first_named h fs f /\ plain_value (snd f) r) \/ absent h fs /\ r = d).
Proof.
  intros Hd. unfold getd. rewrite rbind_Ok. split.
  - intros (a & Ea & E). injection E as <-. apply getv_plain in Ea as [(f & Ef & Hp)|[Ea ->]].
    + left. exists f. rewrite (getitem_first k h fs f Hd) in Ef. split; [exact Ef|]. destruct a; try exact Hp. destruct (plain_not_default _ Hp).
    + right. split; [apply (getitem_absent k h fs Hd); exact Ea | reflexivity].
  - intros [(f & Hf & Hp)|[Ha ->]].
    + exists r. split; [apply getv_plain; left; exists f; split; [apply (getitem_first k h fs f Hd); exact Hf | exact Hp]|]. destruct r; try reflexivity. destruct (plain_not_default _ Hp).
    + exists RDefault. split; [|reflexivity]. apply getv_plain. right. split; [apply (getitem_absent k h fs Hd); exact Ha | reflexivity].
Qed.
Lemma getd_iff s fs d r : ascii s -> (getd fs (fld s) d = Ok r <-> field_value s fs d r).
Proof.
  intros Ha. destruct (ascii_hash s Ha) as (h & Hh & _). rewrite (getd_at fs (fld s) h d r (D_str _ _ Hh)). unfold field_value, present, missing. split.
  - intros [(f & Hf & Hp)|[H ->]]; [left; exists h, f; auto | right; split; [exists h; auto | reflexivity]].
  - intros [(h' & f & Hh' & Hf & Hp)|[(h' & Hh' & H) ->]]; rewrite (name_hash_fun _ _ _ Hh Hh'); [left; eauto | right; auto].
Qed.
Lemma getn_iff s fs r : ascii s -> (getn fs (fld s) = Ok r <-> field_value s fs RNone r).
Proof. apply getd_iff. Qed.
Lemma getd_total s fs d : ascii s -> exists r, getd fs (fld s) d = Ok r.
Proof.
  intros Ha. destruct (ascii_hash s Ha) as (h & Hh & _). destruct (find (is_named (Some h)) fs) as [f|] eqn:E.
  - apply find_first in E. exists (to_python (snd f)). apply (getd_at fs (fld s) h d _ (D_str _ _ Hh)). left. exists f. split; [exact E | apply plain_iff; reflexivity].
  - apply find_absent in E. exists d. apply (getd_at fs (fld s) h d _ (D_str _ _ Hh)). right. auto.
Qed.
Lemma field_value_total s fs d : ascii s -> exists r, field_value s fs d r.
Proof. intros Ha. destruct (getd_total s fs d Ha) as [r E]. exists r. apply getd_iff; assumption. Qed.
Lemma field_value_fun s fs d r r' : ascii s -> field_value s fs d r -> field_value s fs d r' -> r = r'.
Proof. intros Ha H H'. apply getd_iff in H, H'; [congruence | exact Ha | exact Ha]. Qed.
Lemma field_not_default s fs d r : field_value s fs d r -> d <> RDefault -> r <> RDefault.
Proof. intros [(h & f & _ & _ & Hp)|[_ ->]] Hd; [intros ->; exact (plain_not_default _ Hp) | exact Hd]. Qed.

Lemma contains_cases s fs : ascii s -> (contains fs (fld s) = Ok true /\ exists r, present s fs r) \/ (contains fs (fld s) = Ok false /\ missing s fs).
Proof.
  intros Ha. destruct (ascii_hash s Ha) as (h & Hh & _). destruct (agree fs (fld s) None) as (Ec & _). rewrite Ec. destruct (find (is_named (Some h)) fs) as [f|] eqn:E.
  - left. apply find_first in E. rewrite (proj2 (getitem_first (fld s) h fs f (D_str _ _ Hh)) E). split; [reflexivity|]. exists (to_python (snd f)), h, f. split; [exact Hh|]. split; [exact E | apply plain_iff; reflexivity].
  - right. apply find_absent in E. rewrite (proj2 (getitem_absent (fld s) h fs (D_str _ _ Hh)) E). split; [reflexivity | exists h; auto].
Qed.
Lemma present_missing s fs r : present s fs r -> missing s fs -> False.
Proof.
  intros (h & f & Hh & Hf & _) (h' & Hh' & Ha). rewrite (name_hash_fun _ _ _ Hh' Hh) in Ha. destruct Hf as (l1 & l2 & -> & E & _). apply (proj1 (Forall_forall _ _) Ha f); [apply in_or_app; right; left; reflexivity | exact E].
Qed.
Lemma contains_true s fs : ascii s -> (contains fs (fld s) = Ok true <-> exists r, present s fs r).
Proof. intros Ha. destruct (contains_cases s fs Ha) as [[-> Hp]|[-> Hm]]; split; try tauto; [discriminate | intros [r H]; destruct (present_missing _ _ _ H Hm)]. Qed.
Lemma contains_false s fs : ascii s -> (contains fs (fld s) = Ok false <-> missing s fs).
Proof. intros Ha. destruct (contains_cases s fs Ha) as [[-> [r Hp]]|[-> Hm]]; split; try tauto; [discriminate | intros H; destruct (present_missing _ _ _ Hp H)]. Qed.
Lemma present_value s fs d r : ascii s -> (exists r', present s fs r') -> (field_value s fs d r <-> present s fs r).
Proof. intros Ha [r' Hp]. split; [|left; assumption]. intros [H|[H _]]; [exact H | destruct (present_missing _ _ _ Hp H)]. Qed.

Lemma py_iter_iff r l : py_iter r = Ok l <-> elements r l.
Proof.
  split.
  - destruct r as [l0|d| |v| |]; cbn [py_iter]; try discriminate; [| |destruct v; try discriminate]; intros E; injection E as <-; constructor.
  - intros H. inversion H; reflexivity.
Qed.
Lemma attr_h_iff v h : attr_h v = Ok h <-> hash_value v h.
Proof. split; [destruct v; cbn [attr_h]; try discriminate; intros E; injection E as <-; constructor | intros H; inversion H; reflexivity]. Qed.
Lemma key_hash_iff v h : key_hash v = Some h <-> refers v h.
Proof.
  split.
  - destruct v as [| b | z | | | | | | | | | | | |]; cbn [key_hash]; try discriminate; try (intros E; injection E as <-; constructor; constructor).
    destruct (z <? 0)%Z eqn:Ez; [discriminate|]. intros E. injection E as <-. apply Z.ltb_ge in Ez. rewrite <- (Z2N.id z Ez) at 1. apply RF_int.
  - intros H. inversion H as [v0 h0 Hv | h0 | b]; subst; [inversion Hv; reflexivity | | reflexivity]. cbn [key_hash]. destruct (Z.of_N h <? 0)%Z eqn:E; [apply Z.ltb_lt in E; lia | rewrite N2Z.id; reflexivity].
Qed.
Lemma hget_iff {A} v (d : list (N * A)) x : hget v d = Some x <-> exists h, refers v h /\ dget h d = Some x.
Proof.
  unfold hget. destruct (key_hash v) as [h|] eqn:E.
  - split; [intros H; exists h; split; [apply key_hash_iff; exact E | exact H]|]. intros (h' & Hr & H). apply key_hash_iff in Hr. congruence.
  - split; [discriminate|]. intros (h' & Hr & H). apply key_hash_iff in Hr. congruence.
Qed.

Lemma low31 f : N.land f 0x7fffffff = f mod 2 ^ 31.
Proof. change 0x7fffffff with (N.ones 31). apply N.land_ones. Qed.
Lemma py_true_iff r : r <> RDefault -> (py_true r = false <-> falsy r).
Proof.
  intros Hr. split.
  - destruct r as [l|d| |v| |]; cbn [py_true]; try discriminate.
    + destruct l; [constructor | discriminate].
    + destruct d; [constructor | discriminate].
    + constructor.
    + destruct v as [l|b|z|f|l|l|s| | | | | | | |]; try discriminate; try (destruct l; [constructor | discriminate]); try (destruct s; [constructor | discriminate]).
      * destruct b; [discriminate | constructor].
      * intros E. apply Bool.negb_false_iff, Z.eqb_eq in E. subst. constructor.
      * intros E. apply Bool.negb_false_iff, N.eqb_eq in E. constructor. rewrite <- low31. exact E.
    + congruence.
  - intros H. inversion H; subst; cbn [py_true]; try reflexivity. rewrite low31, H0. reflexivity.
Qed.
Lemma bobj_iff v o : bobj v = Ok o <-> object_fields v = Some o.
Proof. destruct v; cbn [bobj object_fields]; split; intros E; try discriminate; injection E as <-; reflexivity. Qed.
Lemma obj_iff r o : obj r = Ok o <-> exists v, r = RVal v /\ object_fields v = Some o.
Proof.
  destruct r as [| | |v| |]; cbn [obj]; try (split; [discriminate | intros (v & E & _); discriminate]). rewrite bobj_iff. split; [eauto | intros (v' & E & H); injection E as <-; exact H].
Qed.
Lemma is_none_iff r : is_none r = true <-> r = RNone.
Proof. destruct r; cbn [is_none]; split; congruence. Qed.
Lemma is_none_false r : is_none r = false <-> r <> RNone.
Proof. destruct r; cbn [is_none]; split; congruence. Qed.
Lemma has_sub_iff p s : has_sub p s = true <-> part_of p s.
Proof.
  unfold part_of. induction s as [|c s IH]; cbn [has_sub]; rewrite Bool.orb_true_iff, startswith_iff.
  - split; [intros [(r & E)|]; [exists [], r; exact E | discriminate] | intros (a & b & E); left; destruct a; [eauto | discriminate]].
  - rewrite IH. split.
    + intros [(r & E)|(a & b & ->)]; [exists [], r; exact E | exists (c :: a), b; reflexivity].
    + intros (a & b & E). destruct a as [|c' a]; [left; eauto|]. right. injection E as _ ->. eauto.
Qed.

(** ** Sublists *)

Lemma picks_filter {A} (P : A -> Prop) (p : A -> bool) l : (forall x, p x = true <-> P x) -> picks P l (filter p l).
Proof. intros H. induction l as [|x l IH]; cbn [filter]; [constructor|]. destruct (p x) eqn:E; constructor; try exact IH; [apply H; exact E | intros HP; apply H in HP; congruence]. Qed.
Lemma picks_fun {A} (P : A -> Prop) l r r' : picks P l r -> picks P l r' -> r = r'.
Proof. intros H. revert r'. induction H as [|x l r Hx H IH|x l r Hx H IH]; intros r' H'; inversion H'; subst; try contradiction; [reflexivity | f_equal; auto | auto]. Qed.
Lemma picks_In {A} (P : A -> Prop) l r x : picks P l r -> (In x r <-> In x l /\ P x).
Proof.
  intros H. induction H as [|y l r Hy H IH|y l r Hy H IH]; cbn [In]; [tauto | rewrite IH; split; [intros [<-|[? ?]]; tauto | tauto] | rewrite IH; split; [tauto | intros [[<-|?] ?]; tauto]].
Qed.

Lemma dget_by_path es h x : dget h (by_path es) = Some x <-> last_entry (fun _ => True) es h x.
Proof.
  unfold by_path. pose proof (dict_of_last h (map (fun x => (be_path x, x)) es)) as H. split.
  - intros E. rewrite E in H. inversion H as [|pre v post Hp E1 E2]; subst. symmetry in E1. apply map_eq_app in E1 as (e1 & e2 & -> & <- & E1). destruct e2 as [|y e2]; [discriminate|]. injection E1 as Eh Ey Ep. subst y. exists e1, e2. split; [reflexivity|]. split; [exact Eh|]. split; [exact I|].
    intros y Hy Eh' _. apply (Hp y). rewrite <- Ep. apply in_map_iff. exists y. split; [rewrite Eh'; reflexivity | exact Hy].
  - intros (pre & post & -> & Eh & _ & Hn). eapply (last_value_fun h); [exact H|]. rewrite map_app. cbn [map]. rewrite Eh. apply LV_some. intros w Hw. apply in_map_iff in Hw as (y & Ey & Hy). injection Ey as Ey ->. exact (Hn w Hy Ey I).
Qed.
Lemma last_entry_filter (P : bentry -> Prop) p es h x : (forall x, p x = true <-> P x) -> (last_entry (fun _ => True) (filter p es) h x <-> last_entry P es h x).
Proof.
  intros Hp. split.
  - intros (pre & post & E & Eh & _ & Hn). revert pre E. induction es as [|y es IH]; cbn [filter]; intros pre E; [destruct pre; discriminate|]. destruct (p y) eqn:Ey.
    + destruct pre as [|z pre]; cbn [app] in E; injection E as E1 E2.
      * subst y. exists [], es. split; [reflexivity|]. split; [exact Eh|]. split; [apply Hp; exact Ey|]. intros y Hy Hh HP. apply (Hn y); [|exact Hh | exact I]. rewrite <- E2. apply filter_In. split; [exact Hy | apply Hp; exact HP].
      * destruct (IH pre E2) as (e1 & e2 & -> & H). exists (y :: e1), e2. split; [reflexivity | exact H].
    + destruct (IH pre E) as (e1 & e2 & -> & H). exists (y :: e1), e2. split; [reflexivity | exact H].
  - intros (pre & post & -> & Eh & HP & Hn). exists (filter p pre), (filter p post). split; [rewrite filter_app; cbn [filter]; rewrite (proj2 (Hp x) HP); reflexivity|]. split; [exact Eh|]. split; [exact I|].
    intros y Hy Hh _. apply filter_In in Hy as [Hy Hpy]. apply (Hn y Hy Hh). apply Hp. exact Hpy.
Qed.
Lemma dget_filter_path (P : bentry -> Prop) p es h x : (forall x, p x = true <-> P x) -> (dget h (by_path (filter p es)) = Some x <-> last_entry P es h x).
Proof. intros Hp. rewrite dget_by_path. apply last_entry_filter. exact Hp. Qed.

Section Names.
Variable nm : names.
Variable repr : pyres -> str.

Definition proper (r : pyres) : Prop := r <> RDefault /\ r <> RSelf.
Lemma py_str_of r : proper r -> text_of nm repr r (py_str nm repr r).
Proof.
  intros [Hr Hs]. destruct r as [l|d| |v| |]; cbn [py_str]; try constructor; try congruence.
  destruct v; try (constructor; fail); try (constructor; apply shown_str; reflexivity); try (constructor; cbn [leaf_kind]; intros k E; try discriminate E; injection E as <-; cbn [In]; tauto).
Qed.
Lemma text_of_fun r s : text_of nm repr r s -> s = py_str nm repr r.
Proof.
  intros H. inversion H as [| | | | | | | | |v Hv]; subst; cbn [py_str]; try reflexivity; try (apply shown_str; assumption).
  destruct v; try reflexivity; specialize (Hv _ eq_refl); cbn [In] in Hv; intuition discriminate.
Qed.
Lemma text_of_proper r s : text_of nm repr r s -> proper r.
Proof. intros H. inversion H; split; discriminate. Qed.
Lemma named_iff known s h : ascii s -> (named known h (lit s) = true <-> has_name known s h).
Proof.
  intros Ha. destruct (ascii_hash s Ha) as (n & Hn & En). unfold named, has_name, hash_eq_str. destruct (known h) as [x|].
  - destruct (eqbP x (lit s)) as [->|Hx]; split; [auto | reflexivity | discriminate | intros [E|[E _]]; congruence].
  - rewrite En. cbn [rbind]. rewrite N.eqb_eq. split; [intros ->; auto | intros [E|[_ E]]; [discriminate | exact (name_hash_fun _ _ _ E Hn)]].
Qed.
Lemma of_type_iff s x : ascii s -> (of_type nm (lit s) x = true <-> of_kind nm s x).
Proof. intros Ha. apply named_iff. exact Ha. Qed.
End Names.
Lemma field_proper s fs d r : field_value s fs d r -> proper d -> proper r.
Proof. intros [(h & f & _ & _ & Hp)|[_ ->]] Hd; [|exact Hd]. split; intros ->; inversion Hp. Qed.
Lemma proper_none : proper RNone. Proof. split; discriminate. Qed.
Lemma proper_val v : proper (RVal v). Proof. split; discriminate. Qed.
Lemma proper_list l : proper (RList l). Proof. split; discriminate. Qed.
Arguments ascii s%string_scope.
Arguments getd_iff s%string_scope.
Arguments getn_iff s%string_scope.
Arguments getd_total s%string_scope.
Arguments field_value_total s%string_scope.
Arguments field_value_fun s%string_scope.
Arguments contains_cases s%string_scope.
Arguments contains_true s%string_scope.
Arguments contains_false s%string_scope.
Arguments of_type_iff nm s%string_scope.
Arguments named_iff known s%string_scope.
