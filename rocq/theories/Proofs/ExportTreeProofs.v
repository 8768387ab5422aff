(** * Proofs about the reduction of lists of paths *)

From Verif Require Import Base.Py Base.Text Base.PyFacts Base.TextFacts Model.ExportTree Spec.ExportTreeSpec.

Fixpoint tree_ind2 (P : tree -> Prop) (HL : P Leaf) (HN : forall d, Forall (fun kt => P (snd kt)) d -> P (Node d)) (t : tree) : P t :=
  match t with
  | Leaf => HL
  | Node d => HN d ((fix go (l : list (str * tree)) : Forall (fun kt => P (snd kt)) l :=
      match l with [] => Forall_nil _ | kt :: l' => Forall_cons kt (tree_ind2 P HL HN (snd kt)) (go l') end) d)
  end.

(** ** Positions in trees *)

Fixpoint at_ (t : tree) (ps : list str) : option tree :=
  match ps with
  | [] => Some t
  | n :: r => match t with Leaf => None | Node d => match dget n d with Some t' => at_ t' r | None => None end end
  end.
Definition leaf (t : tree) (ps : list str) : Prop := at_ t ps = Some Leaf.
Definition node (t : tree) (ps : list str) : Prop := exists d, at_ t ps = Some (Node d).
Lemma at_app t a b : at_ t (a ++ b) = match at_ t a with Some t' => at_ t' b | None => None end.
Proof.
  revert t. induction a as [|n a IH]; intros t; cbn [app at_]; [reflexivity|]. destruct t as [|d]; [reflexivity|]. destruct (dget n d); [apply IH | reflexivity].
Qed.

(** Keys are unique. *)
Inductive wft : tree -> Prop :=
| wft_leaf : wft Leaf
| wft_node d : NoDup (dkeys d) -> (forall k t, In (k, t) d -> wft t) -> wft (Node d).
Lemma wft_get d k t : wft (Node d) -> dget k d = Some t -> wft t.
Proof. intros H E. inversion_clear H as [|? _ Hs]. eapply Hs. apply dget_Some_In. exact E. Qed.
Lemma wft_at t ps s : wft t -> at_ t ps = Some s -> wft s.
Proof.
  revert t. induction ps as [|n ps IH]; intros t H E; cbn [at_] in E; [congruence|]. destruct t as [|d]; [discriminate|].
  destruct (dget n d) as [t'|] eqn:En; [|discriminate]. eapply IH; [|exact E]. eapply wft_get; eassumption.
Qed.
Lemma wft_set d k t : wft (Node d) -> wft t -> wft (Node (dset k t d)).
Proof.
  intros H Ht. inversion H as [|? Hn Hs]; subst. constructor; [apply dset_NoDup; assumption|]. intros k' t' Hi.
  assert (E : dget k' (dset k t d) = Some t') by (apply dget_In_NoDup; [apply dset_NoDup; assumption | assumption]).
  rewrite dget_dset in E. destruct (eqb k' k); [congruence|]. eapply wft_get; eassumption.
Qed.

(** ** The tree of a list of paths *)

(** The tree [t] has exactly the leaves [P] and the directories leading to them. *)
Record rep (t : tree) (P : list (list str)) : Prop := {
  rep_wf : wft t;
  rep_leaf : forall ps, leaf t ps <-> In ps P;
  rep_node : forall ps, node t ps <-> ps = [] \/ exists n s, In (ps ++ n :: s) P }.
Definition free (P : list (list str)) : Prop := forall p n s, In p P -> ~ In (p ++ n :: s) P.

Lemma rep_nil : rep (Node []) [].
Proof.
  split.
  - constructor; [constructor | intros k t []].
  - intros [|n ps]; cbn; split; try discriminate; intros [].
  - intros [|n ps]; split; cbn; try tauto; [intros _; eexists; reflexivity | intros [d E]; discriminate | intros [E|(m & s & [])]; discriminate].
Qed.

Lemma add_path_at : forall ps t, ps <> [] -> wft t -> node t [] ->
  (forall a n s, ps = a ++ n :: s -> ~ leaf t a) -> ~ node t ps ->
  exists t', add_path ps t = Ok t' /\ wft t' /\ node t' [] /\
    (forall qs, leaf t' qs <-> leaf t qs \/ qs = ps) /\
    (forall qs, node t' qs <-> node t qs \/ exists n s, ps = qs ++ n :: s).
Proof.
  induction ps as [|p rest IH]; intros t Hne Hw [d Ed] Hl Hn; [congruence|]. cbn [at_] in Ed. injection Ed as ->.
  destruct rest as [|p2 rest].
  - exists (Node (dset p Leaf d)). split; [reflexivity|]. split; [apply wft_set; [assumption | constructor]|]. split; [eexists; reflexivity|]. split.
    + intros [|q qs]; unfold leaf; cbn [at_].
      * split; [discriminate | intros [E|E]; discriminate].
      * rewrite dget_dset. destruct (eqbP q p) as [->|Hq].
        -- destruct qs as [|q2 qs]; cbn [at_]; [split; auto|]. split; [discriminate|]. intros [E|E]; [|discriminate]. exfalso. apply Hn. unfold node. cbn [at_].
           destruct (dget p d) as [[|d']|]; [discriminate E | eauto | discriminate E].
        -- split; [auto|]. intros [E|E]; [exact E | congruence].
    + intros [|q qs]; unfold node; cbn [at_].
      * split; intros _; [left; eauto | eauto].
      * rewrite dget_dset. destruct (eqbP q p) as [->|Hq].
        -- split.
           ++ destruct qs as [|q2 qs]; cbn [at_]; intros [d' E]; discriminate.
           ++ intros [[d' E]|(n & s & E)].
              ** exfalso. apply Hn. unfold node. cbn [at_]. destruct (dget p d) as [t'|]; [|discriminate]. destruct qs; cbn [at_] in E; [eauto|].
                 destruct t' as [|d2]; [discriminate | eauto].
              ** injection E as E. destruct qs; discriminate.
        -- split; [auto|]. intros [H|(n & s & E)]; [exact H|]. injection E as E1 E2. congruence.
  - set (sub := match dget p d with Some s => s | None => Node [] end).
    assert (Hsub : forall qs, at_ (Node d) (p :: qs) = match dget p d with Some s => at_ s qs | None => None end) by reflexivity.
    destruct (IH sub) as (t' & Et & Hw' & Hn0 & HL & HN).
    + discriminate.
    + unfold sub. destruct (dget p d) as [s|] eqn:Ep; [eapply wft_get; eassumption|]. constructor; [constructor | intros k t []].
    + unfold sub. destruct (dget p d) as [[|d']|] eqn:Ep; [|eexists; reflexivity|eexists; reflexivity].
      exfalso. apply (Hl [p] p2 rest eq_refl). unfold leaf. cbn [at_]. rewrite Ep. reflexivity.
    + intros a n s Ea Hla. apply (Hl (p :: a) n s); [cbn [app]; congruence|]. unfold leaf in *. rewrite Hsub. unfold sub in Hla.
      destruct (dget p d); [exact Hla|]. destruct a; cbn in Hla; discriminate.
    + intros [d' E]. apply Hn. exists d'. rewrite Hsub. unfold sub in E. destruct (dget p d); [exact E|]. cbn in E. discriminate.
    + exists (Node (dset p t' d)). change (add_path (p :: p2 :: rest) (Node d)) with (let! sub := add_path (p2 :: rest) sub in Ok (Node (dset p sub d))).
      rewrite Et. cbn [rbind]. split; [reflexivity|]. split; [apply wft_set; assumption|]. split; [eexists; reflexivity|].
      assert (Hsn : forall qs, dget p d = None -> at_ sub qs <> None -> qs = []).
      { intros qs Ep. unfold sub. rewrite Ep. destruct qs; [reflexivity | cbn; congruence]. }
      split.
      * intros [|q qs]; unfold leaf; cbn [at_].
        -- split; [discriminate | intros [E|E]; discriminate].
        -- rewrite dget_dset. destruct (eqbP q p) as [->|Hq].
           ++ specialize (HL qs). unfold leaf in HL. rewrite HL. unfold sub. destruct (dget p d) as [s|]; [split; intros [E|E]; auto; right; congruence|].
              split; (intros [E|E]; [|right; congruence]); [destruct qs; cbn in E; discriminate | discriminate].
           ++ split; [auto|]. intros [E|E]; [exact E | congruence].
      * intros [|q qs]; unfold node; cbn [at_].
        -- split; intros _; [left; eauto | eauto].
        -- rewrite dget_dset. destruct (eqbP q p) as [->|Hq].
           ++ specialize (HN qs). unfold node in HN. rewrite HN. split.
              ** intros [[d' E]|(n & s & E)]; [|right; exists n, s; cbn [app]; congruence]. unfold sub in E. destruct (dget p d) as [s|] eqn:Ep; [left; eauto|].
                 right. destruct qs; [|cbn in E; discriminate]. exists p2, rest. reflexivity.
              ** intros [[d' E]|(n & s & E)].
                 --- left. exists d'. unfold sub. destruct (dget p d); [exact E | discriminate].
                 --- right. exists n, s. cbn [app] in E. congruence.
           ++ split; [auto|]. intros [H|(n & s & E)]; [exact H|]. cbn [app] in E. injection E as E1 E2. congruence.
Qed.

Lemma rep_add t P ps : rep t P -> ps <> [] -> free (ps :: P) -> exists t', add_path ps t = Ok t' /\ rep t' (ps :: P).
Proof.
  intros [Hw HL HN] Hne Hf. destruct (add_path_at ps t) as (t' & E & Hw' & Hn0 & HL' & HN').
  - assumption.
  - assumption.
  - apply HN. auto.
  - intros a n s Ea Ha. apply HL in Ha. apply (Hf a n s); [right; assumption | left; assumption].
  - intros Hn. apply HN in Hn as [Hn|(n & s & Hn)]; [congruence|]. apply (Hf ps n s); [left; reflexivity | right; assumption].
  - exists t'. split; [exact E|]. split; [exact Hw' | |].
    + intros qs. rewrite HL', HL. cbn [In]. split; intros [H|H]; auto.
    + intros qs. rewrite HN', HN. cbn [In]. split.
      * intros [[H|(n & s & H)]|(n & s & H)]; [auto | right; eauto | right; exists n, s; auto].
      * intros [H|(n & s & [H|H])]; [auto | right; eauto | left; right; eauto].
Qed.
Lemma rep_ext t P Q : (forall x, In x P <-> In x Q) -> rep t P -> rep t Q.
Proof.
  intros H [H1 H2 H3]. split; [assumption | intros ps; rewrite H2; apply H|]. intros ps. rewrite H3. split; (intros [E|(n & s & E)]; [auto|]); right; exists n, s; apply H; exact E.
Qed.
Lemma rep_adds : forall l t P, rep t P -> free (map parts l ++ P) -> exists t', add_paths l t = Ok t' /\ rep t' (map parts l ++ P).
Proof.
  induction l as [|p l IH]; intros t P HR Hf; cbn [add_paths map app].
  - exists t. auto.
  - cbn [map app] in Hf. destruct (rep_add t P (parts p) HR) as (t1 & E & HR1).
    + apply split_ch_nonempty.
    + intros a n s Ha Hb. apply (Hf a n s); cbn [In] in *; rewrite in_app_iff; tauto.
    + change (split_ch cSlash p) with (parts p). rewrite E. cbn [rbind]. destruct (IH t1 (parts p :: P) HR1) as (t' & E' & HR').
      * intros a n s Ha Hb. apply (Hf a n s); cbn [In]; rewrite in_app_iff in *; cbn [In] in *; tauto.
      * exists t'. split; [exact E'|]. eapply rep_ext; [|exact HR']. intros x. cbn [In]. rewrite !in_app_iff. cbn [In]. tauto.
Qed.

Definition prefixes (a b : list str) : Prop := exists l, b = a ++ l.

Lemma paths_to_tree_rep l : files_only l -> exists t, paths_to_tree l = Ok t /\ rep t (map parts l).
Proof.
  intros Hf. destruct (rep_adds l (Node []) [] rep_nil) as (t & E & HR).
  - rewrite app_nil_r. intros p n s Hp Hq. apply in_map_iff in Hp as (p0 & <- & Hp), Hq as (q0 & Eq & Hq). apply (Hf q0 p0 Hq Hp). exists n, s. exact Eq.
  - exists t. split; [exact E|]. rewrite app_nil_r in HR. exact HR.
Qed.

(** ** Comparison of trees *)

Record below_tree (t1 t2 : tree) : Prop := {
  bt_leaf : forall ps, leaf t1 ps -> leaf t2 ps;
  bt_node : forall ps, node t1 ps -> node t2 ps }.
Definition full (t : tree) : Prop := forall ps, node t ps -> exists n s, leaf t (ps ++ n :: s).

Lemma leaf_cons d n ps t : dget n d = Some t -> leaf (Node d) (n :: ps) <-> leaf t ps.
Proof. intros E. unfold leaf. cbn [at_]. rewrite E. reflexivity. Qed.
Lemma node_cons d n ps t : dget n d = Some t -> node (Node d) (n :: ps) <-> node t ps.
Proof. intros E. unfold node. cbn [at_]. rewrite E. reflexivity. Qed.
Lemma bt_sub d1 d2 n t : below_tree (Node d1) (Node d2) -> dget n d1 = Some t -> exists t', dget n d2 = Some t' /\ below_tree t t'.
Proof.
  intros [HL HN] E. assert (exists t', dget n d2 = Some t') as [t' E'].
  { destruct t as [|d].
    - assert (H : leaf (Node d1) [n]) by (unfold leaf; cbn [at_]; rewrite E; reflexivity). apply HL in H. unfold leaf in H. cbn [at_] in H. destruct (dget n d2); [eauto | discriminate].
    - assert (H : node (Node d1) [n]) by (unfold node; cbn [at_]; rewrite E; eauto). apply HN in H. destruct H as [d' H]. cbn [at_] in H. destruct (dget n d2); [eauto | discriminate]. }
  exists t'. split; [exact E'|]. split; intros ps H.
  - apply (leaf_cons d2 n ps t' E'). apply HL. apply (leaf_cons d1 n ps t E). exact H.
  - apply (node_cons d2 n ps t' E'). apply HN. apply (node_cons d1 n ps t E). exact H.
Qed.
Lemma forallb_false {A} (f : A -> bool) l : forallb f l = false -> exists x, In x l /\ f x = false.
Proof.
  induction l as [|x l IH]; cbn [forallb]; [discriminate|]. destruct (f x) eqn:E; cbn [andb]; [|intros _; exists x; cbn [In]; auto].
  intros H. destruct (IH H) as (y & Hy & Ey). exists y. cbn [In]. auto.
Qed.
Lemma dkeys_get {V} (d : list (str * V)) k : In k (dkeys d) -> exists v, dget k d = Some v.
Proof. intros H. destruct (dget k d) eqn:E; [eauto|]. apply dget_None in E. contradiction. Qed.
Lemma get_dkeys {V} (d : list (str * V)) k v : dget k d = Some v -> In k (dkeys d).
Proof. intros H. apply dget_Some_In in H. apply in_map_iff. exists (k, v). auto. Qed.
Lemma dkeys_length {V} (d : list (str * V)) : length (dkeys d) = length d.
Proof. apply map_length. Qed.

(** Equal trees have the same leaves. *)
Lemma tree_eqb_leaves t1 : forall t2, wft t1 -> wft t2 -> tree_eqb t1 t2 = true -> forall ps, leaf t2 ps -> leaf t1 ps.
Proof.
  induction t1 as [|d1 IH] using tree_ind2; intros t2 W1 W2 E ps Hl.
  - destruct t2; [exact Hl | discriminate].
  - destruct t2 as [|d2]; [discriminate|]. cbn [tree_eqb] in E. apply andb_true_iff in E as [En Ef]. apply Nat.eqb_eq in En. rewrite forallb_forall in Ef.
    destruct ps as [|n ps]; [discriminate Hl|]. inversion W1 as [|? N1 _]; inversion W2 as [|? N2 _]; subst.
    assert (Hi : incl (dkeys d2) (dkeys d1)).
    { apply NoDup_length_incl; [exact N1 | rewrite !dkeys_length; lia|]. intros k Hk. destruct (dkeys_get d1 k Hk) as [t Ek].
      specialize (Ef (k, t) (dget_Some_In _ _ _ Ek)). cbn beta iota in Ef. destruct (dget k d2) eqn:E2; [|discriminate]. eapply get_dkeys; eassumption. }
    unfold leaf in Hl. cbn [at_] in Hl. destruct (dget n d2) as [t'|] eqn:E2; [|discriminate].
    destruct (dkeys_get d1 n (Hi n (get_dkeys _ _ _ E2))) as [t E1]. apply (leaf_cons d1 n ps t E1).
    pose proof (dget_Some_In _ _ _ E1) as I1. pose proof (Ef (n, t) I1) as Eb. cbn beta iota in Eb. rewrite E2 in Eb. rewrite Forall_forall in IH.
    exact (IH (n, t) I1 t' (wft_get d1 n t W1 E1) (wft_get d2 n t' W2 E2) Eb ps Hl).
Qed.
(** Different trees, one inside the other, differ by a leaf. *)
Lemma tree_eqb_differ t1 : forall t2, wft t1 -> wft t2 -> below_tree t1 t2 -> full t2 -> tree_eqb t1 t2 = false -> exists ps, leaf t2 ps /\ ~ leaf t1 ps.
Proof.
  induction t1 as [|d1 IH] using tree_ind2; intros t2 W1 W2 HB HF E.
  - exfalso. pose proof (bt_leaf _ _ HB [] eq_refl) as H. unfold leaf in H. cbn in H. injection H as ->. discriminate.
  - destruct (bt_node _ _ HB [] (ex_intro _ d1 eq_refl)) as [d2 E2]. cbn [at_] in E2. injection E2 as ->.
    inversion W1 as [|? N1 _]; inversion W2 as [|? N2 _]; subst. cbn [tree_eqb] in E.
    destruct (forallb (fun k => mem k (dkeys d1)) (dkeys d2)) eqn:Ek.
    + assert (HI : incl (dkeys d2) (dkeys d1)) by (intros k Hk; rewrite forallb_forall in Ek; apply mem_In; apply Ek; exact Hk).
      assert (HI' : incl (dkeys d1) (dkeys d2)).
      { intros k Hk. destruct (dkeys_get _ _ Hk) as [t Et]. destruct (bt_sub _ _ _ _ HB Et) as (t' & Et' & _). eapply get_dkeys; eassumption. }
      pose proof (NoDup_incl_length N1 HI'). pose proof (NoDup_incl_length N2 HI). rewrite !dkeys_length in *.
      replace (Nat.eqb (length d1) (length d2)) with true in E by (symmetry; apply Nat.eqb_eq; lia). cbn [andb] in E.
      apply forallb_false in E as ([k t] & Hk & E). pose proof (dget_In_NoDup _ _ _ N1 Hk) as Et. destruct (bt_sub _ _ _ _ HB Et) as (t' & Et' & HB').
      rewrite Et' in E. rewrite Forall_forall in IH. destruct (IH (k, t) Hk t') as (ps & Hl & Hn).
      * eapply (wft_get d1); eassumption.
      * eapply (wft_get d2); eassumption.
      * exact HB'.
      * intros ps Hn. apply (node_cons d2 k ps t' Et') in Hn. destruct (HF _ Hn) as (m & s & Hl). exists m, s. apply (leaf_cons d2 k _ t' Et'). exact Hl.
      * exact E.
      * exists (k :: ps). split; [apply (leaf_cons d2 k ps t' Et'); exact Hl|]. intros H9. apply Hn. apply (leaf_cons d1 k ps t Et). exact H9.
    + apply forallb_false in Ek as (k & Hk & Ek). destruct (dkeys_get _ _ Hk) as [t' Et'].
      assert (Hno : dget k d1 = None) by (destruct (dget k d1) eqn:E1; [|reflexivity]; apply get_dkeys in E1; apply mem_In in E1; congruence).
      assert (exists ps, leaf t' ps) as [ps Hl].
      { destruct t' as [|d']; [exists []; reflexivity|]. destruct (HF [k]) as (m & s & Hl); [apply (node_cons d2 k [] _ Et'); eexists; reflexivity|].
        exists (m :: s). apply (leaf_cons d2 k _ _ Et'). exact Hl. }
      exists (k :: ps). split; [apply (leaf_cons d2 k ps t' Et'); exact Hl|]. unfold leaf. cbn [at_]. rewrite Hno. discriminate.
Qed.

(** ** The reduction *)

Record good (t1 t2 ex : tree) (rs : list (list str)) : Prop := {
  g_cover : forall ps, leaf t1 ps -> exists r, In r rs /\ prefixes r ps;
  g_in : forall r, In r rs -> leaf t1 r \/ node t1 r;
  g_only : forall r ps, In r rs -> leaf t2 (r ++ ps) -> leaf t1 (r ++ ps);
  g_excl : forall r, In r rs -> leaf t1 r \/ ~ node ex r;
  g_apart : forall r1 r2, In r1 rs -> In r2 rs -> prefixes r1 r2 -> r1 = r2;
  g_nodup : NoDup rs;
  g_max : forall q n, In (q ++ [n]) rs -> node ex q \/ exists ps, leaf t2 (q ++ ps) /\ ~ leaf t1 (q ++ ps) }.

Lemma node_sub_excludes n ex ps : node (sub_excludes n ex) ps <-> node ex (n :: ps).
Proof.
  unfold node, sub_excludes. destruct ex as [|e]; cbn [at_].
  - split; intros [d E]; destruct ps; discriminate.
  - destruct (dget n e); [reflexivity|]. split; intros [d E]; [destruct ps; discriminate | discriminate].
Qed.
Lemma is_leaf_node ex : is_leaf ex = true <-> ~ node ex [].
Proof. unfold node. destruct ex; cbn; split; intros H; try congruence; [intros [d E]; discriminate | exfalso; apply H; eauto]. Qed.

Lemma good_all t1 t2 ex : wft t1 -> wft t2 -> tree_eqb t1 t2 = true \/ t1 = Leaf -> (t1 = Leaf -> t2 = Leaf) -> is_leaf ex = true \/ t1 = Leaf -> good t1 t2 ex [[]].
Proof.
  intros W1 W2 He H2 Hx. split.
  - intros ps _. exists []. split; [left; reflexivity | exists ps; reflexivity].
  - intros r [<-|[]]. destruct t1 as [|d]; [left; reflexivity | right; exists d; reflexivity].
  - intros r ps [<-|[]]. cbn [app]. destruct He as [He | ->]; [apply tree_eqb_leaves; assumption|]. rewrite (H2 eq_refl). auto.
  - intros r [<-|[]]. destruct Hx as [Hx | ->]; [right; apply is_leaf_node; exact Hx | left; reflexivity].
  - intros r1 r2 [<-|[]] [<-|[]] _. reflexivity.
  - constructor; [intros [] | constructor].
  - intros q n [H|[]]. destruct q; discriminate.
Qed.

Definition reduce_go (parts : list str) (t2 ex : tree) : list (str * tree) -> result (list str) :=
  fix go (l : list (str * tree)) : result (list str) :=
    match l with
    | [] => Ok []
    | (n, t) :: l' =>
      let! t2' := match t2 with Leaf => Err TypeError | Node d2 => of_opt KeyError (dget n d2) end in
      let! a := reduce_common_trees (parts ++ [n]) t t2' (sub_excludes n ex) in
      let! b := go l' in
      Ok (a ++ b)
    end.
Lemma reduce_node parts d1 t2 ex : reduce_common_trees parts (Node d1) t2 ex =
  if tree_eqb (Node d1) t2 && is_leaf ex then Ok [join [cSlash] parts] else reduce_go parts t2 ex d1.
Proof. reflexivity. Qed.
Lemma reduce_go_cons parts d2 ex n t l : reduce_go parts (Node d2) ex ((n, t) :: l) =
  let! t2' := of_opt KeyError (dget n d2) in
  let! a := reduce_common_trees (parts ++ [n]) t t2' (sub_excludes n ex) in
  let! b := reduce_go parts (Node d2) ex l in Ok (a ++ b).
Proof. reflexivity. Qed.

Definition spread (L : list (str * list (list str))) : list (list str) := flat_map (fun nr => map (cons (fst nr)) (snd nr)) L.
Lemma spread_In L r : In r (spread L) <-> exists n rs r', In (n, rs) L /\ In r' rs /\ r = n :: r'.
Proof.
  unfold spread. rewrite in_flat_map. split.
  - intros ([n rs] & H & Hr). cbn [fst snd] in Hr. apply in_map_iff in Hr as (r' & <- & Hr). eauto 6.
  - intros (n & rs & r' & H & Hr & ->). exists (n, rs). split; [exact H|]. cbn [fst snd]. apply in_map. exact Hr.
Qed.
Lemma NoDup_app_intro {A} (a b : list A) : NoDup a -> NoDup b -> (forall x, In x a -> ~ In x b) -> NoDup (a ++ b).
Proof.
  intros Ha Hb H. induction Ha as [|x a Hx Ha IH]; cbn [app]; [exact Hb|]. constructor.
  - rewrite in_app_iff. intros [Hi|Hi]; [contradiction|]. apply (H x); [left; reflexivity | exact Hi].
  - apply IH. intros y Hy. apply H. right. exact Hy.
Qed.
Lemma spread_NoDup L : NoDup (dkeys L) -> (forall n rs, In (n, rs) L -> NoDup rs) -> NoDup (spread L).
Proof.
  induction L as [|[n rs] L IH]; intros HN Hr; [constructor|]. cbn [dkeys map fst] in HN. inversion_clear HN as [|? ? Hn HN'].
  change (spread ((n, rs) :: L)) with (map (cons n) rs ++ spread L). apply NoDup_app_intro.
  - apply FinFun.Injective_map_NoDup; [intros a b E; congruence | apply (Hr n); left; reflexivity].
  - apply IH; [exact HN' | intros; eapply Hr; right; eassumption].
  - intros x Hx Hy. apply in_map_iff in Hx as (r & <- & _). apply spread_In in Hy as (m & rs' & r' & Hm & _ & E). injection E as -> ->. apply Hn. apply in_map_iff. exists (m, rs'). auto.
Qed.
Lemma dkeys_In_pair {V} (d : list (str * V)) k : In k (dkeys d) -> exists v, In (k, v) d.
Proof. intros H. apply in_map_iff in H as ([k' v] & E & H). cbn in E. subst. eauto. Qed.

Lemma reduce_good t1 : forall pre t2 ex, wft t1 -> wft t2 -> below_tree t1 t2 ->
  (forall n ps, node t2 (n :: ps) -> exists m s, leaf t2 (n :: ps ++ m :: s)) -> (node ex [] \/ full t2) ->
  exists rs, reduce_common_trees pre t1 t2 ex = Ok (map (fun r => join [cSlash] (pre ++ r)) rs) /\ good t1 t2 ex rs.
Proof.
  induction t1 as [|d1 IH] using tree_ind2; intros pre t2 ex W1 W2 HB HF HX.
  - exists [[]]. split; [cbn; rewrite app_nil_r; reflexivity|]. apply good_all; auto. intros _. pose proof (bt_leaf _ _ HB [] eq_refl) as H. unfold leaf in H. cbn in H. congruence.
  - rewrite reduce_node. destruct (tree_eqb (Node d1) t2 && is_leaf ex) eqn:Eq.
    + apply andb_true_iff in Eq as [E1 E2]. exists [[]]. split; [cbn; rewrite app_nil_r; reflexivity|]. apply good_all; auto. discriminate.
    + destruct (bt_node _ _ HB [] (ex_intro _ d1 eq_refl)) as [d2 E2]. cbn [at_] in E2. injection E2 as ->.
      assert (HG : forall l, incl l d1 -> NoDup (dkeys l) -> exists L, dkeys L = dkeys l /\
        reduce_go pre (Node d2) ex l = Ok (map (fun r => join [cSlash] (pre ++ r)) (spread L)) /\
        forall n rs, In (n, rs) L -> exists t t', dget n d1 = Some t /\ dget n d2 = Some t' /\ good t t' (sub_excludes n ex) rs).
      { inversion W1 as [|? N1 _]; subst. induction l as [|[n t] l IHl]; intros Hi Hn.
        - exists []. split; [reflexivity|]. split; [reflexivity | intros n rs []].
        - cbn [dkeys map fst] in Hn. inversion_clear Hn as [|? ? Hn1 Hn2]. destruct IHl as (L & EL & ER & HL); [intros x Hx; apply Hi; right; exact Hx | exact Hn2|].
          pose proof (Hi (n, t) (or_introl eq_refl)) as Hin. pose proof (dget_In_NoDup _ _ _ N1 Hin) as Et. destruct (bt_sub _ _ _ _ HB Et) as (t' & Et' & HB').
          assert (HFs : full t').
          { intros ps Hp. apply (node_cons d2 n ps t' Et') in Hp. destruct (HF n ps Hp) as (m & s & Hl). exists m, s. apply (leaf_cons d2 n _ t' Et'). exact Hl. }
          rewrite Forall_forall in IH. destruct (IH (n, t) Hin (pre ++ [n]) t' (sub_excludes n ex)) as (rs & Er & Hg).
          + eapply (wft_get d1); eassumption.
          + eapply (wft_get d2); eassumption.
          + exact HB'.
          + intros m ps Hp. destruct (HFs _ Hp) as (k & s & Hl). exists k, s. exact Hl.
          + right. exact HFs.
          + cbn [snd] in Er. exists ((n, rs) :: L). split; [cbn [dkeys map fst]; f_equal; exact EL|]. split.
            * rewrite reduce_go_cons, Et'. cbn [of_opt rbind]. rewrite Er. cbn [rbind]. rewrite ER. cbn [rbind]. f_equal.
              change (spread ((n, rs) :: L)) with (map (cons n) rs ++ spread L). rewrite map_app, map_map. f_equal. apply map_ext. intros r. rewrite <- app_assoc. reflexivity.
            * intros m rs' [E|H]; [injection E as <- <-; eauto | eapply HL; exact H]. }
      inversion W1 as [|? N1 _]; subst. destruct (HG d1 (incl_refl _) N1) as (L & EL & ER & HL). clear HG IH. exists (spread L). split; [exact ER|].
      assert (NL : NoDup (dkeys L)) by (rewrite EL; exact N1).
      split.
      * intros [|n ps] Hl; [discriminate Hl|]. unfold leaf in Hl. cbn [at_] in Hl. destruct (dget n d1) as [t|] eqn:Et; [|discriminate].
        assert (Hk : In n (dkeys L)) by (rewrite EL; eapply get_dkeys; eassumption). apply dkeys_In_pair in Hk as [rs Hk]. destruct (HL _ _ Hk) as (t0 & t' & E1 & E2 & Hg).
        rewrite Et in E1. injection E1 as <-. destruct (g_cover _ _ _ _ Hg ps Hl) as (r & Hr & s & ->). exists (n :: r). split; [apply spread_In; eauto 6 | exists s; reflexivity].
      * intros r Hr. apply spread_In in Hr as (n & rs & r' & Hk & Hr & ->). destruct (HL _ _ Hk) as (t & t' & E1 & E2 & Hg). rewrite (leaf_cons _ _ _ _ E1), (node_cons _ _ _ _ E1). apply (g_in _ _ _ _ Hg). exact Hr.
      * intros r ps Hr. apply spread_In in Hr as (n & rs & r' & Hk & Hr & ->). destruct (HL _ _ Hk) as (t & t' & E1 & E2 & Hg). cbn [app]. rewrite (leaf_cons _ _ _ _ E1), (leaf_cons _ _ _ _ E2). apply (g_only _ _ _ _ Hg). exact Hr.
      * intros r Hr. apply spread_In in Hr as (n & rs & r' & Hk & Hr & ->). destruct (HL _ _ Hk) as (t & t' & E1 & E2 & Hg). rewrite (leaf_cons _ _ _ _ E1), <- node_sub_excludes. apply (g_excl _ _ _ _ Hg). exact Hr.
      * intros r1 r2 H1 H2 [s E]. apply spread_In in H1 as (n1 & rs1 & r1' & Hk1 & H1 & ->), H2 as (n2 & rs2 & r2' & Hk2 & H2 & ->). cbn [app] in E. injection E as -> ->.
        assert (rs1 = rs2) as <- by (pose proof (dget_In_NoDup _ _ _ NL Hk1); pose proof (dget_In_NoDup _ _ _ NL Hk2); congruence).
        destruct (HL _ _ Hk1) as (t & t' & E1 & E2 & Hg). f_equal. apply (g_apart _ _ _ _ Hg); [assumption | assumption | exists s; reflexivity].
      * apply spread_NoDup; [exact NL|]. intros n rs Hk. destruct (HL _ _ Hk) as (t & t' & E1 & E2 & Hg). apply (g_nodup _ _ _ _ Hg).
      * intros q m Hr. apply spread_In in Hr as (n & rs & r' & Hk & Hr & E). destruct (HL _ _ Hk) as (t & t' & E1 & E2 & Hg). destruct q as [|q0 q].
        -- destruct (is_leaf ex) eqn:Ex; [|left; destruct ex; [discriminate | eexists; reflexivity]]. destruct HX as [HX|HX]; [left; exact HX|]. right. rewrite andb_true_r in Eq.
           apply (tree_eqb_differ _ _ W1 W2 HB HX Eq).
        -- cbn [app] in E. injection E as -> <-. destruct (g_max _ _ _ _ Hg _ _ Hr) as [H|(ps & H1 & H2)]; [left; apply node_sub_excludes; exact H|].
           right. exists ps. cbn [app]. rewrite (leaf_cons _ _ _ _ E1), (leaf_cons _ _ _ _ E2). auto.
Qed.

(** ** Paths *)

Lemma parts_join r : (exists p, prefixes r (parts p)) -> r <> [] -> parts (join [cSlash] r) = r.
Proof.
  intros (p & l & E) Hn. apply split_join; [exact Hn|]. pose proof (split_ch_pieces cSlash p) as HF. fold (parts p) in HF. rewrite E in HF. apply Forall_app in HF. tauto.
Qed.

Lemma inside_prefixes p q : inside p q <-> prefixes (parts q) (parts p).
Proof. reflexivity. Qed.
Lemma parts_inj p q : parts p = parts q -> p = q.
Proof. intros E. rewrite <- (join_split cSlash p), <- (join_split cSlash q). unfold parts in E. rewrite E. reflexivity. Qed.
Lemma in_parts p l : In (parts p) (map parts l) <-> In p l.
Proof. split; [|apply in_map]. intros H. apply in_map_iff in H as (q & E & H). apply parts_inj in E. congruence. Qed.
Lemma prefixes_trans a b c : prefixes a b -> prefixes b c -> prefixes a c.
Proof. intros [l ->] [m ->]. exists (l ++ m). rewrite app_assoc. reflexivity. Qed.
Lemma prefixes_cmp a b c : prefixes a c -> prefixes b c -> prefixes a b \/ prefixes b a.
Proof.
  intros [l ->] [m E]. revert b m E. induction a as [|x a IH]; intros b m E; [left; exists b; reflexivity|].
  destruct b as [|y b]; [right; exists (x :: a); reflexivity|]. cbn [app] in E. injection E as -> E. destruct (IH _ _ E) as [[k ->]|[k ->]]; [left | right]; exists k; reflexivity.
Qed.

Section Reduce.
  Variables p1 p2 ex : list str.
  Hypothesis F1 : files_only p1.
  Hypothesis F2 : files_only p2.
  Hypothesis FX : files_only ex.
  Hypothesis HI : incl p1 p2.

  Lemma reduce_paths_parts : exists rs, reduce_common_paths p1 p2 ex = Ok (map (join [cSlash]) rs) /\ NoDup rs /\
    (forall r, In r rs -> r <> [] /\ exists a, In a p1 /\ prefixes r (parts a)) /\
    (forall a, In a p1 -> exists r, In r rs /\ prefixes r (parts a)) /\
    (forall r b, In r rs -> In b p2 -> prefixes r (parts b) -> In b p1) /\
    (forall r e n s, In r rs -> In e ex -> parts e = r ++ n :: s -> In r (map parts p1)) /\
    (forall r1 r2, In r1 rs -> In r2 rs -> prefixes r1 r2 -> r1 = r2) /\
    (forall q n, In (q ++ [n]) rs -> q = [] \/ (exists e m s, In e ex /\ parts e = q ++ m :: s) \/ exists b, In b p2 /\ ~ In b p1 /\ prefixes q (parts b)).
  Proof.
    destruct (paths_to_tree_rep p1 F1) as (t1 & E1 & [W1 L1 D1]), (paths_to_tree_rep p2 F2) as (t2 & E2 & [W2 L2 D2]), (paths_to_tree_rep ex FX) as (tx & E3 & [W3 L3 D3]).
    assert (HIp : forall x, In x (map parts p1) -> In x (map parts p2)) by (intros x H; apply in_map_iff in H as (a & <- & H); apply in_map; apply HI; exact H).
    destruct (reduce_good t1 [] t2 tx) as (rs & Er & Hg).
    - exact W1.
    - exact W2.
    - split; intros ps H; [apply L2, HIp, L1, H|]. apply D2. apply D1 in H as [H|(n & s & H)]; [auto|]. right. exists n, s. apply HIp. exact H.
    - intros n ps H. apply D2 in H as [H|(m & s & H)]; [discriminate|]. exists m, s. apply L2. exact H.
    - left. apply D3. auto.
    - assert (HN0 : forall r, In r rs -> r <> []).
      { intros r Hr ->. destruct (g_excl _ _ _ _ Hg _ Hr) as [H|H]; [|apply H; apply D3; auto].
        apply L1 in H. apply in_map_iff in H as (a & H & _). apply (split_ch_nonempty cSlash a). exact H. }
      assert (HU : forall r, In r rs -> r <> [] /\ exists a, In a p1 /\ prefixes r (parts a)).
      { intros r Hr. split; [apply HN0; exact Hr|]. destruct (g_in _ _ _ _ Hg r Hr) as [H|H].
        - apply L1 in H. apply in_map_iff in H as (a & <- & H). exists a. split; [exact H | exists []; rewrite app_nil_r; reflexivity].
        - apply D1 in H as [H|(n & s & H)]; [destruct (HN0 r Hr H)|]. apply in_map_iff in H as (a & E & H). exists a. split; [exact H | exists (n :: s); exact E]. }
      exists rs. split.
      + unfold reduce_common_paths. rewrite E1, E2, E3. cbn [rbind]. rewrite Er. cbn [rbind].
        change (map (fun r => join [cSlash] ([] ++ r)) rs) with (map (join [cSlash]) rs).
        destruct rs as [|r [|r2 rs']]; [reflexivity | | cbn [map]; destruct (join [cSlash] r); reflexivity]. cbn [map].
        destruct (join [cSlash] r) as [|c j] eqn:Ej; [|reflexivity]. f_equal.
        destruct (HU r (or_introl eq_refl)) as (_ & a & Ha & Hp). assert (Hr : r = [[]]).
        { rewrite <- (parts_join r); [rewrite Ej; reflexivity | exists a; exact Hp | apply HN0; left; reflexivity]. }
        subst r. destruct (proj2 (D1 []) (or_introl eq_refl)) as [d Ed]. cbn [at_] in Ed. injection Ed as ->.
        assert (Hall : forall k, In k (dkeys d) -> k = []).
        { intros k Hk. destruct (dkeys_get _ _ Hk) as [t Ek]. assert (exists ps, leaf (Node d) (k :: ps)) as [ps Hl].
          { destruct t as [|d']; [exists []; unfold leaf; cbn [at_]; rewrite Ek; reflexivity|].
            assert (Hn : node (Node d) [k]) by (unfold node; cbn [at_]; rewrite Ek; eauto). apply D1 in Hn as [Hn|(n & s & Hn)]; [discriminate|]. exists (n :: s). apply L1. exact Hn. }
          destruct (g_cover _ _ _ _ Hg _ Hl) as (r & [<-|[]] & s & E). cbn [app] in E. congruence. }
        assert (Hin : exists k, In k (dkeys d)).
        { destruct Hp as [s Hp]. assert (Hl : leaf (Node d) (parts a)) by (apply L1, in_map, Ha). rewrite Hp in Hl. unfold leaf in Hl. cbn [app at_] in Hl.
          destruct (dget ([] : str) d) as [t0|] eqn:Ed; [|discriminate Hl]. exists []. eapply get_dkeys. exact Ed. }
        inversion W1 as [|? N1 _]; subst. destruct (dkeys d) as [|k [|k2 ks]]; [destruct Hin as [k []] | rewrite (Hall k); [reflexivity | left; reflexivity]|].
        exfalso. inversion_clear N1 as [|? ? Hk _]. apply Hk. rewrite (Hall k), (Hall k2); [left; reflexivity | right; left; reflexivity | left; reflexivity].
      + split; [apply (g_nodup _ _ _ _ Hg)|]. split; [exact HU|]. split; [|split; [|split; [|split]]].
        * intros a Ha. apply (g_cover _ _ _ _ Hg). apply L1. apply in_map. exact Ha.
        * intros r b Hr Hb [s E]. apply in_parts. apply L1. rewrite E. apply (g_only _ _ _ _ Hg); [exact Hr|]. apply L2. rewrite <- E. apply in_map. exact Hb.
        * intros r e n s Hr He E. destruct (g_excl _ _ _ _ Hg r Hr) as [H|H]; [apply L1; exact H|]. exfalso. apply H. apply D3. right. exists n, s. pose proof (in_map parts ex e He) as H'. rewrite E in H'. exact H'.
        * apply (g_apart _ _ _ _ Hg).
        * intros q n Hq. destruct (g_max _ _ _ _ Hg _ _ Hq) as [H|(ps & H1 & H2)].
          -- apply D3 in H as [H|(m & s & H)]; [auto|]. right. left. apply in_map_iff in H as (e & E & H). exists e, m, s. auto.
          -- right. right. apply L2 in H1. apply in_map_iff in H1 as (b & E & H1). exists b. split; [exact H1|]. split; [|exists ps; exact E].
             intros Hb. apply H2. apply L1. rewrite <- E. apply in_map. exact Hb.
  Qed.

  (** export.py:59-75 *)
  Lemma reduce_paths : exists ret, reduce_common_paths p1 p2 ex = Ok ret /\ NoDup ret /\
    (forall a, In a p1 -> exists r, In r ret /\ inside a r /\ forall r', In r' ret -> inside a r' -> r' = r) /\
    (forall r, In r ret -> exists a, In a p1 /\ inside a r) /\
    (forall r b, In r ret -> In b p2 -> inside b r -> In b p1) /\
    (forall r e, In r ret -> In e ex -> strictly_inside e r -> In r p1) /\
    (forall r1 r2, In r1 ret -> In r2 ret -> inside r1 r2 -> r1 = r2) /\
    (forall r q n, In r ret -> parts r = parts q ++ [n] -> (exists e, In e ex /\ strictly_inside e q) \/ exists b, In b p2 /\ ~ In b p1 /\ inside b q).
  Proof.
    destruct reduce_paths_parts as (rs & Er & HN & HU & HC & HO & HX & HA & HM). exists (map (join [cSlash]) rs). split; [exact Er|].
    assert (HP : forall r, In r rs -> parts (join [cSlash] r) = r).
    { intros r Hr. destruct (HU r Hr) as (H0 & a & _ & Hp). apply parts_join; [exists a; exact Hp | exact H0]. }
    split; [|split; [|split; [|split; [|split; [|split]]]]].
    - clear -HN HP. induction HN as [|r rs Hr HN IH]; cbn [map]; [constructor|]. constructor; [|apply IH; intros; apply HP; right; assumption].
      intros H. apply in_map_iff in H as (r2 & E & H). apply Hr. rewrite <- (HP r), <- E, (HP r2); [exact H | right; exact H | left; reflexivity].
    - intros a Ha. destruct (HC a Ha) as (r & Hr & Hp). exists (join [cSlash] r). split; [apply in_map; exact Hr|]. rewrite inside_prefixes, HP by exact Hr. split; [exact Hp|].
      intros r' Hr' Hp'. apply in_map_iff in Hr' as (r2 & <- & Hr2). rewrite inside_prefixes, HP in Hp' by exact Hr2. f_equal.
      destruct (prefixes_cmp _ _ _ Hp Hp') as [H|H]; [symmetry|]; apply HA; assumption.
    - intros r Hr. apply in_map_iff in Hr as (r0 & <- & Hr). destruct (HU r0 Hr) as (_ & a & Ha & Hp). exists a. rewrite inside_prefixes, HP by exact Hr. auto.
    - intros r b Hr Hb. apply in_map_iff in Hr as (r0 & <- & Hr). rewrite inside_prefixes, HP by exact Hr. apply HO; assumption.
    - intros r e Hr He (n & s & E). apply in_map_iff in Hr as (r0 & <- & Hr). rewrite HP in E by exact Hr. apply in_parts. rewrite HP by exact Hr. eapply HX; eassumption.
    - intros r1 r2 H1 H2. apply in_map_iff in H1 as (x1 & <- & H1), H2 as (x2 & <- & H2). rewrite inside_prefixes, !HP by assumption. intros Hp. f_equal. symmetry. apply HA; assumption.
    - intros r q n Hr E. apply in_map_iff in Hr as (r0 & <- & Hr). rewrite HP in E by exact Hr. subst r0. destruct (HM _ _ Hr) as [H|[(e & m & s & He & E)|(b & H1 & H2 & H3)]].
      + destruct (split_ch_nonempty cSlash q H).
      + left. exists e. split; [exact He | exists m, s; exact E].
      + right. exists b. auto.
  Qed.
End Reduce.

(** When no path is excluded and present, returned paths are apart from excluded ones. *)
Lemma reduce_paths_excluded p1 p2 ex ret : files_only (p1 ++ ex) -> files_only p2 -> incl p1 p2 -> (forall e, In e ex -> ~ In e p1) ->
  reduce_common_paths p1 p2 ex = Ok ret -> forall r e, In r ret -> In e ex -> ~ inside e r /\ ~ inside r e.
Proof.
  intros FF F2 HI HD Er r e Hr He.
  assert (F1 : files_only p1) by (intros p q Hp Hq; apply FF; apply in_or_app; auto).
  assert (FX : files_only ex) by (intros p q Hp Hq; apply FF; apply in_or_app; auto).
  destruct (reduce_paths p1 p2 ex F1 F2 FX HI) as (ret' & Er' & _ & _ & HU & _ & HX & _). rewrite Er in Er'. injection Er' as <-.
  destruct (HU r Hr) as (a & Ha & s & Hp).
  assert (Hno : ~ inside r e).
  { intros [l El]. rewrite El, <- app_assoc in Hp. destruct (l ++ s) as [|n l'] eqn:Es.
    - rewrite app_nil_r in Hp. apply parts_inj in Hp. subst e. exact (HD a He Ha).
    - apply (FF a e); [apply in_or_app; auto | apply in_or_app; auto | exists n, l'; exact Hp]. }
  split; [|exact Hno]. intros [[|n l] El].
  - apply Hno. exists []. rewrite app_nil_r in *. congruence.
  - assert (Hs : strictly_inside e r) by (exists n, l; exact El). pose proof (HX r e Hr He Hs) as H1. apply (FF e r); [apply in_or_app; auto | apply in_or_app; auto | exact Hs].
Qed.

(** Returned paths are the outermost ones that can be links. *)
Lemma reduce_paths_exact p1 p2 ex ret : files_only p1 -> files_only p2 -> files_only ex -> incl p1 p2 ->
  reduce_common_paths p1 p2 ex = Ok ret -> forall r, In r ret <-> outermost (linkable p1 p2 ex) r.
Proof.
  intros F1 F2 FX HI Er. destruct (reduce_paths p1 p2 ex F1 F2 FX HI) as (ret' & Er' & _ & HC & HU & HO & HX & _ & HM). rewrite Er in Er'. injection Er' as <-.
  assert (H1 : forall r, In r ret -> outermost (linkable p1 p2 ex) r).
  { intros r Hr. destruct (HU r Hr) as (a & Ha & Hp). split.
    - destruct (mem r p1) eqn:Em; [left; apply mem_In; exact Em|]. right. split; [eauto|]. split; [intros b Hb; apply HO; assumption|].
      intros e He Hs. apply HX in Hs; [|assumption|assumption]. apply mem_In in Hs. congruence.
    - intros q (n & l & Eq) Hq.
      assert (exists q' m, parts r = parts q' ++ [m] /\ inside q' q) as (q' & m & Eq' & Hqq).
      { destruct (@exists_last _ (n :: l)) as (l' & m & El); [discriminate|]. rewrite El, app_assoc in Eq. exists (join [cSlash] (parts q ++ l')), m.
        assert (Hj : parts (join [cSlash] (parts q ++ l')) = parts q ++ l').
        { apply parts_join; [exists r; exists [m]; exact Eq|]. intros H. apply app_eq_nil in H as [H _]. exact (split_ch_nonempty cSlash q H). }
        rewrite Hj. split; [exact Eq|]. exists l'. exact Hj. }
      destruct Hp as [s Hp]. destruct Hq as [Hq|(_ & Hq1 & Hq2)].
      + apply (F1 a q Ha Hq). exists n, (l ++ s). rewrite Hp, Eq, <- app_assoc. reflexivity.
      + destruct Hqq as [l' Hqq]. destruct (HM r q' m Hr Eq') as [(e & He & k & s' & Es)|(b & Hb & Hnb & s' & Es)].
        * apply (Hq2 e He). rewrite Hqq, <- app_assoc in Es. unfold strictly_inside. rewrite Es. destruct l' as [|k' l']; [exists k, s'; reflexivity | exists k', (l' ++ k :: s'); reflexivity].
        * apply Hnb. apply (Hq1 b Hb). exists (l' ++ s'). rewrite Es, Hqq, <- app_assoc. reflexivity. }
  intros r. split; [apply H1|]. intros [Hl Hm].
  assert (exists a, In a p1 /\ inside a r) as (a & Ha & Hp).
  { destruct Hl as [Hl|[Hl _]]; [|exact Hl]. exists r. split; [exact Hl | exists []; rewrite app_nil_r; reflexivity]. }
  destruct (HC a Ha) as (r' & Hr' & Hp' & _). destruct (H1 r' Hr') as [Hl' Hm']. destruct (prefixes_cmp _ _ _ Hp Hp') as [[[|n l] E]|[[|n l] E]].
  - rewrite app_nil_r in E. apply parts_inj in E. congruence.
  - exfalso. apply (Hm' r); [exists n, l; exact E | exact Hl].
  - rewrite app_nil_r in E. apply parts_inj in E. congruence.
  - exfalso. apply (Hm r'); [exists n, l; exact E | exact Hl'].
Qed.
(** The iteration order of the sets has no influence. *)
Lemma reduce_paths_order p1 p2 ex q1 q2 ey ret : files_only p1 -> files_only p2 -> files_only ex -> incl p1 p2 ->
  (forall x, In x p1 <-> In x q1) -> (forall x, In x p2 <-> In x q2) -> (forall x, In x ex <-> In x ey) ->
  reduce_common_paths p1 p2 ex = Ok ret -> exists ret', reduce_common_paths q1 q2 ey = Ok ret' /\ forall r, In r ret' <-> In r ret.
Proof.
  intros F1 F2 FX HI E1 E2 E3 Er.
  assert (G1 : files_only q1) by (intros p q Hp Hq; apply F1; apply E1; assumption).
  assert (G2 : files_only q2) by (intros p q Hp Hq; apply F2; apply E2; assumption).
  assert (GX : files_only ey) by (intros p q Hp Hq; apply FX; apply E3; assumption).
  assert (GI : incl q1 q2) by (intros x Hx; apply E2, HI, E1, Hx).
  destruct (reduce_paths q1 q2 ey G1 G2 GX GI) as (ret' & Er' & _). exists ret'. split; [exact Er'|]. intros r.
  rewrite (reduce_paths_exact _ _ _ _ G1 G2 GX GI Er'), (reduce_paths_exact _ _ _ _ F1 F2 FX HI Er).
  assert (HL : forall r, linkable q1 q2 ey r <-> linkable p1 p2 ex r).
  { intros x. unfold linkable. split.
    - intros [H|((a & Ha & H) & H2 & H3)]; [left; apply E1; exact H | right]. split; [exists a; split; [apply E1; exact Ha | exact H]|].
      split; [intros b Hb Hi; apply E1, H2; [apply E2; exact Hb | exact Hi] | intros e He; apply H3, E3, He].
    - intros [H|((a & Ha & H) & H2 & H3)]; [left; apply E1; exact H | right]. split; [exists a; split; [apply E1; exact Ha | exact H]|].
      split; [intros b Hb Hi; apply E1, H2; [apply E2; exact Hb | exact Hi] | intros e He; apply H3, E3, He]. }
  unfold outermost. rewrite HL. split; intros [H K]; (split; [exact H|]); intros q Hs Hq; apply (K q Hs); apply HL; exact Hq.
Qed.
(** Identical lists: entries at the root. *)
Lemma reduce_paths_same p ret : files_only p -> reduce_common_paths p p [] = Ok ret -> forall r, In r ret <-> ~ In cSlash r /\ exists a, In a p /\ inside a r.
Proof.
  intros F Er r. assert (FX : files_only []) by (intros p' q' []). rewrite (reduce_paths_exact p p [] ret F F FX (incl_refl _) Er).
  assert (Hcut : forall x n l, parts x = n :: l -> l <> [] -> exists q, strictly_inside x q /\ parts q = [n]).
  { intros x n l E Hl. exists (join [cSlash] [n]). assert (Hj : parts (join [cSlash] [n]) = [n]) by (apply parts_join; [exists x, l; exact E | discriminate]).
    split; [|exact Hj]. unfold strictly_inside. rewrite Hj, E. destruct l as [|m l]; [congruence|]. exists m, l. reflexivity. }
  assert (Hex : forall x, linkable p p [] x -> exists a, In a p /\ inside a x).
  { intros x [H|[H _]]; [|exact H]. exists x. split; [exact H | exists []; rewrite app_nil_r; reflexivity]. }
  split.
  - intros [Hl Hm]. split; [|apply Hex; exact Hl]. intros Hc. pose proof (split_ch_nonempty cSlash r) as Hn. fold (parts r) in Hn.
    destruct (parts r) as [|n [|m l]] eqn:E; [destruct (Hn eq_refl)| |].
    + pose proof (join_split cSlash r) as J. fold (parts r) in J. rewrite E in J. cbn in J. subst n. pose proof (split_ch_pieces cSlash r) as HF. fold (parts r) in HF. rewrite E in HF. inversion_clear HF. contradiction.
    + destruct (Hcut r n (m :: l) E) as (q & Hs & Eq); [discriminate|]. apply (Hm q Hs). right. destruct (Hex r Hl) as (a & Ha & s & Hi).
      split; [exists a; split; [exact Ha|]; exists ((m :: l) ++ s); rewrite Eq, Hi, E; reflexivity|]. split; [auto | intros e []].
  - intros (Hc & a & Ha & Hi). assert (Er1 : parts r = [r]) by (apply split_ch_none; exact Hc). split.
    + right. split; [eauto|]. split; [auto | intros e []].
    + intros q (n & l & E) _. rewrite Er1 in E. pose proof (split_ch_nonempty cSlash q) as Hn. fold (parts q) in Hn. destruct (parts q) as [|x [|y q']]; [destruct (Hn eq_refl) | discriminate | discriminate].
Qed.
