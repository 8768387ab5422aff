(** * Facts about the removal of trees *)

From Coq Require Import Permutation Sorted.
From Verif Require Import Base.Py Base.Text Base.PyFacts Base.TextFacts Base.Fs Base.FsDir Spec.FsSpec Base.FsFacts Model.Files Proofs.FilesProofs Base.FsLinks Base.FsTree.

Lemma wf_del_empty p f : fs_wf f -> (forall n, look f (n :: p) = None) -> fs_wf (del p f).
Proof.
  intros Hw He x r Hx. destruct p as [|y p].
  - destruct (eqbP r []) as [->|Hr]; [reflexivity|]. rewrite look_del_other in Hx by discriminate. rewrite look_del_other by exact Hr. apply (Hw x), Hx.
  - destruct (eqbP (x :: r) (y :: p)) as [E|Hn]; [rewrite E, look_del_same in Hx by discriminate; congruence|]. rewrite look_del_other in Hx by exact Hn.
    destruct (eqbP r (y :: p)) as [->|Hr]; [rewrite He in Hx; congruence|]. rewrite look_del_other by exact Hr. apply (Hw x), Hx.
Qed.
Lemma names_nil p f : names p f = [] <-> forall n, look f (n :: p) = None.
Proof.
  split.
  - intros E n. destruct (look f (n :: p)) eqn:El; [|reflexivity]. assert (H : In n (names p f)) by (apply names_In; congruence). rewrite E in H. destruct H.
  - intros H. destruct (names p f) as [|n l] eqn:E; [reflexivity|]. assert (Hi : In n (names p f)) by (rewrite E; left; reflexivity). apply names_In in Hi. destruct (Hi (H n)).
Qed.
(** An unlinked node has no children. *)
Lemma unlink_ok p f u f' : fs_wf f -> f_unlink p f = Ok (u, f') -> p <> [] /\ f' = del p f /\ look f p <> None /\ (forall n, look f (n :: p) = None) /\ fs_wf f'.
Proof.
  intros Hw E. assert (H : p <> [] /\ f' = del p f /\ look f p <> None /\ (forall n, look f (n :: p) = None)).
  { unfold f_unlink in E. destruct p as [|x p]; [discriminate|]. split; [discriminate|]. destruct (look f (x :: p)) as [[b| |t]|] eqn:El; [| | |discriminate].
    - split; [congruence|]. split; [discriminate|]. intros n. destruct (look f (n :: x :: p)) eqn:En; [|reflexivity]. assert (look f (x :: p) = Some NDir) by (apply (Hw n); congruence). congruence.
    - destruct (names (x :: p) f) eqn:En; [|discriminate]. split; [congruence|]. split; [discriminate|]. apply names_nil, En.
    - split; [congruence|]. split; [discriminate|]. intros n. destruct (look f (n :: x :: p)) eqn:En; [|reflexivity]. assert (look f (x :: p) = Some NDir) by (apply (Hw n); congruence). congruence. }
  destruct H as (H1 & H2 & H3 & H4). split; [exact H1|]. split; [exact H2|]. split; [exact H3|]. split; [exact H4|]. subst f'. apply wf_del_empty; assumption.
Qed.
Lemma tree_nodes_In R f q : R <> [] -> (In q (tree_nodes R f) <-> below q R /\ look f q <> None).
Proof.
  intros HR. unfold tree_nodes. assert (E : forall l, In q (py_sorted (fun a b => Nat.ltb (length b) (length a)) l) <-> In q l).
  { intros l. pose proof (py_sorted_perm (fun a b => Nat.ltb (length b) (length a)) l) as P. split; apply Permutation_in; [apply Permutation_sym|]; exact P. }
  rewrite E, set_of_In, filter_In, <- below_b_ok. split.
  - intros [H1 H2]. split; [exact H2|]. assert (Hq : q <> []) by (intros ->; destruct H2 as [l Hl]; symmetry in Hl; apply app_eq_nil in Hl as [_ Hl]; contradiction).
    destruct q as [|x q]; [congruence|]. unfold look. intros Hn. apply dget_None in Hn. contradiction.
  - intros [H1 H2]. split; [|exact H1]. assert (Hq : q <> []) by (intros ->; destruct H1 as [l Hl]; symmetry in Hl; apply app_eq_nil in Hl as [_ Hl]; contradiction).
    destruct q as [|x q]; [congruence|]. unfold look in H2. destruct (mem (x :: q) (map fst f)) eqn:Em; [apply mem_In, Em|]. exfalso. apply H2, dget_None. intros Hi. assert (Em' : mem (x :: q) (map fst f) = true) by (apply mem_In; exact Hi). rewrite Em in Em'. discriminate.
Qed.
(** Deepest nodes come first. *)
Definition deeper (a b : path) : Prop := (length b <= length a)%nat.
Lemma tree_nodes_sorted R f : StronglySorted deeper (tree_nodes R f).
Proof.
  unfold tree_nodes. set (lt := fun a b : path => Nat.ltb (length b) (length a)). set (l := set_of _).
  assert (H : StronglySorted (nlt_rev lt) (py_sorted lt l)).
  { apply py_sorted_sorted; unfold lt.
    - intros a b H. apply Nat.ltb_lt in H. apply Nat.ltb_ge. lia.
    - intros a b c H1 H2. apply Nat.ltb_ge in H1, H2. apply Nat.ltb_ge. lia. }
  change (StronglySorted deeper (py_sorted lt l)). induction H as [|a l' _ IH H]; constructor; [exact IH|]. eapply Forall_impl; [|exact H]. intros b Hb. unfold nlt_rev, lt in Hb. apply Nat.ltb_ge in Hb. exact Hb.
Qed.
Lemma tree_nodes_NoDup R f : NoDup (tree_nodes R f).
Proof. unfold tree_nodes. eapply Permutation_NoDup; [apply py_sorted_perm | apply set_of_NoDup]. Qed.

Definition unlinks (l : list path) : prog unit := for_each l (fun p => ignore_os tt (sys (f_unlink p))).
Lemma unlinks_all R : R <> [] -> forall l g, fs_wf g -> NoDup l -> StronglySorted deeper l -> (forall q, In q l <-> below q R /\ look g q <> None) ->
  exists g', run (unlinks l) [] g = (Done tt, [], g') /\ fs_wf g' /\ (forall q, below q R -> look g' q = None) /\ forall q, ~ below q R -> look g' q = look g q.
Proof.
  intros HR. induction l as [|p l IH]; intros g Hw Hn Hs Hl.
  - exists g. split; [reflexivity|]. split; [exact Hw|]. split; [|reflexivity]. intros q Hq. destruct (look g q) eqn:El; [|reflexivity]. assert (H : In q []) by (apply Hl; split; [exact Hq | congruence]). destruct H.
  - inversion_clear Hn as [|? ? Hnp Hn']. inversion_clear Hs as [|? ? Hs' Hd]. destruct (proj1 (Hl p) (or_introl eq_refl)) as [Hp Hlp].
    assert (Hpn : p <> []) by (intros ->; destruct Hp as [x Hx]; symmetry in Hx; apply app_eq_nil in Hx as [_ Hx]; contradiction).
    assert (He : forall n, look g (n :: p) = None).
    { intros n. destruct (look g (n :: p)) eqn:El; [|reflexivity]. exfalso. assert (Hi : In (n :: p) (p :: l)) by (apply Hl; split; [destruct Hp as [x ->]; exists (n :: x); reflexivity | congruence]).
      destruct Hi as [Hi|Hi]; [apply (f_equal (@length _)) in Hi; cbn [length] in Hi; lia|]. rewrite Forall_forall in Hd. specialize (Hd _ Hi). unfold deeper in Hd. cbn [length] in Hd. lia. }
    assert (Eu : f_unlink p g = Ok (tt, del p g)).
    { unfold f_unlink. destruct p as [|x p]; [congruence|]. destruct (look g (x :: p)) as [[| |]|]; try reflexivity; [|congruence]. rewrite (proj2 (names_nil _ _) He). reflexivity. }
    destruct (IH (del p g)) as (g' & R1 & Hw' & Hg & Ho); [apply wf_del_empty; assumption | exact Hn' | exact Hs' | |].
    + intros q. split.
      * intros Hi. destruct (proj1 (Hl q) (or_intror Hi)) as [H1 H2]. split; [exact H1|]. rewrite look_del_other; [exact H2|]. intros ->. contradiction.
      * intros [H1 H2]. destruct (eqbP q p) as [->|Hne]; [rewrite look_del_same in H2 by exact Hpn; congruence|]. rewrite look_del_other in H2 by exact Hne. destruct (proj2 (Hl q) (conj H1 H2)) as [<-|Hi]; [congruence | exact Hi].
    + exists g'. unfold unlinks in *. cbn [for_each]. rewrite run_bind. unfold ignore_os at 1. rewrite run_catch. unfold sys at 1, sys_part. cbn [run]. rewrite Eu. cbn [run]. split; [exact R1|]. split; [exact Hw'|]. split; [exact Hg|].
      intros q Hq. rewrite Ho by exact Hq. apply look_del_other. intros ->. contradiction.
Qed.
(** Without failures the tree has gone. *)
Lemma rmtree_all cwd s f : plain_path s -> winv cwd s f -> look f (target cwd s) = Some NDir ->
  exists f', run (rmtree_ignore cwd s) [] f = (Done tt, [], f') /\ fs_wf f' /\ (forall q, below q (target cwd s) -> look f' q = None) /\ forall q, ~ below q (target cwd s) -> look f' q = look f q.
Proof.
  intros Hs Hi Hd. unfold rmtree_ignore. rewrite run_bind. unfold ignore_os at 1. rewrite run_catch. unfold sys at 1, sys_part. cbn [run]. unfold f_tree at 1 2. rewrite (locate_ok cwd s Hs f false Hi) by congruence. cbn [rbind]. rewrite Hd. cbn [run].
  apply unlinks_all; [apply target_nonempty, Hs | apply Hi | apply tree_nodes_NoDup | apply tree_nodes_sorted|]. intros q. apply tree_nodes_In, target_nonempty, Hs.
Qed.
(** In any case only nodes of the tree are removed. *)
Definition cut_below (R : path) (f f' : fs) : Prop := forall q, look f' q = look f q \/ below q R /\ look f' q = None.
Lemma cut_refl R f : cut_below R f f.
Proof. intros q. left. reflexivity. Qed.
Lemma cut_trans R a b c : cut_below R a b -> cut_below R b c -> cut_below R a c.
Proof. intros H1 H2 q. destruct (H2 q) as [E|E]; [|auto]. destruct (H1 q) as [E1|[E1 E2]]; [left; congruence | right; split; [exact E1 | congruence]]. Qed.
Lemma cut_winv cwd s f f' : ~ below cwd (target cwd s) -> winv cwd s f -> fs_wf f' -> cut_below (target cwd s) f f' -> winv cwd s f'.
Proof.
  intros Hc (H1 & H2 & H3) Hw HR. split; [|split; [exact Hw|]].
  - intros q t Hq E. destruct (HR q) as [E1|[_ E1]]; [apply (H1 q t Hq); congruence | congruence].
  - destruct (HR cwd) as [E|[E _]]; [congruence | contradiction].
Qed.
Lemma rmtree_cut cwd s : plain_path s -> ~ below cwd (target cwd s) -> safe (winv cwd s) (cut_below (target cwd s)) (fun _ => True) (rmtree_ignore cwd s).
Proof.
  intros Hs Hc. unfold rmtree_ignore. apply (safe_bind _ _ (fun l => Forall (fun q => below q (target cwd s)) l)).
  - apply safe_catch; [|intros e; destruct (is_oserror e); [constructor | exact Logic.I]]. apply safe_sys; [apply cut_refl|]. intros f l f' Hi E. unfold f_tree in E. apply rbind_Ok in E as (p & Ep & E).
    apply (locate_t cwd s Hs) in Ep as [-> _]; [|apply Hi]. destruct (look f (target cwd s)) as [[| |]|]; try discriminate. injection E as <- <-. split; [apply cut_refl|]. split; [exact Hi|].
    apply Forall_forall. intros q Hq. apply tree_nodes_In in Hq; [apply Hq | apply target_nonempty, Hs].
  - intros l Hl. rewrite Forall_forall in Hl. apply safe_for_each. intros q Hq. apply safe_catch; [|intros e; destruct (is_oserror e); exact Logic.I]. apply safe_sys; [apply cut_refl|].
    intros f u f' Hi E. destruct (unlink_ok q f u f' (proj1 (proj2 Hi)) E) as (Hne & -> & _ & _ & Hw).
    assert (HR : cut_below (target cwd s) f (del q f)) by (intros x; destruct (eqbP x q) as [->|Hn]; [right; split; [apply Hl, Hq | apply look_del_same, Hne] | left; apply look_del_other, Hn]).
    split; [exact HR|]. split; [|exact Logic.I]. eapply cut_winv; eassumption.
Qed.
