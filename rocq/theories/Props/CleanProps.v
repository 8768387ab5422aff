(** * C25: cleaning of the output directory *)

From Coq Require Import Permutation.
From Verif Require Import Base.Py Base.Text Base.TextFacts Base.Fs Spec.FsSpec Base.FsFacts Base.FsLinks Base.FsTree Model.Clean Spec.CleanSpec Proofs.CleanProofs.

Section Props.
  Variable cwd : path.
  Variables order set_order : list str -> list str.
  Hypothesis Horder : forall l, Permutation (order l) l.
  Hypothesis Hset : forall l, Permutation (set_order l) l.
  Variables (output : str) (kept links : list str) (f : fs).
  Hypothesis Hready : clean_ready cwd output f.
  Let d := target cwd output.
  Let clean := clean_output_dir cwd order set_order output kept links.

  (** Whatever fails, even when killed: a path keeps its content, or it has disappeared and it was an extra file or a directory leading to one. *)
  Theorem C25_changes pl o pl' g : run clean pl f = (o, pl', g) ->
    forall p, look g p = look f p \/ look g p = None /\ (extra kept links d f p \/ leads kept links d f p).
  Proof.
    destruct Hready as (H1 & H2 & H3 & H4 & H5 & H6). intros Hr. exact (proj2 (proj1 (clean_any cwd output H1 H2 order Horder f H4 H5 H3 kept links set_order Hset H6 pl o pl' g Hr))).
  Qed.

  (** Kept files. *)
  Theorem C25_kept pl o pl' g q : run clean pl f = (o, pl', g) -> is_file f (q ++ d) -> In (rel q) kept -> look g (q ++ d) = look f (q ++ d).
  Proof.
    intros Hr [b Hf] Hk. destruct (C25_changes pl o pl' g Hr (q ++ d)) as [H|[_ [(q' & Eq & _ & _ & [[[t Hl] _]|[_ Hn]])|[Hl _]]]]; [exact H | congruence | | congruence].
    apply app_inv_tail in Eq. subst q'. contradiction.
  Qed.
  (** Kept links. *)
  Theorem C25_links pl o pl' g q t : run clean pl f = (o, pl', g) -> look f (q ++ d) = Some (NLink t) -> In (rel q) links -> look g (q ++ d) = Some (NLink t).
  Proof.
    intros Hr Hf Hk. rewrite <- Hf. destruct (C25_changes pl o pl' g Hr (q ++ d)) as [H|[_ [(q' & Eq & _ & _ & [[_ Hn]|[[b Hl] _]])|[Hl _]]]]; [exact H | | congruence..].
    apply app_inv_tail in Eq. subst q'. contradiction.
  Qed.
  (** Kept directories, with everything they contain. *)
  Theorem C25_kept_dir pl o pl' g r p : run clean pl f = (o, pl', g) -> r <> [] -> In (rel r) kept -> look f (r ++ d) = Some NDir -> below p (r ++ d) -> look g p = look f p.
  Proof.
    intros Hr Hne Hk Hd Hb. assert (Hno : forall t, extra kept links d f t -> ~ strictly_below t (r ++ d)).
    { intros t (q & -> & _ & Hv & _) (x & l & Ex). rewrite app_comm_cons, app_assoc in Ex. apply app_inv_tail in Ex. apply (Hv r); [exists x, l; exact Ex | exact Hne | exact Hk]. }
    destruct (C25_changes pl o pl' g Hr p) as [H|[_ [He|[_ (t & He & Ht)]]]]; [exact H | |].
    - exfalso. destruct Hb as [[|x l] ->]; [|apply (Hno _ He); exists x, l; reflexivity]. destruct He as (q & _ & _ & _ & [[[t Hl] _]|[[b Hl] _]]); cbn [app] in Hl; congruence.
    - exfalso. apply (Hno t He). destruct Ht as (x & l & ->), Hb as [l' ->]. exists x, (l ++ l'). rewrite <- app_assoc. reflexivity.
  Qed.
  (** Nothing changes outside of the output directory, except that parent directories may disappear with it. *)
  Theorem C25_outside pl o pl' g p : run clean pl f = (o, pl', g) -> ~ below p d -> look g p = look f p \/ look f p = Some NDir /\ look g p = None /\ strictly_below d p.
  Proof.
    intros Hr Hb. destruct (C25_changes pl o pl' g Hr p) as [H|[Hn [(q & -> & _)|(Hd & t & (q & -> & _) & x & l & Ex)]]]; [left; exact H | exfalso; apply Hb; exists q; reflexivity|]. right. split; [exact Hd|]. split; [exact Hn|].
    destruct (app_eq_app q d (x :: l) p Ex) as (l2 & [[_ E1]|[_ E1]]).
    - exfalso. apply Hb. exists l2. exact E1.
    - destruct l2 as [|y l2]; [exfalso; apply Hb; exists []; rewrite E1; reflexivity|]. exists y, l2. exact E1.
  Qed.
  (** On success all extra files and links are gone. *)
  Theorem C25_removed pl pl' g : run clean pl f = (Done tt, pl', g) -> forall p, extra kept links d f p -> look g p = None.
  Proof.
    destruct Hready as (H1 & H2 & H3 & H4 & H5 & H6). intros Hr. exact (proj2 (clean_any cwd output H1 H2 order Horder f H4 H5 H3 kept links set_order Hset H6 pl _ pl' g Hr) eq_refl).
  Qed.
  (** It succeeds when no system call fails, and then no directory has been left empty: below the output directory, an empty directory was already empty. *)
  Theorem C25_pruned : exists g, run clean [] f = (Done tt, [], g)
    /\ forall p, strictly_below p d -> look g p = Some NDir -> (forall n, look g (n :: p) = None) -> forall n, look f (n :: p) = None.
  Proof.
    destruct Hready as (H1 & H2 & H3 & H4 & H5 & H6). exact (clean_total cwd output H1 H2 order Horder f H4 H5 H3 kept links set_order Hset H6).
  Qed.
End Props.
Print Assumptions C25_changes.
Print Assumptions C25_kept.
Print Assumptions C25_links.
Print Assumptions C25_kept_dir.
Print Assumptions C25_outside.
Print Assumptions C25_removed.
Print Assumptions C25_pruned.

(** ** Example *)

Local Notation t := lit.
Local Definition out : path := [t "out"; t "w"].
Local Definition file (p : path) : path * node := (p ++ out, NFile (bl "x")).
Local Definition dir (p : path) : path * node := (p ++ out, NDir).
Local Definition link (p : path) : path * node := (p ++ out, NLink (t "a")).
Local Definition f0 : fs := [([t "w"], NDir); (out, NDir); dir [t "a"]; file [t "x"; t "a"]; file [t "y"; t "a"]; dir [t "b"]; dir [t "c"; t "b"]; file [t "z"; t "c"; t "b"];
  dir [t "k"]; file [t "u"; t "k"]; dir [t "e"]; link [t "l"]; link [t "m"]; file [t "f"]].
Local Definition clean0 := clean_output_dir [t "w"] (fun l => l) (fun l => l) (t "out") [t "a/x"; t "k"] [t "l"].
Local Definition g0 : fs := snd (run clean0 [] f0).
Example C25_ready_ex : clean_ready [t "w"] (t "out") f0.
Proof.
  split; [discriminate|]. split; [vm_compute; intuition discriminate|].
  assert (Hl : forall q, below (target [t "w"] (t "out")) q -> In q [[]; [t "w"]; out]).
  { intros q [l Hq]. change (target [t "w"] (t "out")) with out in Hq. destruct l as [|a [|b [|c l]]]; [| | |apply (f_equal (@length _)) in Hq; rewrite app_length in Hq; discriminate Hq]; cbn [app] in Hq; unfold out in Hq |- *; inversion Hq; subst; cbn [In]; tauto. }
  split; [intros q x Hq H; destruct (Hl q Hq) as [<-|[<-|[<-|[]]]]; discriminate H|]. split; [apply wf_check_ok; reflexivity|]. split; [|intros b; discriminate].
  intros x p H. unfold look in H. destruct (dget (x :: p) f0) as [n|] eqn:E0; [|destruct (H E0)]. apply dget_some_In in E0. clear -E0.
  unfold valid_name. cbn [f0 In file dir link app out] in E0. repeat (destruct E0 as [E0|E0]; [injection E0 as <- <- <-; split; [discriminate|]; split; [discriminate|]; split; [discriminate|]; vm_compute; intuition discriminate|]). destruct E0.
Qed.
(** "a/y", "b/c/z" and "f" are removed, and "m", and "b" with "b/c"; "a/x", "k/u", "e" and "l" stay. *)
Example C25_ex : g0 = [([t "w"], NDir); (out, NDir); dir [t "a"]; file [t "x"; t "a"]; dir [t "k"]; file [t "u"; t "k"]; dir [t "e"]; link [t "l"]] /\ fst (run clean0 [] f0) = (Done tt, []).
Proof. vm_compute. split; reflexivity. Qed.
Example C25_extra_ex : extra [t "a/x"; t "k"] [t "l"] out f0 [t "z"; t "c"; t "b"; t "out"; t "w"].
Proof.
  exists [t "z"; t "c"; t "b"]. split; [reflexivity|]. split; [discriminate|]. split.
  - intros r (x & l & Hr) Hne Hi. destruct l as [|a [|b l]]; cbn [app] in Hr; inversion Hr; subst; [vm_compute in Hi; intuition discriminate.. |]. destruct l as [|c l]; [cbn [app] in *; congruence | discriminate].
  - right. split; [exists (bl "x"); reflexivity | vm_compute; intuition discriminate].
Qed.
(** With nothing left the output directory itself disappears, and its parent if this was its only entry. *)
Example C25_gone_ex : run (clean_output_dir [] (fun l => l) (fun l => l) (t "w/out") [] []) [] [([t "w"], NDir); (out, NDir); file [t "x"]] = (Done tt, [], []).
Proof. reflexivity. Qed.
