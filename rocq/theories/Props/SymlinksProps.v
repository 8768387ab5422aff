(** * Property C54: links to the files of the previous patch *)

From Verif Require Import Base.Py Base.Text Base.PyFacts Base.Fs Spec.FsSpec Base.FsFacts Base.FsLinks Base.FsTree Base.FsReal Base.FsRealFacts
  Model.Files Proofs.FilesProofs Model.Patcher Model.Symlinks Spec.SymlinksSpec Proofs.SymlinksProofs.

Section C54.
  Variable cwd : path.
  Variable output prev : str.
  Variable links : list str.
  Variable f : fs.
  Hypothesis Hready : links_ready cwd output links f.
  Notation previous l := (path_join (path_join (dirname output) prev) l).
  Notation created := (create_symlinks cwd output prev links).

  (** Whatever happens, nothing is changed: links and the directories of links are added. *)
  Theorem C54_added pl o pl' f' : run created pl f = (o, pl', f') -> links_added cwd output links f f'.
  Proof.
    intros E. unfold create_symlinks in E. eapply (safe_run _ _ (added_refl cwd output _) (added_trans cwd output _)) in E as (H & _ & _); [exact H | apply all_safe | exact Hready].
  Qed.

  Lemma run_quiet pl o pl' f' : failures pl = 0%nat -> run created pl f = (o, pl', f') -> run created [] f = (o, [], f').
  Proof.
    intros Hpl E. destruct (run_no_failure created pl f Hpl) as (pl1 & _ & E1). rewrite E1 in E. injection E as <- <- <-.
    destruct (run_nil_plan created f) as (o1 & f1 & E2). rewrite E2. reflexivity.
  Qed.
  Lemma ready_after pl o pl' f' : run created pl f = (o, pl', f') -> links_ready cwd output links f'.
  Proof.
    intros E. unfold create_symlinks in E. eapply (safe_run _ _ (added_refl cwd output _) (added_trans cwd output _)) in E as (_ & H & _); [exact H | apply all_safe | exact Hready].
  Qed.
  (** On success there is a link at every place; a new one leads directly to the same file as the path in the previous output
      directory, even if this one is a link too. *)
  Theorem C54_leads pl pl' f' l : failures pl = 0%nat -> run created pl f = (Done tt, pl', f') -> In l links ->
    is_link f' (link_at cwd output l)
    /\ (look f (link_at cwd output l) = None -> forall p, locate cwd f true (previous l) = Ok p -> look f p <> None -> Forall valid_name p ->
        direct f' (link_at cwd output l) p /\ locate cwd f' true (path_join output l) = Ok p /\ locate cwd f' true (previous l) = Ok p /\ look f' p = look f p).
  Proof.
    intros Hpl E Hl. assert (HJ' := ready_after _ _ _ _ E). apply run_quiet in E; [|exact Hpl]. apply (all_run cwd output _ links) in E as [HR [[_ H]|[[H _]|(e & H & _)]]]; [| discriminate | discriminate | apply incl_refl | exact Hready].
    destruct (H l Hl) as [H1 H2]. split; [exact H1|]. intros Hn p Ep Hp Vp. assert (HD := H2 Hn p Ep Hp Vp). split; [exact HD|]. split; [exact (direct_locate cwd output links l Hl f' p HJ' HD)|].
    pose proof (added_keeps _ _ _ _ _ HR) as HK. split; [eapply locate_keeps; eassumption | apply HK; exact Hp].
  Qed.
  (** It succeeds exactly when nothing is in the way. *)
  Theorem C54_outcome pl o pl' f' : failures pl = 0%nat -> run created pl f = (o, pl', f') ->
    o = Done tt <-> forall l, In l links -> ~ occupied cwd output l f /\ reachable cwd output l f.
  Proof.
    intros Hpl E. pose proof E as Ea. apply C54_added in Ea. pose proof (added_keeps _ _ _ _ _ Ea) as HK. split.
    - intros -> l Hl. destruct (C54_leads pl pl' f' l Hpl E Hl) as [[t Ht] _]. split.
      + intros (n & En & Hn). rewrite HK in Ht by congruence. apply (Hn t). congruence.
      + intros q (x & m & Em). destruct (look f q) as [n|] eqn:En; [|left; reflexivity]. right. rewrite <- En.
        apply ready_after in E as (Hw & _). rewrite <- HK by congruence. apply (wf_parents f' (x :: m)); [exact Hw | | discriminate].
        cbn [app]. rewrite <- Em. congruence.
    - intros H. apply run_quiet in E; [|exact Hpl]. apply (all_run cwd output _ links) in E as [_ [[-> _]|[[_ (l & Hl & Ho)]|(e & _ & _ & l & Hl & Hr)]]]; [reflexivity | | | apply incl_refl | exact Hready].
      + destruct (H l Hl) as [H1 _]. contradiction.
      + destruct (H l Hl) as [_ H1]. contradiction.
  Qed.
  (** Otherwise the error tells what is in the way: something else than a link at the place of one, or something else than
      a directory on the way to one. *)
  Theorem C54_error pl e pl' f' : failures pl = 0%nat -> run created pl f = (Raised e, pl', f') ->
    e = RuntimeError /\ (exists l, In l links /\ occupied cwd output l f) \/ lookup_error e /\ exists l, In l links /\ ~ reachable cwd output l f.
  Proof.
    intros Hpl E. apply run_quiet in E; [|exact Hpl]. apply (all_run cwd output _ links) in E as [_ [[H _]|[[H Hl]|(e' & H & He & Hl)]]]; [discriminate | | | apply incl_refl | exact Hready].
    - injection H as ->. auto.
    - injection H as ->. auto.
  Qed.
  (** A second run has nothing to do. *)
  Theorem C54_again pl pl' f' pl2 : failures pl = 0%nat -> run created pl f = (Done tt, pl', f') -> failures pl2 = 0%nat -> exists pl3, run created pl2 f' = (Done tt, pl3, f').
  Proof.
    intros Hpl E Hpl2. assert (Hr := ready_after _ _ _ _ E). assert (Hk : forall l, In l links -> is_link f' (link_at cwd output l)) by (intros l Hl; apply (C54_leads pl pl' f' l Hpl E Hl)).
    assert (E2 : run created [] f' = (Done tt, [], f')).
    { unfold create_symlinks. assert (Hi : incl links links) by apply incl_refl. revert Hi. generalize links at 1 3. intros ls. induction ls as [|l ls IH]; intros Hi; [reflexivity|]. cbn [for_each].
      assert (Hl : In l links) by (apply Hi; left; reflexivity).
      rewrite (run_bind0 _ _ _ _ _ (create_link_there cwd output _ links l Hl f' Hr (Hk l Hl))). apply IH. intros x Hx. apply Hi. right. exact Hx. }
    destruct (run_no_failure created pl2 f' Hpl2) as (pl3 & _ & E3). exists pl3. rewrite E3, E2. reflexivity.
  Qed.
  (** Whatever failures occur, a run that ends normally has made all links, but those whose text the system refused. *)
  Theorem C54_refused pl pl' f' l : run created pl f = (Done tt, pl', f') -> In l links -> is_link f' (link_at cwd output l) \/ text_refused pl.
  Proof. intros E Hl. exact (all_any cwd output _ links links pl f pl' f' (incl_refl _) Hready E l Hl). Qed.
End C54.
Print Assumptions C54_refused.
Print Assumptions C54_added.
Print Assumptions C54_leads.
Print Assumptions C54_outcome.
Print Assumptions C54_error.
Print Assumptions C54_again.

(** ** Examples *)

Local Notation t := lit.
(** "/e/14.2" is exported after "/e/14.1", in which "game" comes from "/e/13.24". *)
Local Definition f0 : fs :=
  [([t "e"], NDir); ([t "13.24"; t "e"], NDir); ([t "game"; t "13.24"; t "e"], NDir); ([t "a.png"; t "game"; t "13.24"; t "e"], NFile (bl "A"));
   ([t "14.1"; t "e"], NDir); ([t "game"; t "14.1"; t "e"], NLink (t "../13.24/game")); ([t "plugins"; t "14.1"; t "e"], NDir); ([t "x"; t "plugins"; t "14.1"; t "e"], NFile (bl "X"));
   ([t "14.2"; t "e"], NDir)].
Local Definition links0 := [t "game/a.png"; t "plugins/x"].
Local Definition f1 : fs := snd (run (create_symlinks [t "e"] (t "/e/14.2") (t "14.1") links0) [] f0).
Example C54_ready_ex : links_ready [t "e"] (t "/e/14.2") links0 f0.
Proof.
  split; [apply wf_check_ok; reflexivity|]. split; [reflexivity|]. split; [repeat constructor; apply valid_name_b_ok; reflexivity|]. split.
  - intros l [<-|[<-|[]]]; (split; [split; [vm_compute; intuition discriminate | repeat split; discriminate] | apply nolink_check_ok; reflexivity]).
  - intros l1 l2 [<-|[<-|[]]] [<-|[<-|[]]]; (split; [apply strictly_b_ok; reflexivity | intros E; (reflexivity || discriminate E)]).
Qed.
Example C54_ex : run (create_symlinks [t "e"] (t "/e/14.2") (t "14.1") links0) [] f0 = (Done tt, [], f1)
  /\ look f1 [t "a.png"; t "game"; t "14.2"; t "e"] = Some (NLink (t "../../13.24/game/a.png"))
  /\ look f1 [t "x"; t "plugins"; t "14.2"; t "e"] = Some (NLink (t "../../14.1/plugins/x"))
  /\ locate [t "e"] f1 true (t "/e/14.2/game/a.png") = Ok [t "a.png"; t "game"; t "13.24"; t "e"]
  /\ locate [t "e"] f0 true (t "/e/14.1/game/a.png") = Ok [t "a.png"; t "game"; t "13.24"; t "e"].
Proof. vm_compute. repeat split; reflexivity. Qed.
Example C54_occupied_ex : run (create_symlinks [t "e"] (t "/e/14.2") (t "14.1") [t "plugins"]) [] (([t "plugins"; t "14.2"; t "e"], NDir) :: f0)
  = (Raised RuntimeError, [], ([t "plugins"; t "14.2"; t "e"], NDir) :: f0).
Proof. reflexivity. Qed.

(** The text of the first link is refused: the second one is made.  With another error the run fails. *)
Local Definition refusal e : plan := repeat None 5 ++ [Some (FErr (OSError e) 0)].
Example C54_refused_ex : let r := run (create_symlinks [t "e"] (t "/e/14.2") (t "14.1") links0) (refusal ENAMETOOLONG) f0 in
  fst (fst r) = Done tt /\ look (snd r) [t "a.png"; t "game"; t "14.2"; t "e"] = None /\ look (snd r) [t "x"; t "plugins"; t "14.2"; t "e"] = Some (NLink (t "../../14.1/plugins/x")).
Proof. vm_compute. repeat split; reflexivity. Qed.
Example C54_refused_ex2 : fst (fst (run (create_symlinks [t "e"] (t "/e/14.2") (t "14.1") links0) (refusal EIO) f0)) = Raised (OSError EIO).
Proof. reflexivity. Qed.

(** A link that is already there is left as it is, even if it leads to another file: links are not always those of the
    previous patch. *)
Theorem C54_current_refuted : exists cwd output prev links f f' p q,
  links_ready cwd output links f /\ run (create_symlinks cwd output prev links) [] f = (Done tt, [], f')
  /\ exists l, In l links /\ locate cwd f' true (path_join (path_join (dirname output) prev) l) = Ok p /\ look f' p <> None
     /\ locate cwd f' true (path_join output l) = Ok q /\ q <> p.
Proof.
  exists [t "e"], (t "/e/14.2"), (t "14.1"), [t "plugins"].
  exists (([t "plugins"; t "14.2"; t "e"], NLink (t "../13.24/plugins")) :: ([t "plugins"; t "13.24"; t "e"], NDir) :: f0), (([t "plugins"; t "14.2"; t "e"], NLink (t "../13.24/plugins")) :: ([t "plugins"; t "13.24"; t "e"], NDir) :: f0).
  exists [t "plugins"; t "14.1"; t "e"], [t "plugins"; t "13.24"; t "e"]. split.
  - split; [apply wf_check_ok; reflexivity|]. split; [reflexivity|]. split; [repeat constructor; apply valid_name_b_ok; reflexivity|]. split.
    + intros l [<-|[]]. split; [split; [vm_compute; intuition discriminate | repeat split; discriminate] | apply nolink_check_ok; reflexivity].
    + intros l1 l2 [<-|[]] [<-|[]]; (split; [apply strictly_b_ok; reflexivity | intros _; reflexivity]).
  - split; [reflexivity|]. exists (t "plugins"). split; [left; reflexivity|]. split; [vm_compute; reflexivity|]. split; [discriminate|]. split; [vm_compute; reflexivity | discriminate].
Qed.
Print Assumptions C54_current_refuted.
