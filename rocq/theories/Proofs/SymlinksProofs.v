(** * Proofs about the links to the files of the previous patch *)

From Verif Require Import Base.Py Base.Text Base.PyFacts Base.TextFacts Base.PathFacts Base.Fs Spec.FsSpec Base.FsFacts Base.FsLinks Base.FsTree Base.FsReal Base.FsRealFacts
  Model.Files Proofs.FilesProofs Model.Patcher Proofs.PatcherLinkProofs Model.Symlinks Spec.SymlinksSpec.

Lemma relpath_leads cwd p d : Forall valid_name p -> Forall valid_name d ->
  exists n rest, comps (relpath cwd (abs_text p) (abs_text d)) = repeat dotdot n ++ rest /\ is_abs (relpath cwd (abs_text p) (abs_text d)) = false /\
    Forall valid_name rest /\ rev rest ++ skipn n d = p.
Proof.
  intros Hp Hd. unfold relpath. rewrite !abs_names_plain, !abs_text_target by (try apply abs_text_dotdot; assumption).
  destruct (common_spec (rev d) (rev p)) as (c & a & b & Ea & Eb & Hl). rewrite <- Hl.
  assert (Hvb : Forall valid_name b) by (assert (H : Forall valid_name (rev p)) by (apply Forall_rev; assumption); rewrite Eb in H; apply Forall_app in H; apply H).
  rewrite Ea, Eb. replace (length (c ++ a) - length c)%nat with (length a) by (rewrite app_length; lia).
  rewrite skipn_app, skipn_all, Nat.sub_diag. cbn [app skipn].
  apply (f_equal (@rev _)) in Ea. apply (f_equal (@rev _)) in Eb. rewrite rev_involutive, rev_app_distr in Ea, Eb.
  exists (length a), b.
  assert (HF : Forall step_name (repeat dotdot (length a) ++ b)).
  { apply Forall_app. split; [apply Forall_forall; intros x Hx; apply repeat_spec in Hx as ->; apply dotdot_step|].
    eapply Forall_impl; [|exact Hvb]. apply valid_step. }
  split; [|split; [|split; [assumption|]]].
  - destruct (repeat dotdot (length a) ++ b) eqn:E; [reflexivity | rewrite <- E in *; apply comps_join_names; assumption].
  - destruct (repeat dotdot (length a) ++ b) eqn:E; [reflexivity | rewrite <- E in *; apply is_abs_join_names; assumption].
  - rewrite Ea, <- (rev_length a), skipn_app, skipn_all, Nat.sub_diag. cbn [app skipn]. symmetry. exact Eb.
Qed.
Lemma wf_valid f : fs_wf f -> (forall x p, look f (x :: p) <> None -> valid_name x) -> forall p, look f p <> None -> Forall valid_name p.
Proof.
  intros Hw Hv. induction p as [|x p IH]; intros Hp; [constructor|]. constructor; [eapply Hv; exact Hp|]. apply IH. rewrite (Hw x p Hp). discriminate.
Qed.

(** ** Creating directories without failures *)

Lemma run_queryL {A} (g : fs -> A) f : run (query g) [] f = (Done (g f), [], f).
Proof. reflexivity. Qed.
Lemma run_bind0 {A B} (p : prog A) (k : A -> prog B) f a f' : run p [] f = (Done a, [], f') -> run (bind p k) [] f = run (k a) [] f'.
Proof. intros E. rewrite run_bind, E. reflexivity. Qed.
Lemma dirs_to_snoc f start cs c : dirs_to f start cs -> look f (rev cs ++ start) = Some NDir -> dirs_to f start (cs ++ [c]).
Proof.
  intros H Hd a b E Ha Hb. destruct (exists_last Hb) as (b' & y & ->). rewrite app_assoc in E. apply app_inj_tail in E as [-> ->].
  destruct b' as [|z b']; [rewrite app_nil_r in *; exact Hd|]. eapply H; [reflexivity | exact Ha | discriminate].
Qed.
Lemma mkdir_ok_total start r f : nolink f (r ++ start) -> ~ In dotdot r -> dirs_to f start (rev r) -> look f (r ++ start) = None \/ look f (r ++ start) = Some NDir ->
  exists f', run (mkdir_ok (start, rev r)) [] f = (Done tt, [], f').
Proof.
  intros Hn Hd Hdt Hx. assert (Hd' : ~ In dotdot (rev r)) by (rewrite <- in_rev; exact Hd).
  assert (Ea : forall fo, at_loc f fo (start, rev r) = Ok (r ++ start)) by (intros fo; apply at_loc_plain; [rewrite rev_involutive; exact Hn | exact Hd' | rewrite rev_involutive; auto]).
  unfold mkdir_ok. rewrite run_catch. unfold sys, sys_part. cbn [run]. unfold create_at. rewrite Ea. cbn [rbind]. destruct Hx as [Hx|Hx]; rewrite Hx.
  - cbn [run]. eexists. reflexivity.
  - cbn [run is_oserror]. rewrite run_bind, run_queryL. unfold loc_isdir. rewrite Ea. cbn [node_of]. rewrite Hx. cbn [run]. eauto.
Qed.
Lemma makedirs_r_total start : forall r f, look f start = Some NDir -> fs_wf f -> nolink f (r ++ start) -> ~ In dotdot r ->
  (forall q, below (r ++ start) q -> look f q = None \/ look f q = Some NDir) -> exists f', run (makedirs_r start r) [] f = (Done tt, [], f').
Proof.
  induction r as [|x r IH]; intros f Hs Hw Hn Hd Hx.
  - cbn [makedirs_r]. erewrite run_bind0 by reflexivity. apply (mkdir_ok_total start []); [exact Hn | exact Hd | | apply Hx, below_refl].
    intros [|] ? E; [congruence | discriminate].
  - assert (Hd' : ~ In dotdot r) by (intros Hi; apply Hd; right; exact Hi).
    assert (Hb : forall q, below (r ++ start) q -> below ((x :: r) ++ start) q) by (intros q [m E]; exists (x :: m); cbn [app]; f_equal; exact E).
    assert (Hn' : nolink f (r ++ start)) by (intros q t Hq; apply Hn, Hb, Hq).
    assert (G : forall f1, adds_dirs (r ++ start) f f1 -> dirs_to f1 start (rev r) -> look f1 (r ++ start) = Some NDir -> exists f', run (mkdir_ok (start, rev (x :: r))) [] f1 = (Done tt, [], f')).
    { intros f1 HA Hdt Hl. apply (mkdir_ok_total start (x :: r)).
      - eapply adds_dirs_nolink; [exact HA | exact Hn].
      - exact Hd.
      - cbn [rev]. apply dirs_to_snoc; [exact Hdt | rewrite rev_involutive; exact Hl].
      - destruct (HA ((x :: r) ++ start)) as [E|(_ & E & _)]; [rewrite E; apply Hx, below_refl | right; exact E]. }
    destruct r as [|y r].
    + cbn [makedirs_r]. erewrite run_bind0 by reflexivity. apply G; [apply adds_dirs_refl | | exact Hs]. intros [|] ? E; [congruence | discriminate].
    + remember (y :: r) as r1. change (makedirs_r start (x :: r1)) with
        (let~ _ := match r1 with [] => Ret tt | _ :: _ => let~ e := query (loc_exists (start, rev r1)) in
            if e : bool then Ret tt else catch (makedirs_r start r1) (fun x => match x with OSError EEXIST => Ret tt | _ => Rai x end) end in mkdir_ok (start, rev (x :: r1))).
      replace (match r1 with [] => Ret tt | _ :: _ => let~ e := query (loc_exists (start, rev r1)) in
            if e : bool then Ret tt else catch (makedirs_r start r1) (fun x => match x with OSError EEXIST => Ret tt | _ => Rai x end) end) with
        (let~ e := query (loc_exists (start, rev r1)) in
            if e : bool then Ret tt else catch (makedirs_r start r1) (fun x => match x with OSError EEXIST => Ret tt | _ => Rai x end)) by (rewrite Heqr1; reflexivity).
      assert (Hd2 : ~ In dotdot (rev r1)) by (rewrite <- in_rev; exact Hd').
      destruct (loc_exists (start, rev r1) f) eqn:Ee.
      * pose proof Ee as Ee'. unfold loc_exists in Ee. destruct (at_loc f true (start, rev r1)) as [p|] eqn:Ep; cbn [node_of] in Ee; [|discriminate].
        apply at_loc_plain in Ep as [-> Hdt]; [|rewrite rev_involutive; exact Hn' | exact Hd2]. rewrite rev_involutive in Ee.
        assert (Hl : look f (r1 ++ start) = Some NDir) by (destruct (Hx (r1 ++ start) (Hb _ (below_refl _))) as [E|E]; [rewrite E in Ee; discriminate | exact E]).
        rewrite run_bind, (run_bind0 _ _ _ _ _ (run_queryL _ f)), Ee'.
        cbn [run]. apply G; [apply adds_dirs_refl | exact Hdt | exact Hl].
      * destruct (IH f Hs Hw Hn' Hd' (fun q Hq => Hx q (Hb q Hq))) as [f1 E1].
        rewrite run_bind, (run_bind0 _ _ _ _ _ (run_queryL _ f)), Ee, run_catch, E1.
        pose proof E1 as E2. apply makedirs_done in E2 as [Hdt Hl]; [|exact Hn' | exact Hd'].
        eapply (safe_run _ _ (adds_dirs_refl _) (adds_dirs_trans _)) in E1 as (HA & _ & _); [|apply (makedirs_safe start (r1 ++ start)); [apply below_refl | exact Hd'] | exact Hn'].
        apply G; assumption.
Qed.
Lemma makedirs_total cwd s f : s <> [] -> look f cwd = Some NDir -> fs_wf f -> nolink f (target cwd s) -> ~ In dotdot (comps s) ->
  (forall q, below (target cwd s) q -> look f q = None \/ look f q = Some NDir) -> exists f', run (makedirs cwd s) [] f = (Done tt, [], f').
Proof.
  intros Hs Hc Hw Hn Hd Hx. unfold makedirs. destruct s as [|c s]; [congruence|]. apply makedirs_r_total; try assumption.
  - cbn [fst loc_of]. destruct (is_abs (c :: s)); [reflexivity | exact Hc].
  - rewrite <- in_rev. exact Hd.
Qed.

Section Links.
  Variable cwd : path.
  Variable output src : str.
  Variable links : list str.
  Notation dst l := (path_join output l).
  Notation at_ l := (link_at cwd output l).
  Notation J := (links_ready cwd output links).
  Notation Rs := (links_added cwd output).
  Notation R := (Rs links).

  Lemma added_refl ls f : Rs ls f f.
  Proof. intros q. left. reflexivity. Qed.
  Lemma added_trans ls a b c : Rs ls a b -> Rs ls b c -> Rs ls a c.
  Proof.
    intros H1 H2 q. destruct (H2 q) as [E2|(E2 & l & Hl & H)].
    - destruct (H1 q) as [E1|(E1 & l & Hl & H)]; [left; congruence|]. right. rewrite E2. split; [exact E1|]. exists l. auto.
    - destruct (H1 q) as [E1|(E1 & l' & Hl' & H')].
      + right. split; [congruence|]. exists l. auto.
      + exfalso. destruct H' as [[_ E]|[_ [t E]]]; congruence.
  Qed.
  Lemma added_keeps ls f f' : Rs ls f f' -> keeps f f'.
  Proof. intros H q Hq. destruct (H q) as [E|[E _]]; [exact E | contradiction]. Qed.
  Lemma added_incl ls f f' : incl ls links -> Rs ls f f' -> R f f'.
  Proof. intros Hi H q. destruct (H q) as [E|(E & l & Hl & G)]; [left; exact E|]. right. split; [exact E|]. exists l. split; [apply Hi, Hl | exact G]. Qed.

  Section One.
    Variable l : str.
    Hypothesis Hl : In l links.

    Lemma J_plain f : J f -> plain_path (dst l).
    Proof. intros (_ & _ & _ & H & _). apply (H l Hl). Qed.
    Lemma at_eq f : J f -> at_ l = basename (dst l) :: target cwd (dirname (dst l)).
    Proof. intros H. apply target_dirname. eapply J_plain. exact H. Qed.
    Lemma at_tl f : J f -> tl (at_ l) = target cwd (dirname (dst l)).
    Proof. intros H. rewrite (at_eq f H). reflexivity. Qed.
    Lemma J_nolink f : J f -> nolink f (target cwd (dirname (dst l))).
    Proof. intros H. rewrite <- (at_tl f H). destruct H as (_ & _ & _ & H & _). apply (H l Hl). Qed.
    Lemma J_dinv f : J f -> dinv cwd (target cwd (dirname (dst l))) f.
    Proof. intros H. split; [apply J_nolink; exact H|]. destruct H as (H1 & H2 & _). auto. Qed.
    Lemma J_cwd f : J f -> Forall valid_name cwd.
    Proof. intros (_ & _ & H3 & _). exact H3. Qed.
    Lemma J_at_valid f : J f -> Forall valid_name (at_ l).
    Proof. intros H. apply target_valid; [apply (J_plain f H) | eapply J_cwd; exact H]. Qed.
    Lemma J_step f f' : J f -> R f f' -> fs_wf f' -> J f'.
    Proof.
      intros HJ HR Hw. pose proof (added_keeps _ _ _ HR) as HK. pose proof HJ as (H1 & H2 & H3 & H4 & H5). split; [exact Hw|]. split; [rewrite HK; congruence|]. split; [exact H3|]. split; [|exact H5].
      intros l' Hl'. split; [apply (H4 l' Hl')|]. intros q t Hb E. destruct (HR q) as [E'|(E' & l2 & Hl2 & [[_ H]|[-> _]])].
        + apply (proj2 (H4 l' Hl') q t Hb). congruence.
        + congruence.
        + apply (proj1 (H5 l' l2 Hl' Hl2)). destruct Hb as [m Em]. destruct (at_ l') as [|x r] eqn:Ea; [exfalso; eapply target_nonempty; [apply (H4 l' Hl') | exact Ea]|].
          cbn [tl] in Em. exists x, m. f_equal. exact Em.
    Qed.
    Lemma one_R f f' : Rs [l] f f' -> R f f'.
    Proof. apply added_incl. intros x [<-|[]]. exact Hl. Qed.
    Lemma adds_added f f' : J f -> adds_dirs (target cwd (dirname (dst l))) f f' -> Rs [l] f f'.
    Proof.
      intros HJ H q. destruct (H q) as [E|(E & E' & B)]; [left; exact E|]. right. split; [exact E|]. exists l. split; [left; reflexivity|]. left. split; [|exact E'].
      rewrite (at_eq f HJ). destruct B as [m ->]. exists (basename (dst l)), m. reflexivity.
    Qed.
    Lemma dirs_safe : safe J (Rs [l]) (fun _ => True) (makedirs cwd (dirname (dst l))).
    Proof.
      assert (Hdd : (exists f, J f) -> ~ In dotdot (comps (dirname (dst l)))).
      { intros [f Hf]. apply dirname_dotdot. eapply J_plain. exact Hf. }
      destruct (makedirs cwd (dirname (dst l))) as [a|e|eff k] eqn:Em; [exact Logic.I | exact Logic.I|].
      intros f Hf. specialize (Hdd (ex_intro _ f Hf)). pose proof (makedirs_dinv cwd (dirname (dst l)) Hdd) as Hs. 
      assert (Hs' : safe J (Rs [l]) (fun _ => True) (makedirs cwd (dirname (dst l)))).
      { clear - Hs Hl. revert Hs. generalize (makedirs cwd (dirname (dst l))). induction p as [a|e|eff k IH]; [auto | auto|]. intros H f Hf.
        destruct (H f (J_dinv f Hf)) as [Ha Hb]. split; [|intros o; apply IH; apply Hb]. intros o. destruct (Ha o) as [G1 G2].
        assert (G : Rs [l] f (eff o f)) by (apply adds_added; assumption). split; [exact G|]. eapply J_step; [exact Hf | apply one_R, G | apply G2]. }
      rewrite Em in Hs'. exact (Hs' f Hf).
    Qed.
    Lemma link_safe t : safe J (Rs [l]) (fun _ => True) (symlink cwd t (dst l)).
    Proof.
      apply safe_sys; [apply added_refl|]. intros f a f' HJ E.
      assert (Hp := J_plain f HJ). assert (E' : create_at (NLink t) (loc_of cwd (dst l)) f = Ok (a, f')) by (destruct (dst l); [discriminate | exact E]). clear E.
      pose proof E' as Ewf. unfold loc_of in Ewf. apply create_wf in Ewf as [[Hw' _] _]; [|split; [apply HJ | destruct (is_abs (dst l)); [reflexivity | apply HJ]]].
      unfold create_at in E'. apply rbind_Ok in E' as (p & Ep & E). apply (PatcherLinkProofs.at_out cwd (dst l) Hp) in Ep as [-> _]; [|apply J_nolink; exact HJ].
      destruct (look f (target cwd (dst l))) eqn:El; [discriminate|].
      pose proof (f_equal (fun x => match x with Ok (_, y) => y | Err _ => f' end) E) as E2. cbn in E2. subst f'.
      assert (HR : Rs [l] f (put (at_ l) (NLink t) f)).
      { intros q. destruct (eqbP q (at_ l)) as [->|Hq]; [|left; apply look_put_other; exact Hq]. right. split; [exact El|]. exists l. split; [left; reflexivity|]. right.
        split; [reflexivity|]. exists t. apply look_put_same. eapply look_none. exact El. }
      split; [exact HR|]. split; [|exact Logic.I]. eapply J_step; [exact HJ | apply one_R, HR | exact Hw'].
    Qed.
    Lemma create_link_safe : safe J (Rs [l]) (fun _ => True) (create_link cwd output src l).
    Proof.
      unfold create_link. eapply (safe_bind _ _ (fun _ => True)); [apply safe_query; [apply added_refl | auto]|]. intros [|] _.
      - eapply (safe_bind _ _ (fun _ => True)); [apply safe_query; [apply added_refl | auto]|]. intros [|] _; exact Logic.I.
      - eapply (safe_bind _ _ (fun _ => True)); [apply dirs_safe|]. intros _ _.
        eapply (safe_bind _ _ (fun _ => True)); [apply safe_query; [apply added_refl | auto]|]. intros s _.
        eapply (safe_bind _ _ (fun _ => True)); [apply safe_query; [apply added_refl | auto]|]. intros d _.
        apply safe_catch; [apply link_safe|]. intros e. destruct e as [| | | | | | | | | | | |[]| | | |]; exact Logic.I.
    Qed.

    (** What the tests say. *)
    Lemma locate_dst f p : J f -> locate cwd f false (dst l) = Ok p -> p = at_ l.
    Proof.
      intros HJ E. apply (locate_out cwd (dst l) (J_plain f HJ)) in E as [-> _]; [reflexivity | apply J_nolink; exact HJ].
    Qed.
    Lemma locate_there f : J f -> look f (at_ l) <> None -> locate cwd f false (dst l) = Ok (at_ l).
    Proof.
      intros HJ Hx. apply (locate_out cwd (dst l) (J_plain f HJ)); [apply J_nolink; exact HJ|]. split; [reflexivity|]. apply wf_dirs_to; [apply HJ | exact Hx].
    Qed.
    Lemma lexists_iff f : J f -> f_lexists cwd (dst l) f = true <-> look f (at_ l) <> None.
    Proof.
      intros HJ. unfold f_lexists. split.
      - destruct (locate cwd f false (dst l)) as [p|] eqn:E; cbn [node_of]; [|discriminate]. apply locate_dst in E as ->; [|exact HJ]. destruct (look f (at_ l)); congruence.
      - intros Hx. rewrite locate_there by assumption. cbn [node_of]. destruct (look f (at_ l)); congruence.
    Qed.
    Lemma islink_iff f : J f -> look f (at_ l) <> None -> f_islink cwd (dst l) f = true <-> is_link f (at_ l).
    Proof.
      intros HJ Hx. unfold f_islink. rewrite locate_there by assumption. cbn [node_of]. unfold is_link. destruct (look f (at_ l)) as [[| |t]|]; split; try discriminate; try (intros [t' E]; discriminate); eauto.
    Qed.

    (** A link that is already there, or a file in the way. *)
    Lemma create_link_there f : J f -> is_link f (at_ l) -> run (create_link cwd output src l) [] f = (Done tt, [], f).
    Proof.
      intros HJ Hk. assert (Hx : look f (at_ l) <> None) by (destruct Hk as [t E]; congruence).
      unfold create_link, lexists, islink. rewrite (run_bind0 _ _ _ _ _ (run_queryL _ f)). rewrite (proj2 (lexists_iff f HJ) Hx).
      rewrite (run_bind0 _ _ _ _ _ (run_queryL _ f)). rewrite (proj2 (islink_iff f HJ Hx) Hk). reflexivity.
    Qed.
    Lemma create_link_occupied f : J f -> occupied cwd output l f -> run (create_link cwd output src l) [] f = (Raised RuntimeError, [], f).
    Proof.
      intros HJ (n & En & Hn). assert (Hx : look f (at_ l) <> None) by congruence.
      unfold create_link, lexists, islink. rewrite (run_bind0 _ _ _ _ _ (run_queryL _ f)). rewrite (proj2 (lexists_iff f HJ) Hx).
      rewrite (run_bind0 _ _ _ _ _ (run_queryL _ f)). destruct (f_islink cwd (dst l) f) eqn:E; [|reflexivity].
      apply (islink_iff f HJ Hx) in E as [t E]. exfalso. apply (Hn t). congruence.
    Qed.
    (** A new link. *)
    Lemma create_link_new f : J f -> look f (at_ l) = None ->
      (exists e f', run (create_link cwd output src l) [] f = (Raised e, [], f') /\ lookup_error e /\ ~ reachable cwd output l f)
      \/ exists f1 f', run (makedirs cwd (dirname (dst l))) [] f = (Done tt, [], f1) /\ run (create_link cwd output src l) [] f = (Done tt, [], f')
         /\ J f1 /\ Rs [l] f f1 /\ look f1 (at_ l) = None /\ look f1 (target cwd (dirname (dst l))) = Some NDir
         /\ f' = put (at_ l) (NLink (relpath cwd (realpath cwd f1 (path_join src l)) (realpath cwd f1 (dirname (dst l))))) f1.
    Proof.
      intros HJ Hx. assert (Hp := J_plain f HJ). unfold create_link, lexists, islink. rewrite (run_bind0 _ _ _ _ _ (run_queryL _ f)).
      replace (f_lexists cwd (dst l) f) with false by (symmetry; apply not_true_is_false; intros E; apply (lexists_iff f HJ) in E; congruence).
      rewrite run_bind. destruct (run_nil_plan (makedirs cwd (dirname (dst l))) f) as (o & f1 & E1). rewrite E1. destruct o as [[]|e|].
      - right. pose proof E1 as E2. apply makedirs_text_done in E2 as [Hdt Hd]; [|apply J_nolink; exact HJ | apply dirname_dotdot; exact Hp].
        pose proof E1 as Es. eapply (safe_run _ _ (adds_dirs_refl _) (adds_dirs_trans _)) in Es as (HA & _ & _); [|apply makedirs_dinv; apply dirname_dotdot; exact Hp | apply J_dinv; exact HJ].
        eapply (safe_run _ _ (added_refl _) (added_trans _)) in E1 as (HR & HJ1 & _); [|apply dirs_safe | exact HJ].
        assert (Hx1 : look f1 (at_ l) = None).
        { destruct (HA (at_ l)) as [E|(_ & _ & [m E])]; [congruence|]. exfalso. apply (f_equal (@length _)) in E. rewrite (at_eq f HJ), app_length in E. cbn [length] in E. lia. }
        eexists f1, _. split; [reflexivity|]. split; [|split; [exact HJ1|]; split; [exact HR|]; split; [exact Hx1|]; split; [exact Hd | reflexivity]].
        rewrite (run_bind0 _ _ _ _ _ (run_queryL _ f1)), (run_bind0 _ _ _ _ _ (run_queryL _ f1)), run_catch.
        match goal with |- context [symlink cwd ?t0 _] => set (t := t0) end.
        assert (Ec : create_at (NLink t) (loc_of cwd (dst l)) f1 = Ok (tt, put (at_ l) (NLink t) f1)).
        { unfold create_at. replace (at_loc f1 false (loc_of cwd (dst l))) with (@Ok path (at_ l)).
          - cbn [rbind]. rewrite Hx1. reflexivity.
          - symmetry. apply (PatcherLinkProofs.at_out cwd (dst l) Hp); [apply J_nolink; exact HJ1|]. split; [reflexivity|].
            intros a b E Ha Hb. rewrite (plain_path_comps _ Hp) in E. destruct (exists_last Hb) as (b' & y & ->). rewrite app_assoc in E. apply app_inj_tail in E as [E _].
            rewrite is_abs_dirname in Hdt by apply Hp. destruct b' as [|z b'].
            + rewrite app_nil_r in E. rewrite <- E. unfold target in Hd. rewrite is_abs_dirname in Hd by apply Hp. exact Hd.
            + eapply Hdt; [exact E | exact Ha | discriminate]. }
        unfold symlink, sys, sys_part. pose proof (plain_nonempty _ Hp) as Hne. destruct (dst l) as [|c s] eqn:Eds; [congruence|]. cbn [run]. rewrite Ec. reflexivity.
      - left. exists e, f1. split; [reflexivity|]. split; [eapply natural_run; [apply natural_makedirs | | exact E1]; reflexivity|].
        intros Hr. destruct (makedirs_total cwd (dirname (dst l)) f) as [f2 E2]; [apply Hp | apply HJ | apply HJ | exact (J_nolink f HJ) | apply dirname_dotdot; exact Hp | | congruence].
        intros q [m Em]. apply Hr. rewrite (at_eq f HJ). exists (basename (dst l)), m. f_equal. exact Em.
      - exfalso. eapply run_nil_nocrash. exact E1.
    Qed.
    (** Where it leads. *)
    Lemma new_link_leads f1 p : J f1 -> look f1 (at_ l) = None -> look f1 (target cwd (dirname (dst l))) = Some NDir ->
      locate cwd f1 true (path_join src l) = Ok p -> look f1 p <> None -> Forall valid_name p ->
      let f' := put (at_ l) (NLink (relpath cwd (realpath cwd f1 (path_join src l)) (realpath cwd f1 (dirname (dst l))))) f1 in
      direct f' (at_ l) p.
    Proof.
      intros HJ Hx Hd Ep Hpx Vp. cbv zeta. assert (Hp := J_plain f1 HJ). rewrite (realpath_locate _ _ _ _ Ep), realpath_plain by (try (apply J_nolink; exact HJ); apply dirname_dotdot; exact Hp).
      set (d := target cwd (dirname (dst l))) in *. pose proof HJ as (Hw & Hc & Hv & _).
      assert (Vd : Forall valid_name d) by (apply target_valid; [apply dirname_dotdot; exact Hp | exact Hv]).
      destruct (relpath_leads cwd p d Vp Vd) as (n & rest & E1 & E2 & Vr & E3). set (t := relpath cwd (abs_text p) (abs_text d)) in *.
      set (f' := put (at_ l) (NLink t) f1).
      assert (HK : keeps f1 f') by (apply keeps_put; exact Hx).
      assert (Hne : at_ l <> []) by (eapply look_none; exact Hx).
      assert (Hl' : look f' (at_ l) = Some (NLink t)) by (apply look_put_same; exact Hne).
      assert (Hw' : fs_wf f').
      { apply wf_put; [assumption | exact Hne | rewrite (at_tl f1 HJ); exact Hd | congruence]. }
      assert (Hn' : nolink f' p).
      { intros q x [m Em] E. destruct m as [|y m]; cbn [app] in Em.
        - subst q. rewrite HK in E by exact Hpx.
          assert (Er : resolve max_links f1 true (if is_abs (path_join src l) then [] else cwd) (comps (path_join src l)) = Ok p) by (destruct (path_join src l); [discriminate | exact Ep]).
          eapply (resolve_not_link f1 Hw) in Er; [exact (Er E) | destruct (is_abs (path_join src l)); [reflexivity | exact Hc]].
        - assert (Eq : look f1 q = Some NDir) by (apply (wf_parents f1 (y :: m)); [assumption | cbn [app]; rewrite <- Em; exact Hpx | discriminate]).
          rewrite HK in E by congruence. congruence. }
      exists t. split; [exact Hl'|]. split; [exact E2|]. intros k. rewrite (at_tl f1 HJ). change (target cwd (dirname (dst l))) with d. rewrite E1, resolve_ups, <- E3. apply resolve_plain.
      - rewrite E3. exact Hn'.
      - intros Hi. rewrite Forall_forall in Vr. apply Vr in Hi as (_ & _ & Hi & _). congruence.
      - split; [reflexivity|]. apply wf_dirs_to; [exact Hw'|]. rewrite E3, HK; exact Hpx.
    Qed.
    Lemma direct_keeps f f' a p : keeps f f' -> look f p <> None -> direct f a p -> direct f' a p.
    Proof.
      intros HK Hp (t & Ht & Ha & Hk). exists t. split; [rewrite HK; congruence|]. split; [exact Ha|]. intros k. eapply resolve_keeps; [exact HK | apply Hk | exact Hp].
    Qed.
    (** What is below such a link. *)
    Lemma direct_resolve k f p rest : J f -> direct f (at_ l) p ->
      exists t, (forall k, resolve k f true (tl (at_ l)) (comps t) = Ok p)
      /\ resolve (S k) f true (if is_abs (dst l) then [] else cwd) (comps (dst l) ++ rest) = resolve k f true (tl (at_ l)) (comps t ++ rest).
    Proof.
      intros HJ (t & Hl' & Ha & Hk). exists t. split; [exact Hk|]. assert (Hp := J_plain f HJ).
      assert (Ed : tl (at_ l) = rev (comps (dirname (dst l))) ++ (if is_abs (dst l) then [] else cwd)) by (rewrite (at_tl f HJ); unfold target; rewrite is_abs_dirname by apply Hp; reflexivity).
      assert (Hl2 : look f (basename (dst l) :: rev (comps (dirname (dst l))) ++ (if is_abs (dst l) then [] else cwd)) = Some (NLink t)).
      { rewrite <- Hl', <- Ed. f_equal. rewrite (at_eq f HJ). reflexivity. }
      rewrite Ed, (plain_path_comps _ Hp), <- app_assoc. cbn [app].
      rewrite resolve_dirs; [| | apply dirname_dotdot; exact Hp].
      - rewrite resolve_cons. replace (eqb (basename (dst l)) dotdot) with false by (symmetry; apply eqbF; intros E; destruct Hp as [Hdd _]; apply Hdd; rewrite plain_path_comps by (eapply J_plain; exact HJ); rewrite E; apply in_or_app; right; left; reflexivity).
        match goal with |- context [look f ?x] => replace (look f x) with (Some (NLink t)) by (symmetry; exact Hl2) end. rewrite Ha. destruct rest; reflexivity.
      - apply (dirs_prefix _ _ _ (basename (dst l))). rewrite <- plain_path_comps by assumption. apply wf_dirs_to; [apply HJ|]. change (look f (at_ l) <> None). rewrite Hl'. discriminate.
    Qed.
    Lemma direct_locate f p : J f -> direct f (at_ l) p -> locate cwd f true (dst l) = Ok p.
    Proof.
      intros HJ HD. assert (Hp := J_plain f HJ). assert (El : locate cwd f true (dst l) = at_loc f true (loc_of cwd (dst l))) by (pose proof (plain_nonempty _ Hp); unfold locate; destruct (dst l); [congruence | reflexivity]).
      rewrite El. unfold at_loc, loc_of. cbn [fst snd]. change max_links with (S 39). destruct (direct_resolve 39 f p [] HJ HD) as (t & Hk & E).
      rewrite !app_nil_r in E. etransitivity; [exact E | apply Hk].
    Qed.
  End One.

  Lemma occupied_back f f1 l : In l links -> J f -> R f f1 -> occupied cwd output l f1 -> occupied cwd output l f.
  Proof.
    intros Hl HJ HR (n & En & Hn). destruct (HR (at_ l)) as [E|(E & l2 & Hl2 & [[Hb _]|[_ [t Et]]])].
    - exists n. split; [congruence | exact Hn].
    - exfalso. destruct HJ as (_ & _ & _ & _ & H5). exact (proj1 (H5 l2 l Hl2 Hl) Hb).
    - exfalso. apply (Hn t). congruence.
  Qed.
  Lemma reachable_on f f1 l : In l links -> J f -> R f f1 -> reachable cwd output l f -> reachable cwd output l f1.
  Proof.
    intros Hl HJ HR Hr q Hq. destruct (HR q) as [E|(E & l2 & Hl2 & [[_ Eq]|[-> _]])].
    - rewrite E. apply Hr. exact Hq.
    - right. exact Eq.
    - exfalso. destruct HJ as (_ & _ & _ & _ & H5). exact (proj1 (H5 l l2 Hl Hl2) Hq).
  Qed.
  Lemma all_safe : safe J R (fun _ => True) (for_each links (create_link cwd output src)).
  Proof. apply (safe_for_each J R). intros l Hl. eapply safe_conseq; [|apply create_link_safe; exact Hl]. intros f f' _. apply one_R. exact Hl. Qed.
  Definition set_up (f f' : fs) (l : str) : Prop :=
    is_link f' (at_ l) /\ (look f (at_ l) = None -> forall p, locate cwd f true (path_join src l) = Ok p -> look f p <> None -> Forall valid_name p -> direct f' (at_ l) p).
  Lemma all_run : forall ls f o f', incl ls links -> J f -> run (for_each ls (create_link cwd output src)) [] f = (o, [], f') ->
    R f f' /\ (o = Done tt /\ (forall l, In l ls -> set_up f f' l)
    \/ o = Raised RuntimeError /\ (exists l, In l ls /\ occupied cwd output l f)
    \/ exists e, o = Raised e /\ lookup_error e /\ exists l, In l ls /\ ~ reachable cwd output l f).
  Proof.
    induction ls as [|l ls IH]; intros f o f' Hi HJ E.
    - cbn [for_each run] in E. injection E as <- <-. split; [apply added_refl|]. left. split; [reflexivity|]. intros l [].
    - assert (Hl : In l links) by (apply Hi; left; reflexivity). assert (Hi' : incl ls links) by (intros x Hx; apply Hi; right; exact Hx).
      cbn [for_each] in E.
      assert (G : forall f1, Rs [l] f f1 -> J f1 -> set_up f f1 l -> run (create_link cwd output src l) [] f = (Done tt, [], f1) ->
        R f f' /\ (o = Done tt /\ (forall x, In x (l :: ls) -> set_up f f' x)
        \/ o = Raised RuntimeError /\ (exists x, In x (l :: ls) /\ occupied cwd output x f)
        \/ exists e, o = Raised e /\ lookup_error e /\ exists x, In x (l :: ls) /\ ~ reachable cwd output x f)).
      { intros f1 HRl HJ1 Hset E1. pose proof (one_R l Hl _ _ HRl) as HR. rewrite (run_bind0 _ _ _ _ _ E1) in E. apply IH in E as [HR1 H]; [|exact Hi' | exact HJ1].
        split; [eapply added_trans; eassumption|]. pose proof (added_keeps _ _ _ HR1) as HK1.
        assert (Hset' : set_up f f' l).
        { destruct Hset as [[t Et] Hset]. split; [exists t; rewrite HK1; congruence|]. intros Hn p Ep Hp Vp. eapply direct_keeps; [exact HK1 | | apply Hset; assumption].
          rewrite (added_keeps _ _ _ HR) by exact Hp. exact Hp. }
        destruct H as [[-> H]|[[-> (x & Hx & H)]|(e & -> & He & x & Hx & H)]].
        - left. split; [reflexivity|]. intros x [<-|Hx]; [exact Hset'|].
          destruct (H x Hx) as [Hk Hw]. split; [exact Hk|]. intros Hn p Ep Hp Vp.
          assert (Hp1 : look f1 p <> None) by (rewrite (added_keeps _ _ _ HR) by exact Hp; exact Hp).
          destruct (HRl (at_ x)) as [Ex|(_ & l2 & [<-|[]] & Hc)].
          + apply Hw; [congruence | eapply locate_keeps; [exact (added_keeps _ _ _ HR) | exact Ep | exact Hp] | exact Hp1 | exact Vp].
          + destruct HJ as (_ & _ & _ & _ & H5). destruct Hc as [[Hb _]|[Ex _]]; [exfalso; exact (proj1 (H5 l x Hl (Hi' x Hx)) Hb)|].
            apply (H5 x l (Hi' x Hx) Hl) in Ex. subst x. apply Hset'; assumption.
        - right. left. split; [reflexivity|]. exists x. split; [right; exact Hx|]. eapply occupied_back; [apply Hi', Hx | exact HJ | exact HR | exact H].
        - right. right. exists e. split; [reflexivity|]. split; [exact He|]. exists x. split; [right; exact Hx|]. intros Hr. apply H. eapply reachable_on; [apply Hi', Hx | exact HJ | exact HR | exact Hr]. }
      destruct (look f (at_ l)) as [n|] eqn:En.
      + assert (Hn : is_link f (at_ l) \/ occupied cwd output l f).
        { destruct n as [b| |t]; [right; exists (NFile b) | right; exists NDir | left; exists t; exact En]; (split; [exact En | discriminate]). }
        destruct Hn as [Hn|Hn].
        * apply (G f); [apply added_refl | exact HJ | split; [exact Hn | congruence] | apply create_link_there; assumption].
        * rewrite run_bind, (create_link_occupied l Hl f HJ Hn) in E. injection E as <- <-. split; [apply added_refl|]. right. left. split; [reflexivity|]. exists l. split; [left; reflexivity | exact Hn].
      + destruct (create_link_new l Hl f HJ En) as [(e & f1 & E1 & He & Hr)|(f1 & f2 & _ & E2 & HJ1 & HR1 & Hx1 & Hd1 & Ef)].
        * rewrite run_bind, E1 in E. injection E as <- <-.
          eapply (safe_run _ _ (added_refl _) (added_trans _)) in E1 as (HR & _ & _); [|apply create_link_safe; exact Hl | exact HJ].
          split; [apply (one_R l Hl), HR|]. right. right. exists e. split; [reflexivity|]. split; [exact He|]. exists l. split; [left; reflexivity | exact Hr].
        * pose proof E2 as E3. eapply (safe_run _ _ (added_refl _) (added_trans _)) in E3 as (HR2 & HJ2 & _); [|apply create_link_safe; exact Hl | exact HJ].
          apply (G f2); [exact HR2 | exact HJ2 | | exact E2]. subst f2. split; [eexists; apply look_put_same; eapply look_none; exact Hx1|].
          intros _ p Ep Hp Vp. apply new_link_leads; [exact Hl | exact HJ1 | exact Hx1 | exact Hd1 | | | exact Vp].
          -- eapply locate_keeps; [exact (added_keeps _ _ _ HR1) | exact Ep | exact Hp].
          -- rewrite (added_keeps _ _ _ HR1) by exact Hp. exact Hp.
  Qed.

  (** Any failures. *)
  Lemma done_bind {A B} (p : prog A) (k : A -> prog B) pl f b pl' f' : run (bind p k) pl f = (Done b, pl', f') ->
    exists a pl1 f1, run p pl f = (Done a, pl1, f1) /\ run (k a) pl1 f1 = (Done b, pl', f').
  Proof. rewrite run_bind. destruct (run p pl f) as [[[a|e|] pl1] f1]; [eauto 6 | discriminate | discriminate]. Qed.
  Lemma refused_on {A} (p : prog A) pl f o pl' f' : run p pl f = (o, pl', f') -> text_refused pl' -> text_refused pl.
  Proof. intros E (e & n & H & He). apply run_consumes in E as [u ->]. exists e, n. split; [apply in_or_app; right; exact H | exact He]. Qed.
  Lemma create_link_any l pl f pl' f' : In l links -> J f -> run (create_link cwd output src l) pl f = (Done tt, pl', f') -> is_link f' (at_ l) \/ text_refused pl.
  Proof.
    intros Hl HJ E. unfold create_link in E. apply done_bind in E as (b & pl1 & f1 & E1 & E). apply run_query in E1 as E1'. destruct E1' as [-> ->]. destruct (f_lexists cwd (dst l) f) eqn:Ex.
    - apply done_bind in E as (b & pl2 & f2 & E2 & E). apply run_query in E2 as [-> ->]. destruct (f_islink cwd (dst l) f) eqn:Ek; [|discriminate]. cbn [negb run] in E. injection E as _ <-.
      left. apply (islink_iff l Hl f HJ); [apply (lexists_iff l Hl f HJ); exact Ex | exact Ek].
    - apply done_bind in E as ([] & pl2 & f2 & E2 & E). apply done_bind in E as (s & pl3 & f3 & E3 & E). apply run_query in E3 as E3'. destruct E3' as [-> ->].
      apply done_bind in E as (d & pl4 & f4 & E4 & E). apply run_query in E4 as E4'. destruct E4' as [-> ->].
      pose proof E2 as Es. eapply (safe_run _ _ (added_refl _) (added_trans _)) in Es as (_ & HJ2 & _); [|apply dirs_safe; exact Hl | exact HJ].
      assert (Hp := J_plain l Hl f2 HJ2).
      assert (G : is_link f' (at_ l) \/ text_refused pl4).
      { rewrite run_catch in E. match type of E with context [symlink cwd ?t0 _] => set (t := t0) in E end.
        destruct (run (symlink cwd t (dst l)) pl4 f2) as [[o pl5] f5] eqn:Er. unfold symlink, sys in Er. destruct o as [[]|e|]; [| |discriminate].
        - left. injection E as _ <-. apply run_sys_done in Er. assert (E' : create_at (NLink t) (loc_of cwd (dst l)) f2 = Ok (tt, f5)) by (destruct (dst l); [discriminate | exact Er]).
          unfold create_at in E'. apply rbind_Ok in E' as (p & Ep & E). apply (PatcherLinkProofs.at_out cwd (dst l) Hp) in Ep as [-> _]; [|apply (J_nolink l Hl); exact HJ2].
          destruct (look f2 (target cwd (dst l))) eqn:El; [discriminate|].
          pose proof (f_equal (fun x => match x with Ok (_, y) => y | Err _ => f5 end) E) as E2'. cbn in E2'. subst f5. exists t. apply look_put_same. eapply look_none. exact El.
        - right. assert (He : e = OSError EINVAL \/ e = OSError ENAMETOOLONG) by (destruct e; try discriminate E; match type of E with run (match ?x with _ => _ end) _ _ = _ => destruct x; try discriminate E; auto end).
          assert (N : forall f e, (match dst l with [] => Err (OSError ENOENT) | _ => create_at (NLink t) (loc_of cwd (dst l)) f end) = Err e -> lookup_error e).
          { intros g x. destruct (dst l); [intros H; injection H as <-; exact Logic.I|]. unfold create_at. destruct (at_loc g false _) as [p|y] eqn:Ea; cbn [rbind].
            - destruct (look g p); [intros H; injection H as <-; exact Logic.I | discriminate].
            - intros H. injection H as <-. eapply resolve_err. exact Ea. }
          assert (Hne : ~ lookup_error e) by (destruct He as [-> | ->]; cbn; auto).
          clearbody t. unfold sys_part in Er. destruct pl4 as [|[[e' n|n]|] pl4]; cbn [run] in Er; try discriminate Er.
          + exfalso. specialize (N f2). destruct (match dst l with [] => _ | _ => _ end) as [[? ?]|y]; [discriminate Er|]. injection Er as <- _ _. exact (Hne (N _ eq_refl)).
          + injection Er as <- _ _. exists e', n. split; [left; reflexivity | exact He].
          + exfalso. specialize (N f2). destruct (match dst l with [] => _ | _ => _ end) as [[? ?]|y]; [discriminate Er|]. injection Er as <- _ _. exact (Hne (N _ eq_refl)). }
      destruct G as [G|G]; [left; exact G|]. right. eapply refused_on; [exact E1|]. eapply refused_on; [exact E2|]. eapply refused_on; [exact E3|]. eapply refused_on; [exact E4 | exact G].
  Qed.
  Lemma all_any : forall ls pl f pl' f', incl ls links -> J f -> run (for_each ls (create_link cwd output src)) pl f = (Done tt, pl', f') ->
    forall l, In l ls -> is_link f' (at_ l) \/ text_refused pl.
  Proof.
    induction ls as [|x ls IH]; intros pl f pl' f' Hi HJ E l Hl; [destruct Hl|]. cbn [for_each] in E. apply done_bind in E as ([] & pl1 & f1 & E1 & E).
    assert (Hx : In x links) by (apply Hi; left; reflexivity). assert (Hi' : incl ls links) by (intros y Hy; apply Hi; right; exact Hy).
    pose proof E1 as Es. eapply (safe_run _ _ (added_refl _) (added_trans _)) in Es as (HR & HJ1 & _); [|apply create_link_safe; exact Hx | exact HJ].
    destruct Hl as [<-|Hl].
    - destruct (create_link_any x pl f pl1 f1 Hx HJ E1) as [[t Ht]|H]; [left | right; exact H]. exists t.
      eapply (safe_run _ _ (added_refl _) (added_trans _)) in E as (HR1 & _ & _); [|apply (safe_for_each J R); intros y Hy; eapply safe_conseq; [|apply create_link_safe; apply Hi', Hy]; intros a b _; apply one_R; apply Hi', Hy | exact HJ1].
      rewrite (added_keeps _ _ _ HR1); congruence.
    - destruct (IH pl1 f1 pl' f' Hi' HJ1 E l Hl) as [H|H]; [left; exact H | right; eapply refused_on; [exact E1 | exact H]].
  Qed.
End Links.
