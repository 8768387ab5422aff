(** * Facts about links, relative paths and well-formed filesystems *)

From Verif Require Import Base.Py Base.Text Base.PyFacts Base.TextFacts Base.PathFacts Base.Fs Spec.FsSpec Base.FsFacts Model.Files Proofs.FilesProofs.

(** ** Combining invariants *)

Lemma safe_and {A} (I1 I2 : fs -> Prop) (R1 R2 : fs -> fs -> Prop) (Q1 Q2 : A -> Prop) (p : prog A) :
  safe I1 R1 Q1 p -> safe I2 R2 Q2 p ->
  safe (fun f => I1 f /\ I2 f) (fun f f' => R1 f f' /\ R2 f f') (fun a => Q1 a /\ Q2 a) p.
Proof.
  induction p as [a|e|eff c IH]; cbn [safe]; [auto | auto|]. intros H1 H2 f [Hf1 Hf2].
  destruct (H1 f Hf1) as [A1 B1], (H2 f Hf2) as [A2 B2]. split.
  - intros o. destruct (A1 o), (A2 o). auto.
  - intros o. apply IH; [apply B1 | apply B2].
Qed.
Lemma safe_conseq {A} (I : fs -> Prop) (R R' : fs -> fs -> Prop) (Q : A -> Prop) (p : prog A) :
  (forall f f', I f -> R f f' -> R' f f') -> safe I R Q p -> safe I R' Q p.
Proof.
  intros HR. induction p as [a|e|eff c IH]; cbn [safe]; [auto | auto|]. intros H f Hf.
  destruct (H f Hf) as [H1 H2]. split; [|intros o; apply IH; apply H2]. intros o. destruct (H1 o). auto.
Qed.
(** Change of invariant, when both agree. *)
Lemma safe_iff {A} (I I' : fs -> Prop) R (Q : A -> Prop) (p : prog A) :
  (forall f, I f <-> I' f) -> safe I R Q p -> safe I' R Q p.
Proof.
  intros HI. induction p as [a|e|eff c IH]; cbn [safe]; [auto | auto|]. intros H f Hf.
  destruct (H f (proj2 (HI f) Hf)) as [H1 H2]. split; [|intros o; apply IH; apply H2]. intros o. destruct (H1 o). split; [assumption | apply HI; assumption].
Qed.
(** An invariant that every effect allowed by [R] preserves. *)
Lemma safe_keep {A} (I J : fs -> Prop) (R : fs -> fs -> Prop) (Q : A -> Prop) (p : prog A) :
  (forall f f', I f -> J f -> I f' -> R f f' -> J f') -> safe I R Q p -> safe (fun f => I f /\ J f) R Q p.
Proof.
  intros HJ. induction p as [a|e|eff c IH]; cbn [safe]; [auto | auto|]. intros H f [Hf Hj].
  destruct (H f Hf) as [H1 H2]. split; [|intros o; apply IH; apply H2].
  intros o. destruct (H1 o) as [Ha Hb]. split; [assumption|]. split; [assumption|]. exact (HJ f _ Hf Hj Hb Ha).
Qed.

(** ** Creating nodes *)

Definition keeps (f f' : fs) : Prop := forall q, look f q <> None -> look f' q = look f q.
Lemma keeps_refl f : keeps f f.
Proof. intros q _. reflexivity. Qed.
Lemma keeps_put p n f : look f p = None -> keeps f (put p n f).
Proof. intros H q Hq. apply look_put_other. congruence. Qed.

Definition based (start : path) (f : fs) : Prop := fs_wf f /\ look f start = Some NDir.
Lemma create_wf start cs n f u f' : based start f -> create_at n (start, cs) f = Ok (u, f') -> based start f' /\ keeps f f'.
Proof.
  intros [Hw Hs] E. unfold create_at in E. apply rbind_Ok in E as (p & Ep & E). unfold at_loc in Ep. cbn [fst snd] in Ep.
  destruct (look f p) eqn:El; [discriminate|].
  apply (f_equal (fun x => match x with Ok (_, y) => y | Err _ => f' end)) in E. cbn in E. subst f'.
  apply (resolve_parent f false Hw) in Ep as [Hne Hp]; [|assumption|assumption].
  assert (Hk := keeps_put p n f El). split; [|exact Hk]. split; [|rewrite Hk; congruence].
  apply wf_put; [assumption | assumption | assumption | congruence].
Qed.
Lemma makedirs_r_wf start : forall r, safe (based start) keeps (fun _ => True) (makedirs_r start r).
Proof.
  assert (Hlast : forall r, safe (based start) keeps (fun _ => True) (mkdir_ok (start, rev r))).
  { intros r. apply safe_catch.
    - apply safe_sys; [apply keeps_refl|]. intros f u f' Hi E. destruct (create_wf _ _ _ _ _ _ Hi E). auto.
    - intros e. destruct (is_oserror e); [|exact Logic.I].
      eapply (safe_bind _ _ (fun _ => True)); [apply safe_query; [apply keeps_refl | auto]|]. intros [|] _; exact Logic.I. }
  induction r as [|x r IH]; cbn [makedirs_r]; (eapply (safe_bind _ _ (fun _ => True)); [|intros _ _; apply Hlast]); [exact Logic.I|].
  destruct r as [|y r]; [exact Logic.I|].
  eapply (safe_bind _ _ (fun _ => True)); [apply safe_query; [apply keeps_refl | auto]|].
  intros [|] _; [exact Logic.I|]. apply safe_catch; [exact IH|].
  intros e. destruct e as [| | | | | | | | | | | |[]| | | |]; exact Logic.I.
Qed.

(** A directory that can be reached without links, in a well-formed filesystem. *)
Definition dinv (cwd : path) (d : path) (f : fs) : Prop := nolink f d /\ fs_wf f /\ look f cwd = Some NDir.
Lemma makedirs_dinv cwd s : ~ In dotdot (comps s) ->
  safe (dinv cwd (target cwd s)) (adds_dirs (target cwd s)) (fun _ => True) (makedirs cwd s).
Proof.
  intros Hd. pose proof (makedirs_text_safe cwd s (target cwd s) (below_refl _) Hd) as H1.
  assert (H2 : safe (based (if is_abs s then [] else cwd)) keeps (fun _ => True) (makedirs cwd s)).
  { unfold makedirs. destruct s as [|c s]; [exact Logic.I|]. apply makedirs_r_wf. }
  pose proof (safe_and _ _ _ _ _ _ _ H1 H2) as H.
  eapply (safe_keep _ (fun f => look f cwd = Some NDir)) in H.
  - eapply safe_conseq; [|eapply safe_weaken; [|eapply safe_iff; [|exact H]]].
    + intros f f' _ [HR _]. exact HR.
    + auto.
    + intros f. unfold dinv, based. destruct (is_abs s); tauto.
  - intros f f' _ Hc _ [_ HK]. rewrite HK; congruence.
Qed.

(** ** Resolution through directories, parents and links *)

Lemma resolve_dirs k f fo rest : forall cs cur,
  (forall a b, cs = a ++ b -> a <> [] -> look f (rev a ++ cur) = Some NDir) -> ~ In dotdot cs ->
  resolve k f fo cur (cs ++ rest) = resolve k f fo (rev cs ++ cur) rest.
Proof.
  induction cs as [|c cs IH]; intros cur H Hd; [reflexivity|]. cbn [app rev]. rewrite resolve_cons.
  replace (eqb c dotdot) with false by (symmetry; apply eqbF; intros ->; apply Hd; left; reflexivity).
  pose proof (H [c] cs eq_refl ltac:(discriminate)) as Hc. cbn [rev app] in Hc. rewrite Hc. rewrite IH.
  - rewrite <- app_assoc. reflexivity.
  - intros a b -> Ha. specialize (H (c :: a) b eq_refl ltac:(discriminate)). cbn [rev] in H. rewrite <- app_assoc in H. exact H.
  - intros Hi. apply Hd. right. assumption.
Qed.
Lemma resolve_ups k f fo rest : forall n cur, resolve k f fo cur (repeat dotdot n ++ rest) = resolve k f fo (skipn n cur) rest.
Proof.
  induction n as [|n IH]; intros cur; [reflexivity|]. cbn [repeat app]. rewrite resolve_cons, eqbR, IH. destruct cur; [destruct n; reflexivity | reflexivity].
Qed.
Lemma dirs_prefix f cur cs c : dirs_to f cur (cs ++ [c]) -> forall a b, cs = a ++ b -> a <> [] -> look f (rev a ++ cur) = Some NDir.
Proof.
  intros H a b -> Ha. apply (H a (b ++ [c])); [rewrite app_assoc; reflexivity | assumption|]. intros E. apply app_eq_nil in E as [_ E]. discriminate.
Qed.
(** Without following the last component, which may be a link. *)
Lemma resolve_last k f : forall cs cur c p, nolink f (rev cs ++ cur) -> ~ In dotdot cs -> c <> dotdot ->
  resolve k f false cur (cs ++ [c]) = Ok p <-> p = c :: rev cs ++ cur /\ dirs_to f cur (cs ++ [c]).
Proof.
  induction cs as [|x cs IH]; intros cur c p Hn Hd Hc.
  - cbn [app rev]. rewrite resolve_cons. replace (eqb c dotdot) with false by (symmetry; apply eqbF; assumption).
    assert (G : Ok (c :: cur) = Ok p <-> p = c :: cur /\ dirs_to f cur [c]).
    { split; [intros E; injection E as <-; split; [reflexivity | apply dirs_to_one] | intros [-> _]; reflexivity]. }
    destruct (look f (c :: cur)) as [[b| |t]|]; [exact G | rewrite resolve_nil; exact G | exact G | exact G].
  - cbn [app]. rewrite resolve_cons.
    replace (eqb x dotdot) with false by (symmetry; apply eqbF; intros ->; apply Hd; left; reflexivity).
    cbn [rev] in *. rewrite <- app_assoc in *. cbn [app] in *.
    assert (Hne : cs ++ [c] <> []) by (intros E; apply app_eq_nil in E as [_ E]; discriminate).
    rewrite dirs_to_cons by assumption.
    destruct (look f (x :: cur)) as [[b| |t]|] eqn:E.
    + destruct (cs ++ [c]); [congruence|]. split; [discriminate | intros (_ & E' & _); discriminate].
    + rewrite IH; [tauto | assumption | intros Hi; apply Hd; right; assumption | assumption].
    + exfalso. eapply Hn; [|exact E]. apply below_app.
    + destruct (cs ++ [c]); [congruence|]. split; [discriminate | intros (_ & E' & _); discriminate].
Qed.
Lemma resolve_link k f cs cur c t : dirs_to f cur (cs ++ [c]) -> ~ In dotdot cs -> c <> dotdot -> look f (c :: rev cs ++ cur) = Some (NLink t) ->
  resolve (S k) f true cur (cs ++ [c]) = resolve k f true (if is_abs t then [] else rev cs ++ cur) (comps t).
Proof.
  intros Hdt Hd Hc Hl. rewrite resolve_dirs; [|exact (dirs_prefix _ _ _ _ Hdt) | assumption].
  rewrite resolve_cons. replace (eqb c dotdot) with false by (symmetry; apply eqbF; assumption). rewrite Hl, app_nil_r. reflexivity.
Qed.

(** ** Names *)

Definition step_name (c : str) : Prop := c <> [] /\ c <> [cDot] /\ ~ In cSlash c.
Lemma valid_step c : valid_name c -> step_name c.
Proof. intros (H1 & H2 & _ & H3). split; auto. Qed.
Lemma comps_join_names : forall l, Forall step_name l -> comps (join [cSlash] l) = l.
Proof.
  induction l as [|x l IH]; intros H; [reflexivity|]. inversion_clear H as [|? ? (H1 & H2 & H3) Hl].
  destruct l as [|y l]; [apply comps_one; assumption|].
  change (join [cSlash] (x :: y :: l)) with (x ++ cSlash :: join [cSlash] (y :: l)).
  rewrite comps_app, IH by assumption. rewrite (comps_one x) by assumption. reflexivity.
Qed.
Lemma is_abs_join_names l : Forall step_name l -> is_abs (join [cSlash] l) = false.
Proof.
  destruct l as [|x l]; [reflexivity|]. intros H. inversion_clear H as [|? ? (H1 & H2 & H3) Hl].
  destruct x as [|c x]; [congruence|]. assert (Hc : c <> cSlash) by (intros ->; apply H3; left; reflexivity).
  destruct l; cbn [join app is_abs]; apply N.eqb_neq; assumption.
Qed.
Lemma comps_valid s : ~ In dotdot (comps s) -> Forall valid_name (comps s).
Proof.
  intros Hd. apply Forall_forall. intros c Hc. assert (c <> dotdot) by (intros ->; contradiction).
  rewrite comps_unfold in Hc. apply filter_In in Hc as [Hi Hk]. unfold keepc in Hk.
  apply andb_prop in Hk as [K1 K2]. apply Bool.negb_true_iff in K1, K2. apply eqb_false in K1, K2.
  split; [assumption|]. split; [assumption|]. split; [assumption|].
  clear - Hi. revert c Hi. induction s as [|x s IH]; cbn [split_ch]; intros c Hi; [destruct Hi as [<-|[]]; auto|].
  destruct (eqbP x cSlash) as [->|Hx].
  - destruct Hi as [<-|Hi]; [auto | apply IH; assumption].
  - destruct (split_ch cSlash s) as [|h r] eqn:E; [destruct Hi as [<-|[]]; intros [H|[]]; congruence|].
    destruct Hi as [<-|Hi]; [|apply IH; right; assumption]. intros [H|H]; [congruence|]. eapply IH; [left; reflexivity | exact H].
Qed.
Lemma target_valid cwd s : ~ In dotdot (comps s) -> Forall valid_name cwd -> Forall valid_name (target cwd s).
Proof.
  intros Hd Hc. apply Forall_app. split; [apply Forall_rev; apply comps_valid; assumption|]. destruct (is_abs s); auto.
Qed.

(** ** Checks, for concrete filesystems *)

Definition wf_check (f : fs) : bool :=
  forallb (fun e => match fst e with [] => true | _ :: p => match look f p with Some NDir => true | _ => false end end) f.
Definition no_links (f : fs) : bool := forallb (fun e => match snd e with NLink _ => false | _ => true end) f.
Lemma dget_some_In (f : fs) p n : dget p f = Some n -> In (p, n) f.
Proof.
  induction f as [|[q m] f IH]; cbn [dget]; [discriminate|]. destruct (eqbP p q) as [->|]; intros E; [injection E as ->; left; reflexivity | right; auto].
Qed.
Lemma wf_check_ok f : wf_check f = true -> fs_wf f.
Proof.
  intros H x p Hl. unfold look in Hl. destruct (dget (x :: p) f) as [n|] eqn:E; [|contradiction]. apply dget_some_In in E.
  unfold wf_check in H. rewrite forallb_forall in H. specialize (H _ E). cbn [fst] in H. destruct (look f p) as [[| |]|]; congruence.
Qed.
Lemma no_links_ok f p : no_links f = true -> nolink f p.
Proof.
  intros H q t _ E. unfold look in E. destruct q as [|x q]; [discriminate|]. apply dget_some_In in E.
  unfold no_links in H. rewrite forallb_forall in H. specialize (H _ E). discriminate.
Qed.
(** Decision of [below]. *)
Fixpoint below_b (p q : path) : bool := eqb p q || match p with [] => false | _ :: p' => below_b p' q end.
Lemma below_b_ok p q : below p q <-> below_b p q = true.
Proof.
  split.
  - intros [l ->]. induction l as [|x l IH]; cbn [app].
    + destruct q; cbn [below_b]; rewrite (proj2 (eqbT _ _) eq_refl); reflexivity.
    + cbn [below_b]. rewrite IH. apply Bool.orb_true_r.
  - induction p as [|x p IH]; cbn [below_b]; intros H.
    + rewrite Bool.orb_false_r in H. apply eqb_true in H as <-. exists []. reflexivity.
    + apply Bool.orb_true_iff in H as [H|H]; [apply eqb_true in H as <-; exists []; reflexivity|].
      destruct (IH H) as [l ->]. exists (x :: l). reflexivity.
Qed.
Lemma apart_check p q : below_b p q || below_b q p = false -> apart p q.
Proof. intros H. apply Bool.orb_false_iff in H as [H1 H2]. split; intros B; apply below_b_ok in B; congruence. Qed.
