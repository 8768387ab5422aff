(** * Proofs about the links made by extractions *)

From Verif Require Import Base.Py Base.Text Base.PyFacts Base.TextFacts Base.PathFacts Base.Fs Spec.FsSpec Base.FsFacts Model.Files Proofs.FilesProofs Base.FsLinks Model.Patcher.

(** ** Relative paths *)

Lemma abs_names_plain cwd s : ~ In dotdot (comps s) -> abs_names cwd s = target cwd s.
Proof.
  unfold abs_names, target. generalize (if is_abs s then [] else cwd). induction (comps s) as [|c l IH]; intros acc Hd; [reflexivity|].
  cbn [fold_left rev]. replace (eqb c dotdot) with false by (symmetry; apply eqbF; intros ->; apply Hd; left; reflexivity).
  rewrite IH by (intros Hi; apply Hd; right; assumption). rewrite <- app_assoc. reflexivity.
Qed.
Lemma common_spec : forall a b, exists p a' b', a = p ++ a' /\ b = p ++ b' /\ length p = common a b.
Proof.
  induction a as [|x a IH]; intros b; [exists [], [], b; auto|]. destruct b as [|y b]; [exists [], (x :: a), []; auto|]. cbn [common].
  destruct (eqbP x y) as [->|]; [|exists [], (x :: a), (y :: b); auto].
  destruct (IH b) as (p & a' & b' & -> & -> & Hl). exists (y :: p), a', b'. cbn. auto.
Qed.
Lemma dotdot_step : step_name dotdot.
Proof. split; [discriminate|]. split; [discriminate|]. intros [H|[H|[]]]; discriminate. Qed.

(** The relative path leads from the directory to the file. *)
Lemma relpath_spec cwd s start : ~ In dotdot (comps s) -> ~ In dotdot (comps start) -> Forall valid_name cwd ->
  ~ below (target cwd start) (target cwd s) ->
  exists n rest, rest <> [] /\ comps (relpath cwd s start) = repeat dotdot n ++ rest /\ is_abs (relpath cwd s start) = false /\
    Forall valid_name rest /\ rev rest ++ skipn n (target cwd start) = target cwd s.
Proof.
  intros Hs Hst Hc Hb. unfold relpath. rewrite !abs_names_plain by assumption.
  destruct (common_spec (rev (target cwd start)) (rev (target cwd s))) as (p & a & b & Ea & Eb & Hl). rewrite <- Hl.
  assert (Hva : Forall valid_name (rev (target cwd s))) by (apply Forall_rev; apply target_valid; assumption).
  rewrite Ea, Eb in *. apply Forall_app in Hva as [_ Hvb].
  replace (length (p ++ a) - length p)%nat with (length a) by (rewrite app_length; lia).
  rewrite skipn_app, skipn_all, Nat.sub_diag. cbn [app skipn].
  apply (f_equal (@rev _)) in Ea. apply (f_equal (@rev _)) in Eb. rewrite rev_involutive, rev_app_distr in Ea, Eb.
  assert (Hbn : b <> []).
  { intros ->. apply Hb. exists (rev a). rewrite Ea, Eb. reflexivity. }
  exists (length a), b. split; [assumption|].
  assert (HF : Forall step_name (repeat dotdot (length a) ++ b)).
  { apply Forall_app. split; [apply Forall_forall; intros x Hx; apply repeat_spec in Hx as ->; apply dotdot_step|].
    eapply Forall_impl; [|exact Hvb]. apply valid_step. }
  assert (Hm : repeat dotdot (length a) ++ b <> []) by (intros E; apply app_eq_nil in E as [_ E]; congruence).
  split; [|split; [|split; [assumption|]]].
  - destruct (repeat dotdot (length a) ++ b); [congruence | apply comps_join_names; assumption].
  - destruct (repeat dotdot (length a) ++ b); [congruence | apply is_abs_join_names; assumption].
  - rewrite Ea, <- (rev_length a), skipn_app, skipn_all, Nat.sub_diag. cbn [app skipn]. symmetry. exact Eb.
Qed.

Section Link.
  Variable cwd : path.
  Variable output : str.
  Hypothesis Ho : plain_path output.
  Notation d := (target cwd (dirname output)).
  Notation ot := (target cwd output).
  Notation start := (match is_abs output return path with true => [] | false => cwd end).

  Lemma ot_eq : ot = basename output :: d.
  Proof. apply target_dirname. assumption. Qed.
  Lemma ot_tl : tl ot = d.
  Proof. rewrite ot_eq. reflexivity. Qed.
  Lemma ot_ne : ot <> [].
  Proof. rewrite ot_eq. discriminate. Qed.
  Lemma ot_not_d : forall q, below d q -> q <> ot.
  Proof. intros q [l E] ->. apply (f_equal (@length _)) in E. rewrite ot_eq, app_length in E. cbn in E. lia. Qed.
  Lemma d_dotdot : ~ In dotdot (comps (dirname output)).
  Proof. apply dirname_dotdot. assumption. Qed.
  Lemma base_dotdot : basename output <> dotdot.
  Proof. intros E. destruct Ho as [Hd _]. apply Hd. rewrite plain_path_comps by assumption. rewrite E. apply in_or_app. right. left. reflexivity. Qed.
  Lemma d_eq : d = rev (comps (dirname output)) ++ start.
  Proof. unfold target. rewrite is_abs_dirname; [reflexivity | apply Ho]. Qed.

  Lemma d_eq' : d = rev (comps (dirname output)) ++ (match is_abs output return list str with true => [] | false => cwd end).
  Proof. exact d_eq. Qed.

  Lemma at_out f p : nolink f d -> at_loc f false (loc_of cwd output) = Ok p <-> p = ot /\ dirs_to f start (comps output).
  Proof.
    intros Hn. unfold at_loc, loc_of. cbn [fst snd]. rewrite (plain_path_comps output Ho), resolve_last; [|rewrite <- d_eq'; assumption | apply d_dotdot | apply base_dotdot].
    rewrite <- d_eq', <- ot_eq. reflexivity.
  Qed.
  Lemma locate_out f p : nolink f d -> locate cwd f false output = Ok p <-> p = ot /\ dirs_to f start (comps output).
  Proof. intros Hn. rewrite <- at_out by assumption. unfold locate. destruct output as [|c s] eqn:E; [exfalso; apply (plain_nonempty _ Ho); reflexivity | reflexivity]. Qed.

  Lemma remove_link_safe : safe (dinv cwd d) (only_file ot) (fun _ => True) (remove cwd output).
  Proof.
    apply safe_sys; [intros; apply only_file_refl|]. intros f a f' (Hn & Hw & Hc) E.
    unfold f_remove in E. apply rbind_Ok in E as (p & Ep & E). apply locate_out in Ep as [-> _]; [|assumption].
    assert (Hnd : look f ot <> Some NDir) by (intros E'; rewrite E' in E; discriminate).
    assert (f' = del ot f) as ->.
    { destruct (look f ot) as [[]|]; try congruence; pose proof (f_equal (fun x => match x with Ok (_, y) => y | Err _ => f' end) E) as E2; cbn in E2; auto. }
    split; [apply only_file_del; apply ot_ne|]. split; [|exact Logic.I]. split; [|split].
    - intros q x B Eq. rewrite look_del in Eq by apply ot_ne. destruct (eqbP q ot); [discriminate | exact (Hn q x B Eq)].
    - apply wf_del; assumption.
    - rewrite look_del by apply ot_ne. destruct (eqbP cwd ot) as [E'|]; [rewrite E' in Hc; contradiction | assumption].
  Qed.
  Lemma dirs_link_safe : safe (dinv cwd d) (only_file ot) (fun _ => True) (makedirs cwd (dirname output)).
  Proof.
    eapply safe_conseq; [|apply makedirs_dinv; apply d_dotdot]. intros f f' _ H. rewrite ot_eq. apply adds_dirs_only. assumption.
  Qed.
  Lemma symlink_safe t : safe (dinv cwd d) (only_file ot) (fun _ => True) (symlink cwd t output).
  Proof.
    apply safe_sys; [intros; apply only_file_refl|]. intros f a f' (Hn & Hw & Hc) E.
    assert (E' : create_at (NLink t) (loc_of cwd output) f = Ok (a, f')) by (destruct output; [discriminate | exact E]). clear E.
    pose proof E' as Ewf. unfold loc_of in Ewf. apply create_wf in Ewf as [[Hw' _] HK]; [|split; [assumption | destruct (is_abs output); [reflexivity | assumption]]].
    unfold create_at in E'. apply rbind_Ok in E' as (p & Ep & E). apply at_out in Ep as [-> _]; [|assumption].
    destruct (look f ot) eqn:El; [discriminate|].
    pose proof (f_equal (fun x => match x with Ok (_, y) => y | Err _ => f' end) E) as E2. cbn in E2. subst f'.
    split; [apply only_file_put; apply ot_ne|]. split; [|exact Logic.I]. split; [|split; [assumption|]].
    - intros q x B. rewrite look_put_other by (apply ot_not_d; assumption). apply Hn. assumption.
    - rewrite HK; congruence.
  Qed.
  Lemma make_link_safe real : safe (dinv cwd d) (only_file ot) (fun _ => True) (make_link cwd real output).
  Proof.
    unfold make_link. eapply (safe_bind _ _ (fun _ => True)).
    - apply safe_catch; [apply remove_link_safe|]. intros x. destruct (is_oserror x); exact Logic.I.
    - intros _ _. eapply (safe_bind _ _ (fun _ => True)); [apply dirs_link_safe|]. intros _ _. apply symlink_safe.
  Qed.
  Lemma make_link_done real pl f u pl' f' : dinv cwd d f -> run (make_link cwd real output) pl f = (Done u, pl', f') ->
    dinv cwd d f' /\ look f' ot = Some (NLink (relpath cwd real (dirname output))).
  Proof.
    intros Hi E. pose proof E as E'. eapply (safe_run _ _ (only_file_refl _) (only_file_trans _)) in E' as (_ & Hi' & _); [|apply make_link_safe | assumption].
    split; [assumption|]. unfold make_link in E. rewrite run_bind in E.
    match type of E with context [run ?p pl f] => assert (Hs : safe (dinv cwd d) (only_file ot) (fun _ => True) p);
      [apply safe_catch; [apply remove_link_safe|]; intros x; destruct (is_oserror x); exact Logic.I | destruct (run p pl f) as [[[u1|e|] pl1] f1] eqn:E1; try discriminate] end.
    eapply (safe_run _ _ (only_file_refl _) (only_file_trans _)) in E1 as (_ & Hi1 & _); [|exact Hs | assumption].
    rewrite run_bind in E. destruct (run (makedirs cwd (dirname output)) pl1 f1) as [[[u2|e|] pl2] f2] eqn:E2; try discriminate.
    eapply (safe_run _ _ (only_file_refl _) (only_file_trans _)) in E2 as (_ & Hi2 & _); [|apply dirs_link_safe | assumption].
    apply run_sys_done in E.
    assert (E' : create_at (NLink (relpath cwd real (dirname output))) (loc_of cwd output) f2 = Ok (u, f')) by (destruct output; [discriminate | exact E]).
    unfold create_at in E'. apply rbind_Ok in E' as (p & Ep & E3). apply at_out in Ep as [-> _]; [|apply Hi2].
    destruct (look f2 ot); [discriminate|].
    pose proof (f_equal (fun x => match x with Ok (_, y) => y | Err _ => f' end) E3) as E4. cbn in E4. subst f'. apply look_put_same. apply ot_ne.
  Qed.

  (** Where a link made by the extraction leads. *)
  Lemma follow_link_iff real f : ~ In dotdot (comps real) -> Forall valid_name cwd -> ~ below d (target cwd real) ->
    dinv cwd d f -> nolink f (target cwd real) ->
    look f ot = Some (NLink (relpath cwd real (dirname output))) ->
    exists cur rest, rev rest ++ cur = target cwd real /\
      forall p, locate cwd f true output = Ok p <-> p = target cwd real /\ dirs_to f cur rest.
  Proof.
    intros Hr Hc Hb (Hn & Hw & Hcd) Hnr Hl.
    destruct (relpath_spec cwd real (dirname output) Hr d_dotdot Hc Hb) as (n & rest & Hne & E1 & E2 & HF & E3).
    assert (Hl' : look f (basename output :: rev (comps (dirname output)) ++ start) = Some (NLink (relpath cwd real (dirname output)))).
    { rewrite <- d_eq, <- ot_eq. exact Hl. }
    assert (El : locate cwd f true output = at_loc f true (loc_of cwd output)).
    { pose proof (plain_nonempty _ Ho). unfold locate. destruct output; [congruence | reflexivity]. }
    exists (skipn n (target cwd (dirname output))), rest. split; [exact E3|]. intros p.
    rewrite El. unfold at_loc, loc_of. cbn [fst snd]. change max_links with (S 39). rewrite (plain_path_comps output Ho).
    assert (Hdt : dirs_to f start (comps (dirname output) ++ [basename output])).
    { rewrite <- plain_path_comps by assumption. apply wf_dirs_to; [assumption|]. change (look f ot <> None). rewrite Hl. discriminate. }
    rewrite (resolve_link _ _ _ _ _ _ Hdt d_dotdot base_dotdot Hl').
    rewrite E2, E1, resolve_ups, <- d_eq. rewrite <- E3.
    apply resolve_plain.
    - rewrite E3. assumption.
    - intros Hi. rewrite Forall_forall in HF. apply HF in Hi as (_ & _ & Hi & _). congruence.
  Qed.
  Lemma follow_link real f : ~ In dotdot (comps real) -> Forall valid_name cwd -> ~ below d (target cwd real) ->
    dinv cwd d f -> nolink f (target cwd real) -> look f (target cwd real) <> None ->
    look f ot = Some (NLink (relpath cwd real (dirname output))) ->
    locate cwd f true output = Ok (target cwd real).
  Proof.
    intros Hr Hc Hb Hd Hnr Hlr Hl. destruct (follow_link_iff real f Hr Hc Hb Hd Hnr Hl) as (cur & rest & E & H). apply H. split; [reflexivity|].
    apply wf_dirs_to; [apply Hd|]. rewrite E. assumption.
  Qed.
End Link.
