(** * Proofs about guarded writes and downloads *)

From Verif Require Import Base.TextFacts Base.PathFacts Base.Fs Spec.FsSpec Base.FsFacts Model.Files.

(** ** [only_file] *)

Lemma only_file_refl t f : only_file t f f.
Proof. intros q. auto. Qed.
Lemma only_file_trans t a b c : only_file t a b -> only_file t b c -> only_file t a c.
Proof.
  intros H1 H2 q. destruct (H1 q) as [E1|[E1|(E1 & E1' & B1)]]; [|auto|].
  - destruct (H2 q) as [E2|[E2|(E2 & E2' & B2)]]; [left; congruence | auto | right; right; rewrite <- E1; auto].
  - destruct (H2 q) as [E2|[E2|(E2 & E2' & B2)]]; [right; right; rewrite E2; auto | auto | congruence].
Qed.
Lemma only_file_put t n f : t <> [] -> only_file t f (put t n f).
Proof. intros Ht q. rewrite look_put by assumption. destruct (eqbP q t); auto. Qed.
Lemma only_file_del t f : t <> [] -> only_file t f (del t f).
Proof. intros Ht q. rewrite look_del by assumption. destruct (eqbP q t); auto. Qed.
Lemma adds_dirs_only x t f f' : adds_dirs t f f' -> only_file (x :: t) f f'.
Proof.
  intros H q. destruct (H q) as [E|(E & E' & [l ->])]; [auto|]. right. right. split; [assumption|]. split; [assumption|].
  exists x, l. reflexivity.
Qed.
Lemma only_file_nolink t f f' : only_file t f f' -> nolink f t -> (forall x, look f' t <> Some (NLink x)) -> nolink f' t.
Proof.
  intros H Hn Ht q x B E. destruct (H q) as [E'|[->|(_ & E' & _)]]; [|exact (Ht x E)|congruence].
  rewrite E' in E. exact (Hn q x B E).
Qed.

(** ** Well-formed filesystems *)

Lemma wf_put p n f : fs_wf f -> p <> [] -> look f (tl p) = Some NDir -> look f p <> Some NDir -> fs_wf (put p n f).
Proof.
  intros Hw Hp Hd Hn x q Hx. assert (Hxq : q <> p -> look f (x :: q) <> None \/ x :: q = p).
  { intros Hq. rewrite look_put in Hx by assumption. destruct (eqbP (x :: q : path) p) as [E|]; [right; exact E | left; exact Hx]. }
  destruct (eqbP q p) as [->|Hq].
  - rewrite look_put_other in Hx by (intros E; apply (f_equal (@length _)) in E; cbn in E; lia). apply Hw in Hx. contradiction.
  - rewrite look_put_other by assumption. destruct (Hxq Hq) as [H|<-]; [apply Hw in H; assumption | exact Hd].
Qed.
Lemma wf_del p f : fs_wf f -> look f p <> Some NDir -> fs_wf (del p f).
Proof.
  intros Hw Hn x q Hx. destruct p as [|y p]; [exfalso; apply Hn; reflexivity|].
  rewrite look_del in Hx by discriminate. destruct (eqbP (x :: q : path) (y :: p)); [congruence|]. apply Hw in Hx.
  rewrite look_del_other by congruence. assumption.
Qed.
Lemma wf_parents f l p : fs_wf f -> look f (l ++ p) <> None -> l <> [] -> look f p = Some NDir.
Proof.
  intros Hw. induction l as [|x l IH]; intros Hl Hne; [congruence|]. cbn [app] in Hl. apply Hw in Hl.
  destruct l as [|y l]; [exact Hl|]. apply IH; [congruence | discriminate].
Qed.
Lemma resolve_parent f fo : fs_wf f -> forall k cs cur p, look f cur = Some NDir ->
  resolve k f fo cur cs = Ok p -> look f p = None -> p <> [] /\ look f (tl p) = Some NDir.
Proof.
  intros Hw. induction k as [|k IHk]; (induction cs as [|c cs IH]; intros cur p Hc; [rewrite resolve_nil; intros E; injection E as <-; congruence|]);
    rewrite resolve_cons; (destruct (eqb c dotdot); [apply IH; destruct cur as [|y cur]; [reflexivity|]; apply (Hw y); cbn [tl] in *; congruence|]);
    (destruct (look f (c :: cur)) as [[b| |t]|] eqn:El;
     [destruct cs; [intros E; injection E as <-; congruence | discriminate] | apply IH; assumption | | destruct cs; [intros E _; injection E as <-; split; [discriminate | exact Hc] | discriminate]]).
  - destruct cs, fo; try discriminate; intros E; injection E as <-; congruence.
  - destruct cs, fo; try (intros E; injection E as <-; congruence); apply IHk; destruct (is_abs t); auto.
Qed.
(** Whatever exists can be reached. *)
Lemma wf_dirs_to f start cs : fs_wf f -> look f (rev cs ++ start) <> None -> dirs_to f start cs.
Proof.
  intros Hw Hl a b -> Ha Hb. rewrite rev_app_distr, <- app_assoc in Hl.
  eapply wf_parents; [exact Hw | exact Hl|]. destruct b; [congruence|]. cbn [rev]. intros E. apply app_eq_nil in E as [_ E]. discriminate.
Qed.

Section Wfr.
  Variable cwd : path.
  Variable s : str.
  Hypothesis Hs : plain_path s.
  Notation t := (target cwd s).

  (** The invariant used for a guarded write. *)
  Definition winv (f : fs) : Prop := nolink f t /\ fs_wf f /\ look f cwd = Some NDir.

  Lemma winv_only f f' : winv f -> only_file t f f' -> fs_wf f' -> (forall x, look f' t <> Some (NLink x)) -> cwd <> t -> winv f'.
  Proof.
    intros (H1 & H2 & H3) HO Hw Ht Hc. split; [eapply only_file_nolink; eassumption|]. split; [assumption|].
    destruct (HO cwd) as [E|[E|(_ & E & _)]]; congruence.
  Qed.
  Lemma cwd_not_t f : winv f -> look f t <> Some NDir -> cwd <> t.
  Proof. intros (_ & _ & H) Hn E. apply Hn. rewrite <- E. exact H. Qed.

  Lemma dirname_dotdot : ~ In dotdot (comps (dirname s)).
  Proof. intros Hi. destruct Hs as [Hd _]. apply Hd. rewrite (plain_path_comps s Hs). apply in_or_app. left. assumption. Qed.
  Lemma t_eq : t = basename s :: target cwd (dirname s).
  Proof. apply target_dirname. assumption. Qed.
  Lemma start_dir f : winv f -> look f (if is_abs s then [] else cwd) = Some NDir.
  Proof. intros (_ & _ & H). destruct (is_abs s); [reflexivity | assumption]. Qed.

  (** Well-formedness is preserved when directories are created. *)
  Lemma makedirs_wf_safe start : forall r, (forall f, winv f -> look f start = Some NDir) ->
    below t (r ++ start) -> ~ In dotdot r -> t <> r ++ start ->
    safe winv (fun f f' => only_file t f f') (fun _ => True) (makedirs_r start r).
  Proof.
    assert (Hcreate : forall r, (forall f, winv f -> look f start = Some NDir) -> below t (r ++ start) -> ~ In dotdot r -> t <> r ++ start ->
      safe winv (fun f f' => only_file t f f') (fun _ => True) (sys (create_at NDir (start, rev r)))).
    { intros r Hst Hb Hd Ht. apply safe_sys; [intros; apply only_file_refl|]. intros f a f' Hi E. pose proof Hi as (Hn & Hw & Hc).
      unfold create_at in E. apply rbind_Ok in E as (p & Ep & E). unfold at_loc in Ep. cbn [fst snd] in Ep.
      pose proof Ep as Ep'.
      apply resolve_plain in Ep as [-> _];
        [|rewrite rev_involutive; eapply nolink_anc; eassumption | rewrite <- in_rev; assumption].
      rewrite rev_involutive in E, Ep'. destruct (look f (r ++ start)) eqn:El; [discriminate|].
      apply (f_equal (fun x => match x with Ok (_, y) => y | Err _ => f' end)) in E. cbn in E. subst f'.
      apply (resolve_parent f false Hw) in Ep' as [Hne Hp]; [|auto|assumption].
      assert (HO : only_file t f (put (r ++ start) NDir f)).
      { intros q. rewrite look_put by assumption. destruct (eqbP q (r ++ start)) as [->|]; [|auto].
        right. right. split; [assumption|]. split; [reflexivity|]. destruct (below_cases _ _ Hb); [congruence | assumption]. }
      split; [exact HO|]. split; [|exact Logic.I].
      assert (Hw' : fs_wf (put (r ++ start) NDir f)) by (apply wf_put; [assumption | assumption | assumption | congruence]).
      split; [|split; [exact Hw'|]].
      - intros q x Bq Eq. rewrite look_put in Eq by assumption. destruct (eqbP q (r ++ start)); [discriminate | exact (Hn q x Bq Eq)].
      - rewrite look_put by assumption. destruct (eqb cwd _); [reflexivity | assumption]. }
    assert (Hlast : forall r, (forall f, winv f -> look f start = Some NDir) -> below t (r ++ start) -> ~ In dotdot r -> t <> r ++ start ->
      safe winv (fun f f' => only_file t f f') (fun _ => True)
        (catch (sys (create_at NDir (start, rev r)))
          (fun x => if is_oserror x then let~ d := query (loc_isdir (start, rev r)) in if d : bool then Ret tt else Rai x else Rai x))).
    { intros r Hst Hb Hd Ht. apply safe_catch; [apply Hcreate; assumption|]. intros e. destruct (is_oserror e); [|exact Logic.I].
      eapply (safe_bind _ _ (fun _ => True)); [apply safe_query; [intros; apply only_file_refl|]; intros; exact Logic.I|]. intros [|] _; exact Logic.I. }
    induction r as [|x r IH]; intros Hst Hb Hd Ht.
    - cbn [makedirs_r]. eapply (safe_bind _ _ (fun _ => True)); [exact Logic.I|]. intros _ _. apply Hlast; assumption.
    - assert (Hb' : below t (r ++ start)) by (eapply below_trans; [exact Hb | exists [x]; reflexivity]).
      assert (Hd' : ~ In dotdot r) by (intros Hi; apply Hd; right; assumption).
      assert (Ht' : t <> r ++ start).
      { intros E. rewrite E in Hb. destruct Hb as [l E']. apply (f_equal (@length _)) in E'. rewrite !app_length in E'. cbn in E'. lia. }
      cbn [makedirs_r]. eapply (safe_bind _ _ (fun _ => True)); [|intros _ _; apply Hlast; assumption].
      destruct r as [|y r]; [exact Logic.I|].
      eapply (safe_bind _ _ (fun _ => True)); [apply safe_query; [intros; apply only_file_refl | auto]|].
      intros [|] _; [exact Logic.I|]. apply safe_catch; [apply IH; assumption|].
      intros e. destruct e as [| | | | | | | | | | | |[]| | | |]; exact Logic.I.
  Qed.
  Lemma makedirs_dir_safe : safe winv (fun f f' => only_file t f f') (fun _ => True) (makedirs cwd (dirname s)).
  Proof.
    unfold makedirs. destruct (dirname s) as [|c d] eqn:Ed; [exact Logic.I|]. rewrite <- Ed.
    assert (Hne : dirname s <> []) by congruence.
    apply makedirs_wf_safe.
    - intros f (_ & _ & H). unfold loc_of. cbn [fst]. destruct (is_abs _); [reflexivity | assumption].
    - rewrite t_eq. exists [basename s]. reflexivity.
    - rewrite <- in_rev. apply dirname_dotdot.
    - rewrite t_eq. intros E. apply (f_equal (@length _)) in E. cbn in E. unfold target, loc_of in E. cbn in E. lia.
  Qed.

  Lemma locate_t f fo p : nolink f t -> locate cwd f fo s = Ok p -> p = t /\ dirs_to f (if is_abs s then [] else cwd) (comps s).
  Proof. intros Hn E. apply locate_plain in E; [assumption | apply plain_nonempty; assumption | apply Hs | assumption]. Qed.
  Lemma locate_ok f fo : winv f -> look f t <> None -> locate cwd f fo s = Ok t.
  Proof.
    intros (Hn & Hw & _) Hl. apply locate_plain; [apply plain_nonempty; assumption | apply Hs | assumption|].
    split; [reflexivity|]. apply wf_dirs_to; assumption.
  Qed.
  Lemma open_safe : safe winv (fun f f' => only_file t f f') (fun h => h = t) (open_w cwd s).
  Proof.
    apply safe_sys; [intros; apply only_file_refl|]. intros f p f' Hi E. pose proof Hi as (Hn & Hw & Hc).
    unfold f_open_w in E. apply rbind_Ok in E as (p' & Ep & E).
    assert (Hnd : look f p' <> Some NDir) by (intros E'; rewrite E' in E; discriminate).
    assert (p' = p /\ f' = put p' (NFile []) f) as [-> ->].
    { destruct (look f p') as [[]|]; try congruence;
        (pose proof (f_equal (fun x => match x with Ok (y, _) => y | Err _ => p end) E) as E1;
         pose proof (f_equal (fun x => match x with Ok (_, y) => y | Err _ => f' end) E) as E2; cbn in E1, E2; auto). }
    pose proof (locate_t f true p Hn Ep) as [-> Hdt].
    assert (HO : only_file t f (put t (NFile []) f)) by (apply only_file_put; apply target_nonempty; assumption).
    split; [exact HO|]. split; [|reflexivity].
    apply (winv_only f); [assumption | exact HO | | | eapply cwd_not_t; eassumption].
    - apply wf_put; [assumption | apply target_nonempty; assumption | | assumption].
      destruct (look f t) eqn:El.
      + rewrite t_eq in El |- *. cbn [tl]. apply (Hw (basename s)). intros E9. rewrite E9 in El. discriminate.
      + unfold locate in Ep. destruct s as [|c s']; [discriminate|]. unfold at_loc in Ep.
        eapply (resolve_parent f true Hw); [|exact Ep | exact El]. unfold loc_of. cbn [fst]. destruct (is_abs _); [reflexivity | assumption].
    - intros x. rewrite look_put_same by (apply target_nonempty; assumption). discriminate.
  Qed.
  Lemma append_inv data f : winv f -> only_file t f (f_append t data f) /\ winv (f_append t data f).
  Proof.
    intros Hi. unfold f_append. destruct (look f t) as [[b| |]|] eqn:El; try (split; [apply only_file_refl | assumption]).
    assert (HO : only_file t f (put t (NFile (b ++ data)) f)) by (apply only_file_put; apply target_nonempty; assumption).
    split; [exact HO|]. pose proof Hi as (Hn & Hw & Hc).
    apply (winv_only f); [assumption | exact HO | | | eapply cwd_not_t; [eassumption | congruence]].
    - apply wf_put; [assumption | apply target_nonempty; assumption | | congruence].
      rewrite t_eq in El |- *. cbn [tl]. apply (Hw (basename s)). intros E9. rewrite E9 in El. discriminate.
    - intros x. rewrite look_put_same by (apply target_nonempty; assumption). discriminate.
  Qed.
  Lemma fwrite_safe data : safe winv (fun f f' => only_file t f f') (fun _ => True) (fwrite t data).
  Proof.
    apply safe_sys_part; [intros; apply only_file_refl | |].
    - intros f a f' Hi E. injection E as <- <-. destruct (append_inv data f Hi). auto.
    - intros n f Hi. apply append_inv. assumption.
  Qed.
  Lemma remove_safe : safe winv (fun f f' => only_file t f f') (fun _ => True) (remove cwd s).
  Proof.
    apply safe_sys; [intros; apply only_file_refl|]. intros f a f' Hi E. pose proof Hi as (Hn & Hw & Hc).
    unfold f_remove in E. apply rbind_Ok in E as (p & Ep & E). apply locate_t in Ep as [-> _]; [|assumption].
    assert (Hnd : look f t <> Some NDir) by (intros E'; rewrite E' in E; discriminate).
    assert (f' = del t f) as ->.
    { destruct (look f t) as [[]|]; try congruence; pose proof (f_equal (fun x => match x with Ok (_, y) => y | Err _ => f' end) E) as E2; cbn in E2; auto. }
    assert (HO : only_file t f (del t f)) by (apply only_file_del; apply target_nonempty; assumption).
    split; [exact HO|]. split; [|exact Logic.I].
    apply (winv_only f); [assumption | exact HO | apply wf_del; assumption | | eapply cwd_not_t; eassumption].
    intros x. rewrite look_del_same by (apply target_nonempty; assumption). discriminate.
  Qed.
  Lemma fclose_safe : safe winv (fun f f' => only_file t f f') (fun _ => True) fclose.
  Proof. apply safe_sys; [intros; apply only_file_refl|]. intros f a f' Hi E. injection E as <- <-. auto using only_file_refl. Qed.

  Lemma with_close_safe {A} (Q : A -> Prop) (p : prog A) :
    safe winv (fun f f' => only_file t f f') Q p -> safe winv (fun f f' => only_file t f f') Q (with_close p).
  Proof.
    intros Hp. unfold with_close. eapply safe_bind.
    - apply safe_catch; [exact Hp|]. intros e. eapply safe_bind; [apply fclose_safe|]. intros _ _. exact Logic.I.
    - intros a Ha. eapply safe_bind; [apply fclose_safe|]. intros _ _. exact Ha.
  Qed.

  (** Frame of a guarded write: whatever happens, only [t] and missing parents change. *)
  Lemma wfr_safe {A} (Q : A -> Prop) (body : path -> prog A) :
    safe winv (fun f f' => only_file t f f') Q (body t) ->
    safe winv (fun f f' => only_file t f f') Q (write_file_or_remove cwd s body).
  Proof.
    intros Hb. unfold write_file_or_remove. apply safe_catch.
    - eapply safe_bind; [apply makedirs_dir_safe|]. intros _ _.
      eapply safe_bind; [apply open_safe|]. intros h ->. apply with_close_safe. assumption.
    - intros e. eapply (safe_bind _ _ (fun _ => True)); [|intros _ _; exact Logic.I].
      apply safe_catch; [apply remove_safe|]. intros x. destruct (is_oserror x); exact Logic.I.
  Qed.

  Lemma run_fclose pl f pl' f' a : run fclose pl f = (Done a, pl', f') -> f' = f.
  Proof. intros E. apply run_sys_done in E. congruence. Qed.

  (** Success: the block ran on the freshly created empty file. *)
  Lemma wfr_done {A} (body : path -> prog A) pl f a pl' f' :
    winv f -> (forall Q : A -> Prop, (forall a, Q a) -> safe winv (fun f f' => only_file t f f') Q (body t)) ->
    run (write_file_or_remove cwd s body) pl f = (Done a, pl', f') ->
    exists pl1 f1 pl2, look f1 t = Some (NFile []) /\ winv f1 /\ only_file t f f1 /\ run (body t) pl1 f1 = (Done a, pl2, f').
  Proof.
    intros Hi Hb. unfold write_file_or_remove. rewrite run_catch.
    match goal with |- context [run ?p pl f] => destruct (run p pl f) as [[o pl1] f1] eqn:E1 end.
    destruct o as [a'|e|]; [|rewrite run_bind; destruct (run _ pl1 f1) as [[[]] ?]; discriminate | discriminate].
    intros E. injection E as -> -> ->. rewrite run_bind in E1.
    destruct (run (makedirs cwd (dirname s)) pl f) as [[[[]|e|] pl2] f2] eqn:E2; try discriminate.
    eapply (safe_run _ _ (only_file_refl _) (only_file_trans _)) in E2 as (H2 & I2 & _); [|apply makedirs_dir_safe | assumption].
    rewrite run_bind in E1. destruct (run (open_w cwd s) pl2 f2) as [[[h|e|] pl3] f3] eqn:E3; try discriminate.
    pose proof E3 as E3'. eapply (safe_run _ _ (only_file_refl _) (only_file_trans _)) in E3' as (H3 & I3 & Hh); [|apply open_safe | assumption]. cbn beta iota in Hh. subst h.
    apply run_sys_done in E3. unfold f_open_w in E3. apply rbind_Ok in E3 as (p & Ep & E3).
    assert (look f3 t = Some (NFile [])) as El.
    { apply locate_t in Ep as [-> _]; [|apply I2]. destruct (look f2 t) as [[]|]; try discriminate;
        pose proof (f_equal (fun x => match x with Ok (_, y) => y | Err _ => f3 end) E3) as E4; cbn in E4; subst f3;
        apply look_put_same; apply target_nonempty; assumption. }
    exists pl3, f3. unfold with_close in E1. rewrite run_bind, run_catch in E1.
    destruct (run (body t) pl3 f3) as [[o pl4] f4] eqn:E4.
    assert (I4 : winv f4).
    { eapply (safe_run _ _ (only_file_refl _) (only_file_trans _)) in E4 as (_ & I4 & _); [exact I4 | apply (Hb (fun _ => True)); auto | assumption]. }
    destruct o as [a'|e|]; [|rewrite run_bind in E1; destruct (run fclose pl4 f4) as [[[]] ?]; discriminate | discriminate].
    rewrite run_bind in E1. destruct (run fclose pl4 f4) as [[[u|e|] pl5] f5] eqn:E5; try discriminate.
    apply run_fclose in E5. cbn [run] in E1. injection E1 as -> -> ->. subst f'.
    exists pl4. split; [assumption|]. split; [assumption|]. split; [eapply only_file_trans; eassumption | reflexivity].
  Qed.

  (** Failure: no regular file is left, unless the removal itself was made to fail. *)
  Lemma remove_gone pl f o pl' f' : winv f -> run (remove cwd s) pl f = (o, pl', f') ->
    ~ is_file f' t \/ exists u x, pl = u ++ Some x :: pl'.
  Proof.
    intros Hi E. unfold remove, sys in E.
    assert (H : f' = match f_remove cwd s f with Ok (_, f'') => f'' | Err _ => f end -> ~ is_file f' t).
    { intros ->. unfold f_remove. destruct (look f t) as [[b| |x]|] eqn:El.
      - rewrite (locate_ok f false Hi) by congruence. cbn [rbind]. rewrite El. intros [b' Hb].
        rewrite look_del_same in Hb by (apply target_nonempty; assumption). discriminate.
      - rewrite (locate_ok f false Hi) by congruence. cbn [rbind]. rewrite El. intros [b' Hb]. congruence.
      - exfalso. destruct Hi as (Hn & _). exact (Hn t x (below_refl t) El).
      - destruct (locate cwd f false s) as [p|] eqn:Ep; cbn [rbind]; [|intros [b' Hb]; congruence].
        apply locate_t in Ep as [-> _]; [|apply Hi]. rewrite El. intros [b' Hb]. congruence. }
    destruct pl as [|[x|] pl]; cbn in E.
    - left. apply H. destruct (f_remove cwd s f) as [[[] ?]|]; cbn in E; injection E as <- <- <-; reflexivity.
    - right. destruct x; cbn in E; injection E as <- <- <-; exists []; eexists; reflexivity.
    - left. apply H. destruct (f_remove cwd s f) as [[[] ?]|]; cbn in E; injection E as <- <- <-; reflexivity.
  Qed.
  Lemma wfr_raised {A} (body : path -> prog A) pl f e pl' f' :
    winv f -> (forall Q : A -> Prop, (forall a, Q a) -> safe winv (fun f f' => only_file t f f') Q (body t)) ->
    run (write_file_or_remove cwd s body) pl f = (Raised e, pl', f') ->
    ~ is_file f' t \/ exists u x, pl = u ++ Some x :: pl'.
  Proof.
    intros Hi Hb. unfold write_file_or_remove. rewrite run_catch.
    match goal with |- context [run ?p pl f] => destruct (run p pl f) as [[o pl1] f1] eqn:E1; assert (Hs1 : safe winv (fun f f' => only_file t f f') (fun _ => True) p) end.
    { eapply safe_bind; [apply makedirs_dir_safe|]. intros _ _.
      eapply safe_bind; [apply open_safe|]. intros h ->. apply with_close_safe. apply Hb. auto. }
    pose proof E1 as E1'. eapply (safe_run _ _ (only_file_refl _) (only_file_trans _)) in E1' as (_ & I1 & _); [|exact Hs1 | assumption].
    apply run_consumes in E1 as [u1 ->].
    destruct o as [a'|e'|]; try discriminate. rewrite run_bind, run_catch.
    destruct (run (remove cwd s) pl1 f1) as [[o2 pl2] f2] eqn:E2.
    apply remove_gone in E2; [|assumption].
    destruct o2 as [u|x|]; cbn [run]; try discriminate.
    - intros E. injection E as -> -> ->. destruct E2 as [H|(v & y & ->)]; [auto|]. right. exists (u1 ++ v), y. rewrite app_assoc. reflexivity.
    - destruct (is_oserror x); cbn [run]; intros E; injection E as <- <- <-;
        (destruct E2 as [H|(v & y & ->)]; [auto|]; right; exists (u1 ++ v), y; rewrite app_assoc; reflexivity).
  Qed.
  (** Blocks that write pieces. *)
  Lemma pieces_safe pieces r : forall Q : unit -> Prop, (forall a, Q a) ->
    safe winv (fun f f' => only_file t f f') Q (write_pieces pieces r t).
  Proof.
    intros Q HQ. unfold write_pieces. eapply safe_bind; [apply safe_for_each; intros x _; apply fwrite_safe|].
    intros _ _. destruct r; [exact Logic.I | apply HQ].
  Qed.
  Lemma run_fwrite h data pl f a pl' f' : run (fwrite h data) pl f = (Done a, pl', f') -> f' = f_append h data f.
  Proof. intros E. apply run_sys_done in E. congruence. Qed.
  Lemma pieces_done h : h <> [] -> forall pieces pl f u b pl' f', look f h = Some (NFile b) ->
    run (for_each pieces (fwrite h)) pl f = (Done u, pl', f') -> look f' h = Some (NFile (b ++ concat pieces)).
  Proof.
    intros Hh. induction pieces as [|x pieces IH]; intros pl f u b pl' f' El; cbn [for_each concat].
    - cbn [run]. intros E. injection E as <- <- <-. rewrite app_nil_r. assumption.
    - rewrite run_bind. destruct (run (fwrite h x) pl f) as [[[u1|e|] pl1] f1] eqn:E1; try discriminate.
      apply run_fwrite in E1. intros E. rewrite app_assoc. apply (IH pl1 f1 u (b ++ x) pl' f'); [|exact E].
      subst f1. unfold f_append. rewrite El. apply look_put_same. assumption.
  Qed.
End Wfr.

(** ** Statements used in Props *)

Lemma ready_winv cwd s f : ready cwd s f -> plain_path s /\ winv cwd s f.
Proof. intros (H1 & H2 & H3 & H4). split; [assumption|]. split; auto. Qed.
Lemma winv_ready cwd s f : plain_path s -> winv cwd s f -> ready cwd s f.
Proof. intros H1 (H2 & H3 & H4). split; auto. Qed.

Lemma wfr_frame cwd s pieces r pl f o pl' f' : ready cwd s f ->
  run (write_file_or_remove cwd s (write_pieces pieces r)) pl f = (o, pl', f') ->
  only_file (target cwd s) f f' /\ ready cwd s f'.
Proof.
  intros Hr E. apply ready_winv in Hr as [Hs Hi].
  eapply (safe_run _ _ (only_file_refl _) (only_file_trans _)) in E as (H & I' & _);
    [|apply (wfr_safe cwd s Hs (fun _ => True)); apply pieces_safe; auto | exact Hi].
  split; [exact H | apply winv_ready; assumption].
Qed.
Lemma wfr_success cwd s pieces r pl f u pl' f' : ready cwd s f ->
  run (write_file_or_remove cwd s (write_pieces pieces r)) pl f = (Done u, pl', f') ->
  look f' (target cwd s) = Some (NFile (concat pieces)) /\ r = None.
Proof.
  intros Hr E. apply ready_winv in Hr as [Hs Hi].
  apply (wfr_done cwd s Hs) in E as (pl1 & f1 & pl2 & El & _ & _ & E); [|exact Hi | apply pieces_safe; assumption].
  unfold write_pieces in E. rewrite run_bind in E.
  destruct (run (for_each pieces (fwrite (target cwd s))) pl1 f1) as [[[[]|e|] pl3] f3] eqn:E1; try discriminate.
  destruct r; cbn [run] in E; [discriminate|]. injection E as <- <- <-. split; [|reflexivity].
  apply (pieces_done _ (target_nonempty cwd s Hs) _ _ _ _ [] _ _ El) in E1. exact E1.
Qed.
Lemma wfr_failure cwd s pieces r pl f e pl' f' : ready cwd s f ->
  run (write_file_or_remove cwd s (write_pieces pieces r)) pl f = (Raised e, pl', f') ->
  ~ is_file f' (target cwd s) \/ exists u x, pl = u ++ Some x :: pl'.
Proof.
  intros Hr E. apply ready_winv in Hr as [Hs Hi].
  apply (wfr_raised cwd s Hs) in E; [exact E | exact Hi | apply pieces_safe; assumption].
Qed.

(** Executions without failures do not depend on the plan. *)
Lemma run_no_failure {A} (p : prog A) : forall pl f, failures pl = 0%nat ->
  exists pl', failures pl' = 0%nat /\ run p pl f = (fst (fst (run p [] f)), pl', snd (run p [] f)).
Proof.
  induction p as [a|e|eff c IH]; intros pl f Hpl; cbn [run fst snd]; eauto.
  destruct pl as [|[[]|] pl]; try discriminate.
  - apply IH. reflexivity.
  - apply IH. exact Hpl.
Qed.
Lemma run_nil_plan {A} (p : prog A) f : exists o f', run p [] f = (o, [], f').
Proof.
  destruct (run p [] f) as [[o pl] f'] eqn:E. pose proof E as E'. apply run_consumes in E' as [u Hu].
  symmetry in Hu. apply app_eq_nil in Hu as [_ ->]. eauto.
Qed.
Lemma run_nil_nocrash {A} (p : prog A) : forall f pl f', run p [] f <> (Crashed, pl, f').
Proof. induction p as [a|e|eff c IH]; intros f pl f'; cbn [run]; [discriminate | discriminate | apply IH]. Qed.

Lemma f_remove_err cwd s f x : f_remove cwd s f = Err x -> is_oserror x = true.
Proof.
  unfold f_remove, locate. destruct s as [|c s']; [intros E; injection E as <-; reflexivity|].
  destruct (at_loc f false (loc_of cwd (c :: s'))) as [p|y] eqn:Ea; cbn [rbind].
  - destruct (look f p) as [[]|]; try discriminate; intros E; injection E as <-; reflexivity.
  - intros E. injection E as <-. eapply resolve_err_os. exact Ea.
Qed.
Lemma wfr_reraise cwd s pieces e pl f u pl1 f1 : ready cwd s f -> failures pl = 0%nat ->
  run (write_file_or_remove cwd s (write_pieces pieces None)) pl f = (Done u, pl1, f1) ->
  exists pl' f', run (write_file_or_remove cwd s (write_pieces pieces (Some e))) pl f = (Raised e, pl', f') /\
    ~ is_file f' (target cwd s).
Proof.
  intros Hr Hpl E. pose proof Hr as Hr'. apply ready_winv in Hr' as [Hs Hi].
  destruct (run_no_failure (write_file_or_remove cwd s (write_pieces pieces None)) pl f Hpl) as (q & _ & Eq). rewrite E in Eq. clear E.
  destruct (run_no_failure (write_file_or_remove cwd s (write_pieces pieces (Some e))) pl f Hpl) as (q2 & _ & Eq2). rewrite Eq2.
  assert (E : exists u f1, run (write_file_or_remove cwd s (write_pieces pieces None)) [] f = (Done u, [], f1)).
  { destruct (run_nil_plan (write_file_or_remove cwd s (write_pieces pieces None)) f) as (o & f'' & E). rewrite E in Eq |- *.
    cbn [fst] in Eq. injection Eq as <- _ _. eauto. }
  clear Eq Eq2 Hpl. destruct E as (u' & f1' & E).
  assert (G : exists f', run (write_file_or_remove cwd s (write_pieces pieces (Some e))) [] f = (Raised e, [], f')).
  { unfold write_file_or_remove in E |- *. rewrite run_catch in E |- *. rewrite run_bind in E |- *.
    destruct (run_nil_plan (makedirs cwd (dirname s)) f) as (o1 & g1 & E1). rewrite E1 in E |- *.
    destruct o1 as [[]|x|]; [|exfalso; rewrite run_bind in E; destruct (run _ [] g1) as [[[]] ?]; discriminate | discriminate].
    rewrite run_bind in E |- *. destruct (run_nil_plan (open_w cwd s) g1) as (o2 & g2 & E2). rewrite E2 in E |- *.
    destruct o2 as [h|x|]; [|exfalso; rewrite run_bind in E; destruct (run _ [] g2) as [[[]] ?]; discriminate | discriminate].
    unfold with_close, write_pieces in E |- *. rewrite run_bind, run_catch, run_bind in E. rewrite run_bind, run_catch, run_bind.
    destruct (run_nil_plan (for_each pieces (fwrite h)) g2) as (o3 & g3 & E3). rewrite E3 in E |- *.
    destruct o3 as [[]|x|].
    - cbn [run]. rewrite run_bind.
      change (run fclose [] g3) with (@Done unit tt, @nil (option fault), g3). cbn iota. cbn [run]. rewrite run_bind, run_catch.
      destruct (run_nil_plan (remove cwd s) g3) as (o4 & g4 & E4). rewrite E4.
      destruct o4 as [[]|x|]; cbn [run]; eauto.
      + destruct (is_oserror x) eqn:Ex; cbn [run]; eauto. exfalso. unfold remove, sys in E4. cbn in E4.
        destruct (f_remove cwd s g3) as [[[] ?]|x'] eqn:Er; cbn in E4; [discriminate|]. injection E4 as -> _.
        apply f_remove_err in Er. congruence.
      + exfalso. eapply run_nil_nocrash. exact E4.
    - exfalso. rewrite run_bind in E. change (run fclose [] g3) with (@Done unit tt, @nil (option fault), g3) in E.
      cbn iota in E. cbn [run] in E. rewrite run_bind in E. destruct (run _ [] g3) as [[[]] ?]; discriminate.
    - discriminate. }
  destruct G as [f' G]. rewrite G. cbn [fst snd]. exists q2, f'. split; [reflexivity|].
  apply wfr_failure in G as [H|(v & y & Hv)]; [exact H | destruct v; discriminate | assumption].
Qed.

Lemma natural_wfr {A} cwd s (body : path -> prog A) (P : exn -> Prop) : (forall e, lookup_error e -> P e) -> (forall h, natural P (body h)) ->
  natural P (write_file_or_remove cwd s body).
Proof.
  intros HP Hb. eapply (natural_catch _ P).
  - apply natural_bind; [eapply natural_weaken; [exact HP | apply natural_makedirs]|]. intros _.
    apply natural_bind; [eapply natural_weaken; [exact HP | apply natural_open_w]|]. intros h. apply natural_with_close. apply Hb.
  - intros e He. apply natural_bind; [|intros _; exact He].
    eapply (natural_catch _ (fun x => is_oserror x = true)); [apply natural_sys_part; intros f x; apply f_remove_err|].
    intros x ->. exact Logic.I.
Qed.

(** ** Downloads *)

Lemma isfile_ready cwd s f : ready cwd s f -> f_isfile cwd s f = true <-> is_file f (target cwd s).
Proof.
  intros Hr. apply ready_winv in Hr as [Hs Hi]. unfold f_isfile. split.
  - destruct (locate cwd f true s) as [p|] eqn:E; cbn [node_of]; [|discriminate].
    apply locate_t in E as [-> _]; [|assumption | apply Hi]. destruct (look f (target cwd s)) as [[b| |]|] eqn:El; try discriminate. intros _. exists b. exact El.
  - intros [b Hb]. rewrite (locate_ok cwd s Hs f true Hi) by congruence. cbn [node_of]. rewrite Hb. reflexivity.
Qed.

Definition get_and_write cwd fp (resp : result bytes) : prog unit :=
  let~ data := lift resp in write_file_or_remove cwd fp (fun h => fwrite h data).

Section Download.
  Variable cwd : path.
  Variables base p : str.
  Notation fp := (fspath base p).
  Notation t := (target cwd fp).

  Lemma get_cases resp pl f o pl' f' : run (get_and_write cwd fp resp) pl f = (o, pl', f') ->
    (exists e, resp = Err e /\ o = Raised e /\ f' = f) \/
    (exists data, resp = Ok data /\ run (write_file_or_remove cwd fp (fun h => fwrite h data)) pl f = (o, pl', f')).
  Proof.
    unfold get_and_write. destruct resp as [data|e]; cbn [lift bind run]; intros E; [right; eauto|].
    injection E as <- <- <-. left. eauto.
  Qed.
  Lemma download_cases force resp pl f o pl' f' : ready cwd fp f ->
    run (download cwd base p force resp) pl f = (o, pl', f') ->
    (force = false /\ f' = f /\ (o = Crashed \/ is_file f t /\ o = Done tt)) \/
    ((force = true \/ ~ is_file f t) /\ exists pl1 u, pl = u ++ pl1 /\ run (get_and_write cwd fp resp) pl1 f = (o, pl', f')).
  Proof.
    intros Hr. unfold download. fold (get_and_write cwd fp resp). destruct force.
    - intros E. right. split; [auto|]. exists pl, []. auto.
    - rewrite run_bind. destruct (run (isfile cwd fp) pl f) as [[o1 pl1] f1] eqn:E1. pose proof E1 as E1'.
      apply run_consumes in E1' as [u ->]. unfold isfile in E1. apply run_query_fs in E1 as [-> [->| ->]].
      + destruct (f_isfile cwd fp f) eqn:Ei.
        * apply isfile_ready in Ei; [|assumption]. cbn [run]. intros E. injection E as <- <- <-. left. auto.
        * intros E. right. split; [right; intros H; apply isfile_ready in H; [congruence | assumption]|]. exists pl1, u. auto.
      + intros E. injection E as <- <- <-. left. auto.
  Qed.

  Lemma fwrite_ok data : plain_path fp -> forall Q : unit -> Prop, (forall a, Q a) ->
    safe (winv cwd fp) (fun f f' => only_file t f f') Q (fwrite t data).
  Proof. intros Hs Q HQ. eapply (safe_weaken _ _ (fun _ => True)); [auto | apply fwrite_safe; exact Hs]. Qed.

  Lemma download_frame force resp pl f o pl' f' : ready cwd fp f ->
    run (download cwd base p force resp) pl f = (o, pl', f') -> only_file t f f' /\ ready cwd fp f'.
  Proof.
    intros Hr E. apply download_cases in E as [(_ & -> & _)|(_ & pl1 & u & _ & E)]; [split; [apply only_file_refl | assumption] | | assumption].
    apply get_cases in E as [(e & _ & _ & ->)|(data & _ & E)]; [split; [apply only_file_refl | assumption]|].
    apply ready_winv in Hr as [Hs Hi].
    eapply (safe_run _ _ (only_file_refl _) (only_file_trans _)) in E as (H & I' & _);
      [|apply (wfr_safe cwd fp Hs (fun _ => True)); apply fwrite_ok; auto | exact Hi].
    split; [exact H | apply winv_ready; assumption].
  Qed.
  Lemma download_existing resp pl f o pl' f' : ready cwd fp f -> is_file f t ->
    run (download cwd base p false resp) pl f = (o, pl', f') -> f' = f /\ (o = Done tt \/ o = Crashed).
  Proof.
    intros Hr Hf E. apply download_cases in E as [(_ & -> & [->|[_ ->]])|([H|H] & _)]; [auto | auto | discriminate | contradiction | assumption].
  Qed.
  Lemma download_success force resp pl f u pl' f' : ready cwd fp f -> (force = true \/ ~ is_file f t) ->
    run (download cwd base p force resp) pl f = (Done u, pl', f') ->
    exists body, resp = Ok body /\ look f' t = Some (NFile body).
  Proof.
    intros Hr Hf E. apply download_cases in E as [(-> & _ & [E|[H _]])|(_ & pl1 & v & _ & E)]; [discriminate | destruct Hf; [discriminate | contradiction] | | assumption].
    apply get_cases in E as [(e & _ & E & _)|(data & -> & E)]; [discriminate|]. exists data. split; [reflexivity|].
    apply ready_winv in Hr as [Hs Hi].
    apply (wfr_done cwd fp Hs) in E as (pl2 & f1 & pl3 & El & _ & _ & E); [|exact Hi | apply fwrite_ok; assumption].
    apply run_fwrite in E. subst f'. unfold f_append. rewrite El. apply look_put_same. apply target_nonempty. assumption.
  Qed.
  Lemma download_failure resp pl f e pl' f' : ready cwd fp f ->
    run (download cwd base p false resp) pl f = (Raised e, pl', f') ->
    ~ is_file f t /\ (~ is_file f' t \/ exists u x, pl = u ++ Some x :: pl').
  Proof.
    intros Hr E. apply download_cases in E as [(_ & _ & [E|[_ E]])|([H|H] & pl1 & u & -> & E)]; try discriminate; [|assumption].
    split; [assumption|].
    apply get_cases in E as [(e' & _ & _ & ->)|(data & _ & E)]; [auto|].
    apply ready_winv in Hr as [Hs Hi].
    apply (wfr_raised cwd fp Hs) in E as [E|(v & x & ->)]; [auto | | exact Hi | apply fwrite_ok; assumption].
    right. exists (u ++ v), x. rewrite app_assoc. reflexivity.
  Qed.
  Lemma download_request_error force e pl f o pl' f' : ready cwd fp f ->
    run (download cwd base p force (Err e)) pl f = (o, pl', f') -> f' = f.
  Proof.
    intros Hr E. apply download_cases in E as [(_ & -> & _)|(_ & pl1 & u & _ & E)]; [reflexivity | | assumption].
    apply get_cases in E as [(e' & _ & _ & ->)|(data & E & _)]; [reflexivity | discriminate].
  Qed.
  Lemma download_preserves resp pl f o pl' f' q b : ready cwd fp f ->
    run (download cwd base p false resp) pl f = (o, pl', f') -> look f q = Some (NFile b) -> look f' q = Some (NFile b).
  Proof.
    intros Hr E Hq. pose proof E as E'. apply download_frame in E' as [HO _]; [|assumption].
    destruct (HO q) as [H|[->|(H & _)]]; [congruence | | congruence].
    apply download_existing in E as [-> _]; [assumption | assumption | exists b; assumption].
  Qed.
End Download.

Lemma ready_only cwd s s2 f f' : ready cwd s f -> ready cwd s f' -> only_file (target cwd s) f f' -> ready cwd s2 f -> ready cwd s2 f'.
Proof.
  intros R R' HO (H1 & H2 & H3 & H4). split; [assumption|]. split; [|split; apply R'].
  intros q x B E. destruct (HO q) as [H|[->|(_ & H & _)]]; [|eapply R'; [apply below_refl | exact E]|congruence].
  rewrite H in E. exact (H2 q x B E).
Qed.
