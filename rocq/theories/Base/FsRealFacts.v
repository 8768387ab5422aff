(** * Facts about [os.path.realpath] *)

From Verif Require Import Base.Py Base.Text Base.PyFacts Base.TextFacts Base.PathFacts Base.Fs Spec.FsSpec Base.FsFacts Base.FsLinks Base.FsReal Proofs.FilesProofs.

Lemma real_nil k f seen cur : real k f seen cur [] = (cur, true).
Proof. destruct k; reflexivity. Qed.
Lemma real_cons k f seen cur c rest : real k f seen cur (c :: rest) =
  if eqb c dotdot then real k f seen (tl cur) rest else
  match look f (c :: cur) with
  | Some (NLink t) =>
    if mem (c :: cur) seen then (lexical (c :: cur) rest, false)
    else
      match k with
      | O => (lexical (c :: cur) rest, false)
      | S k' =>
        let '(p, ok) := real k' f ((c :: cur) :: seen) (if is_abs t then [] else cur) (comps t) in
        if ok : bool then real k f seen p rest else (lexical p rest, false)
      end
  | _ => real k f seen (c :: cur) rest
  end.
Proof. destruct k; reflexivity. Qed.

(** Resolution of components, with the number of links followed. *)
Inductive walks (f : fs) : path -> list str -> path -> nat -> Prop :=
| walks_nil cur : walks f cur [] cur 0
| walks_up cur rest p n : walks f (tl cur) rest p n -> walks f cur (dotdot :: rest) p n
| walks_dir cur c rest p n : c <> dotdot -> look f (c :: cur) = Some NDir -> walks f (c :: cur) rest p n -> walks f cur (c :: rest) p n
| walks_last cur c : c <> dotdot -> look f (c :: cur) <> Some NDir -> (forall t, look f (c :: cur) <> Some (NLink t)) -> walks f cur [c] (c :: cur) 0
| walks_link cur c t rest q p n m : c <> dotdot -> look f (c :: cur) = Some (NLink t) ->
    walks f (if is_abs t then [] else cur) (comps t) q n -> walks f q rest p m -> walks f cur (c :: rest) p (S n + m).

Lemma walks_split f : forall a b cur p n, walks f cur (a ++ b) p n -> exists q m1 m2, walks f cur a q m1 /\ walks f q b p m2 /\ n = (m1 + m2)%nat.
Proof.
  induction a as [|c a IH]; intros b cur p n H; [exists cur, 0%nat, n; repeat split; [constructor | exact H]|].
  cbn [app] in H. inversion H as [|cur0 rest p0 n0 H1|cur0 c0 rest p0 n0 Hc Hl H1|cur0 c0 Hc Hl Hl' E1 E2|cur0 c0 t rest q0 p0 n0 m0 Hc Hl H1 H2]; subst.
  - apply IH in H1 as (q & m1 & m2 & Ha & Hb & ->). exists q, m1, m2. split; [constructor; exact Ha | auto].
  - apply IH in H1 as (q & m1 & m2 & Ha & Hb & ->). exists q, m1, m2. split; [apply walks_dir; assumption | auto].
  - match goal with E : [] = _ |- _ => symmetry in E; apply app_eq_nil in E as [-> ->] end. exists (c :: cur), 0%nat, 0%nat. split; [apply walks_last; assumption|]. split; [constructor | reflexivity].
  - apply IH in H2 as (q & m1 & m2 & Ha & Hb & ->). exists q, (S n0 + m1)%nat, m2. split; [eapply walks_link; eassumption|]. split; [exact Hb | lia].
Qed.
Lemma walks_det f : forall cur cs p n, walks f cur cs p n -> forall p' n', walks f cur cs p' n' -> p' = p /\ n' = n.
Proof.
  intros cur cs p n H. induction H as [cur|cur rest p n H IH|cur c rest p n Hc Hl H IH|cur c Hc Hl Hl'|cur c t rest q p n m Hc Hl H1 IH1 H2 IH2]; intros p' n' H'.
  - inversion H'. auto.
  - inversion H'; subst; try congruence. apply IH. assumption.
  - inversion H'; subst; try congruence. apply IH. assumption.
  - inversion H'; subst; try congruence; auto; exfalso; eapply Hl'; eassumption.
  - inversion H' as [| | |cur0 c0 Hc0 Hl0 Hl0'|cur0 c0 t0 rest0 q0 p0 n0 m0 Hc0 Hl0 H10 H20]; subst; try congruence.
    rewrite Hl in Hl0. injection Hl0 as <-. destruct (IH1 _ _ H10) as [-> ->]. destruct (IH2 _ _ H20) as [-> ->]. auto.
Qed.
Lemma resolve_walks f : forall k cs cur p, resolve k f true cur cs = Ok p -> exists n, walks f cur cs p n.
Proof.
  induction k as [|k IHk]; (induction cs as [|c cs IH]; intros cur p; [rewrite resolve_nil; intros E; injection E as <-; exists 0%nat; constructor|]);
    rewrite resolve_cons; (destruct (eqbP c dotdot) as [->|Hc]; [intros E; apply IH in E as [n Hn]; exists n; constructor; exact Hn|]);
    (destruct (look f (c :: cur)) as [[b| |t]|] eqn:El;
     [destruct cs; [|discriminate]; intros E; injection E as <-; exists 0%nat; apply walks_last; congruence
     |intros E; apply IH in E as [n Hn]; exists n; apply walks_dir; assumption
     |
     |destruct cs; [|discriminate]; intros E; injection E as <-; exists 0%nat; apply walks_last; congruence]).
  - destruct cs; discriminate.
  - intros E. assert (E' : resolve k f true (if is_abs t then [] else cur) (comps t ++ cs) = Ok p) by (destruct cs; exact E).
    apply IHk in E' as [n Hn]. apply walks_split in Hn as (q & m1 & m2 & H1 & H2 & ->). exists (S m1 + m2)%nat. eapply walks_link; eassumption.
Qed.
Lemma resolve_not_link f : fs_wf f -> forall k cs cur p, look f cur = Some NDir -> resolve k f true cur cs = Ok p -> forall t, look f p <> Some (NLink t).
Proof.
  intros Hw. induction k as [|k IHk]; (induction cs as [|c cs IH]; intros cur p Hcur; [rewrite resolve_nil; intros E; injection E as <-; congruence|]);
    rewrite resolve_cons; (destruct (eqbP c dotdot) as [->|Hc]; [apply IH; destruct cur as [|x cur]; [reflexivity|]; apply (Hw x); cbn [tl]; congruence|]);
    (destruct (look f (c :: cur)) as [[b| |t]|] eqn:El;
     [destruct cs; [|discriminate]; intros E; injection E as <-; congruence
     |apply IH; exact El
     |
     |destruct cs; [|discriminate]; intros E; injection E as <-; congruence]).
  - destruct cs; discriminate.
  - intros E. assert (E' : resolve k f true (if is_abs t then [] else cur) (comps t ++ cs) = Ok p) by (destruct cs; exact E).
    eapply IHk; [|exact E']. destruct (is_abs t); [reflexivity | exact Hcur].
Qed.

(** Python finds the same file as the kernel. *)
Definition pending (f : fs) (n : nat) (L : path) : Prop :=
  exists x cur t q m, L = x :: cur /\ look f L = Some (NLink t) /\ walks f (if is_abs t then [] else cur) (comps t) q m /\ (n <= m)%nat.
Lemma walks_real f : forall cur cs p n, walks f cur cs p n -> forall k seen, NoDup seen -> Forall (pending f n) seen -> (k + length seen = S (length f))%nat ->
  real k f seen cur cs = (p, true).
Proof.
  intros cur cs p n H. induction H as [cur|cur rest p n H IH|cur c rest p n Hc Hl H IH|cur c Hc Hl Hl'|cur c t rest q p n m Hc Hl H1 IH1 H2 IH2]; intros k seen Hnd HF Hk.
  - apply real_nil.
  - rewrite real_cons, eqbR. apply IH; assumption.
  - rewrite real_cons. apply eqbF in Hc. rewrite Hc, Hl. apply IH; assumption.
  - rewrite real_cons. apply eqbF in Hc. rewrite Hc. destruct (look f (c :: cur)) as [[b| |t]|] eqn:E; try (exfalso; eapply Hl'; reflexivity); rewrite real_nil; reflexivity.
  - rewrite real_cons. apply eqbF in Hc. rewrite Hc, Hl.
    assert (Hnew : ~ In (c :: cur) seen).
    { intros Hi. rewrite Forall_forall in HF. apply HF in Hi as (x & cur0 & t0 & q0 & m0 & E & Hl0 & Hw0 & Hle). injection E as <- <-.
      rewrite Hl in Hl0. injection Hl0 as <-. destruct (walks_det _ _ _ _ _ H1 _ _ Hw0) as [_ ->]. lia. }
    replace (mem (c :: cur) seen) with false by (symmetry; apply not_true_is_false; intros E; apply mem_In in E; contradiction).
    assert (Hnd' : NoDup ((c :: cur) :: seen)) by (constructor; assumption).
    assert (HF' : Forall (pending f n) ((c :: cur) :: seen)).
    { constructor.
      - exists c, cur, t, q, n. auto.
      - eapply Forall_impl; [|exact HF]. intros L (x & cur0 & t0 & q0 & m0 & E & Hl0 & Hw0 & Hle). exists x, cur0, t0, q0, m0. repeat split; try assumption. lia. }
    assert (Hlen : (length ((c :: cur) :: seen) <= length f)%nat).
    { rewrite <- (map_length fst f). apply NoDup_incl_length; [exact Hnd'|]. intros L HL. rewrite Forall_forall in HF'. apply HF' in HL as (x & cur0 & t0 & q0 & m0 & -> & Hl0 & _).
      unfold look in Hl0. apply dget_some_In in Hl0. apply (in_map fst) in Hl0. exact Hl0. }
    pose proof (Hlen : (S (length seen) <= length f)%nat) as Hlen'. destruct k as [|k]; [exfalso; clear - Hk Hlen'; unfold path in *; lia|].
    rewrite (IH1 k ((c :: cur) :: seen) Hnd' HF' ltac:(cbn [length]; clear - Hk; unfold path in *; lia)).
    apply IH2; [assumption | | assumption]. eapply Forall_impl; [|exact HF]. intros L (x & cur0 & t0 & q0 & m0 & E & Hl0 & Hw0 & Hle).
    exists x, cur0, t0, q0, m0. repeat split; try assumption. lia.
Qed.
Lemma realpath_locate cwd f s p : locate cwd f true s = Ok p -> realpath cwd f s = abs_text p.
Proof.
  intros E. unfold realpath. assert (E' : resolve max_links f true (if is_abs s then [] else cwd) (comps s) = Ok p) by (destruct s; [discriminate | exact E]).
  apply resolve_walks in E' as [n Hn]. rewrite (walks_real _ _ _ _ _ Hn (S (length f)) []); [reflexivity | constructor | constructor | cbn [length]; lia].
Qed.
(** Without links, nothing has to exist. *)
Lemma real_plain k f seen : forall cs cur, nolink f (rev cs ++ cur) -> ~ In dotdot cs -> real k f seen cur cs = (rev cs ++ cur, true).
Proof.
  induction cs as [|c cs IH]; intros cur Hn Hd; [apply real_nil|]. rewrite real_cons.
  replace (eqb c dotdot) with false by (symmetry; apply eqbF; intros ->; apply Hd; left; reflexivity).
  cbn [rev] in *. rewrite <- app_assoc in *. cbn [app] in *.
  assert (E : real k f seen (c :: cur) cs = (rev cs ++ c :: cur, true)) by (apply IH; [assumption | intros Hi; apply Hd; right; assumption]).
  destruct (look f (c :: cur)) as [[b| |t]|] eqn:El; try exact E. exfalso. eapply Hn; [|exact El]. apply below_app.
Qed.
Lemma realpath_plain cwd f s : nolink f (target cwd s) -> ~ In dotdot (comps s) -> realpath cwd f s = abs_text (target cwd s).
Proof. intros Hn Hd. unfold realpath. rewrite real_plain by assumption. reflexivity. Qed.

(** An absolute path denotes itself. *)
Lemma abs_text_comps p : Forall valid_name p -> comps (abs_text p) = rev p.
Proof.
  intros H. unfold abs_text. change (cSlash :: join [cSlash] (rev p)) with ([] ++ cSlash :: join [cSlash] (rev p)). rewrite comps_app, comps_nil. cbn [app].
  apply comps_join_names. apply Forall_rev. eapply Forall_impl; [|exact H]. apply valid_step.
Qed.
Lemma abs_text_target cwd p : Forall valid_name p -> target cwd (abs_text p) = p.
Proof. intros H. unfold target. rewrite abs_text_comps by assumption. rewrite rev_involutive. cbn. apply app_nil_r. Qed.
Lemma abs_text_dotdot p : Forall valid_name p -> ~ In dotdot (comps (abs_text p)).
Proof. intros H. rewrite abs_text_comps by assumption. rewrite <- in_rev. intros Hi. rewrite Forall_forall in H. apply H in Hi as (_ & _ & Hi & _). congruence. Qed.

(** Resolution does not depend on what is added. *)
Lemma resolve_keeps f f' fo : keeps f f' -> forall k cs cur p, resolve k f fo cur cs = Ok p -> look f p <> None -> resolve k f' fo cur cs = Ok p.
Proof.
  intros HK. induction k as [|k IHk]; (induction cs as [|c cs IH]; intros cur p; [rewrite !resolve_nil; auto|]);
    rewrite !resolve_cons; (destruct (eqb c dotdot); [apply IH|]); intros E Hp;
    (assert (El : look f (c :: cur) <> None \/ look f (c :: cur) = None) by (destruct (look f (c :: cur)); [left; discriminate | right; reflexivity]); destruct El as [El|El];
     [rewrite (HK _ El) | exfalso; rewrite El in E; destruct cs; [injection E as <-; congruence | discriminate]]);
    (destruct (look f (c :: cur)) as [[b| |t]|] eqn:El2; [exact E | apply IH; assumption | | congruence]).
  - exact E.
  - destruct cs, fo; try exact E; apply IHk; assumption.
Qed.
Lemma locate_keeps cwd f f' fo s p : keeps f f' -> locate cwd f fo s = Ok p -> look f p <> None -> locate cwd f' fo s = Ok p.
Proof. intros HK. unfold locate. destruct s; [discriminate|]. apply resolve_keeps. exact HK. Qed.

(** ** Checks of concrete filesystems *)

Definition valid_name_b (c : str) : bool := negb (eqb c []) && negb (eqb c [cDot]) && negb (eqb c dotdot) && negb (mem cSlash c).
Lemma valid_name_b_ok c : valid_name_b c = true -> valid_name c.
Proof.
  unfold valid_name_b. rewrite !andb_true_iff, !negb_true_iff. intros [[[H1 H2] H3] H4]. apply eqbF in H1, H2, H3. repeat split; try assumption.
  intros Hi. apply mem_In in Hi. congruence.
Qed.
Definition names_check (f : fs) : bool := forallb (fun e => match fst e with x :: _ => valid_name_b x | [] => true end) f.
Lemma names_check_ok f : names_check f = true -> forall x p, look f (x :: p) <> None -> valid_name x.
Proof.
  intros H x p Hx. unfold look in Hx. destruct (dget (x :: p) f) as [n|] eqn:E; [|destruct (Hx E)]. apply dget_some_In in E.
  unfold names_check in H. rewrite forallb_forall in H. specialize (H _ E). apply valid_name_b_ok. exact H.
Qed.
Fixpoint nolink_check (f : fs) (p : path) : bool :=
  match look f p with Some (NLink _) => false | _ => match p with [] => true | _ :: q => nolink_check f q end end.
Lemma nolink_check_ok f : forall p, nolink_check f p = true -> nolink f p.
Proof.
  induction p as [|x p IH]; intros H q t [m Em] Hl.
  - symmetry in Em. apply app_eq_nil in Em as [_ ->]. discriminate.
  - cbn [nolink_check] in H. destruct m as [|y m].
    + cbn [app] in Em. subst q. rewrite Hl in H. discriminate.
    + injection Em as -> ->. destruct (look f (y :: m ++ q)) as [[]|]; try discriminate; eapply IH; try exact H; try exact Hl; exists m; reflexivity.
Qed.
Definition strictly_b (p q : path) : bool := below_b p q && negb (eqb p q).
Lemma strictly_b_ok p q : strictly_b p q = false -> ~ strictly_below p q.
Proof.
  intros H (x & l & E). unfold strictly_b in H. assert (Hb : below_b p q = true) by (apply below_b_ok; exists (x :: l); exact E).
  rewrite Hb in H. cbn [andb] in H. destruct (eqbP p q) as [Epq|Hne]; [|discriminate]. rewrite Epq in E. apply (f_equal (@length _)) in E. cbn in E. rewrite app_length in E. lia.
Qed.

(** ** Resolution in several parts *)

Lemma resolve_mono f fo : forall k cs cur p k2, resolve k f fo cur cs = Ok p -> (k <= k2)%nat -> resolve k2 f fo cur cs = Ok p.
Proof.
  induction k as [|k IHk]; (induction cs as [|c cs IH]; intros cur p k2; [rewrite !resolve_nil; auto|]);
    rewrite !resolve_cons; (destruct (eqb c dotdot); [apply IH|]);
    (destruct (look f (c :: cur)) as [[b| |t]|]; [auto | apply IH | | auto]); destruct cs as [|c' cs]; try destruct fo; try discriminate; auto;
    destruct k2 as [|k2]; try lia; intros E Hk; apply IHk; (exact E || lia).
Qed.
Lemma resolve_split f : forall k a b cur p, resolve k f true cur (a ++ b) = Ok p ->
  exists k' q, (k' <= k)%nat /\ resolve k f true cur a = Ok q /\ resolve k' f true q b = Ok p.
Proof.
  induction k as [|k IHk]; (induction a as [|c a IH]; intros b cur p E; [eexists _, cur; split; [apply le_n|]; split; [apply resolve_nil | exact E]|]);
    cbn [app] in E; rewrite resolve_cons in E; rewrite resolve_cons; (destruct (eqb c dotdot); [apply IH; exact E|]);
    (destruct (look f (c :: cur)) as [[x| |t]|]; [| apply IH; exact E | |]).
  all: try (destruct a as [|c' a]; cbn [app] in E; [|discriminate]; destruct b; [|discriminate]; eexists _, _; split; [apply le_n|]; split; [reflexivity | rewrite resolve_nil; exact E]).
  - destruct (a ++ b); discriminate.
  - assert (E' : resolve k f true (if is_abs t then [] else cur) ((comps t ++ a) ++ b) = Ok p) by (rewrite <- app_assoc; destruct (a ++ b); exact E).
    apply IHk in E' as (k' & q & Hk & E1 & E2). exists k', q. split; [lia|]. split; [destruct a; exact E1 | exact E2].
Qed.
Lemma resolve_join f : forall k a b cur q m p, resolve k f true cur a = Ok q -> look f q = Some NDir -> resolve m f true q b = Ok p ->
  resolve (k + m) f true cur (a ++ b) = Ok p.
Proof.
  induction k as [|k IHk]; (induction a as [|c a IH]; intros b cur q m p E Hq Eb; [rewrite resolve_nil in E; injection E as <-; cbn [app]; eapply resolve_mono; [exact Eb | lia]|]);
    cbn [app]; rewrite resolve_cons in E; rewrite resolve_cons; (destruct (eqb c dotdot); [eapply IH; eassumption|]);
    (destruct (look f (c :: cur)) as [[x| |t]|] eqn:El; [| eapply IH; eassumption | |]).
  all: try (destruct a; [|discriminate]; injection E as <-; congruence).
  - destruct a; discriminate.
  - assert (E' : resolve k f true (if is_abs t then [] else cur) (comps t ++ a) = Ok q) by (destruct a; exact E).
    pose proof (IHk _ b _ _ m p E' Hq Eb) as G. rewrite <- app_assoc in G. cbn [Nat.add]. destruct (a ++ b); exact G.
Qed.
