(** * Facts about the filesystem model *)

From Verif Require Import Base.TextFacts Base.PathFacts Base.Fs Spec.FsSpec.

(** ** Lookup *)

Lemma dget_ddel {K V} `{EqDec K} (k k' : K) (d : list (K * V)) : dget k (ddel k' d) = if eqb k k' then None else dget k d.
Proof.
  unfold ddel. induction d as [|[k0 v] d IH]; cbn [filter dget fst]; [destruct (eqb k k'); reflexivity|].
  destruct (eqbP k' k0) as [->|Hn]; cbn [negb].
  - rewrite IH. destruct (eqb k k0); reflexivity.
  - cbn [dget]. rewrite IH. destruct (eqbP k k0) as [->|]; [|reflexivity].
    destruct (eqbP k0 k') as [->|]; [congruence | reflexivity].
Qed.
Lemma look_put f p n q : p <> [] -> look (put p n f) q = if eqb q p then Some n else look f q.
Proof.
  intros Hp. unfold look, put. destruct q as [|c q].
  - replace (eqb (@nil str) p) with false by (symmetry; apply eqbF; congruence). reflexivity.
  - rewrite dget_dset. reflexivity.
Qed.
Lemma look_del f p q : p <> [] -> look (del p f) q = if eqb q p then None else look f q.
Proof.
  intros Hp. unfold look, del. destruct q as [|c q].
  - replace (eqb (@nil str) p) with false by (symmetry; apply eqbF; congruence). reflexivity.
  - rewrite dget_ddel. reflexivity.
Qed.
Lemma look_put_same f p n : p <> [] -> look (put p n f) p = Some n.
Proof. intros Hp. rewrite look_put, eqbR by assumption. reflexivity. Qed.
Lemma look_put_other f p n q : q <> p -> look (put p n f) q = look f q.
Proof.
  intros Hq. unfold look, put. destruct q; [reflexivity|]. apply dget_dset_other. assumption.
Qed.
Lemma look_del_same f p : p <> [] -> look (del p f) p = None.
Proof. intros Hp. rewrite look_del, eqbR by assumption. reflexivity. Qed.
Lemma look_del_other f p q : q <> p -> look (del p f) q = look f q.
Proof.
  intros Hq. unfold look, del. destruct q; [reflexivity|]. rewrite dget_ddel. apply eqbF in Hq. rewrite Hq. reflexivity.
Qed.
Lemma look_none f p : look f p = None -> p <> [].
Proof. intros H ->. discriminate. Qed.

(** ** Below *)

Lemma below_refl p : below p p.
Proof. exists []. reflexivity. Qed.
Lemma below_trans p q r : below p q -> below q r -> below p r.
Proof. intros [l ->] [l' ->]. exists (l ++ l'). rewrite app_assoc. reflexivity. Qed.
Lemma below_cons x p : below (x :: p) p.
Proof. exists [x]. reflexivity. Qed.
Lemma below_app l p : below (l ++ p) p.
Proof. exists l. reflexivity. Qed.
Lemma below_cases p q : below p q -> p = q \/ strictly_below p q.
Proof. intros [[|x l] ->]; [left; reflexivity | right; exists x, l; reflexivity]. Qed.
Lemma strictly_below_below p q : strictly_below p q -> below p q.
Proof. intros (x & l & ->). exists (x :: l). reflexivity. Qed.
Lemma strictly_below_irrefl p : ~ strictly_below p p.
Proof. intros (x & l & E). apply (f_equal (@length _)) in E. cbn in E. rewrite app_length in E. lia. Qed.
Lemma strictly_below_trans p q r : below p q -> strictly_below q r -> strictly_below p r.
Proof. intros [l ->] (x & l' & ->). destruct l as [|y l]; [exists x, l'; reflexivity|]. exists y, (l ++ x :: l'). rewrite <- app_assoc. reflexivity. Qed.
Lemma strictly_below_trans' p q r : strictly_below p q -> below q r -> strictly_below p r.
Proof. intros (x & l & ->) [l' ->]. exists x, (l ++ l'). rewrite <- app_assoc. reflexivity. Qed.

Lemma nolink_anc f p q : nolink f p -> below p q -> nolink f q.
Proof. intros H B r t B'. apply H. eapply below_trans; eassumption. Qed.

(** ** Resolution without links *)

Lemma resolve_nil k f fo cur : resolve k f fo cur [] = Ok cur.
Proof. destruct k; reflexivity. Qed.
Lemma resolve_cons k f fo cur c rest : resolve k f fo cur (c :: rest) =
  if eqb c dotdot then resolve k f fo (tl cur) rest else
  match look f (c :: cur) with
  | None => match rest with [] => Ok (c :: cur) | _ => Err (OSError ENOENT) end
  | Some NDir => resolve k f fo (c :: cur) rest
  | Some (NFile _) => match rest with [] => Ok (c :: cur) | _ => Err (OSError ENOTDIR) end
  | Some (NLink t) =>
    match rest, fo with
    | [], false => Ok (c :: cur)
    | _, _ =>
      match k with
      | O => Err (OSError ELOOP)
      | S k' => resolve k' f fo (if is_abs t then [] else cur) (comps t ++ rest)
      end
    end
  end.
Proof. destruct k; reflexivity. Qed.

Definition dirs_to (f : fs) (cur : path) (cs : list str) : Prop :=
  forall a b, cs = a ++ b -> a <> [] -> b <> [] -> look f (rev a ++ cur) = Some NDir.

Lemma dirs_to_cons f cur c rest : rest <> [] ->
  dirs_to f cur (c :: rest) <-> look f (c :: cur) = Some NDir /\ dirs_to f (c :: cur) rest.
Proof.
  intros Hr. split.
  - intros H. split; [apply (H [c] rest); [reflexivity | discriminate | assumption]|].
    intros a b -> Ha Hb. specialize (H (c :: a) b eq_refl ltac:(discriminate) Hb). cbn [rev] in H.
    rewrite <- app_assoc in H. exact H.
  - intros [Hc H] [|x a] b E Ha Hb; [congruence|]. injection E as <- ->. cbn [rev]. rewrite <- app_assoc. cbn [app].
    destruct a as [|y a]; [exact Hc|]. apply (H (y :: a) b eq_refl ltac:(discriminate) Hb).
Qed.
Lemma dirs_to_one f cur c : dirs_to f cur [c].
Proof. intros [|x [|y a]] [|z b] E Ha Hb; try congruence; discriminate. Qed.

Lemma resolve_plain k f fo : forall cs cur p,
  nolink f (rev cs ++ cur) -> ~ In dotdot cs ->
  resolve k f fo cur cs = Ok p <-> p = rev cs ++ cur /\ dirs_to f cur cs.
Proof.
  induction cs as [|c rest IH]; intros cur p Hn Hd.
  - rewrite resolve_nil. cbn [rev app]. split.
    + intros E. injection E as <-. split; [reflexivity|]. intros [|] ? E; [congruence | discriminate].
    + intros [-> _]. reflexivity.
  - rewrite resolve_cons.
    replace (eqb c dotdot) with false by (symmetry; apply eqbF; intros ->; apply Hd; left; reflexivity).
    cbn [rev] in *. rewrite <- app_assoc in *. cbn [app] in *.
    assert (Hc : forall t, look f (c :: cur) <> Some (NLink t)) by (intros t; apply Hn; apply below_app).
    destruct rest as [|c' rest'] eqn:Er.
    + cbn [rev app]. destruct (look f (c :: cur)) as [[b| |t]|] eqn:E; try (exfalso; eapply Hc; reflexivity).
      * split; [intros E'; injection E' as <-; split; [reflexivity | apply dirs_to_one] | intros [-> _]; reflexivity].
      * rewrite resolve_nil. split; [intros E'; injection E' as <-; split; [reflexivity | apply dirs_to_one] | intros [-> _]; reflexivity].
      * split; [intros E'; injection E' as <-; split; [reflexivity | apply dirs_to_one] | intros [-> _]; reflexivity].
    + rewrite <- Er in *. assert (Hne : rest <> []) by (rewrite Er; discriminate).
      rewrite dirs_to_cons by assumption.
      destruct (look f (c :: cur)) as [[b| |t]|] eqn:E; try (exfalso; eapply Hc; reflexivity).
      * rewrite Er. split; [discriminate | intros (_ & E' & _); discriminate].
      * rewrite IH; [tauto | assumption | intros Hi; apply Hd; right; assumption].
      * rewrite Er. split; [discriminate | intros (_ & E' & _); discriminate].
Qed.

(** The error of a failed resolution. *)
Lemma resolve_err_os f fo : forall k cs cur e, resolve k f fo cur cs = Err e -> is_oserror e = true.
Proof.
  induction k as [|k IHk]; (induction cs as [|c cs IH]; intros cur e; [rewrite resolve_nil; discriminate|]);
    rewrite resolve_cons; (destruct (eqb c dotdot); [apply IH|]);
    (destruct (look f (c :: cur)) as [[b| |t]|];
     [destruct cs; [discriminate | intros E; injection E as <-; reflexivity] | apply IH |
      | destruct cs; [discriminate | intros E; injection E as <-; reflexivity]]).
  - destruct cs, fo; try discriminate; intros E; injection E as <-; reflexivity.
  - destruct cs, fo; try discriminate; apply IHk.
Qed.
Lemma resolve_plain_err k f fo : forall cs cur,
  nolink f (rev cs ++ cur) -> ~ In dotdot cs -> ~ dirs_to f cur cs ->
  exists e, resolve k f fo cur cs = Err (OSError e).
Proof.
  intros cs cur Hn Hd Hx. destruct (resolve k f fo cur cs) as [p|e] eqn:E.
  - apply resolve_plain in E; tauto.
  - assert (H : forall k cs cur e, resolve k f fo cur cs = Err e -> exists x, e = OSError x).
    { clear. induction k as [|k IHk]; (induction cs as [|c cs IH]; intros cur e; [rewrite resolve_nil; discriminate|]);
        rewrite resolve_cons; (destruct (eqb c dotdot); [apply IH|]);
        (destruct (look f (c :: cur)) as [[b| |t]|]; [destruct cs; [discriminate | intros E; injection E as <-; eauto] | apply IH | | destruct cs; [discriminate | intros E; injection E as <-; eauto]]).
      - destruct cs, fo; try discriminate; intros E; injection E as <-; eauto.
      - destruct cs, fo; try discriminate; apply IHk. }
    apply H in E as [x ->]. eauto.
Qed.

(** ** Components *)

Definition keepc (c : str) : bool := negb (eqb c []) && negb (eqb c [cDot]).
Lemma comps_unfold s : comps s = filter keepc (split_ch cSlash s).
Proof. reflexivity. Qed.
Lemma comps_app a b : comps (a ++ cSlash :: b) = comps a ++ comps b.
Proof. rewrite !comps_unfold, split_ch_app_gen, filter_app. reflexivity. Qed.
Lemma comps_nil : comps [] = [].
Proof. reflexivity. Qed.
Lemma comps_one (s : str) : ~ In cSlash s -> s <> [] -> s <> [cDot] -> comps s = [s].
Proof.
  intros Hs H1 H2. rewrite comps_unfold, split_ch_none by assumption. cbn [filter]. unfold keepc.
  destruct (eqb s []) eqn:E1; [apply eqb_true in E1; contradiction|].
  destruct (eqb s [cDot]) eqn:E2; [apply eqb_true in E2; contradiction|]. reflexivity.
Qed.
Lemma comps_slashes s : forallb (N.eqb cSlash) s = true -> comps s = [].
Proof.
  intros H. assert (Forall (fun c => c = []) (split_ch cSlash s)) as F.
  { induction s as [|c s IH]; cbn [split_ch]; [repeat constructor|]. cbn [forallb] in H.
    apply andb_true_iff in H as [H1 H2]. assert (c = cSlash) as -> by lia. rewrite eqbR. constructor; auto. }
  rewrite comps_unfold. induction F as [|c l -> F IH]; [reflexivity | exact IH].
Qed.
Lemma comps_rstrip s : comps (rstrip (N.eqb cSlash) s) = comps s.
Proof.
  destruct (rstrip_spec (N.eqb cSlash) s) as (p & E & Hp & _). set (r := rstrip _ s) in *. rewrite E.
  destruct p as [|c p]; [rewrite app_nil_r; reflexivity|]. cbn [forallb] in Hp. apply andb_true_iff in Hp as [H1 H2].
  assert (c = cSlash) as -> by lia. rewrite comps_app, (comps_slashes p H2), app_nil_r. reflexivity.
Qed.
Lemma comps_split s : comps s = comps (dirname s) ++ comps (basename s).
Proof.
  unfold dirname, basename, path_split. destruct (cut_last cSlash s) as [[h t]|] eqn:E; [|reflexivity].
  apply cut_last_Some in E as [-> _]. rewrite comps_app.
  assert (Eh : comps (h ++ [cSlash]) = comps h) by (rewrite comps_app, comps_nil, app_nil_r; reflexivity).
  destruct (forallb _ _); cbn [fst snd]; rewrite ?comps_rstrip, Eh; reflexivity.
Qed.
Lemma is_abs_dirname s : dirname s <> [] -> is_abs (dirname s) = is_abs s.
Proof.
  unfold dirname, path_split. destruct (cut_last cSlash s) as [[h t]|] eqn:E; cbn [fst]; [|congruence].
  apply cut_last_Some in E as [-> _]. intros Hne.
  destruct (forallb (N.eqb cSlash) (h ++ [cSlash])) eqn:Ef; cbn [fst] in *.
  - destruct h; reflexivity.
  - destruct (rstrip_spec (N.eqb cSlash) (h ++ [cSlash])) as (p & E & _ & _).
    set (r := rstrip _ _) in *. replace (h ++ cSlash :: t) with ((h ++ [cSlash]) ++ t) by (rewrite <- app_assoc; reflexivity).
    rewrite E. destruct r; [congruence | reflexivity].
Qed.
Lemma plain_path_comps s : plain_path s -> comps s = comps (dirname s) ++ [basename s].
Proof. intros (_ & _ & H1 & H2). rewrite comps_split. f_equal. apply comps_one; [apply basename_no_slash | assumption | assumption]. Qed.
Lemma target_dirname cwd s : plain_path s -> target cwd s = basename s :: target cwd (dirname s).
Proof.
  intros H. unfold target. rewrite (plain_path_comps s H), rev_app_distr. cbn [rev app].
  destruct H as (_ & Hd & _). rewrite is_abs_dirname by assumption. reflexivity.
Qed.
Lemma plain_nonempty s : plain_path s -> s <> [].
Proof. intros (_ & H & _) ->. apply H. reflexivity. Qed.
Lemma target_nonempty cwd s : plain_path s -> target cwd s <> [].
Proof. intros H. rewrite target_dirname by assumption. discriminate. Qed.
Lemma comps_join a b : is_abs b = false -> comps (path_join a b) = comps a ++ comps b.
Proof.
  intros Hb. unfold path_join.
  assert (startswith b [cSlash] = false) as ->.
  { destruct b as [|c b]; [reflexivity|]. cbn in *. destruct (eqbP c cSlash) as [->|]; [discriminate | reflexivity]. }
  destruct (eqbP a []) as [->|Ha]; cbn [orb]; [reflexivity|].
  destruct (endswith a [cSlash]) eqn:E.
  - apply endswith_iff in E as (r & ->). rewrite <- app_assoc. cbn [app]. rewrite !comps_app, comps_nil, app_nil_r. reflexivity.
  - cbn [app]. apply comps_app.
Qed.
Lemma is_abs_join a b : is_abs b = false -> a <> [] -> is_abs (path_join a b) = is_abs a.
Proof.
  intros Hb Ha. unfold path_join.
  assert (startswith b [cSlash] = false) as ->.
  { destruct b as [|c b]; [reflexivity|]. cbn in *. destruct (eqbP c cSlash) as [->|]; [discriminate | reflexivity]. }
  destruct a as [|c a]; [congruence|]. destruct (eqb _ _ || _); reflexivity.
Qed.
Lemma target_join cwd a b : is_abs b = false -> a <> [] -> target cwd (path_join a b) = rev (comps b) ++ target cwd a.
Proof. intros Hb Ha. unfold target. rewrite comps_join, is_abs_join by assumption. rewrite rev_app_distr, app_assoc. reflexivity. Qed.

(** Locating plain paths. *)
Lemma locate_plain cwd f fo s p : s <> [] -> ~ In dotdot (comps s) -> nolink f (target cwd s) ->
  locate cwd f fo s = Ok p <-> p = target cwd s /\ dirs_to f (if is_abs s then [] else cwd) (comps s).
Proof.
  intros Hs Hd Hn. unfold locate. destruct s as [|c s]; [congruence|]. unfold at_loc, loc_of. cbn [fst snd].
  apply resolve_plain; assumption.
Qed.
Lemma look_locate cwd f fo s : s <> [] -> ~ In dotdot (comps s) -> nolink f (target cwd s) ->
  node_of f (locate cwd f fo s) = match locate cwd f fo s with Ok _ => look f (target cwd s) | Err _ => None end.
Proof.
  intros Hs Hd Hn. destruct (locate cwd f fo s) as [p|] eqn:E; [|reflexivity]. cbn [node_of].
  apply locate_plain in E as [-> _]; [reflexivity | assumption..].
Qed.

(** ** Programs *)

Lemma run_bind {A B} (p : prog A) (k : A -> prog B) : forall pl f,
  run (bind p k) pl f =
  match run p pl f with
  | (Done a, pl', f') => run (k a) pl' f'
  | (Raised e, pl', f') => (Raised e, pl', f')
  | (Crashed, pl', f') => (Crashed, pl', f')
  end.
Proof.
  induction p as [a|e|eff c IH]; intros pl f; cbn [bind run]; [reflexivity | reflexivity |].
  destruct pl as [|[[e n|n]|] pl']; [apply IH | apply IH | reflexivity | apply IH].
Qed.
Lemma run_catch {A} (p : prog A) (h : exn -> prog A) : forall pl f,
  run (catch p h) pl f =
  match run p pl f with
  | (Done a, pl', f') => (Done a, pl', f')
  | (Raised e, pl', f') => run (h e) pl' f'
  | (Crashed, pl', f') => (Crashed, pl', f')
  end.
Proof.
  induction p as [a|e|eff c IH]; intros pl f; cbn [catch run]; [reflexivity | reflexivity |].
  destruct pl as [|[[e n|n]|] pl']; [apply IH | apply IH | reflexivity | apply IH].
Qed.
Lemma run_query {A} (g : fs -> A) pl f a pl' f' : run (query g) pl f = (Done a, pl', f') -> a = g f /\ f' = f.
Proof. destruct pl as [|[[e n|n]|] pl]; cbn; intros E; try discriminate; injection E as <- <- <-; auto. Qed.
Lemma run_query_fs {A} (g : fs -> A) pl f o pl' f' : run (query g) pl f = (o, pl', f') -> f' = f /\ (o = Done (g f) \/ o = Crashed).
Proof. destruct pl as [|[[e n|n]|] pl]; cbn; intros E; injection E as <- <- <-; auto. Qed.
Lemma run_sys_done {A} (op : fs -> result (A * fs)) part pl f a pl' f' :
  run (sys_part op part) pl f = (Done a, pl', f') -> op f = Ok (a, f').
Proof.
  destruct pl as [|[[e n|n]|] pl]; cbn; try discriminate; destruct (op f) as [[a' f1]|e']; cbn; intros E; try discriminate;
    injection E as <- <- <-; reflexivity.
Qed.

Lemma run_sys_raised {A} (op : fs -> result (A * fs)) pl f e pl' f' :
  run (sys op) pl f = (Raised e, pl', f') -> f' = f.
Proof.
  unfold sys. destruct pl as [|[[e0 n|n]|] pl]; cbn; try discriminate; try (intros E; injection E as <- <- <-; reflexivity);
    destruct (op f) as [[a' f1]|e']; cbn; intros E; try discriminate; injection E as <- <- <-; reflexivity.
Qed.

(** [safe I R Q p]: as long as [I] holds, every effect of [p] (complete or interrupted) satisfies
    [R] and preserves [I], and results satisfy [Q]. *)
Fixpoint safe {A} (I : fs -> Prop) (R : fs -> fs -> Prop) (Q : A -> Prop) (p : prog A) : Prop :=
  match p with
  | Ret a => Q a
  | Rai _ => True
  | Act eff k => forall f, I f -> (forall o, R f (eff o f) /\ I (eff o f)) /\ (forall o, safe I R Q (k o f))
  end.

Section Safe.
  Variable I : fs -> Prop.
  Variable R : fs -> fs -> Prop.
  Hypothesis Rrefl : forall f, R f f.
  Hypothesis Rtrans : forall a b c, R a b -> R b c -> R a c.

  Lemma safe_weaken {A} (Q Q' : A -> Prop) p : (forall a, Q a -> Q' a) -> safe I R Q p -> safe I R Q' p.
  Proof.
    intros HQ. induction p as [a|e|eff c IH]; cbn [safe]; [apply HQ | auto |].
    intros H f Hf. destruct (H f Hf) as [H1 H2]. split; [assumption|]. intros o. apply IH. apply H2.
  Qed.
  Lemma safe_bind {A B} (Q : A -> Prop) (Q' : B -> Prop) (p : prog A) (k : A -> prog B) :
    safe I R Q p -> (forall a, Q a -> safe I R Q' (k a)) -> safe I R Q' (bind p k).
  Proof.
    intros Hp Hk. induction p as [a|e|eff c IH]; cbn [safe bind] in *; [apply Hk; assumption | auto |].
    intros f Hf. destruct (Hp f Hf) as [H1 H2]. split; [assumption|]. intros o. apply IH. apply H2.
  Qed.
  Lemma safe_catch {A} (Q : A -> Prop) (p : prog A) (h : exn -> prog A) :
    safe I R Q p -> (forall e, safe I R Q (h e)) -> safe I R Q (catch p h).
  Proof.
    intros Hp Hk. induction p as [a|e|eff c IH]; cbn [safe catch] in *; [assumption | apply Hk |].
    intros f Hf. destruct (Hp f Hf) as [H1 H2]. split; [assumption|]. intros o. apply IH. apply H2.
  Qed.
  Lemma safe_query {A} (Q : A -> Prop) (g : fs -> A) : (forall f, I f -> Q (g f)) -> safe I R Q (query g).
  Proof. intros HQ f Hf. split; [intros o; split; [apply Rrefl | assumption] | intros o; apply HQ; assumption]. Qed.
  Lemma safe_sys_part {A} (Q : A -> Prop) (op : fs -> result (A * fs)) part :
    (forall f a f', I f -> op f = Ok (a, f') -> R f f' /\ I f' /\ Q a) ->
    (forall n f, I f -> R f (part n f) /\ I (part n f)) ->
    safe I R Q (sys_part op part).
  Proof.
    intros Hop Hpart f Hf. split.
    - intros [n|]; [apply Hpart; assumption|]. destruct (op f) as [[a f']|] eqn:E; [|split; [apply Rrefl | assumption]].
      destruct (Hop f a f' Hf E) as (? & ? & ?). auto.
    - intros [e|]; [exact Logic.I|]. destruct (op f) as [[a f']|] eqn:E; [|exact Logic.I].
      destruct (Hop f a f' Hf E) as (? & ? & ?). assumption.
  Qed.
  Lemma safe_sys {A} (Q : A -> Prop) (op : fs -> result (A * fs)) :
    (forall f a f', I f -> op f = Ok (a, f') -> R f f' /\ I f' /\ Q a) -> safe I R Q (sys op).
  Proof. intros H. apply safe_sys_part; [assumption|]. intros n f Hf. auto. Qed.
  Lemma safe_for_each {A} (l : list A) body : (forall x, In x l -> safe I R (fun _ => True) (body x)) ->
    safe I R (fun _ => True) (for_each l body).
  Proof.
    induction l as [|x l IH]; intros H; cbn [for_each]; [exact Logic.I|].
    eapply safe_bind; [apply H; left; reflexivity|]. intros _ _. apply IH. intros y Hy. apply H. right. assumption.
  Qed.
  Lemma safe_lift {A} (Q : A -> Prop) (r : result A) : (forall a, r = Ok a -> Q a) -> safe I R Q (lift r).
  Proof. destruct r; cbn; auto. Qed.

  Lemma safe_run {A} (Q : A -> Prop) (p : prog A) : safe I R Q p -> forall pl f o pl' f',
    I f -> run p pl f = (o, pl', f') -> R f f' /\ I f' /\ match o with Done a => Q a | _ => True end.
  Proof.
    induction p as [a|e|eff c IH]; cbn [safe run]; intros Hs pl f o pl' f' Hf E.
    - injection E as <- <- <-. auto.
    - injection E as <- <- <-. auto.
    - destruct (Hs f Hf) as [H1 H2].
      destruct pl as [|[[e n|n]|] pl].
      + destruct (H1 None) as [Ha Hb]. destruct (IH None f (H2 None) _ _ _ _ _ Hb E) as (? & ? & ?). eauto.
      + destruct (H1 (Some n)) as [Ha Hb]. destruct (IH (Some e) f (H2 (Some e)) _ _ _ _ _ Hb E) as (? & ? & ?). eauto.
      + injection E as <- <- <-. destruct (H1 (Some n)) as [Ha Hb]. auto.
      + destruct (H1 None) as [Ha Hb]. destruct (IH None f (H2 None) _ _ _ _ _ Hb E) as (? & ? & ?). eauto.
  Qed.
  Lemma safe_step {A} (Q : A -> Prop) (p : prog A) o f p' f' : safe I R Q p -> I f -> step o p f = Some (p', f') ->
    R f f' /\ I f' /\ safe I R Q p'.
  Proof.
    destruct p as [a|e|eff c]; cbn [safe step]; intros Hs Hf E; try discriminate. injection E as <- <-.
    destruct (Hs f Hf) as [H1 H2]. destruct (H1 (option_map snd o)). auto.
  Qed.
End Safe.

(** ** Directories *)

(** [f'] is [f] plus missing directories at or above [t]. *)
Definition adds_dirs (t : path) (f f' : fs) : Prop :=
  forall q, look f' q = look f q \/ (look f q = None /\ look f' q = Some NDir /\ below t q).
Lemma adds_dirs_refl t f : adds_dirs t f f.
Proof. intros q. auto. Qed.
Lemma adds_dirs_trans t a b c : adds_dirs t a b -> adds_dirs t b c -> adds_dirs t a c.
Proof.
  intros H1 H2 q. destruct (H1 q) as [E1|(E1 & E1' & B1)], (H2 q) as [E2|(E2 & E2' & B2)].
  - left. congruence.
  - right. rewrite <- E1. auto.
  - right. rewrite E2. auto.
  - congruence.
Qed.
Lemma adds_dirs_nolink t f f' p : adds_dirs t f f' -> nolink f p -> nolink f' p.
Proof. intros H Hn q x B E. destruct (H q) as [E'|(_ & E' & _)]; [|congruence]. rewrite E' in E. exact (Hn q x B E). Qed.
Lemma adds_dirs_dir t f f' p : adds_dirs t f f' -> look f p = Some NDir -> look f' p = Some NDir.
Proof. intros H E. destruct (H p) as [E'|(E' & _)]; congruence. Qed.

Lemma put_dir_adds t p f : look f p = None -> below t p -> adds_dirs t f (put p NDir f).
Proof.
  intros Hl Hb q. rewrite look_put by (eapply look_none; exact Hl). destruct (eqbP q p) as [->|]; [right; auto | left; reflexivity].
Qed.

Lemma makedirs_safe start t : forall r, below t (r ++ start) -> ~ In dotdot r ->
  safe (fun f => nolink f t) (adds_dirs t) (fun _ => True) (makedirs_r start r).
Proof.
  assert (Hcreate : forall r, below t (r ++ start) -> ~ In dotdot r ->
    safe (fun f => nolink f t) (adds_dirs t) (fun _ => True) (sys (create_at NDir (start, rev r)))).
  { intros r Hb Hd. apply safe_sys; [intros; apply adds_dirs_refl|]. intros f a f' Hn E.
    unfold create_at in E. apply rbind_Ok in E as (p & Ep & E). unfold at_loc in Ep. cbn [fst snd] in Ep.
    apply resolve_plain in Ep as [-> _];
      [|rewrite rev_involutive; eapply nolink_anc; eassumption | rewrite <- in_rev; assumption].
    rewrite rev_involutive in E. destruct (look f (r ++ start)) eqn:El; [discriminate|].
    apply (f_equal (fun x => match x with Ok (_, y) => y | Err _ => f' end)) in E. cbn in E. subst f'.
    assert (HA := put_dir_adds t _ f El Hb). split; [exact HA|]. split; [|exact Logic.I]. eapply adds_dirs_nolink; eassumption. }
  assert (Hlast : forall r, below t (r ++ start) -> ~ In dotdot r ->
    safe (fun f => nolink f t) (adds_dirs t) (fun _ => True)
      (mkdir_ok (start, rev r))).
  { intros r Hb Hd. apply safe_catch; [apply Hcreate; assumption|]. intros e. destruct (is_oserror e); [|exact Logic.I].
    eapply (safe_bind _ _ (fun _ => True)); [apply safe_query; [intros; apply adds_dirs_refl|]; intros; exact Logic.I|]. intros [|] _; exact Logic.I. }
  induction r as [|x r IH]; intros Hb Hd.
  - cbn [makedirs_r]. eapply (safe_bind _ _ (fun _ => True)); [exact Logic.I|]. intros _ _. apply Hlast; assumption.
  - assert (Hb' : below t (r ++ start)) by (eapply below_trans; [exact Hb | exists [x]; reflexivity]).
    assert (Hd' : ~ In dotdot r) by (intros Hi; apply Hd; right; assumption).
    cbn [makedirs_r]. eapply (safe_bind _ _ (fun _ => True)); [|intros _ _; apply Hlast; assumption].
    destruct r as [|y r]; [exact Logic.I|].
    eapply (safe_bind _ _ (fun _ => True)); [apply safe_query; [intros; apply adds_dirs_refl | auto]|].
    intros [|] _; [exact Logic.I|]. apply safe_catch; [apply IH; assumption|].
    intros e. destruct e as [| | | | | | | | | | | |[]| | | |]; exact Logic.I.
Qed.

Lemma at_loc_plain f fo start cs p : nolink f (rev cs ++ start) -> ~ In dotdot cs ->
  at_loc f fo (start, cs) = Ok p <-> p = rev cs ++ start /\ dirs_to f start cs.
Proof. apply resolve_plain. Qed.
Lemma mkdir_ok_done start r pl1 f1 a pl' f' : nolink f1 (r ++ start) -> ~ In dotdot (rev r) ->
  run (mkdir_ok (start, rev r)) pl1 f1 = (Done a, pl', f') -> dirs_to f' start (rev r) /\ look f' (r ++ start) = Some NDir.
Proof.
  intros Hn1 Hd2. unfold mkdir_ok. rewrite run_catch.
  destruct (run (sys (create_at NDir (start, rev r))) pl1 f1) as [[[u|e|] pl2] f2] eqn:E1; try discriminate.
  - intros E. injection E as -> -> ->. apply run_sys_done in E1. unfold create_at in E1.
    apply rbind_Ok in E1 as (p & Ep & E1).
    apply at_loc_plain in Ep as [-> Hdt]; [|rewrite rev_involutive; assumption | assumption].
    rewrite rev_involutive in E1. destruct (look f1 (r ++ start)) eqn:El; [discriminate|].
    apply (f_equal (fun x => match x with Ok (_, y) => y | Err _ => f' end)) in E1. cbn beta iota in E1. subst f'.
    assert (HA := put_dir_adds (r ++ start) _ f1 El (below_refl _)). split.
    + intros a0 b0 E Ha Hb. eapply adds_dirs_dir; [exact HA|]. eapply Hdt; eassumption.
    + apply look_put_same. eapply look_none. exact El.
  - apply run_sys_raised in E1. subst f2. destruct (is_oserror e); [|discriminate]. rewrite run_bind.
    destruct (run (query (loc_isdir (start, rev r))) pl2 f1) as [[[d|?|] pl3] f3] eqn:E2; try discriminate.
    apply run_query in E2 as [-> ->]. destruct (loc_isdir (start, rev r) f1) eqn:Ed; [|discriminate].
    intros E. injection E as _ _ <-. unfold loc_isdir in Ed.
    destruct (at_loc f1 true (start, rev r)) as [p|] eqn:Ep; cbn [node_of] in Ed; [|discriminate].
    apply at_loc_plain in Ep as [-> Hdt]; [|rewrite rev_involutive; assumption | assumption].
    rewrite rev_involutive in Ed. destruct (look f1 (r ++ start)) as [[]|]; try discriminate. auto.
Qed.
Lemma makedirs_done start r pl f a pl' f' :
  nolink f (r ++ start) -> ~ In dotdot r ->
  run (makedirs_r start r) pl f = (Done a, pl', f') ->
  dirs_to f' start (rev r) /\ look f' (r ++ start) = Some NDir.
Proof.
  intros Hn Hd.
  assert (Hd2 : ~ In dotdot (rev r)) by (rewrite <- in_rev; assumption).
  destruct r as [|x r].
  - cbn [makedirs_r]. rewrite run_bind. cbn [run]. apply mkdir_ok_done; assumption.
  - cbn [makedirs_r]. rewrite run_bind.
    match goal with |- context [run ?p pl f] => destruct (run p pl f) as [[o pl1] f1] eqn:E1; assert (Hs : safe (fun f => nolink f ((x :: r) ++ start)) (adds_dirs ((x :: r) ++ start)) (fun _ => True) p) end.
    { destruct r as [|y r]; [exact Logic.I|].
      eapply (safe_bind _ _ (fun _ => True)); [apply safe_query; [intros; apply adds_dirs_refl | auto]|].
      intros [|] _; [exact Logic.I|]. apply safe_catch.
      - apply makedirs_safe; [exists [x]; reflexivity | intros Hi; apply Hd; right; assumption].
      - intros e. destruct e as [| | | | | | | | | | | |[]| | | |]; exact Logic.I. }
    eapply (safe_run _ _ (adds_dirs_refl _) (adds_dirs_trans _)) in E1 as (HA & Hn1 & _); [|exact Hs | exact Hn].
    destruct o as [u|e|]; try discriminate. apply mkdir_ok_done; assumption.
Qed.

(** The same for the text version. *)
Lemma makedirs_text_safe cwd s t : below t (target cwd s) -> ~ In dotdot (comps s) ->
  safe (fun f => nolink f t) (adds_dirs t) (fun _ => True) (makedirs cwd s).
Proof.
  intros Hb Hd. unfold makedirs. destruct s as [|c s]; [exact Logic.I|].
  apply makedirs_safe; [exact Hb | rewrite <- in_rev; exact Hd].
Qed.
Lemma makedirs_text_done cwd s pl f pl' f' : nolink f (target cwd s) -> ~ In dotdot (comps s) ->
  run (makedirs cwd s) pl f = (Done tt, pl', f') ->
  dirs_to f' (if is_abs s then [] else cwd) (comps s) /\ look f' (target cwd s) = Some NDir.
Proof.
  intros Hn Hd. unfold makedirs. destruct s as [|c s]; [discriminate|]. intros E.
  apply makedirs_done in E as [H1 H2]; [|exact Hn | rewrite <- in_rev; exact Hd].
  rewrite rev_involutive in H1. auto.
Qed.

(** ** Exceptions raised by executions without failures *)

Fixpoint natural {A} (P : exn -> Prop) (p : prog A) : Prop :=
  match p with
  | Ret _ => True
  | Rai e => P e
  | Act _ c => forall f, natural P (c None f)
  end.
Lemma natural_run {A} P (p : prog A) : natural P p -> forall pl f e pl' f',
  failures pl = 0%nat -> run p pl f = (Raised e, pl', f') -> P e.
Proof.
  induction p as [a|x|eff c IH]; cbn [natural run]; intros H pl f e pl' f' Hp E; [discriminate | injection E as <- _ _; exact H |].
  destruct pl as [|[[]|] pl]; try discriminate; eapply IH; try exact E; auto.
Qed.
Lemma natural_bind {A B} P (p : prog A) (k : A -> prog B) : natural P p -> (forall a, natural P (k a)) -> natural P (bind p k).
Proof. induction p as [a|x|eff c IH]; cbn [natural bind]; auto. Qed.
Lemma natural_catch {A} (P Q : exn -> Prop) (p : prog A) h : natural Q p -> (forall e, Q e -> natural P (h e)) -> natural P (catch p h).
Proof. induction p as [a|x|eff c IH]; cbn [natural catch]; auto. Qed.
Lemma natural_weaken {A} (P Q : exn -> Prop) (p : prog A) : (forall e, Q e -> P e) -> natural Q p -> natural P p.
Proof. intros H. induction p as [a|x|eff c IH]; cbn [natural]; auto. Qed.
Lemma natural_query {A} P (g : fs -> A) : natural P (query g).
Proof. intros f. exact Logic.I. Qed.
Lemma natural_sys_part {A} (P : exn -> Prop) (op : fs -> result (A * fs)) part :
  (forall f e, op f = Err e -> P e) -> natural P (sys_part op part).
Proof. intros H f. cbn. destruct (op f) as [[a f']|e] eqn:E; [exact Logic.I | eapply H; exact E]. Qed.
Lemma failures_app a b : failures (a ++ b) = (failures a + failures b)%nat.
Proof. induction a as [|[x|] a IH]; cbn; lia. Qed.
Lemma run_consumes {A} (p : prog A) : forall pl f o pl' f', run p pl f = (o, pl', f') -> exists u, pl = u ++ pl'.
Proof.
  induction p as [a|e|eff c IH]; cbn [run]; intros pl f o pl' f' E.
  - injection E as <- <- <-. exists []. reflexivity.
  - injection E as <- <- <-. exists []. reflexivity.
  - destruct pl as [|[[e n|n]|] pl].
    + apply IH in E. exact E.
    + apply IH in E as [u ->]. exists (Some (FErr e n) :: u). reflexivity.
    + injection E as <- <- <-. exists [Some (FCrash n)]. reflexivity.
    + apply IH in E as [u ->]. exists (None :: u). reflexivity.
Qed.
Lemma run_failures0 {A} (p : prog A) pl f o pl' f' : run p pl f = (o, pl', f') -> failures pl = 0%nat -> failures pl' = 0%nat.
Proof. intros E H. apply run_consumes in E as [u ->]. rewrite failures_app in H. lia. Qed.

(** Errors of path lookups and of the calls built on them. *)
Definition lookup_error (e : exn) : Prop :=
  match e with OSError (ENOENT | ENOTDIR | ELOOP | EEXIST | EISDIR) => True | _ => False end.
Lemma resolve_err f fo : forall k cs cur e, resolve k f fo cur cs = Err e -> lookup_error e.
Proof.
  induction k as [|k IHk]; (induction cs as [|c cs IH]; intros cur e; [rewrite resolve_nil; discriminate|]);
    rewrite resolve_cons; (destruct (eqb c dotdot); [apply IH|]);
    (destruct (look f (c :: cur)) as [[b| |t]|];
     [destruct cs; [discriminate | intros E; injection E as <-; exact Logic.I] | apply IH |
      | destruct cs; [discriminate | intros E; injection E as <-; exact Logic.I]]).
  - destruct cs, fo; try discriminate; intros E; injection E as <-; exact Logic.I.
  - destruct cs, fo; try discriminate; apply IHk.
Qed.
Lemma locate_err cwd f fo s e : locate cwd f fo s = Err e -> lookup_error e.
Proof. unfold locate. destruct s; [intros E; injection E as <-; exact Logic.I | apply resolve_err]. Qed.
Lemma natural_mkdir_ok l : natural lookup_error (mkdir_ok l).
Proof.
  eapply (natural_catch _ lookup_error).
  - apply natural_sys_part. intros f e E. unfold create_at in E. destruct (at_loc f false l) as [p|x] eqn:Ea; cbn [rbind] in E.
    + destruct (look f p); [injection E as <-; exact Logic.I | discriminate].
    + injection E as <-. eapply resolve_err. exact Ea.
  - intros e He. destruct (is_oserror e); [|exact He]. apply natural_bind; [apply natural_query|]. intros [|]; [exact Logic.I | exact He].
Qed.
Lemma natural_makedirs cwd s : natural lookup_error (makedirs cwd s).
Proof.
  unfold makedirs. destruct s as [|c s]; [exact Logic.I|]. generalize (fst (loc_of cwd (c :: s))) (rev (snd (loc_of cwd (c :: s)))). intros start r.
  induction r as [|x r IH]; cbn [makedirs_r]; (apply natural_bind; [|intros _; apply natural_mkdir_ok]); [exact Logic.I|].
  destruct r as [|y r]; [exact Logic.I|]. apply natural_bind; [apply natural_query|]. intros [|]; [exact Logic.I|].
  eapply (natural_catch _ lookup_error); [exact IH|]. intros e He. destruct e; try contradiction. destruct e; try contradiction; exact Logic.I.
Qed.
Lemma natural_open_w cwd s : natural lookup_error (open_w cwd s).
Proof.
  apply natural_sys_part. intros f e E. unfold f_open_w in E. destruct (locate cwd f true s) as [p|x] eqn:Ea; cbn [rbind] in E.
  - destruct (look f p) as [[]|]; try discriminate. injection E as <-. exact Logic.I.
  - injection E as <-. eapply locate_err. exact Ea.
Qed.
Lemma natural_fwrite P h data : natural P (fwrite h data).
Proof. apply natural_sys_part. discriminate. Qed.
Lemma natural_fclose P : natural P fclose.
Proof. apply natural_sys_part. discriminate. Qed.
Lemma natural_with_close {A} P (p : prog A) : natural P p -> natural P (with_close p).
Proof.
  intros H. apply natural_bind.
  - eapply (natural_catch _ P); [exact H|]. intros e He. apply natural_bind; [apply natural_fclose|]. intros _. exact He.
  - intros a. apply natural_bind; [apply natural_fclose|]. intros _. exact Logic.I.
Qed.
