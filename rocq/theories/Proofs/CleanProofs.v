(** * Proofs about the cleaning of the output directory *)

From Verif Require Import Base.Py Base.Text Base.PyFacts Base.TextFacts Base.PathFacts Base.Fs Base.FsDir Spec.FsSpec Base.FsFacts Proofs.FilesProofs Base.FsLinks Base.FsTree Proofs.ReleasesProofs Model.Clean Spec.CleanSpec.
Require Import Coq.Sorting.Permutation.

(** ** Texts *)

Lemma join_snoc (c : str) x l : l <> [] -> join c (l ++ [x]) = join c l ++ c ++ x.
Proof.
  intros Hl. induction l as [|a l IH]; [congruence|]. destruct l as [|b l]; [reflexivity|].
  change (join c ((a :: b :: l) ++ [x])) with (a ++ c ++ join c ((b :: l) ++ [x])). rewrite IH by discriminate.
  change (join c (a :: b :: l)) with (a ++ c ++ join c (b :: l)). rewrite <- !app_assoc. reflexivity.
Qed.
Lemma rel_one n : rel [n] = n.
Proof. reflexivity. Qed.
Lemma rel_cons n m q : rel (n :: m :: q) = rel (m :: q) ++ cSlash :: n.
Proof.
  unfold rel. change (rev (n :: m :: q)) with (rev (m :: q) ++ [n]). rewrite join_snoc; [reflexivity|].
  cbn [rev]. destruct (rev q); discriminate.
Qed.
Definition base (q : path) : str := match q with [] => [] | _ => rel q ++ [cSlash] end.
Lemma base_rel q n : base q ++ n = rel (n :: q).
Proof. destruct q as [|m q]; [reflexivity|]. unfold base. rewrite rel_cons, <- app_assoc. reflexivity. Qed.
Lemma base_cons q n : base q ++ n ++ [cSlash] = base (n :: q).
Proof. rewrite app_assoc, base_rel. reflexivity. Qed.
Lemma comps_rel q : Forall valid_name q -> comps (rel q) = rev q.
Proof. intros H. apply comps_join_names, Forall_rev. eapply Forall_impl; [|exact H]. apply valid_step. Qed.
Lemma is_abs_rel q : Forall valid_name q -> is_abs (rel q) = false.
Proof. intros H. apply is_abs_join_names, Forall_rev. eapply Forall_impl; [|exact H]. apply valid_step. Qed.
Lemma comps_base q : Forall valid_name q -> comps (base q) = rev q.
Proof. intros H. destruct q as [|m q]; [reflexivity|]. unfold base. rewrite comps_app, comps_nil, app_nil_r. apply comps_rel, H. Qed.
Lemma valid_no_dotdot q : Forall valid_name q -> ~ In dotdot (rev q).
Proof. intros H Hi. apply in_rev in Hi. rewrite Forall_forall in H. destruct (H _ Hi) as (_ & _ & Hn & _). congruence. Qed.
Lemma rel_nonempty n q : valid_name n -> rel (n :: q) <> [].
Proof. intros (Hn & _). destruct q as [|m q]; [rewrite rel_one; exact Hn | rewrite rel_cons; destruct (rel (m :: q)); discriminate]. Qed.

(** ** Resolution *)

Lemma resolve_to k f fo : forall cs cur, dirs_to f cur cs -> ~ In dotdot cs -> (fo = true -> forall t, look f (rev cs ++ cur) <> Some (NLink t)) ->
  resolve k f fo cur cs = Ok (rev cs ++ cur).
Proof.
  induction cs as [|c cs IH]; intros cur Hd Hn Hl; [apply resolve_nil|]. rewrite resolve_cons.
  replace (eqb c dotdot) with false by (symmetry; apply eqbF; intros ->; apply Hn; left; reflexivity).
  cbn [rev] in Hl |- *. rewrite <- app_assoc in Hl |- *. cbn [app] in Hl |- *.
  destruct cs as [|c' cs].
  - cbn [rev app] in *. destruct (look f (c :: cur)) as [[b| |t]|] eqn:E; try reflexivity; [apply resolve_nil|].
    destruct fo; [|reflexivity]. destruct (Hl eq_refl t eq_refl).
  - apply dirs_to_cons in Hd as [Hc Hd]; [|discriminate]. rewrite Hc. apply IH; [exact Hd | intros Hi; apply Hn; right; exact Hi | exact Hl].
Qed.

Section Clean.
Variable cwd : path.
Variable output : str.
Notation d := (target cwd output).
Notation start := (if is_abs output then [] else cwd).
Hypothesis Hout : output <> [].
Hypothesis Hdot : ~ In dotdot (comps output).

(** A text for the relative path [q]. *)
Definition text_of (q : path) (s : str) : Prop := s <> [] /\ is_abs s = is_abs output /\ comps s = comps output ++ rev q.
Definition full (q : path) : str := path_join output (rel q).
Lemma full_text q : Forall valid_name q -> text_of q (full q).
Proof.
  intros H. unfold full. split; [|split].
  - unfold path_join. pose proof (is_abs_rel q H) as Ha. destruct (startswith (rel q) [cSlash]) eqn:E; [apply startswith_iff in E as (r & ->); discriminate|].
    destruct (eqb output [] || _); destruct output; try congruence; discriminate.
  - apply is_abs_join; [apply is_abs_rel, H | exact Hout].
  - rewrite comps_join by (apply is_abs_rel, H). rewrite comps_rel by exact H. reflexivity.
Qed.
Lemma base_text q : Forall valid_name q -> text_of q (output ++ cSlash :: base q).
Proof.
  intros H. split; [|split].
  - destruct output; discriminate.
  - destruct output as [|c o]; [congruence | reflexivity].
  - rewrite comps_app, comps_base by exact H. reflexivity.
Qed.
Lemma text_dir q s : text_of q s -> rev (comps s) ++ start = q ++ d.
Proof. intros (_ & _ & E). rewrite E, rev_app_distr, rev_involutive. unfold target. rewrite <- app_assoc. reflexivity. Qed.
Lemma text_target q s : text_of q s -> target cwd s = q ++ d.
Proof. intros H. rewrite <- (text_dir q s H). unfold target. destruct H as (_ & -> & _). reflexivity. Qed.
Lemma text_dotdot q s : Forall valid_name q -> text_of q s -> ~ In dotdot (comps s).
Proof. intros Hv (_ & _ & ->) Hi. apply in_app_or in Hi as [Hi|Hi]; [exact (Hdot Hi) | exact (valid_no_dotdot q Hv Hi)]. Qed.
Lemma locate_text f fo q s : fs_wf f -> Forall valid_name q -> text_of q s -> look f (q ++ d) <> None -> (fo = true -> forall t, look f (q ++ d) <> Some (NLink t)) ->
  locate cwd f fo s = Ok (q ++ d).
Proof.
  intros Hw Hv Ht Hl Hf. pose proof (text_dir q s Ht) as Ed. unfold locate, at_loc, loc_of. destruct s as [|c s0] eqn:Es; [destruct Ht; congruence|]. rewrite <- Es in *. cbn [fst snd].
  replace (is_abs s) with (is_abs output) by (symmetry; apply Ht). rewrite <- Ed. apply resolve_to; [|apply (text_dotdot q s Hv Ht) | rewrite Ed; exact Hf].
  apply wf_dirs_to; [exact Hw | rewrite Ed; exact Hl].
Qed.

(** ** The walk *)

Lemma scan_dirs_app b skip l1 l2 : scan_dirs b skip (l1 ++ l2) = scan_dirs b skip l1 ++ scan_dirs b skip l2.
Proof. exact (flat_map_app _ l1 l2). Qed.
Lemma scan_found_app b l1 l2 : scan_found b (l1 ++ l2) = scan_found b l1 ++ scan_found b l2.
Proof. exact (flat_map_app _ l1 l2). Qed.

Variable order : list str -> list str.
Hypothesis Horder : forall l, Permutation (order l) l.

Section Walk.
Variable f : fs.
Hypothesis Hw : fs_wf f.
Hypothesis Hvalid : forall x p, look f (x :: p) <> None -> valid_name x.
Hypothesis Hnl : nolink f d.
Variable kept : list str.

Lemma valid_path q : look f (q ++ d) <> None -> Forall valid_name q.
Proof.
  induction q as [|n q IH]; intros H; [constructor|]. constructor; [apply (Hvalid n (q ++ d)), H|]. apply IH. rewrite (Hw n (q ++ d) H). discriminate.
Qed.
Lemma scandir_reading s : reading (scandir cwd order s).
Proof. apply reading_sys. intros g a g' E. apply rbind_Ok in E as (p & _ & E). destruct (look g p) as [[| |]|]; congruence. Qed.
Definition entries (p : path) : list (str * node) :=
  flat_map (fun n => match look f (n :: p) with Some x => [(n, x)] | None => [] end) (order (names p f)).
Lemma scandir_result q : look f (q ++ d) = Some NDir -> result_of (scandir cwd order (output ++ cSlash :: base q)) f = Done (entries (q ++ d)).
Proof.
  intros H. assert (Hv : Forall valid_name q) by (apply valid_path; congruence). unfold scandir, result_of, sys, sys_part. cbn [run].
  rewrite (locate_text f true q _ Hw Hv (base_text q Hv)) by (intros; congruence). cbn [rbind]. rewrite H. reflexivity.
Qed.
Definition is_node (x : option node) : bool := match x with Some NDir | None => false | Some _ => true end.
Definition dirok (q : path) (n : str) : bool := match look f (n :: q ++ d) with Some NDir => negb (mem (rel (n :: q)) kept) | _ => false end.
Lemma scan_dirs_eq q : scan_dirs (base q) kept (entries (q ++ d)) = map base (map (fun n => n :: q) (filter (dirok q) (order (names (q ++ d) f)))).
Proof.
  unfold entries. induction (order (names (q ++ d) f)) as [|n l IH]; [reflexivity|]. cbn [flat_map filter]. unfold dirok at 1.
  rewrite scan_dirs_app, IH. destruct (look f (n :: q ++ d)) as [[b| |t]|]; cbn [scan_dirs flat_map snd fst app]; try reflexivity.
  rewrite base_rel, app_nil_r. match goal with |- context [if ?b then [] else _] => change b with (mem (rel (n :: q)) kept) end. destruct (mem (rel (n :: q)) kept); cbn [negb map app]; [reflexivity|]. rewrite base_cons. reflexivity.
Qed.
Definition nodeok (q : path) (n : str) : bool := is_node (look f (n :: q ++ d)).
Lemma scan_found_eq q : scan_found (base q) (entries (q ++ d)) = map rel (map (fun n => n :: q) (filter (nodeok q) (order (names (q ++ d) f)))).
Proof.
  unfold entries. induction (order (names (q ++ d) f)) as [|n l IH]; [reflexivity|]. cbn [flat_map filter]. unfold nodeok at 1.
  rewrite scan_found_app, IH. destruct (look f (n :: q ++ d)) as [[b| |t]|]; cbn [scan_found flat_map snd fst app is_node map]; rewrite ?base_rel; reflexivity.
Qed.
Lemma order_In p n : In n (order (names p f)) <-> look f (n :: p) <> None.
Proof. rewrite <- names_In. split; apply Permutation_in; [apply Horder | apply Permutation_sym, Horder]. Qed.
Lemma order_NoDup p : NoDup (order (names p f)).
Proof. eapply Permutation_NoDup; [apply Permutation_sym, Horder | apply names_NoDup]. Qed.

(** A directory that is visited. *)
Definition reached (q : path) : Prop := look f (q ++ d) = Some NDir /\ forall r, below q r -> r <> [] -> ~ In (rel r) kept.
Lemma reached_tl n q : reached (n :: q) -> reached q.
Proof.
  intros [Hl Hk]. split; [apply (Hw n); cbn [app] in Hl; congruence|]. intros r Hr. apply Hk. eapply below_trans; [apply below_cons | exact Hr].
Qed.
Lemma reached_cons n q : reached q -> look f (n :: q ++ d) = Some NDir -> ~ In (rel (n :: q)) kept -> reached (n :: q).
Proof.
  intros [Hl Hk] Hn Hi. split; [exact Hn|]. intros r Hr Hne. apply below_cases in Hr as [<-|(x & l & E)]; [exact Hi|]. injection E as -> ->. apply Hk; [apply below_app | exact Hne].
Qed.
Lemma app_d_inj (a b : path) : a ++ d = b ++ d -> a = b.
Proof. apply app_inv_tail. Qed.

Lemma walk_reading fuel : forall skip stack found, reading (walk_loop cwd order fuel output skip stack found).
Proof.
  induction fuel as [|k IH]; intros skip stack found; (destruct stack as [|b stack]; cbn [walk_loop]; [apply reading_ret|]).
  - intros pl g o pl' g' E. cbn in E. injection E as <- <- <-. split; [reflexivity | discriminate].
  - apply reading_bind; [apply scandir_reading | intros l; apply IH].
Qed.

Lemma walk_loop_spec : forall fuel vis st aq, (S (length f) <= length vis + fuel)%nat -> NoDup (vis ++ st) ->
  (forall q, In q (vis ++ st) -> reached q) -> (forall n q, In (n :: q) (vis ++ st) -> In q vis) ->
  (forall q n, In q vis -> look f (n :: q ++ d) = Some NDir -> ~ In (rel (n :: q)) kept -> In (n :: q) (vis ++ st)) ->
  In [] (vis ++ st) -> NoDup aq -> (forall p, In p aq <-> exists n q, p = n :: q /\ In q vis /\ is_node (look f (n :: q ++ d)) = true) ->
  exists fq, result_of (walk_loop cwd order fuel output kept (map base st) (map rel aq)) f = Done (map rel fq) /\ NoDup fq
  /\ forall p, In p fq <-> exists n q, p = n :: q /\ reached q /\ is_node (look f (n :: q ++ d)) = true.
Proof.
  induction fuel as [|k IH]; intros vis st aq Hf Hnd Hr Hp Hc H0 Hna Haq.
  { assert (Hlen : (length (vis ++ st) <= S (length f))%nat).
    { change (S (length f)) with (length (d :: map fst f)) || idtac. replace (S (length f)) with (length (d :: map fst f)) by (cbn [length]; rewrite map_length; reflexivity).
      rewrite <- (map_length (fun q => q ++ d)). apply NoDup_incl_length.
      - apply FinFun.Injective_map_NoDup; [intros a b; apply app_d_inj | exact Hnd].
      - intros x Hx. apply in_map_iff in Hx as (q & <- & Hq). destruct q as [|n q]; [left; reflexivity|]. right.
        destruct (Hr _ Hq) as [Hl _]. unfold look in Hl. destruct ((n :: q) ++ d) as [|y p] eqn:Ey; [discriminate|]. rewrite <- Ey in *. apply dget_some_In in Hl. apply in_map_iff. eexists. split; [|exact Hl]. reflexivity. }
    assert (Hst : st = []) by (rewrite app_length in Hlen; destruct st; [reflexivity | cbn [length] in Hlen; lia]). subst st. rewrite app_nil_r in *.
    exists aq. split; [reflexivity|]. split; [exact Hna|]. intros p. rewrite Haq. split; intros (n & q & -> & Hq & Hn); exists n, q; (split; [reflexivity|]); (split; [|exact Hn]); [auto|].
    clear n Hn. induction q as [|n q IHq]; [exact H0|]. apply Hc; [apply IHq; exact (reached_tl n q Hq) | apply Hq |]. apply Hq; [apply below_refl | discriminate]. }
  destruct st as [|q0 st].
  { rewrite app_nil_r in *. exists aq. split; [reflexivity|]. split; [exact Hna|]. intros p. rewrite Haq. split; intros (n & q & -> & Hq & Hn); exists n, q; (split; [reflexivity|]); (split; [|exact Hn]); [auto|].
    clear n Hn. induction q as [|n q IHq]; [exact H0|]. apply Hc; [apply IHq; exact (reached_tl n q Hq) | apply Hq |]. apply Hq; [apply below_refl | discriminate]. }
  cbn [map walk_loop]. assert (Hq0 : reached q0) by (apply Hr, in_elt). rewrite result_bind by apply scandir_reading. rewrite scandir_result by apply Hq0.
  rewrite scan_dirs_eq, scan_found_eq. set (ch := map (fun n => n :: q0) (filter (dirok q0) (order (names (q0 ++ d) f)))). set (fd := map (fun n => n :: q0) (filter (nodeok q0) (order (names (q0 ++ d) f)))).
  rewrite <- map_rev, <- map_app, <- (map_app rel).
  assert (Hnv : ~ In q0 vis) by (intros Hi; apply NoDup_remove_2 in Hnd; apply Hnd, in_or_app; left; exact Hi).
  assert (Hch : forall p, In p ch <-> exists n, p = n :: q0 /\ look f (n :: q0 ++ d) = Some NDir /\ ~ In (rel (n :: q0)) kept).
  { intros p. unfold ch. rewrite in_map_iff. split.
    - intros (n & <- & Hn). apply filter_In in Hn as [_ Hn]. unfold dirok in Hn. exists n. split; [reflexivity|]. destruct (look f (n :: q0 ++ d)) as [[| |]|]; try discriminate. split; [reflexivity|]. rewrite <- mem_In. destruct (mem _ _); [discriminate | congruence].
    - intros (n & -> & Hl & Hk). exists n. split; [reflexivity|]. apply filter_In. split; [apply order_In; congruence|]. unfold dirok. rewrite Hl. rewrite <- mem_In in Hk. destruct (mem _ _); [congruence | reflexivity]. }
  assert (Hfd : forall p, In p fd <-> exists n, p = n :: q0 /\ is_node (look f (n :: q0 ++ d)) = true).
  { intros p. unfold fd. rewrite in_map_iff. split.
    - intros (n & <- & Hn). apply filter_In in Hn as [_ Hn]. exists n. auto.
    - intros (n & -> & Hl). exists n. split; [reflexivity|]. apply filter_In. split; [|exact Hl]. apply order_In. destruct (look f (n :: q0 ++ d)); [discriminate | discriminate Hl]. }
  assert (Hchn : forall p, In p ch -> ~ In p (vis ++ q0 :: st)).
  { intros p Hpc Hi. apply Hch in Hpc as (n & -> & _). apply Hp in Hi. contradiction. }
  apply (IH (vis ++ [q0]) (rev ch ++ st) (aq ++ fd)).
  - rewrite app_length. cbn [length]. lia.
  - apply (Permutation_NoDup (l := ch ++ vis ++ q0 :: st)).
    + rewrite <- app_assoc. cbn [app]. apply (Permutation_trans (l' := vis ++ q0 :: ch ++ st)).
      * apply (Permutation_trans (l' := (vis ++ [q0]) ++ ch ++ st)); [|rewrite <- app_assoc; reflexivity]. replace (vis ++ q0 :: st) with ((vis ++ [q0]) ++ st) by (rewrite <- app_assoc; reflexivity).
        rewrite !app_assoc. apply Permutation_app_tail. rewrite <- app_assoc. apply Permutation_app_comm.
      * apply Permutation_app_head, perm_skip, Permutation_app_tail, Permutation_rev.
    + assert (Hndc : NoDup ch) by (apply FinFun.Injective_map_NoDup; [intros a b E; congruence | apply NoDup_filter, order_NoDup]). clear - Hndc Hnd Hchn.
      induction ch as [|c ch IHc]; [exact Hnd|]. inversion_clear Hndc as [|? ? Hc1 Hc2]. cbn [app]. constructor; [|apply IHc; [intros p Hp; apply Hchn; right; exact Hp | exact Hc2]].
      intros Hi. apply in_app_or in Hi as [Hi|Hi]; [contradiction|]. apply (Hchn c (or_introl eq_refl) Hi).
  - intros q Hq. apply in_app_or in Hq as [Hq|Hq]; [|apply in_app_or in Hq as [Hq|Hq]].
    + apply Hr. apply in_app_or in Hq as [Hq|[<-|[]]]; [apply in_or_app; left; exact Hq | apply in_elt].
    + apply in_rev in Hq. apply Hch in Hq as (n & -> & Hl & Hk). apply reached_cons; assumption.
    + apply Hr, in_or_app. right. right. exact Hq.
  - intros n q Hq. apply in_or_app. apply in_app_or in Hq as [Hq|Hq]; [|apply in_app_or in Hq as [Hq|Hq]].
    + left. apply (Hp n). apply in_app_or in Hq as [Hq|[<-|[]]]; [apply in_or_app; left; exact Hq | apply in_elt].
    + apply in_rev in Hq. apply Hch in Hq as (n' & E & _). injection E as _ ->. right. left. reflexivity.
    + left. apply (Hp n), in_or_app. right. right. exact Hq.
  - intros q n Hq Hl Hk. apply in_app_or in Hq as [Hq|[<-|[]]].
    + specialize (Hc q n Hq Hl Hk). rewrite <- app_assoc. rewrite !in_app_iff in *. cbn [app In] in *. tauto.
    + apply in_or_app. right. apply in_or_app. left. apply -> in_rev. apply Hch. exists n. auto.
  - rewrite <- app_assoc. rewrite !in_app_iff in *. cbn [app In] in *. tauto.
  - assert (Hndf : NoDup fd) by (apply FinFun.Injective_map_NoDup; [intros a b E; congruence | apply NoDup_filter, order_NoDup]).
    assert (Hdis : forall p, In p fd -> ~ In p aq). { intros p Hpf Hi. apply Hfd in Hpf as (n & -> & _). apply Haq in Hi as (n' & q & E & Hq & _). injection E as E1 E2. subst. contradiction. }
    apply (Permutation_NoDup (Permutation_app_comm fd aq)). clear - Hndf Hdis Hna. induction fd as [|c fd IHc]; [exact Hna|]. inversion_clear Hndf as [|? ? Hc1 Hc2]. cbn [app].
    constructor; [|apply IHc; [exact Hc2 | intros p Hp; apply Hdis; right; exact Hp]]. intros Hi. apply in_app_or in Hi as [Hi|Hi]; [contradiction|]. apply (Hdis c (or_introl eq_refl) Hi).
  - intros p. rewrite in_app_iff, Haq, Hfd. split.
    + intros [(n & q & -> & Hq & Hn)|(n & -> & Hn)]; [exists n, q | exists n, q0]; (split; [reflexivity|]); (split; [|exact Hn]); apply in_or_app; cbn [In]; auto.
    + intros (n & q & -> & Hq & Hn). apply in_app_or in Hq as [Hq|[<-|[]]]; [left; exists n, q; auto | right; exists n; auto].
Qed.

Lemma walk_result : look f d = Some NDir -> exists fq, result_of (walk_output_dir cwd order output kept) f = Done (map rel fq) /\ NoDup fq
  /\ forall p, In p fq <-> exists n q, p = n :: q /\ reached q /\ is_node (look f (n :: q ++ d)) = true.
Proof.
  intros Hd. unfold walk_output_dir. rewrite result_bind by apply reading_query.
  assert (Ee : result_of (exists_ cwd output) f = Done true).
  { unfold result_of, exists_, query. cbn [run fst]. unfold f_exists. rewrite (locate_text f true [] output Hw); [cbn [app node_of]; rewrite Hd; reflexivity | constructor | | cbn [app]; congruence | cbn [app]; congruence].
    split; [exact Hout|]. split; [reflexivity | rewrite app_nil_r; reflexivity]. }
  rewrite Ee. cbn [negb]. rewrite result_bind by apply reading_query. change (result_of (query (fun f => S (length f))) f) with (Done (S (length f))).
  apply (walk_loop_spec (S (length f)) [] [[]] []).
  - cbn [length]. lia.
  - repeat constructor. intros [].
  - intros q [<-|[]]. split; [exact Hd|]. intros r [l E] Hr. symmetry in E. apply app_eq_nil in E as [_ ->]. congruence.
  - intros n q [E|[]]. discriminate.
  - intros q n [].
  - left. reflexivity.
  - constructor.
  - intros p. split; [intros [] | intros (n & q & _ & [] & _)].
Qed.
Lemma walk_missing : look f d = None -> result_of (walk_output_dir cwd order output kept) f = Done [].
Proof.
  intros Hd. unfold walk_output_dir. rewrite result_bind by apply reading_query.
  assert (Ee : result_of (exists_ cwd output) f = Done false).
  { unfold result_of, exists_, query. cbn [run fst]. f_equal. unfold f_exists, node_of. destruct (locate cwd f true output) as [p|] eqn:E; [|reflexivity].
    apply locate_plain in E as [-> _]; [rewrite Hd; reflexivity | exact Hout | exact Hdot | exact Hnl]. }
  rewrite Ee. reflexivity.
Qed.

(** ** Files to remove *)

Variable links : list str.
Notation E := (extra kept links d f).
Definition removed (q : path) : bool :=
  match look f (q ++ d) with Some (NLink _) => negb (mem (rel q) links) | Some (NFile _) => negb (mem (rel q) kept) | _ => false end.
Lemma to_remove_reading : forall found, reading (to_remove cwd output kept links found).
Proof.
  induction found as [|p found IH]; cbn [to_remove]; [apply reading_ret|]. apply reading_bind; [apply reading_query|]. intros b.
  apply reading_bind; [destruct b; [apply reading_ret|]; destruct (mem p kept); [apply reading_ret|]; apply reading_bind; [apply reading_query | intros; apply reading_ret]|].
  intros [x y]. apply reading_bind; [exact IH|]. intros [x' y']. apply reading_ret.
Qed.
Lemma to_remove_result : forall qs, (forall q, In q qs -> is_node (look f (q ++ d)) = true) ->
  result_of (to_remove cwd output kept links (map rel qs)) f = Done (map (full) (filter removed qs), []).
Proof.
  induction qs as [|q qs IH]; intros H; [reflexivity|]. cbn [map to_remove filter]. rewrite result_bind by apply reading_query.
  assert (Hq : is_node (look f (q ++ d)) = true) by (apply H; left; reflexivity). assert (Hne : look f (q ++ d) <> None) by (destruct (look f (q ++ d)); [discriminate | discriminate Hq]).
  assert (Hv : Forall valid_name q) by (apply valid_path; exact Hne). pose proof (full_text q Hv) as Ht. change (path_join output (rel q)) with (full q).
  assert (El : result_of (islink cwd (full q)) f = Done (match look f (q ++ d) with Some (NLink _) => true | _ => false end)).
  { unfold result_of, islink, query. cbn [run fst]. f_equal. unfold f_islink. rewrite (locate_text f false q _ Hw Hv Ht Hne) by discriminate. reflexivity. }
  rewrite El. specialize (IH (fun x Hx => H x (or_intror Hx))). unfold removed at 1.
  assert (R0 : forall x, result_of (let~ (files', trees') := to_remove cwd output kept links (map rel qs) in Ret (fst x ++ files', snd x ++ trees')) f = Done (fst x ++ map full (filter removed qs), snd x ++ [])).
  { intros x. rewrite result_bind by apply to_remove_reading. rewrite IH. reflexivity. }
  destruct (look f (q ++ d)) as [[b| |t]|] eqn:Eq; try discriminate Hq; [|].
  - cbv iota beta. destruct (mem (rel q) kept).
    + rewrite result_bind by apply reading_ret. exact (R0 ([], [])).
    + rewrite result_bind by (apply reading_bind; [apply reading_query | intros; apply reading_ret]). rewrite result_bind by apply reading_query.
      assert (Ed : result_of (isdir cwd (full q)) f = Done false).
      { unfold result_of, isdir, query. cbn [run fst]. f_equal. unfold f_isdir. rewrite (locate_text f true q _ Hw Hv Ht) by congruence. cbn [node_of]. rewrite Eq. reflexivity. }
      rewrite Ed. exact (R0 ([full q], [])).
  - cbv iota beta. rewrite result_bind by apply reading_ret. destruct (mem (rel q) links); [exact (R0 ([], [])) | exact (R0 ([full q], []))].
Qed.
Lemma extra_q q : E (q ++ d) <-> q <> [] /\ visible kept q /\ removed q = true.
Proof.
  unfold removed. split.
  - intros (q' & Eq & Hne & Hv & H). apply app_d_inj in Eq. subst q'. split; [exact Hne|]. split; [exact Hv|]. destruct H as [[[t Hl] Hk]|[[b Hl] Hk]]; rewrite Hl; rewrite <- mem_In in Hk; destruct (mem _ _); (reflexivity || (exfalso; apply Hk; reflexivity)).
  - intros (Hne & Hv & H). exists q. split; [reflexivity|]. split; [exact Hne|]. split; [exact Hv|]. destruct (look f (q ++ d)) as [[b| |t]|] eqn:El; try discriminate.
    + right. split; [exists b; exact El|]. rewrite <- mem_In. destruct (mem _ _); [discriminate | congruence].
    + left. split; [exists t; reflexivity|]. rewrite <- mem_In. destruct (mem _ _); [discriminate | congruence].
Qed.
Lemma collect : look f d = Some NDir -> exists found qs, result_of (walk_output_dir cwd order output kept) f = Done found
  /\ result_of (to_remove cwd output kept links found) f = Done (map full qs, []) /\ NoDup qs /\ forall q, In q qs <-> E (q ++ d).
Proof.
  intros Hd. destruct (walk_result Hd) as (fq & Ef & Hn & Hfq). exists (map rel fq), (filter removed fq). split; [exact Ef|]. split; [|split].
  - apply to_remove_result. intros q Hq. apply Hfq in Hq as (n & q' & -> & _ & H). exact H.
  - apply NoDup_filter, Hn.
  - intros q. rewrite filter_In, Hfq, extra_q. split.
    + intros [(n & q' & -> & [Hl Hk] & Hi) Hr]. split; [discriminate|]. split; [|exact Hr]. intros r (x & l & Ex) Hne. injection Ex as -> ->. apply Hk; [apply below_app | exact Hne].
    + intros (Hne & Hv & Hr). split; [|exact Hr]. destruct q as [|n q]; [congruence|]. exists n, q. split; [reflexivity|].
      assert (Hl : look f (n :: q ++ d) <> None) by (unfold removed in Hr; cbn [app] in Hr; destruct (look f (n :: q ++ d)); [discriminate | discriminate Hr]).
      split; [split; [apply (Hw n); exact Hl|]|].
      * intros r [l ->] Hr'. apply Hv; [exists n, l; reflexivity | exact Hr'].
      * unfold removed in Hr. cbn [app] in Hr. destruct (look f (n :: q ++ d)) as [[| |]|]; try discriminate; reflexivity.
Qed.

(** ** Safety *)

Definition inv (g : fs) : Prop := fs_wf g /\ forall p, look g p = look f p \/ look g p = None /\ (E p \/ leads kept links d f p).
Definition gone (g g' : fs) : Prop := forall p, look g p = None -> look g' p = None.
Lemma gone_refl g : gone g g.
Proof. intros p H. exact H. Qed.
Lemma gone_trans a b c : gone a b -> gone b c -> gone a c.
Proof. intros H1 H2 p H. apply H2, H1, H. Qed.
Lemma gone_del p g : gone g (del p g).
Proof. intros q H. destruct (eqbP q p) as [->|Hn]; [|rewrite look_del_other; assumption]. destruct p; [discriminate H|]. apply look_del_same. discriminate. Qed.
Lemma inv_start : inv f.
Proof. split; [exact Hw|]. intros p. left. reflexivity. Qed.
(** Ancestors of an extra file are directories. *)
Lemma extra_anc p a : E p -> strictly_below p a -> look f a = Some NDir.
Proof.
  intros (q & -> & _ & _ & H) (x & l & Ex). apply (wf_parents f (x :: l) a Hw); [|discriminate]. cbn [app]. rewrite <- Ex.
  destruct H as [[[t Hl] _]|[[b Hl] _]]; congruence.
Qed.
Lemma inv_nolink g p a : inv g -> E p -> strictly_below p a -> nolink g a.
Proof.
  intros [_ Hg] Hp Ha r t Hr Hl. destruct (Hg r) as [H|[H _]]; [|congruence]. rewrite (extra_anc p r Hp) in H; [congruence|]. eapply strictly_below_trans'; eassumption.
Qed.
Lemma inv_del g p : inv g -> p <> [] -> look g p <> None -> (forall n, look g (n :: p) = None) -> E p \/ leads kept links d f p -> inv (del p g).
Proof.
  intros [Hwg Hg] Hne Hl Hempty Hp. split.
  - intros x r Hx. destruct (eqbP (x :: r) p) as [Ep|Ep]; [rewrite Ep, look_del_same in Hx by exact Hne; congruence|]. rewrite look_del_other in Hx by exact Ep.
    destruct (eqbP r p) as [->|Er]; [rewrite Hempty in Hx; congruence|]. rewrite look_del_other by exact Er. apply (Hwg x). exact Hx.
  - intros r. destruct (eqbP r p) as [->|Er]; [right; split; [apply look_del_same, Hne | exact Hp]|]. rewrite look_del_other by exact Er. apply Hg.
Qed.
Lemma locate_extra g q p : inv g -> E (q ++ d) -> locate cwd g false (full q) = Ok p -> p = q ++ d.
Proof.
  intros Hg Hq El. pose proof Hq as (q' & Eq & Hne & _ & Hk). apply app_d_inj in Eq. subst q'. destruct q as [|n q]; [congruence|].
  assert (Hv : Forall valid_name (n :: q)) by (apply valid_path; destruct Hk as [[[t Hl] _]|[[b Hl] _]]; congruence).
  pose proof (full_text _ Hv) as Ht. unfold locate, at_loc, loc_of in El. destruct Ht as (Hs & Ha & Hc). destruct (full (n :: q)) as [|c s0] eqn:Es; [congruence|]. rewrite <- Es in *. cbn [fst snd] in El.
  rewrite Ha, Hc in El. cbn [rev] in El. rewrite app_assoc in El. apply resolve_last in El as [-> _].
  - rewrite rev_app_distr, rev_involutive. unfold target. cbn [app]. rewrite <- app_assoc. reflexivity.
  - rewrite rev_app_distr, rev_involutive, <- app_assoc. change (rev (comps output) ++ start) with d. apply (inv_nolink g _ (q ++ d) Hg Hq). exists n, []. reflexivity.
  - intros Hi. apply in_app_or in Hi as [Hi|Hi]; [exact (Hdot Hi)|]. inversion_clear Hv as [|? ? _ Hv']. exact (valid_no_dotdot q Hv' Hi).
  - inversion_clear Hv as [|? ? (_ & _ & Hn & _) _]. exact Hn.
Qed.
Lemma extra_file p g : inv g -> E p -> look g p <> None -> look g p = look f p /\ look g p <> Some NDir /\ p <> [].
Proof.
  intros [_ Hg] Hp Hl. destruct (Hg p) as [H|[H _]]; [|congruence]. split; [exact H|]. destruct Hp as (q & -> & Hne & _ & Hk). split; [rewrite H; destruct Hk as [[[t Hx] _]|[[b Hx] _]]; congruence|].
  destruct q; [congruence | discriminate].
Qed.
Lemma remove_op g q u g' : inv g -> E (q ++ d) -> f_remove cwd (full q) g = Ok (u, g') -> g' = del (q ++ d) g /\ inv g' /\ look g' (q ++ d) = None.
Proof.
  intros Hg Hq Hop. unfold f_remove in Hop. apply rbind_Ok in Hop as (p & Ep & Hop). apply (locate_extra g q p Hg Hq) in Ep. subst p.
  destruct (look g (q ++ d)) eqn:El; [|discriminate]. destruct (extra_file (q ++ d) g Hg Hq) as (Hl & Hnd & Hne); [congruence|].
  assert (Eg : g' = del (q ++ d) g) by (destruct n; congruence). subst g'. split; [reflexivity|]. split; [|apply look_del_same, Hne].
  apply inv_del; auto; [congruence|]. intros m. destruct (look g (m :: q ++ d)) eqn:Em; [|reflexivity]. assert (look g (q ++ d) = Some NDir) by (apply (proj1 Hg m); congruence). congruence.
Qed.
Lemma remove_safe q : E (q ++ d) -> safe inv gone (fun _ => True) (remove cwd (full q)).
Proof.
  intros Hq. apply safe_sys; [apply gone_refl|]. intros g u g' Hg Hop. destruct (remove_op g q u g' Hg Hq Hop) as (-> & Hi & _). split; [apply gone_del | auto].
Qed.

(** Ancestors of the text of a file. *)
Definition above (q : path) (h : str) : Prop := h = [] \/ is_abs h = is_abs output /\ exists l, l <> [] /\ comps output ++ rev q = comps h ++ l.
Lemma above_target q h : h <> [] -> Forall valid_name q -> above q h -> ~ In dotdot (comps h) /\ strictly_below (q ++ d) (target cwd h).
Proof.
  intros Hh Hv [H|(Ha & l & Hl & E)]; [congruence|]. split.
  - intros Hi. assert (Hi' : In dotdot (comps output ++ rev q)) by (rewrite E; apply in_or_app; left; exact Hi). apply in_app_or in Hi' as [Hi'|Hi']; [exact (Hdot Hi') | exact (valid_no_dotdot q Hv Hi')].
  - assert (Eq : q ++ d = rev l ++ target cwd h). { unfold target. rewrite Ha, !app_assoc. f_equal. rewrite <- rev_app_distr, <- E, rev_app_distr, rev_involutive. reflexivity. }
    rewrite Eq. destruct l as [|y l _] using rev_ind; [congruence|]. rewrite rev_app_distr. cbn [rev app]. exists y, (rev l). reflexivity.
Qed.
Lemma above_dirname q h : above q h -> above q (dirname h).
Proof.
  intros [->|(Ha & l & Hl & E)]; [left; reflexivity|]. destruct (dirname h) as [|c t] eqn:Ed; [left; reflexivity|]. rewrite <- Ed. right. split; [rewrite is_abs_dirname; congruence|].
  exists (comps (basename h) ++ l). split; [destruct (comps (basename h)); [exact Hl | discriminate]|]. rewrite E, (comps_split h), <- app_assoc. reflexivity.
Qed.
Lemma above_heads q : forall k h t x, above q h -> In x (heads k h t) -> above q x.
Proof.
  induction k as [|k IH]; intros h t x Hh Hx; (destruct h as [|c h]; [destruct Hx|]); (destruct t as [|c' t]; [destruct Hx|]); cbn [heads] in Hx; [destruct Hx|].
  destruct Hx as [<-|Hx]; [exact Hh|]. eapply IH; [|exact Hx]. apply above_dirname, Hh.
Qed.
Lemma full_cons n q : Forall valid_name (n :: q) -> basename (full (n :: q)) = n.
Proof.
  intros Hv. pose proof Hv as Hv0. inversion_clear Hv as [|? ? (Hn & _ & _ & Hs) Hv']. rewrite basename_cut.
  assert (Ef : exists h, full (n :: q) = h ++ cSlash :: n).
  { unfold full, path_join. assert (Ea : startswith (rel (n :: q)) [cSlash] = false).
    { destruct (startswith (rel (n :: q)) [cSlash]) eqn:Ea; [|reflexivity]. apply startswith_iff in Ea as (r & Er). assert (Hr : is_abs (rel (n :: q)) = false) by (apply is_abs_rel, Hv0). rewrite Er in Hr. discriminate. }
    rewrite Ea. destruct (eqb output [] || endswith output [cSlash]) eqn:Ee.
    - destruct q as [|m q].
      + rewrite rel_one. destruct (eqb output []) eqn:E0; [apply eqb_true in E0; congruence|]. apply endswith_iff in Ee as (r & ->). exists r. rewrite <- app_assoc. reflexivity.
      + rewrite rel_cons, app_assoc. eauto.
    - destruct q as [|m q]; [exists output; reflexivity|]. rewrite rel_cons, !app_assoc. eauto. }
  destruct Ef as [h ->]. rewrite cut_last_app by exact Hs. reflexivity.
Qed.
Lemma above_full q : Forall valid_name q -> q <> [] -> above q (dirname (full q)).
Proof.
  intros Hv Hne. destruct (full_text q Hv) as (Hs & Ha & Hc). destruct (dirname (full q)) as [|c t] eqn:Ed; [left; reflexivity|]. rewrite <- Ed. right. split; [rewrite is_abs_dirname; congruence|].
  exists (comps (basename (full q))). split; [|rewrite <- Hc; apply comps_split]. destruct q as [|n q]; [congruence|]. rewrite full_cons by exact Hv. inversion_clear Hv as [|? ? (H1 & H2 & _ & H3) _].
  rewrite comps_one by assumption. discriminate.
Qed.
Lemma valid_extra q : E (q ++ d) -> Forall valid_name q /\ q <> [].
Proof.
  intros Hq. pose proof Hq as (q' & Eq & Hne & _ & Hk). apply app_d_inj in Eq. subst q'. split; [|exact Hne]. apply valid_path. destruct Hk as [[[t Hl] _]|[[b Hl] _]]; congruence.
Qed.
Lemma rmdir_op g q h u g' : inv g -> E (q ++ d) -> above q h -> f_rmdir cwd h g = Ok (u, g') ->
  g' = del (target cwd h) g /\ inv g' /\ look g (target cwd h) = Some NDir /\ target cwd h <> [] /\ names (target cwd h) g = [].
Proof.
  intros Hg Hq Hh Hop. destruct (valid_extra q Hq) as [Hv Hne]. unfold f_rmdir in Hop. apply rbind_Ok in Hop as (p & Ep & Hop).
  assert (Hh0 : h <> []) by (intros ->; discriminate Ep). destruct (above_target q h Hh0 Hv Hh) as [Hd Hb].
  apply locate_plain in Ep as [-> _]; [|exact Hh0 | exact Hd | exact (inv_nolink g _ _ Hg Hq Hb)].
  destruct (eqb (basename h) [cDot]); [discriminate|]. destruct (eqb (basename h) dotdot); [discriminate|].
  remember (target cwd h) as a eqn:Ea. assert (look g a = Some NDir /\ a <> [] /\ names a g = [] /\ g' = del a g) as (El & Ha & Hn & ->).
  { destruct a as [|y a']; [discriminate|]. destruct (look g (y :: a')) as [[| |]|]; try discriminate. destruct (names (y :: a') g); [|discriminate]. split; [reflexivity|]. split; [discriminate|]. split; [reflexivity | congruence]. }
  split; [reflexivity|]. split; [|auto]. apply inv_del; auto; [congruence| |].
  - intros n. destruct (look g (n :: a)) eqn:En; [|reflexivity]. assert (In n (names a g)) by (apply names_In; congruence). rewrite Hn in *. contradiction.
  - right. split; [exact (extra_anc _ _ Hq Hb)|]. exists (q ++ d). auto.
Qed.
Lemma rmdir_safe q h : E (q ++ d) -> above q h -> safe inv gone (fun _ => True) (rmdir cwd h).
Proof.
  intros Hq Hh. apply safe_sys; [apply gone_refl|]. intros g u g' Hg Hop. destruct (rmdir_op g q h u g' Hg Hq Hh Hop) as (-> & Hi & _). split; [apply gone_del | auto].
Qed.
Lemma rmdir_all_safe q : E (q ++ d) -> forall l, (forall h, In h l -> above q h) -> safe inv gone (fun _ => True) (rmdir_all cwd l).
Proof.
  intros Hq. induction l as [|h l IH]; intros H; cbn [rmdir_all]; [exact Logic.I|]. eapply (safe_bind _ _ (fun _ => True)).
  - apply safe_catch; [|intros e; destruct (is_oserror e); exact Logic.I]. eapply (safe_bind _ _ (fun _ => True)); [apply (rmdir_safe q h Hq); apply H; left; reflexivity | intros; exact Logic.I].
  - intros [|] _; [apply IH; intros x Hx; apply H; right; exact Hx | exact Logic.I].
Qed.
Lemma above_split q h : above q h -> above q (fst (path_split h)).
Proof. apply above_dirname. Qed.
Lemma above_first q h : above q h -> above q (fst (first_head h)).
Proof.
  intros H. unfold first_head. destruct (path_split h) as [a b] eqn:E. assert (Ha : above q a) by (change a with (fst (a, b)); rewrite <- E; apply above_split, H). destruct b; [apply above_split, Ha | exact Ha].
Qed.
Lemma removedirs_safe q h : E (q ++ d) -> above q h -> safe inv gone (fun _ => True) (removedirs cwd h).
Proof.
  intros Hq Hh. unfold removedirs. eapply (safe_bind _ _ (fun _ => True)); [apply (rmdir_safe q h Hq Hh)|]. intros _ _. pose proof (above_first q h Hh) as Hf. destruct (first_head h) as [a b]. cbn [fst] in Hf.
  apply (rmdir_all_safe q Hq). intros x Hx. eapply above_heads; eassumption.
Qed.

Variable set_order : list str -> list str.
Hypothesis Hset : forall l, Permutation (set_order l) l.
Lemma prune_dirs qs x : (forall q, In q qs <-> E (q ++ d)) -> In x (set_order (set_of (map dirname (map full qs ++ [])))) -> exists q, E (q ++ d) /\ x = dirname (full q).
Proof.
  intros Hqs Hx. apply (Permutation_in _ (Hset _)) in Hx. rewrite set_of_In, app_nil_r, map_map in Hx. apply in_map_iff in Hx as (q & <- & Hq). exists q. split; [apply Hqs, Hq | reflexivity].
Qed.
Lemma prune_safe qs : (forall q, In q qs <-> E (q ++ d)) ->
  safe inv gone (fun _ => True) (for_each (set_order (set_of (map dirname (map full qs ++ [])))) (fun x => ignore_os tt (removedirs cwd x))).
Proof.
  intros Hqs. apply safe_for_each. intros x Hx. destruct (prune_dirs qs x Hqs Hx) as (q & Hq & ->). destruct (valid_extra q Hq) as [Hv Hne].
  apply safe_catch; [apply (removedirs_safe q); [exact Hq | apply above_full; assumption]|]. intros e. destruct (is_oserror e); exact Logic.I.
Qed.
Lemma safe_inv {A} (p : prog A) pl g o pl' g' : safe inv gone (fun _ => True) p -> inv g -> run p pl g = (o, pl', g') -> gone g g' /\ inv g'.
Proof. intros Hs Hi Hr. destruct (safe_run inv gone gone_refl gone_trans _ p Hs pl g o pl' g' Hi Hr) as (H1 & H2 & _). auto. Qed.
Lemma removes_run : forall qs pl g o pl' g', (forall q, In q qs -> E (q ++ d)) -> inv g -> run (for_each (map full qs) (remove cwd)) pl g = (o, pl', g') ->
  inv g' /\ gone g g' /\ (o = Done tt -> forall q, In q qs -> look g' (q ++ d) = None).
Proof.
  induction qs as [|q qs IH]; intros pl g o pl' g' HE Hg Hr; cbn [map for_each] in Hr.
  - cbn in Hr. injection Hr as <- <- <-. split; [exact Hg|]. split; [apply gone_refl|]. intros _ q [].
  - rewrite run_bind in Hr. destruct (run (remove cwd (full q)) pl g) as [[o1 pl1] g1] eqn:E1. assert (Hq : E (q ++ d)) by (apply HE; left; reflexivity).
    destruct (safe_inv _ _ _ _ _ _ (remove_safe q Hq) Hg E1) as [Hgo Hi]. destruct o1 as [u|e|]; [|injection Hr as <- <- <-; split; [exact Hi|]; split; [exact Hgo | discriminate]..].
    destruct (IH pl1 g1 o pl' g' (fun x Hx => HE x (or_intror Hx)) Hi Hr) as (Hi2 & Hgo2 & Hd). split; [exact Hi2|]. split; [eapply gone_trans; eassumption|].
    intros Eo x [<-|Hx]; [|apply Hd; assumption]. apply Hgo2. apply run_sys_done in E1. apply (remove_op g q u g1 Hg Hq E1).
Qed.

Lemma walk_output_reading : reading (walk_output_dir cwd order output kept).
Proof.
  unfold walk_output_dir. apply reading_bind; [apply reading_query|]. intros [|]; cbn [negb]; [|apply reading_ret]. apply reading_bind; [apply reading_query|]. intros n. apply walk_reading.
Qed.
Hypothesis Hnofile : forall b, look f d <> Some (NFile b).
Lemma no_extra : look f d = None -> forall p, ~ E p.
Proof.
  intros Hd p Hp. pose proof Hp as (q & -> & Hne & _). rewrite (extra_anc (q ++ d) d Hp) in Hd; [discriminate|]. destruct q as [|x q]; [congruence|]. exists x, q. reflexivity.
Qed.
(** What happens in any case. *)
Lemma clean_any pl o pl' g : run (clean_output_dir cwd order set_order output kept links) pl f = (o, pl', g) ->
  inv g /\ (o = Done tt -> forall p, E p -> look g p = None).
Proof.
  intros Hr. unfold clean_output_dir in Hr. apply reading_bind_run in Hr as [[-> Hn]|(found & pl1 & u & Hf & _ & Hr)]; [| |apply walk_output_reading].
  { split; [apply inv_start|]. intros ->. destruct (Hn tt eq_refl). }
  apply reading_bind_run in Hr as [[-> Hn]|([files trees] & pl2 & u2 & Ht & _ & Hr)]; [| |apply to_remove_reading].
  { split; [apply inv_start|]. intros ->. destruct (Hn tt eq_refl). }
  change (fst (fst (run ?p [] f))) with (result_of p f) in *.
  assert (Hqs : exists qs, files = map full qs /\ trees = [] /\ forall q, In q qs <-> E (q ++ d)).
  { destruct (look f d) as [[b| |t]|] eqn:Ed.
    - destruct (Hnofile b eq_refl).
    - destruct (collect Ed) as (found' & qs & E1 & E2 & _ & Hqs). unfold result_of in *. rewrite E1 in Hf. injection Hf as <-. rewrite E2 in Ht. injection Ht as <- <-. eauto.
    - destruct (Hnl d t (below_refl _) Ed).
    - pose proof (walk_missing Ed) as E1. unfold result_of in *. rewrite E1 in Hf. injection Hf as <-. cbn in Ht. injection Ht as <- <-. exists []. split; [reflexivity|]. split; [reflexivity|]. intros q. split; [intros [] | intros H; destruct (no_extra Ed _ H)]. }
  destruct Hqs as (qs & -> & -> & Hqs). rewrite run_bind in Hr. destruct (run (for_each (map full qs) (remove cwd)) pl2 f) as [[o1 pl3] g1] eqn:E1.
  destruct (removes_run qs pl2 f o1 pl3 g1 (fun q Hq => proj1 (Hqs q) Hq) inv_start E1) as (Hi & _ & Hrm).
  destruct o1 as [[]|e|]; [|injection Hr as <- <- <-; split; [exact Hi | discriminate]..].
  cbn [for_each bind] in Hr. destruct (safe_inv _ _ _ _ _ _ (prune_safe qs Hqs) Hi Hr) as [Hgo Hi2]. split; [exact Hi2|].
  intros _ p Hp. apply Hgo. pose proof Hp as (q & -> & _). apply Hrm; [reflexivity | apply Hqs, Hp].
Qed.

(** ** Without failures *)

Lemma rel_start q : Forall valid_name q -> startswith (rel q) [cSlash] = false.
Proof.
  intros Hv. pose proof (is_abs_rel q Hv) as Ha. destruct (startswith (rel q) [cSlash]) eqn:Es; [|reflexivity]. apply startswith_iff in Es as (r & Er). rewrite Er in Ha. discriminate.
Qed.
Lemma full_app n m r : Forall valid_name (n :: m :: r) -> full (n :: m :: r) = full (m :: r) ++ cSlash :: n.
Proof.
  intros Hv. unfold full, path_join. rewrite (rel_start _ Hv). inversion_clear Hv as [|? ? _ Hv']. rewrite (rel_start _ Hv'), rel_cons.
  destruct (eqb output [] || endswith output [cSlash]); rewrite <- ?app_assoc; reflexivity.
Qed.
Lemma full_last m r : Forall valid_name (m :: r) -> exists h x, full (m :: r) = h ++ [x] /\ x <> cSlash.
Proof.
  intros Hv. pose proof Hv as Hv0. inversion_clear Hv0 as [|? ? (Hn & _ & _ & Hs) _].
  assert (Em : exists a x, m = a ++ [x]) by (destruct (exists_last Hn) as (a & x & E0); eauto). destruct Em as (a & x & Em).
  assert (Hx : x <> cSlash) by (intros ->; apply Hs; rewrite Em; apply in_or_app; right; left; reflexivity).
  assert (Er : exists h, rel (m :: r) = h ++ [x]).
  { destruct r as [|m' r]; [exists a; exact Em|]. rewrite rel_cons, Em. exists (rel (m' :: r) ++ cSlash :: a). rewrite <- app_assoc. reflexivity. }
  destruct Er as [h Er]. unfold full, path_join. rewrite (rel_start _ Hv), Er. destruct (eqb output [] || endswith output [cSlash]); eexists _, x; (split; [|exact Hx]); rewrite ?app_comm_cons, !app_assoc; reflexivity.
Qed.
Lemma full_dirname n m r : Forall valid_name (n :: m :: r) -> dirname (full (n :: m :: r)) = full (m :: r).
Proof.
  intros Hv. rewrite full_app by exact Hv. inversion_clear Hv as [|? ? (_ & _ & _ & Hs) Hv']. unfold dirname, path_split. rewrite cut_last_app by exact Hs. destruct (full_last m r Hv') as (h & x & -> & Hx).
  rewrite !forallb_app. cbn [forallb]. replace (cSlash =? x) with false by lia. rewrite !andb_false_r. cbn [andb fst]. rewrite rstrip_app_all by reflexivity. apply rstrip_snoc_false. lia.
Qed.

Lemma rmdir_err g h e : f_rmdir cwd h g = Err e -> is_oserror e = true.
Proof.
  unfold f_rmdir. destruct (locate cwd g false h) as [p|x] eqn:El; cbn [rbind].
  - destruct (eqb (basename h) [cDot]); [intros E0; injection E0 as <-; reflexivity|]. destruct (eqb (basename h) dotdot); [intros E0; injection E0 as <-; reflexivity|].
    destruct p as [|y p]; [intros E0; injection E0 as <-; reflexivity|]. destruct (look g (y :: p)) as [[| |]|]; try (intros E0; injection E0 as <-; reflexivity). destruct (names (y :: p) g); [discriminate | intros E0; injection E0 as <-; reflexivity].
  - intros E0. injection E0 as <-. unfold locate in El. destruct h; [injection El as <-; reflexivity|]. eapply resolve_err_os. exact El.
Qed.
Lemma rmdir_all_cons h t g : run (rmdir_all cwd (h :: t)) [] g = match f_rmdir cwd h g with Ok (_, g') => run (rmdir_all cwd t) [] g' | Err _ => (Done tt, [], g) end.
Proof.
  cbn [rmdir_all]. rewrite run_bind, run_catch, run_bind. unfold rmdir, sys, sys_part. cbn [run]. destruct (f_rmdir cwd h g) as [[[] g']|e] eqn:Ef; cbn [run]; [reflexivity|]. rewrite (rmdir_err _ _ _ Ef). reflexivity.
Qed.
Lemma removedirs_run h g : run (removedirs cwd h) [] g = match f_rmdir cwd h g with Ok (_, g') => run (rmdir_all cwd (heads (length h) (fst (first_head h)) (snd (first_head h)))) [] g' | Err e => (Raised e, [], g) end.
Proof.
  unfold removedirs. rewrite run_bind. unfold rmdir, sys, sys_part. cbn [run]. destruct (f_rmdir cwd h g) as [[[] g']|e]; cbn [run]; [destruct (first_head h); reflexivity | reflexivity].
Qed.
Lemma ignore_run h g : run (ignore_os tt (removedirs cwd h)) [] g = match f_rmdir cwd h g with Ok (_, g') => run (ignore_os tt (rmdir_all cwd (heads (length h) (fst (first_head h)) (snd (first_head h))))) [] g' | Err e => (Done tt, [], g) end.
Proof.
  unfold ignore_os. rewrite !run_catch, removedirs_run. destruct (f_rmdir cwd h g) as [[[] g']|e] eqn:Ef; [rewrite run_catch; reflexivity|]. rewrite (rmdir_err _ _ _ Ef). reflexivity.
Qed.

Section Prune.
Variable f1 : fs.
Definition cleaned (P : path -> Prop) (hole : option path) (g : fs) : Prop :=
  inv g /\ forall x, strictly_below x d -> hole <> Some x -> look g x = Some NDir -> (forall n, look g (n :: x) = None) -> (forall n, look f1 (n :: x) = None) /\ ~ P x.
Lemma rmdir_full g r : inv g -> r <> [] -> Forall valid_name r -> look g (r ++ d) = Some NDir -> (forall n, look g (n :: r ++ d) = None) -> f_rmdir cwd (full r) g = Ok (tt, del (r ++ d) g).
Proof.
  intros Hg Hne Hv Hl Hc. unfold f_rmdir. rewrite (locate_text g false r _ (proj1 Hg) Hv (full_text r Hv)) by congruence. cbn [rbind]. destruct r as [|n r]; [congruence|]. rewrite full_cons by exact Hv.
  inversion_clear Hv as [|? ? (H1 & H2 & H3 & H4) _]. assert (E1 : eqb n [cDot] = false) by (apply eqbF, H2). assert (E2 : eqb n dotdot = false) by (apply eqbF, H3). rewrite E1, E2. cbn [app] in *. rewrite Hl.
  destruct (names (n :: r ++ d) g) as [|m ms] eqn:En; [reflexivity|]. assert (Hi : In m (names (n :: r ++ d) g)) by (rewrite En; left; reflexivity). apply names_In in Hi. destruct (Hi (Hc m)).
Qed.
Definition above0 (h : str) : Prop := h = [] \/ is_abs h = is_abs output /\ exists l, comps output = comps h ++ l.
Lemma above0_above q h : q <> [] -> above0 h -> above q h.
Proof.
  intros Hq [->|(Ha & l & E0)]; [left; reflexivity|]. right. split; [exact Ha|]. exists (l ++ rev q). split; [|rewrite E0, <- app_assoc; reflexivity].
  intros E1. apply app_eq_nil in E1 as [_ E1]. destruct q; [congruence|]. cbn [rev] in E1. destruct (rev q); discriminate.
Qed.
Lemma above0_dirname h : above0 h -> above0 (dirname h).
Proof.
  intros [->|(Ha & l & E0)]; [left; reflexivity|]. destruct (dirname h) as [|c t] eqn:Ed; [left; reflexivity|]. rewrite <- Ed. right. split; [rewrite is_abs_dirname; congruence|].
  exists (comps (basename h) ++ l). rewrite E0, (comps_split h), <- app_assoc. reflexivity.
Qed.
Lemma above0_heads : forall k h t x, above0 h -> In x (heads k h t) -> above0 x.
Proof.
  induction k as [|k IH]; intros h t x Hh Hx; (destruct h as [|c h]; [destruct Hx|]); (destruct t as [|c' t]; [destruct Hx|]); cbn [heads] in Hx; [destruct Hx|].
  destruct Hx as [<-|Hx]; [exact Hh|]. eapply IH; [|exact Hx]. apply above0_dirname, Hh.
Qed.
Lemma above0_first h : above0 h -> above0 (fst (first_head h)).
Proof.
  intros H. unfold first_head. destruct (path_split h) as [a b] eqn:E0. assert (Ha : above0 a) by (change a with (fst (a, b)); rewrite <- E0; apply above0_dirname, H). destruct b; [apply above0_dirname, Ha | exact Ha].
Qed.
Lemma above0_target h : h <> [] -> above0 h -> ~ strictly_below (target cwd h) d.
Proof.
  intros Hh [H|(Ha & l & E0)] (x & l' & Hx); [congruence|]. assert (Eq : d = rev l ++ target cwd h) by (unfold target; rewrite Ha, E0, rev_app_distr, <- app_assoc; reflexivity).
  rewrite Eq, app_comm_cons, app_assoc in Hx. apply (f_equal (@length _)) in Hx. rewrite !app_length in Hx. cbn [length] in Hx. lia.
Qed.
Lemma cleaned_del_out P hole g p : cleaned P hole g -> inv (del p g) -> ~ strictly_below p d -> cleaned P hole (del p g).
Proof.
  intros [_ Hg] Hi Hp. split; [exact Hi|]. intros x Hx Hh Hl Hc. apply Hg; try assumption.
  - rewrite look_del_other in Hl; [exact Hl|]. intros ->. contradiction.
  - intros n. specialize (Hc n). rewrite look_del_other in Hc; [exact Hc|]. intros <-. apply Hp. destruct Hx as (y & l & ->). exists n, (y :: l). reflexivity.
Qed.
Lemma prune_out P hole q : E (q ++ d) -> forall l g, (forall x, In x l -> above0 x) -> cleaned P hole g -> exists g', run (rmdir_all cwd l) [] g = (Done tt, [], g') /\ cleaned P hole g'.
Proof.
  intros Hq. induction l as [|h l IH]; intros g Hl Hg; [exists g; auto|]. rewrite rmdir_all_cons. destruct (f_rmdir cwd h g) as [[[] g']|e] eqn:Ef; [|eauto]. apply IH; [intros x Hx; apply Hl; right; exact Hx|].
  assert (Hh : above0 h) by (apply Hl; left; reflexivity). destruct (rmdir_op g q h tt g' (proj1 Hg) Hq (above0_above q h (proj2 (valid_extra q Hq)) Hh) Ef) as (-> & Hi & _).
  apply cleaned_del_out; [exact Hg | exact Hi|]. apply above0_target; [|exact Hh]. intros ->. discriminate Ef.
Qed.
Definition head_for (r : path) (h : str) : Prop := match r with [] => above0 h | _ => h = full r end.
Lemma head_dirname n r : Forall valid_name (n :: r) -> head_for r (dirname (full (n :: r))).
Proof.
  intros Hv. destruct r as [|m r]; [|apply full_dirname, Hv]. cbn [head_for]. destruct (full_text _ Hv) as (Hs & Ha & Hc).
  destruct (dirname (full [n])) as [|c t] eqn:Ed; [left; reflexivity|]. rewrite <- Ed. right. split; [rewrite is_abs_dirname; [exact Ha | rewrite Ed; discriminate]|]. exists [].
  rewrite app_nil_r. rewrite comps_split, full_cons in Hc by exact Hv. inversion_clear Hv as [|? ? (H1 & H2 & _ & H4) _]. rewrite (comps_one n) in Hc by assumption. cbn [rev app] in Hc. apply app_inj_tail in Hc as [Hc _]. congruence.
Qed.
Lemma above_suffix q l r h : q = l ++ r -> l <> [] -> Forall valid_name q -> head_for r h -> above q h.
Proof.
  intros -> Hl Hv Hh. destruct r as [|n r]; [apply above0_above; [rewrite app_nil_r; exact Hl | exact Hh]|]. cbn [head_for] in Hh. subst h. apply Forall_app in Hv as [_ Hv]. destruct (full_text _ Hv) as (Hs & Ha & Hc).
  right. split; [exact Ha|]. exists (rev l). split; [destruct l; [congruence|]; cbn [rev]; intros E0; apply app_eq_nil in E0 as [_ E0]; discriminate|]. rewrite Hc, rev_app_distr, app_assoc. reflexivity.
Qed.
Lemma cleaned_filled P g p : cleaned P (Some p) g -> (strictly_below p d -> look g p = Some NDir -> (forall n, look g (n :: p) = None) -> False) -> cleaned P None g.
Proof.
  intros [Hi Hg] Hp. split; [exact Hi|]. intros x Hx _ Hl Hc. destruct (eqbP x p) as [->|Hn]; [destruct (Hp Hx Hl Hc)|]. apply Hg; try assumption. congruence.
Qed.
Lemma strictly_app n (r : path) : strictly_below ((n :: r) ++ d) d.
Proof. exists n, r. reflexivity. Qed.
Lemma cleaned_del P hole g n r : cleaned P hole g -> (hole = None \/ hole = Some (n :: r ++ d)) -> inv (del (n :: r ++ d) g) -> cleaned P (Some (r ++ d)) (del (n :: r ++ d) g).
Proof.
  intros [_ Hg] Hh Hi. split; [exact Hi|]. intros x Hx Hr Hl Hc. assert (Hn : x <> n :: r ++ d) by (intros ->; rewrite look_del_same in Hl; discriminate). rewrite look_del_other in Hl by exact Hn.
  apply Hg; [exact Hx | destruct Hh as [-> | ->]; congruence | exact Hl|]. intros m. specialize (Hc m). rewrite look_del_other in Hc; [exact Hc|]. intros E0. injection E0 as E0 E1. apply Hr. rewrite E1. reflexivity.
Qed.
Lemma prune_chain P q : E (q ++ d) -> forall r l k h tail g, q = l ++ r -> l <> [] -> head_for r h -> tail <> [] -> (length h <= k)%nat -> cleaned P (Some (r ++ d)) g ->
  exists g', run (rmdir_all cwd (heads k h tail)) [] g = (Done tt, [], g') /\ cleaned P None g'.
Proof.
  intros Hq. destruct (valid_extra q Hq) as [Hvq Hne]. induction r as [|n r IH]; intros l k h tail g Eq Hl Hh Ht Hk Hg.
  - apply (prune_out P None q Hq); [intros x Hx; eapply above0_heads; eassumption|]. eapply cleaned_filled; [exact Hg|]. cbn [app]. intros Hs. destruct (strictly_below_irrefl _ Hs).
  - assert (Hv : Forall valid_name (n :: r)) by (rewrite Eq in Hvq; apply Forall_app in Hvq; apply Hvq). pose proof (above_suffix q l (n :: r) h Eq Hl Hvq Hh) as Ha. cbn [head_for] in Hh.
    destruct h as [|c h0] eqn:Eh; [destruct (full_text _ Hv); congruence|]. rewrite <- Eh in *. destruct tail as [|c' tail]; [congruence|]. destruct k as [|k]; [rewrite Eh in Hk; cbn [length] in Hk; lia|].
    assert (Ehd : heads (S k) h (c' :: tail) = h :: heads k (dirname h) (basename h)) by (rewrite Eh; reflexivity). rewrite Ehd, rmdir_all_cons. assert (Hnn : n <> []) by (inversion_clear Hv as [|? ? Hnv _]; apply Hnv).
    destruct (f_rmdir cwd h g) as [[[] g']|e] eqn:Ef.
    + destruct (rmdir_op g q h tt g' (proj1 Hg) Hq Ha Ef) as (-> & Hi & _). rewrite Hh, (text_target _ _ (full_text _ Hv)) in *. cbn [app] in *.
      apply (IH (l ++ [n])); [rewrite Eq, <- app_assoc; reflexivity | intros E0; apply app_eq_nil in E0 as [_ E0]; discriminate | apply head_dirname, Hv | rewrite full_cons; assumption | |].
      * destruct r as [|m r].
        -- unfold full, dirname, path_split in *. destruct (cut_last cSlash (path_join output (rel [n]))) as [[a b]|] eqn:Ec; cbn [fst]; [|cbn [length]; lia]. pose proof Ec as Ec'. apply cut_last_Some in Ec as [Ec _].
           assert (Hb : b = n). { pose proof (full_cons n [] Hv) as Hb. rewrite basename_cut in Hb. unfold full in Hb. rewrite Ec' in Hb. exact Hb. } subst b.
           assert (Hlen : (length a + 1 + length n <= S k)%nat) by (rewrite Ec, app_length in Hk; cbn [length] in Hk; lia). assert (Hn1 : (1 <= length n)%nat) by (destruct n; [congruence | cbn [length]; lia]).
           destruct (forallb (N.eqb cSlash) (a ++ [cSlash])); cbn [fst]; [rewrite app_length; cbn [length]; lia|].
           destruct (rstrip_spec (N.eqb cSlash) (a ++ [cSlash])) as (p0 & Ep & _). apply (f_equal (@length _)) in Ep. rewrite !app_length in Ep. cbn [length] in Ep. lia.
        -- rewrite full_dirname by exact Hv. rewrite full_app, app_length in Hk by exact Hv. cbn [length] in Hk. lia.
      * apply cleaned_del with (hole := Some (n :: r ++ d)); auto.
    + exists g. split; [reflexivity|]. eapply cleaned_filled; [exact Hg|]. intros _ Hld Hc. rewrite Hh, (rmdir_full g (n :: r) (proj1 Hg)) in Ef by (try assumption; discriminate). discriminate.
Qed.
Lemma prune_one P n r g : E (n :: r ++ d) -> cleaned P None g ->
  exists g', run (ignore_os tt (removedirs cwd (dirname (full (n :: r))))) [] g = (Done tt, [], g') /\ cleaned (fun x => P x \/ x = r ++ d) None g'.
Proof.
  intros Hq Hg. assert (Hq' : E ((n :: r) ++ d)) by exact Hq. destruct (valid_extra (n :: r) Hq') as [Hv _]. pose proof (head_dirname n r Hv) as Hh. set (s := dirname (full (n :: r))) in *. rewrite ignore_run.
  assert (Hpost : forall l g0, (exists g', run (rmdir_all cwd l) [] g0 = (Done tt, [], g') /\ cleaned (fun x => P x \/ x = r ++ d) None g') -> exists g', run (ignore_os tt (rmdir_all cwd l)) [] g0 = (Done tt, [], g') /\ cleaned (fun x => P x \/ x = r ++ d) None g').
  { intros l g0 (g' & E1 & H). exists g'. split; [|exact H]. unfold ignore_os. rewrite run_catch, E1. reflexivity. }
  destruct r as [|m r].
  - assert (Hg' : cleaned (fun x => P x \/ x = [] ++ d) None g).
    { destruct Hg as [Hi Hg]. split; [exact Hi|]. intros x Hx H1 H2 H3. destruct (Hg x Hx H1 H2 H3) as [H4 H5]. split; [exact H4|]. intros [H6|H6]; [contradiction|]. subst x. cbn [app] in Hx. destruct (strictly_below_irrefl _ Hx). }
    destruct (f_rmdir cwd s g) as [[[] g']|e] eqn:Ef; [|eauto]. cbn [head_for] in Hh.
    destruct (rmdir_op g [n] s tt g' (proj1 Hg) Hq' (above0_above [n] s ltac:(discriminate) Hh) Ef) as (-> & Hi & _).
    apply Hpost. apply (prune_out _ None [n] Hq'); [intros x Hx; eapply above0_heads; [|exact Hx]; apply above0_first, Hh|]. apply cleaned_del_out; [exact Hg' | exact Hi|].
    apply above0_target; [|exact Hh]. intros E0. rewrite E0 in Ef. discriminate Ef.
  - cbn [head_for] in Hh. assert (Hv' : Forall valid_name (m :: r)) by (inversion_clear Hv; assumption). rewrite Hh in *. clear s Hh.
    assert (Hh : head_for (m :: r) (full (m :: r))) by reflexivity. pose proof (above_suffix (n :: m :: r) [n] (m :: r) _ eq_refl ltac:(discriminate) Hv Hh) as Ha.
    destruct (f_rmdir cwd (full (m :: r)) g) as [[[] g']|e] eqn:Ef.
    + destruct (rmdir_op g (n :: m :: r) _ tt g' (proj1 Hg) Hq' Ha Ef) as (-> & Hi & _). rewrite (text_target _ _ (full_text _ Hv')) in *. apply Hpost.
      assert (Ehd : first_head (full (m :: r)) = (dirname (full (m :: r)), m)).
      { unfold first_head. rewrite path_split_eta, full_cons by exact Hv'. inversion_clear Hv' as [|? ? (Hm & _) _]. destruct m; [congruence | reflexivity]. }
      rewrite Ehd. cbn [fst snd]. apply (prune_chain _ (n :: m :: r) Hq' r [n; m]); [reflexivity | discriminate | apply head_dirname, Hv' | inversion_clear Hv' as [|? ? (Hm & _) _]; exact Hm | |].
      * unfold dirname, path_split. destruct (cut_last cSlash (full (m :: r))) as [[a b]|] eqn:Ec; cbn [fst]; [|cbn [length]; lia]. apply cut_last_Some in Ec as [-> _].
        destruct (forallb (N.eqb cSlash) (a ++ [cSlash])); cbn [fst]; [rewrite !app_length; cbn [length]; lia|].
        destruct (rstrip_spec (N.eqb cSlash) (a ++ [cSlash])) as (p0 & Ep & _). apply (f_equal (@length _)) in Ep. rewrite !app_length in *. cbn [length] in *. lia.
      * cbn [app] in *. assert (Hk : cleaned P (Some (r ++ d)) (del (m :: r ++ d) g)) by (apply cleaned_del with (hole := None); auto). destruct Hk as [_ Hk]. split; [exact Hi|].
        intros x Hx H1 H2 H3. destruct (Hk x Hx H1 H2 H3) as [H4 H5]. split; [exact H4|]. intros [H6|H6]; [contradiction|]. subst x. rewrite look_del_same in H2 by discriminate. discriminate.
    + exists g. split; [reflexivity|]. destruct Hg as [Hi Hg]. split; [exact Hi|]. intros x Hx H1 H2 H3. destruct (Hg x Hx H1 H2 H3) as [H4 H5]. split; [exact H4|]. intros [H6|H6]; [contradiction|]. subst x.
      rewrite (rmdir_full g (m :: r) Hi) in Ef by (try assumption; discriminate). discriminate.
Qed.
Lemma full_inj r r' : Forall valid_name r -> Forall valid_name r' -> full r = full r' -> r = r'.
Proof.
  intros H H' E0. pose proof (text_target _ _ (full_text r H)) as E1. rewrite E0, (text_target _ _ (full_text r' H')) in E1. apply app_inv_tail in E1. congruence.
Qed.
Lemma full_not_above0 n r : Forall valid_name (n :: r) -> ~ above0 (full (n :: r)).
Proof.
  intros Hv H. destruct (full_text _ Hv) as (Hs & _). apply (above0_target _ Hs H). rewrite (text_target _ _ (full_text _ Hv)). apply strictly_app.
Qed.
Definition done_dirs (l : list str) (x : path) : Prop := exists n r, Forall valid_name (n :: r) /\ x = (n :: r) ++ d /\ In (full (n :: r)) l.
Lemma prune_run : forall l P g, (forall x, In x l -> exists n r, E (n :: r ++ d) /\ x = dirname (full (n :: r))) -> cleaned P None g ->
  exists g', run (for_each l (fun x => ignore_os tt (removedirs cwd x))) [] g = (Done tt, [], g') /\ cleaned (fun x => P x \/ done_dirs l x) None g'.
Proof.
  induction l as [|s l IH]; intros P g Hl Hg.
  - exists g. split; [reflexivity|]. destruct Hg as [Hi Hg]. split; [exact Hi|]. intros x Hx H1 H2 H3. destruct (Hg x Hx H1 H2 H3) as [H4 H5]. split; [exact H4|]. intros [H|(n & r & _ & _ & [])]. contradiction.
  - destruct (Hl s (or_introl eq_refl)) as (n & r & Hq & ->). destruct (prune_one P n r g Hq Hg) as (g1 & R1 & Hg1). destruct (IH _ g1 (fun x Hx => Hl x (or_intror Hx)) Hg1) as (g2 & R2 & Hi & Hg2).
    exists g2. cbn [for_each]. rewrite run_bind, R1. split; [exact R2|]. split; [exact Hi|]. intros x Hx H1 H2 H3. destruct (Hg2 x Hx H1 H2 H3) as [H4 H5]. split; [exact H4|].
    intros [H|(m & t & Hv & Ex & Hin)]; [tauto|]. destruct Hin as [Hin|Hin]; [|apply H5; right; exists m, t; auto]. apply H5. left. right.
    destruct (valid_extra (n :: r) Hq) as [Hvn _]. pose proof (head_dirname n r Hvn) as Hh. rewrite Hin in Hh. destruct r as [|m' r]; [destruct (full_not_above0 m t Hv Hh)|]. cbn [head_for] in Hh.
    apply full_inj in Hh; [rewrite Ex, Hh; reflexivity | exact Hv | inversion_clear Hvn; assumption].
Qed.
End Prune.
Lemma removes_total : forall qs g, NoDup qs -> (forall q, In q qs -> E (q ++ d) /\ look g (q ++ d) <> None) -> inv g ->
  exists g', run (for_each (map full qs) (remove cwd)) [] g = (Done tt, [], g') /\ inv g' /\ forall p, (forall q, In q qs -> p <> q ++ d) -> look g' p = look g p.
Proof.
  induction qs as [|q qs IH]; intros g Hn HE Hg; [exists g; auto|]. inversion_clear Hn as [|? ? Hq Hn']. destruct (HE q (or_introl eq_refl)) as [Hx Hl]. destruct (valid_extra q Hx) as [Hv _].
  assert (Ef : f_remove cwd (full q) g = Ok (tt, del (q ++ d) g)).
  { unfold f_remove. destruct (extra_file (q ++ d) g Hg Hx Hl) as (Hl' & Hnd & _). rewrite (locate_text g false q _ (proj1 Hg) Hv (full_text q Hv) Hl) by discriminate. cbn [rbind]. destruct (look g (q ++ d)) as [[| |]|]; congruence. }
  destruct (remove_op g q tt _ Hg Hx Ef) as (_ & Hi & _). destruct (IH (del (q ++ d) g) Hn') as (g' & R & Hi' & Hk); [|exact Hi|].
  - intros q' Hq'. destruct (HE q' (or_intror Hq')) as [H1 H2]. split; [exact H1|]. rewrite look_del_other; [exact H2|]. intros E0. apply app_inv_tail in E0. subst q'. contradiction.
  - exists g'. cbn [map for_each]. rewrite run_bind. unfold remove, sys, sys_part. cbn [run]. rewrite Ef. split; [exact R|]. split; [exact Hi'|].
    intros p Hp. rewrite Hk by (intros q' Hq'; apply Hp; right; exact Hq'). apply look_del_other, Hp. left. reflexivity.
Qed.
Lemma clean_total : exists g, run (clean_output_dir cwd order set_order output kept links) [] f = (Done tt, [], g)
  /\ forall x, strictly_below x d -> look g x = Some NDir -> (forall n, look g (n :: x) = None) -> forall n, look f (n :: x) = None.
Proof.
  assert (Hqs : exists found qs, result_of (walk_output_dir cwd order output kept) f = Done found
    /\ result_of (to_remove cwd output kept links found) f = Done (map full qs, []) /\ NoDup qs /\ forall q, In q qs <-> E (q ++ d)).
  { destruct (look f d) as [[b| |t]|] eqn:Ed.
    - destruct (Hnofile b eq_refl).
    - exact (collect Ed).
    - destruct (Hnl d t (below_refl _) Ed).
    - exists [], []. split; [exact (walk_missing Ed)|]. split; [reflexivity|]. split; [constructor|]. intros q. split; [intros [] | intros H; destruct (no_extra Ed _ H)]. }
  destruct Hqs as (found & qs & E1 & E2 & Hn & Hqs). unfold clean_output_dir. rewrite run_bind, (result_run _ _ _ walk_output_reading E1), run_bind, (result_run _ _ _ (to_remove_reading _) E2), run_bind.
  destruct (removes_total qs f Hn) as (f1 & R1 & Hi & Hk); [|exact inv_start|].
  { intros q Hq. apply Hqs in Hq. split; [exact Hq|]. destruct Hq as (q' & _ & _ & _ & [[[t Hl] _]|[[b Hl] _]]); congruence. }
  rewrite R1. cbn [for_each bind]. set (l := set_order (set_of (map dirname (map full qs ++ [])))).
  destruct (prune_run f1 l (fun _ => False) f1) as (g & R2 & _ & Hc); [| |exists g; split; [exact R2|]].
  - intros x Hx. destruct (prune_dirs qs x Hqs Hx) as (q & Hq & ->). destruct (valid_extra q Hq) as [_ Hne]. destruct q as [|n r]; [congruence|]. eauto.
  - split; [exact Hi|]. intros x Hx _ Hl Hc. auto.
  - intros x Hx Hl Hce n. destruct (Hc x Hx ltac:(discriminate) Hl Hce) as [H1 H2]. destruct (look f (n :: x)) as [nd|] eqn:Ef; [|reflexivity]. exfalso.
    assert (Hq : exists q, In q qs /\ n :: x = q ++ d).
    { destruct (mem (n :: x) (map (fun q => q ++ d) qs)) eqn:Em; [apply mem_In in Em; apply in_map_iff in Em as (q & Eq & Hq); eauto|]. exfalso. rewrite <- Hk in Ef; [rewrite H1 in Ef; discriminate|].
      intros q Hq Eq. assert (Hin : In (n :: x) (map (fun q => q ++ d) qs)) by (apply in_map_iff; eauto). apply mem_In in Hin. congruence. }
    destruct Hq as (q & Hq & Eq). destruct Hx as (m & r & Ex). assert (Eq' : q = n :: m :: r) by (apply (app_inv_tail d); rewrite <- Eq, Ex; reflexivity). subst q.
    destruct (valid_extra _ (proj1 (Hqs _) Hq)) as [Hv _]. apply H2. right. exists m, r. split; [inversion_clear Hv; assumption|]. split; [exact Ex|]. unfold l. apply (Permutation_in _ (Permutation_sym (Hset _))).
    apply set_of_In. rewrite app_nil_r, map_map. apply in_map_iff. exists (n :: m :: r). split; [apply full_dirname, Hv | exact Hq].
Qed.
End Walk.
End Clean.
