(** * Proofs about the search of translation files *)

From Verif Require Import Base.Py Base.Text Base.PyFacts Base.TextFacts Base.PathFacts Base.Fs Spec.FsSpec Base.FsFacts Base.FsLinks Base.FsDir Base.FsTree Base.FsReal Base.FsRealFacts
  Model.Stringtables Spec.StringtablesSpec.

(** ** Paths *)

Notation child d c := (d ++ cSlash :: c).
Lemma dir_text_child d c : dir_text c -> dir_text (child d c).
Proof. intros (r & x & -> & Hx). exists (d ++ cSlash :: r), x. split; [rewrite <- app_assoc; reflexivity | exact Hx]. Qed.
Lemma dir_text_name (c : str) : c <> [] -> ~ In cSlash c -> dir_text c.
Proof.
  intros Hc Hs. destruct (exists_last Hc) as (r & x & ->). exists r, x. split; [reflexivity|]. intros ->. apply Hs, in_or_app. right. left. reflexivity.
Qed.
Lemma join_child d c : dir_text d -> startswith c [cSlash] = false -> path_join d c = child d c.
Proof.
  intros (r & x & -> & Hx) Hc. unfold path_join. rewrite Hc, endswith_slash_snoc by exact Hx.
  replace (eqb (r ++ [x]) []) with false by (symmetry; apply eqbF; destruct r; discriminate). reflexivity.
Qed.
Lemma split_child d c : dir_text d -> ~ In cSlash c -> path_split (child d c) = (d, c).
Proof.
  intros (r & x & -> & Hx) Hc. unfold path_split. rewrite cut_last_app by exact Hc.
  replace (forallb (N.eqb cSlash) ((r ++ [x]) ++ [cSlash])) with false.
  - rewrite rstrip_app_all by reflexivity. rewrite rstrip_snoc_false by lia. reflexivity.
  - symmetry. rewrite !forallb_app. cbn. replace (cSlash =? x) with false by lia. rewrite andb_false_r. reflexivity.
Qed.
Lemma dir_text_ne d : dir_text d -> d <> [].
Proof. intros (r & x & -> & _) E. destruct r; discriminate. Qed.

(** ** Resolution of the last name *)

Lemma resolve_snoc f fo c : forall k a cur p, resolve k f fo cur (a ++ [c]) = Ok p ->
  exists k' q, (k' <= k)%nat /\ resolve k f true cur a = Ok q /\ resolve k' f fo q [c] = Ok p.
Proof.
  induction k as [|k IHk]; (induction a as [|x a IH]; intros cur p E; [eexists _, cur; split; [apply le_n|]; split; [apply resolve_nil | exact E]|]);
    cbn [app] in E; rewrite resolve_cons in E; rewrite resolve_cons; (destruct (eqb x dotdot); [apply IH; exact E|]);
    (destruct (look f (x :: cur)) as [[y| |t]|]; [| apply IH; exact E | |]).
  all: try (destruct a; discriminate E).
  assert (E' : resolve k f fo (if is_abs t then [] else cur) ((comps t ++ a) ++ [c]) = Ok p) by (rewrite <- app_assoc; destruct a; exact E).
  apply IHk in E' as (k' & q & Hk & E1 & E2). exists k', q. split; [lia|]. split; [destruct a; exact E1 | exact E2].
Qed.
Lemma resolve_snoc_not f c : c <> dotdot -> forall k a cur q, resolve k f true cur a = Ok q -> look f q = Some NDir -> resolve k f false cur (a ++ [c]) = Ok (c :: q).
Proof.
  intros Hc. assert (G : forall k q, resolve k f false q [c] = Ok (c :: q)).
  { intros k q. rewrite resolve_cons. replace (eqb c dotdot) with false by (symmetry; apply eqbF; exact Hc). destruct (look f (c :: q)) as [[y| |t]|]; try rewrite resolve_nil; reflexivity. }
  induction k as [|k IHk]; (induction a as [|x a IH]; intros cur q E Hq; [rewrite resolve_nil in E; injection E as <-; apply G|]);
    cbn [app]; rewrite resolve_cons in E; rewrite resolve_cons; (destruct (eqb x dotdot); [apply IH; assumption|]);
    (destruct (look f (x :: cur)) as [[y| |t]|] eqn:El; [| apply IH; assumption | |]).
  all: try (destruct a; [|discriminate]; injection E as <-; congruence).
  - destruct a; discriminate.
  - assert (E' : resolve k f true (if is_abs t then [] else cur) (comps t ++ a) = Ok q) by (destruct a; exact E).
    apply IHk in E'; [|exact Hq]. rewrite <- app_assoc in E'. destruct a; exact E'.
Qed.

Section Child.
  Variable cwd : path.
  Variable f : fs.
  Hypothesis Hw : fs_wf f.

  Lemma locate_child fo d c : dir_text d -> valid_name c -> locate cwd f fo (child d c) = resolve max_links f fo (if is_abs d then [] else cwd) (comps d ++ [c]).
  Proof.
    intros Hd (H1 & H2 & _ & H4). pose proof (dir_text_ne d Hd) as Hne. unfold locate. destruct (child d c) as [|x s] eqn:E; [destruct d; discriminate|]. rewrite <- E. unfold at_loc, loc_of. cbn [fst snd].
    rewrite comps_app, (comps_one c) by assumption. destruct d; [congruence | reflexivity].
  Qed.
  Lemma locate_dir d : dir_text d -> locate cwd f true d = resolve max_links f true (if is_abs d then [] else cwd) (comps d).
  Proof. intros Hd. pose proof (dir_text_ne d Hd). unfold locate. destruct d; [congruence | reflexivity]. Qed.
  Lemma lexists_child d c : dir_text d -> valid_name c ->
    f_lexists cwd (child d c) f = true <-> exists q, locate cwd f true d = Ok q /\ look f q = Some NDir /\ look f (c :: q) <> None.
  Proof.
    intros Hd Hc. assert (Hdd : c <> dotdot) by apply Hc. unfold f_lexists. rewrite locate_child, locate_dir by assumption. split.
    - destruct (resolve _ f false _ _) as [p|] eqn:E; cbn [node_of]; [|discriminate]. intros H. apply resolve_snoc in E as (k' & q & _ & E1 & E2). exists q. split; [exact E1|].
      assert (G : look f (c :: q) <> None).
      { rewrite resolve_cons in E2. replace (eqb c dotdot) with false in E2 by (symmetry; apply eqbF; exact Hdd).
        destruct (look f (c :: q)) as [[y| |t]|] eqn:El; [discriminate | discriminate | discriminate|]. injection E2 as <-. rewrite El in H. discriminate. }
      split; [eapply Hw; exact G | exact G].
    - intros (q & E & Hq & Hn). rewrite (resolve_snoc_not f c Hdd _ _ _ q E Hq). cbn [node_of]. destruct (look f (c :: q)); [reflexivity | congruence].
  Qed.
  Lemma isdir_child d c : dir_text d -> valid_name c -> f_isdir cwd (child d c) f = true -> f_lexists cwd (child d c) f = true.
  Proof.
    intros Hd Hc H. apply lexists_child; [exact Hd | exact Hc|]. unfold f_isdir in H. rewrite locate_child in H by assumption. rewrite locate_dir by exact Hd.
    destruct (resolve _ f true _ _) as [p|] eqn:E; cbn [node_of] in H; [|discriminate]. apply resolve_snoc in E as (k' & q & _ & E1 & E2). exists q. split; [exact E1|].
    assert (G : look f (c :: q) <> None).
    { rewrite resolve_cons in E2. replace (eqb c dotdot) with false in E2 by (symmetry; apply eqbF; apply Hc).
      destruct (look f (c :: q)) as [n|] eqn:El; [discriminate|]. injection E2 as <-. rewrite El in H. discriminate. }
    split; [eapply Hw; exact G | exact G].
  Qed.
  Lemma lexists_isdir d c : dir_text d -> valid_name c -> f_lexists cwd (child d c) f = true -> f_isdir cwd d f = true.
  Proof. intros Hd Hc H. apply lexists_child in H as (q & E & Hq & _); [|exact Hd | exact Hc]. unfold f_isdir. rewrite E. cbn [node_of]. rewrite Hq. reflexivity. Qed.
End Child.

(** ** Patterns *)

Lemma magic_app a b : has_magic (a ++ b) = has_magic a || has_magic b.
Proof. apply existsb_app. Qed.
Lemma magic_child a b : has_magic (child a b) = has_magic a || has_magic b.
Proof. rewrite magic_app. reflexivity. Qed.
Lemma not_magic s : not_pattern s -> has_magic s = false.
Proof.
  intros (H1 & H2 & H3). unfold has_magic. apply not_true_is_false. intros E. apply existsb_exists in E as (x & Hx & E).
  assert (x = 42 \/ x = 63 \/ x = 91) as [-> | [-> | ->]] by (unfold c_star, c_quest, c_open in E; lia); auto.
Qed.
Lemma toks_chars pre t s : toks_match (map GChar pre ++ t) s = true <-> exists r, s = pre ++ r /\ toks_match t r = true.
Proof.
  revert s. induction pre as [|c pre IH]; intros s; cbn [map app toks_match].
  - split; [eauto | intros (r & -> & H); exact H].
  - destruct s as [|x s]; [split; [discriminate | intros (r & E & _); discriminate]|]. rewrite andb_true_iff, N.eqb_eq, IH. split.
    + intros (-> & r & -> & H). exists r. auto.
    + intros (r & E & H). injection E as -> ->. eauto.
Qed.
Definition lang_toks : list gtok := [GAny; GAny; GChar cUnder; GAny; GAny].
Lemma toks_lang suf s : toks_match (lang_toks ++ map GChar suf) s = true <-> exists a b c d, s = [a; b; cUnder; c; d] ++ suf.
Proof.
  unfold lang_toks. cbn [app toks_match]. split.
  - destruct s as [|a [|b [|u [|c [|d s]]]]]; try discriminate; try (rewrite andb_true_iff; intros [_ H]; discriminate). rewrite andb_true_iff, N.eqb_eq. intros [-> H].
    exists a, b, c, d. rewrite <- (app_nil_r (map GChar suf)) in H. apply toks_chars in H as (r & -> & H). destruct r; [|discriminate]. rewrite app_nil_r. reflexivity.
  - intros (a & b & c & d & ->). cbn [app]. rewrite N.eqb_refl. cbn [andb]. rewrite <- (app_nil_r (map GChar suf)). apply toks_chars. exists []. rewrite app_nil_r. auto.
Qed.
Lemma fnmatch_lang pre suf pattern n : pattern_toks (length pattern) pattern = map GChar pre ++ lang_toks ++ map GChar suf ->
  fnmatch n pattern = true <-> exists a b c d, n = pre ++ [a; b; cUnder; c; d] ++ suf.
Proof.
  intros E. unfold fnmatch. rewrite E, toks_chars. split.
  - intros (r & -> & H). apply toks_lang in H as (a & b & c & d & ->). eauto 6.
  - intros (a & b & c & d & ->). eexists. split; [reflexivity|]. apply toks_lang. eauto.
Qed.

(** ** [glob] *)

Section Glob.
  Variable order : list str -> list str.
  Hypothesis Horder : forall l x, In x (order l) <-> In x l.
  Variable cwd : path.
  Variable f : fs.
  Hypothesis Hw : fs_wf f.
  Hypothesis Hnames : forall x p, look f (x :: p) <> None -> valid_name x.
  Notation exists_ s := (f_lexists cwd s f = true).

  Lemma valid_start c : valid_name c -> startswith c [cSlash] = false.
  Proof. intros (_ & _ & _ & H). apply startswith_no_slash. exact H. Qed.
  Lemma glob1_In dir pattern dironly n : dir_text dir -> is_hidden pattern = false ->
    In n (glob1 order cwd f dir pattern dironly) <-> valid_name n /\ is_hidden n = false /\ fnmatch n pattern = true /\ exists_ (child dir n) /\ (dironly = true -> f_isdir cwd (child dir n) f = true).
  Proof.
    intros Hd Hh. unfold glob1. rewrite filter_In, andb_true_iff, Hh. cbn [orb]. rewrite negb_true_iff. unfold glob_names.
    assert (Ed : (match dir with [] => [cDot] | _ => dir end) = dir) by (pose proof (dir_text_ne _ Hd); destruct dir; [congruence | reflexivity]). rewrite Ed.
    split.
    - intros [Hn [H1 H2]]. destruct (locate cwd f true dir) as [p|] eqn:E; [|destruct Hn]. destruct (look f p) as [[| |]|] eqn:El; try destruct Hn as []; [].
      apply filter_In in Hn as [Hn H3]. apply (proj1 (Horder _ _)), names_In in Hn. pose proof (Hnames _ _ Hn) as Hv. split; [exact Hv|]. split; [exact H1|]. split; [exact H2|].
      rewrite join_child in H3 by (try apply valid_start; assumption). split.
      + apply lexists_child; [assumption | assumption | assumption|]. exists p. auto.
      + intros ->. exact H3.
    - intros (Hv & H1 & H2 & H3 & H4). split; [|auto]. apply lexists_child in H3 as (p & E & El & Hn); [|assumption..]. rewrite E, El. apply filter_In. split; [apply Horder, names_In, Hn|].
      rewrite join_child by (try apply valid_start; assumption). destruct dironly; [apply H4; reflexivity | reflexivity].
  Qed.
  (** Below a directory without pattern. *)
  Lemma iglob_base k do_ d c : dir_text d -> has_magic d = false -> has_magic c = true -> ~ In cSlash c ->
    iglob order cwd f k do_ (child d c) = map (path_join d) (glob1 order cwd f d c do_).
  Proof.
    intros Hd Hm Hc Hs. pose proof (dir_text_ne _ Hd) as Hne. destruct k; cbn [iglob]; rewrite split_child by assumption; rewrite magic_child, Hm, Hc; cbn [orb negb];
      destruct d as [|x d]; try congruence; rewrite andb_false_r; cbn [flat_map]; rewrite app_nil_r; reflexivity.
  Qed.
  Lemma iglob_below k do_ d c : dir_text d -> has_magic d = true -> has_magic c = false -> ~ In cSlash c ->
    iglob order cwd f (S k) do_ (child d c) = flat_map (fun x => map (path_join x) (glob0 cwd f x c)) (iglob order cwd f k true d).
  Proof.
    intros Hd Hm Hc Hs. pose proof (dir_text_ne _ Hd) as Hne. cbn [iglob]. rewrite split_child by assumption. rewrite magic_child, Hm, Hc. cbn [orb negb].
    destruct d as [|x d'] eqn:Ed; [congruence|]. rewrite <- Ed in *.
    replace (eqb d (child d c)) with false by (symmetry; apply eqbF; intros E; apply (f_equal (@length _)) in E; rewrite app_length in E; cbn [length] in E; lia). reflexivity.
  Qed.
  Lemma glob0_In d c n : dir_text d -> valid_name c -> In n (glob0 cwd f d c) <-> n = c /\ exists_ (child d c).
  Proof.
    intros Hd Hc. unfold glob0. assert (Hne : c <> []) by apply Hc. destruct c as [|x c'] eqn:Ec; [congruence|]. rewrite <- Ec in *. rewrite join_child by (try apply valid_start; assumption).
    destruct (f_lexists cwd (child d c) f); cbn [In]; intuition congruence.
  Qed.
  (** Names below a pattern. *)
  Fixpoint down (d : str) (cs : list str) : str := match cs with [] => d | c :: t => down (child d c) t end.
  Lemma down_dir cs : Forall valid_name cs -> forall d, dir_text d -> dir_text (down d cs).
  Proof. induction 1 as [|c cs Hc _ IH]; intros d Hd; [exact Hd|]. apply IH, dir_text_child, dir_text_name; apply Hc. Qed.
  Lemma down_snoc d cs c : down d (cs ++ [c]) = child (down d cs) c.
  Proof. revert d. induction cs as [|x cs IH]; intros d; [reflexivity | cbn [app down]; apply IH]. Qed.
  Lemma down_magic cs : forall d, has_magic d = true -> has_magic (down d cs) = true.
  Proof. induction cs as [|c cs IH]; intros d Hd; [exact Hd|]. apply IH. rewrite magic_child, Hd. reflexivity. Qed.
  Lemma iglob_down k d : dir_text d -> has_magic d = true -> (forall x, In x (iglob order cwd f k true d) -> dir_text x) ->
    forall cs, Forall valid_name cs -> Forall (fun c => has_magic c = false) cs -> cs <> [] -> forall do_ p,
    In p (iglob order cwd f (length cs + k) do_ (down d cs)) <-> exists x, In x (iglob order cwd f k true d) /\ p = down x cs /\ exists_ p.
  Proof.
    intros Hd Hm Hx. induction cs as [|c cs IH] using rev_ind; intros Hv Hc Hne do_ p; [congruence|].
    apply Forall_app in Hv as [Hv Hvc]. apply Forall_inv in Hvc. apply Forall_app in Hc as [Hc Hcc]. apply Forall_inv in Hcc.
    rewrite app_length. cbn [length]. replace (length cs + 1 + k)%nat with (S (length cs + k)) by lia. rewrite down_snoc.
    rewrite iglob_below; [|apply down_dir; assumption | apply down_magic; exact Hm | exact Hcc | apply Hvc]. rewrite in_flat_map. split.
    - intros (y & Hy & Hp). apply in_map_iff in Hp as (n & <- & Hn).
      assert (G : exists x, In x (iglob order cwd f k true d) /\ y = down x cs /\ dir_text y).
      { destruct cs as [|c' cs]; [exists y; split; [exact Hy|]; split; [reflexivity | apply Hx; exact Hy]|].
        apply IH in Hy as (x & H1 & -> & _); [|assumption | assumption | discriminate]. exists x. split; [exact H1|]. split; [reflexivity | apply down_dir; [assumption | apply Hx; exact H1]]. }
      destruct G as (x & H1 & -> & H2). apply glob0_In in Hn as [-> Hn]; [|exact H2 | exact Hvc]. exists x. rewrite join_child by (try apply valid_start; assumption). split; [exact H1|]. split; [rewrite down_snoc; reflexivity | exact Hn].
    - intros (x & H1 & -> & H2). rewrite down_snoc in H2 |- *. assert (Hd2 : dir_text (down x cs)) by (apply down_dir; [assumption | apply Hx; exact H1]). exists (down x cs). split.
      + destruct cs as [|c' cs']; [exact H1|]. apply IH; [assumption | assumption | discriminate|]. exists x. split; [exact H1|]. split; [reflexivity|].
        apply lexists_isdir in H2; [|assumption..]. destruct (exists_last (l := c' :: cs') ltac:(discriminate)) as (cs2 & c2 & E). rewrite E in H2, Hv |- *. rewrite down_snoc in H2 |- *.
        apply Forall_app in Hv as [Hv1 Hv2]. apply Forall_inv in Hv2. apply isdir_child; [assumption | apply down_dir; [assumption | apply Hx; exact H1] | exact Hv2 | exact H2].
      + apply in_map_iff. exists c. split; [apply join_child; [exact Hd2 | apply valid_start; exact Hvc]|]. apply glob0_In; auto.
  Qed.
End Glob.

(** ** The language of a path *)

Lemma lang_here_shape pre suf s g : lang_here pre suf s = Some g -> length g = 5%nat /\ (s = pre ++ g ++ suf \/ s = pre ++ g ++ suf ++ [cNL]).
Proof.
  unfold lang_here. destruct (startswith s pre) eqn:E; [|discriminate]. apply startswith_iff in E as [r ->]. rewrite skipn_app, skipn_all, Nat.sub_diag. cbn [app skipn].
  destruct r as [|a [|b [|u [|c [|d rest]]]]]; try discriminate. destruct (_ && _ && _) eqn:E; [|discriminate]. intros H. injection H as <-. split; [reflexivity|].
  apply andb_true_iff in E as [_ E]. apply orb_true_iff in E as [E|E]; [destruct (eqbP rest suf); [left; subst; reflexivity | discriminate] | destruct (eqbP rest (suf ++ [cNL])); [right; subst; reflexivity | discriminate]].
Qed.
Lemma lang_here_ok pre suf a b c d : ~ In cNL [a; b; c; d] -> lang_here pre suf (pre ++ [a; b; cUnder; c; d] ++ suf) = Some [a; b; cUnder; c; d].
Proof.
  intros H. unfold lang_here. replace (startswith _ pre) with true by (symmetry; apply startswith_iff; eexists; reflexivity). rewrite skipn_app, skipn_all, Nat.sub_diag. cbn [app skipn].
  rewrite eqbR, N.eqb_refl. cbn [orb andb]. rewrite andb_true_r. replace (forallb _ _) with true; [reflexivity|]. symmetry. apply forallb_forall. intros x Hx. apply negb_true_iff. apply N.eqb_neq. intros ->. contradiction.
Qed.
Lemma lang_search_ok pre suf a b c d : ~ In cNL [a; b; c; d] -> (exists r x, suf = r ++ [x] /\ x <> cNL) -> forall z,
  lang_search pre suf (z ++ pre ++ [a; b; cUnder; c; d] ++ suf) = Some [a; b; cUnder; c; d].
Proof.
  intros Hn (r & x & -> & Hx). set (s := pre ++ [a; b; cUnder; c; d] ++ r ++ [x]).
  assert (Hs : lang_here pre (r ++ [x]) s = Some [a; b; cUnder; c; d]) by (apply lang_here_ok; exact Hn).
  induction z as [|y z IH].
  - cbn [app]. destruct s as [|y s]; cbn [lang_search]; rewrite Hs; reflexivity.
  - cbn [app lang_search]. destruct (lang_here pre (r ++ [x]) (y :: z ++ s)) as [g|] eqn:E; [|exact IH]. exfalso. apply lang_here_shape in E as [Hg [E|E]].
    + apply (f_equal (@length _)) in E. unfold s in E. cbn [length] in E. rewrite !app_length in E. cbn [length] in E. lia.
    + assert (E2 : y :: z ++ s = (y :: z ++ pre ++ [a; b; cUnder; c; d] ++ r) ++ [x]) by (unfold s; cbn [app]; f_equal; rewrite <- !app_assoc; reflexivity). rewrite E2 in E.
      rewrite !app_assoc in E. apply app_inj_tail in E as [_ E]. congruence.
Qed.

(** ** One format *)

Section Search.
  Variable order : list str -> list str.
  Hypothesis Horder : forall l x, In x (order l) <-> In x l.
  Variable cwd : path.
  Variable f : fs.
  Variable base game : str.
  Hypothesis Hs : searchable cwd f base game.
  Hypothesis Hbase : dir_text base.
  Hypothesis Hpat : not_pattern base.
  Hypothesis Hgame : not_pattern game.
  Hypothesis Hslash : ~ In cSlash game.
  Hypothesis Hback : ~ In 92 game.
  Notation exists_ s := (f_lexists cwd s f = true).

  Lemma present_exists s : present cwd f base s <-> exists_ (child base s).
  Proof.
    unfold present, f_lexists. destruct (locate cwd f false (child base s)) as [p|]; cbn [node_of].
    - destruct (look f p) eqn:E; split; intros H; try reflexivity; try discriminate.
      + exists p. split; [reflexivity | congruence].
      + destruct H as (q & Eq & Hq). injection Eq as <-. congruence.
    - split; [intros (p & E & _); discriminate | discriminate].
  Qed.
  Lemma down_isdir cs : Forall valid_name cs -> cs <> [] -> forall x, dir_text x -> exists_ (down x cs) -> f_isdir cwd x f = true.
  Proof.
    destruct Hs as (Hw & _). induction 1 as [|c cs Hc Hv IH]; intros Hne x Hx He; [congruence|]. cbn [down] in He. destruct cs as [|c2 cs].
    - apply (lexists_isdir cwd f Hw) with (c := c); assumption.
    - assert (Hd : dir_text (child x c)) by (apply dir_text_child, dir_text_name; apply Hc). apply IH in He; [|discriminate | exact Hd].
      apply (isdir_child cwd f Hw) in He; [|assumption..]. apply (lexists_isdir cwd f Hw) with (c := c); assumption.
  Qed.
  Lemma code_valid l : code l -> valid_name l.
  Proof. intros (a & b & c & d & -> & H). split; [discriminate|]. split; [discriminate|]. split; [discriminate | exact H]. Qed.
  Lemma regular_shown l : regular_code l -> is_hidden l = false.
  Proof. intros (_ & _ & H). unfold is_hidden. destruct l as [|x l]; [reflexivity|]. cbn [hd] in H. cbn. destruct (eqbP x cDot); [congruence | reflexivity]. Qed.
  Lemma name_check c : negb (eqb c []) && negb (eqb c [cDot]) && negb (eqb c dotdot) && forallb (fun x => negb (x =? cSlash)) c = true -> valid_name c.
  Proof.
    rewrite !andb_true_iff, !negb_true_iff. intros [[[H1 H2] H3] H4]. split; [intros ->; discriminate|]. split; [intros ->; discriminate|]. split; [intros ->; discriminate|].
    rewrite forallb_forall in H4. intros Hi. apply H4 in Hi. discriminate.
  Qed.

  (** Languages as directories. *)
  Lemma glob_dirs k g : In (fun l => l ++ lit "/data/menu/en_us/" ++ g ++ lit ".stringtable") (places game) -> ~ In cSlash g -> not_pattern g ->
    k = length (path_join base (lit "??_??/data/menu/en_us/" ++ g ++ lit ".stringtable")) -> forall p,
    In p (iglob order cwd f k false (path_join base (lit "??_??/data/menu/en_us/" ++ g ++ lit ".stringtable"))) <->
    exists l, code l /\ present cwd f base (l ++ lit "/data/menu/en_us/" ++ g ++ lit ".stringtable") /\ p = child base (l ++ lit "/data/menu/en_us/" ++ g ++ lit ".stringtable").
  Proof.
    intros Hin Hgs Hgp Ek p. pose proof Hs as (Hw & _ & Hnames & Hreg). set (cs := [lit "data"; lit "menu"; lit "en_us"; g ++ lit ".stringtable"]).
    assert (Hcs : Forall valid_name cs).
    { repeat (constructor; [apply name_check; reflexivity|]). constructor; [|constructor]. split; [destruct g; discriminate|]. split; [destruct g as [|? [|]]; discriminate|]. split; [destruct g as [|? [|? [|]]]; discriminate|].
      intros Hi. apply in_app_iff in Hi as [Hi|Hi]; [contradiction|]. vm_compute in Hi. intuition discriminate. }
    assert (Hcm : Forall (fun c => has_magic c = false) cs).
    { repeat (constructor; [reflexivity|]). constructor; [|constructor]. rewrite magic_app, not_magic by exact Hgp. reflexivity. }
    assert (Ed : forall x, down (child base x) cs = child base (x ++ lit "/data/menu/en_us/" ++ g ++ lit ".stringtable")) by (intros x; unfold cs; cbn [down]; rewrite <- !app_assoc; cbn [app]; rewrite <- ?app_assoc; reflexivity).
    assert (Ej : path_join base (lit "??_??/data/menu/en_us/" ++ g ++ lit ".stringtable") = down (child base (lit "??_??")) cs) by (rewrite Ed; apply join_child; [exact Hbase | reflexivity]).
    rewrite Ej in Ek |- *. assert (exists k', k = (length cs + k')%nat) as [k' ->].
    { exists (k - length cs)%nat. enough (length cs <= k)%nat by lia. rewrite Ek, Ed. cbn [length]. rewrite app_length. cbn [length]. rewrite !app_length. cbn. lia. }
    clear Ek. assert (Hmb := not_magic _ Hpat).
    assert (Eb : iglob order cwd f k' true (child base (lit "??_??")) = map (path_join base) (glob1 order cwd f base (lit "??_??") true)).
    { apply iglob_base; [exact Hbase | exact Hmb | reflexivity | vm_compute; intuition discriminate]. }
    assert (Hx : forall x, In x (iglob order cwd f k' true (child base (lit "??_??"))) <-> exists l, valid_name l /\ is_hidden l = false /\ code l /\ f_isdir cwd (child base l) f = true /\ exists_ (child base l) /\ x = child base l).
    { intros x. rewrite Eb, in_map_iff. split.
      - intros (l & <- & Hl). apply (glob1_In order Horder cwd f Hw Hnames) in Hl as (Hv & Hh & Hf & He & Hd); [|exact Hbase | reflexivity]. exists l.
        split; [exact Hv|]. split; [exact Hh|]. split.
        + apply (fnmatch_lang [] []) in Hf as (a & b & c & d & ->); [|reflexivity]. exists a, b, c, d. split; [reflexivity | apply Hv].
        + split; [apply Hd; reflexivity|]. split; [exact He|]. apply join_child; [exact Hbase | apply valid_start; exact Hv].
      - intros (l & Hv & Hh & Hc & Hd & He & ->). exists l. split; [apply join_child; [exact Hbase | apply valid_start; exact Hv]|]. apply (glob1_In order Horder cwd f Hw Hnames); [exact Hbase | reflexivity|].
        split; [exact Hv|]. split; [exact Hh|]. split; [|auto]. destruct Hc as (a & b & c & d & -> & _). apply (fnmatch_lang [] []); [reflexivity|]. exists a, b, c, d. reflexivity. }
    rewrite (iglob_down order Horder cwd f Hw Hnames k' (child base (lit "??_??"))); [| apply dir_text_child, dir_text_name; [discriminate | vm_compute; intuition discriminate] | rewrite magic_child; apply orb_true_r | | exact Hcs | exact Hcm | discriminate].
    - split.
      + intros (x & H1 & -> & H2). apply Hx in H1 as (l & Hv & Hh & Hc & _ & _ & ->). exists l. rewrite Ed in *. split; [exact Hc|]. split; [apply present_exists; exact H2 | reflexivity].
      + intros (l & Hc & Hp & ->). exists (child base l). pose proof (code_valid l Hc) as Hv. pose proof (Hreg _ l Hin Hc Hp) as Hr. apply present_exists in Hp. rewrite Ed. split; [|auto]. apply Hx. exists l.
        assert (Hd : f_isdir cwd (child base l) f = true) by (apply (down_isdir cs Hcs); [discriminate | apply dir_text_child, dir_text_name; apply Hv | rewrite Ed; exact Hp]).
        split; [exact Hv|]. split; [apply regular_shown; exact Hr|]. split; [exact Hc|]. split; [exact Hd|]. split; [|reflexivity]. apply (isdir_child cwd f Hw); assumption.
    - intros x H1. apply Hx in H1 as (l & Hv & _ & _ & _ & _ & ->). apply dir_text_child, dir_text_name; apply Hv.
  Qed.
  (** Languages in file names. *)
  Lemma glob_files k pre suf pattern : has_magic pattern = true -> ~ In cSlash pattern -> is_hidden pattern = false -> pattern_toks (length pattern) pattern = map GChar pre ++ lang_toks ++ map GChar suf ->
    In (fun l => lit "data/menu/" ++ pre ++ l ++ suf) (places game) -> (forall l, code l -> valid_name (pre ++ l ++ suf) /\ is_hidden (pre ++ l ++ suf) = false) -> forall p,
    In p (iglob order cwd f k false (path_join base (lit "data/menu/" ++ pattern))) <->
    exists l, code l /\ present cwd f base (lit "data/menu/" ++ pre ++ l ++ suf) /\ p = child base (lit "data/menu/" ++ pre ++ l ++ suf).
  Proof.
    intros Hpm Hps Hph Htoks Hin Hnm p. pose proof Hs as (Hw & _ & Hnames & Hreg). set (d := down base [lit "data"; lit "menu"]).
    assert (Hcs : Forall valid_name [lit "data"; lit "menu"]) by (repeat constructor; apply name_check; reflexivity).
    assert (Hd : dir_text d) by (apply down_dir; assumption).
    assert (Ed : forall x, child d x = child base (lit "data/menu/" ++ x)) by (intros x; unfold d; cbn [down]; rewrite <- !app_assoc; reflexivity).
    assert (Ej : path_join base (lit "data/menu/" ++ pattern) = child d pattern) by (rewrite Ed; apply join_child; [exact Hbase | reflexivity]).
    assert (Hm : has_magic d = false) by (unfold d; cbn [down]; rewrite !magic_child, not_magic by exact Hpat; reflexivity).
    rewrite Ej, (iglob_base order cwd f k false d pattern Hd Hm Hpm Hps), in_map_iff. split.
    - intros (n & <- & Hn). apply (glob1_In order Horder cwd f Hw Hnames) in Hn as (Hv & _ & Hf & He & _); [|exact Hd | exact Hph]. rewrite join_child by (try apply valid_start; assumption).
      apply (fnmatch_lang pre suf) in Hf as (a & b & c & e & ->); [|exact Htoks]. exists [a; b; cUnder; c; e]. rewrite Ed in *. split; [|split; [apply present_exists; exact He | reflexivity]].
      exists a, b, c, e. split; [reflexivity|]. destruct Hv as (_ & _ & _ & Hv). intros Hi. apply Hv. apply in_or_app. right. apply in_or_app. left. exact Hi.
    - intros (l & Hc & Hp & ->). destruct (Hnm l Hc) as [Hv Hh]. exists (pre ++ l ++ suf). split; [rewrite <- Ed; apply join_child; [exact Hd | apply valid_start; exact Hv]|].
      apply (glob1_In order Horder cwd f Hw Hnames); [exact Hd | exact Hph|]. split; [exact Hv|]. split; [exact Hh|]. split; [|split; [rewrite Ed; apply present_exists; exact Hp | discriminate]].
      destruct Hc as (a & b & c & e & -> & _). apply (fnmatch_lang pre suf); [exact Htoks|]. exists a, b, c, e. reflexivity.
  Qed.

  (** From the paths to the dictionary. *)
  Lemma dict_files place ys : (forall l p, In (l, p) ys <-> code l /\ present cwd f base (place l) /\ p = child base (place l)) -> files_of cwd f base place (dict_of ys).
  Proof.
    intros H. split; [apply dict_of_NoDup|]. intros l p. rewrite <- H.
    assert (G : forall q, In (l, q) (dict_of ys) -> In (l, q) ys).
    { intros q Hq. apply dget_In_NoDup in Hq; [|apply dict_of_NoDup]. rewrite dict_of_get in Hq. apply dget_Some_In in Hq. apply in_rev. exact Hq. }
    split; [apply G|]. intros Hp. assert (Hk : In l (dkeys (dict_of ys))) by (apply dict_of_keys, in_map_iff; exists (l, p); auto).
    apply in_map_iff in Hk as ([l' q] & El & Hq). cbn [fst] in El. subst l'. pose proof (G q Hq) as Hq'. apply H in Hq' as (_ & _ & ->). apply H in Hp as (_ & _ & ->). exact Hq.
  Qed.
  Lemma format_paths pattern pre suf place : In place (places game) ->
    (forall p, In p (glob order cwd f (path_join base pattern)) <-> exists l, code l /\ present cwd f base (place l) /\ p = child base (place l)) ->
    (forall l, code l -> regular_code l -> lang_search pre suf (map (fun c => if c =? c_back then cSlash else c) (child base (place l))) = Some l) ->
    exists d, lang_paths order cwd f base pattern pre suf = Ok d /\ files_of cwd f base place d.
  Proof.
    intros Hin Hg Hl. pose proof Hs as (_ & _ & _ & Hreg). unfold lang_paths.
    set (F := fun p : str => rmap (fun l => (l, p)) (of_opt AttributeError (lang_search pre suf (map (fun c => if c =? c_back then cSlash else c) p)))).
    assert (HF : forall l, code l -> present cwd f base (place l) -> F (child base (place l)) = Ok (l, child base (place l))).
    { intros l Hc Hp. unfold F. rewrite Hl; [reflexivity | exact Hc | apply (Hreg place); assumption]. }
    assert (G : forall L, (forall p, In p L -> exists l, code l /\ present cwd f base (place l) /\ p = child base (place l)) ->
      exists ys, rmapM F L = Ok ys /\ forall l p, In (l, p) ys <-> In p L /\ code l /\ present cwd f base (place l) /\ p = child base (place l)).
    { induction L as [|q L IH]; intros HL; [exists []; split; [reflexivity|]; intros l p; cbn [In]; tauto|].
      destruct (HL q (or_introl eq_refl)) as (m & Hm & Hp & Eq). destruct IH as (ys & E & Hy); [intros p H; apply HL; right; exact H|].
      exists ((m, q) :: ys). cbn [rmapM]. rewrite Eq, HF by assumption. cbn [rbind]. rewrite E. split; [reflexivity|]. intros l p. cbn [In]. rewrite Hy. split.
      - intros [H|H]; [|tauto]. injection H as <- <-. split; [left; reflexivity|]. auto.
      - intros ([<-|H] & Hc & Hpr & E2); [left|right; auto]. pose proof (HF l Hc Hpr) as H2. pose proof (HF m Hm Hp) as H1. rewrite <- E2, H1 in H2. injection H2 as ->. reflexivity. }
    destruct (G (glob order cwd f (path_join base pattern))) as (ys & E & Hy); [intros p; apply Hg|]. exists (dict_of ys).
    change (rmap dict_of (rmapM F (glob order cwd f (path_join base pattern))) = Ok (dict_of ys) /\ files_of cwd f base place (dict_of ys)). rewrite E. split; [reflexivity|].
    apply dict_files. intros l p. rewrite Hy, Hg. split; [tauto|]. intros (H1 & H2 & H3). split; [exists l; auto | auto].
  Qed.
  Lemma map_back s : ~ In 92 s -> map (fun c => if c =? c_back then cSlash else c) s = s.
  Proof.
    intros H. induction s as [|x s IH]; [reflexivity|]. cbn [map]. rewrite IH by (intros Hi; apply H; right; exact Hi). destruct (N.eqb_spec x c_back) as [->|]; [|reflexivity]. exfalso. apply H. left. reflexivity.
  Qed.
  Lemma search_place z pre suf l : ~ In 92 pre -> ~ In 92 suf -> (exists r x, suf = r ++ [x] /\ x <> cNL) -> code l -> regular_code l ->
    lang_search pre suf (map (fun c => if c =? c_back then cSlash else c) (z ++ pre ++ l ++ suf)) = Some l.
  Proof.
    intros Hp Hsu Hx (a & b & c & d & -> & _) (H1 & H2 & _). rewrite !map_app, (map_back pre Hp), (map_back suf Hsu), (map_back _ H1). apply lang_search_ok; [|exact Hx].
    intros Hi. apply H2. cbn [In] in *. tauto.
  Qed.
  Lemma dirs_place g : In (fun l => l ++ lit "/data/menu/en_us/" ++ g ++ lit ".stringtable") (places game) -> ~ In cSlash g -> not_pattern g -> ~ In 92 g ->
    exists d, lang_paths order cwd f base (lit "??_??/data/menu/en_us/" ++ g ++ lit ".stringtable") [] (lit "/data/menu/en_us/" ++ g ++ lit ".stringtable") = Ok d
      /\ files_of cwd f base (fun l => l ++ lit "/data/menu/en_us/" ++ g ++ lit ".stringtable") d.
  Proof.
    intros Hin H1 H2 H3. apply format_paths; [exact Hin | intros p; unfold glob; apply glob_dirs; auto|].
    intros l Hc Hr. replace (child base (l ++ lit "/data/menu/en_us/" ++ g ++ lit ".stringtable")) with ((base ++ [cSlash]) ++ [] ++ l ++ lit "/data/menu/en_us/" ++ g ++ lit ".stringtable") by (rewrite <- app_assoc; reflexivity).
    apply search_place; [intros [] | | | exact Hc | exact Hr].
    - intros Hi. apply in_app_iff in Hi as [Hi|Hi]; [vm_compute in Hi; intuition discriminate|]. apply in_app_iff in Hi as [Hi|Hi]; [contradiction|]. vm_compute in Hi. intuition discriminate.
    - exists (lit "/data/menu/en_us/" ++ g ++ lit ".stringtabl"), 101. split; [rewrite <- !app_assoc; reflexivity | discriminate].
  Qed.
  Lemma files_place pre suf pattern : has_magic pattern = true -> ~ In cSlash pattern -> is_hidden pattern = false -> pattern_toks (length pattern) pattern = map GChar pre ++ lang_toks ++ map GChar suf ->
    In (fun l => lit "data/menu/" ++ pre ++ l ++ suf) (places game) -> (forall l, code l -> valid_name (pre ++ l ++ suf) /\ is_hidden (pre ++ l ++ suf) = false) ->
    ~ In 92 pre -> ~ In 92 suf -> (exists r x, suf = r ++ [x] /\ x <> cNL) ->
    exists d, lang_paths order cwd f base (lit "data/menu/" ++ pattern) (lit "data/menu/" ++ pre) suf = Ok d /\ files_of cwd f base (fun l => lit "data/menu/" ++ pre ++ l ++ suf) d.
  Proof.
    intros H1 H2 H3 H4 H5 H6 H7 H8 H9. apply format_paths; [exact H5 | intros p; unfold glob; apply glob_files; assumption|].
    intros l Hc Hr. replace (child base (lit "data/menu/" ++ pre ++ l ++ suf)) with ((base ++ [cSlash]) ++ (lit "data/menu/" ++ pre) ++ l ++ suf) by (rewrite <- !app_assoc; reflexivity).
    apply search_place; [|exact H8 | exact H9 | exact Hc | exact Hr]. intros Hi. apply in_app_iff in Hi as [Hi|Hi]; [vm_compute in Hi; intuition discriminate | contradiction].
  Qed.
  Lemma first_paths_ok : forall fmts pls, Forall2 (fun fm place => exists d, lang_paths order cwd f base (fst (fst fm)) (snd (fst fm)) (snd fm) = Ok d /\ files_of cwd f base place d) fmts pls ->
    match first_paths order cwd f base fmts with
    | Ok d => exists newer place older, pls = newer ++ place :: older /\ Forall (none_at cwd f base) newer /\ d <> [] /\ files_of cwd f base place d
    | Err e => e = RuntimeError /\ Forall (none_at cwd f base) pls
    end.
  Proof.
    induction 1 as [|[[pattern pre] suf] place fmts pls (d & E & Hd) _ IH]; cbn [first_paths]; [split; [reflexivity | constructor]|]. cbn [fst snd] in E. rewrite E. cbn [rbind].
    destruct d as [|x d].
    - assert (Hn : none_at cwd f base place) by (intros l Hc Hp; apply (proj2 Hd l (child base (place l))); auto).
      destruct (first_paths order cwd f base fmts) as [d'|e].
      + destruct IH as (newer & pl & older & -> & H1 & H2). exists (place :: newer), pl, older. split; [reflexivity|]. split; [constructor; assumption | exact H2].
      + destruct IH as [-> H]. split; [reflexivity | constructor; assumption].
    - exists [], place, pls. split; [reflexivity|]. split; [constructor|]. split; [discriminate | exact Hd].
  Qed.
  Lemma stringtable_paths_ok :
    match stringtable_paths order cwd f base game with
    | Ok d => exists newer place older, places game = newer ++ place :: older /\ Forall (none_at cwd f base) newer /\ d <> [] /\ files_of cwd f base place d
    | Err e => e = RuntimeError /\ Forall (none_at cwd f base) (places game)
    end.
  Proof.
    unfold stringtable_paths. apply first_paths_ok. unfold places. constructor; [|constructor; [|constructor; [|constructor; [|constructor]]]]; cbn [fst snd].
    - apply dirs_place; [left; reflexivity | assumption..].
    - apply (dirs_place (lit "main")); [right; left; reflexivity | vm_compute; intuition discriminate | repeat split; vm_compute; intuition discriminate | vm_compute; intuition discriminate].
    - apply (files_place (lit "main_") (lit ".stringtable") (lit "main_??_??.stringtable")); try reflexivity; try (vm_compute; intuition discriminate).
      + intros l (a & b & c & d & -> & Hn). split; [|reflexivity]. split; [discriminate|]. split; [discriminate|]. split; [discriminate|]. intros Hi. apply Hn. vm_compute in Hi |- *. intuition discriminate.
      + exists (lit ".stringtabl"), 101. split; [reflexivity | discriminate].
    - apply (files_place (lit "fontconfig_") (lit ".txt") (lit "fontconfig_??_??.txt")); try reflexivity; try (vm_compute; intuition discriminate).
      + intros l (a & b & c & d & -> & Hn). split; [|reflexivity]. split; [discriminate|]. split; [discriminate|]. split; [discriminate|]. intros Hi. apply Hn. vm_compute in Hi |- *. intuition discriminate.
      + exists (lit ".tx"), 116. split; [reflexivity | discriminate].
  Qed.
End Search.
