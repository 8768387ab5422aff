(** * posixpath facts *)

From Verif Require Import Base.TextFacts.

Lemma forallb_slash_rstrip (d : str) :
  forallb (N.eqb cSlash) d = false ->
  exists h x, rstrip (N.eqb cSlash) d = h ++ [x] /\ x <> cSlash.
Proof.
  intros H. destruct (rstrip_spec (N.eqb cSlash) d) as (p & E & Hp & [Hl|(h & x & Hl & Hx)]).
  - exfalso. rewrite Hl in E. cbn [app] in E. subst d. rewrite Hp in H. discriminate.
  - exists h, x. split; [assumption|]. intros ->. rewrite N.eqb_refl in Hx. discriminate.
Qed.
Lemma split_ch_app_gen c (s1 s2 : str) : split_ch c (s1 ++ c :: s2) = split_ch c s1 ++ split_ch c s2.
Proof.
  induction s1 as [|x t IH]; cbn [split_ch app].
  - rewrite eqbR. reflexivity.
  - rewrite IH. destruct (eqb x c); [reflexivity|].
    destruct (split_ch c t) as [|h r] eqn:E; [exfalso; revert E; apply split_ch_nonempty | reflexivity].
Qed.

(** The directory part is empty, a root, or does not end with a slash. *)
Lemma path_split_dir p :
  let d := dirname p in
  d = [] \/ (d <> [] /\ forallb (N.eqb cSlash) d = true) \/ (exists h x, d = h ++ [x] /\ x <> cSlash).
Proof.
  unfold dirname, path_split. destruct (cut_last cSlash p) as [[h t]|]; cbn [fst]; [|auto].
  destruct (forallb (N.eqb cSlash) (h ++ [cSlash])) eqn:E; cbn [fst].
  - right. left. split; [destruct h; discriminate | assumption].
  - right. right. apply forallb_slash_rstrip. assumption.
Qed.
Lemma basename_no_slash p : ~ In cSlash (basename p).
Proof.
  unfold basename, path_split. destruct (cut_last cSlash p) as [[h t]|] eqn:E; cbn [snd].
  - apply cut_last_Some in E as [_ Hn]. destruct (forallb _ _); assumption.
  - apply cut_last_None. assumption.
Qed.
Lemma path_split_eta p : path_split p = (dirname p, basename p).
Proof. unfold dirname, basename. destruct (path_split p); reflexivity. Qed.

Lemma endswith_slash_snoc (h : str) x : x <> cSlash -> endswith (h ++ [x]) [cSlash] = false.
Proof.
  intros Hx. destruct (endswith (h ++ [x]) [cSlash]) eqn:E; [|reflexivity]. apply endswith_iff in E as (r & E).
  apply app_inj_tail in E as [_ E]. congruence.
Qed.
Lemma forallb_slash_endswith (d : str) : d <> [] -> forallb (N.eqb cSlash) d = true -> endswith d [cSlash] = true.
Proof.
  intros Hd Hf. destruct d as [|x d _] using rev_ind; [congruence|]. rewrite forallb_app in Hf. cbn in Hf.
  assert (x = cSlash) as -> by lia. apply endswith_app.
Qed.
Lemma startswith_no_slash (f : str) : ~ In cSlash f -> startswith f [cSlash] = false.
Proof.
  intros H. destruct f as [|x f]; [reflexivity|]. cbn. destruct (eqbP x cSlash) as [->|]; [|reflexivity].
  exfalso. apply H. left. reflexivity.
Qed.

(** Joining a directory part with a plain name and splitting again. *)
Lemma split_join_dir p f : ~ In cSlash f -> path_split (path_join (dirname p) f) = (dirname p, f).
Proof.
  intros Hf. unfold path_join. rewrite startswith_no_slash by assumption.
  destruct (path_split_dir p) as [->|[[Hne Hs]|(h & x & -> & Hx)]].
  - cbn [eqb app orb]. change (eqb (@nil N) []) with true. cbn [orb]. unfold path_split. 
    cbn [app]. rewrite (proj2 (cut_last_None cSlash f)) by assumption. reflexivity.
  - rewrite (forallb_slash_endswith _ Hne Hs), orb_true_r.
    destruct (dirname p) as [|y d _] using rev_ind; [congruence|].
    pose proof Hs as Hs'. rewrite forallb_app in Hs'. cbn in Hs'. assert (y = cSlash) as -> by lia.
    unfold path_split. rewrite <- app_assoc. cbn [app]. rewrite cut_last_app by assumption.
    rewrite Hs. reflexivity.
  - rewrite endswith_slash_snoc by assumption.
    replace (eqb (h ++ [x]) []) with false by (symmetry; apply eqbF; destruct h; discriminate). cbn [orb].
    unfold path_split. cbn [app]. rewrite cut_last_app by assumption.
    replace (forallb (N.eqb cSlash) ((h ++ [x]) ++ [cSlash])) with false.
    2:{ symmetry. rewrite !forallb_app. cbn. replace (cSlash =? x) with false by lia. rewrite andb_false_r. reflexivity. }
    rewrite rstrip_app_all by reflexivity. rewrite rstrip_snoc_false by lia. reflexivity.
Qed.

(** [os.path.splitext] only depends on the base name. *)
Lemma basename_cut p :
  basename p = match cut_last cSlash p with Some (_, t) => t | None => p end.
Proof. unfold basename, path_split. destruct (cut_last cSlash p) as [[h t]|]; [destruct (forallb _ _)|]; reflexivity. Qed.
Lemma splitext_snd_base p : snd (splitext p) = snd (splitext (basename p)).
Proof.
  pose proof (basename_no_slash p) as Hn. rewrite basename_cut in *. unfold splitext.
  rewrite (proj2 (cut_last_None cSlash _) Hn).
  destruct (cut_last cSlash p) as [[h t]|] eqn:E.
  - destruct (cut_last cDot t) as [[b e]|]; [|reflexivity]. destruct (forallb _ b); reflexivity.
  - destruct (cut_last cDot p) as [[b e]|]; [|reflexivity]. destruct (forallb _ b); reflexivity.
Qed.

Lemma splitext_ext_iff f e : ~ In cSlash f ->
  snd (splitext f) = e <->
  (e = [] /\ forall b x, f = b ++ cDot :: x -> ~ In cDot x -> forallb (N.eqb cDot) b = true) \/
  (exists b x, f = b ++ cDot :: x /\ ~ In cDot x /\ forallb (N.eqb cDot) b = false /\ e = cDot :: x).
Proof.
  intros Hn. unfold splitext. rewrite (proj2 (cut_last_None cSlash f) Hn). cbn [app].
  destruct (cut_last cDot f) as [[b x]|] eqn:E.
  - apply cut_last_Some in E as [-> Hx].
    assert (Huniq : forall b' x', b ++ cDot :: x = b' ++ cDot :: x' -> ~ In cDot x' -> b' = b /\ x' = x).
    { intros b' x' E' Hx'. pose proof (cut_last_app cDot b x Hx) as C1. rewrite E' in C1.
      rewrite (cut_last_app cDot b' x' Hx') in C1. injection C1 as -> ->. auto. }
    destruct (forallb (N.eqb cDot) b) eqn:Eb; cbn [snd]; split.
    + intros <-. left. split; [reflexivity|]. intros b' x' E' Hx'. apply Huniq in E' as [-> ->]; assumption.
    + intros [[-> _]|(b' & x' & E' & Hx' & Hf & ->)]; [reflexivity|]. apply Huniq in E' as [-> ->]; [congruence | assumption].
    + intros <-. right. exists b, x. auto.
    + intros [[-> H]|(b' & x' & E' & Hx' & Hf & ->)]; [specialize (H b x eq_refl Hx); congruence|].
      apply Huniq in E' as [-> ->]; [reflexivity | assumption].
  - apply cut_last_None in E. cbn [snd]. split.
    + intros <-. left. split; [reflexivity|]. intros b x -> _. exfalso. apply E. apply in_or_app. right. left. reflexivity.
    + intros [[-> _]|(b & x & -> & _)]; [reflexivity|]. exfalso. apply E. apply in_or_app. right. left. reflexivity.
Qed.

Lemma splitext_has_ext b x : ~ In cSlash (b ++ cDot :: x) -> ~ In cDot x -> forallb (N.eqb cDot) b = false ->
  snd (splitext (b ++ cDot :: x)) = cDot :: x.
Proof. intros Hs Hx Hb. apply splitext_ext_iff; [assumption|]. right. exists b, x. auto. Qed.

(** A name ending with [ext], where [ext] starts with a dot, has an extension if something other than dots precedes. *)
Lemma splitext_nonempty b e : ~ In cSlash (b ++ cDot :: e) -> forallb (N.eqb cDot) b = false ->
  snd (splitext (b ++ cDot :: e)) <> [].
Proof.
  intros Hs Hb. destruct (in_dec N.eq_dec cDot e) as [Hi|Hi].
  - destruct (cut_last cDot e) as [[e1 e2]|] eqn:E; [|apply cut_last_None in E; congruence].
    apply cut_last_Some in E as [-> He2].
    replace (b ++ cDot :: e1 ++ cDot :: e2) with ((b ++ cDot :: e1) ++ cDot :: e2) in * by (rewrite <- app_assoc; reflexivity).
    rewrite splitext_has_ext; [discriminate | assumption | assumption |]. rewrite forallb_app, Hb. reflexivity.
  - rewrite splitext_has_ext; [discriminate | assumption..].
Qed.

