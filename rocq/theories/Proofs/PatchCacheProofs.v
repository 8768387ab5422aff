(** * Proofs about the patch versions of elements *)

From Verif Require Import Base.Py Base.Text Base.PyFacts Base.TextFacts Base.Utf8 Base.Fs Spec.FsSpec Base.FsFacts Model.Version Spec.VersionSpec Proofs.VersionProofs Model.Files Proofs.FilesProofs Proofs.ConvertProofs Proofs.SymlinksProofs
  Model.Rman Model.Patcher Model.Releases Model.PatchCache Spec.PatchCacheSpec.

(** ** Texts *)

Lemma newlines_ok : forall s, translated s (newlines s).
Proof.
  assert (H : forall n s, (length s <= n)%nat -> translated s (newlines s)).
  { induction n as [|n IH]; intros s Hs; destruct s as [|c s]; cbn [length] in Hs; try lia; try constructor. cbn [newlines].
    destruct (N.eqb_spec c 13) as [->|Hc]; [|apply tr_other; [exact Hc | apply IH; lia]]. destruct s as [|d s]; [apply tr_cr; [discriminate | constructor]|].
    cbn [length] in Hs. destruct (N.eqb_spec d cNL) as [->|Hd]; [apply tr_crlf, IH; lia|]. apply tr_cr; [intros s' E; injection E as E _; exact (Hd E) | apply IH; cbn [length]; lia]. }
  intros s. apply (H (length s)). lia.
Qed.
Lemma translated_fun s t : translated s t -> forall t', translated s t' -> t = t'.
Proof.
  induction 1 as [|s t H IH|s t Hn H IH|c s t Hc H IH]; intros t' H'; inversion H'; subst; try congruence; try (f_equal; auto; fail);
    exfalso; match goal with K : forall s', _ <> 10 :: s' |- _ => eapply K; reflexivity end.
Qed.
Lemma text_of_ok data text : text_of data = Ok text <-> file_text data text.
Proof.
  unfold text_of, file_text. destruct (utf8_dec data) as [s|e]; cbn [rmap].
  - split; [intros E; injection E as <-; exists s; split; [reflexivity | apply newlines_ok]|]. intros (s' & E & H). injection E as <-. f_equal. exact (translated_fun _ _ (newlines_ok s) _ H).
  - split; [discriminate | intros (s & E & _); discriminate].
Qed.

Lemma span_ok p s a b : span p s = (a, b) <-> s = a ++ b /\ forallb p a = true /\ match b with c :: _ => p c = false | [] => True end.
Proof.
  revert a b. induction s as [|c s IH]; intros a b; cbn [span].
  - split; [intros E; injection E as <- <-; auto|]. intros (E & _ & _). destruct a; [|discriminate]. destruct b; [reflexivity | discriminate].
  - destruct (p c) eqn:Ec.
    + destruct (span p s) as [a0 b0] eqn:E0. destruct (proj1 (IH a0 b0) eq_refl) as (-> & H1 & H2). split.
      * intros E. injection E as <- <-. cbn [app forallb]. rewrite Ec. auto.
      * intros (E & H3 & H4). destruct a as [|x a]; cbn [app] in E; [subst b; congruence|]. injection E as <- E. cbn [forallb] in H3. apply andb_true_iff in H3 as [_ H3].
        assert (G : (a0, b0) = (a, b)) by (apply IH; auto). injection G as -> ->. reflexivity.
    + split; [intros E; injection E as <- <-; auto|]. intros (E & H3 & H4). destruct a as [|x a]; cbn [app] in E; [subst b; reflexivity|]. injection E as <- E. cbn [forallb] in H3. rewrite Ec in H3. discriminate.
Qed.

Lemma is_quote_iff c : is_quote c = true <-> quote c.
Proof. unfold is_quote, quote. rewrite orb_true_iff, !N.eqb_eq. reflexivity. Qed.
Lemma is_vchar_iff c : is_vchar c = true <-> version_char c.
Proof. unfold is_vchar, is_digit, version_char, cDot. rewrite orb_true_iff, andb_true_iff, !N.leb_le, N.eqb_eq. reflexivity. Qed.
Lemma quote_vchar c : is_quote c = true -> is_vchar c = false.
Proof. intros H. apply is_quote_iff in H as [->| ->]; reflexivity. Qed.
Lemma vchars v : forallb is_vchar v = true <-> Forall version_char v.
Proof. rewrite forallb_forall, Forall_forall. split; intros H x Hx; apply is_vchar_iff, H, Hx. Qed.

Lemma version_end_ok s v : version_end s = Some v <-> exists name q final, s = name ++ q :: v ++ final /\ (quote q \/ q = 47) /\ version_text v /\ (final = [] \/ exists c, quote c /\ final = [c]).
Proof.
  unfold version_end.
  assert (Hq : forall q, (is_quote q || (q =? cSlash)) = true <-> quote q \/ q = 47) by (intros q; rewrite orb_true_iff, is_quote_iff, N.eqb_eq; reflexivity).
  assert (Hnv : forall q, quote q \/ q = 47 -> is_vchar q = false) by (intros q [H| ->]; [apply quote_vchar, is_quote_iff, H | reflexivity]).
  assert (Body : forall r v, (match span is_vchar r with ((_ :: _) as v, q :: _) => if is_quote q || (q =? cSlash) then Some (rev v) else None | _ => None end) = Some v <->
    exists name q, r = rev v ++ q :: rev name /\ (quote q \/ q = 47) /\ version_text v).
  { intros r w. destruct (span is_vchar r) as [a b] eqn:Es. apply span_ok in Es as (Er & Ha & Hb). split.
    - destruct a as [|x a]; [discriminate|]. destruct b as [|q b]; [discriminate|]. destruct (is_quote q || (q =? cSlash)) eqn:Eq; [|discriminate]. intros E. assert (Ew : w = rev (x :: a)) by congruence. subst w.
      exists (rev b), q. rewrite !rev_involutive. split; [exact Er|]. split; [apply Hq, Eq|]. split; [|apply vchars; rewrite forallb_rev; exact Ha].
      intros E'. cbn [rev] in E'. apply app_eq_nil in E' as [_ E']. discriminate.
    - intros (name & q & E & H1 & H2 & H3). assert (G : span is_vchar r = (rev w, q :: rev name)) by (apply span_ok; split; [exact E|]; split; [rewrite forallb_rev; apply vchars, H3 | apply Hnv, H1]).
      assert (G2 : span is_vchar r = (a, b)) by (apply span_ok; auto). rewrite G in G2. injection G2 as <- <-.
      destruct (rev w) as [|x a] eqn:Ew; [exfalso; apply H2; apply (f_equal (@rev N)) in Ew; rewrite rev_involutive in Ew; exact Ew|]. rewrite (proj2 (Hq q) H1). rewrite <- Ew, rev_involutive. reflexivity. }
  rewrite Body. split.
  - intros (name & q & E & H1 & H2). destruct (rev s) as [|c t] eqn:Es; [destruct (rev v); discriminate|]. destruct (is_quote c) eqn:Ec.
    + exists name, q, [c]. split; [|split; [exact H1|]; split; [exact H2 | right; exists c; split; [apply is_quote_iff, Ec | reflexivity]]].
      rewrite <- (rev_involutive s), Es. cbn [rev]. rewrite E, rev_app_distr. cbn [rev]. rewrite !rev_involutive, <- !app_assoc. reflexivity.
    + exists name, q, []. split; [|split; [exact H1|]; split; [exact H2 | left; reflexivity]].
      rewrite <- (rev_involutive s), Es, E, rev_app_distr. cbn [rev]. rewrite !rev_involutive, <- !app_assoc, app_nil_r. reflexivity.
  - intros (name & q & final & E & H1 & H2 & H3). exists name, q. split; [|auto]. rewrite E. rewrite rev_app_distr. cbn [rev]. rewrite rev_app_distr, <- !app_assoc. cbn [app].
    destruct H3 as [->|(c & Hc & ->)]; cbn [rev app].
    + destruct H2 as [H2 H3]. apply vchars in H3. rewrite <- (forallb_rev is_vchar v) in H3. destruct (rev v) as [|x a] eqn:Ew; [exfalso; apply H2; apply (f_equal (@rev N)) in Ew; rewrite rev_involutive in Ew; exact Ew|].
      cbn [app]. cbn [forallb] in H3. apply andb_true_iff in H3 as [H3 _]. destruct (is_quote x) eqn:Ex; [apply quote_vchar in Ex; congruence | reflexivity].
    + rewrite (proj2 (is_quote_iff c) Hc). reflexivity.
Qed.

Lemma yaml_line_ok l v : yaml_line l = Some v <-> branch_line l v.
Proof.
  unfold yaml_line. destruct (lstrip_spec (N.eqb 32) l) as (sp & El & Hsp & Hh). set (r := lstrip (N.eqb 32) l) in *. split.
  - intros E. set (r2 := if startswith r (lit "game-") then skipn 5 r else r) in E.
    assert (Hr : exists prefix, (prefix = [] \/ prefix = lit "game-") /\ r = prefix ++ r2).
    { destruct (startswith r (lit "game-")) eqn:Eg; [apply startswith_iff in Eg as [u Eu]; exists (lit "game-"); split; [auto|]; unfold r2; rewrite Eu; reflexivity | exists []; auto]. }
    destruct Hr as (prefix & Hp & Er). destruct (startswith r2 (lit "branch: ")) eqn:Eb; [|discriminate]. apply startswith_iff in Eb as [u Eu]. rewrite Eu in E.
    change (skipn 8 (lit "branch: " ++ u)) with u in E. apply version_end_ok in E as (name & q & final & E & H1 & H2 & H3).
    exists sp, prefix, name, q, final. rewrite El, Er, Eu, E. split; [reflexivity|]. split; [|auto]. apply Forall_forall. intros x Hx. rewrite forallb_forall in Hsp. apply Hsp in Hx. lia.
  - intros (spaces & prefix & name & q & final & E & Hs & Hp & H1 & H2 & H3).
    assert (Hspb : forallb (N.eqb 32) spaces = true) by (apply forallb_forall; intros x Hx; rewrite Forall_forall in Hs; rewrite <- (Hs x Hx); reflexivity).
    assert (Er : r = prefix ++ lit "branch: " ++ name ++ q :: v ++ final).
    { unfold r. rewrite E, lstrip_app_all by exact Hspb. apply lstrip_id. destruct Hp as [->| ->]; reflexivity. }
    assert (Ev : version_end (name ++ q :: v ++ final) = Some v) by (apply version_end_ok; exists name, q, final; auto).
    rewrite Er. destruct Hp as [->| ->]; exact Ev.
Qed.

Lemma first_version_ok ls v : first_version ls = Some v <-> exists before l after, ls = before ++ l :: after /\ Forall (fun x => forall w, ~ branch_line x w) before /\ branch_line l v.
Proof.
  induction ls as [|l ls IH]; cbn [first_version].
  - split; [discriminate | intros ([|] & l0 & after & E & _); discriminate].
  - destruct (yaml_line l) as [w|] eqn:El.
    + split; [intros E; injection E as <-; exists [], l, ls; split; [reflexivity|]; split; [constructor | apply yaml_line_ok, El]|].
      intros ([|x before] & l' & after & E & HF & Hb); [injection E as <- <-; apply yaml_line_ok in Hb; congruence|]. injection E as <- E. inversion HF as [|? ? Hn _]; subst. apply yaml_line_ok in El. destruct (Hn w El).
    + rewrite IH. split.
      * intros (before & l' & after & -> & HF & Hb). exists (l :: before), l', after. split; [reflexivity|]. split; [|exact Hb]. constructor; [intros w Hw; apply yaml_line_ok in Hw; congruence | exact HF].
      * intros ([|x before] & l' & after & E & HF & Hb); [injection E as <- <-; apply yaml_line_ok in Hb; congruence|]. injection E as <- ->. inversion HF; subst. eauto 8.
Qed.
Lemma yaml_version_ok data text : file_text data text -> (forall v, yaml_version data = Ok (Some v) <-> first_branch text v) /\ (yaml_version data = Ok None <-> forall v, ~ first_branch text v).
Proof.
  intros Ht. apply text_of_ok in Ht. unfold yaml_version. rewrite Ht. cbn [rmap].
  assert (H : forall v, first_version (split_ch cNL text) = Some v <-> first_branch text v).
  { intros v. rewrite first_version_ok. unfold first_branch. split.
    - intros (before & l & after & E & HF & Hb). pose proof (join_split cNL text) as J. pose proof (split_ch_pieces cNL text) as P. rewrite E in J, P. exists before, l, after. split; [symmetry; exact J|]. split; [exact P | auto].
    - intros (before & l & after & E & HN & HF & Hb). exists before, l, after. split; [|auto]. rewrite E. apply split_join; [destruct before; discriminate | exact HN]. }
  split; [intros v; rewrite <- H; split; congruence|]. destruct (first_version (split_ch cNL text)) as [v|].
  - split; [discriminate|]. intros Hn. exfalso. apply (Hn v). apply H. reflexivity.
  - split; [|reflexivity]. intros _ v Hv. apply H in Hv. discriminate.
Qed.

Lemma metadata_match_ok s v : metadata_match s = Some v <-> metadata_text s v.
Proof.
  assert (Hd : forall a, forallb is_digit a = true <-> Forall (fun c => 48 <= c <= 57) a) by (intros a; rewrite forallb_forall, Forall_forall; split; intros H x Hx; apply H in Hx; unfold is_digit in *; lia).
  unfold metadata_match, metadata_text. split.
  - destruct (span is_digit s) as [a u] eqn:E1. apply span_ok in E1 as (-> & Ha & _). destruct a as [|x a]; [discriminate|]. destruct u as [|d t]; [discriminate|]. destruct (N.eqb_spec d cDot) as [->|]; [|discriminate].
    destruct (span is_digit t) as [b w] eqn:E2. apply span_ok in E2 as (-> & Hb & _). destruct b as [|y b]; [discriminate|]. destruct w as [|e w]; [discriminate|]. destruct (N.eqb_spec e cDot) as [->|]; [|discriminate].
    intros E. injection E as <-. exists (x :: a), (y :: b), w. split; [split; [discriminate | apply Hd, Ha]|]. split; [split; [discriminate | apply Hd, Hb]|]. split; reflexivity.
  - intros (a & b & rest & (Na & Ha) & (Nb & Hb) & -> & ->). apply Hd in Ha, Hb.
    replace (span is_digit (a ++ 46 :: b ++ 46 :: rest)) with (a, 46 :: b ++ 46 :: rest) by (symmetry; apply span_ok; auto).
    replace (span is_digit (b ++ 46 :: rest)) with (b, 46 :: rest) by (symmetry; apply span_ok; auto).
    destruct a as [|x a]; [congruence|]. destruct b as [|y b]; [congruence|]. reflexivity.
Qed.

(** ** Clean versions *)

Lemma version_of_clean s v : Forall version_char s -> patch_version (ArgStr s) = Ok v -> clean_version v.
Proof.
  intros HF E. pose proof E as E0. apply patch_version_Ok in E as [[E ->]|(s' & a & b & rest & Eb & ->)].
  - injection E as ->. inversion HF as [|? ? Hx _]; subst. destruct Hx as [Hx|Hx]; cbn in Hx; lia.
  - apply base_version_str_Ok in Eb as (-> & Hne & Hi). unfold clean_version. cbn [v_s].
    destruct rest as [|c0 rest].
    + split; [exact Hne|]. split; [eapply Forall_impl; [|exact HF]; intros c [Hc|Hc]; cbn in *; lia | exact E0].
    + assert (Hd : dotted [a; b] <> []) by (apply dotted_nonempty; discriminate). split; [exact Hd|]. split; [|apply (patch_version_trunc a b [])].
      assert (Hz : forall z, Forall (fun c => 32 < c < 127) (decZ z)).
      { intros z. apply Forall_forall. intros c Hc. unfold decZ in Hc. assert (Hdec : forall n, In c (dec n) -> 48 <= c <= 57) by (intros n Hn; pose proof (dec_chars n) as G; rewrite Forall_forall in G; apply G in Hn; unfold is_digit in Hn; lia).
        destruct z as [|p|p]; [apply Hdec in Hc; lia | apply Hdec in Hc; lia | destruct Hc as [<-|Hc]; [unfold cMinus; lia | apply Hdec in Hc; lia]]. }
      unfold dotted. cbn [map join]. apply Forall_app. split; [apply Hz|]. apply Forall_app. split; [repeat constructor | apply Hz].
Qed.

(** ** The cache *)

Lemma stripped_ok text s : strip is_space text = s <-> stripped text s.
Proof.
  assert (Hb : forall c, is_space c = true <-> blank c) by (intros c; unfold is_space, blank; rewrite orb_true_iff, !andb_true_iff, !N.leb_le; reflexivity).
  assert (HF : forall l, forallb is_space l = true <-> Forall blank l) by (intros l; rewrite forallb_forall, Forall_forall; split; intros H x Hx; apply Hb, H, Hx).
  assert (Hto : stripped text (strip is_space text)).
  { unfold strip. destruct (lstrip_spec is_space text) as (a & Ea & Ha & Hh). destruct (rstrip_spec is_space (lstrip is_space text)) as (b & Eb & Hbb & Ht).
    set (u := lstrip is_space text) in *. set (w := rstrip is_space u) in *. exists a, b. split; [rewrite Ea, Eb at 1; reflexivity|]. split; [apply HF, Ha|]. split; [apply HF, Hbb|]. split.
    - intros c t E Hc. rewrite Eb, E in Hh. cbn [app] in Hh. apply Hb in Hc. congruence.
    - intros c t E Hc. apply Hb in Hc. destruct Ht as [Ht|(s' & x & Ht & Hx)]; [rewrite E in Ht; destruct t; discriminate|]. rewrite E in Ht. apply app_inj_tail in Ht as [_ ->]. congruence. }
  split; [intros <-; exact Hto|]. intros (a & b & -> & Ha & Hbb & H1 & H2). apply HF in Ha, Hbb. unfold strip. rewrite lstrip_app_all by exact Ha.
  destruct s as [|c s].
  - cbn [app]. rewrite <- (app_nil_r b), lstrip_app_all by exact Hbb. reflexivity.
  - rewrite lstrip_id. 2:{ cbn [app]. specialize (H1 c s eq_refl). destruct (is_space c) eqn:E; [apply Hb in E; contradiction | reflexivity]. }
    rewrite rstrip_app_all by exact Hbb. destruct (exists_last (l := c :: s) ltac:(discriminate)) as (t & x & E). rewrite E. apply rstrip_snoc_false. specialize (H2 x t E). destruct (is_space x) eqn:Ex; [apply Hb in Ex; contradiction | reflexivity].
Qed.

Section Cache.
  Variable cwd : path.
  Variable enc : str -> bytes.

  Lemma isfile_iff f s : f_isfile cwd s f = true <-> exists b, has_content cwd f s b.
  Proof.
    unfold f_isfile, has_content, content_at. destruct (locate cwd f true s) as [p|e]; cbn [node_of].
    - destruct (look f p) as [[b| |t]|] eqn:El; split; try discriminate; try (intros (b' & p' & E & E'); injection E as <-; congruence); intros _; exists b, p; auto.
    - split; [discriminate | intros (b & p & E & _); discriminate].
  Qed.
  Lemma content_fun f s b b' : has_content cwd f s b -> has_content cwd f s b' -> b = b'.
  Proof. intros (p & E1 & E2) (p' & E1' & E2'). congruence. Qed.
  Lemma read_done f s pl b pl' f' : run (read_file cwd s) pl f = (Done b, pl', f') -> f' = f /\ has_content cwd f s b.
  Proof.
    intros E. apply run_sys_done in E. apply rbind_Ok in E as (p & Ep & E). destruct (look f p) as [[b'| |t]|] eqn:El; try discriminate. injection E as -> ->. split; [reflexivity|]. exists p. split; assumption.
  Qed.
  Lemma read_fs f s pl o pl' f' : run (read_file cwd s) pl f = (o, pl', f') -> f' = f.
  Proof.
    unfold read_file, sys, sys_part. cbn [run]. destruct pl as [|[[e n|n]|] pl]; cbn [run].
    2:{ intros E. congruence. } 2:{ intros E. congruence. }
    all: destruct (locate cwd f true s) as [p|]; cbn [rbind]; [|cbn [run]; intros E; congruence]; destruct (look f p) as [[b'| |t]|]; cbn [run]; intros E; congruence.
  Qed.
  Lemma read_content f s b : has_content cwd f s b -> run (read_file cwd s) [] f = (Done b, [], f).
  Proof. intros (p & E1 & E2). unfold read_file, sys, sys_part. cbn [run]. rewrite E1. cbn [rbind]. rewrite E2. reflexivity. Qed.
  Lemma lift_fs {A} (r : result A) pl f : run (lift r) pl f = (match r with Ok a => Done a | Err e => Raised e end, pl, f).
  Proof. destruct r; reflexivity. Qed.

  Lemma read_cache_fs f cache pl o pl' f' : run (read_cache cwd cache) pl f = (o, pl', f') -> f' = f.
  Proof.
    unfold read_cache. rewrite run_bind. destruct (run (read_file cwd cache) pl f) as [[[b|e|] pl1] f1] eqn:E1; apply read_fs in E1; subst f1; [|intros E; congruence | intros E; congruence].
    rewrite run_bind, lift_fs. destruct (text_of b) as [t|]; [|intros E; congruence]. destruct (strip is_space t) as [|c s]; [cbn [run]; intros E; congruence|].
    rewrite run_bind, lift_fs. destruct (patch_version _); cbn [run]; intros E; congruence.
  Qed.
  Lemma read_cache_value f cache s : cached_text cwd f cache s -> exists o, run (read_cache cwd cache) [] f = (o, [], f) /\ cached_result s o.
  Proof.
    intros (data & text & Hc & Ht & Hs). apply stripped_ok in Hs. apply text_of_ok in Ht. unfold read_cache. rewrite run_bind, (read_content _ _ _ Hc), run_bind, lift_fs, Ht, Hs.
    destruct s as [|c s]; [eexists; split; [reflexivity | constructor]|]. rewrite run_bind, lift_fs. destruct (patch_version (ArgStr (c :: s))) eqn:E; (eexists; split; [reflexivity | constructor; [discriminate | exact E]]).
  Qed.
  Lemma read_cache_done f cache s pl v pl' f' : cached_text cwd f cache s -> run (read_cache cwd cache) pl f = (Done v, pl', f') -> cached_result s (Done v).
  Proof.
    intros (data & text & Hc & Ht & Hs) E. apply stripped_ok in Hs. apply text_of_ok in Ht. unfold read_cache in E. apply done_bind in E as (b & pl1 & f1 & E1 & E). apply read_done in E1 as [-> Hb].
    rewrite (content_fun _ _ _ _ Hb Hc) in E. rewrite run_bind, lift_fs, Ht, Hs in E. destruct s as [|c s]; [cbn [run] in E; injection E as <- _ _; constructor|].
    rewrite run_bind, lift_fs in E. destruct (patch_version (ArgStr (c :: s))) eqn:Ev; [|discriminate]. cbn [run] in E. injection E as <- _ _. constructor; [discriminate | exact Ev].
  Qed.

  Lemma hit_run f cache retrieve pl : (exists b, has_content cwd f cache b) -> exists r, run (cached_version cwd enc cache retrieve) pl f = r /\
    (r = (Crashed, tl pl, f) /\ (exists n, hd None pl = Some (FCrash n)) \/ r = run (read_cache cwd cache) (tl pl) f).
  Proof.
    intros Hb. apply isfile_iff in Hb. eexists. split; [reflexivity|]. unfold cached_version, isfile, query. cbn [bind run]. rewrite Hb. destruct pl as [|[[e n|n]|] pl]; cbn [tl hd]; eauto.
  Qed.
  Lemma hit f cache s : cached_text cwd f cache s ->
    (forall retrieve, exists o, run (cached_version cwd enc cache retrieve) [] f = (o, [], f) /\ cached_result s o) /\
    (forall retrieve pl o pl' f', run (cached_version cwd enc cache retrieve) pl f = (o, pl', f') -> f' = f /\ (forall v, o = Done v -> cached_result s o)) /\
    (forall r1 r2 pl, run (cached_version cwd enc cache r1) pl f = run (cached_version cwd enc cache r2) pl f).
  Proof.
    intros Hs. assert (Hb : exists b, has_content cwd f cache b) by (destruct Hs as (data & ? & ? & _); eauto). split; [|split].
    - intros r. destruct (hit_run f cache r [] Hb) as (x & -> & [[-> [n Hn]]| ->]); [discriminate|]. apply read_cache_value. exact Hs.
    - intros r pl o pl' f' E. destruct (hit_run f cache r pl Hb) as (x & Ex & [[-> _]| ->]).
      + rewrite Ex in E. injection E as <- <- <-. split; [reflexivity | discriminate].
      + rewrite Ex in E. split; [apply read_cache_fs in E; exact E|]. intros v ->. eapply read_cache_done; [exact Hs | exact E].
    - intros r1 r2 pl. unfold cached_version, isfile, query. cbn [bind run]. apply isfile_iff in Hb. rewrite Hb. reflexivity.
  Qed.

  Lemma resolve_but p a b fo : (forall q, q <> p -> look b q = look a q) -> look a p = None \/ is_file a p -> is_file b p ->
    forall k c cur, resolve k a fo cur c = Ok p -> resolve k b fo cur c = Ok p.
  Proof.
    intros Ho Ha [y Hb]. induction k as [|k IHk]; (induction c as [|n c IH]; intros cur; [rewrite !resolve_nil; auto|]);
      rewrite !resolve_cons; (destruct (eqb n dotdot); [apply IH|]); intros E.
    all: destruct (eqbP (n :: cur) p) as [Ep|Np]; [rewrite Ep in *; rewrite Hb; destruct Ha as [Ha|[x Ha]]; rewrite Ha in E; destruct c; [reflexivity | discriminate | reflexivity | discriminate]|].
    all: rewrite (Ho _ Np); destruct (look a (n :: cur)) as [[z| |t]|] eqn:El; [exact E | apply IH; assumption | | exact E].
    - exact E.
    - destruct c, fo; try exact E; apply IHk; assumption.
  Qed.
  Lemma below_cons_inv n (cur q : path) : below (n :: cur) q -> q = n :: cur \/ below cur q.
  Proof. intros [[|x l] E]; [left; symmetry; exact E|]. injection E as _ E. right. exists l. exact E. Qed.
  Lemma resolve_nolink f : forall k c cur p, (forall q, below cur q -> look f q = Some NDir) -> resolve k f true cur c = Ok p -> forall t, look f p <> Some (NLink t).
  Proof.
    assert (Htl : forall cur, (forall q, below cur q -> look f q = Some NDir) -> forall q, below (tl cur) q -> look f q = Some NDir).
    { intros [|x cur] H q Hq; [apply H; exact Hq|]. apply H. destruct Hq as [l El]. exists (x :: l). cbn [tl] in El. cbn [app]. f_equal. exact El. }
    assert (Hn : forall n cur, (forall q, below cur q -> look f q = Some NDir) -> look f (n :: cur) = Some NDir -> forall q, below (n :: cur) q -> look f q = Some NDir).
    { intros n cur H Hl q Hq. apply below_cons_inv in Hq as [->|Hq]; auto. }
    induction k as [|k IHk]; (induction c as [|n c IH]; intros cur p H; [rewrite resolve_nil; intros E; injection E as <-; rewrite (H _ (below_refl _)); discriminate|]);
      rewrite resolve_cons; (destruct (eqb n dotdot); [apply IH, Htl, H|]); intros E.
    all: destruct (look f (n :: cur)) as [[z| |t]|] eqn:El; [| apply (IH (n :: cur)); [apply Hn; assumption | exact E] | |].
    1, 3, 4, 6: destruct c; [injection E as <-; congruence | discriminate].
    - destruct c; discriminate.
    - assert (E' : resolve k f true (if is_abs t then [] else cur) (comps t ++ c) = Ok p) by (destruct c; exact E). refine (IHk _ _ _ _ E'). destruct (is_abs t); [|exact H]. intros q [l El']. symmetry in El'. apply app_eq_nil in El' as [_ ->]. reflexivity.
  Qed.

  Lemma write_cache_done cache v pl f pl' f' : run (write_cache cwd enc cache v) pl f = (Done tt, pl', f') -> cwd_exists cwd f' ->
    exists p, content_at cwd f' cache p (enc (v_s v ++ [cNL])) /\ but_file p f f'.
  Proof.
    intros E Hcwd. unfold write_cache in E. apply done_bind in E as (h & pl1 & f1 & E1 & E). apply run_sys_done in E1. unfold f_open_w in E1. apply rbind_Ok in E1 as (p & Ep & E1).
    apply close_done in E as (pl2 & E). unfold write_pieces in E. apply done_bind in E as ([] & pl3 & f3 & E2 & E). cbn [run] in E. injection E as _ <-.
    assert (Hd : look f p <> Some NDir) by (intros G; rewrite G in E1; discriminate).
    assert (Hp : p <> []) by (intros ->; apply Hd; reflexivity).
    assert (h = p /\ f1 = put p (NFile []) f) as [-> ->] by (destruct (look f p) as [[]|]; try congruence; split; congruence).
    assert (Hc : look f3 p = Some (NFile (enc (v_s v ++ [cNL])))).
    { rewrite <- (app_nil_r (enc _)). change (look f3 p = Some (NFile ([] ++ concat [enc (v_s v ++ [cNL])]))). eapply pieces_done; [exact Hp | | exact E2]. apply look_put_same. exact Hp. }
    assert (Ho : forall q, q <> p -> look f3 q = look f q).
    { intros q Hq. cbn [for_each] in E2. apply done_bind in E2 as ([] & pl4 & f4 & E2 & E3). apply run_fwrite in E2. cbn [run] in E3. injection E3 as _ <-. subst f4. unfold f_append. rewrite look_put_same by exact Hp. rewrite !look_put_other by exact Hq. reflexivity. }
    exists p. split; [|intros q; destruct (eqbP q p) as [->|Hq]; auto]. split; [|exact Hc].
    assert (Hcwd0 : cwd_exists cwd f) by (intros q Hq; rewrite <- Ho; [apply Hcwd, Hq | intros ->; rewrite (Hcwd _ Hq) in Hc; discriminate]).
    unfold locate in *. destruct cache as [|c0 cache0] eqn:Ecache; [discriminate|]. rewrite <- Ecache in *. unfold at_loc in *.
    assert (Hst : forall q, below (fst (loc_of cwd cache)) q -> look f q = Some NDir).
    { unfold loc_of. cbn [fst]. destruct (is_abs cache); [intros q [l El]; symmetry in El; apply app_eq_nil in El as [_ ->]; reflexivity | exact Hcwd0]. }
    pose proof (resolve_nolink f _ _ _ _ Hst Ep) as Hl.
    apply (resolve_but p f f3 true Ho); [|exists (enc (v_s v ++ [cNL])); exact Hc | exact Ep].
    destruct (look f p) as [[b| |t]|] eqn:El; [right; exists b; exact El | congruence | destruct (Hl t eq_refl) | left; reflexivity].
  Qed.

  Lemma cached_enc f cache p v : ascii_text enc -> clean_version v -> content_at cwd f cache p (enc (v_s v ++ [cNL])) -> cached_text cwd f cache (v_s v).
  Proof.
    intros He (Hne & HF & _) Hc. exists (enc (v_s v ++ [cNL])), (v_s v ++ [cNL]). split; [exists p; exact Hc|]. split.
    - exists (v_s v ++ [cNL]). split; [apply He, Forall_app; split; [eapply Forall_impl; [|exact HF]; intros; cbn in *; lia | constructor; [reflexivity | constructor]]|]. clear - HF. induction HF as [|c l Hc HF IH]; cbn [app]; apply tr_other; [discriminate | constructor | lia | exact IH].
    - exists [], [cNL]. split; [reflexivity|]. split; [constructor|]. split; [constructor; [left; unfold cNL; lia | constructor]|]. split; intros c t E; [rewrite E in HF; inversion HF; subst; unfold blank; lia|].
      rewrite E in HF. apply Forall_app in HF as [_ HF]. inversion HF; subst. unfold blank. lia.
  Qed.

  Lemma cached_miss cache retrieve pl f o pl' f' : no_file cwd f cache -> run (cached_version cwd enc cache retrieve) pl f = (Done o, pl', f') ->
    exists pl0 pl1 f1, run retrieve pl0 f = (Done o, pl1, f1) /\ (o = None /\ f' = f1 \/ exists v, o = Some v /\ run (write_cache cwd enc cache v) pl1 f1 = (Done tt, pl', f')).
  Proof.
    intros Hn E. unfold cached_version in E. apply done_bind in E as (b & pl0 & f0 & E0 & E). apply run_query in E0 as [-> ->].
    destruct (f_isfile cwd cache f) eqn:Ei; [apply isfile_iff in Ei as [b Hb]; destruct (Hn b Hb)|]. apply done_bind in E as (v & pl1 & f1 & E1 & E). exists pl0, pl1, f1.
    destruct v as [v|].
    - apply done_bind in E as ([] & pl2 & f2 & E2 & E). cbn [run] in E. injection E as <- <- <-. split; [exact E1|]. right. exists v. split; [reflexivity | exact E2].
    - cbn [run] in E. injection E as <- <- <-. split; [exact E1|]. left. auto.
  Qed.

  Lemma store cache retrieve pl f v pl' f' : ascii_text enc -> no_file cwd f cache -> run (cached_version cwd enc cache retrieve) pl f = (Done (Some v), pl', f') -> cwd_exists cwd f' ->
    exists pl0 pl1 f1 p, run retrieve pl0 f = (Done (Some v), pl1, f1) /\ content_at cwd f' cache p (enc (v_s v ++ [cNL])) /\ but_file p f1 f' /\
      (clean_version v -> forall retrieve', run (cached_version cwd enc cache retrieve') [] f' = (Done (Some v), [], f')).
  Proof.
    intros He Hn E Hcwd. apply (cached_miss cache retrieve) in E as (pl0 & pl1 & f1 & E1 & [[E _]|(v' & E & E2)]); [discriminate | | exact Hn]. injection E as <-.
    apply write_cache_done in E2 as (p & Hc & Hb); [|exact Hcwd]. exists pl0, pl1, f1, p. split; [exact E1|]. split; [exact Hc|]. split; [exact Hb|]. intros Hv retrieve'.
    destruct (hit f' cache (v_s v) (cached_enc f' cache p v He Hv Hc)) as (H & _). destruct (H retrieve') as (o & Eo & Ho). rewrite Eo. destruct Hv as (Hne & _ & Hpv). inversion Ho; subst; congruence.
  Qed.
End Cache.

(** ** Elements of releases *)

Lemma branch_chars text v : first_branch text v -> Forall version_char v.
Proof. intros (? & ? & ? & _ & _ & _ & (? & ? & ? & ? & ? & _ & _ & _ & _ & (_ & H) & _)). exact H. Qed.
Lemma metadata_chars s v : metadata_text s v -> Forall version_char v.
Proof.
  assert (Hd : forall a, digits a -> Forall version_char a) by (intros a [_ H]; eapply Forall_impl; [|exact H]; intros c Hc; left; exact Hc).
  intros (a & b & rest & Ha & Hb & _ & ->). apply Forall_app. split; [apply Hd, Ha|]. constructor; [right; reflexivity | apply Hd, Hb].
Qed.
Lemma yaml_element data v0 v : yaml_version data = Ok v0 -> version_of v0 = Ok v -> exists text s, file_text data text /\ first_branch text s /\ patch_version (ArgStr s) = Ok v.
Proof.
  intros E1 E2. destruct v0 as [s|]; [|discriminate]. destruct (text_of data) as [text|] eqn:Et; [|unfold yaml_version in E1; rewrite Et in E1; discriminate]. apply text_of_ok in Et.
  exists text, s. split; [exact Et|]. split; [apply (yaml_version_ok data text Et); exact E1 | exact E2].
Qed.
Lemma element_clean load name data v : element_version load name data v -> clean_version v.
Proof. intros [? text s ? _ Hs Hv|? d s t ? _ _ Hs Hv]; (eapply version_of_clean; [|exact Hv]); [exact (branch_chars _ _ Hs) | exact (metadata_chars _ _ Hs)]. Qed.

Section Elements.
  Variable cwd : path.
  Variable enc : str -> bytes.
  Section Patcher.
    Variable base : str.
    Variable get : str -> result bytes.
    Variable zstd : bytes -> result bytes.
    Variable sha1 : str -> str.
    Variable symlinks : bool.
    Variable storage_dir : str.
    Variable load : bytes -> result json.
    Variable order : list (option N) -> list (option N).
    Notation retrieve := (retrieve_patcher cwd base get zstd sha1 symlinks storage_dir load order).

    Lemma retrieve_patcher_done manif name pl f o pl' f' : run (retrieve manif name) pl f = (Done o, pl', f') ->
      exists v m file file_name data pl0 pl1 f1, o = Some v /\ version_file name file_name /\ run manif pl0 f = (Done m, pl1, f1) /\ dget (Some file_name) (m_files m) = Some file /\
        has_content cwd f' (extract_path storage_dir file) data /\ element_version load name data v.
    Proof.
      intros E. unfold retrieve_patcher in E. apply done_bind in E as ([file_name extractor] & pl0 & f0 & E0 & E). rewrite lift_fs in E0.
      assert (Hx : pl0 = pl /\ f0 = f /\ version_file name file_name /\ forall data v0 v, extractor data = Ok v0 -> version_of v0 = Ok v -> element_version load name data v).
      { destruct (eqbP name (lit "client")) as [->|_]; [|destruct (eqbP name (lit "game")) as [->|_]; [|discriminate]]; injection E0 as <- <- <- <-; split; try reflexivity; split; try reflexivity; split; try constructor.
        - intros data v0 v H1 H2. destruct (yaml_element data v0 v H1 H2) as (text & s & Ht & Hs & Hv). econstructor; eassumption.
        - intros data v0 v H1 H2. unfold metadata_version in H1. apply rbind_Ok in H1 as (d & Ed & H1). apply rbind_Ok in H1 as (x & Ex & H1). destruct x as [| | | |s| |]; try discriminate. injection H1 as <-.
          destruct (metadata_match s) as [t|] eqn:Em; [|discriminate]. apply metadata_match_ok in Em. unfold jget in Ex. destruct d as [| | | | | |d]; try discriminate. destruct (dget (lit "version") d) as [x|] eqn:Eg; [|discriminate]. injection Ex as ->.
          econstructor; eassumption. }
      destruct Hx as (-> & -> & Hvf & Hx). apply done_bind in E as (m & pl1 & f1 & E1 & E). apply done_bind in E as (file & pl2 & f2 & E2 & E). rewrite lift_fs in E2.
      destruct (dget (Some file_name) (m_files m)) as [x|] eqn:Eg; [|discriminate]. cbn [of_opt] in E2. injection E2 as -> <- <-.
      apply done_bind in E as (b & pl3 & f3 & E3 & E). apply done_bind in E as ([] & pl4 & f4 & E4 & E). apply done_bind in E as ([] & pl5 & f5 & E5 & E).
      apply done_bind in E as (data & pl6 & f6 & E6 & E). apply read_done in E6 as [-> Hc]. apply done_bind in E as (v0 & pl7 & f7 & E7 & E). rewrite lift_fs in E7. destruct (extractor data) as [w|] eqn:Ev; [|discriminate]. injection E7 as -> <- <-.
      apply done_bind in E as (v & pl8 & f8 & E8 & E). rewrite lift_fs in E8. destruct (version_of v0) as [w|] eqn:Ew; [|discriminate]. injection E8 as -> <- <-. cbn [run] in E. injection E as <- <- <-.
      exists v, m, file, file_name, data, pl, pl1, f1. eauto 10.
    Qed.
  End Patcher.

  Section Rads.
    Variable base : str.
    Variable exe : bytes -> result (option str).
    Variable projects : prog (list (str * version)).
    Variable filepaths : str * version -> prog (list str).
    Variable extract : str * version -> str -> prog unit.
    Variable gone : exn -> bool.
    Notation retrieve := (retrieve_rads cwd base exe projects filepaths extract gone).

    Lemma find_first {A} (g : A -> bool) (P : A -> Prop) l x : (forall y, g y = true <-> P y) -> find g l = Some x -> first P l x.
    Proof.
      intros Hg. induction l as [|y l IH]; cbn [find]; [discriminate|]. destruct (g y) eqn:Ey.
      - intros E. injection E as <-. exists [], l. split; [reflexivity|]. split; [constructor | apply Hg, Ey].
      - intros E. destruct (IH E) as (b & a & -> & HF & Hx). exists (y :: b), a. split; [reflexivity|]. split; [|exact Hx]. constructor; [intros Hy; apply Hg in Hy; congruence | exact HF].
    Qed.
    Lemma find_none {A} (g : A -> bool) (P : A -> Prop) l : (forall y, g y = true <-> P y) -> find g l = None -> Forall (fun y => ~ P y) l.
    Proof. intros Hg E. apply Forall_forall. intros x Hx Hp. apply Hg in Hp. rewrite (find_none g l E x Hx) in Hp. discriminate. Qed.

    Lemma retrieve_rads_done solution pl f o pl' f' : run (retrieve solution) pl f = (Done o, pl', f') ->
      exists project suffix ps pv pl0 pl1 f1, solution_file solution project suffix /\ run projects pl0 f = (Done ps, pl1, f1) /\ first (fun p => fst p = project) ps pv /\
        (o = None /\ (exists e pl2 f2, run (filepaths pv) pl1 f1 = (Raised e, pl2, f2) /\ gone e = true) \/
         exists paths pl2 f2, run (filepaths pv) pl1 f1 = (Done paths, pl2, f2) /\
           (o = None /\ project = lit "league_client" /\ Forall (fun p => forall q, p <> q ++ suffix) paths /\ v_le (snd pv) {| v_s := lit "0.0.0.43"; v_t := VNum [0; 0; 0; 43]%Z |} = Ok true \/
            exists p data v, o = Some v /\ first (fun p => exists q, p = q ++ suffix) paths p /\ has_content cwd f' (fspath base p) data /\ solution_version exe solution data v)).
    Proof.
      intros E. unfold retrieve_rads in E. apply done_bind in E as ([[project file_name] extractor] & pl0 & f0 & E0 & E). rewrite lift_fs in E0.
      assert (Hx : pl0 = pl /\ f0 = f /\ solution_file solution project (cSlash :: file_name) /\ forall data v0 v, extractor data = Ok v0 -> version_of v0 = Ok v -> solution_version exe solution data v).
      { destruct (eqbP solution (lit "league_client_sln")) as [->|_]; [|destruct (eqbP solution (lit "lol_game_client_sln")) as [->|_]; [|discriminate]]; injection E0 as <- <- <- <- <-; split; try reflexivity; split; try reflexivity; split; try constructor.
        - intros data v0 v H1 H2. destruct (yaml_element data v0 v H1 H2) as (text & s & Ht & Hs & Hv). econstructor; eassumption.
        - intros data v0 v H1 H2. destruct v0 as [s|]; [|discriminate]. econstructor; eassumption. }
      destruct Hx as (-> & -> & Hsf & Hx). exists project, (cSlash :: file_name). apply done_bind in E as (ps & pl1 & f1 & E1 & E). apply done_bind in E as (pv & pl2 & f2 & E2 & E). rewrite lift_fs in E2.
      destruct (find (fun p => eqb (fst p) project) ps) as [x|] eqn:Ef; [|discriminate]. cbn [of_opt] in E2. injection E2 as -> <- <-.
      apply find_first with (P := fun p => fst p = project) in Ef; [|intros y; destruct (eqbP (fst y) project); split; congruence].
      exists ps, pv, pl, pl1, f1. split; [exact Hsf|]. split; [exact E1|]. split; [exact Ef|].
      assert (Hend : forall p, endswith p (cSlash :: file_name) = true <-> exists q, p = q ++ cSlash :: file_name) by (intros p; apply endswith_iff).
      rewrite run_bind, run_catch, run_bind in E. destruct (run (filepaths pv) pl1 f1) as [[[paths|e|] pl2] f2] eqn:E2; [| |discriminate].
      - right. exists paths, pl2, f2. split; [reflexivity|]. cbn [run] in E. destruct (find (fun p => endswith p (cSlash :: file_name)) paths) as [p|] eqn:Ep.
        + right. apply done_bind in E as (b & pl3 & f3 & E3 & E). apply done_bind in E as ([] & pl4 & f4 & E4 & E). apply done_bind in E as (data & pl6 & f6 & E6 & E). apply read_done in E6 as [-> Hc].
          apply done_bind in E as (v0 & pl7 & f7 & E7 & E). rewrite lift_fs in E7. destruct (extractor data) as [w|] eqn:Ev; [|discriminate]. injection E7 as -> <- <-.
          apply done_bind in E as (v & pl8 & f8 & E8 & E). rewrite lift_fs in E8. destruct (version_of v0) as [w|] eqn:Ew; [|discriminate]. injection E8 as -> <- <-. cbn [run] in E. injection E as <- <- <-.
          exists p, data, v. split; [reflexivity|]. split; [apply (find_first _ _ _ _ Hend Ep) | eauto].
        + left. destruct (eqbP (fst pv) (lit "league_client")) as [El|]; [|discriminate]. change (rads_version (ArgStr (lit "0.0.0.43"))) with (Ok {| v_s := lit "0.0.0.43"; v_t := VNum [0; 0; 0; 43]%Z |}) in E.
          cbn [lift bind] in E. destruct (v_le (snd pv) _) as [[|]|] eqn:Eo; try discriminate. cbn [lift bind run] in E. injection E as <- <- <-. split; [reflexivity|].
          split; [destruct Ef as (? & ? & _ & _ & Ef); congruence|]. split; [|reflexivity]. pose proof (find_none _ _ _ Hend Ep) as HF. eapply Forall_impl; [|exact HF]. intros q Hq s ->. apply Hq. eauto.
      - left. destruct (gone e) eqn:Eg; [|discriminate]. cbn [run] in E. injection E as <- <- <-. split; [reflexivity|]. exists e, pl2, f2. auto.
    Qed.
  End Rads.
End Elements.
