(** * Proofs about the files selected to be exported *)

From Verif Require Import Base.Py Base.Text Base.Regex Base.PyFacts Base.TextFacts Base.BinFacts Model.Version Spec.VersionSpec Proofs.VersionProofs Model.Wad Model.Exporter Spec.TablesSpec Spec.ExporterSpec Proofs.ExporterProofs
  Spec.HandledSpec Proofs.HandledProofs Spec.SelectionSpec Proofs.GrepLcuFileProofs.

Lemma lower_app a b : lower (a ++ b) = lower a ++ lower b.
Proof. apply map_app. Qed.
Lemma ends_fun (s q q' : str) : ends s q -> ends s q' -> (forall r, q <> r ++ [cNL]) -> (forall r, q' <> r ++ [cNL]) -> q = q'.
Proof.
  intros [-> | ->] [E|E] H1 H2; [exact E | exfalso; exact (H1 _ E) | exfalso; exact (H2 _ (eq_sym E)) | apply app_inj_tail in E as [E _]; exact E].
Qed.

(** ** Unknown files *)

Lemma no_nl_end (x : str) c r : c <> cNL -> x ++ [c] <> r ++ [cNL].
Proof. intros H E. apply app_inj_tail in E as [_ E]. contradiction. Qed.
Lemma plugin_wad_iff base : plugin_wad base = true <-> exists x n, ends (lower base) (x ++ lit "assets" ++ n ++ lit ".wad") /\ digits n.
Proof.
  unfold plugin_wad. set (b := lower base). set (b1 := if endswith b [cNL] then removelast b else b).
  assert (Hb : forall q, (forall r, q <> r ++ [cNL]) -> ends b q <-> b1 = q).
  { intros q Hq. unfold b1. destruct (endswith b [cNL]) eqn:E.
    - apply endswith_iff in E as [r E]. rewrite E, removelast_last. split; [intros [H|H]; [exfalso; exact (Hq r (eq_sym H)) | apply app_inj_tail in H as [H _]; exact H] | intros ->; right; reflexivity].
    - split; [intros [H|H]; [exact H|] | intros H; left; exact H]. exfalso. assert (X : endswith b [cNL] = true) by (apply endswith_iff; eauto). congruence. }
  rewrite andb_true_iff, endswith_iff, endswith_iff. split.
  - intros [[r E] [x Ex]]. rewrite E in Ex.
    assert (Et : takeN (lenN (r ++ lit ".wad") - 4) (r ++ lit ".wad") = r).
    { apply takeN_app_n. rewrite lenN_app. change (lenN (lit ".wad")) with 4. lia. }
    rewrite Et in Ex. destruct (rstrip_spec is_digit r) as (n & En & Hn & _). exists x, n. rewrite forallb_forall in Hn. split; [|exact Hn].
    apply Hb.
    + intros s Es. apply (f_equal (@rev _)) in Es. rewrite !rev_app_distr in Es. vm_compute in Es. discriminate Es.
    + rewrite E, En, Ex, <- !app_assoc. reflexivity.
  - intros (x & n & H & Hn). apply Hb in H.
    2: { intros s Es. apply (f_equal (@rev _)) in Es. rewrite !rev_app_distr in Es. vm_compute in Es. discriminate Es. }
    rewrite H. split; [exists (x ++ lit "assets" ++ n); rewrite <- !app_assoc; reflexivity|]. exists x.
    replace (x ++ lit "assets" ++ n ++ lit ".wad") with ((x ++ lit "assets" ++ n) ++ lit ".wad") by (rewrite <- !app_assoc; reflexivity).
    assert (Et : takeN (lenN ((x ++ lit "assets" ++ n) ++ lit ".wad") - 4) ((x ++ lit "assets" ++ n) ++ lit ".wad") = x ++ lit "assets" ++ n).
    { apply takeN_app_n. rewrite (lenN_app (x ++ lit "assets" ++ n)). change (lenN (lit ".wad")) with 4. lia. }
    rewrite Et, app_assoc, rstrip_app_all by (apply forallb_forall; exact Hn).
    change (lit "assets") with (lit "asset" ++ [115]). rewrite app_assoc, rstrip_snoc_false by reflexivity. reflexivity.
Qed.
Lemma unknown_dir_place k d : unknown_dir k = d <-> unknown_place k d.
Proof.
  assert (H : (exists dir, plugin_archive k dir /\ unknown_dir k = dir ++ lit "/unknown") \/ (forall dir, ~ plugin_archive k dir) /\ unknown_dir k = lit "unknown").
  { unfold unknown_dir. destruct (cut_last cSlash k) as [[h base]|] eqn:E.
    - apply cut_last_Some in E as [-> Hb]. destruct (startswith (lower h) (lit "plugins/rcp-") && nonempty (dropN 12 h) && forallb (fun c => negb (c =? cNL)) (dropN 12 h) && plugin_wad base) eqn:T.
      + left. exists (lower h). split; [|reflexivity]. apply andb_true_iff in T as [T T4]. apply andb_true_iff in T as [T T3]. apply andb_true_iff in T as [T1 T2].
        apply plugin_wad_iff in T4 as (x & n & T4 & T5). exists (takeN 12 h), (dropN 12 h), base, x, n. rewrite takeN_dropN. split; [reflexivity|]. split; [exact Hb|].
        split. { apply startswith_iff in T1 as [r T1]. change (lower (takeN 12 h)) with (map lower1 (takeN 12 h)). rewrite <- takeN_map. change (map lower1 h) with (lower h). rewrite T1. apply takeN_app_n. reflexivity. }
        split; [intros E; rewrite E in T2; discriminate T2|]. split; [|auto]. intros Hi. rewrite forallb_forall in T3. apply T3 in Hi. discriminate Hi.
      + right. split; [|reflexivity]. intros dir (a & name & base' & x & n & E & Hb' & Ha & Hn & Hl & He & Hd & _).
        assert (X : h = a ++ name /\ base = base').
        { assert (Y : Some (h, base) = Some (a ++ name, base')) by (rewrite <- (cut_last_app cSlash h base Hb), E; apply cut_last_app; exact Hb'). injection Y as Y1 Y2. auto. }
        destruct X as [-> ->]. assert (La : lenN a = 12).
        { apply (f_equal (@lenN _)) in Ha. unfold lower in Ha. rewrite lenN_map in Ha. exact Ha. }
        rewrite (dropN_app_n a name 12 La), lower_app, Ha in T. assert (P : plugin_wad base' = true) by (apply plugin_wad_iff; eauto). rewrite P, andb_true_r in T.
        assert (S1 : startswith (lit "plugins/rcp-" ++ lower name) (lit "plugins/rcp-") = true) by (apply startswith_iff; eauto). rewrite S1 in T. cbn [andb] in T.
        destruct name as [|c name]; [congruence|]. cbn [nonempty andb] in T. assert (F : forallb (fun c => negb (c =? cNL)) (c :: name) = true); [|congruence].
        apply forallb_forall. intros y Hy. destruct (N.eqb_spec y cNL) as [->|]; [contradiction | reflexivity].
    - right. split; [|reflexivity]. intros dir (a & name & base' & x & n & -> & _). apply cut_last_None in E. apply E. apply in_elt. }
  assert (HU : forall d1 d2, plugin_archive k d1 -> plugin_archive k d2 -> d1 = d2).
  { intros d1 d2 (a & name & base & x & n & E & Hb & _ & _ & _ & _ & _ & ->) (a' & name' & base' & x' & n' & E' & Hb' & _ & _ & _ & _ & _ & ->).
    assert (Y : Some (a ++ name, base) = Some (a' ++ name', base')) by (rewrite <- (cut_last_app cSlash _ base Hb), <- E, E'; apply cut_last_app; exact Hb'). injection Y as Y _. congruence. }
  unfold unknown_place. split.
  - intros <-. exact H.
  - intros H2. destruct H as [(x & Hx & ->)|[Hx ->]], H2 as [(y & Hy & ->)|[Hy ->]]; [rewrite (HU x y Hx Hy); reflexivity | exfalso; exact (Hy x Hx) | exfalso; exact (Hx y Hy) | reflexivity].
Qed.
Lemma entry_path_iff k f p : w_path (set_unknown_path (unknown_dir k) f) = Some p <-> entry_path k f p.
Proof.
  unfold entry_path, set_unknown_path.
  assert (X : forall d, unknown_place k d <-> unknown_dir k = d) by (intros d; symmetry; apply unknown_dir_place).
  assert (Y : (exists d, unknown_place k d /\ p = d ++ lit "/" ++ hexl 16 (w_hash f) ++ match w_ext f with Some (c :: e) => lit "." ++ c :: e | _ => [] end) <->
    p = unknown_dir k ++ lit "/" ++ hexl 16 (w_hash f) ++ match w_ext f with Some (c :: e) => lit "." ++ c :: e | _ => [] end).
  { split; [intros (d & Hd & ->); apply X in Hd as <-; reflexivity | intros ->; exists (unknown_dir k); split; [apply X; reflexivity | reflexivity]]. }
  rewrite Y. destruct (w_path f) as [[|c q]|] eqn:Ep; cbn [truthy].
  2: { rewrite Ep. split; [intros E; injection E as <-; left; split; [reflexivity | discriminate] | intros [[E _]|[[E|E] _]]; [exact E | discriminate E | discriminate E]]. }
  all: destruct (w_ext f) as [[|c' e]|]; cbn [truthy set_path w_path]; rewrite ?app_nil_r; (split;
    [intros E; injection E as <-; right; auto | intros [[E H]|[_ ->]]; [congruence | reflexivity]]).
Qed.
Lemma not_exec_iff p : not_executable (Some p) = true <-> p <> [] /\ ~ executable p.
Proof.
  unfold executable, ends_with. rewrite <- !endswith_iff. unfold not_executable. destruct p as [|c p]; cbn [truthy]; [split; [discriminate | intros [H _]; congruence]|].
  destruct (endswith (c :: p) (lit ".exe")), (endswith (c :: p) (lit ".dll")); cbn [negb andb]; split; try discriminate; try (intros [_ H]; exfalso; apply H; auto; fail).
  intros _. split; [discriminate | intros [H|H]; discriminate H]. reflexivity.
Qed.
Lemma entry_nonempty k f p : entry_path k f p -> p <> [].
Proof.
  intros [[_ H]|(_ & d & Hd & ->)]; [exact H|]. intros E. destruct d; discriminate E.
Qed.

(** ** Files of the game *)

Lemma tuple_recent v b : by_lang v = Ok b -> (b = true <-> recent v).
Proof.
  unfold by_lang, recent, v_eq_str. destruct (eqbP (v_s v) (lit "main")) as [E|E].
  - intros H. injection H as <-. split; [auto | reflexivity].
  - assert (Ev : exists r, patch_version (ArgStr (lit "14.4")) = Ok r /\ v_t r = VNum [14; 4]%Z) by (eexists; split; vm_compute; reflexivity).
    destruct Ev as (r & -> & Er). cbn [rbind]. destruct (v_t v) as [|t] eqn:Et; intros H.
    + unfold v_ge in H. rewrite Et, Er in H. discriminate H.
    + destruct (v_cmp_spec v r t [14; 4]%Z Et Er) as (lt & le & gt & ge & _ & _ & _ & Hg & _ & _ & _ & H4). rewrite Hg in H. injection H as <-. rewrite H4. split.
      * intros X. right. exists t. auto.
      * intros [X|(t' & X & Y)]; [contradiction | injection X as <-; exact Y].
Qed.
Lemma by_lang_total v : patch_like v -> exists b, by_lang v = Ok b.
Proof.
  unfold by_lang, v_eq_str. intros [E|[t E]].
  - rewrite E. eexists. reflexivity.
  - destruct (eqb (v_s v) (lit "main")); [eauto|]. unfold v_ge. rewrite E. eexists. reflexivity.
Qed.
Lemma lang_find k : game_archive k ->
  match rfind lang_regex k with
  | Some s => exists l, lang_archive k l /\ sliceN s 1 6 = l
  | None => forall l, ~ lang_archive k l
  end.
Proof.
  intros [r Hk].
  assert (HM : forall s, (exists a, k = a ++ s) -> rmatch lang_regex s = true <-> exists x1 x2 x3 x4, one_line [x1; x2; cUnder; x3; x4] /\ s = lit "." ++ [x1; x2; cUnder; x3; x4] ++ lit ".wad.client").
  { intros s (a & Ha). unfold lang_regex. split.
    - destruct s as [|x0 [|x1 [|x2 [|u [|x3 [|x4 s]]]]]]; try (vm_compute; discriminate); cbn [app rmatch]; rewrite !andb_true_iff, ?negb_true_iff, ?N.eqb_eq, ?N.eqb_neq; try (intros H; exfalso; intuition discriminate).
      intros (-> & H1 & H2 & -> & H3 & H4 & H). apply rmatch_lit in H as (t & -> & H). apply rmatch_end in H as [-> | ->].
      + exists x1, x2, x3, x4. split; [|reflexivity]. intros [E|[E|[E|[E|[E|[]]]]]]; congruence || (vm_compute in E; discriminate E).
      + exfalso. rewrite Hk in Ha. apply (f_equal (@rev _)) in Ha. rewrite !rev_app_distr in Ha. vm_compute in Ha. discriminate Ha.
    - intros (x1 & x2 & x3 & x4 & Hl & ->). cbn [app rmatch lit]. cbn. rewrite !andb_true_iff, ?negb_true_iff, ?N.eqb_neq. unfold one_line in Hl. cbn [In] in Hl. intuition congruence. }
  assert (HF : match rfind lang_regex k with Some s => (exists a, k = a ++ s) /\ rmatch lang_regex s = true | None => forall a s, k = a ++ s -> rmatch lang_regex s = false end).
  { clear. induction k as [|x k IH]; cbn [rfind].
    - destruct (rmatch lang_regex []) eqn:E; [split; [exists []; reflexivity | exact E]|]. intros a s Es. symmetry in Es. apply app_eq_nil in Es as [_ ->]. exact E.
    - destruct (rmatch lang_regex (x :: k)) eqn:E; [split; [exists []; reflexivity | exact E]|]. destruct (rfind lang_regex k) as [s|].
      + destruct IH as [[a ->] IH]. split; [exists (x :: a); reflexivity | exact IH].
      + intros [|y a] s Es; [cbn in Es; subst s; exact E|]. injection Es as -> ->. apply (IH a s eq_refl). }
  destruct (rfind lang_regex k) as [s|].
  - destruct HF as [[a Ha] HF]. apply HM in HF as (x1 & x2 & x3 & x4 & Hl & ->); [|eauto]. exists [x1; x2; cUnder; x3; x4]. split; [exists a, x1, x2, x3, x4; auto | reflexivity].
  - intros l (a & x1 & x2 & x3 & x4 & -> & Hl & E). specialize (HF a _ E). assert (X : rmatch lang_regex (lit "." ++ [x1; x2; cUnder; x3; x4] ++ lit ".wad.client") = true) by (apply HM; eauto 8). congruence.
Qed.
Lemma lang_archive_fun k l l' : lang_archive k l -> lang_archive k l' -> l = l'.
Proof.
  intros (a & x1 & x2 & x3 & x4 & -> & _ & E) (a' & y1 & y2 & y3 & y4 & -> & _ & E'). rewrite E in E'. apply (f_equal (@rev _)) in E'. rewrite !rev_app_distr in E'. cbn in E'. injection E' as -> -> -> -> _. reflexivity.
Qed.
Lemma game_dir_iff v k d : patch_like v -> game_archive k -> subdir_of v k = d <-> game_dir v k d.
Proof.
  intros Hv Hk. destruct (by_lang_total v Hv) as [b Hb]. pose proof (tuple_recent v b Hb) as Hr. pose proof (lang_find k Hk) as Hl.
  unfold subdir_of, game_subdir. rewrite Hb. cbn [rbind]. unfold game_dir. destruct b.
  - apply proj1 in Hr. specialize (Hr eq_refl). destruct (rfind lang_regex k) as [s|].
    + destruct Hl as (l & Hl & ->). split; [intros <-; left; eauto|]. intros [(l' & _ & Hl' & ->)|[H _]]; [rewrite (lang_archive_fun k l l' Hl Hl'); reflexivity | exfalso; apply H; eauto].
    + split; [intros <-; right; split; [intros [_ [l H]]; exact (Hl l H) | reflexivity]|]. intros [(l' & _ & Hl' & _)|[_ ->]]; [exfalso; exact (Hl l' Hl') | reflexivity].
  - assert (Hn : ~ recent v) by (intros H; apply Hr in H; discriminate H). split; [intros <-; right; split; [intros [H _]; contradiction | reflexivity]|]. intros [(l' & H & _)|[_ ->]]; [contradiction | reflexivity].
Qed.
Lemma ext_lit p x : ~ In cSlash x -> ~ In cDot x -> eqb (snd (splitext p)) (cDot :: x) = true <-> has_ext p (cDot :: x).
Proof. intros H1 H2. rewrite eqb_str. apply ext_iff; assumption. Qed.
Lemma kept_ext_iff q : mem (snd (splitext q)) kept_exts = true <-> kept_ext q.
Proof.
  rewrite mem_In. unfold kept_ext. change ([lit ".png"; lit ".skn"; lit ".txt"; lit ".stringtable"; lit ".json"; lit ".ttf"; lit ".otf"]) with kept_exts.
  assert (H : forall x, In x kept_exts -> snd (splitext q) = x <-> has_ext q x).
  { assert (P : forall y, ~ In cSlash y -> ~ In cDot y -> snd (splitext q) = cDot :: y <-> has_ext q (cDot :: y)) by (intros y; apply ext_iff).
    intros x Hx. cbn [In kept_exts] in Hx. repeat (destruct Hx as [<-|Hx]; [refine (P _ _ _); vm_compute; intuition discriminate|]). destruct Hx. }
  split; [intros Hi; exists (snd (splitext q)); split; [exact Hi | apply H; [exact Hi | reflexivity]] | intros (x & Hx & He); apply H in He; [rewrite He; exact Hx | exact Hx]].
Qed.
Lemma bin_ext p : eqb (snd (splitext p)) (lit ".bin") = true <-> has_ext p (lit ".bin").
Proof. apply (ext_lit p (lit "bin")); vm_compute; intuition discriminate. Qed.
Lemma keep_loop : forall l b, filter_path_loop l b = true <->
  (exists l1 q l2, l = l1 ++ q :: l2 /\ (forall x, In x l1 -> ~ has_ext x (lit ".bin")) /\ has_ext q (lit ".bin") /\ ~ exists a c, q = a ++ lit "_skins_" ++ c) \/
  ((forall x, In x l -> ~ has_ext x (lit ".bin")) /\ (b = true \/ exists q, In q l /\ kept_ext q)).
Proof.
  induction l as [|p l IH]; intros b; cbn [filter_path_loop].
  - split; [intros ->; right; split; [intros x [] | auto] | intros [([|? ?] & q & l2 & E & _)|[_ [H|(q & [] & _)]]]; [discriminate E | discriminate E | exact H]].
  - pose proof (bin_ext p) as Hb. destruct (eqb (snd (splitext p)) (lit ".bin")).
    + apply proj1 in Hb. specialize (Hb eq_refl). pose proof (contains_iff (lit "_skins_") p) as Hc. split.
      * intros H. left. exists [], p, l. split; [reflexivity|]. split; [intros x []|]. split; [exact Hb|]. intros X. apply Hc in X. rewrite X in H. discriminate H.
      * intros [(l1 & q & l2 & E & H1 & H2 & H3)|[H _]]; [|exfalso; apply (H p); [left; reflexivity | exact Hb]]. destruct l1 as [|y l1]; [|injection E as <- _; exfalso; apply (H1 p); [left; reflexivity | exact Hb]].
        injection E as <- _. destruct (contains_str (lit "_skins_") p); [exfalso; apply H3, Hc; reflexivity | reflexivity].
    + assert (Hn : ~ has_ext p (lit ".bin")) by (intros X; apply Hb in X; discriminate X). rewrite IH, orb_true_iff, kept_ext_iff. split.
      * intros [(l1 & q & l2 & -> & H1 & H2)|[H1 H2]].
        -- left. exists (p :: l1), q, l2. split; [reflexivity|]. split; [intros x [<-|Hx]; auto | exact H2].
        -- right. split; [intros x [<-|Hx]; auto|]. destruct H2 as [[H2|H2]|(q & Hq & H2)]; [auto | right; exists p; split; [left; reflexivity | exact H2] | right; exists q; split; [right; exact Hq | exact H2]].
      * intros [(l1 & q & l2 & E & H1 & H2 & H3)|[H1 H2]].
        -- destruct l1 as [|y l1]; injection E as <- E; [contradiction|]. left. exists l1, q, l2. split; [exact E|]. split; [intros x Hx; apply H1; right; exact Hx | auto].
        -- right. split; [intros x Hx; apply H1; right; exact Hx|]. destruct H2 as [H2|(q & [<-|Hq] & H2)]; [auto | auto | right; eauto].
Qed.
Lemma kept_iff cs p : filter_path cs p = true <-> kept cs p.
Proof. unfold filter_path, kept. rewrite keep_loop. unfold converted_exported_paths. cbv zeta. split; (intros [H|[H1 H2]]; [left; exact H | right; split; [exact H1|]]); [destruct H2 as [H2|H2]; [discriminate H2 | exact H2] | right; exact H2]. Qed.

(** ** Selection *)

Section Sel.
  Variable cs : list conv.
  Variable v : version.
  Hypothesis Hv : patch_like v.

  Lemma selected_iff k f g : tr_keep cs k v f = true /\ g = tr_file k v f <-> selected cs v k f g.
  Proof.
    assert (HP : exists p, entry_path k f p /\ w_path (set_unknown_path (unknown_dir k) f) = Some p).
    { destruct (w_path (set_unknown_path (unknown_dir k) f)) as [p|] eqn:E; [exists p; split; [apply entry_path_iff; exact E | reflexivity]|].
      exfalso. unfold set_unknown_path in E. destruct (truthy (w_path f)) eqn:Et; [rewrite E in Et; discriminate Et|]. destruct (truthy (w_ext f)); discriminate E. }
    destruct HP as (p & Hp & Ep). assert (HU : forall q, entry_path k f q -> q = p) by (intros q Hq; apply entry_path_iff in Hq; congruence).
    assert (Hg : endswith k (lit ".wad.client") = true <-> game_archive k) by apply endswith_iff.
    unfold tr_keep, tr_file, tr_path, selected. rewrite Ep. cbn [path_text]. rewrite andb_true_iff, not_exec_iff. destruct (endswith k (lit ".wad.client")).
    - apply proj1 in Hg. specialize (Hg eq_refl). assert (Hd : forall d, subdir_of v k = d <-> game_dir v k d) by (intros d; apply game_dir_iff; assumption). split.
      + intros [[[_ Hx] Hk] ->]. exists p. split; [exact Hp|]. split; [exact Hx|]. right. split; [exact Hg|]. exists (subdir_of v k). split; [apply Hd; reflexivity|]. split; [apply kept_iff; exact Hk | reflexivity].
      + intros (q & Hq & Hx & [[H _]|(_ & d & H1 & H2 & ->)]); [contradiction|]. apply HU in Hq as ->. apply Hd in H1 as <-. split; [split; [split; [exact (entry_nonempty k f p Hp) | exact Hx] | apply kept_iff; exact H2] | reflexivity].
    - assert (Hn : ~ game_archive k) by (intros X; apply Hg in X; discriminate X). split.
      + intros [[[_ Hx] _] ->]. exists p. auto.
      + intros (q & Hq & Hx & [[_ ->]|(H & _)]); [|contradiction]. apply HU in Hq as ->. split; [split; [split; [exact (entry_nonempty k f p Hp) | exact Hx] | reflexivity] | reflexivity].
  Qed.
  Lemma files_iff k : forall files r, r = tr_files cs k v files <-> chosen_from (selected cs v k) files r.
  Proof.
    intros files r. split.
    - intros ->. induction files as [|f files IH]; [constructor|]. unfold tr_files. cbn [filter]. destruct (tr_keep cs k v f) eqn:E; cbn [map].
      + constructor; [apply selected_iff; auto | exact IH].
      + apply CF_no; [|exact IH]. intros g H. apply selected_iff in H as [H _]. congruence.
    - intros H. induction H as [|x y l r H1 H IH|x l r H1 H IH]; [reflexivity | |]; unfold tr_files; cbn [filter].
      + apply selected_iff in H1 as [H1 ->]. rewrite H1. cbn [map]. f_equal. exact IH.
      + destruct (tr_keep cs k v x) eqn:E; [|exact IH]. exfalso. apply (H1 (tr_file k v x)). apply selected_iff. auto.
  Qed.
  Lemma transform_total e : exists e', transform cs v e = Ok e'.
  Proof.
    unfold transform. match goal with |- context [rmapM ?g ?l] => assert (H : exists l', rmapM g l = Ok l') end.
    { match goal with |- context [rmapM _ ?l] => generalize l end. intros l. destruct (by_lang_total v Hv) as [b Hb]. induction l as [|[k w] l [l' IH]]; [eexists; reflexivity|]. cbn [rmapM].
      assert (Hw : exists r, game_wad cs v (k, w) = Ok r) by (unfold game_wad, game_subdir; rewrite Hb; destruct (endswith k (lit ".wad.client")); eexists; reflexivity).
      destruct Hw as [r ->]. cbn [rbind]. rewrite IH. eexists. reflexivity. }
    destruct H as [l' ->]. eexists. reflexivity.
  Qed.
End Sel.
