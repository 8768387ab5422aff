(** * The files of the client *)

From Verif Require Import Base.Py Base.PyFacts Base.Text Base.TextFacts Base.Utf8 Base.Regex Base.Re Model.Hashes Model.Patcher Model.Guess Model.Grep Model.Releases Model.GrepLcu.
From Verif Require Import Spec.HashesSpec Spec.Utf8Spec Spec.GrepLcuSpec Proofs.Utf8Proofs Proofs.HashesProofs Proofs.GuessProofs Proofs.GrepProofs Proofs.RadsDownloadProofs Proofs.ReProofs Proofs.GrepLcuProofs.

Lemma contains_iff key s : contains_str key s = true <-> exists a b, s = a ++ key ++ b.
Proof.
  induction s as [|c t IH]; cbn [contains_str].
  - rewrite orb_false_r, startswith_iff. split; [intros [r E]; exists [], r; exact E | intros (a & b & E); symmetry in E; apply app_eq_nil in E as [_ E]; exists b; symmetry; exact E].
  - rewrite orb_true_iff, startswith_iff, IH. split.
    + intros [[r E]|(a & b & ->)]; [exists [], r; exact E | exists (c :: a), b; reflexivity].
    + intros (a & b & E). destruct a as [|c' a]; [left; exists b; exact E | right]. cbn [app] in E. injection E as -> ->. eauto.
Qed.
Lemma jis_iff key v : jis key v = true <-> v = JStr key.
Proof. destruct v; cbn [jis]; try (split; [discriminate | intros F; discriminate F]). rewrite eqbT. split; congruence. Qed.
Lemma jin_iff key v : match jin key v with Ok b => container v /\ (b = true <-> has key v) | Err _ => ~ container v end.
Proof.
  unfold container. destruct v as [|b|z| |s|l|d]; cbn [jin]; try (intros [(d & F)|[(l & F)|(s & F)]]; discriminate F).
  - split; [eauto|]. rewrite contains_iff. split; [intros (a & b & ->); constructor | intros F; inversion F; eauto].
  - split; [eauto|]. rewrite existsb_exists. split.
    + intros (x & Hx & E). apply jis_iff in E as ->. constructor. exact Hx.
    + intros F. inversion F as [|? Hi|]; subst. exists (JStr key). split; [exact Hi | apply jis_iff; reflexivity].
  - split; [eauto|]. rewrite mem_In. unfold dkeys. split.
    + intros F. apply in_map_iff in F as ([k x] & <- & Hi). econstructor. exact Hi.
    + intros F. inversion F as [? x Hi| |]; subst. apply in_map_iff. exists (key, x). auto.
Qed.
Lemma has_container key v : has key v -> container v.
Proof. unfold container. intros F. inversion F; eauto. Qed.
Lemma jboth_iff a b v : match jboth a b v with Ok x => container v /\ (x = true <-> has a v /\ has b v) | Err _ => ~ container v end.
Proof.
  unfold jboth. pose proof (jin_iff a v) as HA. destruct (jin a v) as [x|e]; cbn [rbind]; [|exact HA]. destruct HA as [HC HA]. destruct x.
  - pose proof (jin_iff b v) as HB. destruct (jin b v) as [x|e]; [|exact HB]. destruct HB as [_ HB]. split; [exact HC|]. tauto.
  - split; [exact HC|]. split; [discriminate|]. intros [F _]. apply HA in F. discriminate.
Qed.
Lemma jget_iff key v x : jget key v = Ok x <-> field key v x.
Proof.
  unfold field. destruct v as [|b|z| |s|l|d]; cbn [jget]; try (split; [discriminate | intros (a & d & F & _); discriminate F]).
  assert (HD : dget key d = Some x <-> exists a d', d = a ++ (key, x) :: d' /\ forall y, ~ In (key, y) a).
  { induction d as [|[k y] d IH]; cbn [dget].
    - split; [discriminate|]. intros (a & d' & F & _). destruct a; discriminate.
    - destruct (eqbP key k) as [<-|Hk].
      + split; [intros E; injection E as ->; exists [], d; split; [reflexivity | intros ? []]|]. intros (a & d' & E & Ha). destruct a as [|[k' y'] a]; cbn [app] in E; [congruence|]. injection E as <- <- _. destruct (Ha y). left. reflexivity.
      + rewrite IH. split.
        * intros (a & d' & -> & Ha). exists ((k, y) :: a), d'. split; [reflexivity|]. intros z [F|F]; [congruence | exact (Ha z F)].
        * intros (a & d' & E & Ha). destruct a as [|[k' y'] a]; cbn [app] in E; [congruence|]. injection E as <- <- ->. exists a, d'. split; [reflexivity|]. intros z F. apply (Ha z). right. exact F. }
  unfold of_opt. split.
  - intros E. destruct (dget key d) as [y|] eqn:F; [|discriminate]. injection E as ->. destruct (proj1 HD eq_refl) as (a & d' & -> & Ha). eauto.
  - intros (a & d' & E & Ha). injection E as ->. rewrite (proj2 HD); [reflexivity | eauto].
Qed.
Lemma jiter_iff v l : jiter v = Ok l <-> items v l.
Proof. destruct v; cbn [jiter]; split; intros F; try discriminate; try (injection F as <-; constructor); inversion F; reflexivity. Qed.
Lemma jiter_container v : container v <-> exists l, jiter v = Ok l.
Proof.
  unfold container. split.
  - intros [(d & ->)|[(l & ->)|(s & ->)]]; cbn [jiter]; eauto.
  - intros (l & E). destruct v; cbn [jiter] in E; try discriminate; eauto.
Qed.

Section Files.
  Variable word : N -> bool.
  Hypothesis WO : word_ok word.
  Variable ulower : str -> str.
  Variable loads : str -> result (option json).
  Variable show : json -> str.

  Lemma found_shape M b s vs g : found M b s vs -> In g vs -> exists b' t r, M b' t g r.
  Proof. induction 1 as [|b t v r vs Hm F IH|b c s vs Hn F IH]; intros Hg; [destruct Hg | destruct Hg as [<-|Hg]; eauto | auto]. Qed.
  Lemma found_In r M s g : describes word r M -> In g (found_in word r s) <-> exists vs, found M None s vs /\ In g vs.
  Proof.
    intros HD. split.
    - intros Hg. exists (found_in word r s). split; [apply (found_in_iff word r M s _ HD); reflexivity | exact Hg].
    - intros (vs & Hf & Hg). apply (found_in_iff word r M s vs HD) in Hf. congruence.
  Qed.
  Lemma found_one r M s (Q : str -> Prop) : describes word r M -> (forall b t v r, M b t v r -> exists q, v = [q]) ->
    (exists g, Q (group1 g) /\ In g (found_in word r s)) <-> exists vs q, found M None s vs /\ In [q] vs /\ Q q.
  Proof.
    intros HD HS. split.
    - intros (g & HQ & Hg). apply (found_In r M s g HD) in Hg as (vs & Hf & Hg). destruct (found_shape M None s vs g Hf Hg) as (b & t & r' & Hm). apply HS in Hm as (q & ->). exists vs, q. auto.
    - intros (vs & q & Hf & Hg & HQ). exists [q]. split; [exact HQ|]. apply (found_In r M s [q] HD). eauto.
  Qed.
  Lemma text_paths_In s q : In q (text_paths word ulower s) <-> path_in word ulower s q.
  Proof.
    unfold text_paths. rewrite !in_app_iff, !in_map_iff. split.
    - intros [(g & <- & Hg)|[(g & <- & Hg)|(g & <- & Hg)]].
      + apply (found_In _ _ _ _ (fe_describes word WO)) in Hg as (vs & Hf & Hg). destruct (found_shape _ None s vs g Hf Hg) as (b & t & r & p & q & -> & _). econstructor; eassumption.
      + apply (found_In _ _ _ _ (data_describes word)) in Hg as (vs & Hf & Hg). destruct (found_shape _ None s vs g Hf Hg) as (b & t & r & q & -> & _). econstructor; eassumption.
      + apply (found_In _ _ _ _ (assets_describes word WO)) in Hg as (vs & Hf & Hg). destruct (found_shape _ None s vs g Hf Hg) as (b & t & r & q & -> & _). econstructor 3; eassumption.
    - intros [vs p q' Hf Hg|vs q' Hf Hg|vs q' Hf Hg].
      + left. exists [p; q']. split; [reflexivity|]. apply (found_In _ _ _ _ (fe_describes word WO)). eauto.
      + right. left. exists [q']. split; [reflexivity|]. apply (found_In _ _ _ _ (data_describes word)). eauto.
      + right. right. exists [q']. split; [reflexivity|]. apply (found_In _ _ _ _ (assets_describes word WO)). eauto.
  Qed.
  Lemma text_relpaths_In s q : In q (map ulower (text_relpaths word s)) <-> name_in word ulower s q.
  Proof.
    unfold text_relpaths. rewrite !map_app, !map_map, !in_app_iff, !in_map_iff. split.
    - intros [(g & <- & Hg)|[(g & <- & Hg)|[(g & <- & Hg)|(g & <- & Hg)]]].
      + apply (found_In _ _ _ _ (relative_describes word)) in Hg as (vs & Hf & Hg). destruct (found_shape _ None s vs g Hf Hg) as (b & t & r & c & d & q & -> & _). econstructor; eassumption.
      + apply (found_In _ _ _ _ (named_describes word WO)) in Hg as (vs & Hf & Hg). destruct (found_shape _ None s vs g Hf Hg) as (b & t & r & c & q & -> & _). econstructor 2; eassumption.
      + apply (found_In _ _ _ _ (template_describes word)) in Hg as (vs & Hf & Hg). destruct (found_shape _ None s vs g Hf Hg) as (b & t & r & c & q & -> & _). econstructor 3; eassumption.
      + apply (found_In _ _ _ _ (map_describes word)) in Hg as (vs & Hf & Hg). destruct (found_shape _ None s vs g Hf Hg) as (b & t & r & q & -> & _). econstructor 4; eassumption.
    - intros [vs q' Hf Hg|vs q' Hf Hg|vs q' Hf Hg|vs q' Hf Hg].
      + left. exists [q']. split; [reflexivity|]. apply (found_In _ _ _ _ (relative_describes word)). eauto.
      + right. left. exists [q']. split; [reflexivity|]. apply (found_In _ _ _ _ (named_describes word WO)). eauto.
      + right. right. left. exists [q']. split; [reflexivity|]. apply (found_In _ _ _ _ (template_describes word)). eauto.
      + right. right. right. exists [q']. split; [reflexivity|]. apply (found_In _ _ _ _ (map_describes word)). eauto.
  Qed.

  Lemma text_of_iff v s : text_of show v s <-> jtext show v = s.
  Proof.
    unfold text_of. destruct v; cbn [jtext]; split; intros F; try (destruct F as [F|[_ F]]; [discriminate F | congruence]); try (right; split; [intros ? F'; discriminate F' | congruence]).
    - destruct F as [F|[F _]]; [congruence | destruct (F s0); reflexivity].
    - left. congruence.
  Qed.
  Lemma splash_names_In paths n : In n (set_of (map (fun g => ulower (group1 g)) (flat_map (found_in word re_splash) paths))) <-> splash_name ulower paths n.
  Proof.
    rewrite set_of_In, in_map_iff. unfold splash_name. split.
    - intros (g & <- & Hg). apply in_flat_map in Hg as (p & Hp & Hg). apply (found_In _ _ _ _ (splash_describes word)) in Hg as (vs & Hf & Hg). destruct (found_shape _ None p vs g Hf Hg) as (b & t & r & q & -> & _). exists p, vs, q. auto.
    - intros (p & vs & q & Hp & Hf & Hg & ->). exists [q]. split; [reflexivity|]. apply in_flat_map. exists p. split; [exact Hp|]. apply (found_In _ _ _ _ (splash_describes word)). eauto.
  Qed.
  Lemma strs_iff l paths : rmapM jstr l = Ok paths <-> l = map JStr paths.
  Proof.
    rewrite rmapM_Ok. split.
    - induction 1 as [|x y l l' E F IH]; [reflexivity|]. cbn [map]. destruct x; cbn [jstr] in E; try discriminate. injection E as ->. congruence.
    - intros ->. induction paths; constructor; [reflexivity | assumption].
  Qed.
  Lemma splash_files_iff v paths : splash_files v paths <-> exists fs vals, jget (lit "files") v = Ok fs /\ jvalues fs = Ok vals /\ rmapM jstr vals = Ok paths.
  Proof.
    unfold splash_files. split.
    - intros (d & Hd & E). exists (JObj d), (map snd d). split; [apply jget_iff; exact Hd|]. split; [reflexivity | apply strs_iff; exact E].
    - intros (fs & vals & Hf & Hv & Hs). destruct fs; cbn [jvalues] in Hv; try discriminate. injection Hv as <-. apply strs_iff in Hs. exists d. split; [apply jget_iff; exact Hf | exact Hs].
  Qed.

  Lemma kind_fun path v k k' : kind_of path v k -> kind_of path v k' -> k = k'.
  Proof.
    assert (HT : trans_file <> summary_file) by discriminate. intros H1 H2. destruct H1; inversion H2; subst; try reflexivity; try contradiction; try congruence; exfalso.
  Qed.

  Notation jp := (json_path ulower show).
  Definition no_err (l : list (result str)) : Prop := forall x, ~ In (Err x) l.
  Lemma no_err_map {A} (f : A -> str) l : no_err (map (fun x => Ok (f x)) l).
  Proof. intros x F. apply in_map_iff in F as (y & F & _). discriminate. Qed.
  Lemma no_err_app l l' : no_err (l ++ l') <-> no_err l /\ no_err l'.
  Proof. unfold no_err. split; [intros F; split; intros x Hx; apply (F x), in_or_app; auto | intros [F G] x Hx; apply in_app_or in Hx as [Hx|Hx]; [exact (F x Hx) | exact (G x Hx)]]. Qed.
  Definition outcome (path : option str) (v : json) (r : result (list (result str) * bool)) : Prop :=
    match r with
    | Ok (l, more) => container v /\ exists k, kind_of path v k /\ (forall q, In (Ok q) l <-> jp v k q) /\ (no_err l <-> json_ok v k) /\ (more = true <-> k <> KTrans /\ k <> KSplash)
    | Err _ => ~ container v \/ exists k, kind_of path v k /\ ~ json_ok v k
    end.
  Lemma json_paths_outcome path v : outcome path v (json_paths word ulower show path v).
  Proof.
    unfold json_paths. destruct (eqbP path (Some trans_path)) as [->|Hp].
    { destruct (jiter v) as [l|e] eqn:E; cbn [rbind outcome].
      - assert (HC : container v) by (apply jiter_container; eauto). split; [exact HC|]. exists KTrans. split; [constructor; reflexivity|]. split; [|split; [split; [intros _; constructor; exact HC | intros _; apply no_err_map] | split; [discriminate | intros [F _]; congruence]]].
        intros q. rewrite in_map_iff. split.
        + intros (k & F & Hk). injection F as <-. eapply jp_trans; [apply jiter_iff; exact E | exact Hk | apply text_of_iff; reflexivity].
        + intros F. inversion F as [l' k s Hi Hk Ht| | | |]; subst. apply jiter_iff in Hi. assert (l' = l) as -> by congruence. apply text_of_iff in Ht as <-. exists k. auto.
      - left. intros F. apply jiter_container in F as (l & F). congruence. }
    pose proof (jboth_iff (lit "pluginDependencies") (lit "name") v) as HB. destruct (jboth (lit "pluginDependencies") (lit "name") v) as [x|e]; cbn [rbind outcome]; [|left; exact HB]. destruct HB as [HC HP]. fold (plugin_like v) in HP. destruct x.
    { destruct (jget (lit "name") v) as [name|e] eqn:E; cbn [rbind outcome].
      - split; [exact HC|]. exists KPlugin. split; [constructor; [exact Hp | apply HP; reflexivity]|]. apply jget_iff in E. split; [|split; [split; [intros _; econstructor; exact E | intros _; apply no_err_map] | split; [intros _; split; discriminate | reflexivity]]].
        intros q. rewrite in_map_iff. split.
        + intros (f & F & Hf). injection F as <-. eapply jp_plugin; [exact E | apply text_of_iff; reflexivity | exact Hf].
        + intros F. inversion F as [|x s f Hx Ht Hf| | |]; subst. apply jget_iff in E, Hx. assert (x = name) as -> by congruence. apply text_of_iff in Ht as <-. exists f. auto.
      - right. exists KPlugin. split; [constructor; [exact Hp | apply HP; reflexivity]|]. intros F. inversion F as [|x Hx| | | |]. apply jget_iff in Hx. congruence. }
    assert (HP' : ~ plugin_like v) by (intros F; apply HP in F; discriminate). clear HP.
    pose proof (jboth_iff (lit "musicVolume") (lit "files") v) as HB. destruct (jboth (lit "musicVolume") (lit "files") v) as [x|e]; cbn [rbind outcome]; [|left; exact HB]. destruct HB as [_ HS]. fold (splash_like v) in HS. destruct x.
    { assert (HK : kind_of path v KSplash) by (constructor; [exact Hp | exact HC | exact HP' | apply HS; reflexivity]).
      destruct (jget (lit "files") v) as [fs|e] eqn:E1; cbn [rbind outcome]; [|right; exists KSplash; split; [exact HK|]; intros F; inversion F as [| |ps Hs| | |]; apply splash_files_iff in Hs as (fs & vals & F1 & _); congruence].
      destruct (jvalues fs) as [vals|e] eqn:E2; cbn [rbind outcome]; [|right; exists KSplash; split; [exact HK|]; intros F; inversion F as [| |ps Hs| | |]; apply splash_files_iff in Hs as (fs' & vals & F1 & F2 & _); congruence].
      destruct (rmapM jstr vals) as [paths|e] eqn:E3; cbn [rbind outcome]; [|right; exists KSplash; split; [exact HK|]; intros F; inversion F as [| |ps Hs| | |]; apply splash_files_iff in Hs as (fs' & vals' & F1 & F2 & F3); congruence].
      assert (HF : splash_files v paths) by (apply splash_files_iff; eauto). split; [exact HC|]. exists KSplash. split; [exact HK|].
      split; [|split; [split; [intros _; econstructor; exact HF | intros _; apply no_err_map] | split; [discriminate | intros [_ F]; congruence]]].
      intros q. rewrite in_map_iff. split.
      + intros (q' & F & Hq). injection F as ->. apply in_app_or in Hq as [Hq|Hq].
        * apply in_map_iff in Hq as (n & <- & Hn). apply splash_names_In in Hn. unfold splash_dir. rewrite <- !app_assoc. apply (jp_splash ulower show v paths n (lit "config.json") HF Hn). left. reflexivity.
        * apply in_flat_map in Hq as (n & Hn & Hq). apply in_map_iff in Hq as (p & <- & Hq). apply splash_names_In in Hn. unfold splash_dir. rewrite <- !app_assoc. apply (jp_splash ulower show v paths n (ulower p) HF Hn). right. eauto.
      + intros F. inversion F as [| |paths' n f Hs Hn Hf| |]; subst. apply splash_files_iff in Hs as (fs' & vals' & F1 & F2 & F3). assert (paths' = paths) as -> by congruence. eexists. split; [reflexivity|]. apply in_or_app. apply splash_names_In in Hn. destruct Hf as [->|(p & Hp' & ->)].
        * left. apply in_map_iff. exists n. split; [unfold splash_dir; rewrite <- !app_assoc; reflexivity | exact Hn].
        * right. apply in_flat_map. exists n. split; [exact Hn|]. apply in_map_iff. exists p. split; [unfold splash_dir; rewrite <- !app_assoc; reflexivity | exact Hp']. }
    assert (HS' : ~ splash_like v) by (intros F; apply HS in F; discriminate). clear HS.
    destruct (eqbP path (Some summary_path)) as [->|Hq].
    { assert (HK : kind_of (Some summary_path) v KSummary) by (constructor; [reflexivity | exact HC | exact HP' | exact HS']).
      destruct (jiter v) as [l|e] eqn:E; cbn [rbind outcome]; [|exfalso; apply jiter_container in HC as (l & F); congruence]. destruct (rmapM (jget (lit "id")) l) as [ids|e] eqn:E1; cbn [rbind outcome].
      - apply rmapM_Ok in E1. split; [exact HC|]. exists KSummary. split; [exact HK|]. assert (HA : forall y, In y l -> exists i, field (lit "id") y i /\ In i ids).
        { clear - E1. induction E1 as [|y i l ids E F IH]; intros z Hz; [destruct Hz|]. destruct Hz as [<-|Hz]; [exists i; split; [apply jget_iff; exact E | left; reflexivity]|]. destruct (IH z Hz) as (i' & H1 & H2). exists i'. split; [exact H1 | right; exact H2]. }
        assert (HB : forall i, In i ids -> exists y, In y l /\ field (lit "id") y i).
        { clear - E1. induction E1 as [|y i l ids E F IH]; intros z Hz; [destruct Hz|]. destruct Hz as [<-|Hz]; [exists y; split; [left; reflexivity | apply jget_iff; exact E]|]. destruct (IH z Hz) as (i' & H1 & H2). exists i'. split; [right; exact H1 | exact H2]. }
        assert (HA' : forall y, In y l -> exists i, field (lit "id") y i) by (intros y Hy; destruct (HA y Hy) as (i & Hi & _); eauto). apply jiter_iff in E.
        split; [|split; [split; [intros _; econstructor; [exact E | exact HA'] | intros _; apply no_err_app; split; apply no_err_map] | split; [intros _; split; discriminate | reflexivity]]].
        intros q. rewrite in_app_iff, !in_map_iff. split.
        + intros F. assert (HI : exists i, In i ids /\ (q = base ++ lit "/v1/champions/" ++ jtext show i ++ lit ".json" \/ q = base ++ lit "/v1/champion-splashes/" ++ jtext show i ++ lit "/metadata.json")).
          { destruct F as [(i & F & Hi)|(i & F & Hi)]; injection F as <-; exists i; auto. }
          destruct HI as (i & Hi & HQ). destruct (HB i Hi) as (y & Hy & Hf). eapply jp_summary; [exact E | exact HA' | exact Hy | exact Hf | apply text_of_iff; reflexivity | exact HQ].
        + intros F. inversion F as [| | |l' k x s q' Hi Hall Hk Hx Ht HQ|]; subst. apply jiter_iff in E, Hi. assert (l' = l) as -> by congruence. destruct (HA k Hk) as (i & Hf & Hi'). apply jget_iff in Hf, Hx. assert (x = i) as -> by congruence. apply text_of_iff in Ht as <-.
          destruct HQ as [->| ->]; [left | right]; exists i; auto.
      - right. exists KSummary. split; [exact HK|]. intros F. inversion F as [| | |l' Hi Hall| |]. apply jiter_iff in Hi. assert (l' = l) as -> by congruence. apply rmapM_Err in E1 as (y & Hy & E1). destruct (Hall y Hy) as (i & Hf). apply jget_iff in Hf. congruence. }
    pose proof (jin_iff (lit "recommendedItemDefaults") v) as HB. destruct (jin (lit "recommendedItemDefaults") v) as [x|e]; cbn [rbind outcome]; [|left; exact HB]. destruct HB as [_ HI]. destruct x.
    - assert (HK : kind_of path v KItems) by (constructor; try assumption; apply HI; reflexivity).
      destruct (jget (lit "recommendedItemDefaults") v) as [w|e] eqn:E; cbn [rbind outcome]; [|right; exists KItems; split; [exact HK|]; intros F; inversion F as [| | | |w l Hw _ _|]; apply jget_iff in Hw; congruence].
      destruct (jiter w) as [l|e] eqn:E1; cbn [rbind outcome]; [|right; exists KItems; split; [exact HK|]; intros F; inversion F as [| | | |w' l Hw Hi _|]; apply jget_iff in Hw; assert (w' = w) as -> by congruence; apply jiter_iff in Hi; congruence].
      split; [exact HC|]. exists KItems. split; [exact HK|]. apply jget_iff in E. apply jiter_iff in E1. split; [|split; [|split; [intros _; split; discriminate | reflexivity]]].
      + intros q. rewrite in_map_iff. split.
        * intros (p & F & Hl). destruct p; try discriminate. injection F as <-. eapply jp_items; eassumption.
        * intros F. inversion F as [| | | |w' l' s Hw Hi Hl]; subst. apply jget_iff in E, Hw. assert (w' = w) as -> by congruence. apply jiter_iff in E1, Hi. assert (l' = l) as -> by congruence. exists (JStr s). auto.
      + split.
        * intros F. econstructor; [exact E | exact E1|]. intros y Hy. destruct y; try (exfalso; apply (F AttributeError); apply in_map_iff; eexists; split; [|exact Hy]; reflexivity). eauto.
        * intros F x Hx. inversion F as [| | | |w' l' Hw Hi Hl|]; subst. apply jget_iff in E, Hw. assert (w' = w) as -> by congruence. apply jiter_iff in E1, Hi. assert (l' = l) as -> by congruence. apply in_map_iff in Hx as (y & Hx & Hy). destruct (Hl y Hy) as (s & ->). discriminate.
    - split; [exact HC|]. exists KOther. split; [constructor; try assumption; intros F; apply HI in F; discriminate|]. split; [|split; [split; [intros _; constructor | intros _ x []] | split; [intros _; split; discriminate | reflexivity]]].
      intros q. split; [intros [] | intros F; inversion F].
  Qed.

  Lemma bom_start s : Forall scalar s -> startswith (utf8_enc s) bom = true <-> hd_error s = Some 65279.
  Proof.
    intros Hs. rewrite startswith_iff. assert (EB : bom = utf8_enc [65279]) by reflexivity. split.
    - intros [r E]. pose proof (utf8_dec_enc s Hs) as HD. rewrite E, EB, utf8_dec_app in HD by (constructor; [right; lia | constructor]). destruct (utf8_dec r) as [t|]; [|discriminate]. cbn [rmap rbind] in HD. injection HD as <-. reflexivity.
    - intros E. destruct s as [|c s]; [discriminate|]. cbn [hd_error] in E. injection E as ->. exists (utf8_enc s). reflexivity.
  Qed.
  Lemma drop_prefix_app {A} (a b : list A) : drop_prefix a (a ++ b) = b.
  Proof. unfold drop_prefix. apply dropN_app_exact. Qed.
  Lemma readable_iff e : readable e <-> ext_in lcu_skipped e = false.
  Proof.
    unfold readable, ext_in. destruct (en_ext e) as [x|]; [|split; [reflexivity | intros _ y F; discriminate]]. rewrite mem_false. split; [intros F; exact (F x eq_refl) | intros F y E; injection E as <-; exact F].
  Qed.
  Lemma file_text_iff e s : file_text e = Ok (Some s) <-> has_text e s.
  Proof.
    unfold file_text, has_text. rewrite readable_iff. destruct (ext_in lcu_skipped e); [split; [discriminate | intros [F _]; discriminate]|]. split.
    - intros E. split; [reflexivity|]. destruct (en_data e) as [[b|]|x]; [|discriminate|destruct x; discriminate]. unfold without_bom in E. destruct (startswith b bom) eqn:EB.
      + apply startswith_iff in EB as [r ->]. rewrite (drop_prefix_app bom r) in E. destruct (utf8_dec r) as [t|x] eqn:ED; [|destruct x; discriminate]. destruct t as [|c t]; [discriminate|]. injection E as <-. apply utf8_dec_sound in ED as [Hs ->]. split; [discriminate|]. split; [exact Hs|]. left. reflexivity.
      + destruct (utf8_dec b) as [t|x] eqn:ED; [|destruct x; discriminate]. destruct t as [|c t]; [discriminate|]. injection E as <-. apply utf8_dec_sound in ED as [Hs ->]. split; [discriminate|]. split; [exact Hs|]. right. split; [reflexivity|]. intros F. apply (bom_start _ Hs) in F. congruence.
    - intros (_ & Hn & Hs & [->|[-> Hb]]).
      + change (xef :: xbb :: xbf :: utf8_enc s) with (bom ++ utf8_enc s). unfold without_bom. rewrite startswith_app, drop_prefix_app, utf8_dec_enc by exact Hs. destruct s; [contradiction | reflexivity].
      + unfold without_bom. destruct (startswith (utf8_enc s) bom) eqn:EB; [apply (bom_start s Hs) in EB; contradiction|]. rewrite utf8_dec_enc by exact Hs. destruct s; [contradiction | reflexivity].
  Qed.
  Lemma file_text_Err e : (exists x, file_text e = Err x) <-> readable e /\ (en_data e = Ok None \/ exists x, en_data e = Err x /\ x <> UnicodeDecodeError).
  Proof.
    unfold file_text. rewrite readable_iff. destruct (ext_in lcu_skipped e); [split; [intros [x F]; discriminate | intros [F _]; discriminate]|]. destruct (en_data e) as [[b|]|x].
    - destruct (utf8_dec (without_bom b)) as [t|y] eqn:ED; [destruct t|apply utf8_dec_error in ED as ->]; (split; [intros [x F]; discriminate | intros [_ [F|(x & F & _)]]; discriminate]).
    - split; [intros _; split; [reflexivity | left; reflexivity] | intros _; eauto].
    - split.
      + intros [y F]. split; [reflexivity|]. right. exists x. split; [reflexivity|]. intros ->. discriminate.
      + intros [_ [F|(y & F & Hy)]]; [discriminate|]. injection F as ->. exists y. destruct y; try reflexivity. contradiction.
  Qed.

  Notation fails := (lcu_fails loads).
  Notation lpath := (lcu_path word ulower loads show).
  Notation lname := (lcu_name word ulower loads).
  Notation lcu := (entry_lcu word ulower loads show).
  Lemma text_fun e s s' : has_text e s -> has_text e s' -> s = s'.
  Proof. intros F G. apply file_text_iff in F, G. congruence. Qed.
  (** What is found in an entry. *)
  Lemma entry_cases e :
    (fails e <-> exists x, In (Err x) (fst (lcu e))) /\
    (forall q, In (Ok q) (fst (lcu e)) -> lpath e q) /\ (forall q, In q (map ulower (snd (lcu e))) -> lname e q) /\
    (~ fails e -> (forall q, lpath e q -> In (Ok q) (fst (lcu e))) /\ forall q, lname e q -> In q (map ulower (snd (lcu e)))).
  Proof.
    unfold entry_lcu. destruct (file_text e) as [[s|]|x] eqn:ET.
    - apply file_text_iff in ET. assert (NE : ~ exists x, file_text e = Err x) by (apply file_text_iff in ET; intros [x F]; congruence). rewrite file_text_Err in NE.
      assert (HF : fails e <-> en_ext e = Some (lit "json") /\ ((exists x, loads s = Err x) \/ exists v, json_of loads e s v /\ (~ container v \/ exists k, kind_of (en_path e) v k /\ ~ json_ok v k))).
      { split.
        - intros [x Hr Hd Hx|Hr Hd|s' x Ht He Hl|s' v Ht Hj Hc|s' v k Ht Hj Hk Ho].
          + destruct NE. split; [exact Hr | right; eauto].
          + destruct NE. split; [exact Hr | left; exact Hd].
          + assert (s' = s) as -> by (eapply text_fun; eassumption). eauto.
          + assert (s' = s) as -> by (eapply text_fun; eassumption). split; [apply Hj|]. right. eauto.
          + assert (s' = s) as -> by (eapply text_fun; eassumption). split; [apply Hj|]. right. eauto 6.
        - intros [He [(x & Hx)|(v & Hj & [Hc|(k & Hk & Ho)])]]; [eapply lf_loads; eassumption | eapply lf_scalar; eassumption | eapply lf_json; eassumption]. }
      assert (HJ : forall l more, (exists v k, json_of loads e s v /\ container v /\ kind_of (en_path e) v k /\ (forall q, In (Ok q) l <-> jp v k q) /\ (no_err l <-> json_ok v k) /\ (more = true <-> k <> KTrans /\ k <> KSplash)) \/
          ((forall v, ~ json_of loads e s v) /\ l = [] /\ more = true /\ ~ fails e) ->
        (fails e <-> exists x, In (Err x) l) /\ (forall q, In (Ok q) l -> lpath e q) /\ (more = true <-> searched loads e s) /\ (forall q, lpath e q -> In (Ok q) l \/ more = true /\ path_in word ulower s q)).
      { intros l more [(v & k & Hj & Hc & Hk & HP & HO & HM)|(Hv & -> & -> & Hf)].
        - assert (HV : forall v', json_of loads e s v' -> v' = v) by (intros v' (_ & E & _); destruct Hj as (_ & E' & _); congruence).
          assert (HS : more = true <-> searched loads e s).
          { rewrite HM. split.
            - intros HN. split; [exact ET|]. intros v' k' Hj' Hk'. apply HV in Hj' as ->. rewrite <- (kind_fun _ _ _ _ Hk Hk'). exact HN.
            - intros [_ HN]. exact (HN v k Hj Hk). }
          split; [|split; [|split; [exact HS|]]].
          + rewrite HF. split.
            * intros [_ [(x & Hx)|(v' & Hj' & Hx)]]; [destruct Hj as (_ & E & _); congruence|]. apply HV in Hj' as ->. destruct Hx as [Hx|(k' & Hk' & Ho)]; [contradiction|]. rewrite <- (kind_fun _ _ _ _ Hk Hk') in Ho.
              destruct (existsb (fun r => match r with Err _ => true | Ok _ => false end) l) eqn:EX.
              -- apply existsb_exists in EX as ([q|x] & Hx & F); [discriminate | eauto].
              -- destruct Ho. apply HO. intros x Hx. assert (F : existsb (fun r : result str => match r with Err _ => true | Ok _ => false end) l = true); [apply existsb_exists; eauto | congruence].
            * intros (x & Hx). split; [apply Hj|]. right. exists v. split; [exact Hj|]. right. exists k. split; [exact Hk|]. intros F. apply HO in F. exact (F x Hx).
          + intros q Hq. apply HP in Hq. eapply lp_json; eassumption.
          + intros q [s' v' k' q' Ht Hj' Hk' Hq|s' q' Hs Hq].
            * assert (s' = s) as -> by (eapply text_fun; eassumption). apply HV in Hj' as ->. rewrite <- (kind_fun _ _ _ _ Hk Hk') in Hq. left. apply HP. exact Hq.
            * assert (s' = s) as -> by (eapply text_fun; [apply Hs | exact ET]). right. split; [apply HS; exact Hs | exact Hq].
        - split; [split; [intros F; contradiction | intros (x & [])]|]. split; [intros q []|]. split.
          + split; [|reflexivity]. intros _. split; [exact ET|]. intros v k Hj. destruct (Hv v Hj).
          + intros q [s' v' k' q' Ht Hj' Hk' Hq|s' q' Hs Hq]; [assert (s' = s) as -> by (eapply text_fun; eassumption); destruct (Hv v' Hj')|]. assert (s' = s) as -> by (eapply text_fun; [apply Hs | exact ET]). right. auto. }
      assert (HE : match json_part word ulower loads show e s with
        | Ok (l, more) => (exists v k, json_of loads e s v /\ container v /\ kind_of (en_path e) v k /\ (forall q, In (Ok q) l <-> jp v k q) /\ (no_err l <-> json_ok v k) /\ (more = true <-> k <> KTrans /\ k <> KSplash)) \/
            ((forall v, ~ json_of loads e s v) /\ l = [] /\ more = true /\ ~ fails e)
        | Err _ => fails e end).
      { unfold json_part. destruct (eqbP (en_ext e) (Some (lit "json"))) as [Ee|Ee].
        - assert (HN : forall r, loads s = Ok r -> r = None \/ r = Some JNull -> (forall v, ~ json_of loads e s v) /\ ~ fails e).
          { intros r El Hr. assert (HV : forall v, ~ json_of loads e s v) by (intros v (_ & F & F'); destruct Hr; congruence). split; [exact HV|]. rewrite HF. intros [_ [(x & F)|(v & F & _)]]; [congruence | exact (HV v F)]. }
          destruct (loads s) as [[v|]|x] eqn:El; cbn [rbind].
          + destruct (eqbP true (match v with JNull => true | _ => false end)) as [Ev|Ev].
            * assert (v = JNull) as -> by (destruct v; congruence). right. destruct (HN _ eq_refl (or_intror eq_refl)) as [H1 H2]. auto.
            * assert (Hj : json_of loads e s v) by (split; [exact Ee|]; split; [exact El | intros ->; congruence]).
              assert (EM : (match v with JNull => Ok ([], true) | _ => json_paths word ulower show (en_path e) v end) = json_paths word ulower show (en_path e) v) by (destruct v; [congruence | reflexivity ..]). rewrite EM.
              pose proof (json_paths_outcome (en_path e) v) as HO. destruct (json_paths word ulower show (en_path e) v) as [[l more]|x]; cbn [outcome] in HO.
              -- left. destruct HO as (Hc & k & HO). exists v, k. tauto.
              -- apply HF. split; [exact Ee|]. right. exists v. auto.
          + right. destruct (HN _ eq_refl (or_introl eq_refl)) as [H1 H2]. auto.
          + apply HF. split; [exact Ee|]. left. eauto.
        - right. split; [intros v [F _]; contradiction|]. split; [reflexivity|]. split; [reflexivity|]. rewrite HF. intros [F _]. contradiction. }
      assert (HNM : forall more, (more = true <-> searched loads e s) -> forall q, lname e q <-> more = true /\ In q (map ulower (text_relpaths word s))).
      { intros more HS q. rewrite text_relpaths_In, HS. unfold lcu_name. split; [|eauto]. intros (s' & Hs & Hq). assert (s' = s) as -> by (eapply text_fun; [apply Hs | exact ET]). auto. }
      destruct (json_part word ulower loads show e s) as [[l more]|x].
      + destruct (HJ l more HE) as (H1 & H2 & H3 & H4). pose proof (HNM more H3) as H5. destruct more; cbn [fst snd].
        * split; [|split; [|split]].
          -- rewrite H1. split; [intros (x & Hx); exists x; apply in_or_app; auto|]. intros (x & Hx). apply in_app_or in Hx as [Hx|Hx]; [eauto|]. apply in_map_iff in Hx as (? & F & _). discriminate.
          -- intros q Hq. apply in_app_or in Hq as [Hq|Hq]; [auto|]. apply in_map_iff in Hq as (q' & F & Hq). injection F as ->. apply text_paths_In in Hq. eapply lp_text; [apply H3; reflexivity | exact Hq].
          -- intros q Hq. apply H5. auto.
          -- intros _. split; [|intros q Hq; apply H5 in Hq; apply Hq]. intros q Hq. apply in_or_app. destruct (H4 q Hq) as [H6|[_ H6]]; [left; exact H6 | right]. apply in_map. apply text_paths_In. exact H6.
        * split; [exact H1|]. split; [exact H2|]. split; [intros q []|]. intros _. split.
          -- intros q Hq. destruct (H4 q Hq) as [H6|[F _]]; [exact H6 | discriminate].
          -- intros q Hq. apply H5 in Hq as [F _]. discriminate.
      + split; [split; [intros _; exists x; left; reflexivity | intros _; exact HE]|]. split; [intros q [F|[]]; discriminate|]. split; [intros q []|]. intros F. contradiction.
    - assert (HT : forall s, ~ has_text e s) by (intros s F; apply file_text_iff in F; congruence). assert (NE : ~ exists x, file_text e = Err x) by (intros [x F]; congruence). rewrite file_text_Err in NE. cbn [fst snd].
      assert (HF : ~ fails e).
      { intros [x Hr Hd Hx|Hr Hd|s' x Ht He Hl|s' v Ht Hj Hc|s' v k Ht Hj Hk Ho]; [apply NE; split; [exact Hr | right; eauto] | apply NE; split; [exact Hr | left; exact Hd] | exact (HT _ Ht) ..]. }
      split; [split; [intros F; contradiction | intros (x & [])]|]. split; [intros q []|]. split; [intros q []|]. intros _. split.
      + intros q [s v k q' Ht|s q' [Ht _] Hq]; destruct (HT _ Ht).
      + intros q (s & [Ht _] & _). destruct (HT _ Ht).
    - cbn [fst snd]. assert (HF : fails e). { assert (HX : exists x, file_text e = Err x) by eauto. apply file_text_Err in HX as [Hr [Hd|(y & Hd & Hy)]]; [apply lf_link | eapply lf_read]; eassumption. }
      split; [split; [intros _; exists x; left; reflexivity | intros _; exact HF]|]. split; [intros q [F|[]]; discriminate|]. split; [intros q []|]. intros F. contradiction.
  Qed.
End Files.

(** Words *)
Lemma words_go_In space w : forall s acc, Forall (fun c => space c = false) acc ->
  (In w (words_go space acc s) <->
   (exists s1 b, s = s1 ++ b /\ w = rev acc ++ s1 /\ w <> [] /\ Forall (fun c => space c = false) s1 /\ (b = [] \/ exists c b', b = c :: b' /\ space c = true)) \/
   (exists a c r, s = a ++ c :: r /\ space c = true /\ exists b, r = w ++ b /\ w <> [] /\ Forall (fun c => space c = false) w /\ (b = [] \/ exists c b', b = c :: b' /\ space c = true))).
Proof.
  induction s as [|c s IH]; intros acc Ha; cbn [words_go].
  - split.
    + intros Hw. left. exists [], []. destruct acc as [|x acc]; [destruct Hw|]. destruct Hw as [<-|[]]. rewrite (app_nil_r (rev (x :: acc))). split; [reflexivity|]. split; [reflexivity|]. split; [|auto]. intros F. apply (f_equal (@length N)) in F. rewrite rev_length in F. discriminate.
    + intros [(s1 & b & E & -> & Hw & _)|(a & c & r & E & _)]; [|destruct a; discriminate]. symmetry in E. apply app_eq_nil in E as [-> ->]. rewrite app_nil_r in *. destruct acc; [destruct Hw; reflexivity | left; reflexivity].
  - destruct (space c) eqn:Ec.
    + assert (HR : In w (words_go space [] s) <->
        (exists a c' r, c :: s = a ++ c' :: r /\ space c' = true /\ exists b, r = w ++ b /\ w <> [] /\ Forall (fun c => space c = false) w /\ (b = [] \/ exists c b', b = c :: b' /\ space c = true))).
      { rewrite (IH [] (Forall_nil _)). split.
        - intros [(s1 & b & -> & -> & H1 & H2 & H3)|(a & c' & r & -> & H1 & H2)].
          + exists [], c, (s1 ++ b). split; [reflexivity|]. split; [exact Ec|]. exists b. cbn [rev app]. auto.
          + exists (c :: a), c', r. auto.
        - intros (a & c' & r & E & H1 & b & -> & H2 & H3 & H4). destruct a as [|x a]; cbn [app] in E; injection E as <- E.
          + left. exists w, b. cbn [rev app]. auto.
          + right. exists a, c', (w ++ b). split; [exact E|]. split; [exact H1|]. exists b. auto. }
      assert (HL : (exists s1 b, c :: s = s1 ++ b /\ w = rev acc ++ s1 /\ w <> [] /\ Forall (fun c => space c = false) s1 /\ (b = [] \/ exists c b', b = c :: b' /\ space c = true)) <-> acc <> [] /\ w = rev acc).
      { split.
        - intros (s1 & b & E & -> & H1 & H2 & _). destruct s1 as [|x s1]; [|injection E as <- _; inversion H2; congruence]. rewrite app_nil_r in *. split; [intros ->; apply H1; reflexivity | reflexivity].
        - intros [H1 ->]. exists [], (c :: s). rewrite app_nil_r. split; [reflexivity|]. split; [reflexivity|]. split; [|split; [constructor | eauto]]. intros F. apply H1. apply (f_equal (@rev N)) in F. rewrite rev_involutive in F. exact F. }
      rewrite HL. destruct acc as [|x acc].
      * rewrite HR. split; [tauto | intros [[F _]|F]; [congruence | exact F]].
      * cbn [In]. rewrite HR. split; (intros [F|F]; [left | right; exact F]); [split; [discriminate | congruence] | destruct F; congruence].
    + rewrite (IH (c :: acc) (Forall_cons _ Ec Ha)). split.
      * intros [(s1 & b & -> & -> & H1 & H2 & H3)|(a & c' & r & -> & H1 & H2)].
        -- left. exists (c :: s1), b. cbn [rev] in *. rewrite <- app_assoc in *. split; [reflexivity|]. split; [reflexivity|]. split; [exact H1|]. split; [constructor; assumption | exact H3].
        -- right. exists (c :: a), c', r. auto.
      * intros [(s1 & b & E & -> & H1 & H2 & H3)|(a & c' & r & E & H1 & H2)].
        -- destruct s1 as [|x s1]; cbn [app] in E; [subst b; destruct H3 as [F|(x & b' & F & Fx)]; congruence|]. injection E as <- ->. left. exists s1, b. inversion H2; subst. cbn [rev]. rewrite <- app_assoc. auto.
        -- destruct a as [|x a]; cbn [app] in E; injection E as <- E; [congruence|]. right. exists a, c', r. auto.
Qed.
Lemma words_In space text w : In w (words_go space [] text) <-> word_in space text w.
Proof.
  rewrite words_go_In by constructor. unfold word_in. split.
  - intros [(s1 & b & -> & -> & H1 & H2 & H3)|(a & c & r & -> & H1 & b & -> & H2 & H3 & H4)].
    + exists [], b. cbn [rev app] in *. auto 7.
    + exists (a ++ [c]), b. rewrite <- app_assoc. repeat split; eauto.
  - intros (a & b & -> & H1 & H2 & H3 & H4). destruct H3 as [->|(a' & c & -> & Hc)].
    + left. exists w, b. cbn [rev app]. auto.
    + right. exists a', c, (w ++ b). rewrite <- app_assoc. split; [reflexivity|]. split; [exact Hc|]. exists b. auto.
Qed.
Lemma check_gen_dirs H l : forall g, g_dirs (fst (check_gen H l g)) = g_dirs g.
Proof.
  induction l as [|[p|e] l IH]; intros g; cbn [check_gen fst]; try reflexivity. rewrite IH. unfold check. destruct (mem _ _); reflexivity.
Qed.
