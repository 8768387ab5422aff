(** * Proofs about manifest URLs *)

From Verif Require Import Base.Text Base.PyFacts Base.TextFacts Base.Fs Base.FsFacts Model.Files Model.Patcher Spec.PatcherSpec Base.BinFacts.
Ltac Zify.zify_post_hook ::= Z.div_mod_to_equations.

(** ** Hexadecimal texts *)

Lemma undigits_inj base : 2 <= base -> forall a b, Forall (fun d => d < base) a -> Forall (fun d => d < base) b ->
  length a = length b -> undigits base a = undigits base b -> a = b.
Proof.
  intros Hb. induction a as [|x a IH] using rev_ind; intros b Ha Hb' Hl E.
  - destruct b; [reflexivity | discriminate].
  - destruct b as [|y b _] using rev_ind; [rewrite app_length in Hl; cbn in Hl; lia|].
    rewrite !app_length in Hl. cbn in Hl. rewrite !undigits_snoc in E.
    apply Forall_app in Ha as [Ha Hx], Hb' as [Hb' Hy]. inversion_clear Hx. inversion_clear Hy.
    assert (x = y /\ undigits base a = undigits base b) as [-> E'].
    { destruct (N.div_mod_unique base (undigits base a) (undigits base b) x y); [assumption | assumption | lia | auto]. }
    f_equal. apply IH; [assumption | assumption | lia | assumption].
Qed.

Definition upper_val (c : N) : N := if c <=? 57 then c - 48 else c - 55.
Lemma upper_hex_iff c : is_upper_hex c = true <-> 48 <= c <= 57 \/ 65 <= c <= 70.
Proof. unfold is_upper_hex, is_digit. lia. Qed.
Lemma upper_val_spec c : is_upper_hex c = true -> upper_val c < 16 /\ digit_upper (upper_val c) = c.
Proof.
  intros H. apply upper_hex_iff in H. unfold upper_val, digit_upper. destruct (N.leb_spec c 57).
  - replace (c - 48 <? 10) with true by lia. lia.
  - replace (c - 55 <? 10) with false by lia. lia.
Qed.
Lemma hex_digits h : Forall (fun c => is_upper_hex c = true) h ->
  Forall (fun d => d < 16) (map upper_val h) /\ map digit_upper (map upper_val h) = h /\ undigits 16 (map upper_val h) = hex_value h.
Proof.
  intros H. split; [|split].
  - apply Forall_map. eapply Forall_impl; [|exact H]. intros c Hc. apply upper_val_spec. assumption.
  - induction H as [|c h Hc H IH]; [reflexivity|]. cbn [map]. rewrite IH. f_equal. apply upper_val_spec. assumption.
  - unfold undigits, hex_value. generalize 0. clear H. induction h as [|c h IH]; intros a; cbn [map fold_left]; [reflexivity|].
    rewrite IH. f_equal. unfold upper_val. lia.
Qed.
Lemma int16_hex h : Forall (fun c => is_upper_hex c = true) h -> h <> [] -> int16 h = Ok (Z.of_N (hex_value h)).
Proof.
  intros H Hne. destruct (hex_digits h H) as (H1 & H2 & H3). rewrite <- H2 at 1. unfold int16.
  rewrite int_of_map; auto using digit_val_upper, digit_upper_not_under, digit_upper_plain; try lia.
  - rewrite H3. reflexivity.
  - destruct h; [congruence | discriminate].
Qed.
Lemma hex16_iff h : hex16 h <-> lenN h = 16 /\ Forall (fun c => is_upper_hex c = true) h.
Proof.
  unfold hex16. rewrite lenN_length. split; intros [H1 H2]; (split; [lia|]); eapply Forall_impl; try exact H2; intros c; apply upper_hex_iff.
Qed.
Lemma hexu_of_hex16 h : hex16 h -> hexu 16 (hex_value h) = h.
Proof.
  intros H. apply hex16_iff in H as [Hl H]. destruct (hex_digits h H) as (H1 & H2 & H3).
  assert (Hb : hex_value h < 16 ^ 16).
  { rewrite <- H3. pose proof (undigits_bound 16 (map upper_val h) ltac:(lia) H1) as B. rewrite lenN_map, Hl in B. exact B. }
  pose proof (hexu_len 16 (hex_value h) ltac:(lia) Hb) as Hl'. pose proof (hexu_chars 16 (hex_value h)) as Hc.
  destruct (hex_digits _ Hc) as (G1 & G2 & G3). etransitivity; [symmetry; exact G2|]. etransitivity; [|exact H2]. f_equal.
  apply (undigits_inj 16); [lia | assumption | assumption | rewrite !map_length; rewrite !lenN_length in *; lia|].
  rewrite G3, H3. pose proof (hexu_value 16 (hex_value h)) as E.
  rewrite int16_hex in E; [injection E; lia | assumption|]. intros E'. rewrite E' in Hl'. discriminate.
Qed.
Lemma hexuZ_inj a b : hexuZ a = hexuZ b -> a = b.
Proof.
  assert (Hs : forall n p, hexu 16 n <> cMinus :: hexu 15 (Npos p)).
  { intros n p E. pose proof (hexu_chars 16 n) as H. rewrite E in H. inversion_clear H. discriminate. }
  destruct a as [|a|a], b as [|b|b]; cbn [hexuZ]; intros E; try (exfalso; eapply Hs; eassumption); try (exfalso; eapply Hs; symmetry; eassumption);
    try (apply hexu_inj in E; lia).
  pose proof (f_equal (@tl _) E) as E'. cbn [tl] in E'. apply hexu_inj in E'. congruence.
Qed.

(** ** Replacement of ".secure." *)

Notation sec := (lit ".secure.").
Notation rep := (str_replace sec (lit ".")).

Lemma rep_cons c t : rep (c :: t) = if startswith (c :: t) sec then lit "." ++ replace_go sec (lit ".") t 7 else c :: rep t.
Proof. reflexivity. Qed.
Lemma replace_skip old new : forall a b, replace_go old new (a ++ b) (length a) = replace_go old new b 0.
Proof. induction a as [|x a IH]; intros b; cbn [app length replace_go]; [reflexivity | apply IH]. Qed.
Lemma rep_sec r : rep (sec ++ r) = cDot :: rep r.
Proof. change (sec ++ r) with (cDot :: lit "secure." ++ r). rewrite rep_cons. change (cDot :: lit "secure." ++ r) with (sec ++ r).
  rewrite startswith_app. reflexivity. Qed.
Lemma rep_char c r : c <> cDot -> rep (c :: r) = c :: rep r.
Proof. intros H. rewrite rep_cons. cbn [startswith]. change (lit ".secure.") with (cDot :: lit "secure."). cbn [startswith]. rewrite (proj2 (eqbF _ _) H). reflexivity. Qed.
Lemma rep_word w r : ~ In cDot w -> rep (w ++ r) = w ++ rep r.
Proof.
  induction w as [|c w IH]; intros H; [reflexivity|]. cbn [app]. rewrite rep_char by (intros ->; apply H; left; reflexivity).
  f_equal. apply IH. intros Hi. apply H. right. assumption.
Qed.
Lemma rep_cases u : (exists r, u = sec ++ r /\ rep u = cDot :: rep r) \/ u = [] \/ (exists c t, u = c :: t /\ rep u = c :: rep t).
Proof.
  destruct u as [|c t]; [auto|]. rewrite rep_cons. destruct (startswith (c :: t) sec) eqn:E; [|eauto 6].
  left. apply startswith_iff in E as [r E]. exists r. split; [assumption|]. pose proof (rep_sec r) as H. rewrite <- E in H.
  rewrite rep_cons, E, startswith_app in H. exact H.
Qed.
Lemma rep_nil u : rep u = [] -> u = [].
Proof. destruct (rep_cases u) as [(r & _ & ->)|[->|(c & t & _ & ->)]]; [discriminate | auto | discriminate]. Qed.
Lemma rep_dot_inv u v : rep u = cDot :: v -> exists d r, dot_or_secure d /\ u = d ++ r /\ rep r = v.
Proof.
  destruct (rep_cases u) as [(r & -> & ->)|[->|(c & t & -> & ->)]]; [|discriminate|]; intros E.
  - exists sec, r. split; [right; reflexivity|]. split; [reflexivity|]. congruence.
  - exists (lit "."), t. split; [left; reflexivity|]. split; [|congruence]. change (lit "." ++ t) with (cDot :: t). congruence.
Qed.
Lemma rep_word_inv : forall w u v, ~ In cDot w -> rep u = w ++ v -> exists r, u = w ++ r /\ rep r = v.
Proof.
  induction w as [|x w IH]; intros u v H E; [exists u; auto|]. cbn [app] in E.
  destruct (rep_cases u) as [(r & -> & E')|[->|(c & t & -> & E')]]; [|discriminate|]; rewrite E' in E.
  - exfalso. apply H. left. congruence.
  - assert (c = x) as -> by congruence. destruct (IH t v) as (r & -> & Hr); [intros Hi; apply H; right; assumption | congruence|].
    exists r. auto.
Qed.
Lemma rep_dot d w c r : dot_or_secure d -> w = c :: r -> c <> 115 -> rep (d ++ w) = lit "." ++ rep w.
Proof.
  intros [-> | ->] -> Hc; [|apply rep_sec]. change (lit "." ++ c :: r) with (cDot :: c :: r). rewrite rep_cons.
  change sec with (cDot :: 115 :: lit "ecure."). cbn [startswith]. rewrite (proj2 (eqbF c 115) Hc), Bool.andb_false_r. reflexivity.
Qed.

(** ** Accepted URLs *)

Lemma match_manifest_iff s h : match_manifest s = Some h <->
  hex16 h /\ exists nl, (nl = [] \/ nl = [10]) /\ s = lit "channels/public/releases/" ++ h ++ lit ".manifest" ++ nl.
Proof.
  unfold match_manifest. split.
  - destruct (startswith s _) eqn:E; [|discriminate]. apply startswith_iff in E as [r ->]. unfold drop_prefix. rewrite dropN_app_exact.
    destruct (lenN (takeN 16 r) =? 16) eqn:E1; [|discriminate]. destruct (forallb is_upper_hex (takeN 16 r)) eqn:E2; [|discriminate].
    cbn [andb]. destruct (eqb (dropN 16 r) (lit ".manifest")) eqn:E3; [|destruct (eqb (dropN 16 r) (lit ".manifest" ++ [cNL])) eqn:E4; [|discriminate]];
      cbn [orb]; intros E; injection E as <-; (split; [apply hex16_iff; split; [lia | apply Forall_forall; apply forallb_forall; assumption]|]).
    + exists []. split; [auto|]. rewrite app_nil_r. rewrite <- (takeN_dropN 16 r) at 1. do 2 f_equal. apply eqb_true in E3. exact E3.
    + exists [cNL]. split; [auto|]. rewrite <- (takeN_dropN 16 r) at 1. do 2 f_equal. apply eqb_true in E4. exact E4.
  - intros (Hh & nl & Hnl & ->). apply hex16_iff in Hh as [H1 H2]. rewrite startswith_app. unfold drop_prefix. rewrite dropN_app_exact.
    rewrite (takeN_app_n _ _ 16 H1), (dropN_app_n _ _ 16 H1), H1.
    replace (forallb is_upper_hex h) with true by (symmetry; apply forallb_forall; apply Forall_forall; assumption).
    destruct Hnl as [-> | ->]; reflexivity.
Qed.

Lemma hex16_no_dot h : hex16 h -> ~ In cDot h.
Proof. intros [_ H] Hi. rewrite Forall_forall in H. specialize (H _ Hi). unfold cDot in H. lia. Qed.
Lemma no_dot_nl nl : nl = [] \/ nl = [10] -> ~ In cDot (lit "manifest" ++ nl).
Proof. intros [-> | ->]; intros H; cbn in H; repeat (destruct H as [H|H]; [discriminate|]); exact H. Qed.
Ltac nodot := intros H; cbn in H; repeat (destruct H as [H|H]; [discriminate|]); exact H.

Lemma canon_url u h : hex16 h ->
  (exists nl, (nl = [] \/ nl = [10]) /\ rep u = url_base ++ lit "channels/public/releases/" ++ h ++ lit ".manifest" ++ nl) <-> manifest_url u h.
Proof.
  intros Hh. pose proof (hex16_no_dot h Hh) as Hd. split.
  - intros (nl & Hnl & E).
    change (url_base ++ lit "channels/public/releases/" ++ h ++ lit ".manifest" ++ nl)
      with (lit "https://lol" ++ cDot :: (lit "dyn" ++ cDot :: (lit "riotcdn" ++ cDot :: (lit "net/channels/public/releases/" ++ h ++ cDot :: (lit "manifest" ++ nl))))) in E.
    apply rep_word_inv in E as (u1 & -> & E); [|nodot]. apply rep_dot_inv in E as (d1 & u2 & H1 & -> & E).
    apply rep_word_inv in E as (u3 & -> & E); [|nodot]. apply rep_dot_inv in E as (d2 & u4 & H2 & -> & E).
    apply rep_word_inv in E as (u5 & -> & E); [|nodot]. apply rep_dot_inv in E as (d3 & u6 & H3 & -> & E).
    apply rep_word_inv in E as (u7 & -> & E); [|nodot]. apply rep_word_inv in E as (u8 & -> & E); [|assumption].
    apply rep_dot_inv in E as (d4 & u9 & H4 & -> & E).
    rewrite <- (app_nil_r (lit "manifest" ++ nl)) in E. apply rep_word_inv in E as (u10 & -> & E); [|apply no_dot_nl; assumption].
    apply rep_nil in E as ->. exists d1, d2, d3, d4, nl. split; [auto|]. split; [assumption|]. rewrite app_nil_r. reflexivity.
  - intros (d1 & d2 & d3 & d4 & nl & Hds & Hnl & ->). exists nl. split; [assumption|].
    inversion_clear Hds as [|? ? H1 Hds1]. inversion_clear Hds1 as [|? ? H2 Hds2]. inversion_clear Hds2 as [|? ? H3 Hds3]. inversion_clear Hds3 as [|? ? H4 _].
    rewrite rep_word by nodot. erewrite (rep_dot d1 (lit "dyn" ++ _) 100); [|exact H1 | reflexivity | discriminate].
    rewrite rep_word by nodot. erewrite (rep_dot d2 (lit "riotcdn" ++ _) 114); [|exact H2 | reflexivity | discriminate].
    rewrite rep_word by nodot. erewrite (rep_dot d3 (lit "net/channels/public/releases/" ++ _) 110); [|exact H3 | reflexivity | discriminate].
    rewrite rep_word by nodot. rewrite rep_word by assumption. erewrite (rep_dot d4 (lit "manifest" ++ _) 109); [|exact H4 | reflexivity | discriminate].
    replace (rep (lit "manifest" ++ nl)) with (lit "manifest" ++ nl) by (destruct Hnl as [-> | ->]; reflexivity).
    reflexivity.
Qed.

Lemma url_accepted u n : manifest_id (MUrl u) = Ok n <-> exists h, hex16 h /\ manifest_url u h /\ n = Z.of_N (hex_value h).
Proof.
  cbn [manifest_id]. split.
  - destruct (startswith (rep u) url_base) eqn:E; [|discriminate]. apply startswith_iff in E as [r E]. rewrite E. unfold drop_prefix. rewrite dropN_app_exact.
    destruct (match_manifest r) as [h|] eqn:Em; [|discriminate]. apply match_manifest_iff in Em as (Hh & nl & Hnl & ->).
    rewrite int16_hex; [|apply hex16_iff; assumption | intros ->; destruct Hh as [Hl _]; discriminate].
    intros E'. injection E' as <-. exists h. split; [assumption|]. split; [|reflexivity]. apply canon_url; [assumption|]. eauto.
  - intros (h & Hh & Hu & ->). apply canon_url in Hu as (nl & Hnl & E); [|assumption]. rewrite E, startswith_app. unfold drop_prefix. rewrite dropN_app_exact.
    replace (match_manifest _) with (Some h) by (symmetry; apply match_manifest_iff; eauto).
    apply int16_hex; [apply hex16_iff; assumption | intros ->; destruct Hh as [Hl _]; discriminate].
Qed.
Lemma url_refused u e : manifest_id (MUrl u) = Err e -> e = ValueError.
Proof.
  cbn [manifest_id]. destruct (startswith _ url_base); [|congruence]. destruct (match_manifest _) as [h|] eqn:Em; [|congruence].
  apply match_manifest_iff in Em as (Hh & _). rewrite int16_hex; [discriminate | apply hex16_iff; assumption | intros ->; destruct Hh as [Hl _]; discriminate].
Qed.
Lemma url_path h : hex16 h -> manifest_path (Z.of_N (hex_value h)) = lit "channels/public/releases/" ++ h ++ lit ".manifest".
Proof.
  intros Hh. unfold manifest_path. do 2 f_equal. pose proof (hexu_of_hex16 h Hh) as E.
  destruct (hex_value h) as [|p]; cbn [Z.of_N hexuZ Z.to_N] in *; exact E.
Qed.
Lemma manifest_path_inj a b : manifest_path a = manifest_path b -> a = b.
Proof. intros E. apply app_inv_head in E. apply app_inv_tail in E. apply hexuZ_inj. assumption. Qed.
Lemma manifest_returns cwd base get a pl f p pl' f' : run (download_manifest cwd base get a) pl f = (Done p, pl', f') ->
  exists n, manifest_id a = Ok n /\ p = manifest_path n.
Proof.
  unfold download_manifest. destruct (manifest_id a) as [n|e]; cbn [lift bind run]; [|discriminate].
  rewrite run_bind. destruct (run (download _ _ _ _ _) pl f) as [[[u|e|] pl1] f1]; try discriminate. cbn [run]. intros E. injection E as <- <- <-. eauto.
Qed.
