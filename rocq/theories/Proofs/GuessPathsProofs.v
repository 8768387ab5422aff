(** * Proofs about the guessing of paths from parts of others *)

From Coq Require Import Permutation.
From Verif Require Import Base.Py Base.PyFacts Base.Text Base.TextFacts Base.PathFacts Model.Hashes Model.Patcher Model.Rads Model.Guess Model.GuessPaths
  Spec.HashesSpec Spec.GuessSpec Spec.GuessPathsSpec Proofs.HashesProofs Proofs.GuessProofs.

(** ** Parts *)

Lemma split_part_Some s x r : split_part s = Some (x, r) <-> part x /\ s = x ++ cSlash :: r.
Proof.
  unfold split_part, part. split.
  - destruct (cut_first cSlash s) as [[a b]|] eqn:E; [|discriminate]. apply cut_first_Some in E as [-> Ha]. destruct a as [|c a]; [discriminate|].
    intros E. assert (x = c :: a /\ r = b) as [-> ->] by (split; congruence). split; [split; [discriminate | assumption] | reflexivity].
  - intros [[Hx Hs] ->]. rewrite cut_first_app by assumption. destruct x; [congruence | reflexivity].
Qed.
Lemma plugin_parts_Some p x s : plugin_parts p = Some (x, s) <-> plugin_path x s p.
Proof.
  unfold plugin_parts, plugin_path. rewrite opt_bind_Some. split.
  - intros (r & E1 & E2). apply after_Some in E1 as ->. apply split_part_Some in E2 as [Hx ->]. auto.
  - intros [Hx ->]. eexists. split; [apply after_Some; reflexivity|]. apply split_part_Some. auto.
Qed.
Lemma two_parts s rest : opt_bind (after_part s) after_part = Some rest <-> exists a b, part a /\ part b /\ s = a ++ lit "/" ++ b ++ lit "/" ++ rest.
Proof.
  rewrite opt_bind_Some. split.
  - intros (s1 & E1 & E2). apply after_part_Some in E1 as (a & Ha & ->). apply after_part_Some in E2 as (b & Hb & ->). exists a, b. auto.
  - intros (a & b & Ha & Hb & ->). eexists. split; apply after_part_Some; [exists a; split; [assumption | reflexivity] | exists b; split; [assumption | reflexivity]].
Qed.
Lemma region_sub_spec r l p q : region_sub (r, l) p = q <->
  (exists x a b rest, localized x a b rest p /\ q = lit "plugins/" ++ x ++ lit "/" ++ r ++ lit "/" ++ l ++ lit "/" ++ rest) \/
  ((~ exists x a b rest, localized x a b rest p) /\ q = p).
Proof.
  unfold region_sub. destruct (plugin_parts p) as [[x s]|] eqn:E.
  - apply plugin_parts_Some in E. destruct (opt_bind (after_part s) after_part) as [rest|] eqn:E2.
    + apply two_parts in E2 as (a & b & Ha & Hb & ->). assert (Hl : localized x a b rest p) by (split; [assumption | split; assumption]).
      cbn [fst snd]. split.
      * intros <-. left. exists x, a, b, rest. auto.
      * intros [(x' & a' & b' & rest' & (Ha' & Hb' & Hp) & ->)|[Hn _]]; [|exfalso; apply Hn; exists x, a, b, rest; assumption].
        apply plugin_parts_Some in E, Hp. rewrite E in Hp.
        assert (Ex : x = x' /\ a ++ lit "/" ++ b ++ lit "/" ++ rest = a' ++ lit "/" ++ b' ++ lit "/" ++ rest') by (split; congruence). destruct Ex as [<- Es].
        assert (Er : opt_bind (after_part (a ++ lit "/" ++ b ++ lit "/" ++ rest)) after_part = Some rest) by (apply two_parts; exists a, b; auto).
        rewrite Es in Er. assert (Er' : opt_bind (after_part (a' ++ lit "/" ++ b' ++ lit "/" ++ rest')) after_part = Some rest') by (apply two_parts; exists a', b'; auto).
        rewrite Er in Er'. assert (rest = rest') as <- by congruence. reflexivity.
    + assert (Hn : ~ exists x a b rest, localized x a b rest p).
      { intros (x' & a & b & rest & Ha & Hb & Hp). apply plugin_parts_Some in E, Hp. rewrite E in Hp. assert (s = a ++ lit "/" ++ b ++ lit "/" ++ rest) as -> by congruence.
        assert (E3 : opt_bind (after_part (a ++ lit "/" ++ b ++ lit "/" ++ rest)) after_part = Some rest) by (apply two_parts; exists a, b; auto). congruence. }
      split; [intros <-; right; auto|]. intros [(x' & a & b & rest & Hl & _)|[_ ->]]; [exfalso; eauto 10 | reflexivity].
  - assert (Hn : ~ exists x a b rest, localized x a b rest p).
    { intros (x' & a & b & rest & Ha & Hb & Hp). apply plugin_parts_Some in Hp. congruence. }
    split; [intros <-; right; auto|]. intros [(x' & a & b & rest & Hl & _)|[_ ->]]; [exfalso; eauto 10 | reflexivity].
Qed.
Lemma region_langs_In r l : In (r, l) region_langs <-> In r (regions ++ [lit "global"]) /\ In l (languages ++ [lit "default"]).
Proof.
  unfold region_langs. rewrite in_flat_map. split.
  - intros (r' & Hr & Hl). apply in_map_iff in Hl as (l' & E & Hl). assert (r' = r /\ l' = l) as [-> ->] by (split; congruence). auto.
  - intros [Hr Hl]. exists r. split; [assumption|]. apply in_map_iff. exists l. auto.
Qed.

(** ** Suffixes *)

Lemma no_dot_tail (b : str) : ~ (exists x s, b = x ++ cDot :: s /\ no_dots s) <-> match cut_last cDot b with Some (_, _ :: _) => False | _ => True end.
Proof.
  destruct (cut_last cDot b) as [[x s]|] eqn:E.
  - apply cut_last_Some in E as [-> Hs]. destruct s as [|c s].
    + split; [auto|]. intros _ (y & s & E & Hs1 & Hs2). destruct s as [|c0 s0] using rev_ind; [congruence|].
      assert (E' : (y ++ cDot :: s0) ++ [c0] = x ++ [cDot]) by (rewrite <- app_assoc; symmetry; exact E).
      apply app_inj_tail in E' as [_ ->]. apply Hs2, in_or_app. right. left. reflexivity.
    + split; [|intros []]. intros Hn. apply Hn. exists x, (c :: s). split; [reflexivity | split; [discriminate | assumption]].
  - apply cut_last_None in E. split; [auto|]. intros _ (x & s & -> & _). apply E, in_or_app. right. left. reflexivity.
Qed.
Lemma suffix_split_Some p pre suf ext : suffix_split p = Some (pre, suf, ext) <-> suffixed pre suf ext p.
Proof.
  unfold suffix_split, suffixed. split.
  - destruct (cut_last cDot p) as [[a e]|] eqn:E; [|discriminate]. apply cut_last_Some in E as [-> He]. destruct e as [|c e]; [discriminate|].
    pose proof (no_dot_tail a) as Hn.
    assert (Hd : no_dots (c :: e)) by (split; [discriminate | assumption]).
    destruct (cut_last cDot a) as [[b s]|] eqn:Ea.
    + apply cut_last_Some in Ea as [Ea Hs]. destruct s as [|d s].
      * destruct (mem cNL a) eqn:Em; [discriminate|]. intros E. assert (pre = a /\ suf = [] /\ ext = cDot :: c :: e) as (-> & -> & ->) by (repeat split; congruence).
        split; [reflexivity|]. split; [apply mem_false; assumption|]. split; [exists (c :: e); auto|]. left. split; [reflexivity|]. apply Hn. exact I.
      * destruct (mem cNL b) eqn:Em; [discriminate|]. intros E. assert (pre = b /\ suf = cDot :: d :: s /\ ext = cDot :: c :: e) as (-> & -> & ->) by (repeat split; congruence).
        split; [subst a; rewrite <- app_assoc; reflexivity|]. split; [apply mem_false; assumption|]. split; [exists (c :: e); auto|]. right. exists (d :: s). split; [reflexivity | split; [discriminate | assumption]].
    + destruct (mem cNL a) eqn:Em; [discriminate|]. intros E. assert (pre = a /\ suf = [] /\ ext = cDot :: c :: e) as (-> & -> & ->) by (repeat split; congruence).
      split; [reflexivity|]. split; [apply mem_false; assumption|]. split; [exists (c :: e); auto|]. left. split; [reflexivity|]. apply Hn. exact I.
  - intros (-> & Hp & (e & -> & He1 & He2) & Hs). assert (E : cut_last cDot (pre ++ suf ++ cDot :: e) = Some (pre ++ suf, e)) by (rewrite app_assoc; apply cut_last_app; assumption).
    rewrite E. destruct e as [|c e]; [congruence|]. apply mem_false in Hp. destruct Hs as [[-> Hn]|(s & -> & Hs1 & Hs2)].
    + rewrite app_nil_r. apply no_dot_tail in Hn. destruct (cut_last cDot pre) as [[b [|d s]]|]; [|destruct Hn|]; rewrite Hp; reflexivity.
    + rewrite cut_last_app by assumption. destruct s as [|d s]; [congruence|]. rewrite Hp. reflexivity.
Qed.

(** ** Replacements *)

Section Replace.
  Variable old : str -> Prop.
  Hypothesis old_ne : forall o, old o -> o <> [].
  Hypothesis old_one : forall o o' r r', old o -> old o' -> o ++ r = o' ++ r' -> o = o'.

  Lemma replaced_fun new s t t' : replaced old new s t -> replaced old new s t' -> t = t'.
  Proof.
    intros Hr. revert t'. induction Hr as [|o s t Ho Hr IH|c s t Hn Hr IH]; intros t' Hr'.
    - inversion Hr' as [|o s t Ho H1 E E'|]; [reflexivity|]. apply app_eq_nil in E as [E _]. exfalso. exact (old_ne o Ho E).
    - remember (o ++ s) as w eqn:Ew. destruct Hr' as [|o' s' t' Ho' H1|c s' t' Hn' H1].
      + symmetry in Ew. apply app_eq_nil in Ew as [E _]. exfalso. exact (old_ne o Ho E).
      + assert (o' = o) as -> by (eapply old_one; eauto). apply app_inv_head in Ew as ->. f_equal. auto.
      + exfalso. exact (Hn' o s Ho Ew).
    - remember (c :: s) as w eqn:Ew. destruct Hr' as [|o' s' t' Ho' H1|c' s' t' Hn' H1].
      + discriminate.
      + exfalso. exact (Hn o' s' Ho' eq_refl).
      + assert (c' = c /\ s' = s) as [-> ->] by (split; congruence). f_equal. auto.
  Qed.
  (** Through a mark which the text does not have. *)
  Lemma replaced_mark mark m0 m new s t : mark = m0 :: m -> ~ In m0 s -> replaced old mark s t -> replaced old new s (str_replace mark new t).
  Proof.
    intros Em Hs Hr. induction Hr as [|o s t Ho Hr IH|c s t Hn Hr IH].
    - constructor.
    - rewrite (replace_here mark new m0 m) by assumption. constructor; [assumption|]. apply IH. intros Hi. apply Hs, in_or_app. auto.
    - rewrite (replace_char mark new m0 m) by (try assumption; intros ->; apply Hs; left; reflexivity). constructor; [assumption|]. apply IH. intros Hi. apply Hs. right. assumption.
  Qed.
End Replace.

Lemma str_replace_replaced old new : old <> [] -> forall n s, (length s <= n)%nat -> replaced (eq old) new s (str_replace old new s).
Proof.
  intros Hne. induction n as [|n IH]; intros s Hl.
  - destruct s; [constructor | cbn in Hl; lia].
  - destruct s as [|c t]; [constructor|]. destruct (startswith (c :: t) old) eqn:E.
    + apply startswith_iff in E as [r E]. rewrite E. destruct old as [|c0 o]; [congruence|]. rewrite (replace_here (c0 :: o) new c0 o) by reflexivity. constructor; [reflexivity|]. apply IH.
      apply (f_equal (@length N)) in E. cbn [length app] in E, Hl. rewrite app_length in E. lia.
    + assert (E2 : str_replace old new (c :: t) = c :: str_replace old new t) by (unfold str_replace; cbn [replace_go]; rewrite E; reflexivity).
      rewrite E2. constructor; [|apply IH; cbn [length] in Hl; lia]. intros o r <- Er. rewrite Er, startswith_app in E. discriminate.
Qed.
Lemma languages_5 l : In l languages -> length l = 5%nat.
Proof. intros Hl. assert (HF : Forall (fun l => length l = 5%nat) languages) by (repeat constructor). rewrite Forall_forall in HF. exact (HF l Hl). Qed.
Lemma langs_skip new : forall a b, langs_go new (a ++ b) (length a) = langs_go new b 0.
Proof. induction a as [|x a IH]; intros b; cbn [app length langs_go]; [reflexivity | apply IH]. Qed.
Lemma langs_replaced new : forall n s, (length s <= n)%nat -> replaced (fun o => In o languages) new s (langs_go new s 0).
Proof.
  induction n as [|n IH]; intros s Hl.
  - destruct s; [constructor | cbn in Hl; lia].
  - destruct s as [|c t]; [constructor|]. cbn [langs_go]. unfold lang_here. destruct (existsb (startswith (c :: t)) languages) eqn:E.
    + apply existsb_exists in E as (l & Hi & E). apply startswith_iff in E as [r E]. pose proof (languages_5 l Hi) as H5. destruct l as [|c0 l]; [discriminate|]. cbn [length] in H5.
      assert (c = c0 /\ t = l ++ r) as [-> ->] by (cbn [app] in E; split; congruence). replace 4%nat with (length l) by lia. rewrite langs_skip. change (c0 :: l ++ r) with ((c0 :: l) ++ r). constructor; [assumption|].
      apply IH. cbn [length] in Hl. rewrite app_length in Hl. lia.
    + constructor; [|apply IH; cbn [length] in Hl; lia]. intros o r Ho Er. assert (E2 : existsb (startswith (c :: t)) languages = true) by (apply existsb_exists; exists o; split; [assumption|]; apply startswith_iff; eauto). congruence.
Qed.
Lemma same_prefix (o o' r r' : str) : length o = length o' -> o ++ r = o' ++ r' -> o = o'.
Proof.
  revert o'. induction o as [|c o IH]; intros [|c' o'] Hl E; try discriminate; [reflexivity|]. cbn [app length] in *.
  assert (c = c' /\ o ++ r = o' ++ r') as [-> E'] by (split; congruence). f_equal. apply IH; [lia | assumption].
Qed.
Lemma lang_ne o : In o languages -> o <> [].
Proof. intros Ho ->. apply languages_5 in Ho. discriminate. Qed.
Lemma lang_one o o' (r r' : str) : In o languages -> In o' languages -> o ++ r = o' ++ r' -> o = o'.
Proof. intros H1 H2. apply same_prefix. rewrite !languages_5 by assumption. reflexivity. Qed.
Lemma has_lang_iff p : has_lang p = true <-> exists l a b, In l languages /\ p = a ++ l ++ b.
Proof.
  unfold has_lang. rewrite existsb_exists. split.
  - intros (l & Hl & E). apply contains_iff in E as (a & b & E). exists l, a, b. auto.
  - intros (l & a & b & Hl & E). exists l. split; [assumption|]. apply contains_iff. eauto.
Qed.

(** ** Other parts of paths *)

Lemma char_dir_Some p c : char_dir p = Some c <-> character_dir p c.
Proof.
  unfold char_dir, character_dir.
  assert (HS : forall s, option_map fst (split_part s) = Some c <-> part c /\ exists r, s = c ++ lit "/" ++ r).
  { intros s. destruct (split_part s) as [[x r]|] eqn:E; cbn [option_map fst].
    - apply split_part_Some in E as [Hx ->]. split.
      + intros E. assert (x = c) as -> by congruence. split; [assumption|]. exists r. reflexivity.
      + intros [Hc [r' E]]. assert (E1 : split_part (x ++ cSlash :: r) = Some (x, r)) by (apply split_part_Some; auto).
        assert (E2 : split_part (x ++ cSlash :: r) = Some (c, r')) by (apply split_part_Some; auto). congruence.
    - split; [discriminate|]. intros [Hc [r ->]]. assert (E2 : split_part (c ++ lit "/" ++ r) = Some (c, r)) by (apply split_part_Some; auto). congruence. }
  destruct (after (lit "assets/characters/") p) as [s|] eqn:E.
  - apply after_Some in E as ->. rewrite HS. split.
    + intros [Hc [r ->]]. split; [assumption|]. exists r. left. reflexivity.
    + intros [Hc [r [E|E]]]; (split; [assumption|]); [apply app_inv_head in E; eauto | discriminate].
  - destruct (after (lit "data/characters/") p) as [s|] eqn:E2; cbn [opt_bind].
    + apply after_Some in E2 as ->. rewrite HS. split.
      * intros [Hc [r ->]]. split; [assumption|]. exists r. right. reflexivity.
      * intros [Hc [r [E2|E2]]]; (split; [assumption|]); [discriminate | apply app_inv_head in E2; eauto].
    + cbn [option_map]. split; [discriminate|]. intros [_ [r [->| ->]]].
      * assert (E3 : after (lit "assets/characters/") (lit "assets/characters/" ++ c ++ lit "/" ++ r) = Some (c ++ lit "/" ++ r)) by (apply after_Some; reflexivity). congruence.
      * assert (E3 : after (lit "data/characters/") (lit "data/characters/" ++ c ++ lit "/" ++ r) = Some (c ++ lit "/" ++ r)) by (apply after_Some; reflexivity). congruence.
Qed.
Lemma splitext_iff p x e : splitext p = (x, cDot :: e) <-> extension p x e.
Proof.
  unfold splitext, extension.
  assert (HB : forall b, forallb (N.eqb cDot) b = false -> ~ In cSlash b -> exists a c b', b = a ++ c :: b' /\ c <> cDot /\ c <> cSlash /\ ~ In cSlash b').
  { intros b Hb Hs. assert (Hx : exists c, In c b /\ c <> cDot).
    { clear Hs. induction b as [|c b IH]; [discriminate|]. cbn [forallb] in Hb. destruct (N.eqb_spec cDot c) as [<-|Hc]; [|exists c; split; [left; reflexivity | congruence]].
      destruct (IH Hb) as (d & Hd & Hn). exists d. split; [right; assumption | assumption]. }
    destruct Hx as (c & Hc & Hn). apply in_split in Hc as (a & b' & ->). exists a, c, b'. split; [reflexivity|]. split; [assumption|]. rewrite in_app_iff in Hs. cbn [In] in Hs. split; [intros ->; tauto | tauto]. }
  set (db := match cut_last cSlash p with Some (h, t) => (h ++ [cSlash], t) | None => ([], p) end).
  assert (HP : exists d b, db = (d, b) /\ p = d ++ b /\ ~ In cSlash b /\ (d = [] \/ exists d', d = d' ++ [cSlash])).
  { unfold db. destruct (cut_last cSlash p) as [[h t]|] eqn:E.
    - apply cut_last_Some in E as [-> Ht]. exists (h ++ [cSlash]), t. split; [reflexivity|]. split; [rewrite <- app_assoc; reflexivity|]. split; [assumption | eauto].
    - apply cut_last_None in E. exists [], p. auto. }
  destruct HP as (d & b & -> & -> & Hb & Hd). split.
  - destruct (cut_last cDot b) as [[y z]|] eqn:E; [|intros E'; congruence]. apply cut_last_Some in E as [-> Hz]. destruct (forallb (N.eqb cDot) y) eqn:Ef; [intros E'; congruence|].
    intros E. assert (x = d ++ y /\ e = z) as [-> ->] by (split; congruence). rewrite in_app_iff in Hb. cbn [In] in Hb.
    split; [rewrite <- app_assoc; reflexivity|]. split; [assumption|]. split; [tauto|]. destruct (HB y Ef) as (a & c & b' & -> & A & B & C); [tauto|].
    exists (d ++ a), c, b'. split; [rewrite <- app_assoc; reflexivity|]. auto.
  - intros (E & He1 & He2 & a & c & b' & -> & Hc1 & Hc2 & Hb').
    (* the last name contains c *)
    assert (HY : exists y, b = y ++ cDot :: e /\ a ++ c :: b' = d ++ y /\ forallb (N.eqb cDot) y = false).
    { destruct Hd as [->|[d' ->]].
      - cbn [app] in E. exists (a ++ c :: b'). split; [assumption|]. split; [reflexivity|]. rewrite forallb_app. cbn [forallb]. replace (cDot =? c) with false by (symmetry; apply N.eqb_neq; congruence). apply andb_false_r.
      - rewrite <- !app_assoc in E. cbn [app] in E.
        assert (E1 : cut_last cSlash (d' ++ cSlash :: b) = Some (d', b)) by (apply cut_last_app; assumption).
        assert (Hin : In cSlash a).
        { assert (Hi : In cSlash (a ++ c :: b' ++ cDot :: e)) by (rewrite <- E; apply in_or_app; right; left; reflexivity). apply in_app_or in Hi as [Hi|Hi]; [assumption|]. exfalso.
          destruct Hi as [Hi|Hi]; [congruence|]. apply in_app_or in Hi as [Hi|[Hi|Hi]]; [tauto | discriminate | tauto]. }
        destruct (cut_last cSlash a) as [[a1 a2]|] eqn:Ea; [|apply cut_last_None in Ea; contradiction]. apply cut_last_Some in Ea as [-> Ha2].
        assert (E2 : cut_last cSlash (d' ++ cSlash :: b) = Some (a1, a2 ++ c :: b' ++ cDot :: e)).
        { rewrite E. rewrite <- app_assoc. cbn [app]. apply cut_last_app. rewrite in_app_iff. cbn [In]. rewrite in_app_iff. cbn [In]. intros [F|[F|[F|[F|F]]]]; [tauto | congruence | tauto | discriminate | tauto]. }
        rewrite E1 in E2. assert (d' = a1 /\ b = a2 ++ c :: b' ++ cDot :: e) as [-> ->] by (split; congruence).
        exists (a2 ++ c :: b'). split; [rewrite <- app_assoc; reflexivity|]. split; [rewrite <- !app_assoc; reflexivity|]. rewrite forallb_app. cbn [forallb]. replace (cDot =? c) with false by (symmetry; apply N.eqb_neq; congruence). apply andb_false_r. }
    destruct HY as (y & -> & EY & Ef). rewrite cut_last_app by assumption. rewrite Ef. rewrite EY. reflexivity.
Qed.
Lemma chop_nl_spec s : exists nl, (nl = [] \/ nl = [cNL]) /\ s = chop_nl s ++ nl.
Proof.
  unfold chop_nl. destruct s as [|c s] using rev_ind; [exists []; auto|]. rewrite rev_app_distr. cbn [rev app]. destruct (N.eqb_spec c cNL) as [->|].
  - exists [cNL]. rewrite rev_involutive. auto.
  - exists []. rewrite app_nil_r. auto.
Qed.
Lemma chop_nl_app s c nl : c <> cNL -> nl = [] \/ nl = [cNL] -> chop_nl ((s ++ [c]) ++ nl) = s ++ [c].
Proof.
  intros Hc [->| ->]; unfold chop_nl.
  - rewrite app_nil_r, rev_app_distr. cbn [rev app]. rewrite (proj2 (N.eqb_neq _ _) Hc). reflexivity.
  - rewrite rev_app_distr. cbn [rev app]. rewrite N.eqb_refl, rev_involutive. reflexivity.
Qed.
Lemma chop_Some suf s x : chop suf s = Some x <-> s = x ++ suf.
Proof.
  unfold chop. split.
  - destruct (endswith s suf) eqn:E; [|discriminate]. apply endswith_iff in E as [r ->]. rewrite lenN_app. replace (lenN r + lenN suf - lenN suf) with (lenN r) by lia. rewrite takeN_app_exact. congruence.
  - intros ->. rewrite endswith_app, lenN_app. replace (lenN x + lenN suf - lenN suf) with (lenN x) by lia. rewrite takeN_app_exact. reflexivity.
Qed.
Definition try_ext (s ext : str) : option (str * str) :=
  opt_bind (chop (cDot :: ext) s) (fun x => if (startswith x (lit "assets/") || startswith x (lit "data/")) && negb (mem cNL x) then Some (x, ext) else None).
Lemma try_ext_Some s ext x e : try_ext s ext = Some (x, e) <-> e = ext /\ s = x ++ lit "." ++ ext /\ ~ In cNL x /\ exists r, x = lit "assets/" ++ r \/ x = lit "data/" ++ r.
Proof.
  unfold try_ext. rewrite opt_bind_Some. split.
  - intros (y & E1 & E2). apply chop_Some in E1 as ->. destruct ((startswith y (lit "assets/") || startswith y (lit "data/")) && negb (mem cNL y)) eqn:E; [|discriminate].
    assert (y = x /\ ext = e) as [-> ->] by (split; congruence). apply andb_prop in E as [E En]. apply negb_true_iff, mem_false in En.
    split; [reflexivity|]. split; [reflexivity|]. split; [assumption|]. apply orb_prop in E as [E|E]; apply startswith_iff in E as [r E]; exists r; auto.
  - intros (-> & -> & Hn & r & Hr). exists x. split; [apply chop_Some; reflexivity|]. apply mem_false in Hn. rewrite Hn.
    replace (startswith x (lit "assets/") || startswith x (lit "data/")) with true; [reflexivity|]. symmetry. apply orb_true_iff. destruct Hr as [->| ->]; [left | right]; apply startswith_app.
Qed.
Lemma try_ext_None (x e ext : str) : rev (cDot :: e) <> [] -> hd 0 (rev e) <> hd 0 (rev ext) \/ hd 0 (tl (tl (rev e))) <> hd 0 (tl (tl (rev ext))) -> (2 < length e)%nat -> (2 < length ext)%nat -> try_ext (x ++ lit "." ++ e) ext = None.
Proof.
  intros _ Hd L1 L2. destruct (try_ext (x ++ lit "." ++ e) ext) as [[y e']|] eqn:E; [|reflexivity]. exfalso. apply try_ext_Some in E as (_ & E & _). apply (f_equal (@rev N)) in E.
  rewrite !app_assoc, !(rev_app_distr _ e), !(rev_app_distr _ ext) in E.
  rewrite <- (rev_length e) in L1. rewrite <- (rev_length ext) in L2. destruct (rev e) as [|a1 [|a2 [|a3 re]]]; cbn [length] in L1; try lia. destruct (rev ext) as [|b1 [|b2 [|b3 rx]]]; cbn [length] in L2; try lia.
  cbn [app hd tl] in *. destruct Hd as [Hd|Hd]; apply Hd; congruence.
Qed.
Lemma lcu_asset_Some p x ext : lcu_asset p = Some (x, ext) <-> client_asset p x ext.
Proof.
  unfold lcu_asset, client_asset. rewrite opt_bind_Some.
  assert (EL : forall s, match try_ext s (lit "png") with Some r => Some r | None => match try_ext s (lit "jpg") with Some r => Some r | None => try_ext s (lit "json") end end = Some (x, ext) <->
    In ext [lit "png"; lit "jpg"; lit "json"] /\ s = x ++ lit "." ++ ext /\ ~ In cNL x /\ exists r, x = lit "assets/" ++ r \/ x = lit "data/" ++ r).
  { intros s. split.
    - intros E. destruct (try_ext s (lit "png")) as [[y e]|] eqn:E1; [|destruct (try_ext s (lit "jpg")) as [[y e]|] eqn:E2].
      + assert (y = x /\ e = ext) as [-> ->] by (split; congruence). apply try_ext_Some in E1 as (-> & R). split; [left; reflexivity | exact R].
      + assert (y = x /\ e = ext) as [-> ->] by (split; congruence). apply try_ext_Some in E2 as (-> & R). split; [right; left; reflexivity | exact R].
      + apply try_ext_Some in E as (-> & R). split; [right; right; left; reflexivity | exact R].
    - intros (Hi & -> & R). assert (ET : try_ext (x ++ lit "." ++ ext) ext = Some (x, ext)) by (apply try_ext_Some; auto).
      destruct Hi as [<-|[<-|[<-|[]]]].
      + rewrite ET. reflexivity.
      + rewrite try_ext_None by (try discriminate; try (right; vm_compute; discriminate); vm_compute; lia). rewrite ET. reflexivity.
      + rewrite try_ext_None by (try discriminate; try (left; vm_compute; discriminate); vm_compute; lia). rewrite try_ext_None by (try discriminate; try (left; vm_compute; discriminate); vm_compute; lia). exact ET. }
  split.
  - intros (s & E1 & E2). apply after_Some in E1 as ->. apply EL in E2 as (Hi & E & Hn & R). split; [assumption|]. split; [assumption|]. split; [assumption|].
    destruct (chop_nl_spec s) as (nl & Hnl & ES). exists nl. split; [assumption|]. rewrite E in ES. rewrite ES, <- !app_assoc. reflexivity.
  - intros (Hn & R & Hi & nl & Hnl & ->). eexists. split; [apply after_Some; reflexivity|]. apply EL. split; [assumption|]. split; [|auto].
    assert (HE : exists e c, ext = e ++ [c] /\ c <> cNL) by (destruct Hi as [<-|[<-|[<-|[]]]]; [exists (lit "pn"), 103 | exists (lit "jp"), 103 | exists (lit "jso"), 110]; split; (reflexivity || discriminate)).
    destruct HE as (e & c & -> & Hc). pose proof (chop_nl_app (x ++ lit "." ++ e) c nl Hc Hnl) as EC. rewrite <- !app_assoc in EC. rewrite <- !app_assoc. exact EC.
Qed.
Lemma path_split_spec p d b : path_split p = (d, b) <-> parent p d /\ last_name p b.
Proof.
  assert (HE : path_split p = (dirname p, basename p)) by apply path_split_eta.
  assert (HB : last_name p (basename p)).
  { unfold last_name, basename, path_split. destruct (cut_last cSlash p) as [[h t]|] eqn:E.
    - apply cut_last_Some in E as [-> Ht]. destruct (forallb _ _); cbn [snd]; (split; [assumption | right; exists h; reflexivity]).
    - apply cut_last_None in E. cbn [snd]. auto. }
  rewrite HE. split.
  - intros E. assert (dirname p = d /\ basename p = b) as [<- <-] by (split; congruence). split; [apply parent_dirname; reflexivity | assumption].
  - intros [Hp [Hb1 Hb2]]. apply parent_dirname in Hp as ->. f_equal. unfold last_name in HB. destruct HB as [HB1 HB2].
    destruct HB2 as [HB2|[a HB2]], Hb2 as [Hb2|[a' Hb2]].
    + congruence.
    + exfalso. apply HB1. rewrite <- HB2, Hb2. apply in_or_app. right. left. reflexivity.
    + exfalso. apply Hb1. rewrite <- Hb2, HB2. apply in_or_app. right. left. reflexivity.
    + assert (E1 : cut_last cSlash p = Some (a, basename p)) by (rewrite HB2 at 1; apply cut_last_app; assumption).
      assert (E2 : cut_last cSlash p = Some (a', b)) by (rewrite Hb2 at 1; apply cut_last_app; assumption). congruence.
Qed.

(** ** Guesses *)

Section Guess.
  Variable H : str -> Z.
  Variable other : str -> list parg -> result str.

  Definition explored (cand : str -> Prop) (g g' : guesser) : Prop := grows H cand g g' /\ all_tried H cand g'.
  Lemma explored_iff (P Q : str -> Prop) g g' : (forall p, P p <-> Q p) -> explored P g g' -> explored Q g g'.
  Proof.
    intros HPQ [H1 H2]. split; [eapply grows_weaken; [|exact H1]; intros p; apply HPQ|]. intros p Hp. apply H2, HPQ. assumption.
  Qed.
  Lemma explored_all ps g : guesser_ok g -> explored (fun p => In p ps) g (check_all H ps g).
  Proof. intros Hg. apply check_all_grows. assumption. Qed.
  Lemma explored_rounds {A} (f : A -> list str) xs g : guesser_ok g -> explored (fun p => exists x, In x xs /\ In p (f x)) g (fold_left (fun g x => check_all H (f x) g) xs g).
  Proof. intros Hg. apply (rounds_grow H f xs g Hg). Qed.
  Lemma explored_formats formats args (cand : str -> Prop) g : guesser_ok g ->
    (forall fmt a, In fmt formats -> In a args -> exists p, pct other fmt a = Ok p) ->
    (forall p, cand p <-> exists fmt a, In fmt formats /\ In a args /\ pct other fmt a = Ok p) ->
    exists g', check_formats H other formats args g = (g', Ok tt) /\ explored cand g g'.
  Proof. intros Hg H1 H2. exact (check_formats_spec H other formats args cand g Hg H1 H2). Qed.

  Lemma regions_spec g : guesser_ok g ->
    explored (fun q => exists p, In p (dvals (g_known g)) /\
      ((exists x a b rest r l, localized x a b rest p /\ In r (regions ++ [lit "global"]) /\ In l (languages ++ [lit "default"]) /\ q = lit "plugins/" ++ x ++ lit "/" ++ r ++ lit "/" ++ l ++ lit "/" ++ rest) \/
       ((~ exists x a b rest, localized x a b rest p) /\ q = p))) g (substitute_region_lang H g).
  Proof.
    intros Hg. unfold substitute_region_lang. eapply explored_iff; [|apply (explored_rounds (fun rl => map (region_sub rl) (known g)) region_langs); assumption].
    intros q. cbv beta. split.
    - intros ([r l] & Hi & Hq). apply region_langs_In in Hi as [Hr Hl]. apply in_map_iff in Hq as (p & E & Hp). apply region_sub_spec in E as [(x & a & b & rest & Hloc & ->)|[Hn ->]].
      + exists p. split; [assumption|]. left. exists x, a, b, rest, r, l. auto.
      + exists p. split; [assumption|]. right. auto.
    - intros (p & Hp & [(x & a & b & rest & r & l & Hloc & Hr & Hl & ->)|[Hn ->]]).
      + exists (r, l). split; [apply region_langs_In; auto|]. apply in_map_iff. exists p. split; [|assumption]. apply region_sub_spec. left. exists x, a, b, rest. auto.
      + exists (lit "global", lit "default"). split; [apply region_langs_In; split; apply in_or_app; right; left; reflexivity|]. apply in_map_iff. exists p. split; [|assumption]. apply region_sub_spec. right. auto.
  Qed.

  Lemma plugin_shape p x s : plugin_path x s p -> startswith p (lit "plugins/") = true /\ plugin_name p = x /\ plugin_format p = lit "plugins/%s/" ++ s.
  Proof.
    intros Hp. pose proof (proj2 (plugin_parts_Some p x s) Hp) as E. unfold plugin_format. rewrite E. destruct Hp as [[Hx1 Hx2] ->]. split; [apply startswith_app|]. split; [|reflexivity].
    unfold plugin_name, drop_prefix. rewrite dropN_app_exact. change (x ++ lit "/" ++ s) with (x ++ cSlash :: s). rewrite cut_first_app by assumption. reflexivity.
  Qed.
  Lemma plugins_spec g : guesser_ok g ->
    (forall p, In p (dvals (g_known g)) -> (exists r, p = lit "plugins/" ++ r) -> exists x s, plugin_path x s p /\ ~ In 37 s) ->
    exists g', substitute_plugin H other g = (g', Ok tt) /\
    explored (fun q => exists p x s p' x' s', In p (dvals (g_known g)) /\ plugin_path x s p /\ In p' (dvals (g_known g)) /\ plugin_path x' s' p' /\ q = lit "plugins/" ++ x' ++ lit "/" ++ s) g g'.
  Proof.
    intros Hg Hk. unfold substitute_plugin. set (paths := filter _ _).
    assert (HI : forall p, In p paths <-> In p (dvals (g_known g)) /\ exists x s, plugin_path x s p /\ ~ In 37 s).
    { intros p. unfold paths, known. rewrite filter_In, startswith_iff. split; intros [Hp Hs]; (split; [assumption|]); [apply Hk; assumption|].
      destruct Hs as (x & s & [_ ->] & _). eauto. }
    assert (HV : forall x' s, ~ In 37 s -> pct other (lit "plugins/%s/" ++ s) [PStr x'] = Ok (lit "plugins/" ++ x' ++ lit "/" ++ s)).
    { intros x' s Hs. change (lit "plugins/%s/" ++ s) with (lit "plugins/" ++ lit "%s" ++ lit "/" ++ s). rewrite pct_app by (vm_compute; intuition discriminate). rewrite pct_s, pct_plain; [reflexivity|].
      rewrite in_app_iff. intros [F|F]; [destruct F as [F|[]]; discriminate | contradiction]. }
    apply explored_formats; [assumption| |].
    - intros fmt a Hf Ha. apply in_map_iff in Hf as (p & <- & Hp). apply in_map_iff in Ha as (x' & <- & _). apply HI in Hp as (_ & x & s & Hp & Hs). apply plugin_shape in Hp as (_ & _ & ->). rewrite HV by assumption. eauto.
    - intros q. split.
      + intros (p & x & s & p' & x' & s' & Hp & Hx & Hp' & Hx' & ->).
        assert (HR : forall p x s, In p (dvals (g_known g)) -> plugin_path x s p -> In p paths /\ ~ In 37 s).
        { intros p0 x0 s0 Hi Hpp. destruct (Hk p0 Hi) as (x1 & s1 & Hpp1 & Hn); [destruct Hpp as [_ ->]; eauto|]. split; [apply HI; eauto|].
          apply plugin_parts_Some in Hpp, Hpp1. rewrite Hpp in Hpp1. assert (s0 = s1) as -> by congruence. assumption. }
        destruct (HR p x s Hp Hx) as [Hi Hn]. destruct (HR p' x' s' Hp' Hx') as [Hi' _].
        exists (plugin_format p), [PStr x']. split; [apply in_map; assumption|]. split.
        * apply in_map_iff. exists x'. split; [reflexivity|]. apply (proj2 (set_of_In _ _)), in_map_iff. exists p'. split; [|assumption]. apply plugin_shape in Hx' as (_ & E & _). assumption.
        * apply plugin_shape in Hx as (_ & _ & ->). apply HV. assumption.
      + intros (fmt & a & Hf & Ha & E). apply in_map_iff in Hf as (p & <- & Hp). apply in_map_iff in Ha as (x' & <- & Hx'). apply HI in Hp as (Hp & x & s & Hpp & Hn).
        apply (proj1 (set_of_In _ _)), in_map_iff in Hx' as (p' & E' & Hp'). apply HI in Hp' as (Hp' & x1 & s1 & Hpp1 & _). pose proof (plugin_shape _ _ _ Hpp1) as (_ & Ex & _). rewrite Ex in E'. subst x1.
        pose proof (plugin_shape _ _ _ Hpp) as (_ & _ & Ef). rewrite Ef, HV in E by assumption. exists p, x, s, p', x', s1. repeat (split; [assumption|]). congruence.
  Qed.

  Lemma from_game_In path q : In q (from_game path) <->
    (exists x, extension path x (lit "dds") /\ (q = lit "plugins/rcp-be-lol-game-data/global/default/" ++ x ++ lit ".png" \/ q = lit "plugins/rcp-be-lol-game-data/global/default/" ++ x ++ lit ".jpg")) \/
    (exists x, extension path x (lit "json") /\ q = lit "plugins/rcp-be-lol-game-data/global/default/" ++ path).
  Proof.
    unfold from_game. destruct (splitext path) as [x e] eqn:E.
    assert (HU : forall y d, extension path y d -> x = y /\ e = cDot :: d) by (intros y d Hy; apply splitext_iff in Hy; rewrite E in Hy; split; congruence).
    destruct (eqbP e (lit ".dds")) as [->|Hd].
    - change (lit ".dds") with (cDot :: lit "dds") in E. apply splitext_iff in E. split.
      + intros [<-|[<-|[]]]; left; exists x; auto.
      + intros [(y & Hy & Hq)|(y & Hy & _)]; apply HU in Hy as [<- Ey]; [|discriminate]. destruct Hq as [->| ->]; [left | right; left]; reflexivity.
    - destruct (eqbP e (lit ".json")) as [->|Hj].
      + change (lit ".json") with (cDot :: lit "json") in E. apply splitext_iff in E. split.
        * intros [<-|[]]. right. exists x. auto.
        * intros [(y & Hy & Hq)|(y & Hy & ->)]; apply HU in Hy as [<- Ey]; [discriminate|]. left. reflexivity.
      + split; [intros []|]. intros [(y & Hy & _)|(y & Hy & _)]; apply HU in Hy as [_ Ey]; contradiction.
  Qed.
  Lemma from_lcu_In path q : In q (from_lcu path) <->
    exists x, ((client_asset path x (lit "png") \/ client_asset path x (lit "jpg")) /\ q = x ++ lit ".dds") \/ (client_asset path x (lit "json") /\ q = x ++ lit ".json").
  Proof.
    unfold from_lcu. destruct (lcu_asset path) as [[x e]|] eqn:E.
    - assert (HU : forall y d, client_asset path y d -> x = y /\ e = d) by (intros y d Hy; apply lcu_asset_Some in Hy; rewrite E in Hy; split; congruence).
      apply lcu_asset_Some in E. assert (Hi : In e [lit "png"; lit "jpg"; lit "json"]) by apply E.
      destruct Hi as [<-|[<-|[<-|[]]]].
      + change (eqb (lit "png") (lit "png") || eqb (lit "png") (lit "jpg")) with true. cbn [In]. split; [intros [<-|[]]; eauto 6|].
        intros (y & [[[Hy|Hy] ->]|[Hy ->]]); apply HU in Hy as [<- Ey]; try discriminate. auto.
      + change (eqb (lit "jpg") (lit "png") || eqb (lit "jpg") (lit "jpg")) with true. cbn [In]. split; [intros [<-|[]]; eauto 6|].
        intros (y & [[[Hy|Hy] ->]|[Hy ->]]); apply HU in Hy as [<- Ey]; try discriminate. auto.
      + change (eqb (lit "json") (lit "png") || eqb (lit "json") (lit "jpg")) with false. cbn [In]. split; [intros [<-|[]]; exists x; right; split; [assumption | reflexivity]|].
        intros (y & [[[Hy|Hy] ->]|[Hy ->]]); apply HU in Hy as [<- Ey]; try discriminate. auto.
    - split; [intros []|]. intros (y & [[[Hy|Hy] _]|[Hy _]]); apply lcu_asset_Some in Hy; congruence.
  Qed.

  Lemma prefixes_spec prefixes g : guesser_ok g ->
    explored (fun q => exists p x d b, In p (dvals (g_known g)) /\ In x (match prefixes with Some l => l | None => default_prefixes end) /\ parent p d /\ last_name p b /\
      ((d = [] /\ q = x ++ b) \/ (d <> [] /\ q = d ++ lit "/" ++ x ++ b))) g (check_basename_prefixes H prefixes g).
  Proof.
    intros Hg. unfold check_basename_prefixes. eapply explored_iff; [|apply explored_all; assumption]. intros q. cbv beta. rewrite set_of_In, in_flat_map. split.
    - intros (p & Hp & Hq). apply in_map_iff in Hq as (x & <- & Hx). unfold prefixed. destruct (path_split p) as [d b] eqn:E. apply path_split_spec in E as [Hd Hb].
      exists p, x, d, b. repeat (split; [assumption|]). destruct (eqbP d []) as [->|Hd0]; [left; auto | right; split; [assumption | rewrite <- app_assoc; reflexivity]].
    - intros (p & x & d & b & Hp & Hx & Hd & Hb & Hq). exists p. split; [assumption|]. apply in_map_iff. exists x. split; [|assumption].
      unfold prefixed. rewrite (proj2 (path_split_spec p d b) (conj Hd Hb)). destruct Hq as [[-> ->]|[Hd0 ->]]; [reflexivity|]. destruct (eqbP d []); [contradiction | rewrite <- app_assoc; reflexivity].
  Qed.

  Lemma sorted_set_In (l : list str) x : In x (py_sorted str_lt (set_of l)) <-> In x l.
  Proof.
    rewrite <- (set_of_In x l). split; apply Permutation_in; [apply Permutation_sym|]; apply py_sorted_perm.
  Qed.
  Lemma characters_spec g : guesser_ok g -> (forall p, In p (dvals (g_known g)) -> ~ In 123 p) ->
    explored (fun q => exists p c p' c', In p (dvals (g_known g)) /\ character_dir p c /\ In p' (dvals (g_known g)) /\ character_dir p' c' /\ replaced (eq c) c' p q) g (substitute_character H g).
  Proof.
    clear other.
    intros Hg Hk. unfold substitute_character. set (found := flat_map _ _).
    assert (HF : forall c p, In (c, p) found <-> In p (dvals (g_known g)) /\ character_dir p c).
    { intros c p. unfold found. rewrite in_flat_map. split.
      - intros (p' & Hp & Hi). destruct (char_dir p') as [c'|] eqn:E; [|destruct Hi]. destruct Hi as [Hi|[]]. assert (c' = c /\ p' = p) as [-> ->] by (split; congruence). split; [assumption | apply char_dir_Some; assumption].
      - intros [Hp Hc]. exists p. split; [assumption|]. apply char_dir_Some in Hc. rewrite Hc. left. reflexivity. }
    eapply explored_iff; [|apply (explored_rounds (fun fmt => map (fun s => str_replace (lit "{}") s fmt) (set_of (map fst found))) (py_sorted str_lt (set_of (map (fun cp => str_replace (fst cp) (lit "{}") (snd cp)) found)))); assumption].
    intros q. cbv beta.
    assert (HR : forall p c c', In p (dvals (g_known g)) -> character_dir p c -> replaced (eq c) c' p (str_replace (lit "{}") c' (str_replace c (lit "{}") p))).
    { intros p c c' Hp [[Hc _] _]. apply (replaced_mark (eq c) (lit "{}") 123 [125] c' p); [reflexivity | apply Hk; assumption|]. apply (str_replace_replaced c (lit "{}") Hc (length p)). lia. }
    split.
    - intros (fmt & Hf & Hq). apply (proj1 (sorted_set_In _ _)) in Hf. apply in_map_iff in Hf as ([c p] & <- & Hf). apply in_map_iff in Hq as (c' & <- & Hc'). apply (proj1 (set_of_In _ _)), in_map_iff in Hc' as ([c1 p'] & <- & Hc').
      cbn [fst snd]. apply HF in Hf as [Hp Hc]. apply HF in Hc' as [Hp' Hc1]. exists p, c, p', c1. repeat (split; [assumption|]). apply HR; assumption.
    - intros (p & c & p' & c' & Hp & Hc & Hp' & Hc' & Hr). exists (str_replace c (lit "{}") p). split; [apply (proj2 (sorted_set_In _ _)), in_map_iff; exists (c, p); split; [reflexivity | apply HF; auto]|].
      apply in_map_iff. exists c'. split; [|apply (proj2 (set_of_In _ _)), in_map_iff; exists (c', p'); split; [reflexivity | apply HF; auto]].
      eapply (replaced_fun (eq c)); [| |apply HR; eassumption | exact Hr]; [intros o <-; apply Hc | congruence].
  Qed.
  Lemma langs_spec g : guesser_ok g -> (forall p, In p (dvals (g_known g)) -> ~ In 123 p) ->
    explored (fun q => exists p l, In p (dvals (g_known g)) /\ (exists l0 a b, In l0 languages /\ p = a ++ l0 ++ b) /\ In l languages /\ replaced (fun o => In o languages) l p q) g (substitute_lang H g).
  Proof.
    clear other.
    intros Hg Hk. unfold substitute_lang.
    eapply explored_iff; [|apply (explored_rounds (fun fmt => map (fun l => str_replace (lit "{}") l fmt) languages) (py_sorted str_lt (set_of (map (fun p => langs_go (lit "{}") p 0) (filter has_lang (known g)))))); assumption].
    intros q. cbv beta.
    assert (HR : forall p l, In p (dvals (g_known g)) -> replaced (fun o => In o languages) l p (str_replace (lit "{}") l (langs_go (lit "{}") p 0))).
    { intros p l Hp. apply (replaced_mark (fun o => In o languages) (lit "{}") 123 [125] l p); [reflexivity | apply Hk; assumption|]. apply (langs_replaced (lit "{}") (length p)). lia. }
    split.
    - intros (fmt & Hf & Hq). apply (proj1 (sorted_set_In _ _)) in Hf. apply in_map_iff in Hf as (p & <- & Hf). apply filter_In in Hf as [Hp Hl]. apply has_lang_iff in Hl. apply in_map_iff in Hq as (l & <- & Hq).
      exists p, l. repeat (split; [assumption|]). apply HR. assumption.
    - intros (p & l & Hp & Hh & Hl & Hr). exists (langs_go (lit "{}") p 0). split; [apply (proj2 (sorted_set_In _ _)), in_map_iff; exists p; split; [reflexivity | apply filter_In; split; [assumption | apply has_lang_iff; assumption]]|].
      apply in_map_iff. exists l. split; [|assumption]. eapply (replaced_fun (fun o => In o languages)); [exact lang_ne | exact lang_one | apply HR; assumption | exact Hr].
  Qed.
  Lemma suffixes_spec g : guesser_ok g -> (forall p, In p (dvals (g_known g)) -> ~ In 37 p) ->
    exists g', substitute_suffixes H other g = (g', Ok tt) /\
    explored (fun q => exists p pre suf ext s, In p (dvals (g_known g)) /\ suffixed pre suf ext p /\ (s = [] \/ exists p' pre' ext', In p' (dvals (g_known g)) /\ suffixed pre' s ext' p') /\ q = pre ++ s ++ ext) g g'.
  Proof.
    intros Hg Hk. unfold substitute_suffixes. set (found := flat_map _ _).
    assert (HF : forall pre suf ext, In (pre, suf, ext) found <-> exists p, In p (dvals (g_known g)) /\ suffixed pre suf ext p).
    { intros pre suf ext. unfold found. rewrite in_flat_map. split.
      - intros (p & Hp & Hi). destruct (suffix_split p) as [[[a b] c]|] eqn:E; [|destruct Hi]. destruct Hi as [Hi|[]]. assert (a = pre /\ b = suf /\ c = ext) as (-> & -> & ->) by (repeat split; congruence). apply suffix_split_Some in E. eauto.
      - intros (p & Hp & Hc). exists p. split; [assumption|]. apply suffix_split_Some in Hc. rewrite Hc. left. reflexivity. }
    assert (HS : forall s, In s (set_of ([] :: filter (fun s => negb (eqb s [])) (map (fun m => snd (fst m)) found))) <-> s = [] \/ exists p' pre' ext', In p' (dvals (g_known g)) /\ suffixed pre' s ext' p').
    { intros s. rewrite set_of_In. cbn [In]. rewrite filter_In, in_map_iff. split.
      - intros [<-|[([[a b] c] & <- & Hi) _]]; [auto|]. cbn [fst snd]. apply HF in Hi as (p & Hp & Hs). right. exists p, a, c. auto.
      - intros [->|(p & a & c & Hp & Hs)]; [auto|]. destruct (eqbP s []) as [->|Hn]; [auto|]. right. split; [|reflexivity]. exists (a, s, c). split; [reflexivity|]. apply HF. eauto. }
    assert (HV : forall pre suf ext p s, In p (dvals (g_known g)) -> suffixed pre suf ext p -> pct other (pre ++ lit "%s" ++ ext) [PStr s] = Ok (pre ++ s ++ ext)).
    { intros pre suf ext p s Hp (-> & _). specialize (Hk _ Hp). rewrite !in_app_iff in Hk. rewrite pct_app by tauto. rewrite pct_s, pct_plain by tauto. reflexivity. }
    apply explored_formats; [assumption| |].
    - intros fmt a Hf Ha. apply in_map_iff in Hf as ([[pre suf] ext] & <- & Hp). apply in_map_iff in Ha as (s & <- & _). apply HF in Hp as (p & Hp & Hs). cbn [fst snd]. rewrite (HV pre suf ext p) by assumption. eauto.
    - intros q. split.
      + intros (p & pre & suf & ext & s & Hp & Hs & Hx & ->). exists (pre ++ lit "%s" ++ ext), [PStr s]. split; [apply in_map_iff; exists (pre, suf, ext); split; [reflexivity | apply HF; eauto]|].
        split; [apply in_map_iff; exists s; split; [reflexivity | apply HS; assumption]|]. apply (HV pre suf ext p); assumption.
      + intros (fmt & a & Hf & Ha & E). apply in_map_iff in Hf as ([[pre suf] ext] & <- & Hp). apply in_map_iff in Ha as (s & <- & Hx). apply HF in Hp as (p & Hp & Hs). cbn [fst snd] in E. rewrite (HV pre suf ext p) in E by assumption.
        apply HS in Hx. exists p, pre, suf, ext, s. repeat (split; [assumption|]). congruence.
  Qed.
End Guess.
