(** * Proofs about WAD paths and extensions *)

From Verif Require Import Base.TextFacts Base.PathFacts Base.BinFacts Model.Wad Spec.WadSpec.

(** ** Sanitizing *)

(** The extension used by [sanitize_paths] for a path and a guessed extension. *)

Lemma sanitize_unfold w p : w_path w = Some p -> p <> [] ->
  w_path (sanitize_path w) = Some (
    let q := named p (w_ext w) in
    if 250 <=? lenN (basename q) then
      path_join (dirname q) (py_take (basename q) (233 - Z.of_N (lenN (used_ext p (w_ext w)))) ++ lit "." ++
                             hexl 16 (w_hash w) ++ used_ext p (w_ext w))
    else q).
Proof.
  intros Hp Hne. unfold sanitize_path, truthy at 1. rewrite Hp. destruct p as [|c p]; [congruence|].
  unfold named, used_ext. set (q0 := c :: p).
  destruct (snd (splitext q0)) as [|x e] eqn:E.
  - change (eqb (@nil N) []) with true. cbn iota zeta. rewrite path_split_eta.
    destruct (w_ext w) as [[|? ?]|]; cbn [truthy]; destruct (250 <=? _); reflexivity.
  - replace (eqb (x :: e) []) with false by (symmetry; apply eqbF; discriminate). cbn iota zeta. rewrite path_split_eta.
    destruct (250 <=? _); reflexivity.
Qed.

Lemma basename_app p e : ~ In cSlash e -> basename (p ++ e) = basename p ++ e /\ dirname (p ++ e) = dirname p.
Proof.
  intros He. unfold basename, dirname, path_split. destruct (cut_last cSlash p) as [[h t]|] eqn:E.
  - apply cut_last_Some in E as [-> Ht]. rewrite <- app_assoc. cbn [app].
    rewrite cut_last_app by (rewrite in_app_iff; tauto). destruct (forallb _ _); auto.
  - apply cut_last_None in E. rewrite (proj2 (cut_last_None cSlash (p ++ e))) by (rewrite in_app_iff; tauto). auto.
Qed.

Lemma used_ext_dot p g : exists e, used_ext p g = cDot :: e.
Proof.
  unfold used_ext. destruct (snd (splitext p)) as [|x e] eqn:E.
  - destruct g as [[|? ?]|]; eexists; reflexivity.
  - rewrite splitext_snd_base in E. apply splitext_ext_iff in E; [|apply basename_no_slash].
    destruct E as [[E _]|(b & y & _ & _ & _ & E)]; [discriminate|]. injection E as -> ->. eauto.
Qed.
Lemma used_ext_no_slash p g : match g with Some e => ~ In cSlash e | None => True end -> ~ In cSlash (used_ext p g).
Proof.
  intros Hg. unfold used_ext. destruct (snd (splitext p)) as [|x e] eqn:E.
  - rewrite in_app_iff. intros [H|H]; [cbn in H; intuition discriminate|].
    destruct g as [[|c g]|]; try (cbn in H; tauto).
    cbn [app lit] in H. destruct H as [H|H]; [discriminate H | exact (Hg H)].
  - rewrite splitext_snd_base in E. apply splitext_ext_iff in E; [|apply basename_no_slash].
    destruct E as [[E _]|(b & y & Eb & _ & _ & E)]; [discriminate|]. rewrite E.
    intros H. apply (basename_no_slash p). rewrite Eb. apply in_or_app. right. assumption.
Qed.

(** Facts on the name before truncation. *)
Lemma named_facts p g : match g with Some e => ~ In cSlash e | None => True end ->
  dirname (named p g) = dirname p /\
  (exists b, basename (named p g) = b ++ used_ext p g /\
   (snd (splitext p) = [] -> b = basename p) /\ (snd (splitext p) <> [] -> forallb (N.eqb cDot) b = false)).
Proof.
  intros Hg. pose proof (used_ext_no_slash p g Hg) as Hns. unfold named.
  destruct (snd (splitext p)) as [|x e] eqn:E.
  - destruct (basename_app p (used_ext p g) Hns) as [-> ->]. split; [reflexivity|].
    exists (basename p). split; [reflexivity|]. split; [reflexivity | congruence].
  - split; [reflexivity|]. unfold used_ext. rewrite E. rewrite splitext_snd_base in E.
    apply splitext_ext_iff in E; [|apply basename_no_slash].
    destruct E as [[E _]|(b & y & Eb & _ & Hf & E)]; [discriminate|]. rewrite E. exists b.
    split; [assumption|]. split; [discriminate | auto].
Qed.

Lemma hex_len16 h : h < 2 ^ 64 -> lenN (hexl 16 h) = 16.
Proof. intros H. apply hexl_len; [lia | exact H]. Qed.
Lemma hex_not_dot h : ~ In cDot (hexl 16 h).
Proof. apply hexl_not_in; [reflexivity | unfold cDot; lia]. Qed.
Lemma hex_not_slash h : ~ In cSlash (hexl 16 h).
Proof. apply hexl_not_in; [reflexivity | unfold cSlash; lia]. Qed.

(** The shape of a truncated name. *)
Lemma take_no_slash (l : str) n : ~ In cSlash l -> ~ In cSlash (takeN n l).
Proof. intros H Hi. apply H. rewrite <- (takeN_dropN n l). apply in_or_app. left. assumption. Qed.


Lemma sanitize_cases w p : w_path w = Some p -> p <> [] -> match w_ext w with Some e => ~ In cSlash e | None => True end ->
  exists p', w_path (sanitize_path w) = Some p' /\ dirname p' = dirname p /\
  ((short p (w_ext w) /\ p' = named p (w_ext w)) \/
   (~ short p (w_ext w) /\ exists t, ~ In cSlash t /\
      basename p' = t ++ cDot :: hexl 16 (w_hash w) ++ used_ext p (w_ext w) /\
      t = py_take (basename (named p (w_ext w))) (233 - Z.of_N (lenN (used_ext p (w_ext w)))))).
Proof.
  intros Hp Hne Hg. rewrite (sanitize_unfold w p Hp Hne). eexists. split; [reflexivity|]. cbn zeta.
  destruct (named_facts p (w_ext w) Hg) as (Hd & _). unfold short.
  destruct (N.leb_spec 250 (lenN (basename (named p (w_ext w))))) as [Hl|Hl].
  - set (t := py_take _ _). set (e := used_ext p (w_ext w)).
    assert (Ht : ~ In cSlash t) by (apply take_no_slash, basename_no_slash).
    assert (He : ~ In cSlash e) by (apply used_ext_no_slash; assumption).
    assert (Hn : ~ In cSlash (t ++ lit "." ++ hexl 16 (w_hash w) ++ e)).
    { rewrite !in_app_iff. intros [H|[H|[H|H]]]; try tauto; [cbn in H; intuition discriminate | exact (hex_not_slash _ H)]. }
    rewrite Hd. pose proof (split_join_dir p _ Hn) as Hs. rewrite path_split_eta in Hs.
    pose proof (f_equal fst Hs) as Hs1. pose proof (f_equal snd Hs) as Hs2. cbn [fst snd] in Hs1, Hs2.
    rewrite Hs1. split; [reflexivity|]. right. split; [lia|]. exists t. split; [assumption|]. split; [exact Hs2 | reflexivity].
  - split; [assumption|]. left. auto.
Qed.

Lemma py_take_len {A} (l : list A) n : (0 <= n)%Z -> lenN (py_take l n) = N.min (Z.to_N n) (lenN l).
Proof. intros H. rewrite py_take_pos by assumption. apply lenN_takeN. Qed.

Lemma sanitize_spec w p : w_path w = Some p -> p <> [] -> w_hash w < 2 ^ 64 ->
  match w_ext w with Some e => ~ In cSlash e | None => True end ->
  exists p', w_path (sanitize_path w) = Some p' /\ dirname p' = dirname p /\
    (forallb (N.eqb cDot) (basename p) = false -> snd (splitext p') <> []) /\
    (lenN (used_ext p (w_ext w)) <= 233 -> lenN (basename p') <= 250) /\
    (snd (splitext p) <> [] -> lenN (basename p) < 250 -> p' = p) /\
    (exists b, basename p' = b ++ used_ext p (w_ext w)).
Proof.
  intros Hp Hne Hh Hg. destruct (sanitize_cases w p Hp Hne Hg) as (p' & Ep & Hd & Hc). exists p'.
  split; [assumption|]. split; [assumption|].
  destruct (named_facts p (w_ext w) Hg) as (_ & b & Eb & Hb1 & Hb2).
  destruct (used_ext_dot p (w_ext w)) as [e Ee].
  assert (Hsl : ~ In cSlash (used_ext p (w_ext w))) by (apply used_ext_no_slash; assumption).
  destruct Hc as [[Hs ->]|(Hs & t & Ht & Et & Htt)].
  - split; [|split; [|split]].
    + intros Hdots. rewrite splitext_snd_base, Eb, Ee. apply splitext_nonempty.
      * rewrite <- Ee, <- Eb. apply basename_no_slash.
      * destruct (snd (splitext p)) as [|] eqn:E; [rewrite (Hb1 eq_refl); assumption | apply Hb2; congruence].
    + intros _. unfold short in Hs. lia.
    + intros He Hl. unfold named. destruct (snd (splitext p)); [congruence | reflexivity].
    + exists b. assumption.
  - split; [|split; [|split]].
    + intros _. rewrite splitext_snd_base, Et, Ee.
      replace (t ++ cDot :: hexl 16 (w_hash w) ++ cDot :: e) with ((t ++ cDot :: hexl 16 (w_hash w)) ++ cDot :: e)
        by (rewrite <- app_assoc; reflexivity).
      apply splitext_nonempty.
      * rewrite <- app_assoc. cbn [app]. rewrite <- Ee, <- Et. apply basename_no_slash.
      * rewrite forallb_app. cbn [forallb].
        pose proof (hex_len16 _ Hh) as Hl. pose proof (hex_not_dot (w_hash w)) as Hnd.
        destruct (hexl 16 (w_hash w)) as [|c r]; [discriminate Hl|]. cbn [forallb].
        replace (cDot =? c) with false. { rewrite ?andb_false_r. reflexivity. }
        symmetry. apply N.eqb_neq. intros Hcc. apply Hnd. left. symmetry. exact Hcc.
    + intros Hle. rewrite Et, lenN_app, lenN_cons, lenN_app, (hex_len16 _ Hh), Htt.
      rewrite py_take_len by lia. lia.
    + intros He Hl. exfalso. apply Hs. unfold short, named. destruct (snd (splitext p)); [congruence | assumption].
    + exists (t ++ cDot :: hexl 16 (w_hash w)). rewrite Et, <- app_assoc. reflexivity.
Qed.

(** Two truncated names are equal only for equal hashes. *)

Lemma app_suffix_cases {A} (a1 e1 a2 e2 : list A) : a1 ++ e1 = a2 ++ e2 ->
  (exists x, e2 = x ++ e1 /\ a1 = a2 ++ x) \/ (exists x, e1 = x ++ e2 /\ a2 = a1 ++ x).
Proof.
  intros E. apply app_eq_app in E as (l & [[-> ->]|[-> ->]]); [left | right]; exists l; auto.
Qed.

Lemma used_ext_pieces p g : short_pieces g ->
  (exists e, used_ext p g = cDot :: e /\ ~ In cDot e) \/ (exists e, used_ext p g = cDot :: e /\ Forall (fun piece => lenN piece < 16) (split_ch cDot e)).
Proof.
  intros Hg. unfold used_ext. destruct (snd (splitext p)) as [|x e] eqn:E.
  - right. destruct g as [[|c g]|].
    + eexists. split; [reflexivity|]. repeat constructor.
    + exists (lit "cdtb." ++ c :: g). split; [reflexivity|].
      change (lit "cdtb." ++ c :: g) with (lit "cdtb" ++ cDot :: c :: g). rewrite split_ch_app_gen.
      change (split_ch cDot (lit "cdtb")) with [lit "cdtb"]. cbn [app]. constructor; [reflexivity | exact Hg].
    + eexists. split; [reflexivity|]. repeat constructor.
  - left. rewrite splitext_snd_base in E. apply splitext_ext_iff in E; [|apply basename_no_slash].
    destruct E as [[E _]|(b & y & _ & Hy & _ & E)]; [discriminate|]. exists y. auto.
Qed.

Lemma piece_suffix (h x : str) : ~ In cDot h -> lenN h = 16 -> Forall (fun piece => lenN piece < 16) (split_ch cDot (x ++ h)) -> False.
Proof.
  intros Hh Hl. induction x as [|c x IH]; cbn [app].
  - rewrite split_ch_none by assumption. intros HF. inversion HF. lia.
  - cbn [split_ch]. destruct (eqb c cDot).
    + intros HF. inversion HF; subst. auto.
    + destruct (split_ch cDot (x ++ h)) as [|y r] eqn:E; [exfalso; revert E; apply split_ch_nonempty|].
      intros HF. inversion HF as [|? ? Hy HF']; subst. apply IH. constructor; [rewrite lenN_cons in Hy; lia | assumption].
Qed.

Lemma trunc_inj h1 h2 t1 t2 e1 e2 :
  h1 < 2 ^ 64 -> h2 < 2 ^ 64 ->
  (exists e, e1 = cDot :: e) ->
  ((exists e, e2 = cDot :: e /\ ~ In cDot e) \/ (exists e, e2 = cDot :: e /\ Forall (fun piece => lenN piece < 16) (split_ch cDot e))) ->
  (exists x, e2 = x ++ e1) ->
  t1 ++ cDot :: hexl 16 h1 ++ e1 = t2 ++ cDot :: hexl 16 h2 ++ e2 -> h1 = h2.
Proof.
  intros H1 H2 [e1' ->] He2 [x ->] E.
  destruct x as [|c x].
  - cbn [app] in E.
    assert (E' : (t1 ++ [cDot]) ++ hexl 16 h1 = (t2 ++ [cDot]) ++ hexl 16 h2).
    { apply (app_inv_tail (cDot :: e1')). rewrite <- !app_assoc. exact E. }
    apply (hexl_inj 16).
    assert (Hl : length (hexl 16 h1) = length (hexl 16 h2)).
    { pose proof (hex_len16 _ H1). pose proof (hex_len16 _ H2). rewrite !lenN_length in *. lia. }
    destruct (app_suffix_cases _ _ _ _ E') as [(y & Ey & _)|(y & Ey & _)]; apply (f_equal (@length _)) in Ey as Ey'; rewrite app_length in Ey';
      destruct y; cbn in Ey'; try lia; cbn [app] in Ey; congruence.
  - exfalso.
    assert (c = cDot) as ->. { destruct He2 as [(e & Ee & _)|(e & Ee & _)]; cbn [app] in Ee; injection Ee as -> _; reflexivity. }
    assert (E' : t1 ++ cDot :: hexl 16 h1 = (t2 ++ cDot :: hexl 16 h2) ++ cDot :: x).
    { apply (app_inv_tail (cDot :: e1')). rewrite <- !app_assoc. cbn [app] in *. rewrite <- ?app_assoc in *. exact E. }
    (* compare the suffixes [hexl h1] and [cDot :: x] *)
    assert (E2 : (t1 ++ [cDot]) ++ hexl 16 h1 = (t2 ++ cDot :: hexl 16 h2) ++ cDot :: x) by (rewrite <- E', <- app_assoc; reflexivity).
    destruct (app_suffix_cases _ _ _ _ E2) as [(y & Ey & _)|(y & Ey & _)].
    + (* cDot :: x = y ++ hex *)
      destruct y as [|d y].
      * cbn [app] in Ey. apply (hex_not_dot h1). rewrite <- Ey. left. reflexivity.
      * cbn [app] in Ey. injection Ey as <- ->.
        destruct He2 as [(e & Ee & Hn)|(e & Ee & HF)]; cbn [app] in Ee; injection Ee as <-.
        -- apply Hn. rewrite in_app_iff. right. left. reflexivity.
        -- rewrite split_ch_app_gen in HF.
           apply Forall_app in HF as [HF _].
           eapply piece_suffix; [apply hex_not_dot | apply hex_len16; exact H1 | exact HF].
    + apply (hex_not_dot h1). rewrite Ey. apply in_or_app. right. left. reflexivity.
Qed.

Lemma sanitize_no_collision w1 w2 p1 p2 q :
  w_path w1 = Some p1 -> w_path w2 = Some p2 -> p1 <> [] -> p2 <> [] ->
  w_hash w1 < 2 ^ 64 -> w_hash w2 < 2 ^ 64 ->
  match w_ext w1 with Some e => ~ In cSlash e | None => True end ->
  match w_ext w2 with Some e => ~ In cSlash e | None => True end ->
  short_pieces (w_ext w1) -> short_pieces (w_ext w2) ->
  ~ short p1 (w_ext w1) -> ~ short p2 (w_ext w2) ->
  w_path (sanitize_path w1) = Some q -> w_path (sanitize_path w2) = Some q -> w_hash w1 = w_hash w2.
Proof.
  intros P1 P2 N1 N2 H1 H2 G1 G2 S1 S2 L1 L2 E1 E2.
  destruct (sanitize_cases w1 p1 P1 N1 G1) as (q1 & Q1 & _ & [[? _]|(_ & t1 & _ & B1 & _)]); [tauto|].
  destruct (sanitize_cases w2 p2 P2 N2 G2) as (q2 & Q2 & _ & [[? _]|(_ & t2 & _ & B2 & _)]); [tauto|].
  rewrite E1 in Q1. injection Q1 as <-. rewrite E2 in Q2. injection Q2 as <-. rewrite B1 in B2.
  assert (B2' : (t1 ++ cDot :: hexl 16 (w_hash w1)) ++ used_ext p1 (w_ext w1) = (t2 ++ cDot :: hexl 16 (w_hash w2)) ++ used_ext p2 (w_ext w2)).
  { rewrite <- !app_assoc. exact B2. }
  destruct (app_suffix_cases _ _ _ _ B2') as [(x & Ex & _)|(x & Ex & _)].
  - eapply trunc_inj; [exact H1 | exact H2 | apply used_ext_dot | apply used_ext_pieces; exact S2 | exists x; exact Ex | exact B2].
  - symmetry. eapply trunc_inj; [exact H2 | exact H1 | apply used_ext_dot | apply used_ext_pieces; exact S1 | exists x; exact Ex | symmetry; exact B2].
Qed.

(** ** Unknown paths *)

Lemma set_unknown_spec dir w :
  match truthy (w_path w) with
  | Some _ => set_unknown_path dir w = w
  | None => w_path (set_unknown_path dir w) =
            Some (dir ++ lit "/" ++ hexl 16 (w_hash w) ++ match truthy (w_ext w) with Some e => lit "." ++ e | None => [] end)
  end.
Proof.
  unfold set_unknown_path. destruct (truthy (w_path w)); [reflexivity|].
  destruct (truthy (w_ext w)); cbn [set_path w_path]; rewrite ?app_nil_r; reflexivity.
Qed.
Lemma set_unknown_inj dir w1 w2 q :
  w_hash w1 < 2 ^ 64 -> w_hash w2 < 2 ^ 64 ->
  truthy (w_path w1) = None -> truthy (w_path w2) = None ->
  w_path (set_unknown_path dir w1) = Some q -> w_path (set_unknown_path dir w2) = Some q -> w_hash w1 = w_hash w2.
Proof.
  intros H1 H2 T1 T2 E1 E2. pose proof (set_unknown_spec dir w1) as S1. pose proof (set_unknown_spec dir w2) as S2.
  rewrite T1 in S1. rewrite T2 in S2. rewrite E1 in S1. rewrite E2 in S2. rewrite S1 in S2.
  assert (S3 : forall a b : str, Some a = Some b -> a = b) by congruence. apply S3 in S2. clear S3.
  apply app_inv_head, app_inv_head in S2.
  apply (hexl_inj 16). apply (f_equal (takeN 16)) in S2.
  rewrite !(takeN_app_n _ _ 16) in S2 by (apply hex_len16; assumption). assumption.
Qed.
Lemma set_unknown_keeps dir w :
  let w' := set_unknown_path dir w in
  w_hash w' = w_hash w /\ w_off w' = w_off w /\ w_csize w' = w_csize w /\ w_size w' = w_size w /\ w_type w' = w_type w /\
  w_count w' = w_count w /\ w_dup w' = w_dup w /\ w_first w' = w_first w /\ w_sha w' = w_sha w /\ w_ext w' = w_ext w /\
  truthy (w_path w') <> None.
Proof.
  cbn zeta. unfold set_unknown_path. destruct (truthy (w_path w)) eqn:E.
  - repeat (split; [reflexivity|]). congruence.
  - destruct (truthy (w_ext w)); cbn; repeat (split; [reflexivity|]); destruct dir; discriminate.
Qed.

(** ** Extensions *)

Section Ext.
  Variable unzstd gunzip : bytes -> result bytes.
  Variable xxh3 : bytes -> N.
  Variable json_loads : bytes -> result unit.

  Lemma first_match_spec t data :
    match first_match t data with
    | Some ext => exists pre m post, t = pre ++ (m, ext) :: post /\ matches m data = true /\
                    forall m' e', In (m', e') pre -> matches m' data = false
    | None => forall m e, In (m, e) t -> matches m data = false
    end.
  Proof.
    induction t as [|[m e] t IH]; cbn [first_match]; [intros ? ? []|].
    destruct (matches m data) eqn:E.
    - exists [], m, t. split; [reflexivity|]. split; [assumption|]. intros ? ? [].
    - destruct (first_match t data) as [ext|].
      + destruct IH as (pre & m' & post & -> & Hm & Hpre). exists ((m, e) :: pre), m', post.
        split; [reflexivity|]. split; [assumption|]. intros a b [Hi|Hi]; [injection Hi as <- <-; assumption | eauto].
      + intros a b [Hi|Hi]; [injection Hi as <- <-; assumption | eauto].
  Qed.

  Notation guess := (guess_extensions gunzip unzstd xxh3 json_loads).
  Notation loop := (guess_loop gunzip unzstd xxh3 json_loads).

  Definition ext_result (c c' : cache) (w w' : wfile) : Prop :=
    w' = set_ext w (w_ext w') /\
    (forall e, truthy (w_ext w) = Some e -> w_ext w' = Some e) /\
    (truthy (w_ext w) = None -> forall e, dget (w_hash w) c = Some (Some e) -> e <> [] -> w_ext w' = Some e).

  Lemma truthy_some o e : truthy o = Some e -> o = Some e /\ e <> [].
  Proof. unfold truthy. destruct o as [[|? ?]|]; intros E; try discriminate. injection E as <-. split; [reflexivity | discriminate]. Qed.
  Lemma truthy_none o : truthy o = None <-> o = None \/ o = Some [].
  Proof. unfold truthy. destruct o as [[|? ?]|]; split; intros H; try discriminate; auto. destruct H; discriminate. Qed.

  Lemma set_ext_id w : set_ext w (w_ext w) = w.
  Proof. destruct w; reflexivity. Qed.

  (** The loop: files with an extension are untouched; entries of other hashes are kept in the cache. *)
  Lemma loop_spec f toc : forall files c c' files',
    loop f toc c files = Ok (c', files') ->
    Forall2 (fun w w' => w' = set_ext w (w_ext w') /\ (forall e, truthy (w_ext w) = Some e -> w' = w)) files files' /\
    (forall h, (forall w, In w files -> w_hash w = h -> truthy (w_ext w) <> None) -> dget h c' = dget h c).
  Proof.
    induction files as [|w files IH]; intros c c' files'; cbn [guess_loop].
    - intros E. injection E as <- <-. split; [constructor | reflexivity].
    - destruct (truthy (w_ext w)) as [e|] eqn:Et.
      + intros E. apply rbind_Ok in E as ([c1 t1] & E & E'). injection E' as <- <-. apply IH in E as [HF Hc].
        split; [constructor; [split; [symmetry; apply set_ext_id | auto] | assumption]|].
        intros h Hh. apply Hc. intros w' Hi. apply Hh. right. assumption.
      + intros E. apply rbind_Ok in E as (data & Ed & E).
        assert (Hskip : loop f toc c files = Ok (c', tl files') /\ files' = w :: tl files' ->
          Forall2 (fun w w' => w' = set_ext w (w_ext w') /\ (forall e, truthy (w_ext w) = Some e -> w' = w)) (w :: files) files' /\
          (forall h, (forall w0, In w0 (w :: files) -> w_hash w0 = h -> truthy (w_ext w0) <> None) -> dget h c' = dget h c)).
        { intros [E1 E2]. apply IH in E1 as [HF Hc]. rewrite E2. split.
          - constructor; [split; [symmetry; apply set_ext_id | auto] | assumption].
          - intros h Hh. apply Hc. intros w' Hi. apply Hh. right. assumption. }
        destruct data as [[|b d]|].
        * apply rbind_Ok in E as ([c1 t1] & E & E'). injection E' as <- <-. apply Hskip. auto.
        * apply rbind_Ok in E as (ext & Ee & E). apply rbind_Ok in E as ([c1 t1] & E & E'). injection E' as <- <-.
          apply IH in E as [HF Hc]. split.
          -- constructor; [split; [reflexivity | intros e' H'; congruence] | assumption].
          -- intros h Hh. rewrite Hc by (intros w' Hi; apply Hh; right; assumption).
             apply dget_dset_other. intros ->. apply (Hh w); [left; reflexivity | reflexivity | assumption].
        * apply rbind_Ok in E as ([c1 t1] & E & E'). injection E' as <- <-. apply Hskip. auto.
  Qed.

  Lemma loop_guess f toc : forall files c c' files',
    loop f toc c files = Ok (c', files') ->
    Forall2 (fun w w' => truthy (w_ext w) = None ->
      exists r, read_file_data gunzip unzstd xxh3 f toc w = Ok r /\
      match r with
      | Some (b :: d) => guess_extension json_loads (b :: d) = Ok (w_ext w')
      | _ => w' = w
      end) files files'.
  Proof.
    induction files as [|w files IH]; intros c c' files'; cbn [guess_loop].
    - intros E. injection E as <- <-. constructor.
    - destruct (truthy (w_ext w)) as [e|] eqn:Et.
      + intros E. apply rbind_Ok in E as ([c1 t1] & E & E'). injection E' as <- <-. apply IH in E.
        constructor; [congruence | assumption].
      + intros E. apply rbind_Ok in E as (data & Ed & E). destruct data as [[|b d]|].
        * apply rbind_Ok in E as ([c1 t1] & E & E'). injection E' as <- <-. apply IH in E.
          constructor; [|assumption]. intros _. eexists. split; [exact Ed | reflexivity].
        * apply rbind_Ok in E as (ext & Ee & E). apply rbind_Ok in E as ([c1 t1] & E & E'). injection E' as <- <-. apply IH in E.
          constructor; [|assumption]. intros _. eexists. split; [exact Ed | exact Ee].
        * apply rbind_Ok in E as ([c1 t1] & E & E'). injection E' as <- <-. apply IH in E.
          constructor; [|assumption]. intros _. eexists. split; [exact Ed | reflexivity].
  Qed.

  (** Files whose extension is neither known nor cached get the guess for their data. *)
  Lemma guess_new f toc c files c' files' :
    guess f toc c files = Ok (c', files') ->
    Forall2 (fun w w' => truthy (w_ext w) = None -> truthy (match dget (w_hash w) c with Some e => e | None => None end) = None ->
      exists r, read_file_data gunzip unzstd xxh3 f toc w = Ok r /\
      match r with
      | Some (b :: d) => guess_extension json_loads (b :: d) = Ok (w_ext w')
      | _ => truthy (w_ext w') = None
      end) files files'.
  Proof.
    unfold guess_extensions. destruct (existsb _ _) eqn:Eex.
    - intros E. apply loop_guess in E. revert files' E. clear Eex. induction files as [|w files IH]; intros files' HF; cbn [map] in HF.
      + inversion HF. constructor.
      + inversion HF as [|? w' ? t' Hw HF']; subst. constructor; [|apply IH; assumption].
        intros Hn Hc. unfold ext_from_cache in Hw. rewrite Hn in Hw. cbn [set_ext w_ext] in Hw. specialize (Hw Hc) as (r & Er & Hr).
        exists r. split; [exact Er|]. destruct r as [[|b d]|]; [| assumption |]; rewrite Hr; assumption.
    - intros E. injection E as <- <-. induction files as [|w files IH]; cbn [map] in *; [constructor|].
      cbn [existsb] in Eex. apply orb_false_iff in Eex as [E1 E2]. constructor; [|apply IH; assumption].
      intros Hn Hc. exfalso. unfold ext_from_cache in E1. rewrite Hn in E1. cbn [set_ext w_ext] in E1. rewrite Hc in E1. discriminate.
  Qed.

  Lemma guess_spec f toc c files c' files' :
    guess f toc c files = Ok (c', files') ->
    Forall2 (ext_result c c') files files' /\
    (forall h e, dget h c = Some (Some e) -> e <> [] -> dget h c' = Some (Some e)).
  Proof.
    unfold guess_extensions.
    assert (Hcache : forall w, ext_result c c' w (ext_from_cache c w)).
    { intros w. unfold ext_result, ext_from_cache. destruct (truthy (w_ext w)) as [e|] eqn:Et.
      - split; [symmetry; apply set_ext_id|]. apply truthy_some in Et as [-> ?]. split; [auto | discriminate].
      - split; [reflexivity|]. split; [discriminate|]. intros _ e -> _. reflexivity. }
    destruct (existsb _ _).
    - intros E. apply loop_spec in E as [HF Hc]. split.
      + clear Hc. revert files' HF. induction files as [|w files IH]; intros files' HF; cbn [map] in HF.
        * inversion HF. constructor.
        * inversion HF as [|? w' ? t' [Hw1 Hw2] HF']; subst. constructor; [|apply IH; assumption].
          destruct (Hcache w) as (H1 & H2 & H3).
          assert (Hx : forall e, truthy (w_ext (ext_from_cache c w)) = Some e -> w_ext w' = Some e).
          { intros e He. rewrite (Hw2 e He). apply truthy_some in He. apply He. }
          split; [|split].
          -- rewrite Hw1, H1. destruct w; reflexivity.
          -- intros e He. apply Hx. rewrite (H2 e He). apply truthy_some in He as [_ He]. destruct e; [congruence | reflexivity].
          -- intros Hn e He Hne. apply Hx. rewrite (H3 Hn e He Hne). destruct e; [congruence | reflexivity].
      + intros h e He Hne. rewrite Hc; [assumption|]. intros w' Hi Hh. apply in_map_iff in Hi as (w & <- & _).
        unfold ext_from_cache in *. destruct (truthy (w_ext w)) eqn:Et; [congruence|].
        cbn [set_ext w_hash w_ext] in *. subst h. rewrite He. destruct e; [congruence | discriminate].
    - intros E. injection E as <- <-. split; [|auto]. clear -Hcache. induction files; cbn [map]; constructor; auto.
  Qed.

  (** Any sequence of archives: once a hash has a known extension it keeps it, and every file of
      that hash without extension receives it. *)
  Inductive guess_run : cache -> list (list wfile * list wfile) -> cache -> Prop :=
  | gr_nil c : guess_run c [] c
  | gr_cons c f toc files files' c' l c'' :
      guess f toc c files = Ok (c', files') -> guess_run c' l c'' -> guess_run c ((files, files') :: l) c''.

  Lemma guess_run_spec c l c'' : guess_run c l c'' ->
    forall h e, dget h c = Some (Some e) -> e <> [] ->
    dget h c'' = Some (Some e) /\
    forall files files', In (files, files') l ->
      Forall2 (fun w w' => w_hash w = h -> w_ext w' = Some (match truthy (w_ext w) with Some x => x | None => e end)) files files'.
  Proof.
    induction 1 as [c|c f toc files files' c' l c'' Hg Hr IH]; intros h e He Hne.
    - split; [assumption|]. intros ? ? [].
    - apply guess_spec in Hg as [HF Hc]. pose proof (Hc h e He Hne) as He'. destruct (IH h e He' Hne) as [I1 I2].
      split; [assumption|]. intros a b [Hi|Hi]; [|apply I2; assumption]. injection Hi as <- <-.
      clear -HF He Hne. induction HF as [|w w' ws ws' (H1 & H2 & H3) HF IH]; constructor; [|assumption].
      intros <-. destruct (truthy (w_ext w)) as [x|] eqn:Et; [apply H2; reflexivity | apply H3; auto].
  Qed.
End Ext.

(** ** Signatures *)

Lemma map_b2n_inj a b : map b2n a = map b2n b -> a = b.
Proof. revert b. induction a as [|x a IH]; intros [|y b] E; try discriminate; [reflexivity|]. injection E as E1 E2. apply b2n_inj in E1. f_equal; auto. Qed.
Lemma map_eq_app' {A B} (f : A -> B) l l1 l2 : map f l = l1 ++ l2 -> exists a b, l = a ++ b /\ map f a = l1 /\ map f b = l2.
Proof. intros E. apply map_eq_app in E as (a & b & -> & <- & <-). eauto. Qed.

Definition sig_of (m : matcher) : option (list N) := match m with MPrefix b => Some (map b2n b) | MJpeg => None end.
Lemma matches_iff m data : matches m data = true <-> has_signature (sig_of m) data.
Proof.
  destruct m as [b|]; cbn [matches sig_of has_signature].
  - rewrite startswith_iff. split.
    + intros (r & ->). exists (map b2n r). apply map_app.
    + intros (r & E). apply map_eq_app' in E as (a & r' & -> & Ea & _). apply map_b2n_inj in Ea as ->. eauto.
  - cbn zeta. rewrite orb_true_iff, !eqbT. unfold sliceN. change (10 - 6) with 4. split.
    + intros H.
      assert (G : forall m, lenN m = 4 -> takeN 4 (dropN 6 data) = m ->
                  exists a rest, lenN a = 6 /\ map b2n data = a ++ map b2n m ++ rest).
      { intros m Hm E. exists (map b2n (takeN 6 data)), (map b2n (dropN 4 (dropN 6 data))). split.
        - rewrite lenN_map, lenN_takeN. apply (f_equal lenN) in E. rewrite lenN_takeN, lenN_dropN in E. lia.
        - rewrite <- E, <- !map_app, !takeN_dropN. reflexivity. }
      destruct H as [H|H]; apply G in H; try reflexivity; destruct H as (a & rest & Ha & E); exists a, rest; auto.
    + intros (a & rest & Ha & H).
      assert (G : forall m, lenN m = 4 -> map b2n data = a ++ map b2n m ++ rest -> takeN 4 (dropN 6 data) = m).
      { intros m Hm E. apply map_eq_app' in E as (a' & r1 & -> & Ea & E). apply map_eq_app' in E as (m' & r2 & -> & Em & _).
        apply map_b2n_inj in Em as ->. rewrite dropN_app_n by (rewrite <- Ha, <- Ea, lenN_map; reflexivity). apply takeN_app_n. assumption. }
      destruct H as [H|H]; [left | right]; apply G; try reflexivity; assumption.
Qed.
Lemma table_signatures : map (fun '(m, e) => (sig_of m, e)) magic_table = signatures.
Proof. reflexivity. Qed.

Lemma guess_extension_spec json_loads data :
  (forall ext, first_signature data ext -> guess_extension json_loads data = Ok (Some ext)) /\
  ((forall s e, In (s, e) signatures -> ~ has_signature s data) ->
   guess_extension json_loads data =
   match json_loads data with
   | Ok _ => Ok (Some (lit "json"))
   | Err ValueError | Err UnicodeDecodeError => Ok None
   | Err e => Err e
   end).
Proof.
  unfold guess_extension. split.
  - intros ext (pre & sg & post & Et & Hs & Hpre). rewrite <- table_signatures in Et.
    apply map_eq_app in Et as (pre' & l & El & Epre & Ep). destruct l as [|[m e] post']; [discriminate|]. injection Ep as <- <- <-.
    rewrite El. apply matches_iff in Hs. clear El.
    replace (first_match (pre' ++ (m, e) :: post') data) with (Some e); [reflexivity|]. subst pre.
    induction pre' as [|[m' e'] pre' IH]; cbn [app first_match].
    + rewrite Hs. reflexivity.
    + destruct (matches m' data) eqn:E.
      * exfalso. apply matches_iff in E. apply (Hpre (sig_of m') e'); [left; reflexivity | assumption].
      * apply IH. intros s x Hi. apply (Hpre s x). right. assumption.
  - intros H. replace (first_match magic_table data) with (@None str); [reflexivity|]. symmetry.
    pose proof (first_match_spec magic_table data) as F. destruct (first_match magic_table data) as [ext|]; [|reflexivity].
    destruct F as (pre & m & post & Et & Hm & _). exfalso. apply matches_iff in Hm. apply (H (sig_of m) ext); [|assumption].
    rewrite <- table_signatures, Et. apply in_map_iff. exists (m, ext). split; [reflexivity|]. apply in_or_app. right. left. reflexivity.
Qed.
