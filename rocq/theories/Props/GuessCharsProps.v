(** * C67: guessing of the files of characters, shaders and fixed patterns *)

From Coq Require Import Sorted Permutation.
From Verif Require Import Base.Py Base.PyFacts Base.Text Base.TextFacts Model.Hashes Model.Patcher Model.Rads Model.Guess Model.GuessPaths Model.GuessChars.
From Verif Require Import Spec.HashesSpec Spec.GuessSpec Spec.GuessPathsSpec Spec.StorageSpec Spec.GuessCharsSpec Proofs.HashesProofs Proofs.GuessProofs Proofs.GuessPathsProofs Proofs.GuessCharsProofs Props.GuessProps Props.GuessPathsProps.

Section C67.
  Variable H : str -> Z.
  Variable other : str -> list parg -> result str.

  Theorem C67_characters g : (forall c, In c (get_characters g) <-> exists p, In p (dvals (g_known g)) /\ of_character p c) /\ StronglySorted (fun a b => str_lt a b = true) (get_characters g).
  Proof. split; [apply characters_In | apply str_sorted_strict, set_of_NoDup]. Qed.

  (** [order] is the order in which a set of skins is enumerated: found paths are known paths with other skins of the same
      character, all different, and for each choice of skins one of their orders is tried. *)
  Theorem C67_skins order g : guesser_ok g -> (forall l, Permutation l (order l)) -> (forall p c k, In p (dvals (g_known g)) -> first_skin p c k -> ~ In 37 p) ->
    let skin_known c k := exists p, In p (dvals (g_known g)) /\ first_skin p c k in
    let choice p c q ks := In p (dvals (g_known g)) /\ (exists k, first_skin p c k) /\ c <> lit "sightward" /\ filled p q ks /\ NoDup ks /\ Forall (skin_known c) ks in
    exists g', substitute_skin_numbers H other order g = (g', Ok tt) /\
      grows H (fun q => exists p c ks, choice p c q ks) g g' /\
      forall p c ks q, choice p c q ks -> exists ks' q', Permutation ks ks' /\ filled p q' ks' /\ ~ In (H q') (g_unknown g').
  Proof.
    intros Hg Ho Hk skin_known choice. destruct (skins_spec H other order g Hg Ho Hk) as (g' & E & HG & HT). exists g'. split; [assumption|]. split.
    - eapply grows_weaken; [|exact HG]. intros q (p & c & k & ks & H1 & H2 & H3). exists p, c, ks. unfold choice. split; [assumption|]. split; [eauto | assumption].
    - intros p c ks q (H1 & (k & H2) & H3 & H4 & H5 & H6). eauto.
  Qed.
  (** A path with one skin is tried with all skins of its character. *)
  Theorem C67_one_skin order g p c k k' a b : guesser_ok g -> (forall l, Permutation l (order l)) -> (forall p c k, In p (dvals (g_known g)) -> first_skin p c k -> ~ In 37 p) ->
    In p (dvals (g_known g)) -> first_skin p c k -> c <> lit "sightward" -> (exists p', In p' (dvals (g_known g)) /\ first_skin p' c k') ->
    filled p (a ++ k' ++ b) [k'] -> ~ In (H (a ++ k' ++ b)) (g_unknown (fst (substitute_skin_numbers H other order g))).
  Proof.
    intros Hg Ho Hk Hp Hf Hn Hk' Hfi. destruct (skins_spec H other order g Hg Ho Hk) as (g' & -> & _ & HT). cbn [fst].
    destruct (HT p c k [k'] (a ++ k' ++ b) Hp Hf Hn Hfi) as (ks' & q' & Hpe & Hfi' & Hu); [repeat constructor; intros [] | repeat constructor; assumption|].
    apply Permutation_length_1_inv in Hpe as ->. pose proof (Hk _ _ _ Hp Hf) as Hpl. apply (filled_format other p Hpl) in Hfi as [_ E1]. apply (filled_format other p Hpl) in Hfi' as [_ E2].
    pose proof (eq_trans (eq_sym E1) E2) as F. assert (a ++ k' ++ b = q') as -> by (inversion F; reflexivity). assumption.
  Qed.

  Theorem C67_groups g : guesser_ok g ->
    let has c n := exists p, In p (dvals (g_known g)) /\ numbered_skin p c n in
    let cand q := exists c l, (exists n, has c n) /\ c <> lit "sightward" /\ l <> [] /\ (forall n, In n l -> n = 0 \/ has c n) /\
      StronglySorted (fun a b => str_lt (lit "_skins_skin" ++ dec a) (lit "_skins_skin" ++ dec b) = true) l /\ q = lit "data/" ++ c ++ concat (map (fun n => lit "_skins_skin" ++ dec n) l) ++ lit ".bin" in
    grows H cand g (guess_skin_groups_bin H g) /\ all_tried H cand (guess_skin_groups_bin H g).
  Proof.
    intros Hg has cand. eapply explored_iff; [|apply skin_groups_spec; assumption]. intros q. cbv beta. unfold cand.
    assert (HS : forall l, StronglySorted slt (map skin_text l) <-> StronglySorted (fun a b => str_lt (lit "_skins_skin" ++ dec a) (lit "_skins_skin" ++ dec b) = true) l).
    { induction l as [|n l IH]; cbn [map]; [split; constructor|]. split; intros E; inversion E; subst; constructor; [apply IH; assumption | rewrite Forall_map in *; assumption | apply IH; assumption | rewrite Forall_map in *; assumption]. }
    split.
    - intros (c & l & (p & n & H1 & H2) & H3 & H4 & H5 & H6 & ->). exists c, l. split; [exists n, p; auto|]. split; [assumption|]. split; [assumption|]. split; [assumption|]. split; [apply HS; assumption | reflexivity].
    - intros (c & l & (n & p & H1 & H2) & H3 & H4 & H5 & H6 & ->). exists c, l. split; [exists p, n; auto|]. split; [assumption|]. split; [assumption|]. split; [assumption|]. split; [apply HS; assumption | reflexivity].
  Qed.

  (** [d] belongs to the character [c]. *)
  Let of_char (c : str) (d : skin_data) : Prop := part c /\ exists r, sk_path d = lit "/lol-game-data/assets/assets/characters/" ++ c ++ lit "/skins/" ++ r.
  Let name (i : Z) : str := lit "_skins_skin" ++ dec (Z.to_N (i mod 1000)).
  Theorem C67_chromas data g : guesser_ok g -> (forall d, In d data -> exists c, of_char c d) ->
    let cand q := exists c groups root names, (exists d, In d data /\ of_char c d) /\ subseq groups data /\ Forall (of_char c) groups /\ (root = [] /\ groups <> [] \/ root = [lit "_skins_root"]) /\
      Permutation names (flat_map (fun d => map name (sk_id d :: sk_chromas d)) groups ++ root) /\ StronglySorted (fun a b => str_lt b a = false) names /\ q = lit "data/" ++ c ++ concat names ++ lit ".bin" in
    exists g', guess_using_chromas H data g = (g', Ok tt) /\ grows H cand g g' /\ all_tried H cand g'.
  Proof.
    intros Hg Hd cand. destruct (chromas_spec H data g Hg Hd) as (g' & E & He). exists g'. split; [assumption|]. eapply explored_iff; [|exact He].
    intros q. cbv beta. unfold cand. assert (HM : forall l, concat (map group_names l) = flat_map (fun d => map name (sk_id d :: sk_chromas d)) l) by (intros l; symmetry; apply flat_map_concat_map).
    split; intros (c & gs & root & names & H1 & H2 & H3 & H4 & H5 & H6 & ->); exists c, gs, root, names; repeat (split; [assumption|]); (split; [|auto]); [rewrite <- HM | rewrite HM]; assumption.
  Qed.
  Theorem C67_chromas_fail data g d : In d data -> (forall c, ~ of_char c d) -> guess_using_chromas H data g = (g, Err AttributeError).
  Proof. intros Hd Hn. apply chromas_fail. exists d. split; [assumption|]. intros c r Hc E. apply (Hn c). split; [assumption|]. eauto. Qed.

  Theorem C67_files chars g : guesser_ok g ->
    let cand q := exists c, match chars with Some l => In c l | None => exists p, In p (dvals (g_known g)) /\ of_character p c end /\
      (q = lit "characters/" ++ c \/
       (exists pre, (pre = lit "assets/" \/ pre = lit "data/") /\ exists s, (s = lit "circle" \/ s = lit "square") /\ q = pre ++ lit "characters/" ++ c ++ lit "/hud/" ++ c ++ lit "_" ++ s ++ lit ".dds") \/
       (exists r, q = lit "data/characters/" ++ c ++ lit "/" ++ r /\
        (r = lit "skins/root.bin" \/ r = lit "tiers/root.bin" \/ r = c ++ lit ".bin" \/ r = c ++ lit ".ddf" \/
         (exists s, In s [lit ".skl"; lit ".skn"; lit "_tx_cm.dds"] /\ r = lit "skins/base/" ++ c ++ s) \/
         (exists s i, (s = lit "skins" \/ s = lit "animations") /\ (i < 200 \/ c = lit "sightward" /\ i < 500) /\ r = s ++ lit "/skin" ++ dec i ++ lit ".bin") \/
         (exists i, (exists t, c = lit "pet" ++ t) /\ i < 10 /\ r = lit "tiers/tier" ++ dec i ++ lit ".bin")))) in
    grows H cand g (guess_characters_files H chars g) /\ all_tried H cand (guess_characters_files H chars g).
  Proof.
    intros Hg cand. unfold guess_characters_files. eapply explored_iff; [|apply explored_all; assumption]. intros q. cbv beta. rewrite in_flat_map. unfold cand.
    assert (HC : forall c, In c (py_sorted str_lt match chars with Some l => l | None => get_characters g end) <-> match chars with Some l => In c l | None => exists p, In p (dvals (g_known g)) /\ of_character p c end).
    { intros c. assert (HP : forall l, In c (py_sorted str_lt l) <-> In c l) by (intros l; split; apply Permutation_in; [apply Permutation_sym|]; apply py_sorted_perm). rewrite HP. destruct chars; [reflexivity | apply characters_In]. }
    assert (HK : forall c i, i < (if eqb c (lit "sightward") then 500 else 200) <-> i < 200 \/ c = lit "sightward" /\ i < 500).
    { intros c i. destruct (eqbP c (lit "sightward")) as [->|Hn]; [|tauto]. split; [auto|]. intros [Hi|[_ Hi]]; lia. }
    apply Morphisms_Prop.ex_iff_morphism. intros c. rewrite HC. apply Morphisms_Prop.and_iff_morphism; [reflexivity|].
    unfold character_files, skin_files. rewrite !in_app_iff. cbv zeta. split.
    - intros [Hq|[Hq|[Hq|Hq]]].
      + cbn [In] in Hq. decompose [or] Hq; subst; try contradiction;
          [right; right; exists (lit "skins/root.bin") | right; right; exists (lit "skins/base/" ++ c ++ lit ".skl") | right; right; exists (lit "skins/base/" ++ c ++ lit ".skn") | right; right; exists (lit "skins/base/" ++ c ++ lit "_tx_cm.dds") |
           right; right; exists (lit "tiers/root.bin") | right; right; exists (c ++ lit ".bin") | right; right; exists (c ++ lit ".ddf") | | | | | left; reflexivity];
          try (split; [reflexivity|]; cbn [In]; eauto 12; fail).
        * right. left. exists (lit "data/"). split; [auto|]. exists (lit "circle"). auto.
        * right. left. exists (lit "data/"). split; [auto|]. exists (lit "square"). auto.
        * right. left. exists (lit "assets/"). split; [auto|]. exists (lit "circle"). auto.
        * right. left. exists (lit "assets/"). split; [auto|]. exists (lit "square"). auto.
      + apply in_map_iff in Hq as (i & <- & Hi). apply rangeN_In, HK in Hi. right. right. exists (lit "skins/skin" ++ dec i ++ lit ".bin"). split; [reflexivity|]. do 5 right. left. exists (lit "skins"), i. auto.
      + apply in_map_iff in Hq as (i & <- & Hi). apply rangeN_In, HK in Hi. right. right. exists (lit "animations/skin" ++ dec i ++ lit ".bin"). split; [reflexivity|]. do 5 right. left. exists (lit "animations"), i. auto.
      + destruct (startswith c (lit "pet")) eqn:E; [|destruct Hq]. apply in_map_iff in Hq as (i & <- & Hi). apply rangeN_In in Hi. apply startswith_iff in E. right. right. exists (lit "tiers/tier" ++ dec i ++ lit ".bin"). split; [reflexivity|].
        do 6 right. eauto.
    - intros [->|[(pre & Hpre & s & Hs & ->)|(r & -> & Hr)]].
      + left. cbn [In]. auto 20.
      + left. destruct Hpre as [->| ->], Hs as [->| ->]; cbn [In]; auto 20.
      + destruct Hr as [->|[->|[->|[->|[(s & Hs & ->)|[(s & i & Hs & Hi & ->)|(i & Hc & Hi & ->)]]]]]]; try (left; cbn [In]; auto 20; fail).
        * left. destruct Hs as [<-|[<-|[<-|[]]]]; cbn [In]; auto 20.
        * right. destruct Hs as [->| ->]; [left | right; left]; apply in_map_iff; exists i; (split; [reflexivity | apply rangeN_In, HK; assumption]).
        * right. right. right. apply startswith_iff in Hc. rewrite Hc. apply in_map_iff. exists i. split; [reflexivity | apply rangeN_In; assumption].
  Qed.

  Theorem C67_shaders g : guesser_ok g ->
    let cand q := exists p s v, In p (dvals (g_known g)) /\ shader p s /\ In v [lit ".dx11"; lit ".dx9"; lit ".dx9sm3"; lit ".glsl"; lit ".metal"; lit "-dx11"; lit "-metal"] /\
      (q = s ++ v \/ exists n, n < 20000 /\ n mod 100 = 0 /\ q = s ++ v ++ lit "_" ++ dec n) in
    grows H cand g (guess_shader_variants H g) /\ all_tried H cand (guess_shader_variants H g).
  Proof.
    intros Hg cand. eapply explored_iff; [|apply shaders_spec; assumption]. intros q. cbv beta. unfold cand. split; intros (p & s & v & H1 & H2 & H3 & H4); exists p, s, v; (split; [assumption|]); (split; [assumption|]); (split; [assumption|]).
    - destruct H4 as [->|(n & Hn & ->)]; [auto|]. right. exists (100 * n). split; [lia|]. split; [rewrite N.mul_comm; apply N.mod_mul; discriminate | reflexivity].
    - destruct H4 as [->|(n & Hn & Hm & ->)]; [auto|]. right. exists (n / 100). assert (E : n = 100 * (n / 100)) by (pose proof (N.div_mod n 100 ltac:(discriminate)); lia). split; [lia | rewrite <- E; reflexivity].
  Qed.

  Lemma patterns_from (l1 l2 : list str) (cand : str -> Prop) g : guesser_ok g -> (forall q, In q (l1 ++ l2) <-> cand q) ->
    let splash g1 q := exists p, In p (dvals (g_known g1)) /\ loot_splash (replaced (eq (lit ".png")) (lit "_splash.png")) p q /\ In (H q) (g_unknown g1) in
    let run := let g := check_all H l2 (check_all H l1 g) in splash_loop H (known g) (length (g_known g)) g in
    exists g1, grows H cand g g1 /\ all_tried H cand g1 /\
      (((forall q, ~ splash g1 q) /\ run = (g1, Ok tt)) \/
       exists g2 q, splash g1 q /\ run = (g2, Err RuntimeError) /\ grows H (eq q) g1 g2 /\ dget (H q) (g_known g2) = Some q /\ length (g_known g2) = S (length (g_known g1))).
  Proof.
    intros Hg Hc splash. cbv zeta.
    pose proof (explored_all H l1 g Hg) as H1. set (g0 := check_all H l1 g) in *. assert (Hg0 : guesser_ok g0) by apply H1.
    pose proof (explored_all H l2 g0 Hg0) as H2. set (g1 := check_all H l2 g0) in *. assert (Hg1 : guesser_ok g1) by apply H2. exists g1.
    assert (HE : explored H cand g g1).
    { unfold g1, g0, check_all. rewrite <- fold_left_app. fold (check_all H (l1 ++ l2) g). eapply explored_iff; [|apply explored_all; assumption]. exact Hc. }
    split; [apply HE|]. split; [apply HE|].
    assert (HD : (exists q, splash_of (known g1) q /\ In (H q) (g_unknown g1)) \/ forall q, splash_of (known g1) q -> ~ In (H q) (g_unknown g1)).
    { generalize (known g1) as l. induction l as [|p l IH]; [right; intros q (p & [] & _)|]. destruct IH as [(q & (p' & Hp & Hs) & Hu)|Hn]; [left; exists q; split; [exists p'; split; [right; assumption | assumption] | assumption]|].
      destruct (startswith p loot_icons) eqn:E.
      - destruct (in_dec Z.eq_dec (H (str_replace (lit ".png") (lit "_splash.png") p)) (g_unknown g1)) as [Hi|Hi].
        + left. eexists. split; [|exact Hi]. exists p. split; [left; reflexivity|]. split; [apply loot_start; assumption | apply replaced_png; reflexivity].
        + right. intros q (p' & [<-|Hp] & Hs); [|apply Hn; exists p'; auto]. destruct Hs as [_ Hs]. apply replaced_png in Hs as ->. assumption.
      - right. intros q (p' & [<-|Hp] & Hs); [|apply Hn; exists p'; auto]. destruct Hs as [Hs _]. apply loot_start in Hs. congruence. }
    destruct HD as [He|Hn].
    - right. destruct (splash_loop_some H (known g1) g1 Hg1 He) as (q & (p & Hp & Hs) & Hu & ->). exists (check H q g1), q. split; [exists p; auto|]. split; [reflexivity|].
      split; [apply check_grows; assumption|]. split; [|apply check_found; assumption]. unfold check. rewrite (proj2 (mem_In _ _) Hu). unfold add_known. cbn [g_known]. apply dget_dset_same.
    - left. split; [intros q (p & Hp & Hs & Hu); apply (Hn q); [exists p; auto | assumption]|]. apply splash_loop_none. assumption.
  Qed.
  (** After the fixed patterns [g1] is reached; the search for splashes then stops with an exception as soon as one is found. *)
  Theorem C67_patterns g : guesser_ok g ->
    let cand q := perk_path q \/ sanitizer_path languages regions q in
    let splash g1 q := exists p, In p (dvals (g_known g1)) /\ loot_splash (replaced (eq (lit ".png")) (lit "_splash.png")) p q /\ In (H q) (g_unknown g1) in
    exists g1, grows H cand g g1 /\ all_tried H cand g1 /\
      (((forall q, ~ splash g1 q) /\ guess_patterns H g = (g1, Ok tt)) \/
       exists g2 q, splash g1 q /\ guess_patterns H g = (g2, Err RuntimeError) /\ grows H (eq q) g1 g2 /\ dget (H q) (g_known g2) = Some q /\ length (g_known g2) = S (length (g_known g1))).
  Proof.
    intros Hg cand splash. apply (patterns_from perk_paths sanitizer_paths cand g Hg). intros q. unfold cand. rewrite in_app_iff, perk_paths_In, sanitizer_In. reflexivity.
  Qed.
End C67.

(** The same skin twice is never tried. *)
Theorem C67_skins_refuted : exists H g p q, guesser_ok g /\ In p (dvals (g_known g)) /\ (exists p' c k, In p' (dvals (g_known g)) /\ first_skin p' c k /\ first_skin p c (lit "base") /\ filled p q [k; k]) /\
  forall other order, (forall l, Permutation l (order l)) -> In (H q) (g_unknown (fst (substitute_skin_numbers H other order g))).
Proof.
  exists ex_guess_hash, (ex_known [lit "assets/characters/vi/skins/base/vi_base.dds"; lit "assets/characters/vi/skins/skin02/particles/x.dds"] [lit "assets/characters/vi/skins/skin02/vi_skin02.dds"]),
    (lit "assets/characters/vi/skins/base/vi_base.dds"), (lit "assets/characters/vi/skins/skin02/vi_skin02.dds").
  split; [apply ex_ok; vm_compute; reflexivity|]. split; [left; reflexivity|]. split.
  - exists (lit "assets/characters/vi/skins/skin02/particles/x.dds"), (lit "vi"), (lit "skin02"). split; [right; left; reflexivity|]. split; [apply skin_match_Some; vm_compute; reflexivity|]. split; [apply skin_match_Some; vm_compute; reflexivity|].
    apply (filled_format (fun _ _ => Err TypeError)); [vm_compute; intuition discriminate|]. split; vm_compute; reflexivity.
  - intros other order Ho. set (g := ex_known _ _).
    assert (E : substitute_skin_numbers ex_guess_hash other order g = substitute_skin_numbers ex_guess_hash other (fun _ => order [lit "base"; lit "skin02"]) g) by (vm_compute; reflexivity).
    rewrite E. clear E. destruct (Permutation_length_2_inv (Ho [lit "base"; lit "skin02"])) as [->| ->]; vm_compute; left; reflexivity.
Qed.
(** A splash which is found stops the guesser with an exception. *)
Theorem C67_loot_refuted : exists H g, guesser_ok g /\ snd (guess_patterns H g) = Err RuntimeError.
Proof.
  exists (fun p => if eqb p (lit "plugins/rcp-fe-lol-loot/global/default/assets/loot_item_icons/a_splash.png") then 1%Z else 0%Z),
    {| g_known := [(2%Z, lit "plugins/rcp-fe-lol-loot/global/default/assets/loot_item_icons/a.png")]; g_unknown := [1%Z]; g_dirs := None |}.
  split; [apply ex_ok; vm_compute; reflexivity | vm_compute; reflexivity].
Qed.

(** ** Examples *)

Definition ex_chars : guesser :=
  ex_known [lit "assets/characters/vi/skins/base/vi.dds"; lit "assets/characters/vi/skins/skin02/x/y_base.skn"; lit "assets/characters/vi/skins/skin10/z.txt"; lit "assets/characters/petfox/hud/f.png"; lit "data/shaders/a.ps.glsl"; lit "s/b.vs_3_0.x"]
    [lit "assets/characters/vi/skins/skin02/vi.dds"; lit "assets/characters/vi/skins/skin10/x/y_skin02.skn"; lit "assets/characters/vi/skins/skin02/x/y_skin10.skn"; lit "data/vi_skins_skin0_skins_skin10_skins_skin2.bin"; lit "data/vi_skins_skin2_skins_skin10.bin";
     lit "data/vi_skins_root_skins_skin11_skins_skin2.bin"; lit "data/characters/petfox/tiers/tier3.bin"; lit "data/characters/vi/animations/skin77.bin"; lit "data/shaders/a.ps.metal"; lit "s/b.vs_3_0.dx11_700"].
Definition ex_skins : list skin_data :=
  [{| sk_id := 254002; sk_path := lit "/lol-game-data/assets/assets/characters/vi/skins/skin02/l.jpg"; sk_chromas := [254011%Z] |}; {| sk_id := 254004; sk_path := lit "/lol-game-data/assets/assets/characters/vi/skins/skin04/l.jpg"; sk_chromas := [] |}].
Example C67_ex : forall other,
  let found g := filter (fun p => negb (mem p (dvals (g_known ex_chars)))) (dvals (g_known g)) in
  get_characters ex_chars = [lit "petfox"; lit "vi"] /\
  found (fst (substitute_skin_numbers ex_guess_hash other (fun l => l) ex_chars)) = [lit "assets/characters/vi/skins/skin02/vi.dds"; lit "assets/characters/vi/skins/skin02/x/y_skin10.skn"] /\
  found (guess_skin_groups_bin ex_guess_hash ex_chars) = [lit "data/vi_skins_skin0_skins_skin10_skins_skin2.bin"] /\
  found (fst (guess_using_chromas ex_guess_hash ex_skins ex_chars)) = [lit "data/vi_skins_root_skins_skin11_skins_skin2.bin"] /\
  found (guess_characters_files ex_guess_hash None ex_chars) = [lit "data/characters/petfox/tiers/tier3.bin"; lit "data/characters/vi/animations/skin77.bin"] /\
  found (guess_shader_variants ex_guess_hash ex_chars) = [lit "data/shaders/a.ps.metal"; lit "s/b.vs_3_0.dx11_700"].
Proof. intros other. vm_compute. repeat split. Qed.
Example C67_hyps : guesser_ok ex_chars /\ (forall p c k, In p (dvals (g_known ex_chars)) -> first_skin p c k -> ~ In 37 p) /\ (forall l : list str, Permutation l (rev l)) /\
  (forall d, In d ex_skins -> exists c r, part c /\ sk_path d = lit "/lol-game-data/assets/assets/characters/" ++ c ++ lit "/skins/" ++ r) /\ shader (lit "a.vs.ps-x.ps_") (lit "a.vs.ps").
Proof.
  split; [apply ex_ok; vm_compute; reflexivity|]. split.
  { intros p c k Hp _. assert (E : negb (mem 37 p) = true) by (revert p Hp; apply forallb_forall; vm_compute; reflexivity). apply mem_false, negb_true_iff. assumption. }
  split; [apply Permutation_rev|]. split; [|apply shader_path_Some; vm_compute; reflexivity].
  intros d [<-|[<-|[]]]; exists (lit "vi"); [exists (lit "skin02/l.jpg") | exists (lit "skin04/l.jpg")]; (split; [|reflexivity]); (split; [discriminate | vm_compute; intuition discriminate]).
Qed.
Print Assumptions C67_characters. Print Assumptions C67_skins. Print Assumptions C67_one_skin. Print Assumptions C67_groups. Print Assumptions C67_chromas. Print Assumptions C67_chromas_fail.
Print Assumptions C67_files. Print Assumptions C67_shaders. Print Assumptions C67_patterns. Print Assumptions C67_skins_refuted. Print Assumptions C67_loot_refuted.
