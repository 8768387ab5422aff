(** * C66: guessing of paths by changes of parts of known ones *)

From Verif Require Import Base.Py Base.PyFacts Base.Text Base.TextFacts Model.Hashes Model.Patcher Model.Rads Model.Guess Model.GuessPaths.
From Verif Require Import Spec.HashesSpec Spec.GuessSpec Spec.GuessPathsSpec Proofs.HashesProofs Proofs.GuessProofs Proofs.GuessPathsProofs Props.GuessProps.

Section C66.
  Variable H : str -> Z.
  Variable other : str -> list parg -> result str.

  Theorem C66_regions g : guesser_ok g ->
    let cand q := exists p, In p (dvals (g_known g)) /\
      ((exists x a b rest r l, localized x a b rest p /\ In r (regions ++ [lit "global"]) /\ In l (languages ++ [lit "default"]) /\ localized x r l rest q) \/
       ((~ exists x a b rest, localized x a b rest p) /\ q = p)) in
    grows H cand g (substitute_region_lang H g) /\ all_tried H cand (substitute_region_lang H g).
  Proof.
    intros Hg. eapply explored_iff; [|apply regions_spec; assumption]. intros q. cbv beta.
    assert (HP : forall s, In s (regions ++ [lit "global"]) \/ In s (languages ++ [lit "default"]) -> part s).
    { intros s Hs. rewrite <- in_app_iff in Hs. revert s Hs. apply Forall_forall. apply Forall_forall. intros s Hs.
      assert (E : negb (eqb s []) && negb (mem cSlash s) = true) by (revert s Hs; apply forallb_forall; vm_compute; reflexivity).
      apply andb_prop in E as [E1 E2]. apply negb_true_iff in E1, E2. apply eqbF in E1. apply mem_false in E2. split; assumption. }
    split; intros (p & Hp & [(x & a & b & rest & r & l & Hloc & Hr & Hl & Hq)|[Hn ->]]).
    - exists p. split; [assumption|]. left. exists x, a, b, rest, r, l. split; [assumption|]. split; [assumption|]. split; [assumption|].
      split; [apply HP; auto|]. split; [apply HP; auto|]. split; [apply Hloc | exact Hq].
    - exists p. split; [assumption|]. right. auto.
    - exists p. split; [assumption|]. left. exists x, a, b, rest, r, l. split; [assumption|]. split; [assumption|]. split; [assumption|]. apply Hq.
    - exists p. split; [assumption|]. right. auto.
  Qed.

  Theorem C66_plugins g : guesser_ok g ->
    (forall p, In p (dvals (g_known g)) -> (exists r, p = lit "plugins/" ++ r) -> exists x s, plugin_path x s p /\ ~ In 37 s) ->
    let cand q := exists p x s p' x' s', In p (dvals (g_known g)) /\ plugin_path x s p /\ In p' (dvals (g_known g)) /\ plugin_path x' s' p' /\ plugin_path x' s q in
    exists g', substitute_plugin H other g = (g', Ok tt) /\ grows H cand g g' /\ all_tried H cand g'.
  Proof.
    intros Hg Hk. destruct (plugins_spec H other g Hg Hk) as (g' & E & He). exists g'. split; [assumption|]. eapply explored_iff; [|exact He].
    intros q. cbv beta. split; intros (p & x & s & p' & x' & s' & Hp & Hx & Hp' & Hx' & Hq); exists p, x, s, p', x', s'; repeat (split; [assumption|]).
    - split; [apply Hx' | exact Hq].
    - apply Hq.
  Qed.

  (** Whatever is known, only hashes of tried paths are added. *)
  Theorem C66_plugins_safe g : guesser_ok g -> grows H (fun _ => True) g (fst (substitute_plugin H other g)) /\ grows H (fun _ => True) g (fst (substitute_suffixes H other g)).
  Proof. intros Hg. split; (eapply grows_weaken; [|apply check_formats_safe; assumption]); auto. Qed.

  Theorem C66_suffixes g : guesser_ok g -> (forall p, In p (dvals (g_known g)) -> ~ In 37 p) ->
    let cand q := exists p pre suf ext s, In p (dvals (g_known g)) /\ suffixed pre suf ext p /\
      (s = [] \/ exists p' pre' ext', In p' (dvals (g_known g)) /\ suffixed pre' s ext' p') /\ q = pre ++ s ++ ext in
    exists g', substitute_suffixes H other g = (g', Ok tt) /\ grows H cand g g' /\ all_tried H cand g'.
  Proof. apply suffixes_spec. Qed.

  Theorem C66_langs g : guesser_ok g -> (forall p, In p (dvals (g_known g)) -> ~ In 123 p) ->
    let cand q := exists p l, In p (dvals (g_known g)) /\ (exists l0 a b, In l0 languages /\ p = a ++ l0 ++ b) /\ In l languages /\ replaced (fun o => In o languages) l p q in
    grows H cand g (substitute_lang H g) /\ all_tried H cand (substitute_lang H g).
  Proof. apply langs_spec. Qed.

  Theorem C66_characters g : guesser_ok g -> (forall p, In p (dvals (g_known g)) -> ~ In 123 p) ->
    let cand q := exists p c p' c', In p (dvals (g_known g)) /\ character_dir p c /\ In p' (dvals (g_known g)) /\ character_dir p' c' /\ replaced (eq c) c' p q in
    grows H cand g (substitute_character H g) /\ all_tried H cand (substitute_character H g).
  Proof. apply characters_spec. Qed.

  (** Two results of the replacement of the same texts are equal. *)
  Theorem C66_replaced (old : str -> Prop) new s t t' : (forall o, old o -> o <> []) -> (forall o o' r r', old o -> old o' -> o ++ r = o' ++ r' -> o = o') ->
    replaced old new s t -> replaced old new s t' -> t = t'.
  Proof. intros H1 H2 Ha Hb. exact (replaced_fun old H1 H2 new s t _ Ha Hb). Qed.

  Theorem C66_prefixes prefixes g : guesser_ok g ->
    let cand q := exists p x d b, In p (dvals (g_known g)) /\ In x (match prefixes with Some l => l | None => [lit "2x_"; lit "2x_sd_"; lit "4x_"; lit "4x_sd_"; lit "sd_"] end) /\
      parent p d /\ last_name p b /\ ((d = [] /\ q = x ++ b) \/ (d <> [] /\ q = d ++ lit "/" ++ x ++ b)) in
    grows H cand g (check_basename_prefixes H prefixes g) /\ all_tried H cand (check_basename_prefixes H prefixes g).
  Proof. apply prefixes_spec. Qed.

  Theorem C66_from_game game g : guesser_ok g ->
    let base := lit "plugins/rcp-be-lol-game-data/global/default/" in
    let cand q := exists p x, In p game /\
      ((extension p x (lit "dds") /\ (q = base ++ x ++ lit ".png" \/ q = base ++ x ++ lit ".jpg")) \/ (extension p x (lit "json") /\ q = base ++ p)) in
    grows H cand g (guess_from_game_hashes H game g) /\ all_tried H cand (guess_from_game_hashes H game g).
  Proof.
    intros Hg base cand. eapply explored_iff; [|apply explored_all; assumption]. intros q. cbv beta. rewrite in_flat_map. split.
    - intros (p & Hp & Hq). apply from_game_In in Hq as [(x & He & Hq)|(x & He & Hq)]; exists p, x; (split; [assumption|]); [left | right]; auto.
    - intros (p & x & Hp & Hq). exists p. split; [assumption|]. apply from_game_In. destruct Hq as [Hq|Hq]; [left | right]; exists x; exact Hq.
  Qed.

  Theorem C66_from_client client g : guesser_ok g ->
    let cand q := exists p x, In p client /\
      (((client_asset p x (lit "png") \/ client_asset p x (lit "jpg")) /\ q = x ++ lit ".dds") \/ (client_asset p x (lit "json") /\ q = x ++ lit ".json")) in
    grows H cand g (guess_from_lcu_hashes H client g) /\ all_tried H cand (guess_from_lcu_hashes H client g).
  Proof.
    intros Hg cand. eapply explored_iff; [|apply explored_all; assumption]. intros q. cbv beta. rewrite in_flat_map. split.
    - intros (p & Hp & Hq). apply from_lcu_In in Hq as (x & Hq). exists p, x. auto.
    - intros (p & x & Hp & Hq). exists p. split; [assumption|]. apply from_lcu_In. exists x. exact Hq.
  Qed.

  (** Paths found on one side come back from the other. *)
  Theorem C66_round x ext : ~ In cNL x -> (exists r, x = lit "assets/" ++ r \/ x = lit "data/" ++ r) -> extension (x ++ cDot :: ext) x ext -> ext = lit "dds" \/ ext = lit "json" ->
    from_game (x ++ cDot :: ext) <> [] /\ forall q, In q (from_game (x ++ cDot :: ext)) -> from_lcu q = [x ++ cDot :: ext].
  Proof.
    intros Hn Hx He Hd.
    assert (HA : forall e, In e [lit "png"; lit "jpg"; lit "json"] -> lcu_asset (lit "plugins/rcp-be-lol-game-data/global/default/" ++ x ++ lit "." ++ e) = Some (x, e)).
    { intros e Hi. apply lcu_asset_Some. split; [assumption|]. split; [assumption|]. split; [assumption|]. exists []. rewrite app_nil_r. auto. }
    assert (HL : forall p e, lcu_asset p = Some (x, e) -> from_lcu p = if eqb e (lit "png") || eqb e (lit "jpg") then [x ++ lit ".dds"] else [x ++ lit "." ++ e]) by (intros p e E; unfold from_lcu; rewrite E; reflexivity).
    assert (HU : forall y d, extension (x ++ cDot :: ext) y d -> y = x /\ d = ext).
    { intros y d Hy. apply splitext_iff in Hy. pose proof (proj2 (splitext_iff _ _ _) He) as E. rewrite Hy in E. split; congruence. }
    split.
    - assert (HI : exists q, In q (from_game (x ++ cDot :: ext))).
      { destruct Hd as [->| ->]; eexists; apply from_game_In; [left | right]; exists x; (split; [exact He|]); [left|]; reflexivity. }
      destruct HI as [q Hq]. intros E. rewrite E in Hq. destruct Hq.
    - intros q Hq. apply from_game_In in Hq as [(y & Hy & Hq)|(y & Hy & Hq)]; destruct (HU _ _ Hy) as [-> <-].
      + destruct Hq as [->| ->]; [exact (HL _ _ (HA (lit "png") ltac:(cbn; auto))) | exact (HL _ _ (HA (lit "jpg") ltac:(cbn; auto)))].
      + subst q. exact (HL _ _ (HA (lit "json") ltac:(cbn; auto))).
  Qed.
End C66.

(** ** What is not tried *)

Definition ex_known (known unknown : list str) : guesser :=
  {| g_known := map (fun p => (ex_guess_hash p, p)) known; g_unknown := map ex_guess_hash unknown; g_dirs := None |}.


Fixpoint no_dup (l : list Z) : bool := match l with [] => true | x :: t => negb (mem x t) && no_dup t end.
Lemma no_dup_NoDup l : no_dup l = true -> NoDup l.
Proof.
  induction l as [|x t IH]; intros E; constructor; cbn [no_dup] in E; apply andb_prop in E as [E1 E2]; [apply mem_false, negb_true_iff; assumption | auto].
Qed.
Lemma ex_ok g : no_dup (dkeys (g_known g)) && no_dup (g_unknown g) && forallb (fun h => match dget h (g_known g) with None => true | Some _ => false end) (g_unknown g) = true -> guesser_ok g.
Proof.
  intros E. apply andb_prop in E as [E E3]. apply andb_prop in E as [E1 E2]. split; [apply no_dup_NoDup; assumption|]. split; [apply no_dup_NoDup; assumption|].
  intros h Hh. rewrite forallb_forall in E3. specialize (E3 h Hh). destruct (dget h (g_known g)); [discriminate | reflexivity].
Qed.

(** A file in [plugins] itself stops the guesser with an exception. *)
Theorem C66_plugins_refuted : exists H g, guesser_ok g /\ (forall p, In p (dvals (g_known g)) -> ~ In 37 p) /\ forall other, snd (substitute_plugin H other g) = Err TypeError.
Proof.
  exists ex_guess_hash, (ex_known [lit "plugins/foo"; lit "plugins/b/x"] [lit "plugins/foo/x"]). split; [apply ex_ok; vm_compute; reflexivity|]. split.
  - intros p [<-|[<-|[]]]; vm_compute; intuition discriminate.
  - intros other. vm_compute. reflexivity.
Qed.

(** With a [%s] in its name, it is a format of its own: a path that is not in a plugin is added. *)
Theorem C66_percent_refuted : exists H g q, guesser_ok g /\ ~ In q (dvals (g_known g)) /\ (forall x s, ~ plugin_path x s q) /\
  forall other, snd (substitute_plugin H other g) = Ok tt /\ In q (dvals (g_known (fst (substitute_plugin H other g)))).
Proof.
  exists ex_guess_hash, (ex_known [lit "plugins/a%s"; lit "plugins/b/x"] [lit "plugins/ab"]), (lit "plugins/ab"). split; [apply ex_ok; vm_compute; reflexivity|]. split; [|split].
  - vm_compute. intuition discriminate.
  - intros x s [_ E]. apply (app_inv_head (lit "plugins/")) with (l1 := lit "ab") in E. assert (Hi : In cSlash (lit "ab")) by (rewrite E; apply in_app_iff; right; left; reflexivity). vm_compute in Hi. intuition discriminate.
  - intros other. vm_compute. split; [reflexivity | tauto].
Qed.

(** The name of the directory is replaced wherever it occurs: the same file in the directory of another character is not tried. *)
Theorem C66_characters_refuted : exists H g c c' r, guesser_ok g /\ In (lit "assets/characters/" ++ c ++ lit "/" ++ r) (dvals (g_known g)) /\ (exists p', In p' (dvals (g_known g)) /\ character_dir p' c') /\
  In (H (lit "assets/characters/" ++ c' ++ lit "/" ++ r)) (g_unknown (substitute_character H g)).
Proof.
  exists ex_guess_hash, (ex_known [lit "assets/characters/vi/skins/base/vision.dds"; lit "data/characters/jinx/jinx.bin"] [lit "assets/characters/jinx/skins/base/vision.dds"]), (lit "vi"), (lit "jinx"), (lit "skins/base/vision.dds").
  split; [apply ex_ok; vm_compute; reflexivity|]. split; [left; reflexivity|]. split; [|vm_compute; left; reflexivity].
  exists (lit "data/characters/jinx/jinx.bin"). split; [right; left; reflexivity|]. split; [split; [discriminate | vm_compute; intuition discriminate]|]. exists (lit "jinx.bin"). right. reflexivity.
Qed.

(** ** Examples *)

Definition ex_paths : guesser :=
  ex_known [lit "plugins/rcp-a/global/default/x.js"; lit "plugins/rcp-b/y/z.png"; lit "dir/name.skins.bin"; lit "dir/other.bin"; lit "loc/en_us/en_us.txt"; lit "assets/characters/vi/hud/vi_circle.dds"; lit "data/characters/jinx/jinx.bin"]
    [lit "plugins/rcp-a/euw/fr_fr/x.js"; lit "plugins/rcp-b/global/default/x.js"; lit "dir/other.skins.bin"; lit "dir/name.bin"; lit "loc/de_de/de_de.txt"; lit "loc/en_us/de_de.txt"; lit "data/characters/vi/vi.bin"; lit "dir/2x_other.bin"; lit "q/r.dds"; lit "plugins/rcp-be-lol-game-data/global/default/q/r.jpg"; lit "assets/t.dds"].
Example C66_ex : forall other,
  let found g := filter (fun p => negb (mem p (dvals (g_known ex_paths)))) (dvals (g_known g)) in
  found (substitute_region_lang ex_guess_hash ex_paths) = [lit "plugins/rcp-a/euw/fr_fr/x.js"] /\
  found (fst (substitute_plugin ex_guess_hash other ex_paths)) = [lit "plugins/rcp-b/global/default/x.js"] /\
  found (fst (substitute_suffixes ex_guess_hash other ex_paths)) = [lit "dir/name.bin"; lit "dir/other.skins.bin"] /\
  found (substitute_lang ex_guess_hash ex_paths) = [lit "loc/de_de/de_de.txt"] /\
  found (substitute_character ex_guess_hash ex_paths) = [lit "data/characters/vi/vi.bin"] /\
  found (check_basename_prefixes ex_guess_hash None ex_paths) = [lit "dir/2x_other.bin"] /\
  found (guess_from_game_hashes ex_guess_hash [lit "q/r.dds"; lit "q/.dds"] ex_paths) = [lit "plugins/rcp-be-lol-game-data/global/default/q/r.jpg"] /\
  found (guess_from_lcu_hashes ex_guess_hash [lit "plugins/rcp-be-lol-game-data/global/default/assets/t.png"] ex_paths) = [lit "assets/t.dds"].
Proof. intros other. vm_compute. repeat split. Qed.
Example C66_hyps : guesser_ok ex_paths /\ (forall p, In p (dvals (g_known ex_paths)) -> ~ In 37 p /\ ~ In 123 p) /\
  (forall p, In p (dvals (g_known ex_paths)) -> (exists r, p = lit "plugins/" ++ r) -> exists x s, plugin_path x s p /\ ~ In 37 s) /\
  extension (lit "assets/q/r.dds") (lit "assets/q/r") (lit "dds").
Proof.
  split; [apply ex_ok; vm_compute; reflexivity|].
  assert (HA : forall p, In p (dvals (g_known ex_paths)) -> ~ In 37 p /\ ~ In 123 p).
  { intros p Hp. assert (E : negb (mem 37 p) && negb (mem 123 p) = true) by (revert p Hp; apply forallb_forall; vm_compute; reflexivity). apply andb_prop in E as [E1 E2]. split; apply mem_false, negb_true_iff; assumption. }
  split; [exact HA|]. split.
  - intros p Hp [r Hr]. destruct (plugin_parts p) as [[x s]|] eqn:E.
    + exists x, s. apply plugin_parts_Some in E. split; [assumption|]. intros Hs. apply (proj1 (HA p Hp)). destruct E as [_ ->]. rewrite !in_app_iff. auto.
    + exfalso. assert (F : startswith p (lit "plugins/") = true) by (rewrite Hr; apply startswith_app).
      assert (G : negb (startswith p (lit "plugins/")) || is_some (plugin_parts p) = true) by (revert p Hp E F r Hr; intros p Hp _ _ _ _; revert p Hp; apply forallb_forall; vm_compute; reflexivity).
      rewrite E, F in G. discriminate.
  - apply splitext_iff. vm_compute. reflexivity.
Qed.
Print Assumptions C66_regions. Print Assumptions C66_plugins. Print Assumptions C66_plugins_safe. Print Assumptions C66_suffixes. Print Assumptions C66_langs.
Print Assumptions C66_characters. Print Assumptions C66_replaced. Print Assumptions C66_prefixes. Print Assumptions C66_from_game. Print Assumptions C66_from_client.
Print Assumptions C66_round. Print Assumptions C66_plugins_refuted.
Print Assumptions C66_percent_refuted. Print Assumptions C66_characters_refuted.
