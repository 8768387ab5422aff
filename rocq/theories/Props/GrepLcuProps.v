(** * C72: search of paths in the files of the client *)

From Verif Require Import Base.Py Base.PyFacts Base.Text Base.TextFacts Base.Re Model.Hashes Model.Patcher Model.Guess Model.Grep Model.Releases Model.GrepLcu.
From Verif Require Import Spec.HashesSpec Spec.Utf8Spec Spec.GrepLcuSpec Proofs.HashesProofs Proofs.GuessProofs Proofs.GrepProofs Proofs.ReProofs Proofs.GrepLcuProofs Proofs.GrepLcuFileProofs Props.GuessProps Props.GuessPathsProps.

(** The matches of the patterns. *)
Theorem C72_patterns word s vs : word_ok word ->
  (found_in word re_fe s = vs <-> found (fe_match word) None s vs) /\ (found_in word re_data s = vs <-> found data_match None s vs) /\
  (found_in word re_assets s = vs <-> found (assets_match word) None s vs) /\ (found_in word re_relative s = vs <-> found relative_match None s vs) /\
  (found_in word re_named s = vs <-> found (named_match word) None s vs) /\ (found_in word re_template s = vs <-> found template_match None s vs) /\
  (found_in word re_map s = vs <-> found map_match None s vs) /\ (found_in word re_splash s = vs <-> found splash_match None s vs).
Proof.
  intros HW. repeat split; apply found_in_iff; try (apply fe_describes || apply data_describes || apply assets_describes || apply relative_describes || apply named_describes || apply template_describes || apply map_describes || apply splash_describes); assumption.
Qed.
(** The paths of a JSON value, according to what it is; the text is not searched for the names of hextech items and splashes. *)
Theorem C72_json word ulower show path v :
  match json_paths word ulower show path v with
  | Ok (l, more) => container v /\ exists k, kind_of path v k /\ (forall q, In (Ok q) l <-> json_path ulower show v k q) /\ ((forall x, ~ In (Err x) l) <-> json_ok v k) /\ (more = true <-> k <> KTrans /\ k <> KSplash)
  | Err _ => ~ container v \/ exists k, kind_of path v k /\ ~ json_ok v k
  end.
Proof. exact (json_paths_outcome word ulower show path v). Qed.
Theorem C72_kind path v : (exists k, kind_of path v k) <-> path = Some trans_file \/ container v.
Proof.
  split.
  - intros (k & Hk). destruct Hk as [E|E [F _]|E Hc|E Hc|E _ _ _ F|E]; auto; right; eapply has_container; exact F.
  - intros HC. pose proof (json_paths_outcome (fun _ => true) (fun s => s) (fun _ => []) path v) as HO. destruct (json_paths (fun _ => true) (fun s => s) (fun _ => []) path v) as [[l more]|e]; cbn [outcome] in HO.
    + destruct HO as (_ & k & Hk & _). eauto.
    + destruct HO as [HN|(k & Hk & _)]; [|eauto]. destruct HC as [->|HC]; [exists KTrans; constructor; reflexivity | contradiction].
Qed.
Theorem C72_kind_once path v k k' : kind_of path v k -> kind_of path v k' -> k = k'.
Proof. apply kind_fun. Qed.
(** The text of a file. *)
Theorem C72_text e s : file_text e = Ok (Some s) <-> has_text e s.
Proof. exact (file_text_iff (fun s => s) (fun _ => Ok None) e s). Qed.

Section C72.
  Variable word : N -> bool.
  Variable ulower : str -> str.
  Variable loads : str -> result (option json).
  Variable show : json -> str.
  Variable H : str -> Z.
  Hypothesis WO : word_ok word.

  Notation grep := (grep_lcu word ulower loads show H).
  Notation fails := (lcu_fails loads).
  Definition path_of (entries : list entry) (q : str) : Prop := exists e, In e entries /\ lcu_path word ulower loads show e q.
  Definition name_of (entries : list entry) (n : str) : Prop := exists e, In e entries /\ lcu_name word ulower loads e n.
  (** The directories of the known paths and of the paths that may be found. *)
  Definition dir_of (entries : list entry) (g : guesser) (d : str) : Prop :=
    exists p, (In p (dvals (g_known g)) \/ path_of entries p /\ In (H p) (g_unknown g)) /\ ancestor d p.

  Lemma paths_grow entries g : guesser_ok g -> grows H (path_of entries) g (fst (check_gen H (flat_map (fun e => fst (entry_lcu word ulower loads show e)) entries) g)).
  Proof.
    intros Hg. eapply grows_weaken; [|apply check_gen_grows; assumption]. intros q Hq. apply in_flat_map in Hq as (e & He & Hq). exists e. split; [exact He|]. apply (entry_cases word WO ulower loads show e). exact Hq.
  Qed.
  (** The search succeeds exactly when no file fails. *)
  Theorem C72_outcome entries g : snd (grep entries g) = Ok tt <-> Forall (fun e => ~ fails e) entries.
  Proof.
    unfold grep_lcu. pose proof (check_gen_outcome H (flat_map (fun e => fst (entry_lcu word ulower loads show e)) entries) g) as HO.
    assert (HF : (forall x, ~ In (Err x) (flat_map (fun e => fst (entry_lcu word ulower loads show e)) entries)) <-> Forall (fun e => ~ fails e) entries).
    { rewrite Forall_forall. split.
      - intros F e He Hf. apply (entry_cases word WO ulower loads show e) in Hf as (x & Hx). apply (F x). apply in_flat_map. eauto.
      - intros F x Hx. apply in_flat_map in Hx as (e & He & Hx). apply (F e He). apply (entry_cases word WO ulower loads show e). eauto. }
    rewrite <- HF, <- HO. destruct (check_gen H _ g) as [g1 [[]|x]]; cbn [snd]; reflexivity.
  Qed.
  Lemma known_grows P g g1 p : grows H P g g1 -> guesser_ok g -> In p (dvals (g_known g)) -> In p (dvals (g_known g1)).
  Proof.
    intros (_ & HK & _) (HN & _) Hp. unfold dvals in *. apply in_map_iff in Hp as ([h p'] & E & Hp). cbn [snd] in E. subst p'. apply dget_In_NoDup in Hp; [|exact HN]. apply HK in Hp. apply dget_Some_In in Hp. apply in_map_iff. exists (h, p). auto.
  Qed.
  Lemma known_new P g g1 p : grows H P g g1 -> guesser_ok g -> In p (dvals (g_known g1)) -> In p (dvals (g_known g)) \/ P p /\ In (H p) (g_unknown g).
  Proof.
    intros (HO & HK & HN & _) Hg Hp. unfold dvals in *. apply in_map_iff in Hp as ([h p'] & E & Hp). cbn [snd] in E. subst p'. apply dget_In_NoDup in Hp; [|apply HO]. destruct (dget h (g_known g)) as [p'|] eqn:Eg.
    - left. pose proof (HK h p' Eg) as F. assert (p' = p) as -> by congruence. apply dget_Some_In in Eg. apply in_map_iff. exists (h, p). auto.
    - right. destruct (HN h p Hp Eg) as (<- & H1 & H2). auto.
  Qed.
  (** Only paths in the files are found, and names in the directories of known paths, each with its own hash. *)
  Theorem C72_safe entries g : guesser_ok g -> g_dirs g = None ->
    grows H (fun q => path_of entries q \/ exists d n, dir_of entries g d /\ name_of entries n /\ q = d ++ lit "/" ++ n) g (fst (grep entries g)).
  Proof.
    intros Hg Hd. unfold grep_lcu. pose proof (paths_grow entries g Hg) as H1. pose proof (check_gen_dirs H (flat_map (fun e => fst (entry_lcu word ulower loads show e)) entries) g) as H2.
    destruct (check_gen H _ g) as [g1 [[]|x]]; cbn [fst] in *; [|eapply grows_weaken; [|exact H1]; auto]. rewrite Hd in H2. eapply grows_trans; [eapply grows_weaken; [|exact H1]; auto|].
    destruct (check_basenames_spec H (map ulower (set_of (flat_map (fun e => snd (entry_lcu word ulower loads show e)) entries))) g1 (grows_ok _ _ _ _ H1)) as (dirs & Ed & Hc & _).
    eapply grows_weaken; [|exact Hc]. intros q (l & d & n & -> & Hl & Hn & ->). right. exists d, n. split; [|split; [|reflexivity]].
    - unfold directory_list in Ed. rewrite H2 in Ed. cbn [snd] in Ed. destruct (compute_dirs_ok (g_known g1)) as (l' & E' & _ & HL). assert (l' = l) as -> by congruence. apply HL in Hl as (p & Hp & Ha). exists p. split; [|exact Ha]. eapply known_new; eassumption.
    - apply in_map_iff in Hn as (m & <- & Hm). rewrite set_of_In in Hm. apply in_flat_map in Hm as (e & He & Hm). exists e. split; [exact He|]. apply (entry_cases word WO ulower loads show e). apply in_map. exact Hm.
  Qed.
  (** Everything is tried when no file fails. *)
  Theorem C72_tried entries g : guesser_ok g -> g_dirs g = None -> Forall (fun e => ~ fails e) entries ->
    all_tried H (path_of entries) (fst (grep entries g)) /\
    forall d n p, ancestor d p -> name_of entries n ->
      In p (dvals (g_known g)) \/ path_of entries p /\ In (H p) (g_unknown g) /\ dget (H p) (g_known (fst (grep entries g))) = Some p ->
      ~ In (H (d ++ lit "/" ++ n)) (g_unknown (fst (grep entries g))).
  Proof.
    intros Hg Hd Hf. pose proof (proj2 (C72_outcome entries g) Hf) as HO. unfold grep_lcu in *. pose proof (paths_grow entries g Hg) as H1. pose proof (check_gen_dirs H (flat_map (fun e => fst (entry_lcu word ulower loads show e)) entries) g) as H2. rewrite Hd in H2.
    assert (HT : all_tried H (path_of entries) (fst (check_gen H (flat_map (fun e => fst (entry_lcu word ulower loads show e)) entries) g))).
    { rewrite Forall_forall in Hf. destruct (check_gen_all H (flat_map (fun e => fst (entry_lcu word ulower loads show e)) entries) g Hg) as [_ HA].
      - intros [p|x] Hx; [eauto|]. exfalso. apply in_flat_map in Hx as (e & He & Hx). apply (Hf e He). apply (entry_cases word WO ulower loads show e). eauto.
      - intros q (e & He & Hq). apply HA. apply in_flat_map. exists e. split; [exact He|]. apply (entry_cases word WO ulower loads show e); [apply Hf; exact He | exact Hq]. }
    destruct (check_gen H _ g) as [g1 [[]|x]]; cbn [fst snd] in *; [|discriminate]. clear HO.
    destruct (check_basenames_spec H (map ulower (set_of (flat_map (fun e => snd (entry_lcu word ulower loads show e)) entries))) g1 (grows_ok _ _ _ _ H1)) as (dirs & Ed & Hc & Ht).
    unfold directory_list in Ed. rewrite H2 in Ed. cbn [snd] in Ed. destruct (compute_dirs_ok (g_known g1)) as (l & E' & _ & HL). split.
    - intros q Hq F. apply (HT q Hq). eapply grows_unknown; [exact Hc | exact F].
    - intros d n p Ha Hn Hp. apply Ht. exists l, d, n. split; [congruence|]. split; [|split; [|reflexivity]].
      + apply HL. exists p. split; [|exact Ha]. destruct Hp as [Hp|(Hp & Hu & Hk)]; [eapply known_grows; eassumption|]. destruct H1 as (_ & _ & H3 & H4 & _). assert (HU : ~ In (H p) (g_unknown g1)) by (apply HT; exact Hp).
        destruct (dget (H p) (g_known g1)) as [p'|] eqn:Eg; [|destruct HU; apply H4; auto]. destruct Hc as (_ & HC & _). pose proof (HC _ _ Eg) as F. assert (p' = p) as -> by congruence. apply dget_Some_In in Eg. apply in_map_iff. exists (H p, p). auto.
      + rewrite Forall_forall in Hf. destruct Hn as (e & He & Hn). apply (entry_cases word WO ulower loads show e) in Hn; [|apply Hf; exact He]. apply in_map_iff in Hn as (m & <- & Hm). apply in_map. apply set_of_In. apply in_flat_map. eauto.
  Qed.
  (** When a file fails, the files before it have been searched, but only for paths: no name is tried. *)
  Theorem C72_prefix before e after g : guesser_ok g -> Forall (fun e => ~ fails e) before -> fails e ->
    (exists x, snd (grep (before ++ e :: after) g) = Err x) /\ all_tried H (path_of before) (fst (grep (before ++ e :: after) g)) /\
    grows H (path_of (before ++ [e])) g (fst (grep (before ++ e :: after) g)).
  Proof.
    intros Hg Hb He. assert (HX : exists x, snd (grep (before ++ e :: after) g) = Err x).
    { destruct (snd (grep (before ++ e :: after) g)) as [[]|x] eqn:E; [|eauto]. exfalso. apply C72_outcome in E. apply Forall_app in E as [_ E]. inversion E. contradiction. }
    split; [exact HX|]. unfold grep_lcu in *. rewrite flat_map_app in *. cbn [flat_map] in *. set (l1 := flat_map (fun e => fst (entry_lcu word ulower loads show e)) before) in *.
    set (l3 := flat_map (fun e => fst (entry_lcu word ulower loads show e)) after) in *. set (l2 := fst (entry_lcu word ulower loads show e)) in *.
    assert (HE : exists x, In (Err x) (l1 ++ l2)). { apply (entry_cases word WO ulower loads show e) in He as (x & Hx). exists x. apply in_or_app. right. exact Hx. }
    rewrite app_assoc, (check_gen_cut H (l1 ++ l2) l3 g HE) in *. assert (E12 : l1 ++ l2 = flat_map (fun e => fst (entry_lcu word ulower loads show e)) (before ++ [e])) by (rewrite flat_map_app; cbn [flat_map]; rewrite app_nil_r; reflexivity).
    assert (HG : grows H (path_of (before ++ [e])) g (fst (check_gen H (l1 ++ l2) g))) by (rewrite E12; apply paths_grow; exact Hg).
    assert (HT : all_tried H (path_of before) (fst (check_gen H (l1 ++ l2) g))).
    { rewrite check_gen_app. rewrite Forall_forall in Hb. destruct (check_gen_all H l1 g Hg) as [EO HA].
      { intros [p|x] Hx; [eauto|]. exfalso. apply in_flat_map in Hx as (e' & He' & Hx). apply (Hb e' He'). apply (entry_cases word WO ulower loads show e'). eauto. }
      pose proof (check_gen_grows H l1 g Hg) as H1. destruct (check_gen H l1 g) as [g1 r]. cbn [fst snd] in *. subst r. intros q (e' & He' & Hq) F. apply (HA q); [|eapply grows_unknown; [apply check_gen_grows; eapply grows_ok; exact H1 | exact F]].
      apply in_flat_map. exists e'. split; [exact He'|]. apply (entry_cases word WO ulower loads show e'); [apply Hb; exact He' | exact Hq]. }
    destruct (check_gen H (l1 ++ l2) g) as [g1 [[]|x]]; cbn [fst snd] in *; [destruct HX as (x & F); discriminate | auto].
  Qed.
  (** A redirection stops the search, unlike for game archives. *)
  Theorem C72_link entries g e : In e entries -> readable e -> en_data e = Ok None -> exists x, snd (grep entries g) = Err x.
  Proof.
    intros He Hr Hd. destruct (snd (grep entries g)) as [[]|x] eqn:E; [|eauto]. exfalso. apply C72_outcome in E. rewrite Forall_forall in E. apply (E e He). apply lf_link; assumption.
  Qed.
  (** A list of words. *)
  Theorem C72_words space text g : guesser_ok g ->
    grows H (word_in space text) g (check_text_list H space text g) /\ all_tried H (word_in space text) (check_text_list H space text g).
  Proof.
    intros Hg. destruct (check_all_grows H (words_go space [] text) g Hg) as [H1 H2]. unfold check_text_list. split.
    - eapply grows_weaken; [|exact H1]. intros q Hq. apply words_In. exact Hq.
    - intros q Hq. apply H2. apply words_In. exact Hq.
  Qed.
End C72.

(** The archives of the client that are used, and the hashes to find. *)
Theorem C72_wads known wads : NoDup (dkeys known) -> guesser_ok (lcu_from_wads known wads) /\ g_known (lcu_from_wads known wads) = known /\ g_dirs (lcu_from_wads known wads) = None /\
  forall h, In h (g_unknown (lcu_from_wads known wads)) <-> (exists p hs, In (p ++ lit ".wad", hs) wads /\ In h hs) /\ ~ In h (dkeys known).
Proof.
  intros Hk. unfold lcu_from_wads, from_wads. destruct (init_ok known (flat_map snd (lcu_wads wads)) Hk) as [H1 H2]. split; [exact H1|]. split; [reflexivity|]. split; [reflexivity|].
  intros h. rewrite H2, in_flat_map. assert (HE : (exists x, In x (lcu_wads wads) /\ In h (snd x)) <-> exists p hs, In (p ++ lit ".wad", hs) wads /\ In h hs); [|tauto]. split.
  - intros ([p hs] & Hx & Hh). unfold lcu_wads in Hx. apply filter_In in Hx as [Hx E]. cbn [fst snd] in *. apply endswith_iff in E as (q & ->). eauto.
  - intros (p & hs & Hx & Hh). exists (p ++ lit ".wad", hs). split; [|exact Hh]. apply filter_In. split; [exact Hx|]. apply endswith_iff. cbn [fst]. eauto.
Qed.
(** A relative path starts with its dots, which are kept in the searched paths. *)
Theorem C72_dots word s vs r : word_ok word -> found_in word re_relative s = vs -> In [r] vs -> exists t, r = lit "./" ++ t \/ r = lit "../" ++ t.
Proof.
  intros HW E Hr. apply (C72_patterns word s vs HW) in E. clear HW. revert Hr. induction E as [b|b t v rest vs Hm Hf IH|b c s vs Hn Hf IH]; intros Hr; [destruct Hr | | auto].
  destruct Hr as [->|Hr]; [|auto]. destruct Hm as (c & d & q & F & _ & _ & _ & [->| ->] & _); injection F as ->; exists q; auto.
Qed.

(** ** Refuted *)

Definition ex_word (c : N) : bool := alnum c || (c =? 95).
Definition ex_show (v : json) : str := match v with JInt z => [Z.to_N (z + 48)] | _ => lit "?" end.
Definition ex_loads (s : str) : result (option json) :=
  if eqb s (lit "[items]") then Ok (Some (JObj [(lit "ab", JStr (lit "x")); (lit "cd", JNull)])) else
  if eqb s (lit "[plugin]") then Ok (Some (JObj [(lit "name", JStr (lit "rcp-z")); (lit "pluginDependencies", JArr [])])) else
  if eqb s (lit "[splash]") then Ok (Some (JObj [(lit "musicVolume", JFloat); (lit "files", JObj [(lit "a", JStr (lit "Music-splash-Win.ogg")); (lit "b", JStr (lit "B.png"))])])) else
  if eqb s (lit "[champions]") then Ok (Some (JArr [JObj [(lit "id", JInt 1)]; JObj [(lit "id", JInt 2)]])) else
  if eqb s (lit "[defaults] ""Q.png""") then Ok (Some (JObj [(lit "recommendedItemDefaults", JArr [JStr (lit "/data/I.json")])])) else
  Ok None.
Definition ex_grep_lcu := grep_lcu ex_word lower ex_loads ex_show ex_guess_hash.
Lemma ex_word_ok : word_ok ex_word.
Proof.
  intros c Hc. unfold ex_word, alnum, is_digit. destruct Hc as [[H1 H2]|[[H1 H2]|[H1 H2]]]; apply N.leb_le in H1, H2; rewrite H1, H2, ?orb_true_r; reflexivity.
Qed.

(** The names of a file are lost when a later file is a redirection. *)
Theorem C72_names_lost_refuted : exists H word ulower loads show e e' g p d n, guesser_ok g /\ g_dirs g = None /\ word_ok word /\
  ~ lcu_fails loads e /\ lcu_name word ulower loads e n /\ readable e' /\ en_data e' = Ok None /\ In p (dvals (g_known g)) /\ ancestor d p /\
  In (H (d ++ lit "/" ++ n)) (g_unknown (fst (grep_lcu word ulower loads show H [e; e'] g))) /\
  ~ In (H (d ++ lit "/" ++ n)) (g_unknown (fst (grep_lcu word ulower loads show H [e] g))).
Proof.
  set (e := {| en_type := 0; en_ext := Some (lit "js"); en_path := Some (lit "plugins/a/b.js"); en_data := Ok (Some (bl "x=""C.png""")) |}).
  set (e' := {| en_type := 2; en_ext := None; en_path := None; en_data := Ok None |}).
  exists ex_guess_hash, ex_word, lower, ex_loads, ex_show, e, e', (ex_known [lit "plugins/a/b.js"] [lit "plugins/a/c.png"]), (lit "plugins/a/b.js"), (lit "plugins/a"), (lit "c.png").
  split; [apply ex_ok; vm_compute; reflexivity|]. split; [reflexivity|]. split; [exact ex_word_ok|].
  assert (HF : ~ lcu_fails ex_loads e).
  { intros F. apply (proj1 (entry_cases ex_word ex_word_ok lower ex_loads ex_show e)) in F as (x & F). vm_compute in F. exact F. }
  split; [exact HF|]. split; [apply (proj1 (proj2 (proj2 (entry_cases ex_word ex_word_ok lower ex_loads ex_show e)))); apply mem_In; vm_compute; reflexivity|]. split; [intros x F; discriminate|]. split; [reflexivity|].
  split; [left; reflexivity|]. split; [apply anc_parent; apply (parent_dir (lit "plugins/") 97 0 (lit "b.js")); [discriminate | intros F; vm_compute in F; intuition discriminate]|]. split; vm_compute; intuition discriminate.
Qed.
(** The file that a file refers to, in the same directory, is not found: the dots are kept. *)
Theorem C72_relative_refuted : exists H word ulower loads show e g, guesser_ok g /\ g_dirs g = None /\ word_ok word /\ en_path e = Some (lit "plugins/a/b.js") /\ In (lit "plugins/a/b.js") (dvals (g_known g)) /\
  en_data e = Ok (Some (bl "require('./c.js')")) /\ lcu_name word ulower loads e (lit "./c.js") /\ snd (grep_lcu word ulower loads show H [e] g) = Ok tt /\
  In (H (lit "plugins/a/c.js")) (g_unknown (fst (grep_lcu word ulower loads show H [e] g))).
Proof.
  set (e := {| en_type := 0; en_ext := Some (lit "js"); en_path := Some (lit "plugins/a/b.js"); en_data := Ok (Some (bl "require('./c.js')")) |}).
  exists ex_guess_hash, ex_word, lower, ex_loads, ex_show, e, (ex_known [lit "plugins/a/b.js"] [lit "plugins/a/c.js"]).
  split; [apply ex_ok; vm_compute; reflexivity|]. split; [reflexivity|]. split; [exact ex_word_ok|]. split; [reflexivity|]. split; [left; reflexivity|]. split; [reflexivity|].
  split; [apply (proj1 (proj2 (proj2 (entry_cases ex_word ex_word_ok lower ex_loads ex_show e)))); apply mem_In; vm_compute; reflexivity|]. split; vm_compute; auto.
Qed.

(** ** Examples *)

Definition ex_lcu_entries : list entry :=
  let e x p d := {| en_type := 0; en_ext := x; en_path := p; en_data := d |} in
  [e (Some (lit "json")) (Some trans_file) (Ok (Some (bl "[items]")));
   e (Some (lit "json")) None (Ok (Some ([xef; xbb; xbf] ++ bl "[plugin]")));
   e (Some (lit "json")) None (Ok (Some (bl "[splash]")));
   e (Some (lit "json")) (Some summary_file) (Ok (Some (bl "[champions]")));
   e (Some (lit "json")) None (Ok (Some (bl "[defaults] ""Q.png""")));
   e (Some (lit "json")) None (Ok (Some (bl "not JSON /fe/lol-x/Y@2.js;")));
   e (Some (lit "js")) None (Ok (Some (bl "/DATA/D.bin 'lol-game-data/assets/v1/e.json' xfe/n/o <template id=""a-template-b-template-c""> sourceMappingURL=m.js.map sourceMappingURL=n.css.map")));
   e (Some (lit "js")) None (Ok (Some (xff :: bl "/DATA/F.bin")));
   e (Some (lit "png")) None (Err (OSError EIO));
   e None None (Ok (Some []))].
Definition ex_lcu : guesser :=
  ex_known [lit "t/u.js"] [base ++ lit "/v1/hextech-images/ab.png"; base ++ lit "/v1/hextech-images/cd.png"; lit "plugins/rcp-z/global/default/css/main.css";
    lit "plugins/rcp-fe-lol-splash/global/default/splash-assets/win/config.json"; lit "plugins/rcp-fe-lol-splash/global/default/splash-assets/win/b.png";
    base ++ lit "/v1/champions/1.json"; base ++ lit "/v1/champion-splashes/2/metadata.json"; base ++ lit "/data/i.json"; lit "plugins/rcp-fe-lol-x/global/default/y@2.js";
    base ++ lit "/data/d.bin"; base ++ lit "/v1/e.json"; lit "t/q.png"; lit "t/c/template.html"; lit "t/m.js"; base ++ lit "/q.png";
    lit "plugins/rcp-fe-n/global/default/o"; base ++ lit "/data/f.bin"; lit "t/n.css"; lit "t/b-template-c/template.html"].
(** The last four are not found. *)
Example C72_ex : let r := ex_grep_lcu ex_lcu_entries ex_lcu in
  snd r = Ok tt /\ g_unknown (fst r) = map ex_guess_hash [lit "plugins/rcp-fe-n/global/default/o"; base ++ lit "/data/f.bin"; lit "t/n.css"; lit "t/b-template-c/template.html"] /\ length (g_known (fst r)) = 16%nat.
Proof. vm_compute. repeat split. Qed.
Example C72_hyps : guesser_ok ex_lcu /\ g_dirs ex_lcu = None /\ word_ok ex_word /\ Forall (fun e => ~ lcu_fails ex_loads e) ex_lcu_entries /\
  (exists e, lcu_fails ex_loads e /\ readable e /\ en_data e = Ok None) /\ NoDup (dkeys (g_known ex_lcu)) /\
  check_text_list ex_guess_hash (fun c => c <=? 32) (lit " q  r" ++ [10] ++ lit "s") (ex_known [] [lit "q"; lit "r"; lit "r s"]) = ex_known [lit "q"; lit "r"] [lit "r s"].
Proof.
  assert (HO : guesser_ok ex_lcu) by (apply ex_ok; vm_compute; reflexivity). split; [exact HO|]. split; [reflexivity|]. split; [exact ex_word_ok|].
  split; [apply (C72_outcome ex_word lower ex_loads ex_show ex_guess_hash ex_word_ok ex_lcu_entries ex_lcu), C72_ex|]. split.
  - exists {| en_type := 2; en_ext := None; en_path := None; en_data := Ok None |}. assert (HR : readable {| en_type := 2; en_ext := None; en_path := None; en_data := Ok None |}) by (intros x F; discriminate).
    split; [apply lf_link; [exact HR | reflexivity]|]. split; [exact HR | reflexivity].
  - split; [apply HO | vm_compute; reflexivity].
Qed.
Print Assumptions C72_patterns. Print Assumptions C72_json. Print Assumptions C72_kind. Print Assumptions C72_kind_once. Print Assumptions C72_text. Print Assumptions C72_outcome. Print Assumptions C72_safe. Print Assumptions C72_tried.
Print Assumptions C72_prefix. Print Assumptions C72_link. Print Assumptions C72_words. Print Assumptions C72_wads. Print Assumptions C72_dots. Print Assumptions C72_names_lost_refuted. Print Assumptions C72_relative_refuted.
