(** * Claims C20, C21, C22, C49, C51, C52: hash lists and hash guessing *)

From Verif Require Import Base.PyFacts Base.TextFacts Base.Lines Base.LinesFacts Model.Hashes Spec.HashesSpec Proofs.HashesProofs.

(** ** C20 *)

(** Saving a table of one-line strings and loading the text gives the same table, and saving
    again gives the same text. *)
Theorem C20_round_trip (hf : hashfile) d text :
  hf_hashes hf = Some d -> NoDup (dkeys d) -> (forall h s, In (h, s) d -> one_line s) -> hf_save hf = Ok text ->
  forall hf0, hf_size hf0 = hf_size hf ->
  exists d', hf_load true (Ok text) hf0 = ({| hf_size := hf_size hf; hf_hashes := Some d' |}, Ok d') /\
    (forall h, dget h d' = dget h d) /\ length d' = length d /\ NoDup (dkeys d') /\
    hf_save {| hf_size := hf_size hf; hf_hashes := Some d' |} = Ok text.
Proof.
  intros Ed Hn Ho Es hf0 Ehf. destruct (save_load hf d text Ed Hn Ho Es) as (d' & E1 & E2 & E3 & E4 & E5).
  exists d'. split; [|split; [intros h; symmetry; apply E3|split; [apply Permutation_length, Permutation_sym, E2 | auto]]].
  unfold hf_load. cbn [rbind]. rewrite E1, <- Ehf. destruct (hf_hashes hf0); reflexivity.
Qed.
Print Assumptions C20_round_trip.
Local Definition table : hashes := [(255%Z, lit "b/c.txt"); (17%Z, lit "a b"); ((-3)%Z, [])].
Example C20_round_trip_ex :
  hf_save {| hf_size := 4; hf_hashes := Some table |} =
    Ok (lit "-003 " ++ [cNL] ++ lit "0011 a b" ++ [cNL] ++ lit "00ff b/c.txt" ++ [cNL]) /\
  (forall h s, In (h, s) table -> one_line s) /\ NoDup (dkeys table).
Proof.
  split; [vm_compute; reflexivity|]. split.
  - intros h s [E|[E|[E|[]]]]; injection E as <- <-; split; vm_compute; intuition discriminate.
  - vm_compute. repeat constructor; cbn; intuition discriminate.
Qed.

(** The saved text has one line per entry, sorted by string. *)
Theorem C20_sorted w d : exists l,
  hf_save {| hf_size := w; hf_hashes := Some d |} = Ok (concat (map (fun kv => fmt_hash w (fst kv) ++ lit " " ++ snd kv ++ [cNL]) l)) /\
  Permutation d l /\ StronglySorted (fun a b => str_lt (snd b) (snd a) = false) l.
Proof.
  exists (py_sorted by_string d). split; [reflexivity|]. split; [apply py_sorted_perm | apply by_string_sorted].
Qed.
Print Assumptions C20_sorted.

(** Hashes below 16^size are written with exactly [size] digits. *)
Theorem C20_width w h : 0 < w -> (0 <= h)%Z -> Z.to_N h < 16 ^ w -> lenN (fmt_hash w h) = w /\ int16 (fmt_hash w h) = Ok h.
Proof.
  intros Hw Hh Hb. split; [|apply fmt_hash_value]. destruct h; [apply hexl_len; assumption | apply hexl_len; assumption | lia].
Qed.
Print Assumptions C20_width.

(** A loaded table is kept until a reload is forced; a failed load changes nothing. *)
Theorem C20_cached :
  (forall hf d file, hf_hashes hf = Some d -> hf_load false file hf = (hf, Ok d)) /\
  (forall hf file hf' e force, hf_load force file hf = (hf', Err e) -> hf' = hf) /\
  (forall hf file hf' d force, hf_load force file hf = (hf', Ok d) -> hf_load false (Err (OSError ENOENT)) hf' = (hf', Ok d)).
Proof.
  split; [|split].
  - intros hf d file E. unfold hf_load. rewrite E. reflexivity.
  - intros hf file hf' e force. unfold hf_load. destruct (hf_hashes hf); destruct (rbind file parse_hashes); destruct force; congruence.
  - intros hf file hf' d force. unfold hf_load. destruct (hf_hashes hf) eqn:Eh; destruct (rbind file parse_hashes); destruct force;
      intros E; inversion E; subst; cbn; rewrite ?Eh; congruence.
Qed.
Print Assumptions C20_cached.
Example C20_cached_ex : hf_load false (Err (OSError ENOENT)) {| hf_size := 16; hf_hashes := None |} =
  ({| hf_size := 16; hf_hashes := None |}, Err (OSError ENOENT)).
Proof. reflexivity. Qed.

(** A string with a carriage return does not survive. *)
Theorem C20_line_break_refuted : exists d text d',
  NoDup (dkeys d) /\ hf_save {| hf_size := 16; hf_hashes := Some d |} = Ok text /\ parse_hashes text = Ok d' /\ dget 1%Z d' <> dget 1%Z d.
Proof.
  exists [(1%Z, [97; cCR])]. do 2 eexists. split; [vm_compute; repeat constructor; intuition|]. split; [reflexivity|].
  split; [vm_compute; reflexivity|]. vm_compute. discriminate.
Qed.
Print Assumptions C20_line_break_refuted.

(** The unknown hashes listed by exports, one per line, are all read, each of them once. *)
Lemma int16_line w h : int16 (hexl w h ++ [cNL]) = Ok (Z.of_N h).
Proof.
  rewrite <- (hexl_value w h). unfold int16, int_of. replace (strip is_int_space (hexl w h ++ [cNL])) with (strip is_int_space (hexl w h)); [reflexivity|].
  pose proof (hexl_value w h) as Hv. assert (Hc : match hexl w h with x :: _ => is_int_space x = false | [] => False end).
  { destruct (hexl w h) as [|c t] eqn:E; [discriminate|]. pose proof (hexl_chars w h) as Hf. rewrite E, Forall_forall in Hf.
    specialize (Hf c (or_introl eq_refl)). unfold is_int_space, is_digit in *. lia. }
  unfold strip. destruct (hexl w h) as [|c t]; [destruct Hc|]. cbn [app]. rewrite !lstrip_id by exact Hc. symmetry. apply (rstrip_app_all is_int_space (c :: t) [cNL]). reflexivity.
Qed.
Theorem C20_unknown (lists : list (list N)) : exists l,
  unknown_from_export (map (fun hs => concat (map (fun h => hexl 16 h ++ [cNL]) hs)) lists) = Ok l /\ NoDup l /\
  (forall z, In z l <-> exists hs h, In hs lists /\ In h hs /\ z = Z.of_N h).
Proof.
  assert (Hf : forall hs, rmapM int16 (file_lines (nl_norm (concat (map (fun h => hexl 16 h ++ [cNL]) hs)))) = Ok (map Z.of_N hs)).
  { intros hs. rewrite nl_norm_id.
    - induction hs as [|h hs IH]; [reflexivity|]. cbn [map concat]. rewrite <- app_assoc. cbn [app].
      rewrite file_lines_line by (apply hexl_not_in; [reflexivity | unfold cNL; lia]). cbn [rmapM]. rewrite int16_line. cbn [rbind]. rewrite IH. reflexivity.
    - intros Hx. apply in_concat in Hx as (l & Hl & Hx). apply in_map_iff in Hl as (h & <- & _). apply in_app_or in Hx as [Hx|[Hx|[]]]; [|discriminate].
      revert Hx. apply hexl_not_in; [reflexivity | unfold cCR; lia]. }
  exists (set_of (concat (map (map Z.of_N) lists))). split; [|split].
  - unfold unknown_from_export. replace (rmapM _ (map _ lists)) with (Ok (map (map Z.of_N) lists)); [reflexivity|]. symmetry.
    induction lists as [|hs t IH]; [reflexivity|]. cbn [map rmapM]. rewrite Hf. cbn [rbind]. rewrite IH. reflexivity.
  - apply set_of_NoDup.
  - intros z. rewrite set_of_In, in_concat. split.
    + intros (l & Hl & Hz). apply in_map_iff in Hl as (hs & <- & Hs). apply in_map_iff in Hz as (h & <- & Hh). eauto.
    + intros (hs & h & Hs & Hh & ->). exists (map Z.of_N hs). split; apply in_map; assumption.
Qed.
Print Assumptions C20_unknown.
Lemma Forall2_in {A B} (R : A -> B -> Prop) l l' x : Forall2 R l l' -> In x l -> exists y, In y l' /\ R x y.
Proof.
  induction 1 as [|a b l l' Hab _ IH]; intros [].
  - subst a. exists b. split; [left; reflexivity | exact Hab].
  - destruct IH as (y & Hy & HR); [assumption|]. exists y. split; [right; exact Hy | exact HR].
Qed.
(** A line that is not a number is an error. *)
Theorem C20_unknown_lines files l : unknown_from_export files = Ok l ->
  forall text line, In text files -> In line (file_lines (nl_norm text)) -> exists z, int16 line = Ok z /\ In z l.
Proof.
  unfold unknown_from_export. intros E text line Ht Hl. apply rbind_Ok in E as (ls & E & [= <-]). apply rmapM_Ok in E.
  destruct (Forall2_in _ _ _ _ E Ht) as (zs & Hzs & E1). apply rmapM_Ok in E1. destruct (Forall2_in _ _ _ _ E1 Hl) as (z & Hz & E2).
  exists z. split; [exact E2|]. apply set_of_In. apply in_concat. eauto.
Qed.
Print Assumptions C20_unknown_lines.
Example C20_unknown_ex : unknown_from_export [lit "00000000000000ff" ++ [cNL] ++ lit "0123456789abcdef" ++ [cNL]; lit "00000000000000ff" ++ [cNL]] = Ok [255; 0x123456789abcdef]%Z /\
  unknown_from_export [lit "ff" ++ [cNL] ++ lit "xyz" ++ [cNL]] = Err ValueError.
Proof. vm_compute. split; reflexivity. Qed.

(** ** C22 *)

(** The directory list is computed in a finite number of rounds and is exactly the set of
    ancestor directories of the known paths. *)
Theorem C22_directories g : g_dirs g = None -> forall cached,
  exists l g', directory_list cached g = (g', Some l) /\ NoDup l /\
    (forall d, In d l <-> exists p, In p (dvals (g_known g)) /\ ancestor d p) /\
    g_dirs g' = Some l /\ g_known g' = g_known g /\ g_unknown g' = g_unknown g.
Proof.
  intros Hg cached. destruct (compute_dirs_ok (g_known g)) as (l & E & H1 & H2). unfold directory_list. rewrite Hg, E.
  do 2 eexists. split; [reflexivity|]. auto.
Qed.
Print Assumptions C22_directories.
(** For relative paths with plain components, the ancestors are the proper prefixes. *)
Theorem C22_ancestors cs : cs <> [] -> Forall (fun c => c <> [] /\ ~ In cSlash c) cs ->
  forall d, ancestor d (join [cSlash] cs) <-> exists a b, cs = a ++ b /\ b <> [] /\ d = join [cSlash] a.
Proof. exact (ancestor_join cs). Qed.
Print Assumptions C22_ancestors.
Local Definition g0 : guesser := guesser_init [(1%Z, lit "a/b/c.txt"); (2%Z, lit "a/d.txt"); (3%Z, lit "/x//y")] [1%Z; 5%Z; 6%Z; 5%Z].
Example C22_directories_ex : snd (directory_list true g0) = Some [lit "a/b"; lit "a"; lit "/x"; []; lit "/"].
Proof. vm_compute. reflexivity. Qed.
(** The cached list is not updated when paths are found. *)
Theorem C22_stale_refuted : exists H p g l, let g1 := fst (directory_list true g) in let g2 := check H p g1 in
  snd (directory_list true g2) = Some l /\ (exists d, In p (dvals (g_known g2)) /\ ancestor d p /\ ~ In d l).
Proof.
  exists (fun _ => 5%Z), (lit "n/e"), g0, [lit "a/b"; lit "a"; lit "/x"; []; lit "/"]. cbv zeta. split; [vm_compute; reflexivity|].
  exists (lit "n"). split; [vm_compute; tauto|]. split; [|vm_compute; intuition discriminate].
  apply anc_parent. apply parent_dirname. vm_compute. reflexivity.
Qed.
Print Assumptions C22_stale_refuted.

(** ** C21 *)

(** A new guesser. *)
Theorem C21_init known hs : NoDup (dkeys known) -> guesser_ok (guesser_init known hs) /\ g_known (guesser_init known hs) = known /\
  forall h, In h (g_unknown (guesser_init known hs)) <-> In h hs /\ ~ In h (dkeys known).
Proof. intros Hk. destruct (init_ok known hs Hk) as [H1 H2]. auto. Qed.
Print Assumptions C21_init.
(** Any sequence of guessing operations. *)
Theorem C21_only_correct H os g : guesser_ok g -> let g' := run_ops H os g in
  (forall h p, dget h (g_known g) = Some p -> dget h (g_known g') = Some p) /\
  (forall h p, dget h (g_known g') = Some p -> dget h (g_known g) = None -> H p = h /\ In h (g_unknown g)) /\
  (forall h, In h (g_unknown g') <-> In h (g_unknown g) /\ dget h (g_known g') = None) /\
  (forall h, In h (g_unknown g') -> dget h (g_known g') = None) /\
  (forall h, In h (g_unknown g') \/ In h (dkeys (g_known g')) <-> In h (g_unknown g) \/ In h (dkeys (g_known g))) /\
  (length (g_known g') - length (g_known g) = length (g_unknown g) - length (g_unknown g'))%nat.
Proof.
  intros Hg g'. destruct (run_ops_grow H os g Hg) as (A0 & A1 & A2 & A3 & A4).
  split; [exact A1|]. split; [intros h p E1 E2; destruct (A2 h p E1 E2) as (B1 & B2 & _); auto|].
  split; [exact A3|]. split; [intros h Hh; apply A3 in Hh; tauto|]. split; [|fold g' in A4; lia]. fold g' in A0, A1, A2, A3.
  assert (K : forall g h, In h (dkeys (g_known g)) <-> dget h (g_known g) <> None).
  { intros x h. rewrite dget_None. destruct (in_dec eq_dec h (dkeys (g_known x))); tauto. }
  intros h. rewrite !K, (A3 h). destruct (dget h (g_known g')) as [p|] eqn:E1; destruct (dget h (g_known g)) as [q|] eqn:E2.
  - split; intros _; right; discriminate.
  - destruct (A2 h p E1 E2) as (_ & B2 & _). split; intros _; [left; assumption | right; discriminate].
  - rewrite (A1 h q E2) in E1. discriminate.
  - tauto.
Qed.
Print Assumptions C21_only_correct.
(** A candidate whose hash is unknown is found, by each way of checking; what is found is one of
    the candidates. *)
Theorem C21_found H ps g : guesser_ok g ->
  (forall s, check_iter H (ArgText s) g = (g, Err TypeError)) /\
  check_iter H (ArgIter ps) g = (check_all H ps g, Ok tt) /\
  let g' := check_all H ps g in
  (forall p, In p ps -> In (H p) (g_unknown g) -> exists q, In q ps /\ H q = H p /\ dget (H p) (g_known g') = Some q) /\
  (forall h p, dget h (g_known g') = Some p -> dget h (g_known g) = None -> In p ps).
Proof.
  intros Hg. split; [reflexivity|]. split; [reflexivity|]. intros g'. destruct (check_all_grows H ps g Hg) as [(A0 & A1 & A2 & A3 & A4) T].
  fold g' in A0, A1, A2, A3, A4, T. split.
  - intros p Hp Hu. specialize (T p Hp). rewrite A3 in T. destruct (dget (H p) (g_known g')) as [q|] eqn:E; [|tauto].
    destruct Hg as (_ & _ & Hg). destruct (A2 _ q E (Hg _ Hu)) as (B1 & _ & B3). exists q. auto.
  - intros h p E1 E2. apply (A2 h p E1 E2).
Qed.
Print Assumptions C21_found.
Theorem C21_is_known H p g : fst (is_known H p g) = check H p g /\ check H p g = check_all H [p] g /\
  (snd (is_known H p g) = true <-> In (H p) (g_unknown g) \/ In (H p) (dkeys (g_known g))).
Proof. destruct (is_known_spec H p g) as [H1 H2]. auto. Qed.
Print Assumptions C21_is_known.
Local Definition toy (p : str) : Z := Z.of_N (lenN p).
Example C21_ex : guesser_ok g0 /\ g_unknown g0 = [5%Z; 6%Z] /\
  run_ops toy [OpCheck (lit "abcd"); OpCheckIter (ArgIter [lit "hello"; lit "world"; lit "ab"]); OpIsKnown (lit "xyz")] g0 =
  {| g_known := g_known g0 ++ [(5%Z, lit "hello")]; g_unknown := [6%Z]; g_dirs := None |}.
Proof.
  split; [unfold g0; apply init_ok; vm_compute; repeat constructor; cbn; intuition discriminate|]. split; vm_compute; reflexivity.
Qed.
(** The last step of [LcuHashGuesser.guess_patterns] raises as soon as it finds something, since
    it extends the dictionary it iterates over. *)
Theorem C21_patterns_raise H replace g : guesser_ok g ->
  (exists p, In p (dvals (g_known g)) /\ startswith p loot_prefix = true /\ In (H (replace p)) (g_unknown g)) ->
  snd (guess_loot H replace g) = Err RuntimeError.
Proof. exact (loot_raises H replace g). Qed.
Print Assumptions C21_patterns_raise.
Theorem C21_patterns_refuted : exists H replace g, guesser_ok g /\
  guess_loot H replace g =
  ({| g_known := g_known g ++ [(5%Z, loot_prefix ++ lit "a_splash.png")]; g_unknown := [6%Z]; g_dirs := None |}, Err RuntimeError).
Proof.
  exists (fun p => if endswith p (lit "_splash.png") then 5%Z else 0%Z), (fun p => py_take p (-4) ++ lit "_splash.png").
  exists (guesser_init [(1%Z, loot_prefix ++ lit "a.png"); (2%Z, loot_prefix ++ lit "b.png")] [5%Z; 6%Z]).
  split; [apply init_ok; vm_compute; repeat constructor; cbn; intuition discriminate|]. vm_compute. reflexivity.
Qed.
Print Assumptions C21_patterns_refuted.

(** ** C52: completeness of substitutions *)

(** [check_basenames]: every [dir/name] with [dir] an ancestor of a known path. *)
Theorem C52_basenames H names g : guesser_ok g -> g_dirs g = None ->
  let cand p := exists d n q, In q (dvals (g_known g)) /\ ancestor d q /\ In n names /\ p = d ++ lit "/" ++ n in
  grows H cand g (check_basenames H names g) /\ all_tried H cand (check_basenames H names g).
Proof.
  intros Hg Hd cand. destruct (check_basenames_spec H names g Hg) as (dirs & E & H1 & H2).
  destruct (C22_directories g Hd true) as (l & g' & E1 & _ & E2 & _). rewrite E1 in E. cbn [snd] in E. subst dirs.
  split.
  - eapply grows_weaken; [|exact H1]. intros p (l' & d & n & El & Hdl & Hn & ->). injection El as <-. apply E2 in Hdl as (q & Hq & Ha).
    exists d, n, q. auto.
  - intros p (d & n & q & Hq & Ha & Hn & ->). apply H2. exists l, d, n. split; [reflexivity|]. split; [apply E2; eauto | auto].
Qed.
Print Assumptions C52_basenames.
(** [substitute_basenames]: names of known paths in directories of known paths. *)
Theorem C52_substitute_basenames H g : guesser_ok g -> g_dirs g = None ->
  let cand p := exists d q q', In q (dvals (g_known g)) /\ ancestor d q /\ In q' (dvals (g_known g)) /\ p = d ++ lit "/" ++ basename q' in
  grows H cand g (substitute_basenames H g) /\ all_tried H cand (substitute_basenames H g).
Proof.
  intros Hg Hd cand. destruct (C52_basenames H (set_of (map basename (dvals (g_known g)))) g Hg Hd) as [H1 H2].
  assert (EQ : forall n, In n (set_of (map basename (dvals (g_known g)))) <-> exists q', In q' (dvals (g_known g)) /\ n = basename q').
  { intros n. rewrite set_of_In, in_map_iff. split; intros (q & A & B); eauto. }
  split.
  - eapply grows_weaken; [|exact H1]. intros p (d & n & q & Hq & Ha & Hn & ->). apply EQ in Hn as (q' & Hq' & ->). exists d, q, q'. auto.
  - intros p (d & q & q' & Hq & Ha & Hq' & ->). apply H2. exists d, (basename q'), q. split; [assumption|]. split; [assumption|]. split; [apply EQ; eauto | reflexivity].
Qed.
Print Assumptions C52_substitute_basenames.
Theorem C52_extensions H g : guesser_ok g ->
  let cand p := exists x e q1 q2, In q1 (dvals (g_known g)) /\ In q2 (dvals (g_known g)) /\
                  x = fst (splitext q1) /\ e = snd (splitext q2) /\ endswith e (lit "00") = false /\ p = x ++ e in
  grows H cand g (substitute_extensions H g) /\ all_tried H cand (substitute_extensions H g).
Proof. exact (extensions_spec H g). Qed.
Print Assumptions C52_extensions.
Example C52_ex :
  let g := guesser_init [(1%Z, lit "a/b.png"); (2%Z, lit "c/dd.json")] [8%Z; 9%Z; 10%Z] in
  g_known (substitute_basenames toy g) = [(1%Z, lit "a/b.png"); (2%Z, lit "c/dd.json"); (9%Z, lit "a/dd.json"); (8%Z, lit "/dd.json")] /\
  g_known (substitute_extensions toy g) = [(1%Z, lit "a/b.png"); (2%Z, lit "c/dd.json"); (8%Z, lit "a/b.json"); (9%Z, lit "c/dd.json")].
Proof. vm_compute. split; reflexivity. Qed.

(** ** C51: word lists *)

Theorem C51_wordlist paths :
  StronglySorted (fun a b => str_lt a b = true) (build_wordlist paths) /\
  forall w, In w (build_wordlist paths) <->
    (~ exists d, (w = d \/ w = d ++ [cNL]) /\ (3 <= length d)%nat /\ Forall (fun c => 48 <= c <= 57) d) /\
    Forall (fun c => ~ In c (lit "/_.-")) w /\
    exists p a c b, In p paths /\ p = a ++ w ++ c :: b /\ In c (lit "/_.-") /\
      (a = [] \/ exists a' c', a = a' ++ [c'] /\ In c' (lit "/_.-")).
Proof.
  split; [apply wordlist_sorted|]. intros w. rewrite wordlist_In, <- large_number_iff, not_true_iff_false. split.
  - intros (H1 & p & Hp & Hw). apply path_words_iff in Hw as (Hw & a & c & b & E & Hc & Ha). split; [assumption|]. split; [assumption|].
    exists p, a, c, b. auto.
  - intros (H1 & Hw & p & a & c & b & Hp & E & Hc & Ha). split; [assumption|]. exists p. split; [assumption|]. apply path_words_iff.
    split; [assumption|]. exists a, c, b. auto.
Qed.
Print Assumptions C51_wordlist.
Example C51_wordlist_ex : build_wordlist [lit "assets/hero_12/icon-1234.png"; lit "data/hero.bin"] =
  [lit "12"; lit "assets"; lit "data"; lit "hero"; lit "icon"].
Proof. vm_compute. reflexivity. Qed.

(** ** C49 *)

Theorem C49_hash_dir (env : str -> option str) home :
  let set name (v : str) := env name = Some v /\ v <> [] in
  let unset name := env name = None \/ env name = Some [] in
  (forall v, set (lit "CDTB_HASHES_DIR") v -> default_hash_dir env home = mkpath v) /\
  (unset (lit "CDTB_HASHES_DIR") ->
    (forall v, set (lit "CDRAGON_DATA") v -> default_hash_dir env home = pdiv (mkpath v) (lit "hashes/lol")) /\
    (unset (lit "CDRAGON_DATA") ->
      (forall v, env (lit "XDG_DATA_HOME") = Some (cSlash :: v) ->
         default_hash_dir env home = pdiv (mkpath (cSlash :: v)) (lit "cdragon/data/hashes/lol")) /\
      ((forall v, env (lit "XDG_DATA_HOME") <> Some (cSlash :: v)) ->
         (forall v, set (lit "LOCALAPPDATA") v -> default_hash_dir env home = pdiv (mkpath v) (lit "cdragon/data/hashes/lol")) /\
         (unset (lit "LOCALAPPDATA") -> default_hash_dir env home = pdiv (pdiv home (lit ".local/share")) (lit "cdragon/data/hashes/lol"))))).
Proof.
  intros set unset.
  assert (ES : forall name v, set name v -> env_dir env name = Some (mkpath v)).
  { intros name v [E Hv]. unfold env_dir. rewrite E. destruct (eqbP (v : str) []); [contradiction | reflexivity]. }
  assert (EU : forall name, unset name -> env_dir env name = None).
  { intros name [E|E]; unfold env_dir; rewrite E; reflexivity. }
  unfold default_hash_dir. split; [intros v Hv; rewrite (ES _ _ Hv); reflexivity|]. intros U1. rewrite (EU _ U1).
  split; [intros v Hv; rewrite (ES _ _ Hv); reflexivity|]. intros U2. rewrite (EU _ U2). split.
  - intros v Hv. rewrite (ES (lit "XDG_DATA_HOME") (cSlash :: v)) by (split; [assumption|discriminate]).
    rewrite (proj2 (is_absolute_iff (cSlash :: v))) by eauto. reflexivity.
  - intros Hx. assert (EX : forall q, match env_dir env (lit "XDG_DATA_HOME") with Some p => if is_absolute p then p else q | None => q end = q).
    { intros q. unfold env_dir. destruct (env (lit "XDG_DATA_HOME")) as [v|]; [|reflexivity]. destruct (eqb v []); [reflexivity|].
      destruct (is_absolute (mkpath v)) eqn:Ea; [|reflexivity]. apply is_absolute_iff in Ea as [r ->]. exfalso. exact (Hx r eq_refl). }
    rewrite EX. split; [intros v Hv; rewrite (ES _ _ Hv); reflexivity | intros U3; rewrite (EU _ U3); reflexivity].
Qed.
Print Assumptions C49_hash_dir.
Theorem C49_absolute cs more : Forall (fun c => (c <> [] /\ ~ In cSlash c) /\ c <> lit ".") (cs ++ more) -> more <> [] ->
  pdiv (mkpath (cSlash :: join [cSlash] cs)) (join [cSlash] more) = {| pp_root := [cSlash]; pp_parts := cs ++ more |}.
Proof.
  intros Hf Hm. apply Forall_app in Hf as [H1 H2]. rewrite (mkpath_absolute cs H1). exact (pdiv_relative _ more Hm H2).
Qed.
Print Assumptions C49_absolute.
(** A path given after another one replaces it if it is absolute. *)
Theorem C49_replaces p s : pdiv p (cSlash :: s) = mkpath (cSlash :: s).
Proof.
  unfold pdiv. replace (is_absolute (mkpath (cSlash :: s))) with true; [reflexivity|]. unfold is_absolute, mkpath. cbn [pp_root].
  destruct (startswith (cSlash :: s) [cSlash; cSlash; cSlash]); [reflexivity|]. destruct (startswith (cSlash :: s) [cSlash; cSlash]); [reflexivity|].
  change (startswith (cSlash :: s) [cSlash]) with true. reflexivity.
Qed.
Print Assumptions C49_replaces.
Example C49_replaces_ex : pdiv (mkpath (lit "/root")) (lit "/other/x") = mkpath (lit "/other/x") /\ pdiv (mkpath (lit "/root")) (lit "other/x") = mkpath (lit "/root/other/x").
Proof. vm_compute. split; reflexivity. Qed.
Example C49_ex :
  default_hash_dir (fun n => if eqb n (lit "XDG_DATA_HOME") then Some (lit "data") else if eqb n (lit "LOCALAPPDATA") then Some (lit "/local//app/.") else None)
    (mkpath (lit "/root")) = mkpath (lit "/local/app/cdragon/data/hashes/lol").
Proof. vm_compute. reflexivity. Qed.
(** The documentation of the function announces [$XDG_DATA_HOME/cdragon/hashes/lol]. *)
Theorem C49_documented_refuted : exists env home, env (lit "XDG_DATA_HOME") = Some (lit "/xdg") /\
  default_hash_dir env home <> mkpath (lit "/xdg/cdragon/hashes/lol").
Proof.
  exists (fun n => if eqb n (lit "XDG_DATA_HOME") then Some (lit "/xdg") else None), (mkpath (lit "/root")).
  split; [reflexivity|]. vm_compute. discriminate.
Qed.
Print Assumptions C49_documented_refuted.
Theorem C49_hash_list path :
  (default_hashfile path = Ok HashesGame <-> exists r, path = r ++ lit ".wad.client") /\
  (default_hashfile path = Ok HashesLcu <-> exists r, path = r ++ lit ".wad") /\
  (default_hashfile path = Err ValueError <-> ~ (exists r, path = r ++ lit ".wad") /\ ~ (exists r, path = r ++ lit ".wad.client")).
Proof.
  unfold default_hashfile.
  pose proof (endswith_iff path (lit ".wad.client")) as H1. pose proof (endswith_iff path (lit ".wad")) as H2.
  destruct (endswith path (lit ".wad.client")) eqn:E1; destruct (endswith path (lit ".wad")) eqn:E2.
  1: { exfalso. destruct (proj1 H1 eq_refl) as [r Hr]. destruct (proj1 H2 eq_refl) as [r' Hr']. rewrite Hr in Hr'.
    apply (f_equal (@rev N)) in Hr'. rewrite !rev_app_distr in Hr'. vm_compute in Hr'. discriminate. }
  all: try pose proof (proj1 H1 eq_refl) as P1; try pose proof (proj1 H2 eq_refl) as P2.
  all: try (assert (Q1 : ~ exists r, path = r ++ lit ".wad.client") by (intros X; apply H1 in X; discriminate)).
  all: try (assert (Q2 : ~ exists r, path = r ++ lit ".wad") by (intros X; apply H2 in X; discriminate)).
  all: clear H1 H2; split; [|split]; split; intros HH; try discriminate; try reflexivity; tauto.
Qed.
Print Assumptions C49_hash_list.
