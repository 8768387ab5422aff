(** * C65: guessing of numbers and words in basenames *)

From Verif Require Import Base.Py Base.PyFacts Base.Text Base.TextFacts Model.Hashes Model.Guess Spec.HashesSpec Spec.GuessSpec Proofs.HashesProofs Proofs.GuessProofs.

Section C65.
  Variable H : str -> Z.
  Variable other : str -> list parg -> result str.

  (** ** Known paths without percent signs *)

  Theorem C65_numbers (paths : list str) nmax g : guesser_ok g -> (forall p, In p paths -> ~ In 37 p) ->
    let cand q := exists p, In p paths /\ other_number nmax p q in
    exists g', substitute_numbers_in H other paths nmax DigitsNone g = (g', Ok tt) /\ grows H cand g g' /\ all_tried H cand g'.
  Proof. intros Hg Hp. apply numbers_spec; [assumption | apply Forall_forall; exact Hp]. Qed.

  Theorem C65_digits (paths : list str) w nmax g : guesser_ok g -> (forall p, In p paths -> ~ In 37 p) -> 0 < w ->
    let cand q := exists p, In p paths /\ other_digits w nmax p q in
    exists g', substitute_numbers_in H other paths nmax (Digits w) g = (g', Ok tt) /\ grows H cand g g' /\ all_tried H cand g'.
  Proof. intros Hg Hp Hw. apply group_spec; [assumption | apply Forall_forall; exact Hp | assumption]. Qed.

  (** As many digits as the largest number. *)
  Theorem C65_largest (paths : list str) nmax g : guesser_ok g -> (forall p, In p paths -> ~ In 37 p) -> 0 < nmax ->
    let cand q := exists p, In p paths /\ other_digits (lenN (dec (nmax - 1))) nmax p q in
    exists g', substitute_numbers_in H other paths nmax DigitsTrue g = (g', Ok tt) /\ grows H cand g g' /\ all_tried H cand g'.
  Proof.
    intros Hg Hp Hn. rewrite digits_true. assert (E : decZ (Z.of_N nmax - 1) = dec (nmax - 1)).
    { unfold decZ. replace (Z.of_N nmax - 1)%Z with (Z.of_N (nmax - 1)) by lia. rewrite N2Z.id. destruct (Z.of_N (nmax - 1)) eqn:E; try reflexivity. lia. }
    rewrite E. apply group_spec; [assumption | apply Forall_forall; exact Hp|]. assert (lenN (dec (nmax - 1)) <> 0) by (rewrite lenN_0; apply dec_nonempty). lia.
  Qed.

  Theorem C65_words (paths words : list str) nold nnew g : guesser_ok g -> (forall p, In p paths -> ~ In 37 p /\ ~ In 123 p) -> (0 < nold)%nat -> (0 < nnew)%nat ->
    let cand q := exists p, In p paths /\ other_words words nold nnew p q in
    exists g', substitute_words_in H other paths words nold nnew g = (g', Ok tt) /\ grows H cand g g' /\ all_tried H cand g'.
  Proof. intros Hg Hp Ho Hn. apply words_spec; [assumption | apply Forall_forall; exact Hp | assumption | assumption]. Qed.

  Theorem C65_no_words (paths words : list str) nold nnew g : nold = 0%nat \/ nnew = 0%nat ->
    substitute_words_in H other paths words nold nnew g = (g, Err ValueError).
  Proof. apply words_zero. Qed.

  Theorem C65_added (paths words : list str) g : guesser_ok g -> (forall p, In p paths -> ~ In 37 p) ->
    let cand q := exists p, In p paths /\ one_more_word words p q in
    exists g', add_word_in H other paths words g = (g', Ok tt) /\ grows H cand g g' /\ all_tried H cand g'.
  Proof. intros Hg Hp. apply added_spec; [assumption | apply Forall_forall; exact Hp]. Qed.

  (** ** Any known paths *)

  Theorem C65_safe (paths words : list str) nmax digits nold nnew g : guesser_ok g ->
    grows H (fun _ => True) g (fst (substitute_numbers_in H other paths nmax digits g)) /\
    grows H (fun _ => True) g (fst (substitute_words_in H other paths words nold nnew g)) /\
    grows H (fun _ => True) g (fst (add_word_in H other paths words g)).
  Proof.
    intros Hg. split; [|split].
    - eapply grows_weaken; [|apply check_formats_safe; assumption]. auto.
    - unfold substitute_words_in. destruct (Nat.eqb nold 0 || Nat.eqb nnew 0); [apply grows_refl; assumption|]. eapply grows_weaken; [|apply check_formats_safe; assumption]. auto.
    - eapply grows_weaken; [|apply check_formats_safe; assumption]. auto.
  Qed.

  (** ** Choice of the paths *)

  Theorem C65_lcu_numbers nmax g : guesser_ok g -> (forall p, In p (dvals (g_known g)) -> ~ numbers_kept p -> ~ In 37 p) ->
    let cand q := exists p, In p (dvals (g_known g)) /\ ~ numbers_kept p /\ other_number nmax p q in
    exists g', lcu_substitute_numbers H other nmax DigitsNone g = (g', Ok tt) /\ grows H cand g g' /\ all_tried H cand g'.
  Proof.
    intros Hg Hp cand. unfold lcu_substitute_numbers.
    assert (HF : forall p, In p (filter (fun p => negb (no_numbers p)) (dvals (g_known g))) <-> In p (dvals (g_known g)) /\ ~ numbers_kept p).
    { intros p. rewrite filter_In, negb_true_iff, <- no_numbers_iff. destruct (no_numbers p); intuition congruence. }
    destruct (numbers_spec H other (filter (fun p => negb (no_numbers p)) (dvals (g_known g))) nmax g Hg) as (g' & E & A & B).
    { apply Forall_forall. intros p Hi. apply HF in Hi as [? ?]. apply Hp; assumption. }
    exists g'. split; [exact E|]. split.
    - eapply grows_weaken; [|exact A]. intros q (p & Hi & Ho). apply HF in Hi as [? ?]. exists p. auto.
    - intros q (p & Hi & Hk & Ho). apply B. exists p. split; [apply HF; auto | assumption].
  Qed.
  Theorem C65_game_numbers nmax g : guesser_ok g -> (forall p, In p (dvals (g_known g)) -> ~ In 37 p) ->
    let cand q := exists p, In p (dvals (g_known g)) /\ other_number nmax p q in
    exists g', game_substitute_numbers H other nmax DigitsNone g = (g', Ok tt) /\ grows H cand g g' /\ all_tried H cand g'.
  Proof. intros Hg Hp. apply numbers_spec; [assumption | apply Forall_forall; exact Hp]. Qed.

  Lemma word_of_iff p w : In w (path_words p) <-> word_of p w.
  Proof.
    rewrite path_words_iff. unfold word_of, word_char.
    assert (HD : forall c, In c (lit "/_.-") <-> ~ ~ In c (lit "/_.-")).
    { intros c. destruct (in_dec N.eq_dec c (lit "/_.-")); tauto. }
    split; intros [H1 (a & c & b & E & Hc & Ha)]; (split; [assumption|]); exists a, c, b; (split; [assumption|]); (split; [apply HD; assumption|]);
      (destruct Ha as [Ha|(a' & c' & E' & Hc')]; [left; assumption | right; exists a', c'; split; [assumption | apply HD; assumption]]).
  Qed.
  Lemma not_large w : is_large_number w = false <-> ~ large_number w.
  Proof. unfold large_number, digit. rewrite <- large_number_iff. destruct (is_large_number w); intuition congruence. Qed.
  Theorem C65_wordlists g w :
    (In w (game_wordlist g) <-> ~ large_number w /\ exists p, In p (dvals (g_known g)) /\ word_of p w) /\
    (In w (lcu_wordlist g) <-> ~ large_number w /\ exists p, In p (dvals (g_known g)) /\ word_of p w /\
       ~ digest_name p /\ ~ exists r, p = lit "plugins/rcp-be-lol-game-data/global/default/data/characters/" ++ r).
  Proof.
    unfold game_wordlist, lcu_wordlist. rewrite !wordlist_In, !not_large. split.
    - split; intros [H1 (p & Hp & Hw)]; (split; [assumption|]); exists p; (split; [assumption|]); apply word_of_iff; assumption.
    - assert (HF : forall p, negb (startswith p (game_data ++ lit "global/default/data/characters/") || has_hex32 p) = true <->
        ~ digest_name p /\ ~ exists r, p = lit "plugins/rcp-be-lol-game-data/global/default/data/characters/" ++ r).
      { intros p. rewrite negb_true_iff, orb_false_iff, <- has_hex32_iff. rewrite <- (startswith_iff p (lit "plugins/rcp-be-lol-game-data/global/default/data/characters/")).
        change (game_data ++ lit "global/default/data/characters/") with (lit "plugins/rcp-be-lol-game-data/global/default/data/characters/").
        destruct (startswith p _), (has_hex32 p); intuition congruence. }
      split.
      + intros [H1 (p & Hp & Hw)]. apply filter_In in Hp as [Hp Hf]. split; [assumption|]. exists p. split; [assumption|]. split; [apply word_of_iff; assumption | apply HF; assumption].
      + intros [H1 (p & Hp & Hw & Hf)]. split; [assumption|]. exists p. split; [apply filter_In; split; [assumption | apply HF; assumption] | apply word_of_iff; assumption].
  Qed.

  (** A filter given, and not empty. *)
  Definition wanted (o : option str) (P : str -> Prop) : Prop := match o with Some (c :: x) => P (c :: x) | _ => True end.
  Theorem C65_lcu_words plugin fileext words nold nnew g : guesser_ok g -> (0 < nold)%nat -> (0 < nnew)%nat ->
    let chosen p := In p (dvals (g_known g)) /\ wanted plugin (fun x => exists r, p = lit "plugins/" ++ x ++ lit "/" ++ r) /\ wanted fileext (fun x => exists r, p = r ++ x) in
    let ws := match words with Some l => l | None => lcu_wordlist g end in
    (forall p, chosen p -> ~ In 37 p /\ ~ In 123 p) ->
    let cand q := exists p, chosen p /\ other_words ws nold nnew p q in
    exists g', lcu_substitute_words H other plugin fileext words nold nnew g = (g', Ok tt) /\ grows H cand g g' /\ all_tried H cand g'.
  Proof.
    intros Hg Ho Hn chosen ws Hp cand. unfold lcu_substitute_words. fold ws.
    set (paths := match nonempty_text fileext with Some x => _ | None => _ end).
    assert (HC : forall p, In p paths <-> chosen p).
    { intros p. unfold paths, chosen, wanted. destruct plugin as [[|c x]|]; destruct fileext as [[|d y]|]; cbn [nonempty_text]; rewrite ?filter_In, ?startswith_iff, ?endswith_iff; try tauto.
      all: assert (EQ : (exists r, p = (lit "plugins/" ++ (c :: x) ++ lit "/") ++ r) <-> exists r, p = lit "plugins/" ++ (c :: x) ++ lit "/" ++ r)
        by (split; intros [r ->]; exists r; rewrite <- !app_assoc; reflexivity).
      all: rewrite EQ; tauto. }
    destruct (words_spec H other paths ws nold nnew g Hg) as (g' & E & A & B); [apply Forall_forall; intros p Hi; apply Hp, HC; assumption | assumption | assumption|].
    exists g'. split; [exact E|]. split.
    - eapply grows_weaken; [|exact A]. intros q (p & Hi & Hq). exists p. split; [apply HC; assumption | assumption].
    - intros q (p & Hi & Hq). apply B. exists p. split; [apply HC; assumption | assumption].
  Qed.
  Theorem C65_game_words g : guesser_ok g -> (forall p, In p (dvals (g_known g)) -> ~ In 37 p /\ ~ In 123 p) ->
    let cand q := exists p, In p (dvals (g_known g)) /\ other_words (game_wordlist g) 1 1 p q in
    exists g', game_substitute_words H other g = (g', Ok tt) /\ grows H cand g g' /\ all_tried H cand g'.
  Proof. intros Hg Hp. apply words_spec; [assumption | apply Forall_forall; exact Hp | lia | lia]. Qed.
  Theorem C65_lcu_added g : guesser_ok g -> (forall p, In p (dvals (g_known g)) -> ~ In 37 p) ->
    let cand q := exists p, In p (dvals (g_known g)) /\ one_more_word (lcu_wordlist g) p q in
    exists g', lcu_add_word H other g = (g', Ok tt) /\ grows H cand g g' /\ all_tried H cand g'.
  Proof. intros Hg Hp. apply added_spec; [assumption | apply Forall_forall; exact Hp]. Qed.
  Theorem C65_game_added g : guesser_ok g ->
    let chosen p := In p (dvals (g_known g)) /\ forall s, In s [lit "assets/characters/"; lit "vo/"; lit "sfx/"; lit "skins_skin"] -> ~ exists a b, p = a ++ s ++ b in
    (forall p, chosen p -> ~ In 37 p) ->
    let cand q := exists p, chosen p /\ one_more_word (game_wordlist g) p q in
    exists g', game_add_word H other g = (g', Ok tt) /\ grows H cand g g' /\ all_tried H cand g'.
  Proof.
    intros Hg chosen Hp cand. unfold game_add_word. set (paths := filter _ _).
    assert (HC : forall p, In p paths <-> chosen p).
    { intros p. unfold paths, chosen. rewrite filter_In, negb_true_iff. split; intros [H1 H2]; (split; [assumption|]).
      - intros s Hs Hc. apply contains_iff in Hc. assert (E : existsb (fun part => contains part p) [lit "assets/characters/"; lit "vo/"; lit "sfx/"; lit "skins_skin"] = true) by (apply existsb_exists; eauto). congruence.
      - destruct (existsb _ _) eqn:E; [|reflexivity]. apply existsb_exists in E as (s & Hs & Hc). apply contains_iff in Hc. exfalso. exact (H2 s Hs Hc). }
    destruct (added_spec H other paths (game_wordlist g) g Hg) as (g' & E & A & B); [apply Forall_forall; intros p Hi; apply Hp, HC; assumption|].
    exists g'. split; [exact E|]. split.
    - eapply grows_weaken; [|exact A]. intros q (p & Hi & Hq). exists p. split; [apply HC; assumption | assumption].
    - intros q (p & Hi & Hq). apply B. exists p. split; [apply HC; assumption | assumption].
  Qed.
End C65.

(** ** Percent signs *)

Definition ex_guess_hash (s : str) : Z := Z.of_N (undigits 1000 s).
Definition ex_percent : guesser :=
  {| g_known := [(ex_guess_hash (lit "a5.x%"), lit "a5.x%"); (ex_guess_hash (lit "b5.x"), lit "b5.x")]; g_unknown := [ex_guess_hash (lit "b1.x")]; g_dirs := None |}.
(** A known path with a percent sign stops the search before other paths. *)
Theorem C65_percent_refuted : exists H g nmax q, guesser_ok g /\ (exists p, In p (dvals (g_known g)) /\ other_number nmax p q) /\
  forall other, exists g', game_substitute_numbers H other nmax DigitsNone g = (g', Err ValueError) /\ In (H q) (g_unknown g').
Proof.
  exists ex_guess_hash, ex_percent, 10, (lit "b1.x"). split; [|split].
  - split; [repeat constructor; vm_compute; intuition discriminate|]. split; [repeat constructor; intros []|]. intros h [<-|[]]. vm_compute. reflexivity.
  - exists (lit "b5.x"). split; [right; left; reflexivity|]. exists (lit "b"), (lit "5"), (lit ".x"), 1. split; [reflexivity|]. split.
    + split; [discriminate|]. split; [change (lit "5") with [53]; constructor; [unfold digit; lia | constructor]|]. split.
      * intros [|y x] c E; [apply (f_equal (hd 0)) in E; cbn in E; unfold digit; lia|]. apply (f_equal (@length N)) in E. rewrite app_length in E. cbn in E. lia.
      * intros c x E. apply (f_equal (hd 0)) in E. cbn in E. unfold digit. lia.
    + split; [|split; [lia | reflexivity]]. split; [vm_compute; intuition discriminate|]. exists [], 120, []. reflexivity.
  - intros other. exists ex_percent. split; [vm_compute; reflexivity | left; reflexivity].
Qed.

(** ** Example *)

Definition ex_words : guesser :=
  {| g_known := [(ex_guess_hash (lit "d/a_b-c.x"), lit "d/a_b-c.x"); (ex_guess_hash (lit "e/7x12.y"), lit "e/7x12.y")];
     g_unknown := map ex_guess_hash [lit "d/d-c.x"; lit "d/a_b-e-c.x"; lit "e/7x3.y"; lit "e/7x03.y"; lit "e/3x12.y"; lit "d/a_b-a-d.x"]; g_dirs := None |}.
Example C65_ex : forall other,
  let found r := (filter (fun p => negb (mem p (dvals (g_known ex_words)))) (dvals (g_known (fst r))), snd r) in
  found (game_substitute_numbers ex_guess_hash other 10 DigitsNone ex_words) = ([lit "e/3x12.y"; lit "e/7x3.y"], Ok tt) /\
  found (game_substitute_numbers ex_guess_hash other 10 (Digits 2) ex_words) = ([lit "e/7x03.y"], Ok tt) /\
  found (lcu_substitute_words ex_guess_hash other None (Some (lit ".x")) None 2 1 ex_words) = ([lit "d/d-c.x"], Ok tt) /\
  found (lcu_substitute_words ex_guess_hash other None None None 1 2 ex_words) = ([lit "d/a_b-e-c.x"; lit "d/a_b-a-d.x"], Ok tt) /\
  found (lcu_add_word ex_guess_hash other ex_words) = ([lit "d/a_b-e-c.x"], Ok tt).
Proof. intros other. repeat split; vm_compute; reflexivity. Qed.
(** The hypotheses of the theorems are met by this state. *)
Example C65_hyps : guesser_ok ex_words /\ (forall p, In p (dvals (g_known ex_words)) -> ~ In 37 p /\ ~ In 123 p /\ ~ numbers_kept p) /\
  other_words [lit "a"; lit "d"] 1 2 (lit "d/a_b-c.x") (lit "d/a_b-a-d.x").
Proof.
  split; [|split].
  - split; [repeat constructor; vm_compute; intuition discriminate|]. split; [repeat constructor; vm_compute; intuition discriminate|].
    intros h Hh. apply in_map_iff in Hh as (p & <- & Hp). cbn [In] in Hp. decompose [or] Hp; subst; try contradiction; vm_compute; reflexivity.
  - intros p [<-|[<-|[]]]; (split; [vm_compute; intuition discriminate|]); (split; [vm_compute; intuition discriminate|]); rewrite <- no_numbers_iff; vm_compute; discriminate.
  - assert (E : In (lit "d/a_b-", lit ".x") (words_matches 1 (lit "d/a_b-c.x"))) by (vm_compute; auto).
    apply words_matches_In in E as (old & s & E & A & B & C & D & F); [|lia]. exists (lit "d/a_b-"), old, s, (lit ".x"), [lit "a"; lit "d"], cMinus.
    repeat (split; [assumption || reflexivity || (repeat constructor; fail) || auto|]); try reflexivity.
Qed.
Print Assumptions C65_numbers. Print Assumptions C65_digits. Print Assumptions C65_largest. Print Assumptions C65_words. Print Assumptions C65_no_words. Print Assumptions C65_added.
Print Assumptions C65_safe. Print Assumptions C65_lcu_numbers. Print Assumptions C65_game_numbers. Print Assumptions C65_wordlists. Print Assumptions C65_lcu_words. Print Assumptions C65_game_words.
Print Assumptions C65_lcu_added. Print Assumptions C65_game_added. Print Assumptions C65_percent_refuted.
