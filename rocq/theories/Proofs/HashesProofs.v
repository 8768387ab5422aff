(** * Proofs about hash lists and hash guessing *)

From Verif Require Import Base.PyFacts Base.TextFacts Base.PathFacts Base.Lines Base.LinesFacts Model.Hashes Spec.HashesSpec.

Lemma NoDup_append {A} (l1 l2 : list A) : NoDup l1 -> NoDup l2 -> (forall x, In x l1 -> ~ In x l2) -> NoDup (l1 ++ l2).
Proof.
  induction 1 as [|x l Hx Hn IH]; intros H2 Hd; cbn [app]; [assumption|]. constructor.
  - intros Hi. apply in_app_or in Hi as [Hi|Hi]; [exact (Hx Hi) | exact (Hd x (or_introl eq_refl) Hi)].
  - apply IH; [assumption|]. intros y Hy. apply Hd. right. assumption.
Qed.

(** ** Hash files *)

Lemma fmt_hash_value w h : int16 (fmt_hash w h) = Ok h.
Proof.
  destruct h as [|p|p]; unfold fmt_hash.
  - rewrite hexl_value. reflexivity.
  - rewrite hexl_value. reflexivity.
  - set (n := Npos p). pose proof (hexl_value (w - 1) n) as Hv.
    pose proof (hexl_chars (w - 1) n) as Hc.
    assert (Hs : forall x, In x (hexl (w - 1) n) -> is_int_space x = false).
    { intros x Hx. rewrite Forall_forall in Hc. specialize (Hc x Hx). unfold is_int_space, is_digit in *. lia. }
    assert (Hst : strip is_int_space (hexl (w - 1) n) = hexl (w - 1) n).
    { apply strip_id. apply forallb_forall. intros x Hx. rewrite Hs by assumption. reflexivity. }
    unfold int16, int_of in *. rewrite Hst in Hv.
    assert (Hst' : strip is_int_space (cMinus :: hexl (w - 1) n) = cMinus :: hexl (w - 1) n).
    { apply strip_id. cbn [forallb]. apply andb_true_intro. split; [reflexivity|]. apply forallb_forall. intros x Hx.
      rewrite Hs by assumption. reflexivity. }
    rewrite Hst'. rewrite N.eqb_refl.
    destruct (hexl (w - 1) n) as [|c t] eqn:E; [discriminate|].
    assert (Hcc : (c =? cMinus) = false /\ (c =? cPlus) = false).
    { rewrite Forall_forall in Hc. specialize (Hc c (or_introl eq_refl)). unfold is_digit, cMinus, cPlus in *. lia. }
    destruct Hcc as [H1 H2]. rewrite H1, H2 in Hv.
    destruct (int_unsigned 16 (c :: t)) as [m|]; cbn [option_map of_opt] in *; [|discriminate].
    injection Hv as Hv. f_equal. subst n. lia.
Qed.
Lemma fmt_hash_not_in w h c : is_digit c = false -> ~ 97 <= c <= 102 -> c <> cMinus -> ~ In c (fmt_hash w h).
Proof.
  intros H1 H2 H3 Hi. destruct h; unfold fmt_hash in Hi.
  - revert Hi. apply hexl_not_in; assumption.
  - revert Hi. apply hexl_not_in; assumption.
  - destruct Hi as [E|Hi]; [congruence|]. revert Hi. apply hexl_not_in; assumption.
Qed.
Lemma parse_hash_line_ok w h s : one_line s -> parse_hash_line (hash_line w (h, s)) = Ok (h, s).
Proof.
  intros [Hn _]. unfold parse_hash_line, hash_line. cbn [fst snd app].
  rewrite cut_first_app by (apply fmt_hash_not_in; [reflexivity | unfold cSpace; lia | discriminate]).
  rewrite fmt_hash_value. cbn [rbind]. f_equal. f_equal.
  rewrite rstrip_app_all by reflexivity. unfold rstrip. rewrite <- (rev_involutive s) at 2. f_equal. apply lstrip_id.
  destruct (rev s) as [|x r] eqn:E; [exact I|]. apply N.eqb_neq. intros <-. apply Hn. apply in_rev. rewrite E. left. reflexivity.
Qed.
Lemma parse_saved w (d : hashes) : Forall (fun kv => one_line (snd kv)) d ->
  rmapM parse_hash_line (file_lines (nl_norm (concat (map (hash_line w) d)))) = Ok d.
Proof.
  intros Hd.
  assert (Hl : forall kv, In kv d -> let l := fmt_hash w (fst kv) ++ [cSpace] ++ snd kv in hash_line w kv = l ++ [cNL] /\ ~ In cNL l /\ ~ In cCR l).
  { intros [h s] Hi. rewrite Forall_forall in Hd. destruct (Hd _ Hi) as [H1 H2]. cbn [fst snd] in *.
    split; [unfold hash_line; cbn [fst snd]; rewrite <- !app_assoc; reflexivity|].
    split; intros Hx; repeat (apply in_app_or in Hx; destruct Hx as [Hx|Hx]); try tauto;
      try (destruct Hx as [Hx|[]]; discriminate); revert Hx; apply fmt_hash_not_in; try reflexivity; try discriminate; unfold cNL, cCR; lia. }
  rewrite nl_norm_id.
  2:{ intros Hx. apply in_concat in Hx as (l & Hl' & Hx). apply in_map_iff in Hl' as (kv & <- & Hi).
      destruct (Hl kv Hi) as (E & _ & Hc). rewrite E in Hx. apply in_app_or in Hx as [Hx|[Hx|[]]]; [exact (Hc Hx) | discriminate]. }
  induction d as [|kv d IH]; [reflexivity|]. cbn [map concat].
  destruct (Hl kv (or_introl eq_refl)) as (E & Hn & _). set (l := fmt_hash _ _ ++ _) in E, Hn. clearbody l. rewrite E. rewrite <- app_assoc. cbn [app].
  rewrite file_lines_line by assumption. rewrite <- E. inversion Hd; subst. cbn [rmapM].
  destruct kv as [h s]. rewrite parse_hash_line_ok by assumption. cbn [rbind].
  rewrite IH; [reflexivity | assumption | intros kv Hi; apply Hl; right; assumption].
Qed.

Lemma str_lt_asym a b : str_lt a b = true -> str_lt b a = false.
Proof.
  intros E. destruct (str_lt b a) eqn:E'; [|reflexivity]. pose proof (str_lt_trans _ _ _ E E') as H. rewrite str_lt_irrefl in H. discriminate.
Qed.
Lemma str_lt_ntrans a b c : str_lt a b = false -> str_lt b c = false -> str_lt a c = false.
Proof.
  intros E1 E2. destruct (str_lt a c) eqn:E; [|reflexivity].
  destruct (str_lt_total b c) as [H|[->|H]]; [congruence | congruence |]. pose proof (str_lt_trans _ _ _ E H). congruence.
Qed.
Lemma by_string_sorted (d : hashes) : StronglySorted (fun a b => by_string b a = false) (py_sorted by_string d).
Proof.
  apply (py_sorted_sorted by_string); unfold by_string; intros a b; [apply str_lt_asym | intros c; apply str_lt_ntrans].
Qed.
Lemma by_string_again (d : hashes) : py_sorted by_string (py_sorted by_string d) = py_sorted by_string d.
Proof. apply py_sorted_id. apply by_string_sorted. Qed.

Lemma dget_perm (a b : hashes) : NoDup (dkeys a) -> Permutation a b -> same_table a b.
Proof.
  intros Hn Hp h. assert (Hnb : NoDup (dkeys b)) by (eapply Permutation_NoDup; [apply Permutation_map; exact Hp | exact Hn]).
  destruct (dget h a) as [v|] eqn:E.
  - symmetry. apply dget_In_NoDup; [assumption|]. eapply Permutation_in; [exact Hp|]. apply dget_Some_In. assumption.
  - symmetry. apply dget_None. apply dget_None in E. intros Hi. apply E. unfold dkeys in *.
    eapply Permutation_in; [apply Permutation_map, Permutation_sym; exact Hp | exact Hi].
Qed.

Lemma save_ok (d : hashes) w : hf_save {| hf_size := w; hf_hashes := Some d |} = Ok (concat (map (hash_line w) (py_sorted by_string d))).
Proof. reflexivity. Qed.
Lemma save_load (hf : hashfile) d text :
  hf_hashes hf = Some d -> NoDup (dkeys d) -> (forall h s, In (h, s) d -> one_line s) -> hf_save hf = Ok text ->
  exists d', parse_hashes text = Ok d' /\ Permutation d d' /\ same_table d d' /\ NoDup (dkeys d') /\
             hf_save {| hf_size := hf_size hf; hf_hashes := Some d' |} = Ok text.
Proof.
  intros Ed Hn Ho Es. unfold hf_save in Es. rewrite Ed in Es. injection Es as <-.
  pose proof (py_sorted_perm by_string d) as Hp.
  assert (Hn' : NoDup (dkeys (py_sorted by_string d))) by (eapply Permutation_NoDup; [apply Permutation_map; exact Hp | exact Hn]).
  exists (py_sorted by_string d). split; [|split; [|split; [|split]]]; [| assumption | apply dget_perm; assumption | assumption |].
  - unfold parse_hashes. rewrite parse_saved; [cbn [rbind]; rewrite dict_of_NoDup_id by assumption; reflexivity|].
    eapply Permutation_Forall; [exact Hp|]. apply Forall_forall. intros [h s] Hi. exact (Ho h s Hi).
  - unfold hf_save. cbn [hf_size hf_hashes]. rewrite by_string_again. reflexivity.
Qed.

(** ** Directories *)

Lemma parent_dirname p d : parent p d <-> d = dirname p.
Proof.
  assert (F : forall n, forallb (N.eqb cSlash) (repeat cSlash n) = true).
  { intros n. apply forallb_forall. intros x Hx. apply repeat_spec in Hx as ->. reflexivity. }
  assert (E : forall n, cSlash :: repeat cSlash n = repeat cSlash n ++ [cSlash]).
  { intros n. rewrite repeat_cons. reflexivity. }
  assert (FW : forall p d, parent p d -> d = dirname p).
  { clear p d. intros p d Hp. unfold dirname, path_split. destruct Hp as [p Hn|d c n b Hc Hb|n b Hb].
    - apply (proj2 (cut_last_None _ _)) in Hn. rewrite Hn. reflexivity.
    - replace (d ++ c :: cSlash :: repeat cSlash n ++ b) with ((d ++ c :: repeat cSlash n) ++ cSlash :: b).
      2:{ rewrite <- app_assoc. cbn [app]. f_equal. f_equal. rewrite (app_comm_cons (repeat cSlash n) b cSlash), E, <- app_assoc. reflexivity. }
      rewrite cut_last_app by assumption. cbn [fst snd].
      replace (forallb _ _) with false.
      2:{ symmetry. apply not_true_iff_false. intros Hf. rewrite !forallb_app in Hf. cbn [forallb] in Hf.
          assert ((cSlash =? c) = true) by (repeat (apply andb_prop in Hf as [Hf ?]); repeat match goal with H : _ && _ = true |- _ => apply andb_prop in H as [? ?] end; assumption).
          lia. }
      cbn [fst]. rewrite <- app_assoc. cbn [app]. rewrite <- E.
      replace (d ++ c :: cSlash :: repeat cSlash n) with ((d ++ [c]) ++ cSlash :: repeat cSlash n) by (rewrite <- app_assoc; reflexivity).
      rewrite rstrip_app_all by (cbn [forallb]; rewrite F; reflexivity). rewrite rstrip_snoc_false; [reflexivity|]. lia.
    - rewrite app_comm_cons, E, <- app_assoc. cbn [app]. rewrite cut_last_app by assumption. cbn [fst].
      rewrite forallb_app, F. cbn [forallb andb fst]. reflexivity. }
  split; [apply FW|]. intros ->.
  destruct (cut_last cSlash p) as [[h t]|] eqn:Ec.
  2:{ unfold dirname, path_split. rewrite Ec. cbn [fst]. apply parent_none. apply cut_last_None. assumption. }
  pose proof Ec as Ec'. apply cut_last_Some in Ec as [-> Ht].
  destruct (rstrip_spec (N.eqb cSlash) h) as (sl & E1 & E2 & E3).
  assert (Esl : sl = repeat cSlash (length sl)).
  { clear -E2. induction sl as [|x sl IH]; [reflexivity|]. cbn [forallb] in E2. apply andb_prop in E2 as [Hx Hs]. apply N.eqb_eq in Hx as <-.
    cbn [length repeat]. f_equal. auto. }
  destruct (rstrip (N.eqb cSlash) h) as [|r0 r] eqn:Er.
  - cbn [app] in E1. subst h. rewrite Esl at 1. set (n := length sl) in *.
    assert (Hq : parent (cSlash :: repeat cSlash n ++ t) (cSlash :: repeat cSlash n)) by (apply parent_root; assumption).
    pose proof (FW _ _ Hq) as Hd. rewrite Esl. replace (repeat cSlash n ++ cSlash :: t) with (cSlash :: repeat cSlash n ++ t).
    2:{ rewrite app_comm_cons, E, <- app_assoc. reflexivity. }
    rewrite <- Hd. exact Hq.
  - assert (exists d c, r0 :: r = d ++ [c]) as (d & c & Ed).
    { destruct (exists_last (l := r0 :: r)) as (d & c & Ed); [discriminate|]. eauto. }
    rewrite Ed in E1, E3. assert (Hc : c <> cSlash).
    { destruct E3 as [E3|(s' & x & E3 & Hx)]; [destruct d; discriminate|]. apply app_inj_tail in E3 as [_ ->]. intros ->. discriminate. }
    set (n := length sl) in *.
    assert (Hq : parent (d ++ c :: cSlash :: repeat cSlash n ++ t) (d ++ [c])) by (apply parent_dir; assumption).
    pose proof (FW _ _ Hq) as Hd.
    replace (h ++ cSlash :: t) with (d ++ c :: cSlash :: repeat cSlash n ++ t).
    2:{ rewrite E1, Esl, <- !app_assoc. cbn [app]. f_equal. f_equal. rewrite app_comm_cons, E, <- app_assoc. reflexivity. }
    rewrite <- Hd. exact Hq.
Qed.

Lemma dirname_length p : dirname p = p \/ (length (dirname p) < length p)%nat.
Proof.
  pose proof (proj2 (parent_dirname p (dirname p)) eq_refl) as Hp. remember (dirname p) as d eqn:Ed. clear Ed.
  destruct Hp as [p Hn|d c n b Hc Hb|n b Hb].
  - destruct p; [left; reflexivity | right; cbn [length]; lia].
  - right. rewrite !app_length. cbn [length]. rewrite app_length. lia.
  - destruct b; [left; rewrite app_nil_r; reflexivity | right; cbn [length]; rewrite app_length; cbn [length]; lia].
Qed.
Lemma ancestor_dirname d p : ancestor d p <-> d = dirname p \/ ancestor d (dirname p).
Proof.
  split.
  - intros [q Hp|q r Hp Ha]; [left; apply parent_dirname; assumption|]. apply parent_dirname in Hp as ->. right. assumption.
  - intros [->|Ha]; [apply anc_parent; apply parent_dirname; reflexivity|]. eapply anc_up; [apply parent_dirname; reflexivity | assumption].
Qed.

Section Dirs.
  Variable known : list str.
  Notation step bases dirs := (filter (fun d => negb (mem d dirs)) (set_of (map dirname bases))).
  Lemma step_In bases dirs d : In d (step bases dirs) <-> ~ In d dirs /\ exists b, In b bases /\ d = dirname b.
  Proof.
    rewrite filter_In, set_of_In, in_map_iff, negb_true_iff, mem_false. split.
    - intros [(b & <- & Hb) Hn]. eauto.
    - intros (Hn & b & Hb & ->). eauto.
  Qed.

  Definition dirs_inv (bases dirs : list str) : Prop :=
    (forall d, In d dirs -> exists p, In p known /\ ancestor d p) /\
    (forall b, In b bases -> In b known \/ In b dirs) /\
    (forall x, In x known \/ In x dirs -> In (dirname x) dirs \/ In x bases) /\ NoDup dirs.
  Lemma dirs_inv_step bases dirs : dirs_inv bases dirs -> dirs_inv (step bases dirs) (dirs ++ step bases dirs).
  Proof.
    intros (H1 & H2 & H3 & H4). split; [|split; [|split]].
    - intros d Hd. apply in_app_or in Hd as [Hd|Hd]; [auto|]. apply step_In in Hd as (_ & b & Hb & ->).
      destruct (H2 b Hb) as [Hk|Hk].
      + exists b. split; [assumption|]. apply ancestor_dirname. left. reflexivity.
      + destruct (H1 b Hk) as (p & Hp & Ha). exists p. split; [assumption|].
        clear -Ha. induction Ha as [p Hp|p q Hp Ha IH].
        * eapply anc_up; [exact Hp|]. apply ancestor_dirname. left. reflexivity.
        * eapply anc_up; eassumption.
    - intros b Hb. right. apply in_or_app. right. assumption.
    - intros x Hx. assert (Hc : (In x known \/ In x dirs) \/ In x (step bases dirs)).
      { destruct Hx as [Hx|Hx]; [tauto|]. apply in_app_or in Hx. tauto. }
      destruct Hc as [Hc|Hc]; [|right; assumption]. left. apply in_or_app. destruct (H3 x Hc) as [Hd|Hb]; [left; assumption|].
      destruct (in_dec eq_dec (dirname x) dirs); [left; assumption | right]. apply step_In. eauto.
    - apply NoDup_append; [assumption | apply NoDup_filter, set_of_NoDup |]. intros x Hx Hs. apply step_In in Hs. tauto.
  Qed.
  Lemma dirs_inv_exit dirs : dirs_inv [] dirs -> NoDup dirs /\ forall d, In d dirs <-> exists p, In p known /\ ancestor d p.
  Proof.
    intros (H1 & _ & H3 & H4). split; [assumption|]. intros d. split; [apply H1|]. intros (p & Hp & Ha).
    assert (Hd : In (dirname p) dirs) by (destruct (H3 p (or_introl Hp)) as [?|[]]; assumption). clear Hp.
    induction Ha as [p Hp|p q Hp Ha IH]; apply parent_dirname in Hp as ->; [assumption|]. apply IH.
    destruct (H3 _ (or_intror Hd)) as [?|[]]. assumption.
  Qed.
  Lemma dirs_loop_S fuel bases dirs : bases <> [] ->
    dirs_loop (S fuel) bases dirs = dirs_loop fuel (step bases dirs) (dirs ++ step bases dirs).
  Proof. destruct bases; [congruence | reflexivity]. Qed.
  Lemma dirs_loop_ok fuel : forall bases dirs,
    dirs_inv bases dirs -> (forall b, In b bases -> In b dirs /\ (length b < fuel)%nat) ->
    exists l, dirs_loop fuel bases dirs = Some l /\ dirs_inv [] l.
  Proof.
    induction fuel as [|fuel IH]; intros bases dirs Hi Hb; (destruct (eq_dec bases []) as [->|Hne]; [exists dirs; cbn; auto|]).
    - exfalso. destruct bases as [|b0 bs]; [congruence|]. destruct (Hb b0 (or_introl eq_refl)). lia.
    - rewrite dirs_loop_S by assumption. apply IH; [apply dirs_inv_step; assumption|]. intros d Hd. split; [apply in_or_app; right; assumption|].
      apply step_In in Hd as (Hn & b & Hi' & ->). destruct (Hb b Hi') as [Hd Hl].
      destruct (dirname_length b) as [E|E]; [rewrite E in Hn; tauto | lia].
  Qed.
  Lemma longest_ge p l : In p l -> (length p <= longest l)%nat.
  Proof.
    induction l as [|x l IH]; [intros []|]. unfold longest in *. cbn [map fold_right]. intros [->|Hp]; [lia|]. specialize (IH Hp). lia.
  Qed.
  Lemma dirs_loop_start : exists l, dirs_loop (S (S (longest known))) known [] = Some l /\ dirs_inv [] l.
  Proof.
    assert (Hi : dirs_inv known []).
    { split; [intros ? []|]. split; [auto|]. split; [intros x [Hx|[]]; auto | constructor]. }
    destruct (eq_dec known []) as [Ek|Hne]; [exists []; rewrite Ek in *; split; [reflexivity|exact Hi]|].
    rewrite dirs_loop_S by assumption.
    apply dirs_loop_ok; [apply (dirs_inv_step known []); exact Hi|]. intros b Hb. split; [apply in_or_app; right; assumption|].
    apply step_In in Hb as (_ & p & Hp & ->). pose proof (longest_ge p known Hp).
    destruct (dirname_length p) as [E|E]; [rewrite E|]; lia.
  Qed.
End Dirs.

Lemma compute_dirs_ok known : exists l, compute_dirs known = Some l /\ NoDup l /\
  forall d, In d l <-> exists p, In p (dvals known) /\ ancestor d p.
Proof.
  destruct (dirs_loop_start (dvals known)) as (l & E & Hi). exists l. split; [exact E|]. apply dirs_inv_exit. assumption.
Qed.

(** Relative paths made of plain components: the ancestors are the proper prefixes. *)
Lemma join_snoc (cs : list str) c : cs <> [] -> join [cSlash] (cs ++ [c]) = join [cSlash] cs ++ cSlash :: c.
Proof.
  induction cs as [|x cs IH]; [congruence|]. intros _. destruct cs as [|y cs]; [reflexivity|].
  change ((x :: y :: cs) ++ [c]) with (x :: (y :: cs) ++ [c]).
  change (join [cSlash] (x :: (y :: cs) ++ [c])) with (x ++ [cSlash] ++ join [cSlash] ((y :: cs) ++ [c])).
  rewrite IH by discriminate. change (join [cSlash] (x :: y :: cs)) with (x ++ [cSlash] ++ join [cSlash] (y :: cs)).
  rewrite <- !app_assoc. reflexivity.
Qed.
Definition plain_part (c : str) : Prop := c <> [] /\ ~ In cSlash c.
Lemma join_last (cs : list str) : cs <> [] -> Forall plain_part cs -> exists d c, join [cSlash] cs = d ++ [c] /\ c <> cSlash.
Proof.
  intros Hne Hf. destruct (exists_last Hne) as (cs' & x & ->). apply Forall_app in Hf as [_ Hx]. inversion Hx as [|? ? [Hx1 Hx2] _]; subst.
  destruct (exists_last Hx1) as (x' & c & ->). assert (Hc : c <> cSlash) by (intros ->; apply Hx2, in_or_app; right; left; reflexivity).
  destruct cs' as [|y cs']; [exists x', c; auto|]. rewrite join_snoc by discriminate.
  exists (join [cSlash] (y :: cs') ++ cSlash :: x'), c. split; [rewrite <- app_assoc; reflexivity | assumption].
Qed.
Lemma dirname_join (cs : list str) c : Forall plain_part (cs ++ [c]) -> dirname (join [cSlash] (cs ++ [c])) = join [cSlash] cs.
Proof.
  intros Hf. symmetry. apply parent_dirname. apply Forall_app in Hf as [Hcs Hc]. inversion Hc as [|? ? [Hc1 Hc2] _]; subst.
  destruct cs as [|x cs]; [apply parent_none; assumption|]. rewrite join_snoc by discriminate.
  destruct (join_last (x :: cs) ltac:(discriminate) Hcs) as (d & e & E & He). rewrite E. rewrite <- app_assoc. cbn [app].
  exact (parent_dir d e 0 c He Hc2).
Qed.
Lemma ancestor_join cs : cs <> [] -> Forall plain_part cs ->
  forall d, ancestor d (join [cSlash] cs) <-> exists a b, cs = a ++ b /\ b <> [] /\ d = join [cSlash] a.
Proof.
  induction cs as [|c cs IH] using rev_ind; [congruence|]. intros _ Hf d. rewrite ancestor_dirname, dirname_join by assumption.
  apply Forall_app in Hf as [Hcs Hc]. destruct cs as [|x cs].
  - split.
    + intros [->|Ha].
      * exists [], [c]. split; [reflexivity|]. split; [discriminate | reflexivity].
      * assert (Hd : d = []).
        { clear -Ha. change (join [cSlash] []) with ([] : str) in Ha. remember ([] : str) as p eqn:Ep.
          revert Ep. induction Ha as [p Hp|p q Hp Ha IHa]; intros ->; apply parent_dirname in Hp; [exact Hp | rewrite (IHa Hp); exact Hp]. }
        subst d. exists [], [c]. split; [reflexivity|]. split; [discriminate | reflexivity].
    + intros (a & b & E & Hb & ->). left. destruct a as [|a0 a]; [reflexivity|]. injection E as -> E. destruct a; [|discriminate].
      cbn [app] in E. congruence.
  - rewrite (IH ltac:(discriminate) Hcs d). split.
    + intros [->|(a & b & E & Hb & ->)].
      * exists (x :: cs), [c]. split; [reflexivity|]. split; [discriminate | reflexivity].
      * exists a, (b ++ [c]). rewrite E, <- app_assoc. split; [reflexivity|]. split; [destruct b; discriminate | reflexivity].
    + intros (a & b & E & Hb & ->). destruct (exists_last Hb) as (b' & y & ->). rewrite app_assoc in E. apply app_inj_tail in E as [E _].
      destruct b' as [|b0 b']; [left; rewrite app_nil_r in E; congruence|]. right. exists a, (b0 :: b'). split; [assumption|]. split; [discriminate | reflexivity].
Qed.

(** ** Guessing *)

Section Guess.
  Variable H : str -> Z.
  Notation grows := (grows H).
  Notation check := (check H).

  Lemma grows_refl (P : str -> Prop) g : guesser_ok g -> grows P g g.
  Proof.
    intros Hg. split; [assumption|]. split; [auto|]. split; [intros h p E1 E2; congruence|]. split; [|reflexivity].
    intros h. split; [|tauto]. intros Hu. split; [assumption|]. apply Hg. assumption.
  Qed.
  Lemma grows_trans (P : str -> Prop) a b c : grows P a b -> grows P b c -> grows P a c.
  Proof.
    intros (A0 & A1 & A2 & A3 & A4) (B0 & B1 & B2 & B3 & B4). split; [assumption|]. split; [auto|]. split; [|split; [|lia]].
    - intros h p E1 E2. destruct (dget h (g_known b)) as [q|] eqn:Eb.
      + pose proof (B1 h q Eb) as E. rewrite E in E1. injection E1 as <-. apply (A2 h q); assumption.
      + destruct (B2 h p E1 Eb) as (C1 & C2 & C3). apply A3 in C2. tauto.
    - intros h. rewrite B3, A3. split; [tauto|]. intros [C1 C2]. split; [|assumption]. split; [assumption|].
      destruct (dget h (g_known b)) as [q|] eqn:Eb; [|reflexivity]. rewrite (B1 h q Eb) in C2. discriminate.
  Qed.
  Lemma grows_weaken (P Q : str -> Prop) a b : (forall p, P p -> Q p) -> grows P a b -> grows Q a b.
  Proof.
    intros HPQ (A0 & A1 & A2 & A3). split; [assumption|]. split; [assumption|]. split; [|assumption].
    intros h p E1 E2. destruct (A2 h p E1 E2) as (? & ? & ?). auto.
  Qed.
  Lemma grows_ok (P : str -> Prop) a b : grows P a b -> guesser_ok b.
  Proof. intros [Hb _]. exact Hb. Qed.
  Lemma grows_unknown (P : str -> Prop) a b h : grows P a b -> In h (g_unknown b) -> In h (g_unknown a).
  Proof. intros (_ & _ & _ & A3 & _) Hh. apply A3 in Hh. tauto. Qed.
  Lemma filter_out_length (h : Z) l : NoDup l -> In h l -> (length (filter (fun x => negb (eqb h x)) l) + 1 = length l)%nat.
  Proof.
    intros Hn. induction Hn as [|x l Hx Hn IH]; [intros []|]. cbn [filter length].
    destruct (eqbP h x) as [->|Hne]; cbn [negb].
    - intros _. replace (filter (fun y => negb (eqb x y)) l) with l; [lia|]. clear -Hx.
      induction l as [|y l IH]; [reflexivity|]. cbn [filter]. destruct (eqbP x y) as [->|]; [exfalso; apply Hx; left; reflexivity|].
      cbn [negb]. f_equal. apply IH. intros Hi. apply Hx. right. assumption.
    - intros [->|Hi]; [congruence|]. cbn [length]. specialize (IH Hi). lia.
  Qed.
  Lemma add_known_grows p g : guesser_ok g -> In (H p) (g_unknown g) -> grows (eq p) g (add_known (H p) p g).
  Proof.
    intros (G1 & G2 & G3) Hp. pose proof (G3 _ Hp) as Hk.
    split; [|split; [|split; [|split]]]; cbn [add_known g_known g_unknown].
    - split; [apply dset_NoDup; assumption|]. split; [apply NoDup_filter; assumption|]. cbn [add_known g_known g_unknown].
      intros h Hh. apply filter_In in Hh as [Hh Hn]. apply negb_true_iff, eqb_false in Hn. rewrite dget_dset_other by congruence. auto.
    - intros h q E. destruct (eq_dec h (H p)) as [->|Hn]; [congruence|]. rewrite dget_dset_other by assumption. assumption.
    - intros h q E1 E2. destruct (eq_dec h (H p)) as [->|Hn].
      + rewrite dget_dset_same in E1. injection E1 as <-. auto.
      + rewrite dget_dset_other in E1 by assumption. congruence.
    - intros h. rewrite filter_In, negb_true_iff, eqbF. split.
      + intros [Hh Hn]. split; [assumption|]. rewrite dget_dset_other by congruence. auto.
      + intros [Hh E]. split; [assumption|]. intros <-. rewrite dget_dset_same in E. discriminate.
    - pose proof (filter_out_length (H p) _ G2 Hp). rewrite dset_new by assumption. rewrite app_length. cbn [length]. lia.
  Qed.
  Lemma add_known_tried p g : ~ In (H p) (g_unknown (add_known (H p) p g)).
  Proof. cbn [add_known g_unknown]. rewrite filter_In, eqbR. intros [_ E]. discriminate. Qed.

  Lemma check_grows p g : guesser_ok g -> grows (eq p) g (check p g).
  Proof.
    intros Hg. unfold Hashes.check. destruct (mem (H p) (g_unknown g)) eqn:E; [|apply grows_refl; assumption].
    apply add_known_grows; [assumption|]. apply mem_In. assumption.
  Qed.
  Lemma check_tried p g : ~ In (H p) (g_unknown (check p g)).
  Proof.
    unfold Hashes.check. destruct (mem (H p) (g_unknown g)) eqn:E; [apply add_known_tried|]. apply mem_false. assumption.
  Qed.
  Lemma is_known_spec p g : fst (is_known H p g) = check p g /\
    (snd (is_known H p g) = true <-> In (H p) (g_unknown g) \/ In (H p) (dkeys (g_known g))).
  Proof.
    unfold is_known, Hashes.check. destruct (mem (H p) (g_unknown g)) eqn:E; cbn [fst snd]; (split; [reflexivity|]).
    - split; [|reflexivity]. intros _. left. apply mem_In. assumption.
    - apply mem_false in E. unfold dhas. pose proof (dget_None (H p) (g_known g)) as Hd. destruct (dget (H p) (g_known g)) eqn:Ed.
      + split; [|reflexivity]. intros _. right. destruct (in_dec eq_dec (H p) (dkeys (g_known g))); [assumption|].
        exfalso. apply Hd in n. discriminate.
      + split; [discriminate|]. destruct Hd as [Hd _]. specialize (Hd eq_refl). tauto.
  Qed.

  Lemma check_all_grows ps : forall g, guesser_ok g ->
    grows (fun p => In p ps) g (check_all H ps g) /\ all_tried H (fun p => In p ps) (check_all H ps g).
  Proof.
    unfold check_all. induction ps as [|p ps IH]; intros g Hg; cbn [fold_left].
    - split; [apply grows_refl; assumption | intros ? []].
    - pose proof (check_grows p g Hg) as H1. destruct (IH _ (grows_ok _ _ _ H1)) as [H2 H3]. split.
      + eapply grows_trans; [eapply grows_weaken; [|exact H1] | eapply grows_weaken; [|exact H2]].
        * intros q <-. left. reflexivity.
        * intros q Hq. right. assumption.
      + intros q [<-|Hq]; [|apply H3; assumption]. intros Hu. apply (check_tried p g). eapply grows_unknown; eassumption.
  Qed.

  (** Several rounds of [check_all]. *)
  Lemma rounds_grow {A} (f : A -> list str) xs : forall g, guesser_ok g ->
    let g' := fold_left (fun g x => check_all H (f x) g) xs g in
    grows (fun p => exists x, In x xs /\ In p (f x)) g g' /\ all_tried H (fun p => exists x, In x xs /\ In p (f x)) g'.
  Proof.
    induction xs as [|x xs IH]; intros g Hg; cbn [fold_left].
    - split; [apply grows_refl; assumption | intros ? (? & [] & _)].
    - destruct (check_all_grows (f x) g Hg) as [H1 T1]. destruct (IH _ (grows_ok _ _ _ H1)) as [H2 T2]. split.
      + eapply grows_trans; [eapply grows_weaken; [|exact H1] | eapply grows_weaken; [|exact H2]].
        * intros q Hq. exists x. split; [left; reflexivity | assumption].
        * intros q (y & Hy & Hq). exists y. split; [right; assumption | assumption].
      + intros q (y & [<-|Hy] & Hq); [|apply T2; eauto]. intros Hu. apply (T1 q Hq). eapply grows_unknown; eassumption.
  Qed.

  (** Only the cache differs. *)
  Lemma directory_list_grows c g : guesser_ok g -> grows (fun _ => False) g (fst (directory_list c g)).
  Proof.
    intros Hg. unfold directory_list. destruct (g_dirs g); [destruct c|]; cbn [fst]; apply (grows_refl (fun _ => False)) in Hg; exact Hg.
  Qed.
  Lemma check_basenames_spec names g : guesser_ok g ->
    exists dirs, snd (directory_list true g) = dirs /\ 
    let cand p := exists l d n, dirs = Some l /\ In d l /\ In n names /\ p = d ++ [cSlash] ++ n in
    grows cand g (check_basenames H names g) /\ all_tried H cand (check_basenames H names g).
  Proof.
    intros Hg. exists (snd (directory_list true g)). split; [reflexivity|]. intros cand. unfold check_basenames.
    pose proof (directory_list_grows true g Hg) as H0. subst cand. destruct (directory_list true g) as [g1 dirs]. cbn [fst snd] in *.
    destruct dirs as [dirs|].
    - destruct (rounds_grow (in_dirs dirs) (py_sorted str_lt names) g1 (grows_ok _ _ _ H0)) as [H1 T1].
      assert (EQ : forall p, (exists n, In n (py_sorted str_lt names) /\ In p (in_dirs dirs n)) <->
                             (exists l d n, Some dirs = Some l /\ In d l /\ In n names /\ p = d ++ [cSlash] ++ n)).
      { intros p. unfold in_dirs. split.
        - intros (n & Hn & Hp). apply in_map_iff in Hp as (d & <- & Hd). exists dirs, d, n. split; [reflexivity|]. split; [assumption|].
          split; [|reflexivity]. eapply Permutation_in; [apply Permutation_sym, py_sorted_perm | exact Hn].
        - intros (l & d & n & E & Hd & Hn & ->). injection E as <-. exists n.
          split; [eapply Permutation_in; [apply py_sorted_perm | exact Hn]|]. apply in_map_iff. eauto. }
      split.
      + eapply grows_trans; [eapply grows_weaken; [|exact H0]; intros ? [] | eapply grows_weaken; [|exact H1]]. intros p. apply EQ.
      + intros p Hp. apply T1. apply EQ. assumption.
    - split; [eapply grows_weaken; [|exact H0]; intros ? [] | intros p (l & d & n & E & _); discriminate].
  Qed.
  Lemma extensions_spec g : guesser_ok g ->
    let cand p := exists x e q1 q2, In q1 (dvals (g_known g)) /\ In q2 (dvals (g_known g)) /\
                    x = fst (splitext q1) /\ e = snd (splitext q2) /\ endswith e (lit "00") = false /\ p = x ++ e in
    grows cand g (substitute_extensions H g) /\ all_tried H cand (substitute_extensions H g).
  Proof.
    intros Hg cand. unfold substitute_extensions.
    set (exts := set_of (filter _ _)). set (prefixes := set_of (map _ _)).
    destruct (rounds_grow (fun x => map (fun e => x ++ e) exts) (py_sorted str_lt prefixes) g Hg) as [H1 T1].
    assert (EQ : forall p, (exists x, In x (py_sorted str_lt prefixes) /\ In p (map (fun e => x ++ e) exts)) <-> cand p).
    { intros p. split.
      - intros (x & Hx & Hp). apply in_map_iff in Hp as (e & <- & He).
        eapply Permutation_in in Hx; [|apply Permutation_sym, py_sorted_perm]. unfold prefixes in Hx. apply set_of_In, in_map_iff in Hx as (q1 & <- & Hq1).
        unfold exts in He. apply (proj1 (set_of_In _ _)), filter_In in He as [He Hn]. apply in_map_iff in He as (q2 & <- & Hq2).
        apply negb_true_iff in Hn. exists (fst (splitext q1)), (snd (splitext q2)), q1, q2. auto 10.
      - intros (x & e & q1 & q2 & Hq1 & Hq2 & -> & -> & Hn & ->). exists (fst (splitext q1)). split.
        + eapply Permutation_in; [apply py_sorted_perm|]. apply set_of_In, in_map_iff. eauto.
        + apply in_map_iff. exists (snd (splitext q2)). split; [reflexivity|]. apply set_of_In, filter_In. split; [apply in_map_iff; eauto|].
          rewrite Hn. reflexivity. }
    split; [eapply grows_weaken; [|exact H1]; intros p; apply EQ | intros p Hp; apply T1, EQ; assumption].
  Qed.

  Lemma loot_grows replace n vs : forall g, guesser_ok g -> grows (fun _ => True) g (fst (loot_loop H replace n vs g)).
  Proof.
    induction vs as [|p vs IH]; intros g Hg; cbn [loot_loop]; destruct (negb _); cbn [fst]; try (apply grows_refl; assumption).
    destruct (startswith p loot_prefix); [|apply IH; assumption].
    pose proof (check_grows (replace p) g Hg) as H1. eapply grows_trans; [eapply grows_weaken; [|exact H1]; auto|]. apply IH. exact (grows_ok _ _ _ H1).
  Qed.
  Lemma run_op_grows o g : guesser_ok g -> grows (fun _ => True) g (run_op H o g).
  Proof.
    intros Hg. destruct o; cbn [run_op].
    - eapply grows_weaken; [|apply check_grows; assumption]. auto.
    - rewrite (proj1 (is_known_spec p g)). eapply grows_weaken; [|apply check_grows; assumption]. auto.
    - destruct a; cbn [check_iter fst]; [apply grows_refl; assumption|]. eapply grows_weaken; [|apply check_all_grows; assumption]. auto.
    - eapply grows_weaken; [|apply directory_list_grows; assumption]. auto.
    - destruct (check_basenames_spec names g Hg) as (dirs & _ & Hc & _). eapply grows_weaken; [|exact Hc]. auto.
    - destruct (check_basenames_spec (set_of (map basename (dvals (g_known g)))) g Hg) as (dirs & _ & Hc & _). eapply grows_weaken; [|exact Hc]. auto.
    - eapply grows_weaken; [|apply extensions_spec; assumption]. auto.
    - apply loot_grows. assumption.
  Qed.
  Lemma run_ops_grow os : forall g, guesser_ok g -> grows (fun _ => True) g (run_ops H os g).
  Proof.
    unfold run_ops. induction os as [|o os IH]; intros g Hg; cbn [fold_left]; [apply grows_refl; assumption|].
    pose proof (run_op_grows o g Hg) as H1. eapply grows_trans; [exact H1|]. apply IH. exact (grows_ok _ _ _ H1).
  Qed.

  (** Finding anything while iterating raises. *)
  Lemma loot_raises_gen replace n vs : forall g, guesser_ok g ->
    (exists p, In p vs /\ startswith p loot_prefix = true /\ In (H (replace p)) (g_unknown g)) ->
    snd (loot_loop H replace n vs g) = Err RuntimeError.
  Proof.
    induction vs as [|q vs IH]; intros g Hg (p & Hp & Hs & Hu); [destruct Hp|]. cbn [loot_loop].
    destruct (N.eqb_spec (lenN (g_known g)) n) as [En|]; cbn [negb]; [|reflexivity].
    assert (F : forall q, In (H (replace q)) (g_unknown g) -> forall vs, snd (loot_loop H replace n vs (check (replace q) g)) = Err RuntimeError).
    { intros r Hr vs'. assert (Hne : lenN (g_known (check (replace r) g)) <> n).
      { pose proof Hr as Hm. apply mem_In in Hm. unfold Hashes.check. rewrite Hm. cbn [add_known g_known].
        rewrite dset_new by (apply Hg; assumption). rewrite lenN_app. change (lenN [(H (replace r), replace r)]) with 1. lia. }
      destruct vs'; cbn [loot_loop]; (destruct (N.eqb_spec (lenN (g_known (check (replace r) g))) n); [contradiction|reflexivity]). }
    destruct Hp as [->|Hp]; [rewrite Hs; apply F; assumption|].
    destruct (startswith q loot_prefix) eqn:Eq; [|apply IH; eauto].
    destruct (in_dec eq_dec (H (replace q)) (g_unknown g)) as [Hq|Hq]; [apply F; assumption|].
    assert (check (replace q) g = g) as -> by (unfold Hashes.check; rewrite (proj2 (mem_false _ _) Hq); reflexivity).
    apply IH; eauto.
  Qed.
  Lemma loot_raises replace g : guesser_ok g ->
    (exists p, In p (dvals (g_known g)) /\ startswith p loot_prefix = true /\ In (H (replace p)) (g_unknown g)) ->
    snd (guess_loot H replace g) = Err RuntimeError.
  Proof. intros Hg Hp. apply loot_raises_gen; assumption. Qed.
End Guess.

Lemma init_ok known hs : NoDup (dkeys known) -> guesser_ok (guesser_init known hs) /\
  forall h, In h (g_unknown (guesser_init known hs)) <-> In h hs /\ ~ In h (dkeys known).
Proof.
  intros Hk. unfold guesser_init, guesser_ok. cbn [g_known g_unknown].
  assert (HI : forall h, In h (filter (fun h => negb (dhas h known)) (set_of hs)) <-> In h hs /\ ~ In h (dkeys known)).
  { intros h. rewrite filter_In, set_of_In, negb_true_iff. unfold dhas. rewrite <- (dget_None h known).
    destruct (dget h known); split; intros [? ?]; (split; [assumption|congruence]). }
  split; [|exact HI]. split; [assumption|]. split; [apply NoDup_filter, set_of_NoDup|]. intros h Hh. apply HI in Hh. apply dget_None. tauto.
Qed.

(** ** Words *)

Lemma sep_to_dash_spec c : sep_to_dash c = cMinus <-> In c (lit "/_.-").
Proof.
  unfold sep_to_dash. change (lit "/_.-") with [47; 95; 46; 45]. cbn [In]. unfold cSlash, cUnder, cDot, cMinus.
  destruct (N.eqb_spec c 47); destruct (N.eqb_spec c 95); destruct (N.eqb_spec c 46); cbn [orb]; lia.
Qed.
Lemma dash_word w r : Forall (fun c => ~ In c (lit "/_.-")) w -> split_ch cMinus (map sep_to_dash w ++ r) =
  match split_ch cMinus r with h :: t => (w ++ h) :: t | [] => [w] end.
Proof.
  induction 1 as [|c w Hc Hw IH]; cbn [map app].
  - destruct (split_ch cMinus r) eqn:E; [|reflexivity]. exfalso. exact (split_ch_nonempty cMinus r E).
  - cbn [split_ch]. rewrite IH. assert (Hs : sep_to_dash c <> cMinus) by (rewrite sep_to_dash_spec; assumption).
    destruct (eqbP (sep_to_dash c) cMinus) as [|_]; [contradiction|].
    assert (sep_to_dash c = c) as ->.
    { unfold sep_to_dash in *. destruct ((c =? cSlash) || (c =? cUnder) || (c =? cDot)); [contradiction|reflexivity]. }
    destruct (split_ch cMinus r); reflexivity.
Qed.
(** The words of a path are its pieces followed by a separator. *)
Lemma path_words_app w c r : Forall (fun c => ~ In c (lit "/_.-")) w -> In c (lit "/_.-") -> path_words (w ++ c :: r) = w :: path_words r.
Proof.
  intros Hw Hc. unfold path_words. rewrite map_app. cbn [map]. rewrite dash_word by assumption.
  apply sep_to_dash_spec in Hc. rewrite Hc. cbn [split_ch]. rewrite eqbR. rewrite app_nil_r.
  destruct (split_ch cMinus (map sep_to_dash r)) eqn:E; [exfalso; exact (split_ch_nonempty _ _ E) | reflexivity].
Qed.
Lemma path_words_last w : Forall (fun c => ~ In c (lit "/_.-")) w -> path_words w = [].
Proof.
  intros Hw. unfold path_words. rewrite <- (app_nil_r (map sep_to_dash w)). rewrite dash_word by assumption. reflexivity.
Qed.
Lemma str_sorted l : StronglySorted (fun a b => str_lt b a = false) (py_sorted str_lt l).
Proof. apply (py_sorted_sorted str_lt); intros a b; [apply str_lt_asym | intros c; apply str_lt_ntrans]. Qed.
Lemma str_sorted_strict l : NoDup l -> StronglySorted (fun a b => str_lt a b = true) (py_sorted str_lt l).
Proof.
  intros Hn. assert (Hn' : NoDup (py_sorted str_lt l)) by (eapply Permutation_NoDup; [apply py_sorted_perm | exact Hn]).
  pose proof (str_sorted l) as Hs. revert Hn' Hs. generalize (py_sorted str_lt l). clear. induction l as [|x l IH]; intros Hn Hs; [constructor|].
  inversion Hn; subst. inversion Hs as [|? ? Hs' Hf]; subst. constructor; [auto|]. rewrite Forall_forall in *. intros y Hy.
  specialize (Hf y Hy). destruct (str_lt_total x y) as [E|[->|E]]; [assumption | contradiction | congruence].
Qed.
Lemma wordlist_In paths w : In w (build_wordlist paths) <-> is_large_number w = false /\ exists p, In p paths /\ In w (path_words p).
Proof.
  unfold build_wordlist. split.
  - intros Hw. eapply Permutation_in in Hw; [|apply Permutation_sym, py_sorted_perm]. apply filter_In in Hw as [Hw Hl].
    apply negb_true_iff in Hl. split; [assumption|]. apply (proj1 (set_of_In _ _)), in_flat_map in Hw. exact Hw.
  - intros [Hl Hp]. eapply Permutation_in; [apply py_sorted_perm|]. apply filter_In. rewrite Hl. split; [|reflexivity].
    apply (proj2 (set_of_In _ _)), in_flat_map. exact Hp.
Qed.
Lemma wordlist_sorted paths : StronglySorted (fun a b => str_lt a b = true) (build_wordlist paths).
Proof. apply str_sorted_strict. apply NoDup_filter, set_of_NoDup. Qed.

(** The declarative reading: a word of a path is a piece between separators, followed by one. *)
Lemma path_words_iff p w : In w (path_words p) <->
  Forall (fun c => ~ In c (lit "/_.-")) w /\
  exists a c b, p = a ++ w ++ c :: b /\ In c (lit "/_.-") /\ (a = [] \/ exists a' c', a = a' ++ [c'] /\ In c' (lit "/_.-")).
Proof.
  remember (length p) as n eqn:En. revert p En. induction n as [n IH] using (well_founded_induction lt_wf). intros p ->.
  set (sep := fun c => In c (lit "/_.-")).
  assert (Hcut : Forall (fun c => ~ sep c) p \/ exists u c r, p = u ++ c :: r /\ Forall (fun c => ~ sep c) u /\ sep c).
  { clear. induction p as [|x p IHp]; [left; constructor|]. destruct (in_dec N.eq_dec x (lit "/_.-")) as [Hx|Hx].
    - right. exists [], x, p. split; [reflexivity|]. split; [constructor | assumption].
    - destruct IHp as [Hp|(u & c & r & -> & Hu & Hc)]; [left; constructor; assumption|]. right. exists (x :: u), c, r.
      split; [reflexivity|]. split; [constructor; assumption | assumption]. }
  destruct Hcut as [Hp|(u & c & r & -> & Hu & Hc)].
  - rewrite path_words_last by exact Hp. split; [intros []|]. intros (_ & a & c & b & -> & Hc & _).
    rewrite !Forall_app in Hp. destruct Hp as (_ & _ & Hp). inversion Hp; subst. contradiction.
  - rewrite path_words_app by assumption. cbn [In]. rewrite (IH (length r) ltac:(rewrite app_length; cbn [length]; lia) r eq_refl). split.
    + intros [<-|(Hw & a & c1 & b & -> & Hc1 & Ha)].
      * split; [assumption|]. exists [], c, r. auto.
      * split; [assumption|]. exists (u ++ c :: a), c1, b. split; [rewrite <- app_assoc; reflexivity|]. split; [assumption|]. right.
        destruct Ha as [->|(a' & c' & -> & Hc')]; [exists u, c; auto|]. exists (u ++ c :: a'), c'. split; [rewrite <- app_assoc; reflexivity | assumption].
    + intros (Hw & a & c1 & b & E & Hc1 & Ha).
      destruct Ha as [->|(a' & c' & -> & Hc')].
      * left. cbn [app] in E. clear -E Hu Hc Hw Hc1. revert w Hw E. induction Hu as [|x u Hx Hu IHu]; intros [|y w] Hw E; cbn [app] in E.
        -- reflexivity.
        -- injection E as -> _. inversion Hw; subst. contradiction.
        -- injection E as -> _. contradiction.
        -- injection E as -> E. inversion Hw; subst. f_equal. apply IHu; assumption.
      * right. split; [assumption|]. 
        assert (exists a2, r = a2 ++ w ++ c1 :: b /\ (a2 = [] \/ exists a3 c3, a2 = a3 ++ [c3] /\ In c3 (lit "/_.-"))) as (a2 & E2 & H2).
        { clear -E Hu Hc Hc'. revert a' E. induction Hu as [|x u Hx Hu IHu]; intros a' E; destruct a' as [|y a']; cbn [app] in E.
          - injection E as _ E. exists []. auto.
          - injection E as _ E. exists (a' ++ [c']). split; [assumption|]. right. eauto.
          - injection E as -> _. contradiction.
          - injection E as _ E. exact (IHu a' E). }
        exists a2, c1, b. auto.
Qed.

Lemma large_number_iff w : is_large_number w = true <->
  exists d, (w = d \/ w = d ++ [cNL]) /\ (3 <= length d)%nat /\ Forall (fun c => 48 <= c <= 57) d.
Proof.
  unfold is_large_number.
  assert (HD : forall d, (3 <=? lenN d) && forallb is_digit d = true <-> (3 <= length d)%nat /\ Forall (fun c => 48 <= c <= 57) d).
  { intros d. rewrite andb_true_iff, forallb_forall, Forall_forall, lenN_length, N.leb_le. unfold is_digit.
    split; intros [H1 H2]; (split; [lia|]); intros x Hx; specialize (H2 x Hx); lia. }
  destruct (rev w) as [|c r] eqn:E.
  - assert (w = []) as -> by (rewrite <- (rev_involutive w), E; reflexivity). split; [discriminate|].
    intros (d & [<-|Ed] & H1 & _); [cbn [length] in H1; lia | destruct d; discriminate].
  - assert (Ew : w = rev r ++ [c]) by (rewrite <- (rev_involutive w), E; reflexivity).
    destruct (N.eqb_spec c cNL) as [->|Hc]; rewrite HD.
    + split; [intros [H1 H2]; exists (rev r); auto|]. intros (d & [<-|Ed] & H1 & H2).
      * exfalso. rewrite Ew in H2. apply Forall_app in H2 as [_ H2]. inversion H2; subst. unfold cNL in *. lia.
      * rewrite Ew in Ed. apply app_inj_tail in Ed as [-> _]. auto.
    + split; [intros [H1 H2]; exists w; auto|]. intros (d & [<-|Ed] & H1 & H2); [auto|].
      exfalso. rewrite Ew in Ed. apply app_inj_tail in Ed as [_ Ed]. contradiction.
Qed.

(** ** Paths *)

Lemma keep_parts cs : Forall (fun c => plain_part c /\ c <> [cDot]) cs -> filter keep_part cs = cs.
Proof.
  induction 1 as [|c cs [[H1 _] H2] Hcs IH]; [reflexivity|]. cbn [filter]. unfold keep_part at 1.
  apply eqbF in H1. apply eqbF in H2. rewrite H1, H2. cbn [negb andb]. rewrite IH. reflexivity.
Qed.
Lemma mkpath_absolute cs : Forall (fun c => plain_part c /\ c <> [cDot]) cs -> mkpath (cSlash :: join [cSlash] cs) = {| pp_root := [cSlash]; pp_parts := cs |}.
Proof.
  intros Hf. unfold mkpath.
  assert (E1 : (if startswith (cSlash :: join [cSlash] cs) [cSlash; cSlash; cSlash] then [cSlash]
               else if startswith (cSlash :: join [cSlash] cs) [cSlash; cSlash] then [cSlash; cSlash]
               else if startswith (cSlash :: join [cSlash] cs) [cSlash] then [cSlash] else []) = [cSlash]).
  { destruct cs as [|c cs]; [reflexivity|]. inversion Hf as [|? ? [[H1 H2] _] _]; subst. destruct c as [|x c]; [congruence|].
    assert (Hx : x <> cSlash) by (intros ->; apply H2; left; reflexivity).
    apply eqbF in Hx. destruct cs; cbn [join app startswith]; rewrite !eqbR, Hx; reflexivity. }
  match goal with |- {| pp_root := ?a; pp_parts := ?b |} = _ => replace a with [cSlash] by (symmetry; exact E1) end. f_equal.
  assert (E : split_ch cSlash (cSlash :: join [cSlash] cs) = [] :: split_ch cSlash (join [cSlash] cs)) by (cbn [split_ch]; rewrite eqbR; reflexivity).
    rewrite E. cbn [filter]. change (keep_part []) with false. cbn iota. destruct cs as [|c cs]; [reflexivity|].
    rewrite split_join; [apply keep_parts; assumption | discriminate |]. eapply Forall_impl; [|exact Hf]. intros a [[_ H] _]. exact H.
Qed.
Lemma is_absolute_iff v : is_absolute (mkpath v) = true <-> exists r, v = cSlash :: r.
Proof.
  unfold is_absolute, mkpath. cbn [pp_root]. destruct v as [|x r].
  - split; [discriminate | intros [? E]; discriminate].
  - destruct (eqbP x cSlash) as [->|Hx].
    + split; [eauto|]. intros _. destruct (startswith (cSlash :: r) [cSlash; cSlash; cSlash]); [reflexivity|].
      destruct (startswith (cSlash :: r) [cSlash; cSlash]); reflexivity.
    + apply eqbF in Hx. cbn [startswith]. rewrite Hx. cbn [andb]. split; [discriminate|]. intros [? E]. injection E as -> _.
      rewrite eqbR in Hx. discriminate.
Qed.

Lemma pdiv_relative p cs : cs <> [] -> Forall (fun c => plain_part c /\ c <> [cDot]) cs ->
  pdiv p (join [cSlash] cs) = {| pp_root := pp_root p; pp_parts := pp_parts p ++ cs |}.
Proof.
  intros Hne Hf. unfold pdiv. destruct (is_absolute (mkpath (join [cSlash] cs))) eqn:Ea.
  - apply is_absolute_iff in Ea as [r Er]. exfalso. destruct cs as [|c cs]; [congruence|]. inversion Hf as [|? ? [[H1 H2] _] _]; subst.
    destruct c as [|x c]; [congruence|]. destruct cs; injection Er as -> _; apply H2; left; reflexivity.
  - f_equal. f_equal. unfold mkpath. cbn [pp_parts]. rewrite split_join; [apply keep_parts; assumption | assumption |].
    eapply Forall_impl; [|exact Hf]. intros a [[_ H] _]. exact H.
Qed.
