(** * Proofs about the solutions and projects of a RADS storage *)

From Verif Require Import Base.Py Base.PyFacts Base.Text Base.TextFacts Base.Lines Base.Fs Base.FsFacts Base.FsDir Model.Version Model.Storage Model.Files
  Model.RadsParts Spec.VersionSpec Spec.ComponentSpec Spec.RadsPartsSpec Proofs.VersionProofs Proofs.StorageProofs Proofs.ComponentProofs Proofs.HashesProofs Proofs.ReleasesProofs.
From Coq Require Import Permutation Sorted.

(** ** Texts *)

Lemma dots_join ns : dots ns = join [cDot] ns.
Proof. induction ns as [|n [|m t] IH]; [reflexivity | reflexivity |]. change (n ++ 46 :: dots (m :: t) = n ++ [cDot] ++ join [cDot] (m :: t)). rewrite IH. reflexivity. Qed.
Lemma number_no_dot n : number n -> ~ In cDot n.
Proof. intros [_ H] Hi. rewrite Forall_forall in H. specialize (H _ Hi). unfold cDot in H. lia. Qed.
Lemma is_number_iff n : is_number n = true <-> number n.
Proof.
  unfold is_number, number. rewrite andb_true_iff, negb_true_iff, forallb_forall, Forall_forall. split.
  - intros [H1 H2]. split; [intros ->; discriminate|]. intros c Hc. apply is_digit_iff. auto.
  - intros [H1 H2]. split; [apply eqbF; assumption|]. intros c Hc. apply is_digit_iff. auto.
Qed.
Lemma numbers_iff v : forallb is_number (split_ch cDot v) = true <-> exists ns, numbers_text ns v.
Proof.
  rewrite forallb_forall. split.
  - intros H. exists (split_ch cDot v). split; [apply split_ch_nonempty|]. split; [|rewrite dots_join, join_split; reflexivity].
    rewrite Forall_forall. intros n Hn. apply is_number_iff. auto.
  - intros (ns & Hne & HF & ->) n Hn. rewrite dots_join, split_join in Hn; [|assumption|].
    + apply is_number_iff. rewrite Forall_forall in HF. auto.
    + eapply Forall_impl; [|exact HF]. apply number_no_dot.
Qed.
Lemma version_text_iff v : version_text v = true <-> version_ok v.
Proof.
  unfold version_text, version_ok. rewrite !orb_true_iff, numbers_iff. split.
  - intros [[H|H]|H]; [left; apply eqbT; assumption | auto | right; left; apply eqbT; assumption].
  - intros [->|[->|H]]; [left; left; reflexivity | right; reflexivity | auto].
Qed.
Lemma version_no_nl v : version_ok v -> ~ In 10 v.
Proof.
  intros [->|[->|(ns & Hne & HF & ->)]]; [auto | cbn; lia |]. clear Hne. induction HF as [|n t [_ Hn] _ IH]; [auto|]. cbn [dots].
  assert (H10 : ~ In 10 n) by (intros Hi; rewrite Forall_forall in Hn; specialize (Hn _ Hi); lia).
  destruct t; [assumption|]. rewrite in_app_iff. cbn [In]. intros [H|[H|H]]; [auto | lia | auto].
Qed.

Lemma int10_number d : number d -> int10 d = Ok (value d).
Proof.
  intros [Hne HF]. assert (E : d = map digit_lower (map (fun c => c - 48) d)).
  { clear Hne. induction HF as [|c t Hc _ IH]; [reflexivity|]. cbn [map]. rewrite <- IH. f_equal. unfold digit_lower. destruct (N.ltb_spec (c - 48) 10); lia. }
  rewrite E at 1. unfold int10. rewrite int_of_map; auto using digit_val_lower, digit_lower_not_under, digit_lower_plain; try lia.
  - f_equal. unfold value, undigits. assert (G : forall a, Z.of_N (fold_left (fun a d => a * 10 + d) (map (fun c => c - 48) d) a) = value_from (Z.of_N a) d).
    { clear Hne E. induction HF as [|c t Hc _ IH]; intros a; [reflexivity|]. cbn [map fold_left value_from]. rewrite IH. f_equal. lia. }
    apply G.
  - apply Forall_map. eapply Forall_impl; [|exact HF]. cbn. intros c Hc. lia.
  - destruct d; [congruence | discriminate].
Qed.
Lemma numbers_version ns v : numbers_text ns v ->
  rads_text_version v = if Nat.eqb (length ns) 4 then Ok {| v_s := v; v_t := VNum (map value ns) |} else Err AssertionError.
Proof.
  intros (Hne & HF & ->). unfold rads_text_version, rads_version, base_version.
  assert (Hd : dots ns <> []).
  { destruct HF as [|n t [Hn _] _]; [congruence|]. cbn [dots]. destruct t; [assumption|]. destruct n; [congruence | discriminate]. }
  destruct (dots ns) as [|x r] eqn:Ed; [congruence|]. rewrite <- Ed. rewrite dots_join. rewrite split_join; [|assumption | eapply Forall_impl; [|exact HF]; apply number_no_dot].
  assert (E : rmapM int10 ns = Ok (map value ns)).
  { apply rmapM_Ok. clear -HF. induction HF as [|n t Hn _ IH]; cbn [map]; [constructor|]. constructor; [apply int10_number; assumption | assumption]. }
  rewrite E. cbn [rbind]. assert (El : (lenN (map value ns) =? 4) = Nat.eqb (length ns) 4).
  { rewrite lenN_length, map_length. destruct (Nat.eqb_spec (length ns) 4); lia. }
  rewrite El. destruct (Nat.eqb (length ns) 4); reflexivity.
Qed.
Lemma numbers_nonempty ns v : numbers_text ns v -> v <> [].
Proof. intros (Hne & HF & ->). destruct HF as [|n t [Hn _] _]; [congruence|]. cbn [dots]. destruct t; [assumption|]. destruct n; [congruence | discriminate]. Qed.

Lemma rads_version_four s v : rads_version (ArgStr s) = Ok v -> v_s v = s /\ four_numbers v.
Proof.
  unfold rads_version. intros E. apply rbind_Ok in E as ([s' t] & E1 & E). unfold base_version in E1. destruct s as [|x s0]; [discriminate|].
  apply rbind_Ok in E1 as (t' & _ & E1). injection E1 as <- <-. destruct (N.eqb_spec (lenN t') 4) as [E4|]; [|discriminate]. injection E as <-. split; [reflexivity|].
  rewrite lenN_length in E4. destruct t' as [|a [|b [|c [|d [|? ?]]]]]; cbn [length] in E4; try lia. exists a, b, c, d. reflexivity.
Qed.
Lemma nums_comps v : nums v = comps_of v.
Proof. reflexivity. Qed.

Lemma newest_sorted vs : Forall is_rads vs -> forall v, first_newest vs v <-> exists r, rads_versions vs = v :: r.
Proof.
  intros HF. destruct (rads_versions_spec vs HF) as (HP & HS & HE).
  assert (Hun : forall v w, first_newest vs v -> first_newest vs w -> v = w).
  { intros v w (p1 & q1 & E1 & H1 & H1') (p2 & q2 & E2 & H2 & H2'). rewrite E1 in E2. clear HF HP HS HE E1. revert p2 E2 H2. induction p1 as [|x p1 IH]; intros p2 E2 H2.
    - destruct p2 as [|y p2]; [injection E2 as E3 _; exact E3|]. injection E2 as E3 E4. subst. exfalso. apply (H1' w); [apply in_or_app; right; left; reflexivity|].
      apply H2. left. reflexivity.
    - destruct p2 as [|y p2].
      + injection E2 as E3 E4. subst. exfalso. apply (H2' v); [apply in_or_app; right; left; reflexivity|]. apply H1. left. reflexivity.
      + injection E2 as _ E2. apply (IH (fun z Hz => H1 z (or_intror Hz)) p2 E2 (fun z Hz => H2 z (or_intror Hz))). }
  assert (Hh : forall v r, rads_versions vs = v :: r -> first_newest vs v).
  { intros v r Er. rewrite Er in *. specialize (HE (nums v)). cbn [filter] in HE. change (comps_of v) with (nums v) in HE. rewrite eqbR in HE.
    assert (Hall : forall w, In w vs -> ~ comps_before (nums v) (nums w)).
    { intros w Hw Hb. apply (Permutation_in _ HP) in Hw. destruct Hw as [->|Hw].
      - apply tuple_lt_before in Hb. rewrite tuple_lt_irrefl in Hb. discriminate.
      - inversion HS as [|? ? _ HF']; subst. rewrite Forall_forall in HF'. specialize (HF' w Hw). apply not_newer_lt in HF'. apply tuple_lt_before in Hb. exact (eq_true_false_abs _ Hb HF'). }
    clear HP HS Er HF. revert HE Hall. generalize (filter (fun v0 : version => eqb (comps_of v0) (nums v)) r). clear Hun. induction vs as [|x t IH]; intros m HE Hall; cbn [filter] in HE; [discriminate|].
    destruct (eqbP (comps_of x) (nums v)) as [Ex|Ex].
    - injection HE as <- _. exists [], t. split; [reflexivity|]. split; [intros w []|]. intros w Hw. apply Hall. right. assumption.
    - destruct (IH m HE (fun w Hw => Hall w (or_intror Hw))) as (p & q & -> & Hp & Hq). exists (x :: p), q. split; [reflexivity|]. split; [|assumption].
      intros w [<-|Hw]; [|auto]. destruct (tuple_lt_total (nums x) (nums v)) as [H|[H|H]]; [apply tuple_lt_before; assumption | exfalso; exact (Ex H) |].
      exfalso. apply (Hall x); [left; reflexivity | apply tuple_lt_before; assumption]. }
  intros v. split; [|intros [r Er]; exact (Hh v r Er)].
  intros Hv. destruct (rads_versions vs) as [|w r] eqn:Er.
  - exfalso. apply Permutation_sym, Permutation_nil in HP. subst vs. destruct Hv as (p & q & E & _). destruct p; discriminate.
  - exists r. f_equal. symmetry. apply Hun; [assumption | exact (Hh w r eq_refl)].
Qed.

Lemma listed_rads t vs : listed t vs -> Forall is_rads vs.
Proof. unfold listed. induction 1 as [|s v l l' H _ IH]; [constructor|]. constructor; [|assumption]. apply rads_version_four in H as [_ (a & b & c & d & E)]. eexists. exact E. Qed.

Section Match.
  Variable word : N -> bool.
  Hypothesis W : word_class word.

  Lemma word_run_app name r : Forall (fun x => word x = true) name -> match r with [] => True | x :: _ => word x = false end -> word_run word (name ++ r) = (name, r).
  Proof.
    intros HF Hr. induction HF as [|x t Hx _ IH]; cbn [app].
    - destruct r as [|x t]; cbn [word_run]; [reflexivity | rewrite Hr; reflexivity].
    - cbn [word_run]. rewrite Hx, IH. reflexivity.
  Qed.
  Lemma word_run_inv s name r : word_run word s = (name, r) -> s = name ++ r /\ Forall (fun x => word x = true) name.
  Proof.
    revert name r. induction s as [|c t IH]; intros name r; cbn [word_run].
    - intros E. injection E as <- <-. split; [reflexivity | constructor].
    - destruct (word c) eqn:Ec.
      + destruct (word_run word t) as [a b]. destruct (IH a b eq_refl) as [-> HF]. intros E. injection E as <- <-. split; [reflexivity | constructor; assumption].
      + intros E. injection E as <- <-. split; [reflexivity | constructor].
  Qed.
  Lemma typ_prefix_inv s typ r : typ_prefix s = (typ, r) ->
    (typ = None \/ typ = Some 115 \/ typ = Some 112) /\ s = match typ with Some t => [t; 58] | None => [] end ++ r.
  Proof.
    unfold typ_prefix. destruct s as [|a [|b t]]; try (intros E; injection E as <- <-; auto; fail).
    destruct (_ && _) eqn:E1; intros E; injection E as <- <-; [|auto]. apply andb_true_iff in E1 as [E1 E2]. apply N.eqb_eq in E2 as ->.
    apply orb_true_iff in E1. rewrite !N.eqb_eq in E1. destruct E1 as [->| ->]; auto.
  Qed.
  Lemma typ_prefix_app typ name r : (typ = None \/ typ = Some 115 \/ typ = Some 112) -> name <> [] -> Forall (fun x => word x = true) name ->
    match r with [] => True | x :: _ => x <> 58 end ->
    typ_prefix (match typ with Some t => [t; 58] | None => [] end ++ name ++ r) = (typ, name ++ r).
  Proof.
    intros Ht Hne HF Hr. destruct Ht as [->|[->| ->]]; cbn [app]; [|reflexivity | reflexivity].
    destruct name as [|a [|b t]]; [congruence | |]; cbn [app]; unfold typ_prefix.
    - destruct r as [|x r]; [reflexivity|]. rewrite (proj2 (N.eqb_neq x 58) Hr), andb_false_r. reflexivity.
    - inversion HF as [|? ? _ HF']; subst. inversion HF' as [|? ? Hb _]; subst.
      assert (Hn : (b =? 58) = false) by (apply N.eqb_neq; intros ->; rewrite (wc_colon _ W) in Hb; discriminate).
      rewrite Hn, andb_false_r. reflexivity.
  Qed.
  Lemma no_newline_app v nl : ~ In 10 v -> nl = [] \/ nl = [10] -> without_final_newline (v ++ nl) = v.
  Proof.
    intros Hv Hn. unfold without_final_newline. destruct (endswith (v ++ nl) [cNL]) eqn:E.
    - destruct Hn as [->| ->]; [|apply removelast_last]. apply endswith_iff in E as [r Er]. rewrite app_nil_r in Er. subst v.
      exfalso. apply Hv. apply in_or_app. right. left. reflexivity.
    - destruct Hn as [->| ->]; [apply app_nil_r|]. exfalso. assert (E' : endswith (v ++ [10]) [cNL] = true) by (apply endswith_iff; exists v; reflexivity). congruence.
  Qed.
  Lemma no_newline_inv s r : without_final_newline s = r -> exists nl, (nl = [] \/ nl = [10]) /\ s = r ++ nl.
  Proof.
    unfold without_final_newline. destruct (endswith s [cNL]) eqn:E.
    - apply endswith_iff in E as [q ->]. rewrite removelast_last. intros ->. exists [10]. auto.
    - intros ->. exists []. rewrite app_nil_r. auto.
  Qed.

  Lemma match_rads_iff c typ name ver : match_rads word c = Some (typ, name, ver) <-> rads_text word typ name ver c.
  Proof.
    unfold match_rads, rads_text. split.
    - destruct (typ_prefix c) as [typ' r] eqn:E1. destruct (word_run word r) as [name' r'] eqn:E2. apply typ_prefix_inv in E1 as [Ht ->].
      apply word_run_inv in E2 as [-> HF]. destruct (eqbP name' []) as [->|Hne]; [discriminate|].
      destruct (without_final_newline r') as [|x v] eqn:E3; apply no_newline_inv in E3 as (nl & Hnl & ->).
      + intros E. injection E as <- <- <-. split; [assumption|]. split; [assumption|]. split; [assumption|]. split; [discriminate|]. exists nl. auto.
      + destruct (_ && _) eqn:E4; [|discriminate]. apply andb_true_iff in E4 as [Ex Ev]. apply N.eqb_eq in Ex as ->. apply version_text_iff in Ev.
        intros E. injection E as <- <- <-. split; [assumption|]. split; [assumption|]. split; [assumption|].
        split; [intros v' E; injection E as <-; assumption|]. exists nl. auto.
    - intros (Ht & Hne & HF & Hv & nl & Hnl & ->).
      assert (Hr : match match ver with Some v => 61 :: v | None => [] end ++ nl with [] => True | x :: _ => x <> 58 /\ word x = false end).
      { destruct ver as [v|]; cbn [app]; [split; [discriminate | apply W]|]. destruct Hnl as [->| ->]; [exact I | split; [discriminate | apply W]]. }
      rewrite typ_prefix_app; [|assumption | assumption | assumption | destruct (_ ++ nl); [exact I | apply Hr]].
      rewrite word_run_app; [|assumption | destruct (_ ++ nl); [exact I | apply Hr]].
      rewrite (proj2 (eqbF _ _) Hne). destruct ver as [v|].
      + specialize (Hv v eq_refl). rewrite no_newline_app; [|intros [H|H]; [lia | exact (version_no_nl v Hv H)] | assumption].
        cbn iota. rewrite (proj2 (version_text_iff v) Hv). reflexivity.
      + cbn [app]. change nl with ([] ++ nl) at 1. rewrite no_newline_app; [reflexivity | auto | assumption].
  Qed.
  Lemma match_rads_none c : match_rads word c = None <-> forall typ name ver, ~ rads_text word typ name ver c.
  Proof.
    split.
    - intros E typ name ver H. apply match_rads_iff in H. congruence.
    - intros H. destruct (match_rads word c) as [[[typ name] ver]|] eqn:E; [|reflexivity]. exfalso. eapply H. apply match_rads_iff. eassumption.
  Qed.

  (** ** Meaning *)

  Variable get_text : str -> result str.
  Variable listing : list element.

  Definition kind_char (k : part_kind) : str := match k with KProject => lit "p" | KSolution => lit "s" | KPatch => lit "patch" end.
  Lemma kind_char_of typ name k : kind_of typ name k ->
    match typ with Some t => [t] | None => if eqb name (lit "patch") then lit "patch" else if endswith name (lit "_sln") then lit "s" else lit "p" end = kind_char k.
  Proof.
    intros []; [reflexivity | reflexivity | reflexivity | |].
    - destruct (eqb _ (lit "patch")) eqn:E.
      + exfalso. apply eqb_true in E. apply (f_equal (@rev N)) in E. rewrite rev_app_distr in E. discriminate.
      + rewrite (proj2 (endswith_iff _ _)); [reflexivity | exists n; reflexivity].
    - rewrite (proj2 (eqbF _ _) H). destruct (endswith name0 (lit "_sln")) eqn:E; [|reflexivity]. apply endswith_iff in E as [r E]. exfalso. exact (H0 r E).
  Qed.
  Lemma kind_of_total typ name : (typ = None \/ typ = Some 115 \/ typ = Some 112) -> exists k, kind_of typ name k.
  Proof.
    intros [->|[->| ->]]; [|exists KSolution; constructor | exists KProject; constructor].
    destruct (eqbP name (lit "patch")) as [->|Hn]; [exists KPatch; constructor|].
    destruct (endswith name (lit "_sln")) eqn:E.
    - apply endswith_iff in E as [r ->]. exists KSolution. constructor.
    - exists KProject. constructor; [assumption|]. intros n ->. assert (E' : endswith (n ++ lit "_sln") (lit "_sln") = true) by (apply endswith_iff; exists n; reflexivity). congruence.
  Qed.

  Local Notation parse := (parse_rads_component word get_text listing).
  Lemma parse_kind typ name ver c k : rads_text word typ name ver c -> kind_of typ name k ->
    parse c = match k with
              | KProject => match ver with
                            | None => Ok (OProject name)
                            | Some [] => let! vs := project_versions get_text name in let! v := first_of vs in Ok (OProjectVersion (name, v))
                            | Some v => let! v := rads_text_version v in Ok (OProjectVersion (name, v))
                            end
              | KSolution => match ver with
                             | None => Ok (OSolution name)
                             | Some [] => let! vs := solution_versions get_text name in let! v := first_of vs in Ok (OSolutionVersion (name, v))
                             | Some v => let! v := rads_text_version v in Ok (OSolutionVersion (name, v))
                             end
              | KPatch => match ver with
                          | None => Err ValueError
                          | Some [] => rmap OPatch (storage_patch None listing)
                          | Some v => rmap OPatch (storage_patch (Some v) listing)
                          end
              end.
  Proof.
    intros Ht Hk. unfold parse_rads_component. rewrite (proj2 (match_rads_iff c typ name ver) Ht). cbv zeta. rewrite (kind_char_of typ name k Hk).
    destruct k; reflexivity.
  Qed.

  Lemma latest_solution typ name c o : rads_text word typ name (Some []) c -> kind_of typ name KSolution ->
    (parse c = Ok o <-> exists t vs v, get_text (lit "solutions/" ++ name ++ lit "/releases/releaselisting") = Ok t /\ listed t vs /\ first_newest vs v /\ o = OSolutionVersion (name, v)).
  Proof.
    intros Ht Hk. rewrite (parse_kind _ _ _ _ _ Ht Hk). unfold solution_versions, solution_path. rewrite <- !app_assoc. cbn [app].
    change (lit "/releases" ++ lit "/releaselisting") with (lit "/releases/releaselisting"). split.
    - intros E. apply rbind_Ok in E as (l & E1 & E). apply rbind_Ok in E1 as (t & Eg & E1). apply rbind_Ok in E1 as (vs & Ev & E1). injection E1 as <-.
      apply rbind_Ok in E as (v & E1 & E). injection E as <-. apply rmapM_Ok in Ev. exists t, vs, v. split; [assumption|]. split; [exact Ev|]. split; [|reflexivity].
      apply (newest_sorted vs (listed_rads t vs Ev)). destruct (rads_versions vs) as [|w r]; [discriminate|]. injection E1 as ->. exists r. reflexivity.
    - intros (t & vs & v & Eg & Hl & Hn & ->). rewrite Eg. cbn [rbind]. pose proof (proj2 (rmapM_Ok rads_text_version _ _) Hl) as E. rewrite E. cbn [rbind].
      apply (newest_sorted vs (listed_rads t vs Hl)) in Hn as [r ->]. reflexivity.
  Qed.
  Lemma latest_project typ name c o : rads_text word typ name (Some []) c -> kind_of typ name KProject ->
    (parse c = Ok o <-> exists t v vs, get_text (lit "projects/" ++ name ++ lit "/releases/releaselisting") = Ok t /\ listed t (v :: vs) /\ o = OProjectVersion (name, v)).
  Proof.
    intros Ht Hk. rewrite (parse_kind _ _ _ _ _ Ht Hk). unfold project_versions, project_path. rewrite <- !app_assoc. cbn [app].
    change (lit "/releases" ++ lit "/releaselisting") with (lit "/releases/releaselisting"). split.
    - intros E. apply rbind_Ok in E as (l & E1 & E). apply rbind_Ok in E1 as (t & Eg & E1). apply rbind_Ok in E as (v & E2 & E). injection E as <-.
      destruct l as [|w l]; [discriminate|]. injection E2 as <-. apply rmapM_Ok in E1. exists t, w, l. auto.
    - intros (t & v & vs & Eg & Hl & ->). rewrite Eg. cbn [rbind]. pose proof (proj2 (rmapM_Ok rads_text_version _ _) Hl) as E. rewrite E. reflexivity.
  Qed.

  Lemma rads_prefix_refused s : parse (lit "rads:" ++ s) = Err ValueError.
  Proof.
    unfold parse_rads_component. assert (E : match_rads word (lit "rads:" ++ s) = None); [|rewrite E; reflexivity].
    unfold match_rads. cbn [lit app]. change (typ_prefix (lit "rads:" ++ s)) with (@None N, lit "rads:" ++ s). cbn iota.
    change (lit "rads:" ++ s) with (lit "rads" ++ 58 :: s). rewrite word_run_app; [| |apply W].
    2:{ rewrite Forall_forall. intros x Hx. apply (wc_letters _ W). cbn in Hx. intuition lia. }
    cbn iota. change (eqb (lit "rads") []) with false. cbn iota. unfold without_final_newline. destruct (endswith _ _) eqn:E; [|reflexivity].
    destruct s as [|x s]; [discriminate|]. reflexivity.
  Qed.
End Match.

(** ** Order *)

Lemma str_lt_text x y : str_lt x y = true <-> text_before x y.
Proof.
  unfold str_lt. split.
  - revert y. induction x as [|a x IH]; intros [|b y]; cbn [lex_lt]; try discriminate.
    + intros _. apply (tb_ext []).
    + destruct (N.eqb_spec a b) as [->|Hab].
      * intros E. destruct (IH y E) as [x' y0 y' | p a' b' x' y' Hlt].
        -- apply (tb_ext (b :: x')).
        -- apply (tb_diff (b :: p)). assumption.
      * intros E. apply (tb_diff []). lia.
  - intros [x' y0 y' | p a b x' y' Hlt].
    + induction x' as [|a x' IH]; cbn [lex_lt app]; [reflexivity|]. rewrite N.eqb_refl. exact IH.
    + induction p as [|c p IH]; cbn [lex_lt app].
      * destruct (N.eqb_spec a b); lia.
      * rewrite N.eqb_refl. exact IH.
Qed.
Lemma part_lt_spec a b : four_numbers (snd a) -> four_numbers (snd b) -> exists r, part_lt a b = Ok r /\ (r = true <-> part_before a b).
Proof.
  intros (a1 & a2 & a3 & a4 & Ea) (b1 & b2 & b3 & b4 & Eb). unfold part_lt, part_before. pose proof (str_lt_text (fst a) (fst b)) as Ht. destruct (str_lt (fst a) (fst b)) eqn:E.
  - exists true. tauto.
  - destruct (eqbP (fst a) (fst b)) as [En|Hn].
    + unfold v_gt, nums. rewrite Ea, Eb. exists (tuple_lt [b1; b2; b3; b4] [a1; a2; a3; a4]). split; [reflexivity|].
      pose proof (tuple_lt_before [b1; b2; b3; b4] [a1; a2; a3; a4]). intuition congruence.
    + exists false. split; [reflexivity|]. intuition congruence.
Qed.
Lemma part_before_irrefl a : ~ part_before a a.
Proof.
  intros [H|[_ H]]; [apply str_lt_text in H; rewrite str_lt_irrefl in H | apply tuple_lt_before in H; rewrite tuple_lt_irrefl in H]; discriminate.
Qed.
Lemma part_before_trans a b c : part_before a b -> part_before b c -> part_before a c.
Proof.
  unfold part_before. rewrite <- !str_lt_text, <- !tuple_lt_before. intros [H1|[E1 H1]] [H2|[E2 H2]].
  - left. eapply str_lt_trans; eassumption.
  - left. rewrite <- E2. assumption.
  - left. rewrite E1. assumption.
  - right. split; [congruence|]. eapply tuple_lt_trans; eassumption.
Qed.
Lemma part_before_total a b : part_before a b \/ (fst a = fst b /\ nums (snd a) = nums (snd b)) \/ part_before b a.
Proof.
  unfold part_before. rewrite <- !str_lt_text, <- !tuple_lt_before. destruct (str_lt_total (fst a) (fst b)) as [H|[H|H]]; [auto | | auto].
  destruct (tuple_lt_total (nums (snd a)) (nums (snd b))) as [H'|[H'|H']]; auto.
Qed.

(** ** What is stored *)

Section Stored.
  Variable cwd : path.
  Variable base : str.
  Variable order : list str -> list str.
  Hypothesis order_perm : forall l, Permutation (order l) l.

  Lemma keep_dirs_reading full l : reading (keep_dirs cwd full l).
  Proof. induction l as [|n t IH]; cbn [keep_dirs]; [apply reading_ret|]. apply reading_bind; [apply reading_query|]. intros d. apply reading_bind; [exact IH|]. intros r. apply reading_ret. Qed.
  Lemma keep_dirs_result full l f : result_of (keep_dirs cwd full l) f = Done (filter (fun n => f_isdir cwd (full n) f) l).
  Proof.
    induction l as [|n t IH]; cbn [keep_dirs filter]; [reflexivity|]. rewrite result_bind by apply reading_query.
    change (result_of (isdir cwd (full n)) f) with (Done (f_isdir cwd (full n) f)). cbn iota. rewrite result_bind by apply keep_dirs_reading. rewrite IH. reflexivity.
  Qed.
  Lemma f_isdir_iff s f : f_isdir cwd s f = true <-> directory cwd f s.
  Proof.
    unfold f_isdir, directory. destruct (locate cwd f true s) as [p|e]; cbn [node_of].
    - split.
      + intros H. exists p. split; [reflexivity|]. destruct (look f p) as [[| |]|]; congruence.
      + intros (q & E & Hq). injection E as <-. rewrite Hq. reflexivity.
    - split; [discriminate | intros (q & E & _); discriminate].
  Qed.
  Lemma listdir_result s p f : locate cwd f true s = Ok p -> look f p = Some NDir -> result_of (listdir order cwd s) f = Done (order (names p f)).
  Proof. intros E Hd. unfold listdir, result_of, sys, sys_part. cbn [run]. rewrite E. cbn [rbind]. rewrite Hd. reflexivity. Qed.

  Lemma list_parts_reading kind : reading (list_parts cwd base order kind).
  Proof. apply reading_bind; [apply reading_listdir|]. intros l. apply keep_dirs_reading. Qed.
  Lemma list_parts_result kind p f : locate cwd f true (fspath base kind) = Ok p -> look f p = Some NDir ->
    exists l, result_of (list_parts cwd base order kind) f = Done l /\ NoDup l /\
      forall n, In n l <-> look f (n :: p) <> None /\ directory cwd f (fspath base kind ++ lit "/" ++ n ++ lit "/releases").
  Proof.
    intros E Hd. eexists. unfold list_parts. rewrite result_bind by apply reading_listdir. rewrite (listdir_result _ p f E Hd). rewrite keep_dirs_result.
    split; [reflexivity|]. split.
    - apply NoDup_filter. eapply Permutation_NoDup; [apply Permutation_sym, order_perm | apply names_NoDup].
    - intros n. rewrite filter_In, f_isdir_iff, <- names_In. split; intros [H1 H2]; (split; [|assumption]); eapply Permutation_in; try eassumption; [apply order_perm | apply Permutation_sym, order_perm].
  Qed.

  Lemma stored_reading name : reading (stored_versions cwd base order name).
  Proof.
    apply reading_bind; [apply reading_query|]. intros [|]; [|apply reading_ret]. apply reading_bind; [apply reading_listdir|]. intros l.
    apply reading_bind; [apply keep_dirs_reading|]. intros l'. apply reading_bind; [apply reading_lift|]. intros vs. apply reading_ret.
  Qed.
  Lemma stored_none name f : ~ directory cwd f (fspath base (solution_path name)) -> result_of (stored_versions cwd base order name) f = Done [].
  Proof.
    intros Hd. unfold stored_versions. rewrite result_bind by apply reading_query. change (result_of (isdir cwd (fspath base (solution_path name))) f) with (Done (f_isdir cwd (fspath base (solution_path name)) f)).
    destruct (f_isdir _ _ _) eqn:E; [|reflexivity]. apply f_isdir_iff in E. contradiction.
  Qed.
  Lemma stored_some name p f vs : locate cwd f true (fspath base (solution_path name)) = Ok p -> look f p = Some NDir ->
    result_of (stored_versions cwd base order name) f = Done vs ->
    NoDup (map v_s vs) /\ StronglySorted (fun a b => ~ comps_before (nums a) (nums b)) vs /\
    (forall s, In s (map v_s vs) <-> look f (s :: p) <> None /\ directory cwd f (path_join (fspath base (solution_path name)) s)) /\
    (forall v, In v vs -> rads_version (ArgStr (v_s v)) = Ok v).
  Proof.
    intros E Hd. unfold stored_versions. rewrite result_bind by apply reading_query.
    change (result_of (isdir cwd (fspath base (solution_path name))) f) with (Done (f_isdir cwd (fspath base (solution_path name)) f)).
    rewrite (proj2 (f_isdir_iff _ _)) by (exists p; auto). cbn iota. rewrite result_bind by apply reading_listdir. rewrite (listdir_result _ p f E Hd).
    rewrite result_bind by apply keep_dirs_reading. rewrite keep_dirs_result. set (l := filter _ (order (names p f))).
    assert (HN : NoDup l) by (apply NoDup_filter; eapply Permutation_NoDup; [apply Permutation_sym, order_perm | apply names_NoDup]).
    assert (HI : forall n, In n l <-> look f (n :: p) <> None /\ directory cwd f (path_join (fspath base (solution_path name)) n)).
    { intros n. unfold l. rewrite filter_In, f_isdir_iff, <- names_In. split; intros [H1 H2]; (split; [|assumption]); eapply Permutation_in; try eassumption; [apply order_perm | apply Permutation_sym, order_perm]. }
    clearbody l. rewrite result_bind by apply reading_lift. destruct (rmapM rads_text_version l) as [ws|x] eqn:Ew; [|discriminate]. intros Er.
    assert (Evs : vs = rads_versions ws) by (cbn in Er; congruence). subst vs. apply rmapM_Ok in Ew.
    assert (HF : Forall is_rads ws). { clear -Ew. induction Ew as [|s v l l' H _ IH]; [constructor|]. constructor; [|assumption]. apply rads_version_four in H as [_ (a & b & c & d & E)]. eexists. exact E. }
    assert (Es : map v_s ws = l). { clear -Ew. induction Ew as [|s v l l' H _ IH]; [reflexivity|]. cbn [map]. rewrite IH. f_equal. exact (proj1 (rads_version_four _ _ H)). }
    assert (Ev : forall v, In v ws -> rads_version (ArgStr (v_s v)) = Ok v).
    { intros v Hv. clear -Ew Hv. induction Ew as [|s w l l' H _ IH]; [destruct Hv|]. destruct Hv as [->|Hv]; [|auto]. rewrite (proj1 (rads_version_four _ _ H)). exact H. }
    destruct (rads_versions_spec ws HF) as (HP & HS & _).
    pose proof (Permutation_map v_s HP) as HP'. rewrite Es in HP'. split; [eapply Permutation_NoDup; [exact HP' | exact HN]|]. split; [|split].
    - clear -HS. induction HS as [|x m _ IH HF]; [constructor|]. constructor; [assumption|]. eapply Forall_impl; [|exact HF]. intros w Hw Hb. apply not_newer_lt in Hw. apply tuple_lt_before in Hb. exact (eq_true_false_abs _ Hb Hw).
    - intros s. rewrite <- HI. split; apply Permutation_in; [apply Permutation_sym|]; exact HP'.
    - intros v Hv. apply Ev. eapply Permutation_in; [apply Permutation_sym, HP | exact Hv].
  Qed.
End Stored.
