(** * Proofs about RADS manifests *)

From Verif Require Import Base.TextFacts Base.Lines Base.LinesFacts Model.Version Spec.VersionSpec Proofs.VersionProofs
  Model.Rads Spec.RadsSpec.

(** ** Package manifests *)

Lemma split5 a b c d e : ~ In cComma a -> ~ In cComma b -> ~ In cComma c -> ~ In cComma d -> ~ In cComma e ->
  split_ch cComma (a ++ [cComma] ++ b ++ [cComma] ++ c ++ [cComma] ++ d ++ [cComma] ++ e) = [a; b; c; d; e].
Proof. intros. change (a ++ _) with (join [cComma] [a; b; c; d; e]). apply split_join; [discriminate | repeat constructor; assumption]. Qed.

Definition pkg_expect (e : pkg_entry) (pf : pkgfile) : Prop :=
  k_path pf = pe_path e /\ k_package pf = pe_package e /\ k_offset pf = Z.of_N (pe_offset e) /\ k_size pf = Z.of_N (pe_size e) /\
  ((k_compressed pf = true /\ pe_path e = k_extract pf ++ lit ".compressed") \/
   (k_compressed pf = false /\ k_extract pf = pe_path e /\ forall b, pe_path e <> b ++ lit ".compressed")).

Lemma parse_line_ok e tail : pkg_entry_ok e -> ~ In cComma tail ->
  exists pf, parse_pkg_line (pkg_line e ++ tail) = Ok pf /\ pkg_expect e pf.
Proof.
  intros (H1 & H2 & H3) Ht. unfold parse_pkg_line, pkg_line. rewrite app_comm_cons, <- !app_assoc.
  rewrite (split5 (cSlash :: pe_path e) (pe_package e) (dec (pe_offset e)) (dec (pe_size e)) (pe_type e ++ tail)).
  - rewrite !int10_dec. cbn [rbind]. replace (dropN 1 (cSlash :: pe_path e)) with (pe_path e) by (rewrite dropN_skipn; reflexivity).
    eexists. split; [reflexivity|]. unfold pkg_expect. cbn [k_path k_package k_offset k_size k_compressed k_extract].
    do 4 (split; [reflexivity|]).
    destruct (endswith (pe_path e) (lit ".compressed")) eqn:E.
    + apply endswith_iff in E as [b Hb]. left. split; [reflexivity|]. rewrite Hb at 1. f_equal.
      rewrite Hb. unfold py_take, pyidx. change ((-11 <? 0)%Z) with true. cbn iota.
      rewrite lenN_app. change (lenN (lit ".compressed")) with 11.
      replace (Z.to_N _) with (lenN b) by lia. symmetry. apply takeN_app_exact.
    + right. split; [reflexivity|]. split; [reflexivity|]. intros b Hb. rewrite Hb, endswith_app in E. discriminate.
  - intros [H|H]; [discriminate | apply H1 in H; destruct H].
  - apply H2.
  - apply dec_not_in. reflexivity.
  - apply dec_not_in. reflexivity.
  - intros H. apply in_app_or in H as [H|H]; [apply H3 in H; destruct H | contradiction].
Qed.

Lemma split_ch_len c (s : str) : length (split_ch c s) = S (count_occ N.eq_dec s c).
Proof.
  induction s as [|x s IH]; [reflexivity|]. cbn [split_ch count_occ]. destruct (eqbP x c) as [->|Hx].
  - destruct (N.eq_dec c c); [|congruence]. cbn [length]. rewrite IH. reflexivity.
  - destruct (N.eq_dec x c); [congruence|]. destruct (split_ch c s); [discriminate|]. exact IH.
Qed.
Lemma parse_line_fields line : count_occ N.eq_dec line cComma <> 4%nat -> parse_pkg_line line = Err ValueError.
Proof.
  intros H. unfold parse_pkg_line. pose proof (split_ch_len cComma line) as E.
  destruct (split_ch cComma line) as [|a [|b [|c [|d [|e [|f l]]]]]]; try reflexivity. cbn [length] in E. congruence.
Qed.

Lemma manifest_lines (es : list pkg_entry) (last : list pkg_entry) : Forall pkg_entry_ok (es ++ last) -> (length last <= 1)%nat ->
  exists pfs, rmapM parse_pkg_line (map (fun l => l ++ [cNL]) (map pkg_line es) ++ map pkg_line last) = Ok pfs /\
    Forall2 pkg_expect (es ++ last) pfs.
Proof.
  intros H Hl. induction es as [|e es IH]; cbn [app map] in *.
  - destruct last as [|e [|]]; [exists []; split; [reflexivity | constructor] | | cbn [length] in Hl; lia].
    inversion H as [|? ? He _]; subst. destruct (parse_line_ok e [] He) as (pf & E & X); [intros []|]. rewrite app_nil_r in E.
    exists [pf]. cbn [map rmapM]. rewrite E. split; [reflexivity | constructor; [assumption | constructor]].
  - inversion H as [|? ? He Hes]; subst. destruct (IH Hes) as (pfs & E & X).
    destruct (parse_line_ok e [cNL] He) as (pf & E1 & X1); [intros [E1|[]]; discriminate|].
    exists (pf :: pfs). cbn [map rmapM]. rewrite E1. cbn [rbind]. rewrite E. split; [reflexivity | constructor; assumption].
Qed.
Lemma pkg_line_in c e : In c (pkg_line e) -> c <> cSlash -> c <> cComma -> is_digit c = false ->
  In c (pe_path e) \/ In c (pe_package e) \/ In c (pe_type e).
Proof.
  intros H H1 H2 H3. unfold pkg_line in H. destruct H as [H|H]; [congruence|].
  repeat (apply in_app_or in H as [H|H]); auto;
    try (destruct H as [H|[]]; congruence); exfalso; eapply dec_not_in; eassumption.
Qed.
Lemma pkg_line_clean e : pkg_entry_ok e -> ~ In cNL (pkg_line e) /\ ~ In cCR (pkg_line e).
Proof.
  intros (H1 & H2 & H3). split; intros H; apply pkg_line_in in H; try discriminate; try reflexivity;
    unfold field_ok in *; tauto.
Qed.

Lemma package_manifest_ok magic eol (es last : list pkg_entry) :
  startswith magic (lit "PKG1") = true -> ~ In cNL magic -> ~ In cCR magic -> eol_ok eol ->
  Forall pkg_entry_ok (es ++ last) -> (length last <= 1)%nat ->
  exists pfs, from_package_manifest (magic ++ eol ++ concat (map (fun l => l ++ eol) (map pkg_line es)) ++ concat (map pkg_line last)) = Ok pfs /\
    Forall2 pkg_expect (es ++ last) pfs.
Proof.
  intros Hm Hm1 Hm2 He H Hl. destruct (manifest_lines es last H Hl) as (pfs & E & X). exists pfs. split; [|assumption].
  unfold from_package_manifest. rewrite nl_norm_line, nl_norm_eol by assumption.
  apply Forall_app in H as [H1 H2]. rewrite nl_norm_text; [|assumption|].
  - rewrite nl_norm_id.
    + rewrite file_lines_line by assumption. assert (Hs : startswith (magic ++ [cNL]) (lit "PKG1") = true).
      { apply startswith_iff in Hm as [r ->]. rewrite <- app_assoc. apply startswith_app. }
      rewrite Hs. rewrite file_lines_text.
      * destruct last as [|e [|]]; [cbn [map concat] in *; cbn [file_lines]; exact E | | cbn [length] in Hl; lia].
        cbn [map concat]. rewrite app_nil_r. inversion H2; subst. rewrite file_lines_last by (apply pkg_line_clean; assumption).
        unfold pkg_line at 1. exact E.
      * apply Forall_map. eapply Forall_impl; [|exact H1]. cbn beta. intros e Hx. apply pkg_line_clean. assumption.
    + destruct last as [|e [|]]; [intros [] | | cbn [length] in Hl; lia]. cbn [map concat]. rewrite app_nil_r. inversion H2; subst. apply pkg_line_clean. assumption.
  - apply Forall_map. eapply Forall_impl; [|exact H1]. cbn beta. intros e Hx. apply pkg_line_clean. assumption.
Qed.
Lemma package_manifest_magic text : startswith text (lit "PKG1") = false -> from_package_manifest text = Err AssertionError.
Proof.
  intros H. unfold from_package_manifest.
  assert (G : forall t, startswith t (lit "PKG1") = true <-> exists l, file_lines (nl_norm t) = l /\ match l with x :: _ => startswith x (lit "PKG1") = true | [] => False end).
  { clear. intros t. change (lit "PKG1") with [80; 75; 71; 49].
    assert (F : forall p t, ~ In cNL p -> ~ In cCR p -> p <> [] -> startswith t p = true <-> match file_lines (nl_norm t) with x :: _ => startswith x p = true | [] => False end).
    { clear. induction p as [|c p IH]; intros t H1 H2 H3; [congruence|].
      assert (Hc1 : c <> cNL) by (intros ->; apply H1; left; reflexivity). assert (Hc2 : c <> cCR) by (intros ->; apply H2; left; reflexivity).
      destruct t as [|x t]; [cbn; split; [discriminate | intros []]|]. cbn [nl_norm].
      destruct (N.eqb_spec x cCR) as [->|Hx].
      - assert (A : startswith (cCR :: t) (c :: p) = false) by (cbn [startswith]; destruct (eqbP cCR c); [congruence | reflexivity]).
        rewrite A. assert (B : forall q, match file_lines (cNL :: q) with [] => False | x :: _ => startswith x (c :: p) = true end -> False).
        { intros q. cbn [file_lines]. rewrite N.eqb_refl. cbn [startswith]. destruct (eqbP cNL c); [congruence | discriminate]. }
        split; [discriminate|]. intros Z0. exfalso. destruct t as [|y t]; [exact (B [] Z0)|]. destruct (y =? cNL); [exact (B (nl_norm t) Z0) | exact (B (nl_norm (y :: t)) Z0)].
      - cbn [file_lines]. destruct (N.eqb_spec x cNL) as [->|Hx'].
        + cbn [startswith]. destruct (eqbP cNL c); [congruence|]. split; discriminate.
        + destruct p as [|c' p].
          * destruct (file_lines (nl_norm t)); cbn [startswith]; destruct (eqb x c); reflexivity.
          * specialize (IH t (fun h => H1 (or_intror h)) (fun h => H2 (or_intror h)) ltac:(discriminate)).
            destruct (file_lines (nl_norm t)) as [|l ls].
            -- cbn [startswith] in *. destruct (eqb x c); [rewrite IH; split; [intros [] | discriminate] | split; discriminate].
            -- change (startswith (x :: t) (c :: c' :: p)) with (eqb x c && startswith t (c' :: p)).
               change (startswith (x :: l) (c :: c' :: p)) with (eqb x c && startswith l (c' :: p)).
               destruct (eqb x c); [cbn [andb]; exact IH | split; discriminate]. }
    rewrite (F _ t); [|intros [E|[E|[E|[E|[]]]]]; discriminate | intros [E|[E|[E|[E|[]]]]]; discriminate | discriminate].
    split; [eauto | intros (l & <- & X); exact X]. }
  specialize (G text). destruct (file_lines (nl_norm text)) as [|l ls]; [reflexivity|].
  destruct (startswith l (lit "PKG1")) eqn:El; [|reflexivity].
  assert (startswith text (lit "PKG1") = true) by (apply G; exists (l :: ls); split; [reflexivity | exact El]). congruence.
Qed.

Lemma Forall2_in_l {A B} (R : A -> B -> Prop) l l' x : Forall2 R l l' -> In x l -> exists y, In y l' /\ R x y.
Proof.
  induction 1 as [|a b l l' H _ IH]; intros Hi; [destruct Hi|]. destruct Hi as [->|Hi]; [exists b; split; [left; reflexivity | assumption]|].
  destruct (IH Hi) as (y & Hy & Hr). exists y. split; [right; assumption | assumption].
Qed.
Lemma Forall2_weaken {A B} (R S : A -> B -> Prop) l l' : (forall x y, R x y -> S x y) -> Forall2 R l l' -> Forall2 S l l'.
Proof. intros H. induction 1; constructor; auto. Qed.

(** ** Solution manifests *)

Lemma version_text_ok s : version_text s -> exists v, rads_version (ArgStr s) = Ok v /\ v_s v = s.
Proof.
  intros (t & Hl & Hs). apply dotted_spell_dotted in Hs as [Ht ->]. unfold rads_version. rewrite base_version_dotted by assumption.
  cbn [rbind]. rewrite lenN_length, Hl. eexists. split; reflexivity.
Qed.
Lemma version_text_no_break s : version_text s -> no_break s.
Proof.
  intros (t & _ & Hs). apply dotted_spell_dotted in Hs as [_ ->]. apply join_no_break; [repeat constructor|].
  apply Forall_map, Forall_forall. intros z _. apply decZ_no_break.
Qed.

Definition nv (p : sln_project) : str * pv := (sp_name p, (sp_name p, sp_version p)).
Lemma read_projects_ok : forall ps pre post req acc,
  Forall (fun p => version_text (sp_version p)) ps ->
  read_projects (length ps)
    (pre ++ concat (map (fun p => [sp_name p; sp_version p; if sp_required p then lit "0" else lit "10"; lit "0"]) ps) ++ post)
    (Z.of_N (lenN pre)) req acc =
  Ok (Z.of_N (lenN pre + 4 * lenN ps), req ++ map sp_name (filter sp_required ps), fold_left (fun d p => dset (fst p) (snd p) d) (map nv ps) acc).
Proof.
  induction ps as [|p ps IH]; intros pre post req acc H.
  - cbn. rewrite N.add_0_r, app_nil_r. reflexivity.
  - inversion H as [|? ? Hv Hps]; subst. cbn [length read_projects map concat]. rewrite <- app_assoc.
    rewrite py_slice_mid by (rewrite ?lenN_cons; rewrite ?lenN_nil; lia).
    destruct (version_text_ok _ Hv) as (v & Ev & Es).
    assert (E1 : int10 (if sp_required p then lit "0" else lit "10") = Ok (if sp_required p then 0 else 10)%Z) by (destruct (sp_required p); reflexivity).
    rewrite E1. change (int10 (lit "0")) with (@Ok Z 0%Z). cbn [rbind].
    assert (E2 : (if ((if sp_required p then 0 else 10) =? 0)%Z then Ok (req ++ [sp_name p])
        else if ((if sp_required p then 0 else 10) =? 10)%Z then Ok req else Err AssertionError) = Ok (req ++ if sp_required p then [sp_name p] else [])).
    { destruct (sp_required p); [reflexivity | rewrite app_nil_r; reflexivity]. }
    rewrite E2. cbn [rbind negb Z.eqb]. rewrite Ev. cbn [rbind]. rewrite Es.
    set (blk := [sp_name p; sp_version p; _; lit "0"]).
    specialize (IH (pre ++ blk) post (req ++ if sp_required p then [sp_name p] else []) (dset (sp_name p) (sp_name p, sp_version p) acc) Hps).
    rewrite <- app_assoc in IH. replace (Z.of_N (lenN (pre ++ blk))) with (Z.of_N (lenN pre) + 4)%Z in IH
      by (unfold blk; rewrite lenN_app, !lenN_cons, ?lenN_nil; lia).
    rewrite IH.
    assert (E3 : lenN (pre ++ blk) + 4 * lenN ps = lenN pre + 4 * lenN (p :: ps)) by (unfold blk; rewrite lenN_app, !lenN_cons, lenN_nil; lia).
    assert (E4 : (req ++ if sp_required p then [sp_name p] else []) ++ map sp_name (filter sp_required ps) = req ++ map sp_name (filter sp_required (p :: ps))).
    { rewrite <- app_assoc. cbn [filter]. destruct (sp_required p); reflexivity. }
    rewrite E3, E4. reflexivity.
Qed.

Definition lookup_all (names : list str) (d : list (str * pv)) : result (list pv) := rmapM (fun n => of_opt KeyError (dget n d)) names.
Lemma lookup_all_ok d names : (forall n, In n names -> In n (dkeys d)) -> NoDup (dkeys d) ->
  exists pvs, lookup_all names d = Ok pvs /\ Forall2 (fun n x => In (n, x) d) names pvs.
Proof.
  intros H Hd. induction names as [|n names IH]; [exists []; split; [reflexivity | constructor]|].
  destruct IH as (pvs & E & X); [intros; apply H; right; assumption|].
  destruct (dget n d) as [x|] eqn:En; [|apply dget_None in En; exfalso; apply En, H; left; reflexivity].
  exists (x :: pvs). unfold lookup_all in *. cbn [rmapM]. rewrite En. cbn [of_opt rbind]. rewrite E. split; [reflexivity|].
  constructor; [apply dget_Some_In; assumption | assumption].
Qed.
Definition lang_entry (d : list (str * pv)) (l : str * list str) (e : option str * list pv) : Prop :=
  fst e = Some (fst l) /\ lookup_all (snd l) d = Ok (snd e).
Lemma read_langs_ok d : forall ls es pre post acc, Forall (fun l => In (fst l) languages) ls -> Forall2 (lang_entry d) ls es ->
  read_langs (length ls) (pre ++ concat (map (fun l => fst l :: lit "0" :: dec (lenN (snd l)) :: snd l) ls) ++ post) (Z.of_N (lenN pre)) d acc =
  Ok (fold_left (fun d p => dset (fst p) (snd p) d) es acc).
Proof.
  induction ls as [|[l deps] ls IH]; intros es pre post acc Hl H; inversion H as [|? [k pvs] ? es' [H1 H2] Hes]; subst; [reflexivity|].
  inversion Hl as [|? ? Hin Hls]; subst. cbn [fst snd] in *. subst k. cbn [length read_langs map concat fst snd].
  set (blocks := concat (map (fun l => fst l :: lit "0" :: dec (lenN (snd l)) :: snd l) ls)) in *.
  rewrite <- app_assoc. change ((l :: lit "0" :: dec (lenN deps) :: deps) ++ blocks ++ post) with ([l; lit "0"; dec (lenN deps)] ++ deps ++ blocks ++ post).
  rewrite py_slice_mid by (rewrite ?lenN_cons; rewrite ?lenN_nil; lia).
  rewrite int10_dec. change (int10 (lit "0")) with (@Ok Z 0%Z). cbn [rbind negb Z.eqb].
  assert (Em : mem l languages = true) by (apply mem_In; assumption). rewrite Em. cbn [negb].
  rewrite (app_assoc pre). rewrite py_slice_mid by (rewrite lenN_app, !lenN_cons, ?lenN_nil; lia).
  unfold lookup_all in H2. rewrite H2. cbn [rbind].
  specialize (IH es' ((pre ++ [l; lit "0"; dec (lenN deps)]) ++ deps) post (dset (Some l) pvs acc) Hls Hes).
  rewrite <- (app_assoc _ deps) in IH. 
  replace (Z.of_N (lenN ((pre ++ [l; lit "0"; dec (lenN deps)]) ++ deps))) with (Z.of_N (lenN pre) + 3 + Z.of_N (lenN deps))%Z in IH
    by (rewrite !lenN_app, !lenN_cons, lenN_nil; lia).
  exact IH.
Qed.

Lemma map_fst_nv ps : map fst (map nv ps) = map sp_name ps.
Proof. rewrite map_map. reflexivity. Qed.
Lemma lookup_required ps qs d : d = map nv ps -> NoDup (map sp_name ps) -> (forall p, In p qs -> In p ps) ->
  lookup_all (map sp_name qs) d = Ok (map (fun p => (sp_name p, sp_version p)) qs).
Proof.
  intros -> Hn Hi. unfold lookup_all. induction qs as [|q qs IH]; [reflexivity|]. cbn [map rmapM].
  rewrite (dget_In_NoDup (sp_name q) (sp_name q, sp_version q)).
  - cbn [of_opt rbind]. rewrite IH by (intros; apply Hi; right; assumption). reflexivity.
  - unfold dkeys. rewrite map_fst_nv. assumption.
  - change (sp_name q, (sp_name q, sp_version q)) with (nv q). apply in_map, Hi. left. reflexivity.
Qed.

Lemma py_nth_at {A} (pre : list A) x post i : i = Z.of_N (lenN pre) -> py_nth (pre ++ x :: post) i = Ok x.
Proof. intros ->. apply py_nth_mid. Qed.
Lemma assert_line_ok pre x post i : i = Z.of_N (lenN pre) -> assert_line (pre ++ x :: post) i x = Ok tt.
Proof. intros Hi. unfold assert_line. rewrite py_nth_at by assumption. cbn [rbind]. rewrite eqbR. reflexivity. Qed.

Lemma sln_text_lines eol name version s : eol_ok eol -> no_break name -> no_break version -> solution_ok languages s ->
  splitlines (nl_norm (sln_text eol name version s)) = sln_lines name version s.
Proof.
  intros He Hn Hv (H1 & H2 & H3 & H4). unfold sln_text.
  assert (HB : Forall no_break (sln_lines name version s)).
  { unfold sln_lines. apply Forall_app. split.
    - repeat (apply Forall_cons; [try assumption; try (repeat constructor; fail)|]); [apply dec_no_break | constructor].
    - apply Forall_app. split; [|apply Forall_app; split].
      + apply Forall_concat, Forall_map. eapply Forall_impl; [|exact H3]. cbn beta. intros p [Hp Hq].
        apply Forall_cons; [assumption|]; apply Forall_cons; [apply version_text_no_break; assumption|]; apply Forall_cons; [destruct (sp_required p); repeat constructor|]; apply Forall_cons; [repeat constructor | constructor].
      + constructor; [apply dec_no_break | constructor].
      + apply Forall_concat, Forall_map. apply Forall_forall. intros [l deps] Hi. rewrite Forall_forall in H4. pose proof (H4 _ Hi) as [Hl Hd]. cbn [fst snd] in *.
        apply Forall_cons; [|apply Forall_cons; [repeat constructor|]; apply Forall_cons; [apply dec_no_break|]].
        * assert (G : forallb (fun l => forallb (fun c => negb (is_break c)) l) languages = true) by reflexivity.
          rewrite forallb_forall in G. specialize (G l Hl). unfold no_break. apply Forall_forall. intros c Hc. rewrite forallb_forall in G.
          specialize (G c Hc). destruct (is_break c); [discriminate | reflexivity].
        * apply Forall_forall. intros n Hin. apply Hd in Hin. apply in_map_iff in Hin as (p & <- & Hp). rewrite Forall_forall in H3. apply H3. assumption. }
  rewrite <- (app_nil_r (concat _)). rewrite nl_norm_text; [|assumption | eapply Forall_impl; [|exact HB]; apply no_break_cr].
  rewrite splitlines_text by assumption. cbn [nl_norm splitlines]. apply app_nil_r.
Qed.

Lemma dependencies_ok eol name version s : eol_ok eol -> no_break name -> no_break version -> solution_ok languages s ->
  exists d, dependencies name version (sln_text eol name version s) = Ok d /\
    dkeys d = map (fun l => Some (fst l)) (sl_langs s) ++ [None] /\
    dget None d = Some (map (fun p => (sp_name p, sp_version p)) (filter sp_required (sl_projects s))) /\
    forall l deps, In (l, deps) (sl_langs s) ->
      exists pvs, dget (Some l) d = Some pvs /\
        Forall2 (fun n x => exists p, In p (sl_projects s) /\ sp_name p = n /\ x = (sp_name p, sp_version p)) deps pvs.
Proof.
  intros He Hn Hv Hs. pose proof (sln_text_lines eol name version s He Hn Hv Hs) as EL.
  destruct Hs as (H1 & H2 & H3 & H4). unfold dependencies. rewrite EL. clear EL.
  set (d0 := map nv (sl_projects s)).
  assert (Hd0 : NoDup (dkeys d0)) by (unfold d0, dkeys; rewrite map_fst_nv; assumption).
  assert (Hes : exists es, Forall2 (lang_entry d0) (sl_langs s) es).
  { clear H2. induction (sl_langs s) as [|[l deps] ls IH]; [exists []; constructor|]. inversion H4 as [|? ? [Ha Hb] Hc]; subst.
    destruct (IH Hc) as [es Hes]. destruct (lookup_all_ok d0 deps) as (pvs & E & _).
    - intros n Hi. unfold d0, dkeys. rewrite map_fst_nv. apply Hb. assumption.
    - assumption.
    - exists ((Some l, pvs) :: es). constructor; [split; [reflexivity | exact E] | assumption]. }
  destruct Hes as [es Hes].
  assert (Hk : dkeys es = map (fun l => Some (fst l)) (sl_langs s)).
  { clear - Hes. induction Hes as [|l e ls es [H _] _ IH]; [reflexivity|]. cbn [map dkeys] in *. unfold dkeys in IH. rewrite IH, H. reflexivity. }
  assert (Hkn : NoDup (dkeys es)).
  { rewrite Hk. rewrite <- (map_map fst Some). apply FinFun.Injective_map_NoDup; [intros a b E; congruence | assumption]. }
  assert (Hnone : dget None es = None).
  { apply dget_None. rewrite Hk. intros Hi. apply in_map_iff in Hi as (l & E & _). discriminate. }
  exists (es ++ [(None, map (fun p => (sp_name p, sp_version p)) (filter sp_required (sl_projects s)))]).
  split; [|split; [|split]].
  - set (lines := sln_lines name version s).
    assert (A0 : assert_line lines 0 (lit "RADS Solution Manifest") = Ok tt) by (apply (assert_line_ok []); reflexivity).
    assert (A1 : assert_line lines 1 (lit "1.0.0.0") = Ok tt) by (apply (assert_line_ok [lit "RADS Solution Manifest"]); reflexivity).
    assert (A2 : assert_line lines 2 name = Ok tt) by (apply (assert_line_ok [lit "RADS Solution Manifest"; lit "1.0.0.0"]); reflexivity).
    assert (A3 : assert_line lines 3 version = Ok tt) by (apply (assert_line_ok [lit "RADS Solution Manifest"; lit "1.0.0.0"; name]); reflexivity).
    assert (A4 : py_nth lines 4 = Ok (dec (lenN (sl_projects s)))) by (apply (py_nth_at [lit "RADS Solution Manifest"; lit "1.0.0.0"; name; version]); reflexivity).
    rewrite A0, A1, A2, A3, A4. cbn [rbind]. rewrite int10_dec. cbn [rbind].
    replace (Z.to_nat (Z.of_N (lenN (sl_projects s)))) with (length (sl_projects s)) by (rewrite lenN_length; lia).
    pose proof (read_projects_ok (sl_projects s) [lit "RADS Solution Manifest"; lit "1.0.0.0"; name; version; dec (lenN (sl_projects s))]
      ([dec (lenN (sl_langs s))] ++ concat (map (fun l => fst l :: lit "0" :: dec (lenN (snd l)) :: snd l) (sl_langs s))) [] []) as RP.
    rewrite <- (app_assoc _ (concat _)) in RP || idtac.
    change (Z.of_N (lenN [lit "RADS Solution Manifest"; lit "1.0.0.0"; name; version; dec (lenN (sl_projects s))])) with 5%Z in RP.
    unfold lines, sln_lines. rewrite RP by (eapply Forall_impl; [|exact H3]; cbn beta; tauto). clear RP. cbn [rbind].
    match goal with |- context [concat (map ?g (sl_projects s))] => set (blk := concat (map g (sl_projects s))) end.
    assert (Eb : lenN blk = 4 * lenN (sl_projects s)).
    { unfold blk. clear. induction (sl_projects s) as [|p ps IH]; [reflexivity|]. cbn [map concat]. rewrite lenN_app, IH, !lenN_cons. rewrite ?lenN_nil. lia. }
    set (hdr := [lit "RADS Solution Manifest"; lit "1.0.0.0"; name; version; dec (lenN (sl_projects s))]).
    assert (Eh : lenN hdr = 5) by reflexivity.
    rewrite app_assoc. change ([dec (lenN (sl_langs s))] ++ ?x) with (dec (lenN (sl_langs s)) :: x).
    rewrite py_nth_at by (rewrite lenN_app, Eb, Eh; lia). cbn [rbind]. rewrite int10_dec. cbn [rbind].
    replace (Z.to_nat (Z.of_N (lenN (sl_langs s)))) with (length (sl_langs s)) by (rewrite lenN_length; lia).
    assert (Ed : fold_left (fun d p => dset (fst p) (snd p) d) (map nv (sl_projects s)) [] = d0).
    { apply (dict_of_NoDup_id d0 Hd0). }
    rewrite Ed.
    pose proof (read_langs_ok d0 (sl_langs s) es ((hdr ++ blk) ++ [dec (lenN (sl_langs s))]) [] []) as RL.
    rewrite app_nil_r, <- (app_assoc _ [_]) in RL. cbn [app] in RL.
    replace (Z.of_N (lenN ((hdr ++ blk) ++ [dec (lenN (sl_langs s))]))) with (Z.of_N (5 + 4 * lenN (sl_projects s)) + 1)%Z in RL
      by (rewrite !lenN_app, Eb, Eh, lenN_cons; rewrite ?lenN_nil; lia).
    rewrite Eh. rewrite RL; [|eapply Forall_impl; [|exact H4]; cbn beta; tauto | assumption]. cbn [rbind].
    pose proof (lookup_required (sl_projects s) (filter sp_required (sl_projects s)) d0 eq_refl H1) as LR. unfold lookup_all in LR.
    cbn [app]. rewrite LR by (intros p Hp; apply filter_In in Hp; tauto). cbn [rbind].
    change (fold_left _ es []) with (dict_of es). rewrite dict_of_NoDup_id by assumption. rewrite dset_new by assumption. reflexivity.
  - unfold dkeys in *. rewrite map_app, Hk. reflexivity.
  - rewrite dget_app, Hnone. reflexivity.
  - intros l deps Hi. destruct (Forall2_in_l _ _ _ _ Hes Hi) as ([k pvs] & Hi2 & Ek & El). cbn [fst snd] in *. subst k.
    exists pvs. split.
    + rewrite dget_app. rewrite (dget_In_NoDup (Some l) pvs) by assumption. reflexivity.
    + unfold lookup_all in El. apply rmapM_Ok in El. eapply Forall2_weaken; [|exact El]. cbn beta. intros n x En.
      destruct (dget n d0) as [y|] eqn:Ey; [|discriminate]. cbn [of_opt] in En. injection En as ->. apply dget_Some_In in Ey.
      unfold d0 in Ey. apply in_map_iff in Ey as (p & E & Hp). unfold nv in E. exists p. split; [assumption|]. split; congruence.
Qed.

(** What is returned comes from the manifest, whatever its content. *)
Definition listed (lines : list str) (x : pv) : Prop :=
  exists i v, nth_error lines i = Some (fst x) /\ nth_error lines (S i) = Some (snd x) /\ rads_version (ArgStr (snd x)) = Ok v.
Lemma py_slice_nth {A} (l : list A) i j a b t : py_slice l i j = a :: b :: t -> exists n, nth_error l n = Some a /\ nth_error l (S n) = Some b.
Proof.
  unfold py_slice, sliceN. rewrite takeN_firstn, dropN_skipn. set (n := N.to_nat (pyidx (lenN l) i)). set (k := N.to_nat _). intros E.
  exists n. assert (El : skipn n l = a :: b :: t ++ skipn k (skipn n l)) by (rewrite <- (firstn_skipn k (skipn n l)) at 1; rewrite E; reflexivity).
  assert (G : forall m, nth_error l (n + m) = nth_error (skipn n l) m).
  { clearbody n. clear. intros m. revert l. induction n as [|n IH]; intros l; [reflexivity|]. destruct l; [destruct m; reflexivity|]. cbn [skipn plus nth_error]. apply IH. }
  pose proof (G 0%nat) as G0. pose proof (G 1%nat) as G1. rewrite El in G0, G1. cbn [nth_error] in G0, G1.
  rewrite Nat.add_0_r in G0. rewrite Nat.add_1_r in G1. auto.
Qed.
Lemma rads_version_s s v : rads_version (ArgStr s) = Ok v -> v_s v = s.
Proof.
  unfold rads_version, base_version. destruct s as [|c s]; [discriminate|]. destruct (rmapM int10 (split_ch cDot (c :: s))); cbn [rbind]; [|discriminate].
  destruct (lenN a =? 4); [|discriminate]. intros E. injection E as <-. reflexivity.
Qed.
Lemma read_projects_sound lines : forall n idx req acc idx' req' acc', Forall (fun e => listed lines (snd e)) acc ->
  read_projects n lines idx req acc = Ok (idx', req', acc') -> Forall (fun e => listed lines (snd e)) acc'.
Proof.
  induction n as [|n IH]; intros idx req acc idx' req' acc' H; cbn [read_projects]; [intros E; injection E as <- <- <-; assumption|].
  destruct (py_slice lines idx (idx + 4)) as [|name [|version [|u1 [|u2 [|]]]]] eqn:Es; try discriminate.
  destruct (int10 u1) as [z1|]; [|discriminate]. destruct (int10 u2) as [z2|]; [|discriminate]. cbn [rbind].
  match goal with |- context [rbind ?r _] => destruct r as [req1|] end; [|discriminate]. cbn [rbind].
  destruct (negb (z2 =? 0)%Z); [discriminate|]. destruct (rads_version (ArgStr version)) as [v|] eqn:Ev; [|discriminate]. cbn [rbind].
  apply IH. apply Forall_forall. intros e He. rewrite Forall_forall in H.
  assert (G : In e acc \/ e = (name, (name, v_s v))).
  { clear - He. induction acc as [|[k w] acc IH]; cbn [dset] in He.
    - destruct He as [<-|[]]. auto.
    - destruct (eqbP name k) as [<-|]; destruct He as [<-|He]; cbn [In]; auto. destruct (IH He); auto. }
  destruct G as [G| ->]; [apply H; assumption|]. cbn [snd]. apply py_slice_nth in Es as (i & E1 & E2).
  exists i, v. cbn [fst snd]. rewrite (rads_version_s _ _ Ev). auto.
Qed.
Lemma lookup_all_listed (lines : list str) d names pvs : Forall (fun e => listed lines (snd e)) d ->
  lookup_all names d = Ok pvs -> Forall (listed lines) pvs.
Proof.
  intros H E. unfold lookup_all in E. apply rmapM_Ok in E. induction E as [|n x names pvs En _ IH]; [constructor|]. constructor; [|assumption].
  destruct (dget n d) as [y|] eqn:Ey; [|discriminate]. cbn [of_opt] in En. injection En as ->. apply dget_Some_In in Ey.
  rewrite Forall_forall in H. exact (H _ Ey).
Qed.
Definition lang_sound (lines : list str) (e : option str * list pv) : Prop :=
  match fst e with Some l => In l languages | None => True end /\ Forall (listed lines) (snd e).
Lemma dset_forall {V} (P : option str * V -> Prop) k v d : Forall P d -> P (k, v) -> Forall P (dset k v d).
Proof.
  intros H Hk. induction H as [|[k1 v1] d H1 Hd IH]; cbn [dset]; [constructor; [assumption | constructor]|].
  destruct (eqbP k k1) as [<-|]; constructor; assumption.
Qed.
Lemma read_langs_sound lines d : Forall (fun e => listed lines (snd e)) d -> forall n idx acc acc',
  Forall (lang_sound lines) acc -> read_langs n lines idx d acc = Ok acc' -> Forall (lang_sound lines) acc'.
Proof.
  intros Hd. induction n as [|n IH]; intros idx acc acc' H; cbn [read_langs]; [intros E; injection E as <-; assumption|].
  destruct (py_slice lines idx (idx + 3)) as [|l [|u1 [|nd [|]]]]; try discriminate.
  destruct (int10 u1) as [z1|]; [|discriminate]. destruct (int10 nd) as [z2|]; [|discriminate]. cbn [rbind].
  destruct (negb (z1 =? 0)%Z); [discriminate|]. destruct (mem l languages) eqn:Em; [|discriminate]. cbn [negb].
  destruct (rmapM _ _) as [pvs|] eqn:Er; [|discriminate]. cbn [rbind]. apply IH. apply dset_forall; [assumption|].
  split; cbn [fst snd]; [apply mem_In; assumption|]. eapply lookup_all_listed; [exact Hd | exact Er].
Qed.
Lemma assert_line_inv lines i x : assert_line lines (Z.of_nat i) x = Ok tt -> nth_error lines i = Some x.
Proof.
  unfold assert_line, py_nth. destruct (Z.ltb_spec (Z.of_nat i) 0); [lia|]. destruct (Z.ltb_spec (Z.of_nat i) 0); [lia|].
  rewrite nthN_nth_error. replace (N.to_nat (Z.to_N (Z.of_nat i))) with i by lia.
  destruct (nth_error lines i) as [y|]; cbn [of_opt rbind]; [|discriminate]. destruct (eqb y x) eqn:E; [|discriminate].
  apply eqb_true in E. subst. reflexivity.
Qed.
Lemma dependencies_sound name version text d : dependencies name version text = Ok d ->
  let lines := splitlines (nl_norm text) in
  nth_error lines 0 = Some (lit "RADS Solution Manifest") /\ nth_error lines 1 = Some (lit "1.0.0.0") /\
  nth_error lines 2 = Some name /\ nth_error lines 3 = Some version /\
  dhas None d = true /\ Forall (lang_sound lines) d.
Proof.
  unfold dependencies. cbn zeta. set (lines := splitlines (nl_norm text)). intros E.
  apply rbind_Ok in E as ([] & E0 & E). apply rbind_Ok in E as ([] & E1 & E). apply rbind_Ok in E as ([] & E2 & E). apply rbind_Ok in E as ([] & E3 & E).
  apply rbind_Ok in E as (l4 & E4 & E). apply rbind_Ok in E as (np & E5 & E). apply rbind_Ok in E as ([[idx req] ps] & E6 & E).
  apply rbind_Ok in E as (l7 & E7 & E). apply rbind_Ok in E as (nl & E8 & E). apply rbind_Ok in E as (ls & E9 & E).
  apply rbind_Ok in E as (rq & E10 & E). injection E as <-.
  apply (assert_line_inv _ 0) in E0. apply (assert_line_inv _ 1) in E1. apply (assert_line_inv _ 2) in E2. apply (assert_line_inv _ 3) in E3.
  do 4 (split; [assumption|]). split; [unfold dhas; rewrite dget_dset_same; reflexivity|].
  apply read_projects_sound in E6; [|constructor]. apply dset_forall.
  - eapply read_langs_sound; [exact E6 | constructor | exact E9].
  - split; [exact I|]. cbn [snd]. eapply lookup_all_listed; [exact E6 | exact E10].
Qed.

(** ** Selection of projects *)
Lemma projects_all d : exists pvs, projects LTrue d = Ok pvs /\ NoDup pvs /\ forall x, In x pvs <-> exists k l, In (k, l) d /\ In x l.
Proof.
  eexists. split; [reflexivity|]. split; [apply set_of_NoDup|]. intros x. rewrite set_of_In, in_concat. split.
  - intros (l & Hl & Hx). unfold dvals in Hl. apply in_map_iff in Hl as ([k l'] & E & Hi). cbn [snd] in E. subst. eauto.
  - intros (k & l & Hi & Hx). exists l. split; [|assumption]. apply (in_map snd) in Hi. exact Hi.
Qed.
Lemma projects_many d ls : (forall l, In l ls -> dhas (Some l) d = true) ->
  exists pvs, projects (LMany ls) d = Ok pvs /\ NoDup pvs /\ forall x, In x pvs <-> exists l pl, In l ls /\ dget (Some l) d = Some pl /\ In x pl.
Proof.
  intros H. assert (G : exists pvss, rmapM (fun l => of_opt KeyError (dget (Some l) d)) ls = Ok pvss /\ Forall2 (fun l pl => dget (Some l) d = Some pl) ls pvss).
  { induction ls as [|l ls IH]; [exists []; split; [reflexivity | constructor]|]. destruct IH as (pvss & E & X); [intros; apply H; right; assumption|].
    specialize (H l (or_introl eq_refl)). unfold dhas in H. destruct (dget (Some l) d) as [pl|] eqn:El; [|discriminate].
    exists (pl :: pvss). cbn [rmapM]. rewrite El. cbn [of_opt rbind]. rewrite E. split; [reflexivity | constructor; assumption]. }
  destruct G as (pvss & E & X). cbn [projects]. rewrite E. cbn [rbind]. eexists. split; [reflexivity|]. split; [apply set_of_NoDup|].
  intros x. rewrite set_of_In, in_concat. split.
  - intros (pl & Hp & Hx). clear E H. induction X as [|l pl' ls pvss El _ IH]; [destruct Hp|]. destruct Hp as [->|Hp].
    + exists l, pl. split; [left; reflexivity | auto].
    + destruct (IH Hp) as (l' & p' & Hi & Hd & Hx'). exists l', p'. split; [right; assumption | auto].
  - intros (l & pl & Hi & Hd & Hx). destruct (Forall2_in_l _ _ _ _ X Hi) as (pl' & Hp & Hr). exists pl'. split; [assumption | congruence].
Qed.
Lemma projects_many_missing d ls l : In l ls -> dhas (Some l) d = false -> projects (LMany ls) d = Err KeyError.
Proof.
  intros Hi Hl. cbn [projects]. assert (E : rmapM (fun l => of_opt KeyError (dget (Some l) d)) ls = Err KeyError); [|rewrite E; reflexivity].
  induction ls as [|l' ls IH]; [destruct Hi|]. cbn [rmapM]. destruct (dget (Some l') d) as [pl|] eqn:El; [|reflexivity]. cbn [of_opt rbind].
  destruct Hi as [->|Hi]; [unfold dhas in Hl; rewrite El in Hl; discriminate|]. rewrite IH by assumption. reflexivity.
Qed.
