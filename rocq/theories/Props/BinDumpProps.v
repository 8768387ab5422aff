(** * C79: text dump of BIN files *)

From Verif Require Import Base.Py Base.Text Base.PyFacts Base.TextFacts Base.Bin Base.Fs Spec.FsSpec Base.FsFacts Model.Files Model.BinFile Model.Version Model.Cli Model.BinDump Spec.BinDumpSpec Proofs.BinDumpProofs
  Spec.PatchCacheSpec Proofs.PatchCacheProofs Spec.VersionSpec Props.VersionProps Props.SknCliProps.

(** Types are shown by their names. *)
Theorem C79_type v n : In (v, n) type_names -> rmap btype_name (bintype v) = Ok n.
Proof.
  assert (H : Forall (fun x => rmap btype_name (bintype (fst x)) = Ok (snd x)) type_names) by (repeat constructor).
  intros Hi. rewrite Forall_forall in H. exact (H (v, n) Hi).
Qed.
Print Assumptions C79_type.
Lemma name_line t : no_newline (btype_name t).
Proof. destruct t; vm_compute; intuition discriminate. Qed.
Lemma app_line a b : no_newline a -> no_newline b -> no_newline (a ++ b).
Proof. unfold no_newline. rewrite in_app_iff. tauto. Qed.
Ltac line := repeat match goal with |- no_newline (_ ++ _) => apply app_line end; first [assumption | apply name_line | apply hexl_not_in; [reflexivity | unfold cNL; lia] | vm_compute; intuition discriminate].

(** The types with which values that are not simple are shown in lists, options and maps. *)
Definition kind_of (v : bval) (t : btype) : Prop :=
  match v with VList _ _ => t = TList | VStruct _ _ => t = TStruct | VEmbedded _ _ => t = TEmbedded | VOption _ _ => t = TOption | VMap _ _ _ => t = TMap | _ => False end.
Theorem C79_kinds v : simple v \/ exists t, kind_of v t.
Proof. destruct v; cbn; eauto. Qed.
Print Assumptions C79_kinds.

Section C79.
  Variable printable : N -> bool.
  Variable show : N -> str.
  Variable nm : names.
  Notation value_repr := (value_repr printable show nm).
  Notation format_binvalue := (format_binvalue printable show nm).
  Notation field_repr := (field_repr printable show nm).
  Notation pfield_repr := (pfield_repr printable show nm).
  Notation entry_repr := (entry_repr printable show nm).
  Notation patch_repr := (patch_repr printable show nm).

  (** C79: strings are shown as literals, from which they can be read back. *)
  Theorem C79_literal s : code_points s -> literal (repr_str printable s) s /\ no_newline (repr_str printable s).
  Proof. intros H. split; [apply repr_literal, H | apply repr_no_newline]. Qed.
  Theorem C79_literal_unique s1 s2 : code_points s1 -> code_points s2 -> repr_str printable s1 = repr_str printable s2 -> s1 = s2.
  Proof. intros H1 H2 E. apply (literal_fun (repr_str printable s1)); [apply repr_literal, H1 | rewrite E; apply repr_literal, H2]. Qed.
  (** Double quotes are used when only single ones are in the string; characters other than these quotes, backslashes,
      control characters and those which cannot be printed are shown as themselves. *)
  Theorem C79_quotes s : exists q t, repr_str printable s = [q] ++ t ++ [q] /\
    (In 39 s /\ ~ In 34 s -> q = 34) /\ (~ In 39 s \/ In 34 s -> q = 39) /\
    (Forall (fun c => c <> q /\ c <> 92 /\ 32 <= c /\ c <> 127 /\ (128 <= c -> printable c = true)) s -> t = s).
  Proof.
    exists (repr_quote s), (flat_map (repr_char printable (repr_quote s)) s). split; [reflexivity|]. unfold repr_quote at 1 2. split; [|split].
    - intros [H1 H2]. apply mem_In in H1. rewrite H1. destruct (mem 34 s) eqn:E; [apply mem_In in E; contradiction | reflexivity].
    - intros [H|H]; [destruct (mem 39 s) eqn:E; [apply mem_In in E; contradiction | reflexivity] | apply mem_In in H; rewrite H; destruct (mem 39 s); reflexivity].
    - generalize (repr_quote s). intros q H. induction H as [|c s' (H1 & H2 & H3 & H4 & H5) _ IH]; [reflexivity|]. cbn [flat_map]. rewrite IH. unfold repr_char.
      rewrite (proj2 (N.eqb_neq _ _) H1), (proj2 (N.eqb_neq _ _) H2). cbn [orb].
      rewrite (proj2 (N.eqb_neq c 9)), (proj2 (N.eqb_neq c 10)), (proj2 (N.eqb_neq c 13)) by lia. rewrite (proj2 (N.ltb_ge c 32)) by lia. rewrite (proj2 (N.eqb_neq _ _) H4). cbn [orb].
      destruct (c <? 127) eqn:E; [reflexivity|]. apply N.ltb_ge in E. rewrite H5 by lia. reflexivity.
  Qed.
  Lemma hash_repr_shown w known h : (forall s, known h = Some s -> code_points s) -> hash_shown w known h (hash_repr printable w known h) /\ no_newline (hash_repr printable w known h).
  Proof.
    intros H. unfold hash_shown, hash_repr. destruct (known h) as [s|]; [apply C79_literal, H, eq_refl|]. split; [reflexivity|].
    line.
  Qed.
  Lemma hash_str_line w known h : line_names known -> no_newline (hash_str w known h).
  Proof. intros H. unfold hash_str. destruct (known h) as [s|] eqn:E; [exact (proj1 (H h s E))|]. line. Qed.

  (** C79: simple values, on one line when floats are. *)
  Definition valid_names := (forall h s, n_hash nm h = Some s -> code_points s) /\ (forall h s, n_path nm h = Some s -> code_points s) /\ (forall h s, n_entry nm h = Some s -> code_points s).
  Theorem C79_simple v : valid_names -> text_points v -> simple v -> shown show nm v (value_repr v).
  Proof.
    intros (H1 & H2 & H3) Hp Hs. destruct v; try destruct Hs; unfold BinDump.value_repr; cbn [atom_repr]; try (constructor; fail).
    - destruct b; constructor.
    - constructor. apply C79_literal, Hp.
    - constructor. apply hash_repr_shown. intros s. apply H1.
    - constructor. apply hash_repr_shown. intros s. apply H2.
    - constructor. apply hash_repr_shown. intros s. apply H3.
  Qed.
  Theorem C79_simple_field t v : simple v -> format_binvalue t v = btype_name t ++ lit " " ++ value_repr v.
  Proof. intros Hs. destruct v; try destruct Hs; reflexivity. Qed.
  (** C79: keys of maps are shown without quotes nor escapes. *)
  Theorem C79_key k : valid_names -> text_points k -> simple k -> key_shown show nm k (key_str printable show nm k).
  Proof.
    intros H Hp Hs. unfold key_str. destruct k; try destruct Hs; try (apply ks_other; [exact Logic.I | exact (C79_simple _ H Hp Logic.I)]); cbn [atom_str]; constructor.
  Qed.

  (** C79: lines of nested values; items of lists and structures are on their own lines, indented by two more spaces. *)
  Theorem C79_value v t : kind_of v t -> lines (value_repr v) = ending (leading (lit "<") (lines (format_binvalue t v))) (lit ">").
  Proof.
    intros Hs. assert (E : value_repr v = lit "<" ++ format_binvalue t v ++ lit ">") by (destruct v; cbn in Hs; try contradiction; subst t; reflexivity).
    rewrite E, lines_leading by line. rewrite lines_ending by line. symmetry. apply ending_leading, lines_nonempty.
  Qed.
  Theorem C79_field n t v : line_names (n_field nm) -> lines (field_repr (n, t, v)) = ending (leading (lit "<" ++ hash_str 8 (n_field nm) n ++ lit " ") (lines (format_binvalue t v))) (lit ">").
  Proof.
    intros H. pose proof (hash_str_line 8 _ n H) as Hn. unfold BinDump.field_repr.
    replace (lit "<" ++ hash_str 8 (n_field nm) n ++ lit " " ++ format_binvalue t v ++ lit ">") with ((lit "<" ++ hash_str 8 (n_field nm) n ++ lit " ") ++ format_binvalue t v ++ lit ">") by (rewrite <- !app_assoc; reflexivity).
    rewrite lines_leading by line. rewrite lines_ending by line. symmetry. apply ending_leading, lines_nonempty.
  Qed.
  Theorem C79_list t vt vs : lines (format_binvalue t (VList vt vs)) = leading (btype_name t ++ lit "(" ++ btype_name vt ++ lit ") ") (block (map (fun v => lines (value_repr v)) vs)).
  Proof.
    cbn [BinDump.format_binvalue]. rewrite <- (map_map value_repr lines). rewrite <- lines_indent_list, <- lines_leading by line. rewrite <- !app_assoc. reflexivity.
  Qed.
  Theorem C79_struct h fs : h <> 0 -> line_names (n_type nm) ->
    lines (format_binvalue TStruct (VStruct h fs)) = leading (lit "STRUCT " ++ hash_str 8 (n_type nm) h ++ lit " ") (block (map (fun f => lines (field_repr f)) fs)).
  Proof.
    intros Hh H. pose proof (hash_str_line 8 _ h H) as Hn. cbn [BinDump.format_binvalue]. rewrite (proj2 (N.eqb_neq h 0) Hh). rewrite <- (map_map field_repr lines). rewrite <- lines_indent_list, <- lines_leading by line. rewrite <- !app_assoc. reflexivity.
  Qed.
  Theorem C79_null fs : format_binvalue TStruct (VStruct 0 fs) = lit "STRUCT None".
  Proof. reflexivity. Qed.
  Theorem C79_embedded h fs : line_names (n_type nm) ->
    lines (format_binvalue TEmbedded (VEmbedded h fs)) = leading (lit "EMBEDDED " ++ hash_str 8 (n_type nm) h ++ lit " ") (block (map (fun f => lines (field_repr f)) fs)).
  Proof.
    intros H. pose proof (hash_str_line 8 _ h H) as Hn. cbn [BinDump.format_binvalue]. rewrite <- (map_map field_repr lines). rewrite <- lines_indent_list, <- lines_leading by line. rewrite <- !app_assoc. reflexivity.
  Qed.
  Theorem C79_none t vt : format_binvalue t (VOption vt None) = lit "OPTION(" ++ btype_name vt ++ lit ") None".
  Proof. cbn [BinDump.format_binvalue]. rewrite <- app_assoc || idtac. reflexivity. Qed.
  Theorem C79_some t vt v : lines (format_binvalue t (VOption vt (Some v))) = leading (lit "OPTION(" ++ btype_name vt ++ lit ") ") (lines (value_repr v)).
  Proof. cbn [BinDump.format_binvalue]. rewrite <- lines_leading by line. rewrite <- !app_assoc. reflexivity. Qed.
  Lemma key_inline k : match atom_str printable show nm k with Some s => s | None => lit "<" ++ format_binvalue (own_type k) k ++ lit ">" end = key_str printable show nm k.
  Proof. destruct k; reflexivity. Qed.
  (** C79: items of maps, when keys are on one line. *)
  Theorem C79_map t kt vt d : (forall k v, In (k, v) d -> no_newline (key_str printable show nm k)) ->
    lines (format_binvalue t (VMap kt vt d)) = [lit "MAP(" ++ btype_name kt ++ lit "," ++ btype_name vt ++ lit ") {"] ++
      concat (map (fun kv => indented (leading (key_str printable show nm (fst kv) ++ lit " => ") (lines (value_repr (snd kv))))) d) ++ [lit "}"].
  Proof.
    intros H. cbn [BinDump.format_binvalue]. set (X := flat_map _ d).
    replace (lit "MAP(" ++ btype_name kt ++ lit "," ++ btype_name vt ++ lit ") {" ++ [cNL] ++ X ++ lit "}") with ((lit "MAP(" ++ btype_name kt ++ lit "," ++ btype_name vt ++ lit ") {") ++ cNL :: (X ++ lit "}")) by (rewrite <- !app_assoc; reflexivity).
    rewrite lines_app. rewrite (lines_one (lit "MAP(" ++ _)) by line. f_equal. subst X. revert H. induction d as [|[k v] d IH]; intros H; [reflexivity|]. cbn [flat_map map concat fst snd]. rewrite <- !app_assoc. rewrite <- IH by (intros k' v' Hi; apply (H k' v'); right; exact Hi).
    set (X := flat_map _ d ++ lit "}"). pose proof (H k v (or_introl eq_refl)) as Hk.
    assert (E : forall K, lit "  " ++ K ++ lit " => " ++ indent (value_repr v) ++ [cNL] ++ X = (lit "  " ++ K ++ lit " => " ++ indent (value_repr v)) ++ cNL :: X) by (intros K; rewrite <- !app_assoc; reflexivity).
    rewrite key_inline. change (lines (lit "  " ++ key_str printable show nm k ++ lit " => " ++ indent (value_repr v) ++ [cNL] ++ X) = indented (leading (key_str printable show nm k ++ lit " => ") (lines (value_repr v))) ++ lines X).
    rewrite E, lines_app. f_equal. rewrite <- lines_leading by line.
    assert (Ei : forall a b, no_newline a -> indent (a ++ b) = a ++ indent b).
    { intros a b Ha. unfold indent. rewrite flat_map_app. f_equal. clear -Ha. induction a as [|c a IH]; [reflexivity|]. cbn [flat_map]. destruct (N.eqb_spec c cNL) as [->|_]; [exfalso; apply Ha; left; reflexivity|]. cbn [app]. f_equal. apply IH. intros Hi. apply Ha. right. exact Hi. }
    rewrite <- lines_indent, Ei by line. rewrite <- !app_assoc. reflexivity.
  Qed.

  (** C79: entries are shown as blocks of their fields. *)
  Lemma valid_entry h : valid_names -> forall s, n_entry nm h = Some s -> code_points s.
  Proof. intros (_ & _ & H) s. apply H. Qed.
  Theorem C79_entry e : line_names (n_type nm) -> valid_names -> exists p, hash_shown 8 (n_entry nm) (be_path e) p /\
    lines (entry_repr e) = ending (leading (lit "<BinEntry " ++ p ++ lit " " ++ hash_str 8 (n_type nm) (be_type e) ++ lit " ") (block (map (fun f => lines (field_repr f)) (be_fields e)))) (lit ">").
  Proof.
    intros H Hv. destruct (hash_repr_shown 8 (n_entry nm) (be_path e) (valid_entry _ Hv)) as [Hp Hl]. pose proof (hash_str_line 8 _ (be_type e) H) as Hn. eexists. split; [exact Hp|].
    unfold BinDump.entry_repr. rewrite <- (map_map field_repr lines). rewrite <- lines_indent_list, <- lines_leading by line. rewrite <- lines_ending by line. rewrite <- !app_assoc. reflexivity.
  Qed.
  Theorem C79_patch b : valid_names -> exists p, hash_shown 8 (n_entry nm) (fst b) p /\
    lines (patch_repr b) = ending (leading (lit "<BinPatchEntry " ++ p ++ lit " ") (block (map (fun f => lines (pfield_repr f)) (snd b)))) (lit ">").
  Proof.
    intros Hv. destruct (hash_repr_shown 8 (n_entry nm) (fst b) (valid_entry _ Hv)) as [Hp Hl]. eexists. split; [exact Hp|].
    unfold BinDump.patch_repr. rewrite <- (map_map pfield_repr lines). rewrite <- lines_indent_list, <- lines_leading by line. rewrite <- lines_ending by line. rewrite <- !app_assoc. reflexivity.
  Qed.

  (** C79: whatever the values, the lines of a dump that are not indented are exactly the first and last lines of the entries, in order. *)
  Theorem C79_dump b : line_names (n_type nm) -> valid_names -> exists ls m1 m2 m3, complete_lines ls (dump printable show nm b) /\
    filter (fun l => negb (is_indented l)) ls = m1 ++ concat m2 ++ concat m3 /\
    match bf_linked b with Some l => linked_marks l m1 | None => m1 = [] end /\
    Forall2 (entry_marks nm) (bf_entries b) m2 /\
    match bf_patches b with Some l => Forall2 (patch_marks nm) l m3 | None => m3 = [] end.
  Proof.
    intros H Hv.
    assert (P3 : exists ls m3, complete_lines ls (match bf_patches b with Some l => flat_map (fun p => patch_repr p ++ [cNL]) l | None => [] end) /\ filter (fun l => negb (is_indented l)) ls = concat m3 /\
      match bf_patches b with Some l => Forall2 (patch_marks nm) l m3 | None => m3 = [] end).
    { destruct (bf_patches b) as [l|]; [|exists [], []; split; [split; [constructor | reflexivity] | auto]]. induction l as [|p l (ls & m3 & H1 & H2 & H3)]; [exists [], []; split; [split; [constructor | reflexivity] | auto]|].
      exists (lines (patch_repr p) ++ ls). destruct (hash_repr_shown 8 (n_entry nm) (fst p) (valid_entry _ Hv)) as [Hp Hl]. set (head := lit "<BinPatchEntry " ++ hash_repr printable 8 (n_entry nm) (fst p) ++ lit " ").
      exists (marks head (snd p) :: m3). cbn [flat_map]. rewrite <- app_assoc. split; [apply complete_one, H1|]. cbn [concat]. rewrite filter_app, H2. split; [|constructor; [eexists; split; [exact Hp | reflexivity] | exact H3]]. f_equal.
      rewrite <- (block_marks pfield_repr head (snd p)); [unfold BinDump.patch_repr, head; rewrite <- !app_assoc; reflexivity | vm_compute; discriminate | unfold head; line]. }
    assert (P2 : forall rest ls3 m3, complete_lines ls3 rest -> filter (fun l => negb (is_indented l)) ls3 = m3 -> exists ls m2, complete_lines ls (flat_map (fun e => entry_repr e ++ [cNL]) (bf_entries b) ++ rest) /\
      filter (fun l => negb (is_indented l)) ls = concat m2 ++ m3 /\ Forall2 (entry_marks nm) (bf_entries b) m2).
    { intros rest ls3 m3 H1 H2. induction (bf_entries b) as [|e l (ls & m2 & G1 & G2 & G3)]; [exists ls3, []; auto|].
      exists (lines (entry_repr e) ++ ls). destruct (hash_repr_shown 8 (n_entry nm) (be_path e) (valid_entry _ Hv)) as [Hp Hl]. pose proof (hash_str_line 8 _ (be_type e) H) as Hn.
      set (head := lit "<BinEntry " ++ hash_repr printable 8 (n_entry nm) (be_path e) ++ lit " " ++ hash_str 8 (n_type nm) (be_type e) ++ lit " ").
      exists (marks head (be_fields e) :: m2). cbn [flat_map]. rewrite <- !app_assoc. split; [apply complete_one, G1|]. cbn [concat]. rewrite filter_app, G2, <- app_assoc. split; [|constructor; [eexists; split; [exact Hp | reflexivity] | exact G3]]. f_equal.
      rewrite <- (block_marks field_repr head (be_fields e)); [unfold BinDump.entry_repr, head; rewrite <- !app_assoc; reflexivity | vm_compute; discriminate | unfold head; line]. }
    destruct P3 as (ls3 & m3 & H1 & H2 & H3). destruct (P2 _ ls3 (concat m3) H1 H2) as (ls & m2 & G1 & G2 & G3). unfold dump. destruct (bf_linked b) as [l|].
    - exists (lines (lit "<Linked: " ++ indent_list (map (repr_str printable) l) ++ lit ">") ++ ls), (marks (lit "<Linked: ") l), m2, m3. split.
      + assert (E : forall a b c y : str, (a ++ b ++ c ++ [cNL]) ++ y = (a ++ b ++ c) ++ [cNL] ++ y) by (intros; rewrite <- !app_assoc; reflexivity). rewrite E. apply complete_one, G1.
      + rewrite filter_app, G2, block_marks; [split; [reflexivity | split; [reflexivity | split; [exact G3 | exact H3]]] | vm_compute; discriminate | vm_compute; intuition discriminate].
    - exists ls, [], m2, m3. auto.
  Qed.

  (** C79: the command writes nothing; what it prints is the dump of the file, read with the version which was given. *)
  Variable limit : nat.
  Variable cwd : path.
  Variable json : pyval -> result str.
  Notation command := (command_bin_dump printable show nm limit cwd json).
  Definition parsed_with (n : Z) (data : bytes) (b : binfile) : Prop := prun (read_binfile (if (n =? 0)%Z then 1008%Z else n) limit) data = Ok b.
  Definition printed (as_json : bool) (b : binfile) (out : str) : Prop := if as_json then exists p, ser_file nm b = Ok p /\ json p = Ok out else out = dump printable show nm b.
  Lemma version_asked version n :
    (let! v := patch_version (ArgStr match version with Some (c :: v) => c :: v | _ => lit "main" end) in as_int v) = Ok n <-> asked_version version n.
  Proof.
    split.
    - intros E. destruct version as [[|c v]|]; [injection E as <-; constructor | | injection E as <-; constructor]. apply rbind_Ok in E as (p & E1 & E2). destruct (eqbP (c :: v) (lit "main")) as [Em|Em].
      { rewrite Em in E1. injection E1 as <-. injection E2 as <-. rewrite Em. constructor. }
      pose proof (C02_patch_any_string _ _ E1 Em) as (x & y & rest & a & b & H1 & H2 & H3 & H4 & H5). unfold as_int in E2. rewrite H5 in E2. injection E2 as <-. eapply av_patch; eassumption.
    - intros H. inversion H as [| | |s x y rest a b Hm H1 H2 H3 H4]; subst; try reflexivity. destruct s as [|c s].
      { vm_compute in H1. discriminate. }
      unfold patch_version. match goal with |- context [eqb ?x ?y] => replace (eqb x y) with false by (symmetry; apply eqbF; exact Hm) end. unfold base_version. rewrite H1.
      assert (Hr : exists ns, rmapM int10 rest = Ok ns).
      { clear -H4. induction H4 as [|z rest [n Hn] _ [ns IH]]; [exists []; reflexivity|]. exists (n :: ns). cbn [rmapM]. rewrite Hn. cbn [rbind]. rewrite IH. reflexivity. }
      destruct Hr as [ns Hr]. cbn [rmapM]. rewrite H2. cbn [rbind]. rewrite H3. cbn [rbind]. rewrite Hr. cbn [rbind].
      rewrite !lenN_length. destruct ns as [|m ns]; [reflexivity|]. replace (2 <? N.of_nat (length (a :: b :: m :: ns))) with true by (symmetry; apply N.ltb_lt; cbn [length]; lia).
      reflexivity.
  Qed.
  Theorem C79_missing s version as_json f : (forall data, ~ has_content cwd f s data) -> run (command s version as_json) [] f = (Raised SysExit, [], f).
  Proof.
    intros H. unfold command_bin_dump, isfile, query. cbn [bind run]. destruct (f_isfile cwd s f) eqn:E; [|reflexivity]. apply isfile_content in E as [data E]. destruct (H data E).
  Qed.
  Theorem C79_command s version as_json pl f o pl' f' : run (command s version as_json) pl f = (o, pl', f') ->
    f' = f /\ forall out, o = Done out -> exists data n b, has_content cwd f s data /\ asked_version version n /\ parsed_with n data b /\ printed as_json b out.
  Proof.
    assert (L : forall {A B} (r : result A) (k : A -> prog B) pl g, run (let~ x := lift r in k x) pl g = match r with Ok x => run (k x) pl g | Err e => (Raised e, pl, g) end) by (intros A B [x|e] k pl0 g; reflexivity).
    unfold command_bin_dump. rewrite run_bind. destruct (run (isfile cwd s) pl f) as [[o1 pl1] f1] eqn:E1.
    assert (f1 = f /\ (o1 = Done (f_isfile cwd s f) \/ o1 = Crashed)) as [-> Ho] by (revert E1; unfold isfile, query; cbn [run]; destruct pl as [|[[e n|n]|] pl]; cbn [run]; intros E; injection E as <- <- <-; auto).
    destruct Ho as [-> | ->]; [|intros E; injection E as <- <- <-; split; [reflexivity | discriminate]].
    destruct (f_isfile cwd s f); cbn [negb]; [|cbn [run]; intros E; injection E as <- <- <-; split; [reflexivity | discriminate]].
    rewrite L. destruct (patch_version _) as [v|e] eqn:Ev; [|intros E; injection E as <- <- <-; split; [reflexivity | discriminate]].
    rewrite L. destruct (as_int v) as [n|e] eqn:En; [|intros E; injection E as <- <- <-; split; [reflexivity | discriminate]].
    assert (Hv : asked_version version n) by (apply version_asked; exact (eq_trans (f_equal (fun r => rbind r as_int) Ev) En)).
    rewrite run_bind. destruct (run (read_file cwd s) pl1 f) as [[[data|e|] pl2] f2] eqn:E2; [|apply read_fs in E2; subst f2; intros E; injection E as <- <- <-; split; [reflexivity | discriminate]..].
    apply read_done in E2 as [-> Hc]. rewrite L. destruct (prun _ data) as [b|e] eqn:Eb; [|intros E; injection E as <- <- <-; split; [reflexivity | discriminate]].
    destruct as_json.
    - destruct (ser_file nm b) as [p|e] eqn:Ep; cbn [rbind]; [|cbn [lift run]; intros E; injection E as <- <- <-; split; [reflexivity | discriminate]].
      destruct (json p) as [t|e] eqn:Et; cbn [lift run]; intros E; injection E as <- <- <-; split; try reflexivity; try discriminate. intros out Eo. injection Eo as <-. exists data, n, b. repeat split; try assumption. exists p. auto.
    - cbn [run]. intros E. injection E as <- <- <-. split; [reflexivity|]. intros out Eo. injection Eo as <-. exists data, n, b. repeat split; assumption.
  Qed.
  Theorem C79_prints s version as_json f data n b out : has_content cwd f s data -> asked_version version n -> parsed_with n data b -> printed as_json b out ->
    run (command s version as_json) [] f = (Done out, [], f).
  Proof.
    intros Hc Hv Hb Ho. unfold command_bin_dump, isfile, query. cbn [bind run]. rewrite (proj2 (isfile_content cwd f s)) by eauto. cbn [negb]. apply version_asked in Hv. apply rbind_Ok in Hv as (v & Hp & Hn). match goal with |- context [patch_version ?x] => replace (patch_version x) with (Ok v) by (symmetry; exact Hp) end. cbn [lift bind]. rewrite Hn. cbn [lift bind].
    rewrite run_bind. destruct Hc as (p & Ep & El). assert (Er : run (read_file cwd s) [] f = (Done data, [], f)) by (unfold read_file, sys, sys_part; cbn [run]; rewrite Ep; cbn [rbind]; rewrite El; reflexivity).
    rewrite Er, run_bind. unfold parsed_with in Hb. unfold reader_version. rewrite Hb. cbn [lift run]. destruct as_json; [|rewrite Ho; reflexivity].
    destruct Ho as (q & -> & Hj). cbn [rbind]. rewrite Hj. reflexivity.
  Qed.
End C79.
Print Assumptions C79_literal_unique.
Print Assumptions C79_literal.
Print Assumptions C79_quotes.
Example C79_quotes_ex : repr_str (fun _ => true) (lit "it's") = [34] ++ lit "it's" ++ [34] /\ repr_str (fun _ => true) (lit "its") = lit "'its'".
Proof. split; reflexivity. Qed.
Print Assumptions C79_simple.
Print Assumptions C79_simple_field.
Print Assumptions C79_key.
Print Assumptions C79_value.
Print Assumptions C79_field.
Print Assumptions C79_list.
Print Assumptions C79_struct.
Print Assumptions C79_null.
Print Assumptions C79_embedded.
Print Assumptions C79_none.
Print Assumptions C79_some.
Print Assumptions C79_map.
Print Assumptions C79_entry.
Print Assumptions C79_patch.
Print Assumptions C79_dump.
Print Assumptions C79_missing.
Print Assumptions C79_command.
Print Assumptions C79_prints.

(** ** Examples and refutations *)
Local Definition pr : N -> bool := fun _ => true.
Local Definition sh : N -> str := fun n => dec n ++ lit ".0".
Local Definition nms : names :=
  {| n_hash := fun _ => None; n_path := fun _ => None; n_entry := fun h => if h =? 1 then Some (lit "it's") else None;
     n_type := fun h => if h =? 2 then Some (lit "Champ") else None; n_field := fun h => if h =? 3 then Some (lit "mName") else if h =? 4 then Some (lit "mHealth") else None |}.
Local Definition vmap := VMap TString TU8 [(VStr (lit "a"), VInt 1)].
Local Definition sample : binfile :=
  {| bf_patch := true; bf_version := 3; bf_linked := Some [lit "x.bin"]; bf_patches := Some [(5, [(lit "a.b", TBool, VBool true)])];
     bf_entries := [{| be_path := 1; be_type := 2; be_fields := [(3, TString, VStr (lit "a" ++ [cNL])); (4, TList2, VList TMap [vmap]); (9, TStruct, VStruct 0 [])] |}] |}.
Local Definition text (l : list str) : str := flat_map (fun s => s ++ [cNL]) l.
Local Definition plain (s : str) : bool := forallb (fun c => negb (c =? cNL) && (c <? 0x110000)) s.
Lemma plain_line s : plain s = true -> no_newline s /\ code_points s.
Proof.
  unfold plain, no_newline, code_points. rewrite forallb_forall, Forall_forall. intros H. split.
  - intros Hi. specialize (H _ Hi). discriminate.
  - intros c Hi. apply H in Hi. apply andb_prop in Hi as [_ Hi]. apply N.ltb_lt, Hi.
Qed.
Example C79_example_names : line_names (n_type nms) /\ line_names (n_field nms) /\ valid_names nms.
Proof.
  split; [|split; [|split; [|split]]]; intros h s; cbn [nms n_hash n_path n_entry n_type n_field].
  - destruct (h =? 2); intros E; [|discriminate]. injection E as <-. apply plain_line. reflexivity.
  - destruct (h =? 3); intros E; [|destruct (h =? 4); [|discriminate]]; injection E as <-; apply plain_line; reflexivity.
  - discriminate.
  - discriminate.
  - destruct (h =? 1); intros E; [|discriminate]. injection E as <-. apply plain_line. reflexivity.
Qed.
Example C79_example_dump : dump pr sh nms sample = text
  [lit "<Linked: ["; lit "  'x.bin'"; lit "]>";
   lit "<BinEntry ""it's"" Champ ["; lit "  <mName STRING 'a\n'>"; lit "  <mHealth LIST2(MAP) ["; lit "    <MAP(STRING,U8) {"; lit "      a => 1"; lit "    }>"; lit "  ]>";
   lit "  <{00000009} STRUCT None>"; lit "]>";
   lit "<BinPatchEntry {00000005} ["; lit "  <a.b BOOL True>"; lit "]>"].
Proof. vm_compute. reflexivity. Qed.
Example C79_example_float : format_binvalue pr sh nms TVec2 (VVec [1; 2]) = lit "VEC2_FLOAT (1.0, 2.0)".
Proof. reflexivity. Qed.
Example C79_example_version : asked_version (Some (lit "10.23")) 1023 /\ asked_version (Some []) 9999.
Proof. split; [refine (av_patch (lit "10.23") (lit "10") (lit "23") [] 10 23 _ _ _ _ _); [discriminate | reflexivity | reflexivity | reflexivity | constructor] | constructor]. Qed.
(** A patcher file with one entry and no field. *)
Local Definition small : bytes := bl "PROP" ++ leenc 4 1 ++ leenc 4 1 ++ leenc 4 2 ++ leenc 4 6 ++ leenc 4 1 ++ leenc 2 0.
Local Definition fsd : fs := [([lit "x.bin"], NFile small)].
Example C79_example_command : run (command_bin_dump pr sh nms 100 [] (fun _ => Ok []) (lit "x.bin") None false) [] fsd = (Done (text [lit "<BinEntry ""it's"" Champ []>"]), [], fsd).
Proof. vm_compute. reflexivity. Qed.
Example C79_example_missing : run (command_bin_dump pr sh nms 100 [] (fun _ => Ok []) (lit "y.bin") None false) [] fsd = (Raised SysExit, [], fsd).
Proof. vm_compute. reflexivity. Qed.

(** Not true: different entries have different dumps.  Keys of maps are shown without quotes nor escapes, so that a key of two lines forges
    the end of its map and another field. *)
Local Definition forging : bentry := {| be_path := 1; be_type := 2; be_fields := [(3, TMap, VMap TString TU8
  [(VStr (lit "a => 1" ++ [cNL] ++ lit "}>" ++ [cNL] ++ lit "<mHealth MAP(STRING,U8) {" ++ [cNL] ++ lit "  b"), VInt 2)])] |}.
Local Definition forged : bentry := {| be_path := 1; be_type := 2; be_fields := [(3, TMap, vmap); (4, TMap, VMap TString TU8 [(VStr (lit "b"), VInt 2)])] |}.
Theorem C79_forged_refuted : exists e1 e2, be_fields e1 <> be_fields e2 /\ length (be_fields e1) <> length (be_fields e2) /\ entry_repr pr sh nms e1 = entry_repr pr sh nms e2.
Proof. exists forging, forged. split; [discriminate | split; [discriminate | vm_compute; reflexivity]]. Qed.
Print Assumptions C79_forged_refuted.
(** Not true: the type of a list is shown.  A nested list of the second type is shown as one of the first type. *)
Theorem C79_list2_refuted : exists t1 t2 v, t1 <> t2 /\ entry_repr pr sh nms {| be_path := 1; be_type := 2; be_fields := [(3, TOption, VOption t1 (Some v))] |} <> entry_repr pr sh nms {| be_path := 1; be_type := 2; be_fields := [(3, TOption, VOption t2 (Some v))] |} /\
  value_repr pr sh nms v = lit "<LIST(U8) []>" /\ format_binvalue pr sh nms t2 v = lit "LIST2(U8) []".
Proof. exists TList, TList2, (VList TU8 []). repeat split; vm_compute; discriminate. Qed.
Print Assumptions C79_list2_refuted.
(** Not true: different values are shown differently; a known link is shown as the string of its name. *)
Theorem C79_hash_as_string_refuted : exists v1 v2, v1 <> v2 /\ value_repr pr sh nms v1 = value_repr pr sh nms v2.
Proof. exists (VLink 1), (VStr (lit "it's")). split; [discriminate | vm_compute; reflexivity]. Qed.
Print Assumptions C79_hash_as_string_refuted.
