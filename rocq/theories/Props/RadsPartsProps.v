(** * C76: component strings, order and listing of the parts of a RADS storage *)

From Verif Require Import Base.Py Base.Text Base.Lines Base.Fs Model.Version Model.Storage Model.Files Model.RadsParts
  Spec.VersionSpec Spec.ComponentSpec Spec.RadsPartsSpec Proofs.RadsPartsProofs Proofs.ReleasesProofs.
From Verif Require Import Base.PyFacts.
From Coq Require Import Permutation Sorted.

Section C76.
  Variable word : N -> bool.
  Hypothesis W : word_class word.
  Variable get_text : str -> result str.
  Variable listing : list element.
  Local Notation parse := (parse_rads_component word get_text listing).

  (** C76: the regular expression accepts exactly the texts of components, with a single reading. *)
  Theorem C76_grammar c typ name ver : match_rads word c = Some (typ, name, ver) <-> rads_text word typ name ver c.
  Proof. exact (match_rads_iff word W c typ name ver). Qed.

  (** C76: anything else is refused. *)
  Theorem C76_refused c : (forall typ name ver, ~ rads_text word typ name ver c) -> parse c = Err ValueError.
  Proof. intros H. unfold parse_rads_component. rewrite (proj2 (match_rads_none word W c) H). reflexivity. Qed.

  (** C76: every accepted component names a project, a solution or a patch. *)
  Theorem C76_kind c typ name ver : rads_text word typ name ver c -> exists k, kind_of typ name k.
  Proof. intros H. apply kind_of_total. apply H. Qed.

  (** C76: without version, the project or solution itself; a patch needs one. *)
  Theorem C76_bare c typ name k : rads_text word typ name None c -> kind_of typ name k ->
    parse c = match k with KProject => Ok (OProject name) | KSolution => Ok (OSolution name) | KPatch => Err ValueError end.
  Proof. intros Ht Hk. rewrite (parse_kind word W get_text listing _ _ _ _ _ Ht Hk). destruct k; reflexivity. Qed.

  (** C76: with numbers, the version with these numbers and this text when there are four; patches are searched by the text. *)
  Theorem C76_numbers c typ name v ns k : rads_text word typ name (Some v) c -> numbers_text ns v -> kind_of typ name k ->
    match k with
    | KPatch => parse c = rmap OPatch (storage_patch (Some v) listing)
    | _ => (length ns = 4%nat ->
             parse c = Ok (match k with KProject => OProjectVersion | _ => OSolutionVersion end (name, {| v_s := v; v_t := VNum (map value ns) |}))) /\
           (length ns <> 4%nat -> parse c = Err AssertionError)
    end.
  Proof.
    intros Ht Hn Hk. rewrite (parse_kind word W get_text listing _ _ _ _ _ Ht Hk). pose proof (numbers_nonempty ns v Hn) as Hv. pose proof (numbers_version ns v Hn) as E.
    destruct v as [|x v]; [congruence|]. destruct k; [| |reflexivity]; rewrite E; (split; intros Hl; [rewrite Hl; reflexivity | apply PeanoNat.Nat.eqb_neq in Hl; rewrite Hl; reflexivity]).
  Qed.

  (** C76: "main" is accepted by the expression, but only patches have such a version. *)
  Theorem C76_main c typ name k : rads_text word typ name (Some (lit "main")) c -> kind_of typ name k ->
    parse c = match k with KPatch => rmap OPatch (storage_patch (Some (lit "main")) listing) | _ => Err ValueError end.
  Proof. intros Ht Hk. rewrite (parse_kind word W get_text listing _ _ _ _ _ Ht Hk). destruct k; reflexivity. Qed.

  (** C76: an empty version of a solution is the newest one of its release listing, whatever the order of the lines. *)
  Theorem C76_newest c typ name o : rads_text word typ name (Some []) c -> kind_of typ name KSolution ->
    (parse c = Ok o <-> exists t vs v, get_text (lit "solutions/" ++ name ++ lit "/releases/releaselisting") = Ok t /\ listed t vs /\
                                       first_newest vs v /\ o = OSolutionVersion (name, v)).
  Proof. exact (latest_solution word W get_text listing typ name c o). Qed.

  (** C76: an empty version of a project is the first line of its release listing. *)
  Theorem C76_first c typ name o : rads_text word typ name (Some []) c -> kind_of typ name KProject ->
    (parse c = Ok o <-> exists t v vs, get_text (lit "projects/" ++ name ++ lit "/releases/releaselisting") = Ok t /\ listed t (v :: vs) /\
                                       o = OProjectVersion (name, v)).
  Proof. exact (latest_project word W get_text listing typ name c o). Qed.

  (** C76: an empty version of a patch is the latest patch. *)
  Theorem C76_patch c typ name : rads_text word typ name (Some []) c -> kind_of typ name KPatch -> parse c = rmap OPatch (storage_patch None listing).
  Proof. intros Ht Hk. exact (parse_kind word W get_text listing _ _ _ _ _ Ht Hk). Qed.

  (** C76: a version written with its type is read back. *)
  Theorem C76_written name v ns : name <> [] -> Forall (fun x => word x = true) name -> numbers_text ns v -> length ns = 4%nat ->
    parse (lit "s:" ++ name ++ lit "=" ++ v) = Ok (OSolutionVersion (name, {| v_s := v; v_t := VNum (map value ns) |})) /\
    parse (lit "p:" ++ name ++ lit "=" ++ v) = Ok (OProjectVersion (name, {| v_s := v; v_t := VNum (map value ns) |})).
  Proof.
    intros Hne HF Hn Hl.
    assert (Hv : forall v', Some v = Some v' -> version_ok v') by (intros v' E; injection E as <-; right; right; exists ns; exact Hn). split.
    - assert (Ht : rads_text word (Some 115) name (Some v) (lit "s:" ++ name ++ lit "=" ++ v)).
      { repeat split; auto. exists []. split; [auto|]. rewrite app_nil_r. reflexivity. }
      apply (C76_numbers _ _ _ _ _ KSolution Ht Hn (ko_s name)). exact Hl.
    - assert (Ht : rads_text word (Some 112) name (Some v) (lit "p:" ++ name ++ lit "=" ++ v)).
      { repeat split; auto. exists []. split; [auto|]. rewrite app_nil_r. reflexivity. }
      apply (C76_numbers _ _ _ _ _ KProject Ht Hn (ko_p name)). exact Hl.
  Qed.

  (** C76: a solution, a project or one of their versions is read back from what is printed after "rads:", once typed. *)
  Theorem C76_text name v ns : name <> [] -> Forall (fun x => word x = true) name -> numbers_text ns v -> length ns = 4%nat ->
    let w := {| v_s := v; v_t := VNum (map value ns) |} in
    forall o typ, In (o, typ) [(OSolution name, lit "s:"); (OSolutionVersion (name, w), lit "s:"); (OProject name, lit "p:"); (OProjectVersion (name, w), lit "p:")] ->
    exists t, object_str o = Some (lit "rads:" ++ t) /\ parse (typ ++ t) = Ok o.
  Proof.
    intros Hne HF Hn Hl w o typ Ho. destruct (C76_written name v ns Hne HF Hn Hl) as [Hs Hp].
    assert (Hb : forall c, c = 115 \/ c = 112 -> rads_text word (Some c) name None ([c; 58] ++ name)).
    { intros c Hc. split; [destruct Hc; subst; auto|]. split; [exact Hne|]. split; [exact HF|]. split; [discriminate|]. exists []. split; [auto|]. rewrite !app_nil_r. reflexivity. }
    cbn [In] in Ho. destruct Ho as [Ho|[Ho|[Ho|[Ho|[]]]]]; injection Ho as <- <-; cbn [object_str v_s w]; (eexists; split; [reflexivity|]); try assumption.
    - exact (C76_bare _ _ _ KSolution (Hb 115 (or_introl eq_refl)) (ko_s name)).
    - exact (C76_bare _ _ _ KProject (Hb 112 (or_intror eq_refl)) (ko_p name)).
  Qed.

  (** C76: the texts printed for solutions, projects and their versions are never accepted. *)
  Theorem C76_printed o s : object_str o = Some s -> parse s = Err ValueError.
  Proof.
    destruct o as [n|[n v]|n|[n v]|p]; cbn [object_str]; intros E; try discriminate E; apply (f_equal (fun x => match x with Some s => s | None => [] end)) in E;
      subst s; apply rads_prefix_refused; assumption.
  Qed.
End C76.
Print Assumptions C76_grammar.
Print Assumptions C76_refused.
Print Assumptions C76_kind.
Print Assumptions C76_bare.
Print Assumptions C76_numbers.
Print Assumptions C76_main.
Print Assumptions C76_newest.
Print Assumptions C76_first.
Print Assumptions C76_patch.
Print Assumptions C76_written.
Print Assumptions C76_text.
Print Assumptions C76_printed.

Local Definition ascii_word (c : N) : bool :=
  ((48 <=? c) && (c <=? 57)) || ((65 <=? c) && (c <=? 90)) || ((97 <=? c) && (c <=? 122)) || (c =? 95).
Example C76_word : word_class ascii_word.
Proof. split; try reflexivity. intros c H. unfold ascii_word. rewrite !orb_true_iff, !andb_true_iff, N.eqb_eq, !N.leb_le. lia. Qed.

Local Definition versions_text : str := lit "0.0.0.9" ++ [10] ++ lit "0.0.1.2" ++ [13; 10] ++ lit "0.0.0.10" ++ [10].
Local Definition net (u : str) : result str :=
  if eqb u (lit "solutions/league_client_sln/releases/releaselisting") then Ok versions_text
  else if eqb u (lit "projects/lol_game_client/releases/releaselisting") then Ok versions_text
  else Err HTTPError.
Local Definition v4 (s : str) (a b c d : Z) : version := {| v_s := s; v_t := VNum [a; b; c; d] |}.
Local Definition parse_ex (c : str) : result rads_object := parse_rads_component ascii_word net [] c.

Example C76_ex :
  parse_ex (lit "league_client_sln=") = Ok (OSolutionVersion (lit "league_client_sln", v4 (lit "0.0.1.2") 0 0 1 2)) /\
  parse_ex (lit "s:lol_game_client=0.0.1.02") = Ok (OSolutionVersion (lit "lol_game_client", v4 (lit "0.0.1.02") 0 0 1 2)) /\
  parse_ex (lit "p:lol_game_client" ++ [10]) = Ok (OProject (lit "lol_game_client")) /\
  parse_ex (lit "lol_game_client=1.2") = Err AssertionError /\ parse_ex (lit "patch") = Err ValueError /\ parse_ex (lit "x:a") = Err ValueError /\
  parse_ex (lit "other=") = Err HTTPError /\ parse_ex (lit "league_client_sln=main") = Err ValueError.
Proof. vm_compute. repeat split. Qed.
Example C76_text_ex : object_str (OSolutionVersion (lit "a", v4 (lit "0.0.1.2") 0 0 1 2)) = Some (lit "rads:a=0.0.1.2") /\
  parse_ex (lit "s:a=0.0.1.2") = Ok (OSolutionVersion (lit "a", v4 (lit "0.0.1.2") 0 0 1 2)) /\ object_str (OProject (lit "a")) = Some (lit "rads:a").
Proof. vm_compute. repeat split. Qed.
Example C76_hyps :
  rads_text ascii_word None (lit "league_client_sln") (Some []) (lit "league_client_sln=") /\ kind_of None (lit "league_client_sln") KSolution /\
  (exists vs v, net (lit "solutions/" ++ lit "league_client_sln" ++ lit "/releases/releaselisting") = Ok versions_text /\ listed versions_text vs /\ first_newest vs v) /\
  rads_text ascii_word (Some 115) (lit "a") (Some (lit "0.0.1.2")) (lit "s:a=0.0.1.2") /\ numbers_text [lit "0"; lit "0"; lit "1"; lit "2"] (lit "0.0.1.2") /\
  kind_of None (lit "patch") KPatch /\ kind_of None (lit "lol_game_client") KProject.
Proof.
  repeat match goal with |- _ /\ _ => split end.
  - apply (match_rads_iff ascii_word C76_word). reflexivity.
  - exact (ko_sln (lit "league_client")).
  - exists [v4 (lit "0.0.0.9") 0 0 0 9; v4 (lit "0.0.1.2") 0 0 1 2; v4 (lit "0.0.0.10") 0 0 0 10], (v4 (lit "0.0.1.2") 0 0 1 2).
    split; [reflexivity|]. split; [repeat constructor|]. exists [v4 (lit "0.0.0.9") 0 0 0 9], [v4 (lit "0.0.0.10") 0 0 0 10]. split; [reflexivity|]. split.
    + intros w [<-|[]]. apply Proofs.VersionProofs.tuple_lt_before. reflexivity.
    + intros w [<-|[]] H. apply Proofs.VersionProofs.tuple_lt_before in H. discriminate.
  - apply (match_rads_iff ascii_word C76_word). reflexivity.
  - split; [discriminate|]. split; [|reflexivity]. rewrite Forall_forall. intros x Hx. cbn [In] in Hx. repeat destruct Hx as [<-|Hx]; try contradiction; apply is_number_iff; reflexivity.
  - constructor.
  - constructor; [discriminate|]. intros n E. apply (f_equal (@rev N)) in E. rewrite rev_app_distr in E. discriminate.
Qed.

(** C76: "an empty version is the newest one" is false of projects: their listing is not sorted. *)
Theorem C76_newest_refuted : exists name t vs v w,
  net (lit "projects/" ++ name ++ lit "/releases/releaselisting") = Ok t /\ listed t vs /\
  parse_ex (name ++ lit "=") = Ok (OProjectVersion (name, v)) /\ In w vs /\ comps_before (nums v) (nums w).
Proof.
  exists (lit "lol_game_client"), versions_text, [v4 (lit "0.0.0.9") 0 0 0 9; v4 (lit "0.0.1.2") 0 0 1 2; v4 (lit "0.0.0.10") 0 0 0 10], (v4 (lit "0.0.0.9") 0 0 0 9), (v4 (lit "0.0.1.2") 0 0 1 2).
  split; [reflexivity|]. split; [repeat constructor|]. split; [reflexivity|]. split; [right; left; reflexivity|]. apply Proofs.VersionProofs.tuple_lt_before. reflexivity.
Qed.
Print Assumptions C76_newest_refuted.

(** C76: "the text printed for a version names this version" is false. *)
Theorem C76_printed_refuted : exists o s, object_str o = Some s /\ parse_ex s <> Ok o.
Proof. exists (OSolution (lit "league_client_sln")), (lit "rads:league_client_sln"). split; [reflexivity | discriminate]. Qed.
Print Assumptions C76_printed_refuted.

(** C76: versions of solutions, and of projects, are ordered by name, then newest first; comparing them never fails. *)
Theorem C76_order a b : four_numbers (snd a) -> four_numbers (snd b) -> exists r, part_lt a b = Ok r /\ (r = true <-> part_before a b).
Proof. exact (part_lt_spec a b). Qed.
Print Assumptions C76_order.
Theorem C76_strict a b c :
  ~ part_before a a /\ (part_before a b -> part_before b c -> part_before a c) /\
  (part_before a b \/ (fst a = fst b /\ nums (snd a) = nums (snd b)) \/ part_before b a).
Proof. split; [apply part_before_irrefl|]. split; [apply part_before_trans | apply part_before_total]. Qed.
Print Assumptions C76_strict.
Example C76_order_ex :
  let a := (lit "a", v4 (lit "0.0.0.2") 0 0 0 2) in let b := (lit "a", v4 (lit "0.0.0.1") 0 0 0 1) in let c := (lit "b", v4 (lit "0.0.0.9") 0 0 0 9) in
  part_lt a b = Ok true /\ part_lt b a = Ok false /\ part_lt b c = Ok true /\ part_lt c a = Ok false /\
  four_numbers (snd a) /\ four_numbers (snd b).
Proof. cbv zeta. repeat match goal with |- _ /\ _ => split end; try reflexivity; do 4 eexists; reflexivity. Qed.
(** C76: versions of parts are equal when both their names and the texts of their versions are. *)
Theorem C76_equal a b : part_eq a b = true <-> fst a = fst b /\ v_s (snd a) = v_s (snd b).
Proof. unfold part_eq, v_eq. rewrite andb_true_iff. destruct (eqbP (fst a) (fst b)), (eqbP (v_s (snd a)) (v_s (snd b))); intuition congruence. Qed.
Print Assumptions C76_equal.
Example C76_equal_ex : part_eq (lit "a", v4 (lit "0.0.0.1") 0 0 0 1) (lit "a", v4 (lit "0.0.0.1") 0 0 0 1) = true /\
  part_eq (lit "a", v4 (lit "0.0.0.1") 0 0 0 1) (lit "b", v4 (lit "0.0.0.1") 0 0 0 1) = false.
Proof. split; reflexivity. Qed.
(** C76: "of two versions of a part, one is before or they are equal" is false: equality is that of texts. *)
Theorem C76_equal_refuted : exists a b, rads_version (ArgStr (v_s (snd a))) = Ok (snd a) /\ rads_version (ArgStr (v_s (snd b))) = Ok (snd b) /\
  part_lt a b = Ok false /\ part_lt b a = Ok false /\ part_eq a b = false.
Proof. exists (lit "a", v4 (lit "0.0.0.1") 0 0 0 1), (lit "a", v4 (lit "0.0.0.01") 0 0 0 1). repeat split. Qed.
Print Assumptions C76_equal_refuted.

Section Stored.
  Variable cwd : path.
  Variable base : str.
  Variable order : list str -> list str.
  Hypothesis order_perm : forall l, Permutation (order l) l.

  (** C76: the listing has each part of the storage with releases once, in any order, and changes nothing. *)
  Theorem C76_parts kind p f pl o pl' f' : locate cwd f true (fspath base kind) = Ok p -> look f p = Some NDir ->
    run (list_parts cwd base order kind) pl f = (o, pl', f') -> f' = f /\
    (pl = [] -> exists l, o = Done l /\ NoDup l /\
       forall n, In n l <-> look f (n :: p) <> None /\ directory cwd f (fspath base kind ++ lit "/" ++ n ++ lit "/releases")).
  Proof.
    intros Ep Hd E. split; [exact (proj1 (list_parts_reading cwd base order kind _ _ _ _ _ E))|]. intros ->.
    destruct (list_parts_result cwd base order order_perm kind p f Ep Hd) as (l & Er & H). exists l. split; [|exact H]. unfold result_of in Er. rewrite E in Er. exact Er.
  Qed.

  (** C76: the stored versions of a solution are its directories of releases, newest first; none when it is not stored. *)
  Theorem C76_stored name f pl o pl' f' : run (stored_versions cwd base order name) pl f = (o, pl', f') -> f' = f /\
    (pl = [] ->
     (~ directory cwd f (fspath base (solution_path name)) -> o = Done []) /\
     (forall p vs, locate cwd f true (fspath base (solution_path name)) = Ok p -> look f p = Some NDir -> o = Done vs ->
        NoDup (map v_s vs) /\ StronglySorted (fun a b => ~ comps_before (nums a) (nums b)) vs /\
        (forall s, In s (map v_s vs) <-> look f (s :: p) <> None /\ directory cwd f (path_join (fspath base (solution_path name)) s)) /\
        (forall v, In v vs -> rads_version (ArgStr (v_s v)) = Ok v))).
  Proof.
    intros E. split; [exact (proj1 (stored_reading cwd base order name _ _ _ _ _ E))|]. intros ->.
    assert (Er : result_of (stored_versions cwd base order name) f = o) by (unfold result_of; rewrite E; reflexivity). split.
    - intros Hd. rewrite <- Er. apply stored_none. assumption.
    - intros p vs Ep Hd ->. exact (stored_some cwd base order order_perm name p f vs Ep Hd Er).
  Qed.
End Stored.
Print Assumptions C76_parts.
Print Assumptions C76_stored.

Local Definition sdir (l : list str) : path * node := (rev l, NDir).
Local Definition store : fs :=
  [([], NDir); sdir [lit "d"]; sdir [lit "d"; lit "solutions"]; sdir [lit "d"; lit "solutions"; lit "a"]; sdir [lit "d"; lit "solutions"; lit "a"; lit "releases"];
   sdir [lit "d"; lit "solutions"; lit "a"; lit "releases"; lit "0.0.0.9"]; sdir [lit "d"; lit "solutions"; lit "a"; lit "releases"; lit "0.0.0.10"];
   (rev [lit "d"; lit "solutions"; lit "a"; lit "releases"; lit "x.txt"], NFile []); sdir [lit "d"; lit "solutions"; lit "b"]].
Example C76_stored_ex :
  run (list_parts [] (lit "/d") (fun l => l) (lit "solutions")) [] store = (Done [lit "a"], [], store) /\
  run (stored_versions [] (lit "/d") (fun l => l) (lit "a")) [] store = (Done [v4 (lit "0.0.0.10") 0 0 0 10; v4 (lit "0.0.0.9") 0 0 0 9], [], store) /\
  run (stored_versions [] (lit "/d") (fun l => l) (lit "b")) [] store = (Done [], [], store) /\
  locate [] store true (fspath (lit "/d") (lit "solutions")) = Ok [lit "solutions"; lit "d"].
Proof. vm_compute. repeat split. Qed.
