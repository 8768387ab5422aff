(** * Claims C07, C08, C09: RADS manifests and extraction *)

From Verif Require Import Base.PyFacts Base.Text Base.Lines Base.LinesFacts Base.Fs Spec.FsSpec Base.FsFacts Spec.FilesSpec Model.Version
  Model.Rads Spec.DictSpec Spec.RadsSpec Proofs.DictProofs Proofs.RadsProofs Proofs.RadsExtractProofs.

(** ** C09 *)

(** A package manifest (magic line, then lines ended by LF or CR LF, the last one possibly
    unterminated) gives exactly the described entries. *)
Theorem C09_manifest magic eol (es last : list pkg_entry) :
  startswith magic (lit "PKG1") = true -> ~ In cNL magic -> ~ In cCR magic -> eol_ok eol ->
  Forall pkg_entry_ok (es ++ last) -> (length last <= 1)%nat ->
  exists pfs,
    from_package_manifest (magic ++ eol ++ concat (map (fun l => l ++ eol) (map pkg_line es)) ++ concat (map pkg_line last)) = Ok pfs /\
    Forall2 (fun e pf =>
      k_path pf = pe_path e /\ k_package pf = pe_package e /\
      k_offset pf = Z.of_N (pe_offset e) /\ k_size pf = Z.of_N (pe_size e) /\
      ((k_compressed pf = true /\ pe_path e = k_extract pf ++ lit ".compressed") \/
       (k_compressed pf = false /\ k_extract pf = pe_path e /\ forall b, pe_path e <> b ++ lit ".compressed"))) (es ++ last) pfs.
Proof. exact (package_manifest_ok magic eol es last). Qed.
Print Assumptions C09_manifest.
Local Definition ent1 : pkg_entry :=
  {| pe_path := lit "projects/x/readme.txt"; pe_package := lit "BIN_0x00000001"; pe_offset := 0; pe_size := 5; pe_type := lit "0" |}.
Local Definition ent2 : pkg_entry :=
  {| pe_path := lit "projects/x/data.compressed"; pe_package := lit "BIN_0x00000001"; pe_offset := 5; pe_size := 3; pe_type := lit "0" |}.
Local Definition crlf : str := [cCR; cNL].
Local Definition manifest_text : str :=
  lit "PKG1" ++ crlf ++ concat (map (fun l => l ++ crlf) (map pkg_line [ent1])) ++ concat (map pkg_line [ent2]).
Example C09_manifest_ex :
  pkg_line ent2 = lit "/projects/x/data.compressed,BIN_0x00000001,5,3,0" /\
  from_package_manifest manifest_text = Ok
    [ {| k_path := lit "projects/x/readme.txt"; k_package := lit "BIN_0x00000001"; k_offset := 0; k_size := 5; k_compressed := false;
         k_extract := lit "projects/x/readme.txt" |};
      {| k_path := lit "projects/x/data.compressed"; k_package := lit "BIN_0x00000001"; k_offset := 5; k_size := 3; k_compressed := true;
         k_extract := lit "projects/x/data" |} ].
Proof. vm_compute. split; reflexivity. Qed.

(** A line with another number of fields is rejected, and so is a file without the magic. *)
Theorem C09_rejects :
  (forall line, count_occ N.eq_dec line cComma <> 4%nat -> parse_pkg_line line = Err ValueError) /\
  (forall text, startswith text (lit "PKG1") = false -> from_package_manifest text = Err AssertionError).
Proof. split; [exact parse_line_fields | exact package_manifest_magic]. Qed.
Print Assumptions C09_rejects.
Example C09_rejects_ex :
  parse_pkg_line (lit "/a,b,BIN,0,5,0") = Err ValueError /\ from_package_manifest (lit "PKG2") = Err AssertionError /\
  parse_pkg_line (lit "/a,BIN,zero,5,0") = Err ValueError.
Proof. vm_compute. repeat split. Qed.

(** The files of a project, by extracted path; of two lines for the same path the last one counts. *)
Theorem C09_files l : NoDup (map fst (package_files l)) /\
  forall p, last_value p (map (fun pf => (k_extract pf, pf)) l) (dget p (package_files l)).
Proof. split; [apply dict_of_NoDup | intros p; apply dict_of_last]. Qed.
Print Assumptions C09_files.
Example C09_files_ex : rmap (fun l => map (fun x => (fst x, k_size (snd x))) (package_files l))
    (from_package_manifest (lit "PKG1" ++ crlf ++ concat (map (fun l => l ++ crlf) (map pkg_line [ent1; ent2]) ++ [lit "/projects/x/data,BIN_0x00000002,0,9,0"]))) =
  Ok [(lit "projects/x/readme.txt", 5%Z); (lit "projects/x/data", 9%Z)].
Proof. vm_compute. reflexivity. Qed.

(** ** C08 *)

(** For a well-formed solution manifest. *)
Theorem C08_dependencies eol name version s :
  eol_ok eol -> no_break name -> no_break version -> solution_ok languages s ->
  exists d, dependencies name version (sln_text eol name version s) = Ok d /\
    map fst d = map (fun l => Some (fst l)) (sl_langs s) ++ [None] /\
    dget None d = Some (map (fun p => (sp_name p, sp_version p)) (filter sp_required (sl_projects s))) /\
    forall l deps, In (l, deps) (sl_langs s) ->
      exists pvs, dget (Some l) d = Some pvs /\
        Forall2 (fun n x => exists p, In p (sl_projects s) /\ sp_name p = n /\ x = (sp_name p, sp_version p)) deps pvs.
Proof. exact (dependencies_ok eol name version s). Qed.
Print Assumptions C08_dependencies.
Local Definition sol : solution :=
  {| sl_projects := [ {| sp_name := lit "base"; sp_version := lit "0.0.1.7"; sp_required := true |};
                      {| sp_name := lit "base_fr_fr"; sp_version := lit "0.0.1.9"; sp_required := false |};
                      {| sp_name := lit "air"; sp_version := lit "0.0.4.0"; sp_required := true |} ];
     sl_langs := [ (lit "fr_fr", [lit "base"; lit "base_fr_fr"]); (lit "en_us", [lit "base"]) ] |}.
Example C08_dependencies_ex :
  solution_ok languages sol /\
  dependencies (lit "game_sln") (lit "0.0.0.1") (sln_text crlf (lit "game_sln") (lit "0.0.0.1") sol) = Ok
    [ (Some (lit "fr_fr"), [(lit "base", lit "0.0.1.7"); (lit "base_fr_fr", lit "0.0.1.9")]);
      (Some (lit "en_us"), [(lit "base", lit "0.0.1.7")]);
      (None, [(lit "base", lit "0.0.1.7"); (lit "air", lit "0.0.4.0")]) ].
Proof.
  split; [|vm_compute; reflexivity].
  assert (Hv : forall a b, (0 <= a < 10)%N -> (0 <= b < 10)%N -> version_text ([48; 46; 48; 46; 48 + a; 46; 48 + b] : str)).
  { intros a b Ha Hb. exists [0; 0; Z.of_N a; Z.of_N b]%Z. split; [reflexivity|].
    assert (D : forall d, (0 <= d < 10)%N -> VersionSpec.int_spell (Z.of_N d) [(48 + d)%N]).
    { intros d Hd. apply VersionSpec.spell_pos. destruct (N.eq_dec d 0) as [->|]; [apply VersionSpec.spell_zero | apply VersionSpec.spell_start; lia]. }
    apply (VersionSpec.dotted_cons 0%Z [0; Z.of_N a; Z.of_N b]%Z [48] [48; 46; 48 + a; 46; 48 + b]); [apply (D 0); lia|].
    apply (VersionSpec.dotted_cons 0%Z [Z.of_N a; Z.of_N b]%Z [48] [48 + a; 46; 48 + b]); [apply (D 0); lia|].
    apply (VersionSpec.dotted_cons (Z.of_N a) [Z.of_N b]%Z [48 + a] [48 + b]); [apply D; lia|].
    apply VersionSpec.dotted_one. apply D; lia. }
  split; [|split; [|split]].
  - cbn. repeat constructor; vm_compute; intuition discriminate.
  - cbn. repeat constructor; vm_compute; intuition discriminate.
  - apply Forall_cons; [|apply Forall_cons; [|apply Forall_cons; [|constructor]]]; (split; [repeat constructor|]).
    + apply (Hv 1 7); lia.
    + apply (Hv 1 9); lia.
    + apply (Hv 4 0); lia.
  - apply Forall_cons; [|apply Forall_cons; [|constructor]]; (split; [apply mem_In; vm_compute; reflexivity|]).
    + intros n Hn. cbn in Hn |- *. tauto.
    + intros n Hn. cbn in Hn |- *. tauto.
Qed.

(** Whatever the text: an accepted manifest has the right header, and every project version
    returned is a pair of consecutive lines of the manifest whose second line is a version. *)
Theorem C08_sound name version text d : dependencies name version text = Ok d ->
  let lines := splitlines (nl_norm text) in
  nth_error lines 0 = Some (lit "RADS Solution Manifest") /\ nth_error lines 1 = Some (lit "1.0.0.0") /\
  nth_error lines 2 = Some name /\ nth_error lines 3 = Some version /\
  dhas None d = true /\
  Forall (fun e =>
    match fst e with Some l => In l languages | None => True end /\
    Forall (fun x : pv => exists i v, nth_error lines i = Some (fst x) /\ nth_error lines (S i) = Some (snd x) /\
                          rads_version (ArgStr (snd x)) = Ok v) (snd e)) d.
Proof. exact (dependencies_sound name version text d). Qed.
Print Assumptions C08_sound.
Example C08_sound_ex :
  dependencies (lit "other_sln") (lit "0.0.0.1") (sln_text crlf (lit "game_sln") (lit "0.0.0.1") sol) = Err AssertionError /\
  dependencies (lit "game_sln") (lit "0.0.0.2") (sln_text crlf (lit "game_sln") (lit "0.0.0.1") sol) = Err AssertionError /\
  dependencies (lit "game_sln") (lit "0.0.0.2") (lit "RADS Solution Manifest") = Err IndexError.
Proof. vm_compute. repeat split. Qed.

(** Selection by language. *)
Theorem C08_projects d :
  projects LFalse d = of_opt KeyError (dget None d) /\
  (forall l, projects (LOne l) d = of_opt KeyError (dget (Some l) d)) /\
  (exists pvs, projects LTrue d = Ok pvs /\ NoDup pvs /\ forall x, In x pvs <-> exists k l, In (k, l) d /\ In x l) /\
  (forall ls, (forall l, In l ls -> dhas (Some l) d = true) ->
     exists pvs, projects (LMany ls) d = Ok pvs /\ NoDup pvs /\
       forall x, In x pvs <-> exists l pl, In l ls /\ dget (Some l) d = Some pl /\ In x pl) /\
  (forall ls l, In l ls -> dhas (Some l) d = false -> projects (LMany ls) d = Err KeyError).
Proof.
  split; [reflexivity|]. split; [reflexivity|]. split; [exact (projects_all d)|].
  split; [exact (projects_many d) | exact (projects_many_missing d)].
Qed.
Print Assumptions C08_projects.
Local Definition deps : list (option str * list pv) :=
  [ (Some (lit "fr_fr"), [(lit "base", lit "0.0.1.7"); (lit "fr", lit "0.0.1.9")]);
    (Some (lit "en_us"), [(lit "base", lit "0.0.1.7")]); (None, [(lit "base", lit "0.0.1.7"); (lit "air", lit "0.0.4.0")]) ].
Example C08_projects_ex :
  projects LTrue deps = Ok [(lit "base", lit "0.0.1.7"); (lit "fr", lit "0.0.1.9"); (lit "air", lit "0.0.4.0")] /\
  projects (LMany [lit "en_us"; lit "fr_fr"]) deps = Ok [(lit "base", lit "0.0.1.7"); (lit "fr", lit "0.0.1.9")] /\
  projects (LMany [lit "ko_kr"]) deps = Err KeyError.
Proof. vm_compute. repeat split. Qed.

(** A manifest cut in the list of dependencies of its last language is accepted, with
    dependencies missing: truncation is not always detected. *)
Theorem C08_truncation_refuted : exists s text rest,
  solution_ok languages s /\ sln_text [cNL] (lit "game_sln") (lit "0.0.0.1") s = text ++ rest /\ rest <> [] /\
  exists d d', dependencies (lit "game_sln") (lit "0.0.0.1") text = Ok d /\
    dependencies (lit "game_sln") (lit "0.0.0.1") (text ++ rest) = Ok d' /\ d <> d'.
Proof.
  exists {| sl_projects := sl_projects sol; sl_langs := [(lit "en_us", [lit "base"; lit "air"])] |}.
  exists (concat (map (fun l => l ++ [cNL]) (removelast (sln_lines (lit "game_sln") (lit "0.0.0.1")
            {| sl_projects := sl_projects sol; sl_langs := [(lit "en_us", [lit "base"; lit "air"])] |})))).
  exists (lit "air" ++ [cNL]). split; [|split; [vm_compute; reflexivity|split; [discriminate|]]].
  - destruct C08_dependencies_ex as [(H1 & H2 & H3 & H4) _]. split; [exact H1|]. split; [repeat constructor; vm_compute; intuition discriminate|].
    split; [exact H3|]. apply Forall_cons; [|constructor]. split; [apply mem_In; vm_compute; reflexivity|]. intros n Hn. cbn in Hn |- *. tauto.
  - do 2 eexists. split; [vm_compute; reflexivity|]. split; [vm_compute; reflexivity|]. discriminate.
Qed.
Print Assumptions C08_truncation_refuted.

(** ** C07 *)

Section C07.
  Variable cwd : path.
  Variable base pvpath : str.
  (** zlib, and what it computes: the output does not depend on how the input is cut. *)
  Variable zst : Type.
  Variable zinit : zst.
  Variable zstep : zst -> bytes -> result (zst * bytes).
  Variable zflush : zst -> result bytes.
  Variable inflate : bytes -> result bytes.
  Hypothesis Hz : zlaw zst zinit zstep zflush inflate.
  (** The packages, cut in arbitrary chunks. *)
  Variable net : str -> result (list bytes).
  Variable all : list (str * pkgfile).
  Variable paths : option (list str).
  Variable l : list pkgfile.
  Hypothesis Hreq : requested all paths l.
  Variable f : fs.
  Hypothesis Hready : Forall (pkg_ready cwd base f) l.
  Hypothesis Hdist : distinct_targets cwd base l.
  Notation tgt := (pkg_target cwd base).
  Notation extract := (rads_extract cwd base zst zinit zstep zflush net pvpath all paths).
  Variable pl : plan.
  Variable o : outcome unit.
  Variable pl' : plan.
  Variable f' : fs.
  Hypothesis Hrun : run extract pl f = (o, pl', f').

  (** When the extraction returns, every requested file which was not there has exactly the
      advertised bytes (decompressed for a compressed entry), even if system calls failed. *)
  Theorem C07_contents : o = Done tt -> forall pf, In pf l -> ~ is_file f (tgt pf) ->
    exists chunks raw d, net (url_of pvpath pf) = Ok chunks /\
      (k_offset pf + k_size pf <= Z.of_nat (length (concat chunks)))%Z /\
      raw = firstn (Z.to_nat (k_size pf)) (skipn (Z.to_nat (k_offset pf)) (concat chunks)) /\
      (if k_compressed pf then inflate raw = Ok d else d = raw) /\
      look f' (tgt pf) = Some (NFile d).
  Proof.
    intros Hd pf Hi Hn. destruct (extract_good cwd base pvpath zst zinit zstep zflush net inflate Hz all paths l pl f o pl' f' Hreq Hready Hdist Hrun) as (_ & _ & H & _).
    destruct (H Hd pf (conj Hi Hn)) as (d & (chunks & raw & E1 & E2 & E3) & E4). unfold pkg_range in E2.
    destruct (Z.leb_spec (k_offset pf + k_size pf) (Z.of_nat (length (concat chunks)))); [|discriminate].
    exists chunks, raw, d. split; [exact E1|]. split; [assumption|]. split; [congruence | auto].
  Qed.

  (** When it raises (overlapping entries, short package, network or disk failure), a requested
      file which was not there is absent or has the advertised bytes, unless removing an
      incomplete file itself failed.  Process crashes are excluded. *)
  Theorem C07_never_wrong : clean o pl pl' -> forall pf, In pf l -> ~ is_file f (tgt pf) -> is_file f' (tgt pf) ->
    has_content cwd base pvpath inflate net f' pf.
  Proof.
    intros Hc pf Hi Hn Hf. destruct (extract_good cwd base pvpath zst zinit zstep zflush net inflate Hz all paths l pl f o pl' f' Hreq Hready Hdist Hrun) as (_ & _ & _ & H).
    exact (H Hc pf (conj Hi Hn) Hf).
  Qed.

  (** Whatever happens, only missing requested files change, and directories leading to them. *)
  Theorem C07_frame : only_files (fun t => exists pf, (In pf l /\ ~ is_file f (tgt pf)) /\ tgt pf = t) f f' /\
    forall q b, look f q = Some (NFile b) -> look f' q = Some (NFile b).
  Proof.
    destruct (extract_good cwd base pvpath zst zinit zstep zflush net inflate Hz all paths l pl f o pl' f' Hreq Hready Hdist Hrun) as (H & _).
    split; [exact H|]. intros q b Hq. destruct (H q) as [E|[(pf & [_ Hn] & Ht)|(E & _)]]; [congruence | | congruence].
    exfalso. apply Hn. rewrite Ht. exists b. exact Hq.
  Qed.

  (** When the packages are available and contain the ranges, the ranges of a package are apart,
      and no system call fails, only the state of the filesystem (a directory in the way of a
      file, a file in the way of a directory...) can make the extraction raise. *)
  Theorem C07_succeeds : NoDup l ->
    (forall pf, In pf l -> exists chunks raw, net (url_of pvpath pf) = Ok chunks /\ pkg_range (concat chunks) pf = Some raw /\
                           (k_compressed pf = true -> exists d, inflate raw = Ok d)) ->
    (forall a b, In a l -> In b l -> a <> b -> k_package a = k_package b -> apart a b) ->
    failures pl = 0%nat -> forall e, o = Raised e -> lookup_error e.
  Proof.
    intros Hnd Hnet Hap Hpl e He. rewrite He in Hrun.
    apply (extract_natural cwd base pvpath zst zinit zstep zflush net inflate Hz all paths l pl f e pl' f' Hreq Hready Hdist Hnd); [|assumption | assumption | assumption].
    intros pf Hi. destruct (Hnet pf Hi) as (chunks & raw & E1 & E2 & E3). exists chunks. split; [exact E1|]. exists raw. auto.
  Qed.
End C07.
Print Assumptions C07_contents.
Print Assumptions C07_never_wrong.
Print Assumptions C07_frame.
Print Assumptions C07_succeeds.

(** A package of two files, the second one "compressed" (a toy decompressor: the reversal of the
    whole input, available at the flush). *)
Local Definition tz_init : bytes := [].
Local Definition tz_step (z w : bytes) : result (bytes * bytes) := Ok (z ++ w, []).
Local Definition tz_flush (z : bytes) : result bytes := Ok (rev z).
Local Definition tz_inflate (b : bytes) : result bytes := Ok (rev b).
Example C07_zlaw_ex : zlaw bytes tz_init tz_step tz_flush tz_inflate.
Proof.
  intros ws. assert (G : forall ws z, zfeed bytes tz_step z ws = Ok (z ++ concat ws, [])).
  { clear. induction ws as [|w ws IH]; intros z; cbn [zfeed concat]; [rewrite app_nil_r; reflexivity|].
    unfold tz_step at 1. cbn [rbind]. rewrite IH. cbn [rbind app]. rewrite <- app_assoc. reflexivity. }
  unfold zall. rewrite G. reflexivity.
Qed.
Local Definition mk (p : String.string) (off sz : Z) (c : bool) : pkgfile :=
  {| k_path := lit p; k_package := lit "BIN"; k_offset := off; k_size := sz; k_compressed := c; k_extract := lit p |}.
Arguments mk p%string_scope off%Z sz%Z c.
Local Definition pfs : list pkgfile := [mk "p/b" 5 3 true; mk "p/a" 1 4 false; mk "p/c" 9 1 false].
Local Definition dict : list (str * pkgfile) := map (fun pf => (k_extract pf, pf)) pfs.
Local Definition net1 (u : str) : result (list bytes) := Ok [bl "0hel"; []; bl "locba"; bl "1X"].
Local Definition wd : path := [lit "w"].
Local Definition disk : fs := [([lit "w"], NDir); ([lit "p"; lit "w"], NDir); ([lit "c"; lit "p"; lit "w"], NFile (bl "old"))].
Local Definition result1 := run (rads_extract wd (lit "/w") bytes tz_init tz_step tz_flush net1 (lit "v") dict None) [] disk.
Example C07_runs_ex :
  fst result1 = (Done tt, []) /\
  look (snd result1) [lit "a"; lit "p"; lit "w"] = Some (NFile (bl "hell")) /\
  look (snd result1) [lit "b"; lit "p"; lit "w"] = Some (NFile (bl "bco")) /\
  look (snd result1) [lit "c"; lit "p"; lit "w"] = Some (NFile (bl "old")).
Proof. vm_compute. repeat split. Qed.
Example C07_hyps_ex :
  requested dict None pfs /\ Forall (pkg_ready wd (lit "/w") disk) pfs /\ distinct_targets wd (lit "/w") pfs /\ NoDup pfs /\
  (forall a b, In a pfs -> In b pfs -> a <> b -> k_package a = k_package b -> apart a b).
Proof.
  split; [reflexivity|]. split; [|split; [|split]].
  - assert (Hn : forall p, nolink disk p).
    { intros p q t _ H. destruct q as [|x q]; [discriminate|]. unfold look, disk in H. cbn [dget] in H.
      repeat (destruct (eqb _ _) in H; [discriminate|]). discriminate. }
    assert (Hw : fs_wf disk).
    { intros x p H. unfold look, disk in H. cbn [dget] in H.
      destruct (eqbP ((x :: p) : path) [lit "w"]) as [E|]; [injection E as -> ->; reflexivity|].
      destruct (eqbP ((x :: p) : path) [lit "p"; lit "w"]) as [E|]; [injection E as -> ->; reflexivity|].
      destruct (eqbP ((x :: p) : path) [lit "c"; lit "p"; lit "w"]) as [E|]; [injection E as -> ->; reflexivity|congruence]. }
    repeat (apply Forall_cons; [split; [vm_compute; discriminate|]; split; [vm_compute; discriminate|]; split;
      [split; [vm_compute; intuition discriminate|]; split; [discriminate|]; split; discriminate | split; [apply Hn|]; split; [exact Hw | reflexivity]]|]).
    constructor.
  - intros a b [<-|[<-|[<-|[]]]] [<-|[<-|[<-|[]]]] E; try reflexivity; vm_compute in E; discriminate.
  - repeat constructor; cbn [In]; intuition discriminate.
  - intros a b [<-|[<-|[<-|[]]]] [<-|[<-|[<-|[]]]] Hab _; try congruence; unfold apart; cbn; lia.
Qed.
(** Overlapping entries raise. *)
Example C07_overlap_ex :
  fst (run (rads_extract wd (lit "/w") bytes tz_init tz_step tz_flush net1 (lit "v")
         [(lit "p/a", mk "p/a" 1 4 false); (lit "p/b", mk "p/b" 3 4 false)] None) [] disk) = (Raised AssertionError, []).
Proof. vm_compute. reflexivity. Qed.

(** Ranges that share no byte are not enough: an empty file at the offset of a non-empty one
    listed before it makes the extraction raise. *)
Theorem C07_empty_file_refuted : exists a b,
  k_size b = 0%Z /\ a <> b /\
  fst (fst (run (rads_extract wd (lit "/w") bytes tz_init tz_step tz_flush net1 (lit "v") [(k_extract a, a); (k_extract b, b)] None) [] disk))
    = Raised AssertionError /\
  fst (fst (run (rads_extract wd (lit "/w") bytes tz_init tz_step tz_flush net1 (lit "v") [(k_extract b, b); (k_extract a, a)] None) [] disk))
    = Done tt.
Proof.
  exists (mk "p/a" 1 4 false), (mk "p/b" 1 0 false). split; [reflexivity|]. split; [discriminate|]. split; vm_compute; reflexivity.
Qed.
Print Assumptions C07_empty_file_refuted.
