(** * C64: patch versions of elements and their caches *)

From Verif Require Import Base.Py Base.Text Base.PyFacts Base.TextFacts Base.Utf8 Base.Bin Base.Fs Spec.FsSpec Base.FsFacts Base.FsRealFacts Model.Version Spec.VersionSpec Model.Files Model.Rman Model.Patcher Model.Releases
  Spec.Utf8Spec Proofs.Utf8Proofs Model.PatchCache Spec.PatchCacheSpec Proofs.PatchCacheProofs.

(** ** Texts *)

(** C64: the version of a system.yaml file is that of its first "branch: ..." line. *)
Theorem C64_yaml data text : file_text data text -> (forall v, yaml_version data = Ok (Some v) <-> first_branch text v) /\ (yaml_version data = Ok None <-> forall v, ~ first_branch text v).
Proof. apply yaml_version_ok. Qed.
(** C64: the version of a content-metadata.json file has the first two numbers. *)
Theorem C64_metadata load data v : metadata_version load data = Ok (Some v) <-> exists d s, load data = Ok (JObj d) /\ dget (lit "version") d = Some (JStr s) /\ metadata_text s v.
Proof.
  unfold metadata_version. split.
  - intros E. apply rbind_Ok in E as (d & Ed & E). apply rbind_Ok in E as (x & Ex & E). destruct x as [| | | |s| |]; try discriminate. injection E as E. apply metadata_match_ok in E.
    unfold jget in Ex. destruct d as [| | | | | |d]; try discriminate. destruct (dget (lit "version") d) eqn:Eg; [|discriminate]. injection Ex as ->. exists d, s. auto.
  - intros (d & s & Ed & Eg & Hm). rewrite Ed. cbn [rbind jget]. rewrite Eg. cbn [of_opt rbind]. apply metadata_match_ok in Hm. rewrite Hm. reflexivity.
Qed.
Local Notation t := lit.
Local Definition yaml1 : bytes := bl "a: b" ++ leenc 2 2573 ++ bl "  branch: 'dev'" ++ leenc 1 10 ++ bl "  game-branch: ""Release/9.14'" ++ leenc 1 13 ++ bl "branch: /8.1".
Example C64_texts_ex : yaml_version yaml1 = Ok (Some (t "9.14")) /\ text_of yaml1 = Ok (t "a: b" ++ [10] ++ t "  branch: 'dev'" ++ [10] ++ t "  game-branch: ""Release/9.14'" ++ [10] ++ t "branch: /8.1") /\
  yaml_version (bl "xbranch: /8.1") = Ok None /\ yaml_version (bl "branch: 8.1") = Ok None /\ yaml_version (bl "branch: x/8.1 ") = Ok None /\
  metadata_match (t "13.14.522.7") = Some (t "13.14") /\ metadata_match (t "13.14") = None /\ metadata_match (t "13..1.") = None.
Proof. vm_compute. repeat split. Qed.
Example C64_yaml_ex : file_text yaml1 (t "a: b" ++ [10] ++ t "  branch: 'dev'" ++ [10] ++ t "  game-branch: ""Release/9.14'" ++ [10] ++ t "branch: /8.1").
Proof. apply text_of_ok. vm_compute. reflexivity. Qed.

Section Cache.
Variable cwd : path.
Variable enc : str -> bytes.

(** ** Caches *)

(** C64: when the cache file exists, its text gives the version; nothing is retrieved nor changed. *)
Theorem C64_hit f cache s : cached_text cwd f cache s ->
  (forall retrieve, exists o, run (cached_version cwd enc cache retrieve) [] f = (o, [], f) /\ cached_result s o) /\
  (forall retrieve pl o pl' f', run (cached_version cwd enc cache retrieve) pl f = (o, pl', f') -> f' = f /\ (forall v, o = Done v -> cached_result s o)) /\
  (forall r1 r2 pl, run (cached_version cwd enc cache r1) pl f = run (cached_version cwd enc cache r2) pl f).
Proof. apply hit. Qed.
(** C64: otherwise the version is retrieved and written to the cache file, and later calls give the same version. *)
Theorem C64_store cache retrieve pl f v pl' f' : ascii_text enc -> no_file cwd f cache -> run (cached_version cwd enc cache retrieve) pl f = (Done (Some v), pl', f') -> cwd_exists cwd f' ->
  exists pl0 pl1 f1 p, run retrieve pl0 f = (Done (Some v), pl1, f1) /\ content_at cwd f' cache p (enc (v_s v ++ [cNL])) /\ but_file p f1 f' /\
    (clean_version v -> forall retrieve', run (cached_version cwd enc cache retrieve') [] f' = (Done (Some v), [], f')).
Proof. apply store. Qed.
(** C64: without version, nothing is written to the cache file. *)
Theorem C64_none cache retrieve pl f pl' f' : no_file cwd f cache -> run (cached_version cwd enc cache retrieve) pl f = (Done None, pl', f') ->
  exists pl0 pl1, run retrieve pl0 f = (Done None, pl1, f').
Proof. intros Hn E. apply cached_miss in E as (pl0 & pl1 & f1 & E & [[_ ->]|(v & Ev & _)]); [eauto | discriminate | exact Hn]. Qed.

(** ** Elements of releases *)

Section Patcher.
Variable base : str.
Variable get : str -> result bytes.
Variable zstd : bytes -> result bytes.
Variable sha1 : str -> str.
Variable symlinks : bool.
Variable storage_dir : str.
Variable load : bytes -> result json.
Variable order : list (option N) -> list (option N).
Notation patcher_version := (patcher_version cwd enc base get zstd sha1 symlinks storage_dir load order).

(** C64: all elements of PBE have version "main". *)
Theorem C64_pbe manif name pl f : run (patcher_version manif (lit "pbe") name) pl f = (Done (Some main_version), pl, f).
Proof. reflexivity. Qed.
(** C64: the version of an element is that of the extracted file of its manifest: system.yaml for the client and content-metadata.json for the game.
    It is the version of later calls, even if everything else is unavailable. *)
Theorem C64_patcher manif patchline name pl f o pl' f' : let cache := storage_dir ++ lit "/patch_version." ++ name in
  ascii_text enc -> patchline <> lit "pbe" -> no_file cwd f cache -> run (patcher_version manif patchline name) pl f = (Done o, pl', f') -> cwd_exists cwd f' ->
  exists v m file file_name data pl0 pl1 f0 pl2 pl3 f1 p, o = Some v /\
    version_file name file_name /\ run manif pl0 f = (Done m, pl1, f0) /\ dget (Some file_name) (m_files m) = Some file /\
    run (retrieve_patcher cwd base get zstd sha1 symlinks storage_dir load order manif name) pl2 f = (Done o, pl3, f1) /\
    has_content cwd f1 (extract_path storage_dir file) data /\ element_version load name data v /\
    content_at cwd f' cache p (enc (v_s v ++ [cNL])) /\ but_file p f1 f' /\
    forall get' zstd' load' manif', run (PatchCache.patcher_version cwd enc base get' zstd' sha1 symlinks storage_dir load' order manif' patchline name) [] f' = (Done (Some v), [], f').
Proof.
  intros cache He Hp Hn E Hcwd. unfold PatchCache.patcher_version in *. destruct (eqbP patchline (lit "pbe")) as [|_]; [contradiction|]. fold cache in E |- *.
  pose proof E as E'. apply cached_miss in E' as (q0 & q1 & g1 & E' & _); [|exact Hn]. apply retrieve_patcher_done in E' as (v & m & file & fn & data & pl0 & pl1 & f0 & -> & _ & _ & _ & _ & _).
  apply store in E as (pl2 & pl3 & f1 & p & E & Hc & Hb & Hl); [|exact He | exact Hn | exact Hcwd]. pose proof E as E1.
  apply retrieve_patcher_done in E1 as (v' & m' & file' & fn' & data' & pl0' & pl1' & f0' & Ev & H1 & H2 & H3 & H4 & H5). injection Ev as <-.
  exists v, m', file', fn', data', pl0', pl1', f0', pl2, pl3, f1, p. split; [reflexivity|]. split; [exact H1|]. split; [exact H2|]. split; [exact H3|]. split; [exact E|]. split; [exact H4|]. split; [exact H5|]. split; [exact Hc|]. split; [exact Hb|].
  intros get' zstd' load' manif'. apply Hl. eapply element_clean. exact H5.
Qed.
(** C64: other elements have no version. *)
Theorem C64_unknown manif patchline name pl f : patchline <> lit "pbe" -> name <> lit "client" -> name <> lit "game" -> no_file cwd f (storage_dir ++ lit "/patch_version." ++ name) ->
  failures pl = 0%nat -> exists pl', run (patcher_version manif patchline name) pl f = (Raised KeyError, pl', f).
Proof.
  intros H1 H2 H3 Hn Hpl. unfold PatchCache.patcher_version. destruct (eqbP patchline (lit "pbe")) as [|_]; [contradiction|]. unfold cached_version, isfile, query. cbn [bind run].
  assert (Ei : f_isfile cwd (storage_dir ++ lit "/patch_version." ++ name) f = false) by (destruct (f_isfile _ _ f) eqn:E; [apply isfile_iff in E as [b Hb]; destruct (Hn b Hb) | reflexivity]).
  rewrite Ei. unfold retrieve_patcher. destruct (eqbP name (lit "client")) as [|_]; [contradiction|]. destruct (eqbP name (lit "game")) as [|_]; [contradiction|].
  destruct pl as [|[[]|] pl]; try discriminate; eexists; reflexivity.
Qed.
End Patcher.

(** ** RADS solutions *)

Section Rads.
Variable base : str.
Variable exe : bytes -> result (option str).
Variable projects : prog (list (str * version)).
Variable filepaths : str * version -> prog (list str).
Variable extract : str * version -> str -> prog unit.
Variable gone : exn -> bool.
Notation rads_version := (rads_patch_version cwd enc base exe projects filepaths extract gone).

Theorem C64_rads_pbe solution svpath pl f : run (rads_version true solution svpath) pl f = (Done (Some main_version), pl, f).
Proof. reflexivity. Qed.
(** C64: the version of a solution is that of the first file with the expected name in its project. There is none only if the list of files is not available anymore,
    or for old versions of the client without such a file. *)
Theorem C64_rads solution svpath pl f o pl' f' : no_file cwd f (fspath base (svpath ++ lit "/_patch_version")) -> run (rads_version false solution svpath) pl f = (Done o, pl', f') ->
  exists project suffix ps pv pl0 pl1 f0 pl2 pl3 f1, solution_file solution project suffix /\ run projects pl0 f = (Done ps, pl1, f0) /\ first (fun p => fst p = project) ps pv /\
    run (retrieve_rads cwd base exe projects filepaths extract gone solution) pl2 f = (Done o, pl3, f1) /\ (o = None -> f' = f1) /\
    (o = None /\ (exists e pl4 f2, run (filepaths pv) pl1 f0 = (Raised e, pl4, f2) /\ gone e = true) \/
     exists paths pl4 f2, run (filepaths pv) pl1 f0 = (Done paths, pl4, f2) /\
       (o = None /\ project = lit "league_client" /\ Forall (fun p => forall q, p <> q ++ suffix) paths /\ v_le (snd pv) {| v_s := lit "0.0.0.43"; v_t := VNum [0; 0; 0; 43]%Z |} = Ok true \/
        exists p data v, o = Some v /\ first (fun p => exists q, p = q ++ suffix) paths p /\ has_content cwd f1 (fspath base p) data /\ solution_version exe solution data v)).
Proof.
  intros Hn E. apply (cached_miss cwd enc _ _ pl f o pl' f' Hn) in E as (pl2 & pl3 & f1 & E & Hf). pose proof E as E1. apply retrieve_rads_done in E1 as (project & suffix & ps & pv & pl0 & pl1 & f0 & H1 & H2 & H3 & H4).
  exists project, suffix, ps, pv, pl0, pl1, f0, pl2, pl3, f1. split; [exact H1|]. split; [exact H2|]. split; [exact H3|]. split; [exact E|]. split; [|exact H4].
  intros ->. destruct Hf as [[_ ->]|(v & Ev & _)]; [reflexivity | discriminate].
Qed.
(** C64: later calls give the same version. *)
Theorem C64_rads_again solution svpath pl f v pl' f' : let cache := fspath base (svpath ++ lit "/_patch_version") in
  ascii_text enc -> no_file cwd f cache -> run (rads_version false solution svpath) pl f = (Done (Some v), pl', f') -> cwd_exists cwd f' ->
  (forall data s, exe data = Ok (Some s) -> Forall version_char s) ->
  forall exe' projects' filepaths' extract' gone', run (rads_patch_version cwd enc base exe' projects' filepaths' extract' gone' false solution svpath) [] f' = (Done (Some v), [], f').
Proof.
  intros cache He Hn E Hcwd Hx exe' projects' filepaths' extract' gone'. pose proof E as E1. apply C64_rads in E1 as (project & suffix & ps & pv & pl0 & pl1 & f0 & pl2 & pl3 & f1 & _ & _ & _ & _ & _ & [[E1 _]|(paths & pl4 & f2 & _ & [[E1 _]|(p & data & v' & Ev & _ & _ & Hv)])]); try discriminate; [|exact Hn].
  injection Ev as <-. apply store in E as (? & ? & ? & ? & _ & _ & _ & Hl); [|exact He | exact Hn | exact Hcwd]. apply Hl. destruct Hv as [? text s ? _ Hs Hp|? s ? Es Hp]; (eapply version_of_clean; [|exact Hp]); [exact (branch_chars _ _ Hs) | exact (Hx _ _ Es)].
Qed.
End Rads.
End Cache.
Print Assumptions C64_yaml.
Print Assumptions C64_metadata.
Print Assumptions C64_hit.
Print Assumptions C64_store.
Print Assumptions C64_none.
Print Assumptions C64_pbe.
Print Assumptions C64_patcher.
Print Assumptions C64_unknown.
Print Assumptions C64_rads_pbe.
Print Assumptions C64_rads.
Print Assumptions C64_rads_again.

(** ** Examples *)

(** A release with its bundle; "compressed" data is reversed. *)
Local Definition w : path := [t "w"].
Local Definition ymls : bytes := bl "branch: 'Release/9.14'".
Local Definition ymlj : bytes := bl "13.14.5".
Local Definition fr : fs := [
  ([t "w"], NDir); ([t "s"; t "w"], NDir); ([t "r"; t "w"], NDir);
  ([t "channels"; t "s"; t "w"], NDir); ([t "public"; t "channels"; t "s"; t "w"], NDir);
  ([t "bundles"; t "public"; t "channels"; t "s"; t "w"], NDir);
  ([t "00000000000000B1.bundle"; t "bundles"; t "public"; t "channels"; t "s"; t "w"], NFile (rev ymls ++ rev ymlj))].
Local Definition unz (b : bytes) : result bytes := Ok (rev b).
Local Definition ck (id off size : N) : chunk := {| c_id := Some id; c_bundle := Some 177; c_offset := off; c_size := Some size; c_target := None |}.
Local Definition mf (name : str) (n : N) (cs : list chunk) : option str * mfile := (Some name, {| f_name := Some name; Rman.f_size := Some n; f_link := None; f_flags := None; f_chunks := cs |}).
Local Definition m0 : manifest := {| m_bundles := []; m_chunks := []; m_flags := []; m_files := [mf (t "system.yaml") 22 [ck 1 0 22]; mf (t "content-metadata.json") 7 [ck 2 22 7]] |}.
Local Definition load0 (b : bytes) : result json := match utf8_dec b with Ok s => Ok (JObj [(t "version", JStr s)]) | Err e => Err e end.
Local Definition no_get (_ : str) : result bytes := Err (OSError EIO).
Local Definition version0 (manif : prog manifest) (name : str) (pl : plan) (f : fs) := run (patcher_version w utf8_enc (t "s") no_get unz (fun s => s) false (t "r") load0 (fun l => l) manif (t "live") name) pl f.
Example C64_patcher_ex : match version0 (Ret m0) (t "client") [] fr, version0 (Ret m0) (t "game") [] fr with
  | (Done (Some v), [], f), (Done (Some v'), [], f') => v_s v = t "9.14" /\ look f [t "patch_version.client"; t "r"; t "w"] = Some (NFile (bl "9.14" ++ leenc 1 10)) /\
      v_s v' = t "13.14" /\ v_t v' = VNum [13; 14]%Z /\ look f' [t "patch_version.game"; t "r"; t "w"] = Some (NFile (bl "13.14" ++ leenc 1 10)) /\
      cwd_exists w f /\ version0 (Rai (OSError EIO)) (t "client") [] f = (Done (Some v), [], f)
  | _, _ => False
  end.
Proof.
  destruct (version0 (Ret m0) (t "client") [] fr) as [[o pl] f] eqn:E. vm_compute in E. injection E as <- <- <-.
  destruct (version0 (Ret m0) (t "game") [] fr) as [[o' pl'] f'] eqn:E'. vm_compute in E'. injection E' as <- <- <-.
  split; [reflexivity|]. split; [vm_compute; reflexivity|]. split; [reflexivity|]. split; [reflexivity|]. split; [vm_compute; reflexivity|]. split; [|vm_compute; reflexivity].
  intros q [l El]. destruct l as [|x [|y l]]; cbn [app] in El; [subst q; vm_compute; reflexivity | injection El as _ <-; reflexivity | discriminate].
Qed.
Example C64_hyps : ascii_text utf8_enc /\ no_file w fr (t "r/patch_version.client") /\ clean_version {| v_s := t "9.14"; v_t := VNum [9; 14]%Z |}.
Proof.
  split; [intros s H; apply utf8_dec_enc; eapply Forall_impl; [|exact H]; intros c Hc; cbn in Hc; unfold scalar; lia|]. split.
  - intros b Hb. assert (G : f_isfile w (t "r/patch_version.client") fr = true) by (apply isfile_iff; eauto). vm_compute in G. discriminate.
  - split; [discriminate|]. split; [apply Forall_forall; intros c Hc; vm_compute in Hc; destruct Hc as [<-|[<-|[<-|[<-|[]]]]]; lia | reflexivity].
Qed.
(** A solution whose version is in the file of its project; one whose list of files is not available; an old one without the file. *)
Local Definition rads0 (r : result (list str)) (n : Z) (pl : plan) (f : fs) :=
  run (rads_patch_version w utf8_enc (t "s") (fun _ => Ok None) (Ret [(t "x", {| v_s := t "x"; v_t := VMain |}); (t "league_client", {| v_s := t "v"; v_t := VNum [0; 0; 0; n]%Z |})])
    (fun _ => lift r) (fun _ p => let~ h := open_w w (t "s/" ++ p) in fwrite h ymls) (fun e => match e with HTTPError => true | _ => false end) false (t "league_client_sln") (t "channels")) pl f.
Example C64_rads_ex : match rads0 (Ok [t "a/b"; t "channels/system.yaml"; t "c/system.yaml"]) 50 [] fr with
  | (Done (Some v), [], f) => v_s v = t "9.14" /\ look f [t "_patch_version"; t "channels"; t "s"; t "w"] = Some (NFile (bl "9.14" ++ leenc 1 10)) | _ => False end /\
  rads0 (Err HTTPError) 50 [] fr = (Done None, [], fr) /\ rads0 (Ok [t "a/b"]) 43 [] fr = (Done None, [], fr) /\ rads0 (Ok [t "a/b"]) 44 [] fr = (Raised ValueError, [], fr).
Proof. vm_compute. repeat split. Qed.

(** ** Refuted claims *)

(** C64: an interruption while the cache is written leaves an empty file, then the element has no version whatever its files. *)
Theorem C64_crash_refuted : exists pl f v, (exists f', version0 (Ret m0) (t "client") [] fr = (Done (Some v), [], f')) /\ version0 (Ret m0) (t "client") pl fr = (Crashed, [], f) /\
  forall manif, version0 manif (t "client") [] f = (Done None, [], f).
Proof.
  exists (repeat None 13 ++ [Some (FCrash 0)]). eexists _, _. split; [eexists; vm_compute; reflexivity|]. split; [vm_compute; reflexivity|]. intros manif. vm_compute. reflexivity.
Qed.
Print Assumptions C64_crash_refuted.
(** C64: "Return patch version or None if there is none": a file without version is an error. *)
Theorem C64_none_refuted : exists f, f = map (fun kv => match snd kv with NFile _ => (fst kv, NFile (rev (bl "branch: 'dev/unstable'"))) | _ => kv end) fr /\
  exists f' data, version0 (Ret m0) (t "client") [] f = (Raised ValueError, [], f') /\ look f' [t "system.yaml"; t "files"; t "r"; t "w"] = Some (NFile data) /\ yaml_version data = Ok None.
Proof. eexists. split; [reflexivity|]. eexists _, (bl "branch: 'dev/unstable'"). split; [vm_compute; reflexivity|]. split; vm_compute; reflexivity. Qed.
Print Assumptions C64_none_refuted.
(** C64: the RADS file is looked up relatively to the current directory instead of the storage: if a file is there, the version is not retrieved. *)
Theorem C64_rads_refuted : exists f p, look f p = None /\ (exists v f', rads0 (Ok [t "channels/system.yaml"]) 50 [] f = (Done (Some v), [], f')) /\
  forall b, rads0 (Ok [t "channels/system.yaml"]) 50 [] (put p (NFile b) f) = (Raised (OSError ENOENT), [], put p (NFile b) f).
Proof.
  exists (([t "channels"; t "w"], NDir) :: fr), [t "system.yaml"; t "channels"; t "w"]. split; [vm_compute; reflexivity|]. split; [eexists _, _; vm_compute; reflexivity|]. intros b. vm_compute. reflexivity.
Qed.
Print Assumptions C64_rads_refuted.
