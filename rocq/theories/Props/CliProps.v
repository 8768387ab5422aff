(** * C43, C44, C45: choice of storages, patches and exporters *)

From Coq Require Import Sorted.
From Verif Require Import Base.Py Base.Text Base.PyFacts Base.TextFacts Model.Version Model.Storage Model.Component Model.Cli
  Spec.VersionSpec Spec.StorageSpec Spec.CliSpec Proofs.CliProofs.

Local Definition mkv (s : String.string) : version :=
  match patch_version (ArgStr (lit s)) with Ok v => v | Err _ => {| v_s := []; v_t := VMain |} end.
Arguments mkv s%string_scope.
Local Definition mkp (s : String.string) (i : N) : patch := {| p_ver := mkv s; p_elems := [{| e_name := lit "game"; e_ver := mkv s; e_id := i |}] |}.
Arguments mkp s%string_scope i.
Local Definition dirs (l : list str) : list (str * bool) := map (fun s => (s, true)) l.
Local Definition stored : list patch := [mkp "9.10" 4; mkp "9.3" 3; mkp "9.2" 2; mkp "9.1" 1].
Local Definition listing (b : bool) : list element := (if b then [] else p_elems (mkp "9.11" 5)) ++ flat_map p_elems stored.
Local Definition shown (es : list raw_exporter) := map (fun e => (re_output e, ptext (re_patch e), option_map ptext (re_previous e), re_symlinks e)) es.

(** C43: one exporter for each patch with a version directory, from [first] on, oldest first, each one compared
    to the previous selected one.  This needs an older stored patch, or all version directories to be known. *)
Theorem C43_directory entries ps output first links : no_short_name entries -> newest_first first ps ->
  (exists p, In p ps /\ older first p) \/ (forall t, wanted entries t -> exists p, In p ps /\ ptext p = t /\ ~ older first p) ->
  exists sel es, from_directory entries ps output first links = Ok es /\ chained output links None (rev sel) es
  /\ subseq sel ps /\ forall p, In p ps -> (In p sel <-> wanted entries (ptext p) /\ ~ older first p).
Proof. exact (from_directory_ok entries ps output first links). Qed.
Print Assumptions C43_directory.

Example C43_ex : rmap shown (from_directory ((lit "9.3", false) :: dirs [lit "9.1"; lit "9.10"; lit "latest"; lit "9.2"]) stored (lit "out//") (Some (mkv "9.2")) None)
  = Ok [(lit "out/9.2", lit "9.2", None, false); (lit "out/9.10", lit "9.10", Some (lit "9.2"), true)].
Proof. reflexivity. Qed.
Example C43_hyps : no_short_name ((lit "9.3", false) :: dirs [lit "9.1"; lit "9.10"; lit "latest"; lit "9.2"]) /\ newest_first (Some (mkv "9.2")) stored
  /\ exists p, In p stored /\ older (Some (mkv "9.2")) p.
Proof.
  split; [|split].
  - intros path e H. cbn [dirs map In] in H. repeat (destruct H as [H|H]; [try discriminate; injection H as <-|]); try contradiction; intros Ee; vm_compute in Ee; congruence || (left; congruence).
  - split.
    + repeat constructor; cbn; intuition discriminate.
    + split; [eexists; reflexivity|]. split; [repeat constructor; eexists; reflexivity|].
      repeat match goal with
      | |- StronglySorted _ [] => constructor
      | |- StronglySorted _ (_ :: _) => constructor
      | |- StronglySorted _ _ => unfold stored
      | |- Forall _ [] => constructor
      | |- Forall _ (_ :: _) => constructor
      | |- forall _ _, _ => intros x y Hx Hy; vm_compute in Hx; vm_compute in Hy; injection Hx as <-; injection Hy as <-
      | |- comps_before (9 :: _)%Z _ => apply (before_diff [9%Z]); lia
      end.
  - exists (mkp "9.1" 1). split; [cbn; auto|]. exists [9; 1]%Z, [9; 2]%Z. split; [reflexivity|]. split; [reflexivity|]. apply (before_diff [9%Z]). lia.
Qed.

(** C43: an exporter makes links when it is told to, or by default when there is a patch to compare to.  Links without such a patch are refused. *)
Theorem C43_exporter output p prev links e :
  raw_exporter_init output p prev links = Ok e <->
  re_output e = normpath output /\ re_patch e = p /\ re_previous e = prev /\ (re_symlinks e = true -> prev <> None)
  /\ (links = Some (re_symlinks e) \/ links = None /\ (prev <> None -> re_symlinks e = true)).
Proof. exact (exporter_init output p prev links e). Qed.
Theorem C43_refused output p prev links err : raw_exporter_init output p prev links = Err err <-> err = ValueError /\ links = Some true /\ prev = None.
Proof. exact (exporter_refused output p prev links err). Qed.
Print Assumptions C43_exporter.
Print Assumptions C43_refused.
Example C43_exporter_ex : rmap re_symlinks (raw_exporter_init (lit "out") (mkp "9.2" 2) None None) = Ok false /\ rmap re_symlinks (raw_exporter_init (lit "out") (mkp "9.2" 2) (Some (mkp "9.1" 1)) None) = Ok true
  /\ raw_exporter_init (lit "out") (mkp "9.2" 2) None (Some true) = Err ValueError.
Proof. repeat split; reflexivity. Qed.

(** C43: an unknown version directory is an error when no stored patch is older than [first]. *)
Theorem C43_missing entries ps output first links t : no_short_name entries -> newest_first first ps -> (forall p, In p ps -> ~ older first p) ->
  wanted entries t -> (forall p, In p ps -> ptext p <> t) -> from_directory entries ps output first links = Err ValueError.
Proof. exact (from_directory_missing entries ps output first links t). Qed.
Print Assumptions C43_missing.
Example C43_missing_ex : from_directory (dirs [lit "9.2"; lit "9.4"]) stored (lit "out") None None = Err ValueError.
Proof. reflexivity. Qed.

(** C43: otherwise an unknown version directory is silently ignored. *)
Theorem C43_missing_refuted : exists entries ps first es, wanted entries (lit "9.4") /\ (forall p, In p ps -> ptext p <> lit "9.4")
  /\ v_lt (mkv "9.4") first = Ok false /\ from_directory entries ps (lit "out") (Some first) None = Ok es.
Proof.
  exists (dirs [lit "9.2"; lit "9.4"]), stored, (mkv "9.2"). eexists. split; [|split; [|split; reflexivity]].
  - exists (lit "9.4"), (mkv "9.4"). split; [cbn; auto | split; reflexivity].
  - intros p H. cbn [stored In] in H. repeat (destruct H as [<-|H]; [discriminate|]). destruct H.
Qed.
Print Assumptions C43_missing_refuted.

(** C43: a version directory older than [first] is an error when no stored patch is older. *)
Theorem C43_old_refuted : exists entries ps first, (forall t, wanted entries t -> v_lt (mkv "9.1") first = Ok true /\ (t = lit "9.1" \/ exists p, In p ps /\ ptext p = t))
  /\ from_directory entries ps (lit "out") (Some first) None = Err ValueError.
Proof.
  exists (dirs [lit "9.1"; lit "9.2"]), [mkp "9.3" 3; mkp "9.2" 2], (mkv "9.2"). split; [|reflexivity].
  intros t (path & v & Hi & Hv & <-). split; [reflexivity|]. cbn [dirs map In] in Hi. destruct Hi as [Hi|[Hi|[]]]; injection Hi as <-; vm_compute in Hv; injection Hv as <-; [left; reflexivity | right].
  exists (mkp "9.2" 2). split; [cbn; auto | reflexivity].
Qed.
Print Assumptions C43_old_refuted.

(** C43: a directory whose name is a single number is not ignored: it makes the export fail. *)
Theorem C43_name_refuted : exists entries, from_directory entries stored (lit "out") None None = Err AssertionError.
Proof. exists (dirs [lit "9.2"; lit "2024"]). reflexivity. Qed.
Print Assumptions C43_name_refuted.

(** C43: a numeric [first] cannot be compared to the "main" patch of PBE. *)
Theorem C43_main_refuted : exists ps, from_directory (dirs [lit "main"]) ps (lit "out") (Some (mkv "9.2")) None = Err TypeError.
Proof. exists [mkp "main" 1]. reflexivity. Qed.
Print Assumptions C43_main_refuted.

(** C44: with a patch (and no --from), that patch alone is exported, compared to the given patch, to none or to the stored one just before. *)
Theorem C44_patch listing entries a arg ps stored : patches (listing false) = Ok ps -> patches (listing true) = Ok stored ->
  xa_patch a = Some arg -> arg <> [] -> given (xa_first a) = false -> forall es ow,
  command_export listing entries a = Ok (es, ow) <->
  exists p prev, asked ps arg p /\ compared stored p (xa_previous a) prev /\ (xa_symlinks a = true -> prev <> None) /\ ow = negb (xa_lazy a)
  /\ es = [{| re_output := normpath (path_join (xa_output a) (ptext p)); re_patch := p; re_previous := prev; re_symlinks := xa_symlinks a |}].
Proof. exact (command_export_spec listing entries a arg ps stored). Qed.
Print Assumptions C44_patch.
Local Definition args p prev links := {| xa_output := lit "out"; xa_symlinks := links; xa_previous := prev; xa_first := None; xa_lazy := true; xa_patch := p |}.
Example C44_ex1 : rmap (fun r => (shown (fst r), snd r)) (command_export listing [] (args (Some (lit "9.10")) None true)) = Ok ([(lit "out/9.10", lit "9.10", Some (lit "9.3"), true)], false).
Proof. reflexivity. Qed.
Example C44_ex2 : rmap (fun r => (shown (fst r), snd r)) (command_export listing [] (args (Some (lit "latest")) (Some (lit "9.1")) false)) = Ok ([(lit "out/9.11", lit "9.11", Some (lit "9.1"), false)], false).
Proof. reflexivity. Qed.
Example C44_ex3 : rmap (fun r => (shown (fst r), snd r)) (command_export listing [] (args (Some (lit "9.1")) (Some (lit "none")) false)) = Ok ([(lit "out/9.1", lit "9.1", None, false)], false).
Proof. reflexivity. Qed.

(** C44: usage errors are reported: unknown patch, unknown previous patch, patch not stored, --from with a patch, --previous without. *)
Theorem C44_errors listing entries a ps stored : patches (listing false) = Ok ps -> patches (listing true) = Ok stored ->
  (exists arg, xa_patch a = Some arg /\ arg <> [] /\ (xa_first a <> None /\ xa_first a <> Some []
     \/ arg <> lit "latest" /\ (forall p, In p ps -> ptext p <> arg)
     \/ exists p, asked ps arg p /\ ((exists t, xa_previous a = Some t /\ t <> [] /\ t <> lit "none" /\ forall q, In q stored -> ptext q <> t)
          \/ (xa_previous a = None \/ xa_previous a = Some []) /\ forall q, In q stored -> ptext q <> ptext p)))
  \/ (xa_patch a = None \/ xa_patch a = Some []) /\ xa_previous a <> None /\ xa_previous a <> Some [] ->
  command_export listing entries a = Err SysExit.
Proof. exact (command_export_errors listing entries a ps stored). Qed.
Print Assumptions C44_errors.
Example C44_errors_ex : command_export listing [] (args (Some (lit "9.4")) None false) = Err SysExit /\ command_export listing [] (args (Some (lit "9.3")) (Some (lit "9.11")) false) = Err SysExit
  /\ command_export listing [] (args (Some (lit "latest")) None false) = Err SysExit.
Proof. repeat split; reflexivity. Qed.

(** C44: the oldest stored patch cannot be exported without telling what to compare to: an uncaught StopIteration. *)
Theorem C44_oldest_refuted : exists listing a, command_export listing [] a = Err StopIteration
  /\ exists ps p, patches (listing true) = Ok ps /\ In p ps /\ xa_patch a = Some (ptext p).
Proof.
  exists listing, (args (Some (lit "9.1")) None false). split; [reflexivity|]. exists stored, (mkp "9.1" 1). split; [reflexivity|]. split; [cbn; auto | reflexivity].
Qed.
Print Assumptions C44_oldest_refuted.

(** C44: without a patch, nothing is ever updated, whatever the arguments: --from is refused when given, and its absence is an error too. *)
Theorem C44_update_never listing entries a : given (xa_patch a) = false -> exists e, command_export listing entries a = Err e.
Proof. exact (command_update listing entries a). Qed.
Print Assumptions C44_update_never.
Theorem C44_update_refuted : exists listing entries a ps first es, patches (listing true) = Ok ps /\ xa_patch a = None /\ xa_previous a = None /\ xa_first a = Some (v_s first)
  /\ from_directory entries ps (xa_output a) (Some first) (Some (xa_symlinks a)) = Ok es /\ es <> [] /\ command_export listing entries a = Err SysExit.
Proof.
  exists listing, (dirs [lit "9.2"; lit "9.3"]), {| xa_output := lit "out"; xa_symlinks := false; xa_previous := None; xa_first := Some (lit "9.2"); xa_lazy := false; xa_patch := None |}, stored, (mkv "9.2").
  eexists. split; [reflexivity|]. split; [reflexivity|]. split; [reflexivity|]. split; [reflexivity|]. split; [reflexivity|]. split; [discriminate | reflexivity].
Qed.
Print Assumptions C44_update_refuted.

Section Args.
Variables isdir isfile : str -> bool.
Variable load_json : str -> result conf.
Variable cdn_url : str -> option str.
(** C45: --patchline selects the patchline of the storage given by argument or environment when it is a patcher one… *)
Theorem C45_honoured env arg p c path l : storage_path env arg p -> storage_conf_from_path isdir isfile load_json p = Ok c ->
  dget (lit "type") c = Some (lit "patcher") -> dget (lit "path") c = Some path ->
  parse_storage_args isdir isfile load_json cdn_url env arg (Some l) = Ok (PatcherStorage path l true).
Proof. exact (args_patchline isdir isfile load_json cdn_url env arg p c path l). Qed.
(** … is refused for other types of storage… *)
Theorem C45_rejected env arg p c l : storage_path env arg p -> storage_conf_from_path isdir isfile load_json p = Ok c ->
  dget (lit "type") c <> Some (lit "patcher") -> parse_storage_args isdir isfile load_json cdn_url env arg (Some l) = Err SysExit.
Proof. exact (args_rejected isdir isfile load_json cdn_url env arg p c l). Qed.
(** … and otherwise the configured patchline or the live one is used. *)
Theorem C45_absent env arg p c path : storage_path env arg p -> storage_conf_from_path isdir isfile load_json p = Ok c ->
  dget (lit "type") c = Some (lit "patcher") -> dget (lit "path") c = Some path -> exists l,
  parse_storage_args isdir isfile load_json cdn_url env arg None = Ok (PatcherStorage path l true)
  /\ (dget (lit "patchline") c = Some l \/ dget (lit "patchline") c = None /\ l = lit "live").
Proof. exact (args_default isdir isfile load_json cdn_url env arg p c path). Qed.
(** C45: a RADS storage uses the configured URL or the one of the configured CDN; both together are refused. *)
Theorem C45_rads c st : dget (lit "type") c = Some (lit "rads") ->
  (from_conf cdn_url c = Ok st <-> exists path url, st = RadsStorage path url /\ dget (lit "path") c = Some path
   /\ (dget (lit "cdn") c = None /\ url = dget (lit "url") c \/ exists n u, dget (lit "cdn") c = Some n /\ dget (lit "url") c = None /\ cdn_url n = Some u /\ url = Some u)).
Proof. exact (conf_rads cdn_url c st). Qed.
Theorem C45_both c n u : dget (lit "type") c = Some (lit "rads") -> dget (lit "cdn") c = Some n -> dget (lit "url") c = Some u -> from_conf cdn_url c = Err ValueError.
Proof. exact (conf_both cdn_url c n u). Qed.
(** C45: other types are refused. *)
Theorem C45_unknown c t : dget (lit "type") c = Some t -> t <> lit "patcher" -> t <> lit "rads" -> from_conf cdn_url c = Err ValueError.
Proof. exact (conf_unknown cdn_url c t). Qed.
(** C45: without storage path the option is ignored. *)
Theorem C45_default_refuted : exists l, parse_storage_args isdir isfile load_json cdn_url None None (Some l) = Ok (PatcherStorage (lit "cdn") (lit "live") true) /\ l <> lit "live".
Proof. exists (lit "pbe"). split; [reflexivity | discriminate]. Qed.
End Args.
Print Assumptions C45_honoured.
Print Assumptions C45_rejected.
Print Assumptions C45_absent.
Print Assumptions C45_default_refuted.
Print Assumptions C45_rads.
Print Assumptions C45_both.
Print Assumptions C45_unknown.
Local Definition nofile (_ : str) := false.
Local Definition nojson (_ : str) : result conf := Err ValueError.
Local Definition nourl (_ : str) : option str := None.
Example C45_ex : parse_storage_args nofile nofile nojson nourl (Some (lit "rads:RADS")) (Some (lit "patcher:cdn")) (Some (lit "pbe")) = Ok (PatcherStorage (lit "cdn") (lit "pbe") true).
Proof. reflexivity. Qed.
Example C45_rads_ex : let c := [(lit "type", lit "rads"); (lit "cdn", lit "pbe"); (lit "path", lit "RADS")] in
  from_conf (fun _ => Some (lit "http://l3cdn")) c = Ok (RadsStorage (lit "RADS") (Some (lit "http://l3cdn")))
  /\ from_conf (fun _ => Some (lit "http://l3cdn")) (dset (lit "url") (lit "http://x") c) = Err ValueError /\ from_conf nourl (dset (lit "type") (lit "wad") c) = Err ValueError.
Proof. repeat split; reflexivity. Qed.
Example C45_env_ex : parse_storage_args nofile nofile nojson nourl (Some (lit "cdn")) None (Some (lit "pbe")) = Ok (PatcherStorage (lit "cdn") (lit "pbe") true).
Proof. reflexivity. Qed.
Example C45_rejected_ex : parse_storage_args nofile nofile nojson nourl (Some (lit "cdn")) (Some (lit "rads:RADS")) (Some (lit "pbe")) = Err SysExit.
Proof. reflexivity. Qed.
