(** * Patch versions of elements: cdtb/storage.py:428-454, cdtb/patcher.py:585-637, cdtb/rads.py:309-391

    Parameters: [load] is [json.load] on the content of a file, [exe] is [get_exe_version] on the content of a file,
    [enc] is the text encoding of written files.  Files are read as UTF-8. *)

From Verif Require Import Base.Py Base.Text Base.Utf8 Base.Fs Model.Version Model.Files Model.Rman Model.Patcher Model.Releases.

(** Universal newlines of text files *)
Fixpoint newlines (s : str) : str :=
  match s with
  | [] => []
  | c :: t => if c =? 13 then match t with d :: t' => if d =? cNL then cNL :: newlines t' else cNL :: newlines t | [] => [cNL] end else c :: newlines t
  end.
Definition text_of (data : bytes) : result str := rmap newlines (utf8_dec data).

(** The expression of storage.py:433, on a line without its end:
    [^ *(?:game-|)branch: .*["'/]([0-9.]+)["']?$] *)
Definition is_quote (c : N) : bool := (c =? 34) || (c =? 39).
Definition is_vchar (c : N) : bool := is_digit c || (c =? cDot).
Fixpoint span (p : N -> bool) (s : str) : str * str :=
  match s with
  | [] => ([], [])
  | c :: t => if p c then let '(a, b) := span p t in (c :: a, b) else ([], s)
  end.
Definition version_end (s : str) : option str :=
  let r := rev s in
  let r := match r with q :: t => if is_quote q then t else r | [] => [] end in
  match span is_vchar r with
  | ((_ :: _) as v, q :: _) => if is_quote q || (q =? cSlash) then Some (rev v) else None
  | _ => None
  end.
Definition yaml_line (line : str) : option str :=
  let r := lstrip (N.eqb 32) line in
  let r := if startswith r (lit "game-") then skipn 5 r else r in
  if startswith r (lit "branch: ") then version_end (skipn 8 r) else None.
(** storage.py:428-437 [get_system_yaml_version] *)
Fixpoint first_version (lines : list str) : option str :=
  match lines with
  | [] => None
  | l :: t => match yaml_line l with Some v => Some v | None => first_version t end
  end.
Definition yaml_version (data : bytes) : result (option str) := rmap (fun s => first_version (split_ch cNL s)) (text_of data).

(** The expression of storage.py:451: [^(\d+\.\d+)\.].  Simplification: ASCII digits only. *)
Definition metadata_match (s : str) : option str :=
  match span is_digit s with
  | ((_ :: _) as a, d :: t) =>
    if d =? cDot then
      match span is_digit t with
      | ((_ :: _) as b, e :: _) => if e =? cDot then Some (a ++ cDot :: b) else None
      | _ => None
      end
    else None
  | _ => None
  end.
(** storage.py:447-454 [get_content_metadata_version] *)
Definition metadata_version (load : bytes -> result json) (data : bytes) : result (option str) :=
  let! d := load data in
  let! v := jget (lit "version") d in
  match v with JStr s => Ok (metadata_match s) | _ => Err TypeError end.

(** [PatchVersion(v)] *)
Definition version_of (v : option str) : result version :=
  match v with None => Err ValueError | Some s => patch_version (ArgStr s) end.

Section Cache.
  Variable cwd : path.
  Variable enc : str -> bytes.

  (** patcher.py:595-608, rads.py:319-332 *)
  Definition read_cache (cache : str) : prog (option version) :=
    let~ data := read_file cwd cache in
    let~ s := lift (text_of data) in
    match strip is_space s with
    | [] => Ret None
    | s => let~ v := lift (patch_version (ArgStr s)) in Ret (Some v)
    end.
  Definition write_cache (cache : str) (v : version) : prog unit :=
    let~ h := open_w cwd cache in
    with_close (write_pieces [enc (v_s v ++ [cNL])] None h).
  Definition cached_version (cache : str) (retrieve : prog (option version)) : prog (option version) :=
    let~ b := isfile cwd cache in
    if b : bool then read_cache cache
    else
      let~ v := retrieve in
      match v with
      | None => Ret None
      | Some v => let~ _ := write_cache cache v in Ret (Some v)
      end.
  Definition main_version : version := {| v_s := lit "main"; v_t := VMain |}.

  (** ** Patcher *)

  Section Patcher.
    Variable base : str.
    Variable get : str -> result bytes.
    Variable zstd : bytes -> result bytes.
    Variable sha1 : str -> str.
    Variable symlinks : bool.
    Variable storage_dir : str.
    Variable load : bytes -> result json.
    (** The order of a set of bundles. *)
    Variable order : list (option N) -> list (option N).

    (** patcher.py:610-637; [manif] is the (downloaded) manifest. *)
    Definition retrieve_patcher (manif : prog manifest) (name : str) : prog (option version) :=
      let~ (file_name, extractor) := lift (
        if eqb name (lit "client") then Ok (lit "system.yaml", yaml_version)
        else if eqb name (lit "game") then Ok (lit "content-metadata.json", metadata_version load)
        else Err KeyError) in
      let~ m := manif in
      let~ file := lift (of_opt KeyError (dget (Some file_name) (m_files m))) in
      let~ e := is_extracted cwd storage_dir file in
      let~ _ := (if e : bool then Ret tt else for_each (order (ids_of [file])) (download_bundle cwd base get)) in
      let~ _ := extract_file cwd base zstd sha1 symlinks storage_dir false file in
      let~ data := read_file cwd (extract_path storage_dir file) in
      let~ v := lift (extractor data) in
      let~ v := lift (version_of v) in
      Ret (Some v).
    (** patcher.py:585-608 [PatcherReleaseElement.patch_version] *)
    Definition patcher_version (manif : prog manifest) (patchline name : str) : prog (option version) :=
      if eqb patchline (lit "pbe") then Ret (Some main_version)
      else cached_version (storage_dir ++ lit "/patch_version." ++ name) (retrieve_patcher manif name).
  End Patcher.

  (** ** RADS *)

  Section Rads.
    Variable base : str.
    Variable exe : bytes -> result (option str).
    (** Projects of the solution, [pv.filepaths()], [pv.extract([path])], and whether an exception is a 404 error. *)
    Variable projects : prog (list (str * version)).
    Variable filepaths : str * version -> prog (list str).
    Variable extract : str * version -> str -> prog unit.
    Variable gone : exn -> bool.

    (** rads.py:334-391 *)
    Definition retrieve_rads (solution : str) : prog (option version) :=
      let~ (project, file_name, extractor) := lift (
        if eqb solution (lit "league_client_sln") then Ok (lit "league_client", lit "system.yaml", yaml_version)
        else if eqb solution (lit "lol_game_client_sln") then Ok (lit "lol_game_client", lit "League of Legends.exe", exe)
        else Err RuntimeError) in
      let~ ps := projects in
      let~ pv := lift (of_opt ValueError (find (fun p => eqb (fst p) project) ps)) in
      let~ paths := catch (let~ l := filepaths pv in Ret (Some l)) (fun e => if gone e then Ret None else Rai e) in
      match paths with
      | None => Ret None
      | Some paths =>
        match find (fun p => endswith p (cSlash :: file_name)) paths with
        | Some p =>
          let~ b := isfile cwd p in
          let~ _ := (if b : bool then Ret tt else extract pv p) in
          let~ data := read_file cwd (fspath base p) in
          let~ v := lift (extractor data) in
          let~ v := lift (version_of v) in
          Ret (Some v)
        | None =>
          if eqb (fst pv) (lit "league_client") then
            let~ last := lift (rads_version (ArgStr (lit "0.0.0.43"))) in
            let~ old := lift (v_le (snd pv) last) in
            if old : bool then Ret None else Rai ValueError
          else Rai ValueError
        end
      end.
    (** rads.py:309-332 [RadsSolutionVersion.patch_version]; [pbe]: the storage is that of PBE; [svpath] is the path of the
        solution version. *)
    Definition rads_patch_version (pbe : bool) (solution svpath : str) : prog (option version) :=
      if pbe then Ret (Some main_version)
      else cached_version (fspath base (svpath ++ lit "/_patch_version")) (retrieve_rads solution).
  End Rads.
End Cache.
