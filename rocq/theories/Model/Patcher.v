(** * The patcher storage: cdtb/patcher.py *)

From Verif Require Import Base.Py Base.Text Base.Fs Model.Files Model.Rman.

(** ** Texts *)

(** [s.replace(old, new)] for a non-empty [old]: occurrences from left to right, not overlapping.
    [skip] is the number of characters of the current occurrence still to be dropped. *)
Fixpoint replace_go (old new s : str) (skip : nat) : str :=
  match s with
  | [] => []
  | c :: t =>
    match skip with
    | S k => replace_go old new t k
    | O => if startswith s old then new ++ replace_go old new t (length old - 1)
           else c :: replace_go old new t 0
    end
  end.
Definition str_replace (old new s : str) : str := replace_go old new s 0.

(** [f"{n:016X}"]; a negative number has its sign first, in the same width.  None has no such format. *)
Definition hexuZ (z : Z) : str := match z with Zneg p => cMinus :: hexu 15 (Npos p) | _ => hexu 16 (Z.to_N z) end.
Definition fmt_id (o : option N) : result str := rmap (hexu 16) (of_opt TypeError o).

(** [os.path.abspath(s)] as the list of its names, innermost first ([cwd] is the current directory):
    "" and "." are dropped, ".." removes the name before it. *)
Definition abs_names (cwd : path) (s : str) : path :=
  fold_left (fun acc c => if eqb c dotdot then tl acc else c :: acc) (comps s) (if is_abs s then [] else cwd).
(** Length of the common prefix of two lists ([os.path.commonprefix]). *)
Fixpoint common (a b : list str) : nat :=
  match a, b with x :: a', y :: b' => if eqb x y then S (common a' b') else 0 | _, _ => 0 end.
(** [os.path.relpath(s, start)] *)
Definition relpath (cwd : path) (s start : str) : str :=
  let sl := rev (abs_names cwd start) in
  let pl := rev (abs_names cwd s) in
  let i := common sl pl in
  let rel := repeat dotdot (length sl - i) ++ skipn i pl in
  match rel with [] => [cDot] | _ => join [cSlash] rel end.

(** ** Manifest URLs *)

(** patcher.py:309 [URL_BASE] *)
Definition url_base : str := lit "https://lol.dyn.riotcdn.net/".

(** The argument of [download_manifest]. *)
Inductive manifest_ref := MUrl (s : str) | MId (n : Z).

(** [re.match(r"^channels/public/releases/([0-9A-F]{16})\.manifest$", s)]: the group.  [$] also
    matches before a final newline. *)
Definition match_manifest (s : str) : option str :=
  let pre := lit "channels/public/releases/" in
  if startswith s pre then
    let r := drop_prefix pre s in
    let h := takeN 16 r in
    let post := dropN 16 r in
    if (lenN h =? 16) && forallb is_upper_hex h &&
       (eqb post (lit ".manifest") || eqb post (lit ".manifest" ++ [cNL])) then Some h else None
  else None.

(** patcher.py:416-425: the manifest identifier *)
Definition manifest_id (a : manifest_ref) : result Z :=
  match a with
  | MUrl u =>
    let u := str_replace (lit ".secure.") (lit ".") u in
    if startswith u url_base then
      match match_manifest (drop_prefix url_base u) with
      | Some h => int16 h
      | None => Err ValueError
      end
    else Err ValueError
  | MId n => Ok n
  end.
(** patcher.py:427 *)
Definition manifest_path (n : Z) : str := lit "channels/public/releases/" ++ hexuZ n ++ lit ".manifest".

Section Patcher.
  (** Current directory of the process and path of the storage. *)
  Variable cwd : path.
  Variable base : str.
  (** Answers of the CDN, by path. *)
  Variable get : str -> result bytes.
  (** [pyzstd.decompress] and [hashlib.sha1(..).hexdigest()]. *)
  Variable zstd : bytes -> result bytes.
  Variable sha1 : str -> str.
  (** [use_extract_symlinks] *)
  Variable symlinks : bool.

  (** patcher.py:413-429 [download_manifest] *)
  Definition download_manifest (a : manifest_ref) : prog str :=
    let~ n := lift (manifest_id a) in
    let p := manifest_path n in
    let~ _ := download cwd base p false (get p) in
    Ret p.

  (** patcher.py:431-436 [download_bundle] *)
  Definition bundle_path (id : option N) : result str :=
    rmap (fun h => lit "channels/public/bundles/" ++ h ++ lit ".bundle") (fmt_id id).
  Definition download_bundle (id : option N) : prog unit :=
    let~ p := lift (bundle_path id) in
    download cwd base p false (get p).

  (** patcher.py:438-444 [load_chunk].  Opening, seeking and reading are one call; [f.read(None)]
      reads everything. *)
  Definition chunk_slice (c : chunk) (data : bytes) : bytes :=
    match c_size c with Some n => takeN n (dropN (c_offset c) data) | None => dropN (c_offset c) data end.
  Definition load_chunk (c : chunk) : prog bytes :=
    let~ p := lift (bundle_path (c_bundle c)) in
    let~ data := read_file cwd (fspath base p) in
    lift (zstd (chunk_slice c data)).

  (** patcher.py:56-61 [hexdigest]: of the text of the chunk identifiers *)
  Definition hexdigest (f : mfile) : result str :=
    rmap (fun l => sha1 (concat l)) (rmapM (fun c => fmt_id (c_id c)) (f_chunks f)).

  (** patcher.py:446-469 [PatcherStorage.extract_file] *)
  Definition write_chunks (f : mfile) (h : path) : prog unit :=
    for_each (f_chunks f) (fun c => let~ d := load_chunk c in fwrite h d).
  Definition extract_real (f : mfile) (real : str) : prog unit :=
    let~ b := isfile cwd real in
    if b : bool then Ret tt else write_file_or_remove cwd real (write_chunks f).
  Definition make_link (real output : str) : prog unit :=
    let~ _ := catch (remove cwd output) (fun x => if is_oserror x then Ret tt else Rai x) in
    let~ _ := makedirs cwd (dirname output) in
    symlink cwd (relpath cwd real (dirname output)) output.
  Definition store_path (h : str) : str := fspath base (lit "cdtb/files/" ++ h).
  Definition extract_to (f : mfile) (output : str) : prog unit :=
    if symlinks then
      let~ h := lift (hexdigest f) in
      let~ _ := extract_real f (store_path h) in
      make_link (store_path h) output
    else extract_real f output.

  (** ** One element of a release *)

  (** [storage_dir] of the release and the manifest of the element. *)
  Variable storage_dir : str.
  Variable manif : manifest.
  (** [str.lower] *)
  Variable lower : str -> str.

  (** patcher.py:568-570 [extract_path] *)
  Definition extract_path (f : mfile) : str :=
    storage_dir ++ lit "/files/" ++ match f_name f with Some n => n | None => lit "None" end.
  (** [os.path.getsize(s)]; the size of a directory is taken as 0 *)
  Definition getsize (s : str) : prog N :=
    sys (fun f => let! p := locate cwd f true s in
                  match look f p with
                  | Some (NFile b) => Ok (lenN b, f)
                  | Some _ => Ok (0, f)
                  | None => Err (OSError ENOENT)
                  end).
  (** patcher.py:572-575 [is_extracted_file] *)
  Definition is_extracted (f : mfile) : prog bool :=
    let~ b := isfile cwd (extract_path f) in
    if b : bool then
      let~ n := getsize (extract_path f) in
      Ret (match Rman.f_size f with Some m => n =? m | None => false end)
    else Ret false.
  (** patcher.py:577-583 [extract_file] *)
  Definition extract_file (overwrite : bool) (f : mfile) : prog unit :=
    let~ skip := (if overwrite then Ret false else is_extracted f) in
    if skip : bool then Ret tt else extract_to f (extract_path f).

  (** [[f for f in self.manif.filter_files(langs) if not f.link]] *)
  Definition no_link (f : mfile) : bool := match f_link f with None | Some [] => true | _ => false end.
  Definition selected (langs : langs_arg) : result (list mfile) := rmap (filter no_link) (filter_files lower manif langs).

  (** patcher.py:546-552 [bundle_ids], then [sorted()]: None cannot be compared with a number *)
  Fixpoint not_extracted (l : list mfile) : prog (list mfile) :=
    match l with
    | [] => Ret []
    | f :: t => let~ b := is_extracted f in let~ r := not_extracted t in Ret (if b : bool then r else f :: r)
    end.
  Definition ids_of (l : list mfile) : list (option N) := set_of (flat_map (fun f => map c_bundle (f_chunks f)) l).
  Definition opt_lt (a b : option N) : bool := match a, b with Some x, Some y => x <? y | _, _ => false end.
  Definition sort_ids (l : list (option N)) : result (list (option N)) :=
    if mem None l && (1 <? lenN l) then Err TypeError else Ok (py_sorted opt_lt l).
  Definition bundle_ids (langs : langs_arg) (skip_extracted : bool) : prog (list (option N)) :=
    let~ files := lift (selected langs) in
    let~ files := (if skip_extracted then not_extracted files else Ret files) in
    lift (sort_ids (ids_of files)).
  (** patcher.py:554-558 [download_bundles]: [bundle_ids], then the pool of the jobs
      [download_bundle(id)].  One thread per job: every schedule of the eight workers is one of its
      interleavings. *)
  Definition bundle_jobs (ids : list (option N)) : list (prog unit) := map download_bundle ids.

  (** patcher.py:560-566 [extract].  File names are the keys of a dict: at most one is None. *)
  Definition name_lt (a b : mfile) : bool := match f_name a, f_name b with Some x, Some y => str_lt x y | _, _ => false end.
  Definition sort_files (l : list mfile) : result (list mfile) :=
    if existsb (fun f => match f_name f with None => true | _ => false end) l && (1 <? lenN l) then Err TypeError
    else Ok (py_sorted name_lt l).
  Definition extract (langs : langs_arg) (overwrite : bool) : prog unit :=
    let~ files := lift (selected langs) in
    let~ files := lift (sort_files files) in
    for_each files (extract_file overwrite).
End Patcher.
