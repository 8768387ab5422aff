(** * RADS: cdtb/rads.py (listings are in Model.Storage) *)

From Verif Require Import Base.Py Base.Text Base.Lines Base.Fs Model.Version Model.Stream Model.Files.

(** ** Package manifests *)

(** rads.py:571-585 [BinPackageFile] *)
Record pkgfile := {
  k_path : str; k_package : str; k_offset : Z; k_size : Z; k_compressed : bool; k_extract : str
}.
Definition parse_pkg_line (line : str) : result pkgfile :=
  match split_ch cComma line with
  | [path; package; offset; size; _] =>
    let path := dropN 1 path in
    let! offset := int10 offset in
    let! size := int10 size in
    let compressed := endswith path (lit ".compressed") in
    Ok {| k_path := path; k_package := package; k_offset := offset; k_size := size; k_compressed := compressed;
          k_extract := if compressed then py_take path (-11) else path |}
  | _ => Err ValueError
  end.
(** rads.py:590-596 [from_package_manifest], on the decoded content of the file. *)
Definition from_package_manifest (text : str) : result (list pkgfile) :=
  match file_lines (nl_norm text) with
  | l :: ls => if startswith l (lit "PKG1") then rmapM parse_pkg_line ls else Err AssertionError
  | [] => Err AssertionError
  end.
(** rads.py:483 [_get_package_files] *)
Definition package_files (l : list pkgfile) : list (str * pkgfile) :=
  dict_of (map (fun pf => (k_extract pf, pf)) l).

(** ** Solution manifests *)

(** data.py:7-38 [Language] *)
Definition languages : list str := [
  lit "ar_ae"; lit "ar_eg"; lit "cs_cz"; lit "de_de"; lit "el_gr"; lit "en_au"; lit "en_gb"; lit "en_ph"; lit "en_pl";
  lit "en_sg"; lit "en_us"; lit "es_ar"; lit "es_es"; lit "es_mx"; lit "fr_fr"; lit "hu_hu"; lit "id_id"; lit "it_it";
  lit "ja_jp"; lit "ko_kr"; lit "ms_my"; lit "pl_pl"; lit "pt_br"; lit "ro_ro"; lit "ru_ru"; lit "th_th"; lit "tr_tr";
  lit "vi_vn"; lit "vn_vn"; lit "zh_cn"; lit "zh_my"; lit "zh_tw" ].

(** A project version: names of the project and of the version ([==] and [hash] use these texts). *)
Definition pv := (str * str)%type.

(** rads.py:262-271 *)
Fixpoint read_projects (n : nat) (lines : list str) (idx : Z) (required : list str) (projects : list (str * pv))
  : result (Z * list str * list (str * pv)) :=
  match n with
  | O => Ok (idx, required, projects)
  | S k =>
    match py_slice lines idx (idx + 4) with
    | [name; version; u1; u2] =>
      let! u1 := int10 u1 in
      let! u2 := int10 u2 in
      let! required :=
        (if (u1 =? 0)%Z then Ok (required ++ [name])
         else if (u1 =? 10)%Z then Ok required else Err AssertionError) in
      if negb (u2 =? 0)%Z then Err AssertionError else
      let! v := rads_version (ArgStr version) in
      read_projects k lines (idx + 4) required (dset name (name, v_s v) projects)
    | _ => Err ValueError
    end
  end.
(** rads.py:275-280 *)
Fixpoint read_langs (n : nat) (lines : list str) (idx : Z) (projects : list (str * pv)) (langs : list (option str * list pv))
  : result (list (option str * list pv)) :=
  match n with
  | O => Ok langs
  | S k =>
    match py_slice lines idx (idx + 3) with
    | [lang; u1; ndeps] =>
      let! u1 := int10 u1 in
      let! ndeps := int10 ndeps in
      if negb (u1 =? 0)%Z then Err AssertionError else
      let deps := py_slice lines (idx + 3) (idx + 3 + ndeps) in
      if negb (mem lang languages) then Err ValueError else
      let! pvs := rmapM (fun name => of_opt KeyError (dget name projects)) deps in
      read_langs k lines (idx + 3 + ndeps) projects (dset (Some lang) pvs langs)
    | _ => Err ValueError
    end
  end.
Definition assert_line (lines : list str) (i : Z) (expected : str) : result unit :=
  let! l := py_nth lines i in if eqb l expected then Ok tt else Err AssertionError.
(** rads.py:241-283 [RadsSolutionVersion.dependencies], on the decoded manifest; [name] and
    [version] are those of the solution version.  The dictionary keys are languages or None. *)
Definition dependencies (name version : str) (text : str) : result (list (option str * list pv)) :=
  let lines := splitlines (nl_norm text) in
  let! _ := assert_line lines 0 (lit "RADS Solution Manifest") in
  let! _ := assert_line lines 1 (lit "1.0.0.0") in
  let! _ := assert_line lines 2 name in
  let! _ := assert_line lines 3 version in
  let! l := py_nth lines 4 in
  let! nprojects := int10 l in
  let! (idx, required, projects) := read_projects (Z.to_nat nprojects) lines 5 [] [] in
  let! l := py_nth lines idx in
  let! nlangs := int10 l in
  let! langs := read_langs (Z.to_nat nlangs) lines (idx + 1) projects [] in
  let! req := rmapM (fun name => of_opt KeyError (dget name projects)) required in
  Ok (dset None req langs).

(** rads.py:285-295 [RadsSolutionVersion.projects].  Sets are listed in an arbitrary order. *)
Inductive langs_arg := LFalse | LTrue | LOne (l : str) | LMany (ls : list str).
Definition projects (langs : langs_arg) (deps : list (option str * list pv)) : result (list pv) :=
  match langs with
  | LFalse => of_opt KeyError (dget None deps)
  | LTrue => Ok (set_of (concat (dvals deps)))
  | LOne l => of_opt KeyError (dget (Some l) deps)
  | LMany ls =>
    let! pvss := rmapM (fun l => of_opt KeyError (dget (Some l) deps)) ls in
    Ok (set_of (concat pvss))
  end.

(** ** Extraction *)

(** rads.py:505-508: grouping by package, in order of first appearance. *)
Definition group_add (d : list (str * list pkgfile)) (pf : pkgfile) : list (str * list pkgfile) :=
  dset (k_package pf) (match dget (k_package pf) d with Some l => l | None => [] end ++ [pf]) d.
Definition by_package (l : list pkgfile) : list (str * list pkgfile) := fold_left group_add l [].
(** rads.py:515 [sorted(files, key=lambda f: f.offset)] *)
Definition by_offset : list pkgfile -> list pkgfile := py_sorted (fun a b => (k_offset a <? k_offset b)%Z).

Section Extract.
  Variable cwd : path.
  (** Path of the storage. *)
  Variable base : str.
  (** [zlib.decompressobj]: its states, [decompress] and [flush]. *)
  Variable zst : Type.
  Variable zinit : zst.
  Variable zstep : zst -> bytes -> result (zst * bytes).
  Variable zflush : zst -> result bytes.
  (** [storage.stream(urlpath)]: the chunks received, or an exception. *)
  Variable net : str -> result (list bytes).

  (** rads.py:521-524 *)
  Fixpoint zwrite (h : path) (z : zst) (ws : list bytes) : prog zst :=
    match ws with
    | [] => Ret z
    | w :: t =>
      let~ (z', out) := lift (zstep z w) in
      let~ _ := fwrite h out in zwrite h z' t
    end.
  (** rads.py:520-527: the block writing one file, given what [reader.copy] does (data passed to
      the writer, stream afterwards, exception).  The calls of the writer are interleaved with the
      reads of the stream; the latter have no effect on the disk. *)
  Definition pkg_block (compressed : bool) (ws : list bytes) (st2 : stream) (e2 : option exn) (h : path) : prog stream :=
    if compressed then
      let~ z := zwrite h zinit ws in
      match e2 with
      | Some x => Rai x
      | None => let~ last := lift (zflush z) in let~ _ := fwrite h last in Ret st2
      end
    else
      let~ _ := for_each ws (fwrite h) in
      match e2 with Some x => Rai x | None => Ret st2 end.
  (** rads.py:516-527, one file. *)
  Definition extract_pkgfile (st : stream) (pf : pkgfile) : prog stream :=
    let '(_, st1, e) := stream_skip_to (k_offset pf) st in
    match e with
    | Some x => Rai x
    | None =>
      write_file_or_remove cwd (fspath base (k_extract pf)) (fun h =>
        let '(ws, st2, e2) := stream_copy true (k_size pf) st1 in
        pkg_block (k_compressed pf) ws st2 e2 h)
    end.
  Fixpoint extract_stream (st : stream) (files : list pkgfile) : prog unit :=
    match files with
    | [] => Ret tt
    | pf :: t => let~ st' := extract_pkgfile st pf in extract_stream st' t
    end.

  (** rads.py:503 *)
  Fixpoint filter_missing (l : list pkgfile) : prog (list pkgfile) :=
    match l with
    | [] => Ret []
    | pf :: t =>
      let~ b := isfile cwd (fspath base (k_extract pf)) in
      let~ r := filter_missing t in
      Ret (if b : bool then r else pf :: r)
    end.

  (** rads.py:490-527 [RadsProjectVersion.extract]; [pvpath] is [self.path], [all] the dictionary
      of [_get_package_files()]. *)
  Definition rads_extract (pvpath : str) (all : list (str * pkgfile)) (paths : option (list str)) : prog unit :=
    let~ files := lift (match paths with
                        | None => Ok (dvals all)
                        | Some ps => rmapM (fun p => of_opt KeyError (dget p all)) ps
                        end) in
    let~ missing := filter_missing files in
    for_each (by_package missing) (fun g =>
      let~ chunks := lift (net (pvpath ++ lit "/packages/files/" ++ fst g)) in
      extract_stream (stream_open chunks) (by_offset (snd g))).
End Extract.
