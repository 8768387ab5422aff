(** * Download and listing of solutions: cdtb/rads.py:200-215, 241-307, 400-406, 439-449, 475-488, 529-568 *)

From Verif Require Import Base.Py Base.Text Base.Lines Base.Utf8 Base.Fs Model.Version Model.Stream Model.Files Model.Rads.

Section RadsDownload.
  Variable cwd : path.
  Variable base : str.
  (** [zlib.decompressobj] *)
  Variable zst : Type.
  Variable zinit : zst.
  Variable zstep : zst -> bytes -> result (zst * bytes).
  Variable zflush : zst -> result bytes.
  (** Bodies of the responses to [request_get], and to [stream] in chunks. *)
  Variable get : str -> result bytes.
  Variable net : str -> result (list bytes).
  (** The order of a set of project versions. *)
  Variable order : list pv -> list pv.

  (** rads.py:403-406, 445-446; the version is the text of the version *)
  Definition pv_path (p : pv) : str := lit "projects/" ++ fst p ++ lit "/releases/" ++ snd p.
  (** rads.py:155, 212-213 *)
  Definition sv_path (name version : str) : str := lit "solutions/" ++ name ++ lit "/releases/" ++ version.

  (** rads.py:475-488 [_get_package_files], [filepaths].  The cache [_package_files] of an object is not
      modelled: the file, which is not removed in between, is read again.  The file is decoded as a whole. *)
  Definition get_package_files (p : pv) : prog (list (str * pkgfile)) :=
    let m := pv_path p ++ lit "/packagemanifest" in
    let~ _ := download cwd base m false (get (pv_path p ++ lit "/packages/files/packagemanifest")) in
    let~ data := read_file cwd (fspath base m) in
    let~ text := lift (utf8_dec data) in
    let~ l := lift (from_package_manifest text) in
    Ret (package_files l).
  (** rads.py:529-533 [RadsProjectVersion.download] *)
  Definition pv_download (p : pv) : prog unit :=
    let m := pv_path p ++ lit "/releasemanifest" in
    let~ _ := download cwd base m false (get m) in
    let~ all := get_package_files p in
    rads_extract cwd base zst zinit zstep zflush net (pv_path p) all None.

  (** rads.py:241-295 [dependencies], [projects] *)
  Definition sv_projects (name version : str) (langs : langs_arg) : prog (list pv) :=
    let m := sv_path name version ++ lit "/solutionmanifest" in
    let~ _ := download cwd base m false (get m) in
    let~ data := read_file cwd (fspath base m) in
    let~ text := lift (utf8_dec data) in
    let~ deps := lift (dependencies name version text) in
    let~ ps := lift (projects langs deps) in
    Ret (order ps).
  (** rads.py:302-307 [RadsSolutionVersion.download], 552-553 [RadsPatchElement.download] *)
  Definition sv_download (name version : str) (langs : langs_arg) : prog unit :=
    let~ ps := sv_projects name version langs in for_each ps pv_download.

  (** rads.py:297-300 [filepaths] mapped with [h], as the caller asks for the values one by one. *)
  Fixpoint each_path {A} (h : str -> result A) (ps : list pv) : prog (list A) :=
    match ps with
    | [] => Ret []
    | p :: t =>
      let~ all := get_package_files p in
      let~ r := lift (rmapM h (dkeys all)) in
      let~ r' := each_path h t in
      Ret (r ++ r')
    end.
  Definition sv_paths {A} (h : str -> result A) (name version : str) (langs : langs_arg) : prog (list A) :=
    let~ ps := sv_projects name version langs in each_path h ps.
  (** [path.split('/', 5)[5].lower()] *)
  Fixpoint after_slashes (n : nat) (p : str) : result str :=
    match n with
    | O => Ok p
    | S k => match cut_first cSlash p with Some (_, r) => after_slashes k r | None => Err IndexError end
    end.
  Definition relpath (p : str) : result str := rmap lower (after_slashes 5 p).
  (** rads.py:555-568 *)
  Definition elem_fspaths := sv_paths (fun p => Ok (fspath base p)).
  Definition elem_relpaths := sv_paths relpath.
  Definition elem_paths := sv_paths (fun p => let! r := relpath p in Ok (fspath base p, r)).
End RadsDownload.
