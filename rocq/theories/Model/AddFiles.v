(** * Files of a patch: cdtb/export.py:131-162 *)

From Verif Require Import Base.Py Base.Text Model.Wad Model.Exporter.

Section AddFiles.
  Variable gunzip unzstd : bytes -> result bytes.
  Variable xxh3 : bytes -> N.
  Variable json_loads : bytes -> result unit.
  (** Content of source files, which do not change. *)
  Variable content : str -> result bytes.
  (** [default_hashfile(path).load()] *)
  Variable hashes : str -> result (list (N * str)).

  (** export.py:139 *)
  Definition is_wad (src : str) : bool := endswith src (lit ".wad") || endswith src (lit ".wad.client").
  (** export.py:140-144 (and wad.py:190-196); the extension cache is global state. *)
  Definition load_wad (c : cache) (src : str) : result (cache * ewad) :=
    let! f := content src in
    let! h := hashes src in
    let! wd := open_wad gunzip unzstd xxh3 h f in
    let files := filter (fun w => negb (w_type w =? 2)) (wad_files wd) in
    let! (c', files) := guess_extensions gunzip unzstd xxh3 json_loads f (wad_toc wd) c files in
    Ok (c', {| ew_src := src; ew_files := sanitize_paths files; ew_toc := wad_toc wd |}).
  (** export.py:131-147 [add_path] *)
  Definition add_path (st : cache * exporter) (sd : str * str) : result (cache * exporter) :=
    let '(c, e) := st in
    let '(src, dst) := sd in
    if is_wad src then
      let! (c', w) := load_wad c src in
      Ok (c', {| ex_wads := dset dst w (ex_wads e); ex_plain := ex_plain e |})
    else Ok (c, {| ex_wads := ex_wads e; ex_plain := dset dst src (ex_plain e) |}).
  (** export.py:157-160: the loop of [add_patch_files] over the paths of all elements, already downloaded. *)
  Fixpoint add_paths (st : cache * exporter) (l : list (str * str)) : result (cache * exporter) :=
    match l with
    | [] => Ok st
    | sd :: l => let! st := add_path st sd in add_paths st l
    end.
  (** export.py:403-417 [_create_exporter], without the converters. *)
  Definition add_patch_files (c : cache) (l : list (str * str)) : result (cache * exporter) := add_paths (c, {| ex_wads := []; ex_plain := [] |}) l.
End AddFiles.
