(** * Extraction of WAD archives: cdtb/wad.py:132-156, 308-327 *)

From Verif Require Import Base.Py Base.Text Base.Fs Model.Files Model.Wad.

Section Extract.
  Variable gunzip unzstd : bytes -> result bytes.
  Variable xxh3 : bytes -> N.
  Variable cwd : path.

  (** wad.py:132-156 [WadFileHeader.extract].  [wadf] is the content of the WAD, assumed not to
      change during the extraction; reading it is a system call that may fail. *)
  Definition extract_entry (wadf : bytes) (toc : option bytes) (w : wfile) (output_path : str) : prog unit :=
    let~ data :=
      catch (sys (fun f => rmap (fun d => (d, f)) (read_data gunzip unzstd xxh3 wadf w toc)))
        (fun e => match e with MalformedSubchunkError _ => Ret None | _ => Rai e end) in
    match data with
    | None => Ret tt
    | Some d =>
      catch (write_file_or_remove cwd output_path (fun h => fwrite h d))
        (fun e => match e with OSError EINVAL | OSError ENAMETOOLONG => Ret tt | _ => Rai e end)
    end.

  (** wad.py:320-327, one entry.  [wadfile.path] is set by then (see [wad_extract]). *)
  Definition extract_step (wadf : bytes) (toc : option bytes) (output : str) (overwrite : bool) (w : wfile) : prog unit :=
    match w_path w with
    | None => Rai TypeError
    | Some p =>
      let output_path := path_join output p in
      let~ skip := (if overwrite then Ret false else exists_ cwd output_path) in
      if skip : bool then Ret tt else extract_entry wadf toc w output_path
    end.

  (** wad.py:308-327 [Wad.extract].  Returns nothing; the objects of [files] are renamed in place. *)
  Definition extracted_files (files : list wfile) : list wfile :=
    set_unknown_paths (lit "unknown") (sanitize_paths files).
  Definition wad_extract (wadf : bytes) (toc : option bytes) (files : list wfile) (output : str) (overwrite : bool) : prog unit :=
    for_each (extracted_files files) (extract_step wadf toc output overwrite).
End Extract.
