(** * Guarded writes and downloads: cdtb/tools.py, cdtb/storage.py *)

From Verif Require Import Base.Py Base.Text Base.Fs.

Section Files.
  (** Current directory of the process. *)
  Variable cwd : path.

  (** tools.py:24-40 [write_file_or_remove], around the block [body] (which gets the open file). *)
  Definition write_file_or_remove {A} (s : str) (body : path -> prog A) : prog A :=
    catch
      (let~ _ := makedirs cwd (dirname s) in
       let~ h := open_w cwd s in
       with_close (body h))
      (fun e =>
       let~ _ := catch (remove cwd s) (fun x => if is_oserror x then Ret tt else Rai x) in
       Rai e).

  (** A block that writes pieces one after the other, then possibly raises. *)
  Definition write_pieces (pieces : list bytes) (raises : option exn) (h : path) : prog unit :=
    let~ _ := for_each pieces (fwrite h) in
    match raises with Some e => Rai e | None => Ret tt end.

  (** storage.py:236-238 [Storage.fspath]. *)
  Definition fspath (base p : str) : str := path_join base p.

  (** storage.py:240-255 [Storage.download].  [resp] is the body of the response to
      [request_get(urlpath)], or the exception raised by it or by [raise_for_status()]. *)
  Definition download (base : str) (p : str) (force : bool) (resp : result bytes) : prog unit :=
    let fp := fspath base p in
    let get :=
      let~ data := lift resp in
      write_file_or_remove fp (fun h => fwrite h data) in
    if force then get
    else let~ b := isfile cwd fp in if b : bool then Ret tt else get.
End Files.
