(** * Links to the files of the previous patch: cdtb/export.py:476-501 *)

From Verif Require Import Base.Py Base.Text Base.Fs Base.FsTree Base.FsReal Model.Patcher.

Section Symlinks.
  Variable cwd : path.

  (** export.py:484-501: one link.  [src_output] is the output directory of the previous patch. *)
  Definition create_link (output src_output link : str) : prog unit :=
    let dst := path_join output link in
    let~ e := lexists cwd dst in
    if e : bool then
      let~ l := islink cwd dst in
      if negb l then Rai RuntimeError else Ret tt
    else
      let~ _ := makedirs cwd (dirname dst) in
      let~ s := query (fun f => realpath cwd f (path_join src_output link)) in
      let~ d := query (fun f => realpath cwd f (dirname dst)) in
      catch (symlink cwd (relpath cwd s d) dst)
        (fun x => match x with OSError (EINVAL | ENAMETOOLONG) => Ret tt | _ => Rai x end).
  (** export.py:476-501 [_create_symlinks]; [prev] is the text of the previous version. *)
  Definition create_symlinks (output prev : str) (links : list str) : prog unit :=
    for_each links (create_link output (path_join (dirname output) prev)).
End Symlinks.
