(** * Vocabulary for the extraction of archives *)

From Verif Require Import Base.Py Base.Text Base.Fs Spec.FsSpec Model.Wad.

(** Physical path at which an entry is extracted. *)
Definition dest (cwd : path) (output : str) (w : wfile) : path :=
  target cwd (path_join output (match w_path w with Some p => p | None => [] end)).
(** The entry has a path without '..' and no symbolic link is on the way. *)
Definition good (cwd : path) (output : str) (f : fs) (w : wfile) : Prop :=
  exists p, w_path w = Some p /\ ready cwd (path_join output p) f.
