(** * Vocabulary for the success of downloads *)

From Verif Require Import Base.Py Base.Text Base.Fs Spec.FsSpec Model.Rman Model.Patcher Spec.PatcherSpec.

(** A file can be put at [p]: there is no directory there, and no file in the place of a directory
    leading to it. *)
Definition room (f : fs) (p : path) : Prop :=
  look f p <> Some NDir /\ forall q, strictly_below p q -> look f q = None \/ look f q = Some NDir.

Section Future.
  Variable cwd : path.
  Variable base : str.
  Variable zstd : bytes -> result bytes.
  Variable sha1 : str -> str.
  Variable get : str -> result bytes.
  Notation cdn id := (lit "channels/public/bundles/" ++ hexu 16 id ++ lit ".bundle").

  (** The content of a bundle: that of the storage, otherwise that of the CDN. *)
  Definition bundle_content (f : fs) (id : N) (b : bytes) : Prop :=
    look f (bundle_file cwd base id) = Some (NFile b) \/ (look f (bundle_file cwd base id) = None /\ get (cdn id) = Ok b).
  (** The data of a chunk and the content of a file, according to these bundles. *)
  Definition chunk_content (f : fs) (c : chunk) (d : bytes) : Prop :=
    exists id b, c_bundle c = Some id /\ bundle_content f id b /\
      zstd (match c_size c with
            | Some n => firstn (N.to_nat n) (skipn (N.to_nat (c_offset c)) b)
            | None => skipn (N.to_nat (c_offset c)) b
            end) = Ok d.
  Definition content (f : fs) (m : mfile) (data : bytes) : Prop :=
    exists ds, Forall2 (chunk_content f) (f_chunks m) ds /\ data = concat ds.

  (** There is room for the file, and for its copy in the shared directory. *)
  Definition rooms (sym : bool) (sdir : str) (f : fs) (m : mfile) : Prop :=
    room f (target cwd (extract_path sdir m)) /\ (sym = true -> exists h, digest sha1 m h /\ room f (h :: store_dir cwd base)).
End Future.
