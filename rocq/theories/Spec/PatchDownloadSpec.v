(** * Vocabulary for the files of several elements *)

From Verif Require Import Base.Py Base.Text Base.Fs Spec.FsSpec Model.Rman Model.Patcher Spec.PatcherSpec Model.ReleaseJobs.

(** A file of an element, with the directory of its release, and its place. *)
Definition outp (x : str * mfile) : str := extract_path (fst x) (snd x).
(** The files of all the elements; an element is given by the directory of its release, its manifest and its files. *)
Definition files_of (parts : list (str * manifest * list mfile)) : list (str * mfile) := flat_map (fun p => map (pair (fst (fst p))) (snd p)) parts.
(** The usable place [o'] is not one of [outs], nor inside or around one of them. *)
Definition outside (cwd : path) (base : str) (outs : list str) (o' : str) (f : fs) : Prop := out_ready cwd base o' f /\
  forall o, In o outs -> target cwd o' <> target cwd o /\ ~ strictly_below (target cwd o') (target cwd o) /\ ~ strictly_below (target cwd o) (target cwd o').

(** What the download of a patch may change: the places of the files, their copies in the shared directory, and missing
    bundles of the CDN. *)
Definition patch_touches (cwd : path) (base : str) (get : str -> result bytes) (sha1 : str -> str) (sym : bool) (fl : list (str * mfile)) (f : fs) (q : path) : Prop :=
  (exists x, In x fl /\ q = target cwd (outp x)) \/
  (sym = true /\ exists x h, In x fl /\ digest sha1 (snd x) h /\ q = h :: store_dir cwd base) \/
  (exists id data, get (lit "channels/public/bundles/" ++ hexu 16 id ++ lit ".bundle") = Ok data /\ ~ is_file f (bundle_file cwd base id) /\ q = bundle_file cwd base id).

(** Any number of downloads of a patch, of any outcomes, during which requests may fail. *)
Inductive attempts (cwd : path) (base : str) (get : str -> result bytes) (zstd : bytes -> result bytes) (sha1 : str -> str) (sym : bool) (lower : str -> str) (langs : langs_arg)
  (els : list (str * manifest)) : fs -> fs -> Prop :=
| att_none f : attempts cwd base get zstd sha1 sym lower langs els f f
| att_more get' f r f1 f2 : (forall p b, get' p = Ok b -> get p = Ok b) -> patch_download cwd base get' zstd sha1 sym lower langs els f r f1 ->
    attempts cwd base get zstd sha1 sym lower langs els f1 f2 -> attempts cwd base get zstd sha1 sym lower langs els f f2.
