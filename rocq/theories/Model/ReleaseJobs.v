(** * Download and extraction of a whole release: cdtb/patcher.py:507-517, 554-566; of patches: cdtb/storage.py:423-425, cdtb/patcher.py:646-648

    A release is the list of the manifests of its elements.  Simplification: the manifests are already in the storage,
    so that reading them changes nothing (their download is in Model/PatcherList).  System calls do not fail. *)

From Verif Require Import Base.Py Base.Text Base.Fs Model.Files Model.Rman Model.Patcher.

(** The end of a job, and what [ThreadPool.map] does then: it waits for all jobs, and raises one of their exceptions. *)
Definition job_ended (p : prog unit) : Prop := match p with Act _ _ => False | _ => True end.
Inductive pool_outcome (ps : list (prog unit)) : outcome unit -> Prop :=
| pool_done : Forall (fun p => p = Ret tt) ps -> pool_outcome ps (Done tt)
| pool_raised e : In (Rai e) ps -> pool_outcome ps (Raised e).

Section Release.
  Variable cwd : path.
  Variable base : str.
  Variable get : str -> result bytes.
  Variable zstd : bytes -> result bytes.
  Variable sha1 : str -> str.
  Variable symlinks : bool.
  Variable storage_dir : str.
  Variable lower : str -> str.
  Variable langs : langs_arg.

  (** patcher.py:554-558 [PatcherReleaseElement.download_bundles]: the outcomes and the states of the storage after it. *)
  Inductive element_download (skip : bool) (m : manifest) (f : fs) : outcome unit -> fs -> Prop :=
  | ed_ids e f1 : run (bundle_ids cwd storage_dir m lower langs skip) [] f = (Raised e, [], f1) -> element_download skip m f (Raised e) f1
  | ed_pool ids f1 ps f2 r : run (bundle_ids cwd storage_dir m lower langs skip) [] f = (Done ids, [], f1) ->
      interleave false (bundle_jobs cwd base get ids, f1) (ps, f2) -> Forall job_ended ps -> pool_outcome ps r -> element_download skip m f r f2.
  (** patcher.py:507-511 [PatcherRelease.download_bundles] *)
  Inductive release_download (skip : bool) : list manifest -> fs -> outcome unit -> fs -> Prop :=
  | rd_end f : release_download skip [] f (Done tt) f
  | rd_next m l f f1 r f2 : element_download skip m f (Done tt) f1 -> release_download skip l f1 r f2 -> release_download skip (m :: l) f r f2
  | rd_stop m l f e f1 : element_download skip m f (Raised e) f1 -> release_download skip (m :: l) f (Raised e) f1.
  (** patcher.py:513-517 [PatcherRelease.extract] *)
  Definition release_extract (l : list manifest) (overwrite : bool) : prog unit :=
    for_each l (fun m => extract cwd base zstd sha1 symlinks storage_dir m lower langs overwrite).
End Release.

Section Patch.
  Variable cwd : path.
  Variable base : str.
  Variable get : str -> result bytes.
  Variable zstd : bytes -> result bytes.
  Variable sha1 : str -> str.
  Variable symlinks : bool.
  Variable lower : str -> str.
  Variable langs : langs_arg.

  (** storage.py:423-425 [Patch.download] with patcher.py:646-648 [PatcherPatchElement.download].  Elements are given by
      the [storage_dir] of their release and their manifest. *)
  Inductive patch_download : list (str * manifest) -> fs -> outcome unit -> fs -> Prop :=
  | pd_end f : patch_download [] f (Done tt) f
  | pd_next s m l f f1 f2 r f3 : element_download cwd base get s lower langs true m f (Done tt) f1 ->
      run (extract cwd base zstd sha1 symlinks s m lower langs false) [] f1 = (Done tt, [], f2) -> patch_download l f2 r f3 -> patch_download ((s, m) :: l) f r f3
  | pd_bundles s m l f e f1 : element_download cwd base get s lower langs true m f (Raised e) f1 -> patch_download ((s, m) :: l) f (Raised e) f1
  | pd_extract s m l f f1 e f2 : element_download cwd base get s lower langs true m f (Done tt) f1 ->
      run (extract cwd base zstd sha1 symlinks s m lower langs false) [] f1 = (Raised e, [], f2) -> patch_download ((s, m) :: l) f (Raised e) f2.
End Patch.
