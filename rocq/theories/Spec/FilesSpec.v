(** * Vocabulary for downloads *)

From Verif Require Import Base.Py Base.Text Base.Fs Spec.FsSpec Model.Files.

(** The execution did not crash and, if it raised, its last system call (the removal of the
    incomplete file) was not itself made to fail. *)
Definition clean {A} (o : outcome A) (pl pl' : plan) : Prop :=
  match o with
  | Done _ => True
  | Raised _ => forall u x, pl <> u ++ Some x :: pl'
  | Crashed => False
  end.

(** Successive downloads without [force], by one or several processes: (path, response, failures). *)
Fixpoint downloads (cwd : path) (base : str) (l : list (str * result bytes * plan)) (f : fs) : fs :=
  match l with
  | [] => f
  | (p, resp, pl) :: l' => downloads cwd base l' (snd (run (download cwd base p false resp) pl f))
  end.

(** Successive clean downloads of one path, with their responses. *)
Inductive clean_downloads (cwd : path) (base p : str) : list (result bytes) -> fs -> fs -> Prop :=
| cd_nil f : clean_downloads cwd base p [] f f
| cd_cons resp rs pl f o pl' f1 f2 :
    run (download cwd base p false resp) pl f = (o, pl', f1) -> clean o pl pl' ->
    clean_downloads cwd base p rs f1 f2 -> clean_downloads cwd base p (resp :: rs) f f2.
