(** * Vocabulary for statements about files *)

From Verif Require Import Base.Py Base.Text Base.Fs.

(** [p] is [q] or lies below it (physical paths, innermost name first). *)
Definition below (p q : path) : Prop := exists l, p = l ++ q.
Definition strictly_below (p q : path) : Prop := exists x l, p = x :: l ++ q.

(** No symbolic link at [p] or at one of the directories leading to it. *)
Definition nolink (f : fs) (p : path) : Prop :=
  forall q t, below p q -> look f q <> Some (NLink t).

(** The file designated by a text without '..', when no link is involved. *)
Definition target (cwd : path) (s : str) : path := rev (comps s) ++ (if is_abs s then [] else cwd).

(** A path that names a file in a named directory, without '..'. *)
Definition plain_path (s : str) : Prop :=
  ~ In dotdot (comps s) /\ dirname s <> [] /\ basename s <> [] /\ basename s <> [cDot].

(** [f'] is [f] except at [t] and except that missing directories leading to [t] may exist. *)
Definition only_file (t : path) (f f' : fs) : Prop :=
  forall q, look f' q = look f q \/ q = t \/
    (look f q = None /\ look f' q = Some NDir /\ strictly_below t q).
(** The same for a set of files. *)
Definition only_files (T : path -> Prop) (f f' : fs) : Prop :=
  forall q, look f' q = look f q \/ T q \/
    (look f q = None /\ look f' q = Some NDir /\ exists t, T t /\ strictly_below t q).
Definition same_fs (f f' : fs) : Prop := forall q, look f' q = look f q.

Definition is_file (f : fs) (p : path) : Prop := exists b, look f p = Some (NFile b).

(** Number of failures in a plan. *)
Fixpoint failures (pl : plan) : nat :=
  match pl with [] => 0 | Some _ :: t => S (failures t) | None :: t => failures t end.

(** Every node is in a directory. *)
Definition fs_wf (f : fs) : Prop := forall x p, look f (x :: p) <> None -> look f p = Some NDir.
(** The situation in which the theorems about one written file are stated: a well-formed
    filesystem with an existing current directory, and no symbolic link on the way to the file. *)
Definition ready (cwd : path) (s : str) (f : fs) : Prop :=
  plain_path s /\ nolink f (target cwd s) /\ fs_wf f /\ look f cwd = Some NDir.
(** A name that can be that of a file. *)
Definition valid_name (c : str) : Prop := c <> [] /\ c <> [cDot] /\ c <> dotdot /\ ~ In cSlash c.
(** Neither path is at or below the other. *)
Definition apart (p q : path) : Prop := ~ below p q /\ ~ below q p.
