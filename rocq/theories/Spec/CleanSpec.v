(** * Specification of the cleaning of the output directory *)

From Verif Require Import Base.Py Base.Text Base.Fs Spec.FsSpec.

(** Text of a relative path (innermost name first). *)
Definition rel (q : path) : str := join [cSlash] (rev q).

(** The file at relative path [q] below [d] is examined: it is not in a kept directory. *)
Definition visible (kept : list str) (q : path) : Prop := forall r, strictly_below q r -> r <> [] -> ~ In (rel r) kept.
(** A file or a link that has to be removed. *)
Definition extra (kept links : list str) (d : path) (f : fs) (p : path) : Prop :=
  exists q, p = q ++ d /\ q <> [] /\ visible kept q
  /\ ((exists t, look f p = Some (NLink t)) /\ ~ In (rel q) links \/ is_file f p /\ ~ In (rel q) kept).
(** A directory which leads to such a file. *)
Definition leads (kept links : list str) (d : path) (f : fs) (p : path) : Prop :=
  look f p = Some NDir /\ exists t, extra kept links d f t /\ strictly_below t p.

(** An output directory without links or '..' on its way, and files with regular names. *)
Definition clean_ready (cwd : path) (output : str) (f : fs) : Prop :=
  output <> [] /\ ~ In dotdot (comps output) /\ nolink f (target cwd output) /\ fs_wf f /\ (forall x p, look f (x :: p) <> None -> valid_name x)
  /\ forall b, look f (target cwd output) <> Some (NFile b).
