(** * Specification of the files of TFT and Arena data *)

From Verif Require Import Base.Py Base.Text Base.Fs Spec.FsSpec.

(** The file of a language. *)
Definition lang_file (cwd : path) (output lang : str) : path := (lang ++ lit ".json") :: target cwd output.
(** The files can be written there: no symbolic links, and languages are names. *)
Definition exportable (cwd : path) (f : fs) (output : str) (langs : list str) : Prop :=
  output <> [] /\ ~ In dotdot (comps output) /\ fs_wf f /\ look f cwd = Some NDir /\ nolink f (target cwd output) /\
  forall l, In l langs -> ~ In cSlash l /\ forall t, look f (lang_file cwd output l) <> Some (NLink t).
(** Nothing is in the way. *)
Definition unobstructed (cwd : path) (f : fs) (output : str) (langs : list str) : Prop :=
  (forall q, below (target cwd output) q -> look f q = None \/ look f q = Some NDir) /\ forall l, In l langs -> look f (lang_file cwd output l) <> Some NDir.

(** The content of a file. *)
Definition content (cwd : path) (f : fs) (s : str) (b : bytes) : Prop := exists q, locate cwd f true s = Ok q /\ look f q = Some (NFile b).
(** String tables are files, none of which is overwritten. *)
Definition readable (cwd : path) (f : fs) (output : str) (langs : list str) (tables : list (str * str)) : Prop :=
  forall l p, In (l, p) tables -> exists q b, locate cwd f true p = Ok q /\ look f q = Some (NFile b) /\ forall l', In l' langs -> q <> lang_file cwd output l'.

(** The same files with more directories, leading to [d]. *)
Definition more_dirs (d : path) (f g : fs) : Prop := forall q, look g q = look f q \/ look f q = None /\ look g q = Some NDir /\ below d q.
(** Only files of languages, and the directories leading to them, have changed. *)
Definition only_langs (cwd : path) (output : str) (langs : list str) (f f' : fs) : Prop :=
  forall q, look f' q = look f q \/ (exists l, In l langs /\ q = lang_file cwd output l) \/ look f q = None /\ look f' q = Some NDir /\ below (target cwd output) q.

(** The languages to export: those of the string tables by default. *)
Definition langs_of (langs : option (list str)) (tables : list (str * str)) : list str := match langs with None => map fst tables | Some l => l end.

Section Spec.
  Context {T L I : Type}.
  Variable load : bytes -> result L.
  Variable instance : T -> L -> result I.
  Variable dump : I -> list bytes * option exn.
  Variable cwd : path.
  Variable f : fs.
  Variable tables : list (str * str).
  Variable t : T.

  (** The data in a language, from its string table, and their JSON text. *)
  Definition data_in (lang : str) (text : bytes) : Prop :=
    exists p b tr i, In (lang, p) tables /\ content cwd f p b /\ load b = Ok tr /\ instance t tr = Ok i /\ snd (dump i) = None /\ text = concat (fst (dump i)).
End Spec.
