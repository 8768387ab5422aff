(** * Vocabulary for the extraction of meshes *)

From Verif Require Import Base.Py Base.Text Base.Bin Base.Fs Spec.FsSpec Model.Skn Spec.SknSpec Proofs.SknProofs Props.SknProps Spec.PatchCacheSpec.

(** A file which lays out a mesh. *)
Definition mesh_at (cwd : path) (f : fs) (s : str) (k : skn) : Prop :=
  exists data x rest, has_content cwd f s data /\ mesh_ok x /\ data = mesh_bytes x ++ rest /\ same_skn k x.
(** The file of a submesh in directory [R]. *)
Definition obj_at (R : path) (n : str) : path := (n ++ lit ".obj") :: R.
(** The text of a submesh. *)
Definition triangles (e : sknentry) (fs : list (N * N * N)) : Prop := e_indices e = flat_map (fun f => [fst (fst f); snd (fst f); snd f]) fs.
Definition submesh_text (show : N -> str) (e : sknentry) (t : str) : Prop :=
  exists fs, triangles e fs /\ t = obj_lines (flat_map (vertex_words show) (e_vertices e) ++ map (fun f => face_words (fst (fst f)) (snd (fst f)) (snd f)) fs).
(** The last submesh of its name. *)
Definition last_named (k : skn) (e : sknentry) : Prop := exists l1 l2, k_entries k = l1 ++ e :: l2 /\ ~ In (e_name e) (map e_name l2).

(** Output directory [rt], reached without [..] nor links; files to write are not links. *)
Record output_ready (cwd : path) (rt : str) (names : list str) (f : fs) : Prop := {
  or_wf : fs_wf f;
  or_cwd : look f cwd = Some NDir;
  or_dots : ~ In dotdot (comps rt);
  or_links : nolink f (target cwd rt);
  or_files : forall n t, In n names -> look f (obj_at (target cwd rt) n) <> Some (NLink t) }.
(** Names without separator. *)
Definition flat_names (names : list str) : Prop := forall n, In n names -> ~ In cSlash n.
(** Nothing prevents the creation of directory [R] and of the files in it. *)
Definition unblocked (R : path) (names : list str) (f : fs) : Prop :=
  (forall q, below R q -> look f q = None \/ look f q = Some NDir) /\ forall n, In n names -> look f (obj_at R n) <> Some NDir.
(** What the command may change. *)
Definition objs_only (R : path) (names : list str) (f f' : fs) : Prop :=
  forall q, look f' q = look f q \/ (exists n, In n names /\ q = obj_at R n) \/ (look f q = None /\ look f' q = Some NDir /\ below R q).
