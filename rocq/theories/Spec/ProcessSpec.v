(** * Specification of the export of a patch *)

From Coq Require Import Sorted.
From Verif Require Import Base.Py Base.Text Base.Fs Spec.FsSpec Model.Wad Model.Exporter Model.Convert Spec.ExportTreeSpec Spec.ExporterSpec Spec.ConvertSpec Spec.CleanSpec.

(** A relative path made of regular names, not in the directory of the lists. *)
Definition regular (x : str) : Prop := Forall valid_name (parts x) /\ hd [] (parts x) <> lit "cdragon".

(** The situation before an export of [e]; [K] are the paths to keep or produce:
    - the output directory can be cleaned, it does not contain the current directory, and there is another file in its
      parent directory (or in a directory of it), so that this one cannot disappear;
    - paths are regular and none is also the directory of another one;
    - there are no links inside the directories of exploded skins (from a previous export), nor at or on the way to the
      lists. *)
Definition process_ready (cwd : path) (output : str) (cs : list conv) (K : str -> Prop) (e : exporter) (f : fs) : Prop :=
  let d := target cwd output in
  clean_ready cwd output f /\ look f cwd = Some NDir /\ ~ below cwd d
  /\ (exists q, is_file f q /\ strictly_below q (tl d) /\ ~ below q d)
  /\ (forall x, K x -> regular x) /\ no_nesting K
  /\ (forall p, ConvertSpec.exports e p -> chosen cs p SknConv -> stem p <> p /\ forall q t, strictly_below q (at_out cwd output (stem p)) -> look f q <> Some (NLink t))
  /\ (forall s, In s [lit "cdragon/files.links.txt"; lit "cdragon/files.unknown.txt"; lit "cdragon/files.exported.txt"] -> nolink f (at_out cwd output s)).

(** Files and links. *)
Definition is_leaf (f : fs) (p : path) : Prop := exists n, look f p = Some n /\ n <> NDir.

(** [s] leads to [p] through at most [k] links. *)
Definition reaches (k : nat) (cwd : path) (f : fs) (s : str) (p : path) : Prop :=
  s <> [] /\ resolve k f true (if is_abs s then [] else cwd) (comps s) = Ok p /\ look f p <> None.
(** [f0] is a part of [f] without [d] and what it contains. *)
Definition part_outside (d : path) (f f0 : fs) : Prop := fs_wf f0 /\ forall q, look f0 q <> None -> look f0 q = look f q /\ ~ below q d.

(** A text file with these lines. *)
Definition text_file (enc : str -> result bytes) (f : fs) (p : path) (lines : list str) : Prop :=
  exists bs, Forall2 (fun l b => enc (l ++ [cNL]) = Ok b) lines bs /\ look f p = Some (NFile (concat bs)).
(** A sorted list of distinct paths, one by line. *)
Definition listing (enc : str -> result bytes) (f : fs) (p : path) (P : str -> Prop) : Prop :=
  exists lines, text_file enc f p lines /\ StronglySorted (fun a b => str_lt a b = true) lines /\ forall x, In x lines <-> P x.

(** The files to write: those that differ from the previous patch, if there is one. *)
Definition selected (e : exporter) (prev : option exporter) : exporter := match prev with Some p => filter_exporter e p | None => e end.
(** The paths that are not links. *)
Definition kept_paths (cs : list conv) (symlinks : bool) (e : exporter) (prev : option exporter) (x : str) : Prop :=
  match prev with Some p => if symlinks then produces cs (filter_exporter e p) x else produces cs e x | None => produces cs e x end.
(** A plan is possible (see C26). *)
Definition plannable (cs : list conv) (symlinks : bool) (e : exporter) (prev : option exporter) : Prop :=
  dicts e /\ named e /\ match prev with
  | Some p => dicts p /\ named p /\ (symlinks = true -> summed e /\ unique_hashes p /\ same_paths e p /\ no_nesting (produces cs p))
  | None => True
  end.
(** Hashes of entries without a path. *)
Definition unresolved (e : exporter) (h : N) : Prop := exists k w x, In (k, w) (ex_wads e) /\ In x (ew_files w) /\ w_hash x = h /\ (w_path x = None \/ w_path x = Some []).
