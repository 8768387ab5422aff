(** * Vocabulary for the download of solutions *)

From Verif Require Import Base.Py Base.Text Base.Utf8 Base.Fs Model.Files Model.Rads Spec.FsSpec Spec.RadsSpec.

(** The files of the first filesystem are unchanged in the second. *)
Definition keeps (f f' : fs) : Prop := forall q b, look f q = Some (NFile b) -> look f' q = Some (NFile b).

Section Site.
  Variable cwd : path.
  Variable base : str.
  Variable get : str -> result bytes.

  Definition at_ (s : str) : path := target cwd (path_join base s).
  Definition dir_of (p : pv) : str := lit "projects/" ++ fst p ++ lit "/releases/" ++ snd p.
  Definition release_file (p : pv) : str := dir_of p ++ lit "/releasemanifest".
  Definition package_list (p : pv) : str := dir_of p ++ lit "/packagemanifest".
  Definition package_url (p : pv) : str := dir_of p ++ lit "/packages/files/packagemanifest".
  Definition solution_file (name version : str) : str := lit "solutions/" ++ name ++ lit "/releases/" ++ version ++ lit "/solutionmanifest".

  (** [data] is the file, or the response when there is no file. *)
  Definition served (f : fs) (s url : str) (data : bytes) : Prop :=
    look f (at_ s) = Some (NFile data) \/ ~ is_file f (at_ s) /\ get url = Ok data.
  (** The entries of a package manifest; the last one for each extracted path. *)
  Definition listed (data : bytes) (l : list pkgfile) : Prop :=
    exists text pfs, utf8_dec data = Ok text /\ from_package_manifest text = Ok pfs /\ l = map snd (package_files pfs).
  Definition packaged (f : fs) (p : pv) (l : list pkgfile) : Prop := exists data, served f (package_list p) (package_url p) data /\ listed data l.
  (** The project versions of a solution. *)
  Definition selected (f : fs) (name version : str) (langs : langs_arg) (ps : list pv) : Prop :=
    exists data text deps, served f (solution_file name version) (solution_file name version) data /\ utf8_dec data = Ok text /\
      dependencies name version text = Ok deps /\ projects langs deps = Ok ps.

  (** What is assumed of the project versions: their manifests are plain files of the storage, at different places; the
      packaged files are plain files at different places, other than the manifests. *)
  Definition site (f : fs) (ps : list pv) : Prop :=
    (forall p, In p ps -> ready cwd (path_join base (release_file p)) f /\ ready cwd (path_join base (package_list p)) f) /\
    (forall p p', In p ps -> In p' ps -> at_ (package_list p) = at_ (package_list p') -> p = p') /\
    (forall p l, In p ps -> packaged f p l -> Forall (pkg_ready cwd base f) l /\ distinct_targets cwd base l /\
      forall pf p', In pf l -> In p' ps -> pkg_target cwd base pf <> at_ (package_list p')).

  (** The files which may be written. *)
  Definition touched (f : fs) (name version : str) (langs : langs_arg) (q : path) : Prop :=
    q = at_ (solution_file name version) \/
    exists ps p, selected f name version langs ps /\ In p ps /\
      (q = at_ (release_file p) \/ q = at_ (package_list p) \/ exists l pf, packaged f p l /\ In pf l /\ q = pkg_target cwd base pf).
  Variable inflate : bytes -> result bytes.
  Variable net : str -> result (list bytes).
  (** A complete new file. *)
  Definition downloaded (f : fs) (name version : str) (langs : langs_arg) (q : path) (b : bytes) : Prop :=
    (q = at_ (solution_file name version) /\ get (solution_file name version) = Ok b) \/
    exists ps p, selected f name version langs ps /\ In p ps /\
      ((q = at_ (release_file p) /\ get (release_file p) = Ok b) \/ (q = at_ (package_list p) /\ get (package_url p) = Ok b) \/
       exists l pf, packaged f p l /\ In pf l /\ q = pkg_target cwd base pf /\ advertised (dir_of p) inflate net pf b).
  (** The extracted path of a packaged file of the solution. *)
  Definition solution_path (f : fs) (name version : str) (langs : langs_arg) (x : str) : Prop :=
    exists ps p l pf, selected f name version langs ps /\ In p ps /\ packaged f p l /\ In pf l /\ x = k_extract pf.
End Site.

(** What follows the fifth slash, in lower case. *)
Definition rel_of (p r : str) : Prop :=
  exists a b c d e t, p = join (lit "/") [a; b; c; d; e; t] /\ ~ In cSlash a /\ ~ In cSlash b /\ ~ In cSlash c /\ ~ In cSlash d /\ ~ In cSlash e /\ r = lower t.
