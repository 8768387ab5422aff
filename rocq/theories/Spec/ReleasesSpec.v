(** * Vocabulary for releases *)

From Verif Require Import Base.Py Base.Text Base.Utf8 Base.Fs Spec.FsSpec Spec.FilesSpec Model.Releases.

Section Releases.
  Variable cwd : path.
  Variable base patchline : str.

  (** The directory of releases, the file describing the release [v], and the one that holds the
      version of the last release. *)
  Definition rel_dir : path := patchline :: lit "releases" :: lit "cdtb" :: target cwd base.
  Definition release_file (v : Z) : path := lit "release.json" :: decZ v :: rel_dir.
  Definition stamp_file : path := lit "latest.timestamp" :: rel_dir.

  (** The filesystem is well-formed, the current directory exists, and there are no symbolic links
      to these files. *)
  Record releases_ready (f : fs) : Prop := {
    rr_base : base <> [] /\ ~ In dotdot (comps base);
    rr_line : valid_name patchline;
    rr_wf : fs_wf f;
    rr_cwd : look f cwd = Some NDir;
    rr_release : forall v, nolink f (release_file v);
    rr_stamp : nolink f stamp_file }.

  (** [v] is a release, described by [d]. *)
  Definition release_at (load : bytes -> result json) (f : fs) (v : Z) (d : json) : Prop :=
    exists b, look f (release_file v) = Some (NFile b) /\ load b = Ok d.
  (** There is a file describing the release [v]. *)
  Definition stored (f : fs) (v : Z) : Prop := is_file f (release_file v).
  (** The last release is said to be [t]. *)
  Definition stamped (f : fs) (t : Z) : Prop :=
    exists b s, look f stamp_file = Some (NFile b) /\ utf8_dec b = Ok s /\ int10 (strip is_space s) = Ok t.

  Variable load : bytes -> result json.
  Variable dump : json -> list bytes.
  Variable same : json -> json -> bool.

  (** The answers of the servers, described by [get] and [conf], at the state [f]. *)
  Definition answers (conf : option str) (get : str -> result json) (f : fs) (info : json) : Prop :=
    fst (fst (run (latest_info cwd patchline conf get load) [] f)) = Done info.

  (** A sequence of calls to [fetch_latest_update], with clock values that do not go back, from the
      time [t] and the state [f] to [t'] and [f'].  Each call was clean, or did not change anything. *)
  Inductive fetches : Z -> fs -> Z -> fs -> Prop :=
  | fs_nil t f : fetches t f t f
  | fs_fetch conf get t now pl f o pl' f1 t2 f2 : (t <= now)%Z ->
      run (fetch_latest_update cwd base patchline conf get load dump same now) pl f = (o, pl', f1) ->
      clean o pl pl' \/ f1 = f -> fetches now f1 t2 f2 -> fetches t f t2 f2.
  (** The same with a clock that increases between calls, and any failures and crashes. *)
  Inductive attempts : Z -> fs -> Z -> fs -> Prop :=
  | at_nil t f : attempts t f t f
  | at_fetch conf get t now pl f o pl' f1 t2 f2 : (t < now)%Z ->
      run (fetch_latest_update cwd base patchline conf get load dump same now) pl f = (o, pl', f1) ->
      attempts now f1 t2 f2 -> attempts t f t2 f2.
  (** No release is after [t], and none is after the one said to be the last. *)
  Definition consistent (t : Z) (f : fs) : Prop :=
    (forall v, stored f v -> (v <= t)%Z) /\ forall u v, stamped f u -> stored f v -> (v <= u)%Z.
End Releases.
