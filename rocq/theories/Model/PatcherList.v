(** * Elements of the releases of a patcher storage: cdtb/patcher.py:349-356, 486-505, 520-538, 641-645

    Parameters: those of Model/Releases.v, Model/Patcher.v and Model/PatchCache.v; [parse] is [PatcherManifest] on the
    content of a manifest file, [sets] is the order of a set of bundles. *)

From Verif Require Import Base.Py Base.Text Base.Fs Base.FsDir Model.Version Model.Files Model.Rman Model.Patcher Model.Releases Model.PatchCache.

(** [bool(v)].  Simplification: a number that is not an integer is true. *)
Definition truthy (v : json) : bool :=
  match v with
  | JNull | JBool false | JInt 0%Z | JStr [] | JArr [] | JObj [] => false
  | _ => true
  end.
(** [data.get(key)] *)
Definition data_get (key : str) (d : json) : result json :=
  match d with
  | JObj m => Ok (match dget key m with Some v => v | None => JNull end)
  | _ => Err AttributeError
  end.
Definition url_key (name : str) : str := name ++ lit "_patch_url".
(** storage.py [PatchElement.names] *)
Definition element_names : list str := [lit "game"; lit "client"].
(** patcher.py:494-496 [available_elements] *)
Fixpoint available_elements (names : list str) (d : json) : result (list str) :=
  match names with
  | [] => Ok []
  | n :: t =>
    let! u := data_get (url_key n) d in
    let! r := available_elements t d in
    Ok (if truthy u then n :: r else r)
  end.
(** What [download_manifest] is given.  Simplification: other values give [TypeError] when they are formatted. *)
Definition url_ref (u : json) : result manifest_ref :=
  match u with
  | JStr s => Ok (MUrl s)
  | JInt z => Ok (MId z)
  | JBool b => Ok (MId (if b then 1 else 0)%Z)
  | _ => Err TypeError
  end.

(** An element: its release, its name, the URL of its manifest and its version. *)
Record listed := { ls_release : Z; ls_name : str; ls_url : json; ls_version : option version }.

(** For any way to get versions *)
Section Listing.
  Variable cwd : path.
  Variable base patchline : str.
  Variable load : bytes -> result json.
  Variable order : list str -> list str.
  Variable version_of_element : Z -> str -> json -> prog (option version).

  (** patcher.py:486-492, 498-504 [element], [elements], with patcher.py:641-645 [PatcherPatchElement.__init__] *)
  Fixpoint patch_elements_of (names : list str) (v : Z) (d : json) : prog (list listed) :=
    match names with
    | [] => Ret []
    | n :: t =>
      let~ u := lift (data_get (url_key n) d) in
      if truthy u then
        let~ ver := version_of_element v n u in
        let~ r := patch_elements_of t v d in
        Ret ({| ls_release := v; ls_name := n; ls_url := u; ls_version := ver |} :: r)
      else patch_elements_of t v d
    end.
  (** patcher.py:354-356, 345-347: releases are loaded one after the other, when the elements of the previous ones are known. *)
  Fixpoint list_elements (l : list Z) : prog (list listed) :=
    match l with
    | [] => Ret []
    | v :: t =>
      let~ b := isfile cwd (release_path base patchline v) in
      if b : bool then
        let~ d := load_release cwd base patchline load v in
        let~ e := patch_elements_of element_names v d in
        let~ r := list_elements t in
        Ret (e ++ r)
      else list_elements t
    end.
  Definition listing : prog (list listed) :=
    let~ b := isdir cwd (release_base base patchline) in
    if b : bool then
      let~ l := listdir order cwd (release_base base patchline) in
      list_elements (py_sorted_rev Z.ltb (versions l))
    else Ret [].
End Listing.

Section PatcherList.
  Variable cwd : path.
  Variable enc : str -> bytes.
  Variable base patchline : str.
  Variable conf : option str.
  Variable getj : str -> result json.
  Variable get : str -> result bytes.
  Variable zstd : bytes -> result bytes.
  Variable sha1 : str -> str.
  Variable symlinks : bool.
  Variable load : bytes -> result json.
  Variable dump : json -> list bytes.
  Variable same : json -> json -> bool.
  Variable parse : bytes -> result manifest.
  Variable order : list str -> list str.
  Variable sets : list (option N) -> list (option N).

  (** patcher.py:479 *)
  Definition release_dir (v : Z) : str := release_base base patchline ++ cSlash :: decZ v.
  (** patcher.py:530-538 [manif] *)
  Definition element_manifest (u : json) : prog manifest :=
    let~ r := lift (url_ref u) in
    let~ p := download_manifest cwd base get r in
    let~ data := read_file cwd (fspath base p) in
    lift (parse data).
  Definition element_version_of (v : Z) (name : str) (u : json) : prog (option version) :=
    patcher_version cwd enc base get zstd sha1 symlinks (release_dir v) load sets (element_manifest u) patchline name.
  (** patcher.py:349-356 [patch_elements] *)
  Definition patcher_patch_elements (stored : bool) (now : Z) : prog (list listed) :=
    let~ _ := (if stored then Ret tt else fetch_latest_update cwd base patchline conf getj load dump same now) in
    listing cwd base patchline load order element_version_of.
End PatcherList.
