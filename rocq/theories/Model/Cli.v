(** * Choice of storages, patches and exporters: cdtb/__main__.py and cdtb/export.py:311-333, 505-546

    [parser.error()] exits the program: [Err SysExit].  Not modelled: [argparse] itself (arguments are given
    parsed), [process()] of the exporters. *)

From Verif Require Import Base.Py Base.Text Model.Version Model.Storage Model.Component.

Definition SysExit : exn := BaseExn 2.
(** Truth of an optional text. *)
Definition given (a : option str) : bool := match a with Some (_ :: _) => true | _ => false end.

(** ** Exporters of patches *)

Record raw_exporter := { re_output : str; re_patch : patch; re_previous : option patch; re_symlinks : bool }.

(** export.py:319-329 [CdragonRawPatchExporter.__init__] *)
Definition raw_exporter_init (output : str) (p : patch) (prev : option patch) (symlinks : option bool) : result raw_exporter :=
  let has_prev := match prev with Some _ => true | None => false end in
  let! links :=
    match symlinks with
    | None => Ok has_prev
    | Some s => if s && negb has_prev then Err ValueError else Ok s
    end in
  Ok {| re_output := normpath output; re_patch := p; re_previous := prev; re_symlinks := links |}.

(** export.py:516-525: texts of the versions (equality and hash of versions use the text).  An entry is a name
    and whether it is a directory. *)
Fixpoint dir_versions (entries : list (str * bool)) (versions : list str) : result (list str) :=
  match entries with
  | [] => Ok versions
  | (path, isdir) :: rest =>
    if negb isdir then dir_versions rest versions
    else match patch_version (ArgStr path) with
         | Ok v => dir_versions rest (set_add (v_s v) versions)
         | Err ValueError | Err TypeError => dir_versions rest versions
         | Err e => Err e
         end
  end.

(** export.py:530-541 *)
Fixpoint pick_patches (first : option version) (versions : list str) (ps : list patch) : result (list patch) :=
  match ps with
  | [] => Err ValueError
  | p :: t =>
    let! older := match first with None => Ok false | Some f => v_lt (p_ver p) f end in
    if older then Ok []
    else if mem (v_s (p_ver p)) versions then
      let versions := filter (fun v => negb (eqb v (v_s (p_ver p)))) versions in
      match versions with
      | [] => Ok [p]
      | _ => let! r := pick_patches first versions t in Ok (p :: r)
      end
    else pick_patches first versions t
  end.

(** export.py:543-548: [ps] is latest first, exporters too. *)
Fixpoint pair_exporters (output : str) (symlinks : option bool) (ps : list patch) : result (list raw_exporter) :=
  match ps with
  | [] => Ok []
  | p :: t =>
    let prev := match t with [] => None | q :: _ => Some q end in
    let! e := raw_exporter_init (path_join output (v_s (p_ver p))) p prev (match prev with Some _ => symlinks | None => Some false end) in
    let! r := pair_exporters output symlinks t in
    Ok (e :: r)
  end.

(** export.py:505-549 [from_directory].  [entries]: the output directory; [ps]: [storage.patches(stored=True)]. *)
Definition from_directory (entries : list (str * bool)) (ps : list patch) (output : str) (first : option version) (symlinks : option bool)
  : result (list raw_exporter) :=
  let! versions := dir_versions entries [] in
  match versions with
  | [] => Ok []
  | _ =>
    let! picked := pick_patches first versions ps in
    let! es := pair_exporters output symlinks picked in
    Ok (rev es)
  end.

(** ** Export command *)

Record export_args := { xa_output : str; xa_symlinks : bool; xa_previous : option str; xa_first : option str; xa_lazy : bool; xa_patch : option str }.

(** The patch after the one of version [v]: the older one. *)
Fixpoint guess_previous (v : version) (ps : list patch) : result patch :=
  match ps with
  | [] => Err SysExit
  | p :: t => if v_eq (p_ver p) v then match t with q :: _ => Ok q | [] => Err StopIteration end else guess_previous v t
  end.

(** __main__.py:254-293 [command_export]: exporters to run in order, and whether they overwrite.  [listing stored] is
    [storage.patch_elements(stored)], [entries] the content of the output directory. *)
Definition command_export (listing : bool -> list element) (entries : list (str * bool)) (a : export_args) : result (list raw_exporter * bool) :=
  let overwrite := negb (xa_lazy a) in
  let symlinks := Some (xa_symlinks a) in
  if negb (given (xa_patch a)) then
    if given (xa_previous a) then Err SysExit
    else if given (xa_first a) then Err SysExit
    else
      let! first := match xa_first a with None => Err ValueError | Some s => patch_version (ArgStr s) end in
      let! ps := patches (listing true) in
      let! es := from_directory entries ps (xa_output a) (Some first) symlinks in
      Ok (es, overwrite)
  else
    if given (xa_first a) then Err SysExit
    else
      let arg := match xa_patch a with Some s => s | None => [] end in
      let! op := storage_patch (if eqb arg (lit "latest") then None else Some arg) (listing false) in
      match op with
      | None => Err SysExit
      | Some p =>
        let! prev :=
          (if eqb (xa_previous a) (Some (lit "none")) then Ok None
           else if given (xa_previous a) then
             let! oq := storage_patch (xa_previous a) (listing true) in
             match oq with None => Err SysExit | Some q => Ok (Some q) end
           else
             let! ps := patches (listing true) in
             let! q := guess_previous (p_ver p) ps in
             Ok (Some q)) in
        let! e := raw_exporter_init (path_join (xa_output a) (v_s (p_ver p))) p prev symlinks in
        Ok ([e], overwrite)
      end.

(** ** Storage arguments *)

Inductive storage := PatcherStorage (path patchline : str) (extract_symlinks : bool) | RadsStorage (path : str) (url : option str).

Section Args.
Variables isdir isfile : str -> bool.
Variable load_json : str -> result conf.
(** Attribute [URL_xxx] of [RadsStorage] for a CDN name. *)
Variable cdn_url : str -> option str.

(** cdtb/storage.py:209-215 [Storage.from_conf], cdtb/patcher.py:320-327, cdtb/rads.py:66-74.  Values of the
    configuration are texts here, so that [use_extract_symlinks] is never [False]; client configurations are not modelled. *)
Definition from_conf (c : conf) : result storage :=
  let! t := of_opt KeyError (dget (lit "type") c) in
  if eqb t (lit "patcher") then
    let! path := of_opt KeyError (dget (lit "path") c) in
    Ok (PatcherStorage path (match dget (lit "patchline") c with Some l => l | None => lit "live" end) true)
  else if eqb t (lit "rads") then
    let! url :=
      match dget (lit "cdn") c with
      | Some n => if dhas (lit "url") c then Err ValueError else let! u := of_opt AttributeError (cdn_url n) in Ok (Some u)
      | None => Ok (dget (lit "url") c)
      end in
    let! path := of_opt KeyError (dget (lit "path") c) in
    Ok (RadsStorage path url)
  else Err ValueError.

(** __main__.py:50-71 [parse_storage_args]; [env] is the value of CDTB_STORAGE. *)
Definition parse_storage_args (env storage_arg patchline : option str) : result storage :=
  match (match storage_arg with None => env | Some p => Some p end) with
  | None => from_conf [(lit "type", lit "patcher"); (lit "path", lit "cdn")]
  | Some path =>
    let! c := storage_conf_from_path isdir isfile load_json path in
    match patchline with
    | None => from_conf c
    | Some l => if eqb (dget (lit "type") c) (Some (lit "patcher")) then from_conf (dset (lit "patchline") l c) else Err SysExit
    end
  end.
End Args.
