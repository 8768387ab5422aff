(** * Component strings and storage configuration: cdtb/storage.py:135-170, 457-480 *)

From Verif Require Import Base.Text Model.Version Model.Storage.

(** The regular expression [[0-9]+(?:\.[0-9]+\.?)*] of storage.py:460 as an automaton. *)
Inductive vstate := VStart | VFirst | VNeed | VGroup | VDot.
Definition ver_step (st : vstate) (c : N) : option vstate :=
  if is_digit c then
    match st with VStart | VFirst => Some VFirst | VNeed | VGroup | VDot => Some VGroup end
  else if c =? cDot then
    match st with VFirst | VDot => Some VNeed | VGroup => Some VDot | _ => None end
  else None.
Fixpoint ver_run (st : vstate) (s : str) : option vstate :=
  match s with
  | [] => Some st
  | c :: t => match ver_step st c with Some st' => ver_run st' t | None => None end
  end.
Definition ver_accept (s : str) : bool :=
  match ver_run VStart s with Some (VFirst | VGroup | VDot) => true | _ => false end.

(** storage.py:460: [^(patch|game|client)=(|...|main)$]; [$] also matches before a final newline. *)
Definition try_component (c name : str) : option (str * str) :=
  let pre := name ++ lit "=" in
  if startswith c pre then
    let r := drop_prefix pre c in
    let v := if endswith r [cNL] then removelast r else r in
    if eqb v [] || ver_accept v || eqb v (lit "main") then Some (name, v) else None
  else None.
Definition match_component (c : str) : option (str * str) :=
  match try_component c (lit "patch") with
  | Some r => Some r
  | None => match try_component c (lit "game") with
            | Some r => Some r
            | None => try_component c (lit "client")
            end
  end.

Inductive component := CPatch (p : option patch) | CElement (e : option element).

(** storage.py:457-480 [parse_storage_component].  [listing stored] is
    [storage.patch_elements(stored=stored)]. *)
Definition parse_component (listing : bool -> list element) (c : str) : result component :=
  match match_component c with
  | None => Err ValueError
  | Some (name, v) =>
    let '(version, latest) :=
      if eqb v [] then (None, true)
      else if endswith v [cDot] then (Some (rstrip (N.eqb cDot) v), true)
      else (Some v, false) in
    if eqb name (lit "patch") then
      let! p := storage_patch version (listing false) in
      match p with
      | None => Ok (CPatch None)
      | Some p => if latest then let! p' := patch_latest p in Ok (CPatch (Some p'))
                  else Ok (CPatch (Some p))
      end
    else Ok (CElement (patch_element name version
               (listing (match version with Some _ => true | None => false end))))
  end.

(** ** Storage configuration *)

(** [posixpath.normpath] *)
Definition normpath (p : str) : str :=
  match p with
  | [] => [cDot]
  | _ =>
    let slashes : list N :=
      if startswith p [cSlash; cSlash; cSlash] then [cSlash]
      else if startswith p [cSlash; cSlash] then [cSlash; cSlash]
      else if startswith p [cSlash] then [cSlash] else [] in
    let step (acc : list str) (comp : str) :=   (* acc is reversed *)
      if eqb comp [] || eqb comp [cDot] then acc
      else if negb (eqb comp [cDot; cDot]) || (eqb slashes [] && eqb acc []) || eqb (hd [] acc) [cDot; cDot]
      then comp :: acc
      else tl acc in
    let r := slashes ++ join [cSlash] (rev (fold_left step (split_ch cSlash p) [])) in
    match r with [] => [cDot] | _ => r end
  end.

(** A configuration: a JSON object.  Simplification: values are strings. *)
Definition conf := list (str * str).

Section Conf.
  (** The filesystem and JSON decoding, as oracles. *)
  Variable isdir isfile : str -> bool.
  Variable load_json : str -> result conf.

  (** storage.py:135-141 *)
  Definition load_storage_conf (path : str) : result conf :=
    let! c := load_json path in
    if negb (dhas (lit "type") c) then Err ValueError
    else
      let rel := match dget (lit "path") c with Some p => p | None => lit "." end in
      Ok (dset (lit "path") (normpath (path_join (dirname path) rel)) c).

  (** storage.py:165-170 *)
  Definition guess_storage_conf (path : str) : option conf :=
    if isdir (path_join path (lit "channels")) then
      Some [(lit "type", lit "patcher"); (lit "path", path)]
    else None.

  (** storage.py:143-163 *)
  Definition storage_conf_from_path (path : str) : result conf :=
    if isdir path then
      let conf_path := path_join path (lit "cdtb.storage.conf") in
      if isfile conf_path then load_storage_conf conf_path
      else of_opt ValueError (guess_storage_conf path)
    else if isfile path then load_storage_conf path
    else match cut_first 58 path with
         | Some (t, p) => Ok [(lit "type", t); (lit "path", p)]
         | None => Ok [(lit "type", lit "patcher"); (lit "path", path)]
         end.
End Conf.
