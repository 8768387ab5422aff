(** * Solutions and projects of a RADS storage: cdtb/rads.py:76-92, 141-239, 403-473, 599-636 *)

From Verif Require Import Base.Py Base.Text Base.Lines Base.Fs Base.FsDir Model.Version Model.Storage Model.Files.

(** ** Order *)

(** rads.py:165-176, 414-425: solutions and projects are compared by name.
    rads.py:222-239, 457-473: [==] and [<] of versions of solutions, and of versions of projects. *)
Definition part_version := (str * version)%type.
Definition part_eq (a b : part_version) : bool := eqb (fst a) (fst b) && v_eq (snd a) (snd b).
Definition part_lt (a b : part_version) : result bool :=
  if str_lt (fst a) (fst b) then Ok true
  else if eqb (fst a) (fst b) then v_gt (snd a) (snd b)
  else Ok false.

(** ** Component strings *)

(** rads.py:602: [re.match(r'^(?:([sp]):)?(\w+)(?:=(|[0-9]+(?:\.[0-9]+)*|main)?)?$', component)].
    [word] is [\w]; [$] also matches before a final newline.  Neither ":", "=" nor the newline are in [\w],
    hence the name is the longest run of such characters and there is nothing to backtrack. *)
Section Match.
  Variable word : N -> bool.

  Fixpoint word_run (s : str) : str * str :=
    match s with
    | c :: t => if word c then let '(a, b) := word_run t in (c :: a, b) else ([], s)
    | [] => ([], [])
    end.
  Definition typ_prefix (s : str) : option N * str :=
    match s with
    | a :: b :: t => if ((a =? 115) || (a =? 112)) && (b =? 58) then (Some a, t) else (None, s)
    | _ => (None, s)
    end.
  Definition without_final_newline (s : str) : str := if endswith s [cNL] then removelast s else s.
  Definition is_number (s : str) : bool := negb (eqb s []) && forallb is_digit s.
  Definition version_text (v : str) : bool := eqb v [] || forallb is_number (split_ch cDot v) || eqb v (lit "main").
  Definition match_rads (c : str) : option (option N * str * option str) :=
    let '(typ, r) := typ_prefix c in
    let '(name, r) := word_run r in
    if eqb name [] then None
    else match without_final_newline r with
         | [] => Some (typ, name, None)
         | x :: v => if (x =? 61) && version_text v then Some (typ, name, Some v) else None
         end.

  (** The objects. *)
  Inductive rads_object :=
  | OProject (name : str) | OProjectVersion (pv : part_version)
  | OSolution (name : str) | OSolutionVersion (sv : part_version)
  | OPatch (p : option patch).

  (** [request_text] *)
  Variable get_text : str -> result str.

  (** rads.py:155, 405 *)
  Definition solution_path (name : str) : str := lit "solutions/" ++ name ++ lit "/releases".
  Definition project_path (name : str) : str := lit "projects/" ++ name ++ lit "/releases".

  Definition rads_text_version (s : str) : result version := rads_version (ArgStr s).

  (** rads.py:178-197 [RadsSolution.versions], stored=False *)
  Definition solution_versions (name : str) : result (list version) :=
    let! t := get_text (solution_path name ++ lit "/releaselisting") in
    let! vs := rmapM rads_text_version (splitlines t) in
    Ok (rads_versions vs).
  (** rads.py:427-431 [RadsProject.versions] *)
  Definition project_versions (name : str) : result (list version) :=
    let! t := get_text (project_path name ++ lit "/releaselisting") in
    rmapM rads_text_version (splitlines t).

  (** [l[0]] *)
  Definition first_of {A} (l : list A) : result A := match l with x :: _ => Ok x | [] => Err IndexError end.

  (** rads.py:599-636.  [listing] are the elements of [storage.patch_elements()]. *)
  Definition parse_rads_component (listing : list element) (c : str) : result rads_object :=
    match match_rads c with
    | None => Err ValueError
    | Some (typ, name, version) =>
      let typ :=
        match typ with
        | Some t => [t]
        | None => if eqb name (lit "patch") then lit "patch" else if endswith name (lit "_sln") then lit "s" else lit "p"
        end in
      if eqb typ (lit "p") then
        match version with
        | None => Ok (OProject name)
        | Some [] => let! vs := project_versions name in let! v := first_of vs in Ok (OProjectVersion (name, v))
        | Some v => let! v := rads_text_version v in Ok (OProjectVersion (name, v))
        end
      else if eqb typ (lit "s") then
        match version with
        | None => Ok (OSolution name)
        | Some [] => let! vs := solution_versions name in let! v := first_of vs in Ok (OSolutionVersion (name, v))
        | Some v => let! v := rads_text_version v in Ok (OSolutionVersion (name, v))
        end
      else
        match version with
        | None => Err ValueError
        | Some [] => rmap OPatch (storage_patch None listing)
        | Some v => rmap OPatch (storage_patch (Some v) listing)
        end
    end.
End Match.

(** rads.py:159-160, 215-216, 408-409, 451-452 [__str__] *)
Definition object_str (o : rads_object) : option str :=
  match o with
  | OProject n | OSolution n => Some (lit "rads:" ++ n)
  | OProjectVersion (n, v) | OSolutionVersion (n, v) => Some (lit "rads:" ++ n ++ lit "=" ++ v_s v)
  | OPatch _ => None
  end.

(** ** What is stored *)

Section Stored.
  Variable cwd : path.
  Variable base : str.
  (** The order of [os.listdir]. *)
  Variable order : list str -> list str.

  Fixpoint keep_dirs (full : str -> str) (l : list str) : prog (list str) :=
    match l with
    | [] => Ret []
    | n :: t => let~ d := isdir cwd (full n) in let~ r := keep_dirs full t in Ret (if d : bool then n :: r else r)
    end.

  (** rads.py:76-92 [list_projects], [list_solutions]: the names; [kind] is "projects" or "solutions". *)
  Definition list_parts (kind : str) : prog (list str) :=
    let b := fspath base kind in
    let~ l := listdir order cwd b in
    keep_dirs (fun n => b ++ lit "/" ++ n ++ lit "/releases") l.

  (** rads.py:178-197 [RadsSolution.versions], stored=True *)
  Definition stored_versions (name : str) : prog (list version) :=
    let fs := fspath base (solution_path name) in
    let~ d := isdir cwd fs in
    if d : bool then
      let~ l := listdir order cwd fs in
      let~ l := keep_dirs (path_join fs) l in
      let~ vs := lift (rmapM rads_text_version l) in
      Ret (rads_versions vs)
    else Ret [].
End Stored.
