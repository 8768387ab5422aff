(** * Commands on components: cdtb/__main__.py:32-47, 73-88 and cdtb/patcher.py:645-658

    Not modelled: the texts of errors, [argparse].  What is printed is the list of lines, and the
    exception that interrupted it, if any. *)

From Verif Require Import Base.Py Base.Text Base.Fs Model.Version Model.Storage Model.Component Model.Cli Model.Rman Model.Patcher.

Definition printed : Type := (list str * option exn)%type.

(** Lines of successive parts, until one is interrupted. *)
Fixpoint print_all {A} (f : A -> printed) (l : list A) : printed :=
  match l with
  | [] => ([], None)
  | x :: t => match f x with
              | (o, Some e) => (o, Some e)
              | (o, None) => let '(o', e) := print_all f t in (o ++ o', e)
              end
  end.

(** __main__.py:32-44 [parse_component_arg] *)
Definition parse_component_arg (listing : bool -> list element) (c : str) : result (list element) :=
  match parse_component listing c with
  | Err ValueError => Err SysExit
  | Err e => Err e
  | Ok (CPatch None) | Ok (CElement None) => Err SysExit
  | Ok (CPatch (Some p)) => Ok (p_elems p)
  | Ok (CElement (Some e)) => Ok [e]
  end.
(** __main__.py:46-47 [parse_component_args] *)
Definition parse_component_args (listing : bool -> list element) (cs : list str) : result (list element) :=
  rmap (@concat element) (rmapM (parse_component_arg listing) cs).

(** __main__.py:73-75 [command_download]; [dl] is [download(langs)] of an element. *)
Definition command_download (listing : bool -> list element) (dl : element -> prog unit) (cs : list str) : prog unit :=
  let~ es := lift (parse_component_args listing cs) in for_each es dl.

(** __main__.py:78-82 [command_files]; [rel] and [abs] are [relpaths(langs)] and [fspaths(langs)]. *)
Definition command_files (listing : bool -> list element) (rel abs : element -> printed) (relative : bool) (c : str) : printed :=
  match parse_component_arg listing c with
  | Err e => ([], Some e)
  | Ok es => print_all (fun e => if relative then rel e else abs e) es
  end.

(** __main__.py:85-88 [command_versions].  [patches] is a generator: an error in it comes after the
    lines of the patches before. *)
Fixpoint print_versions (type : str) (gs : list (list element)) : printed :=
  match gs with
  | [] => ([], None)
  | g :: t => match patch_create (first_by_name g) with
              | Err e => ([], Some e)
              | Ok p => let '(o, e) := print_versions type t in
                        ((if eqb type (lit "patch") || mem type (map Storage.e_name (p_elems p)) then [v_s (p_ver p)] else []) ++ o, e)
              end
  end.
Definition command_versions (l : list element) (type : str) : printed := print_versions type (groupby same_ver l).

(** ** Files of an element of a patcher storage *)

Section Paths.
  Variable lower : str -> str.
  Variable storage_dir : str.
  Variable manif : manifest.

  (** patcher.py:650-651 [fspaths] *)
  Definition elem_fspaths (langs : langs_arg) : printed :=
    match filter_files lower manif langs with
    | Err e => ([], Some e)
    | Ok l => (map (extract_path storage_dir) l, None)
    end.
  (** [f.name.lower()] *)
  Definition lower_name (f : mfile) : result str := rmap lower (of_opt AttributeError (f_name f)).
  (** patcher.py:653-654 [relpaths] *)
  Definition elem_relpaths (langs : langs_arg) : printed :=
    match filter_files lower manif langs with
    | Err e => ([], Some e)
    | Ok l => print_all (fun f => match lower_name f with Ok n => ([n], None) | Err e => ([], Some e) end) l
    end.
  (** patcher.py:656-658 [paths], used by the exporters: an error stops them *)
  Definition elem_paths (langs : langs_arg) : result (list (str * str)) :=
    let! l := filter_files lower manif langs in
    rmapM (fun f => rmap (pair (extract_path storage_dir f)) (lower_name f)) l.
End Paths.
