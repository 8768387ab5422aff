(** * Cleaning of the output directory: cdtb/export.py:110-133, 218-254

    Simplification: all paths of the walk are listed before being examined. *)

From Verif Require Import Base.Py Base.Text Base.Fs Base.FsDir Base.FsTree.

Section Clean.
  Variable cwd : path.
  (** Order of directory listings, and of the elements of a set. *)
  Variable order set_order : list str -> list str.

  (** export.py:126-133: paths of the files and links of a directory, and directories to visit. *)
  Definition scan_found (base : str) (l : list (str * node)) : list str :=
    flat_map (fun e => match snd e with NDir => [] | _ => [base ++ fst e] end) l.
  Definition scan_dirs (base : str) (skip : list str) (l : list (str * node)) : list str :=
    flat_map (fun e => match snd e with NDir => if mem (base ++ fst e) skip then [] else [base ++ fst e ++ [cSlash]] | _ => [] end) l.
  (** export.py:122-133.  [stack] is [to_visit] with its last element first; [fuel] bounds the number of visited directories. *)
  Fixpoint walk_loop (fuel : nat) (output : str) (skip stack found : list str) : prog (list str) :=
    match stack, fuel with
    | [], _ => Ret found
    | _ :: _, O => Rai RuntimeError
    | base :: stack, S k =>
      let~ l := scandir cwd order (output ++ cSlash :: base) in
      walk_loop k output skip (rev (scan_dirs base skip l) ++ stack) (found ++ scan_found base l)
    end.
  (** export.py:110-133 [walk_output_dir].  There are no more directories than nodes. *)
  Definition walk_output_dir (output : str) (skip : list str) : prog (list str) :=
    let~ e := exists_ cwd output in
    if negb e then Ret []
    else
      let~ n := query (fun f => S (length f)) in
      walk_loop n output skip [[]] [].

  (** export.py:228-238: files and directories to remove. *)
  Fixpoint to_remove (output : str) (kept links found : list str) : prog (list str * list str) :=
    match found with
    | [] => Ret ([], [])
    | p :: t =>
      let full := path_join output p in
      let~ l := islink cwd full in
      let~ (files, trees) :=
        (if l : bool then Ret (if mem p links then ([], []) else ([full], []))
         else if mem p kept then Ret ([], [])
         else let~ d := isdir cwd full in Ret (if d : bool then ([], [full]) else ([full], []))) in
      let~ (files', trees') := to_remove output kept links t in
      Ret (files ++ files', trees ++ trees')
    end.

  (** export.py:218-254 [clean_output_dir] *)
  Definition clean_output_dir (output : str) (kept links : list str) : prog unit :=
    let~ found := walk_output_dir output kept in
    let~ (files, trees) := to_remove output kept links found in
    let~ _ := for_each files (remove cwd) in
    let~ _ := for_each trees (rmtree cwd) in
    for_each (set_order (set_of (map dirname (files ++ trees)))) (fun d => ignore_os tt (removedirs cwd d)).
End Clean.
