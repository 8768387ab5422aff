(** * System calls on directory trees *)

From Verif Require Import Base.Py Base.Text Base.Fs Base.FsDir Base.FsLinks.

Section Tree.
  Variable cwd : path.
  (** The (arbitrary) order of directory listings. *)
  Variable order : list str -> list str.

  (** [os.path.lexists(s)] *)
  Definition f_lexists (s : str) (f : fs) : bool :=
    match node_of f (locate cwd f false s) with Some _ => true | _ => false end.
  Definition lexists s := query (f_lexists s).

  (** [os.scandir(s)], read to the end: names and what they are ([DirEntry] methods do not make system calls). *)
  Definition scandir (s : str) : prog (list (str * node)) :=
    sys (fun f =>
      let! p := locate cwd f true s in
      match look f p with
      | Some NDir => Ok (flat_map (fun n => match look f (n :: p) with Some x => [(n, x)] | None => [] end) (order (names p f)), f)
      | Some _ => Err (OSError ENOTDIR)
      | None => Err (OSError ENOENT)
      end).

  (** [os.rmdir(s)].  The root cannot be removed (EBUSY, here EIO). *)
  Definition f_rmdir (s : str) (f : fs) : result (unit * fs) :=
    let! p := locate cwd f false s in
    if eqb (basename s) [cDot] then Err (OSError EINVAL)
    else if eqb (basename s) dotdot then Err (OSError ENOTEMPTY)
    else match p, look f p with
         | [], _ => Err (OSError EIO)
         | _, None => Err (OSError ENOENT)
         | _, Some NDir => match names p f with [] => Ok (tt, del p f) | _ => Err (OSError ENOTEMPTY) end
         | _, Some _ => Err (OSError ENOTDIR)
         end.
  Definition rmdir s := sys (f_rmdir s).

  (** The successive values of [head] in [os.removedirs] (CPython Lib/os.py).  Each one is shorter than the one before:
      [fuel] is the length of the text. *)
  Fixpoint heads (fuel : nat) (head tail : str) : list str :=
    match head, tail, fuel with
    | _ :: _, _ :: _, S k => head :: heads k (dirname head) (basename head)
    | _, _, _ => []
    end.
  Definition first_head (s : str) : str * str :=
    let '(head, tail) := path_split s in
    match tail with [] => path_split head | _ => (head, tail) end.
  Fixpoint rmdir_all (l : list str) : prog unit :=
    match l with
    | [] => Ret tt
    | h :: t => let~ ok := catch (let~ _ := rmdir h in Ret true) (fun e => if is_oserror e then Ret false else Rai e) in
                if ok : bool then rmdir_all t else Ret tt
    end.
  (** [os.removedirs(s)] *)
  Definition removedirs (s : str) : prog unit :=
    let~ _ := rmdir s in
    let '(head, tail) := first_head s in
    rmdir_all (heads (length s) head tail).

  (** [shutil.rmtree(s)].  Simplification: the tree is listed first, then removed deepest nodes first. *)
  Definition tree_nodes (p : path) (f : fs) : list path :=
    py_sorted (fun a b => Nat.ltb (length b) (length a)) (set_of (filter (fun q => below_b q p) (map fst f))).
  Definition f_tree (s : str) (f : fs) : result (list path * fs) :=
    let! p := locate cwd f false s in
    match look f p with
    | Some NDir => Ok (tree_nodes p f, f)
    | Some _ => Err (OSError ENOTDIR)
    | None => Err (OSError ENOENT)
    end.
  Definition f_unlink (p : path) (f : fs) : result (unit * fs) :=
    match p, look f p with
    | [], _ => Err (OSError EIO)
    | _, None => Err (OSError ENOENT)
    | _, Some NDir => match names p f with [] => Ok (tt, del p f) | _ => Err (OSError ENOTEMPTY) end
    | _, Some _ => Ok (tt, del p f)
    end.
  Definition rmtree (s : str) : prog unit :=
    let~ l := sys (f_tree s) in
    for_each l (fun p => sys (f_unlink p)).
  (** With [ignore_errors=True]. *)
  Definition ignore_os {A} (a : A) (p : prog A) : prog A := catch p (fun e => if is_oserror e then Ret a else Rai e).
  Definition rmtree_ignore (s : str) : prog unit :=
    let~ l := ignore_os [] (sys (f_tree s)) in
    for_each l (fun p => ignore_os tt (sys (f_unlink p))).
End Tree.
