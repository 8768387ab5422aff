(** * A POSIX-like filesystem and programs acting on it

    Physical paths are lists of names, innermost first ([tl] is the parent directory, [[]] the
    root).  A filesystem is an association list; the order of its entries is the (arbitrary) order
    of directory listings.  Programs are trees of atomic system calls; the interpreter injects
    failures and crashes according to a plan, and another one interleaves threads.

    Simplifications: no permissions, no hard links, one user; "" and "." components are dropped
    when a path is parsed (so "f/" denotes f); an open file is designated by its physical path. *)

From Verif Require Import Base.Py Base.Text.

Definition path := list str.
Inductive node := NFile (b : bytes) | NDir | NLink (target : str).
Definition fs := list (path * node).

Definition look (f : fs) (p : path) : option node := match p with [] => Some NDir | _ => dget p f end.
Definition put (p : path) (n : node) (f : fs) : fs := dset p n f.
Definition del (p : path) (f : fs) : fs := ddel p f.

(** ** Path resolution *)

(** Components of a path text. *)
Definition comps (s : str) : list str :=
  filter (fun c => negb (eqb c []) && negb (eqb c [cDot])) (split_ch cSlash s).
Definition is_abs (s : str) : bool := match s with c :: _ => c =? cSlash | [] => false end.
Definition dotdot : str := [cDot; cDot].

(** Resolution of components from directory [cur].  The last component may be missing; it is
    followed when it is a link iff [follow].  [fuel] bounds the number of links followed (Linux
    allows 40). *)
Fixpoint resolve (fuel : nat) (f : fs) (follow : bool) {struct fuel} : path -> list str -> result path :=
  fix go (cur : path) (rest : list str) {struct rest} : result path :=
    match rest with
    | [] => Ok cur
    | c :: rest' =>
      if eqb c dotdot then go (tl cur) rest' else
      match look f (c :: cur) with
      | None => match rest' with [] => Ok (c :: cur) | _ => Err (OSError ENOENT) end
      | Some NDir => go (c :: cur) rest'
      | Some (NFile _) => match rest' with [] => Ok (c :: cur) | _ => Err (OSError ENOTDIR) end
      | Some (NLink t) =>
        match rest', follow with
        | [], false => Ok (c :: cur)
        | _, _ =>
          match fuel with
          | O => Err (OSError ELOOP)
          | S k => resolve k f follow (if is_abs t then [] else cur) (comps t ++ rest')
          end
        end
      end
    end.
Definition max_links : nat := 40.
Global Strategy opaque [max_links].

(** A location: starting directory and components. *)
Definition loc := (path * list str)%type.
Definition at_loc (f : fs) (follow : bool) (l : loc) : result path := resolve max_links f follow (fst l) (snd l).

Section Cwd.
  (** The current directory of the process. *)
  Variable cwd : path.

  Definition loc_of (s : str) : loc := (if is_abs s then [] else cwd, comps s).
  Definition locate (f : fs) (follow : bool) (s : str) : result path :=
    match s with [] => Err (OSError ENOENT) | _ => at_loc f follow (loc_of s) end.
End Cwd.

(** What [os.stat] / [os.lstat] finds at a location. *)
Definition node_of (f : fs) (r : result path) : option node := match r with Ok p => look f p | Err _ => None end.

(** ** Programs *)

Inductive fault :=
| FErr (e : exn) (n : N)   (* the call raises [e]; a write has written [n] bytes before *)
| FCrash (n : N).          (* the process dies during the call *)

Inductive prog (A : Type) :=
| Ret (a : A)
| Rai (e : exn)
| Act (eff : option N -> fs -> fs) (k : option exn -> fs -> prog A).
Arguments Ret {A} a.
Arguments Rai {A} e.
Arguments Act {A} eff k.

Fixpoint bind {A B} (p : prog A) (k : A -> prog B) : prog B :=
  match p with
  | Ret a => k a
  | Rai e => Rai e
  | Act eff c => Act eff (fun o f => bind (c o f) k)
  end.
(** [try: p / except e: h e] *)
Fixpoint catch {A} (p : prog A) (h : exn -> prog A) : prog A :=
  match p with
  | Ret a => Ret a
  | Rai e => h e
  | Act eff c => Act eff (fun o f => catch (c o f) h)
  end.
Notation "'let~' x := m 'in' k" := (bind m (fun x => k))
  (at level 200, x pattern, m at level 100, k at level 200, right associativity).
Definition lift {A} (r : result A) : prog A := match r with Ok a => Ret a | Err e => Rai e end.

Fixpoint for_each {A} (l : list A) (body : A -> prog unit) : prog unit :=
  match l with [] => Ret tt | x :: t => let~ _ := body x in for_each t body end.

(** A system call: [op] is its effect and result, [part n] what it does when it is interrupted. *)
Definition sys_part {A} (op : fs -> result (A * fs)) (part : N -> fs -> fs) : prog A :=
  Act (fun o f => match o with Some n => part n f | None => match op f with Ok (_, f') => f' | Err _ => f end end)
      (fun oe f => match oe with Some e => Rai e | None => match op f with Ok (a, _) => Ret a | Err e => Rai e end end).
Definition sys {A} (op : fs -> result (A * fs)) : prog A := sys_part op (fun _ f => f).
(** A query that never raises (the functions of [os.path]). *)
Definition query {A} (g : fs -> A) : prog A := Act (fun _ f => f) (fun _ f => Ret (g f)).

(** ** Execution *)

Definition plan := list (option fault).
Inductive outcome (A : Type) := Done (a : A) | Raised (e : exn) | Crashed.
Arguments Done {A} a.
Arguments Raised {A} e.
Arguments Crashed {A}.

Fixpoint run {A} (p : prog A) (pl : plan) (f : fs) {struct p} : outcome A * plan * fs :=
  match p with
  | Ret a => (Done a, pl, f)
  | Rai e => (Raised e, pl, f)
  | Act eff k =>
    match pl with
    | [] => run (k None f) [] (eff None f)
    | None :: pl' => run (k None f) pl' (eff None f)
    | Some (FErr e n) :: pl' => run (k (Some e) f) pl' (eff (Some n) f)
    | Some (FCrash n) :: pl' => (Crashed, pl', eff (Some n) f)
    end
  end.

(** One step of a thread, and executions of a pool of threads: at each turn one of the threads
    makes a step, which may fail if there are [faults].  A crash is an execution that stops. *)
Definition step {A} (o : option (exn * N)) (p : prog A) (f : fs) : option (prog A * fs) :=
  match p with
  | Act eff k => Some (k (option_map fst o) f, eff (option_map snd o) f)
  | _ => None
  end.
Inductive interleave {A} (faults : bool) : list (prog A) * fs -> list (prog A) * fs -> Prop :=
| il_refl s : interleave faults s s
| il_step ps1 p ps2 f o p' f' s :
    faults = true \/ o = None -> step o p f = Some (p', f') ->
    interleave faults (ps1 ++ p' :: ps2, f') s -> interleave faults (ps1 ++ p :: ps2, f) s.

(** ** System calls used by the code *)

Definition is_oserror (e : exn) : bool := match e with OSError _ | HTTPError => true | _ => false end.

Section Calls.
  Variable cwd : path.

  (** [os.path.isfile/isdir/exists/islink] *)
  Definition f_isfile (s : str) (f : fs) : bool :=
    match node_of f (locate cwd f true s) with Some (NFile _) => true | _ => false end.
  Definition f_isdir (s : str) (f : fs) : bool :=
    match node_of f (locate cwd f true s) with Some NDir => true | _ => false end.
  Definition f_exists (s : str) (f : fs) : bool :=
    match node_of f (locate cwd f true s) with Some _ => true | _ => false end.
  Definition f_islink (s : str) (f : fs) : bool :=
    match node_of f (locate cwd f false s) with Some (NLink _) => true | _ => false end.
  Definition isfile s := query (f_isfile s).
  Definition isdir s := query (f_isdir s).
  Definition exists_ s := query (f_exists s).
  Definition islink s := query (f_islink s).

  (** [os.mkdir], [os.symlink]: create a node where there is none. *)
  Definition create_at (n : node) (l : loc) (f : fs) : result (unit * fs) :=
    let! p := at_loc f false l in
    match look f p with
    | Some _ => Err (OSError EEXIST)
    | None => Ok (tt, put p n f)
    end.
  Definition loc_exists (l : loc) (f : fs) : bool :=
    match node_of f (at_loc f true l) with Some _ => true | _ => false end.
  Definition loc_isdir (l : loc) (f : fs) : bool :=
    match node_of f (at_loc f true l) with Some NDir => true | _ => false end.

  Definition mkdir_ok (l : loc) : prog unit :=
    catch (sys (create_at NDir l))
      (fun x => if is_oserror x then let~ d := query (loc_isdir l) in if d : bool then Ret tt else Rai x else Rai x).

  (** [os.makedirs(name, exist_ok=True)]: CPython Lib/os.py.  [r] are the components of the name,
      innermost first.  A head without components ("" or "/") is never created. *)
  Fixpoint makedirs_r (start : path) (r : list str) : prog unit :=
    let~ _ :=
      match r with
      | _ :: ((_ :: _) as head) =>
        let~ e := query (loc_exists (start, rev head)) in
        if e : bool then Ret tt
        else catch (makedirs_r start head) (fun x => match x with OSError EEXIST => Ret tt | _ => Rai x end)
      | _ => Ret tt
      end in
    mkdir_ok (start, rev r).
  Definition makedirs (s : str) : prog unit :=
    match s with [] => Rai (OSError ENOENT) | _ => makedirs_r (fst (loc_of cwd s)) (rev (snd (loc_of cwd s))) end.

  (** [os.symlink(target, s)] *)
  Definition symlink (target s : str) : prog unit :=
    sys (fun f => match s with [] => Err (OSError ENOENT) | _ => create_at (NLink target) (loc_of cwd s) f end).

  (** [open(s, 'wb')]: returns the physical path of the file. *)
  Definition f_open_w (s : str) (f : fs) : result (path * fs) :=
    let! p := locate cwd f true s in
    match look f p with
    | Some NDir => Err (OSError EISDIR)
    | _ => Ok (p, put p (NFile []) f)
    end.
  Definition open_w s := sys (f_open_w s).
  (** [f.write(data)] on an open file; an interrupted call has written a prefix.  Python may delay
      the writes until the file is closed: the crash states are still among these prefixes. *)
  Definition f_append (p : path) (data : bytes) (f : fs) : fs :=
    match look f p with Some (NFile b) => put p (NFile (b ++ data)) f | _ => f end.
  Definition fwrite (p : path) (data : bytes) : prog unit :=
    sys_part (fun f => Ok (tt, f_append p data f)) (fun n f => f_append p (takeN n data) f).
  Definition fclose : prog unit := sys (fun f => Ok (tt, f)).
  (** [with f: body] *)
  Definition with_close {A} (body : prog A) : prog A :=
    let~ a := catch body (fun e => let~ _ := fclose in Rai e) in let~ _ := fclose in Ret a.

  (** [open(s, 'rb').read()] *)
  Definition read_file (s : str) : prog bytes :=
    sys (fun f =>
      let! p := locate cwd f true s in
      match look f p with
      | Some (NFile b) => Ok (b, f)
      | Some _ => Err (OSError EISDIR)
      | None => Err (OSError ENOENT)
      end).

  (** [os.remove(s)] *)
  Definition f_remove (s : str) (f : fs) : result (unit * fs) :=
    let! p := locate cwd f false s in
    match look f p with
    | None => Err (OSError ENOENT)
    | Some NDir => Err (OSError EISDIR)
    | Some _ => Ok (tt, del p f)
    end.
  Definition remove s := sys (f_remove s).

  (** [os.path.getsize(s)] *)
  Definition f_size (s : str) (f : fs) : N :=
    match node_of f (locate cwd f true s) with Some (NFile b) => lenN b | _ => 0 end.
End Calls.
