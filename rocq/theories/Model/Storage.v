(** * Patch listings: cdtb/storage.py:281-320, 374-425 and cdtb/rads.py:94-138, 178-239 *)

From Verif Require Import Base.Text Model.Version.

(** storage.py:323-355.  A patch element; [e_id] stands for the underlying object (the files of
    one release), which the listing functions only move around. *)
Record element := { e_name : str; e_ver : version; e_id : N }.

(** storage.py:382-395.  A patch. *)
Record patch := { p_ver : version; p_elems : list element }.

(** [itertools.groupby(l, key)] with key equality [same]. *)
Fixpoint groupby {A} (same : A -> A -> bool) (l : list A) : list (list A) :=
  match l with
  | [] => []
  | x :: t =>
    match groupby same t with
    | (y :: g) :: gs => if same x y then (x :: y :: g) :: gs else [x] :: (y :: g) :: gs
    | gs => [x] :: gs
    end
  end.
Definition same_ver (a b : element) : bool := v_eq (e_ver a) (e_ver b).
Definition same_name (a b : element) : bool := eqb (e_name a) (e_name b).

(** storage.py:302-305: keep the first element of each name, in order. *)
Definition first_by_name (g : list element) : list element :=
  dvals (fold_left (fun d e => if dhas (e_name e) d then d else dset (e_name e) e d) g []).

(** storage.py:386-395 [Patch._create]: [versions] is the set of element versions. *)
Definition patch_create (es : list element) : result patch :=
  match es with
  | [] => Err ValueError
  | e :: t => if forallb (fun x => v_eq (e_ver e) (e_ver x)) t
              then Ok {| p_ver := e_ver e; p_elems := es |} else Err ValueError
  end.

(** storage.py:294-306 [Storage.patches]; the listing is the argument. *)
Definition patches (l : list element) : result (list patch) :=
  rmapM (fun g => patch_create (first_by_name g)) (groupby same_ver l).

(** storage.py:308-320 [Storage.patch].  [version] is compared with [==], as text. *)
Definition storage_patch (version : option str) (l : list element) : result (option patch) :=
  let! ps := patches l in
  match version with
  | None => match ps with p :: _ => Ok (Some p) | [] => Err StopIteration end
  | Some v => Ok (find (fun p => v_eq_str (p_ver p) v) ps)
  end.

(** storage.py:281-292 [Storage.patch_element]. *)
Definition patch_element (name : str) (version : option str) (l : list element) : option element :=
  find (fun e => eqb (e_name e) name &&
                 match version with None => true | Some v => v_eq_str (e_ver e) v end) l.

(** storage.py:416-421 [Patch.latest]: [max(group, key=version)] keeps the first maximum. *)
Fixpoint max_elem (best : element) (l : list element) : result element :=
  match l with
  | [] => Ok best
  | x :: t => let! g := v_gt (e_ver x) (e_ver best) in max_elem (if g then x else best) t
  end.
Definition patch_latest (p : patch) : result patch :=
  let! es := rmapM (fun g => match g with x :: t => max_elem x t | [] => Err ValueError end)
                   (groupby same_name (p_elems p)) in
  patch_create es.

(** ** RADS *)

(** rads.py:231-239 and 196: [sorted()] of the versions of one solution, newest first. *)
Definition rads_lt (a b : version) : bool :=
  match v_gt a b with Ok r => r | Err _ => false end.
Definition rads_versions (l : list version) : list version := py_sorted rads_lt l.

(** rads.py:117-123: solution versions with a patch become elements.  [pv] is
    [sv.patch_version()] (rads.py:309-332, not modelled here). *)
Fixpoint gen_solution_elements (name : str) (pv : version -> option version) (svs : list version) (id : N) : list element :=
  match svs with
  | [] => []
  | sv :: t => match pv sv with
               | None => gen_solution_elements name pv t (id + 1)
               | Some p => {| e_name := name; e_ver := p; e_id := id |} :: gen_solution_elements name pv t (id + 1)
               end
  end.

(** rads.py:128-134: index and head of the best peeker. *)
Fixpoint best_peeker (i : nat) (ps : list (list element)) (best : option (nat * element))
  : result (option (nat * element)) :=
  match ps with
  | [] => Ok best
  | [] :: t => best_peeker (S i) t best
  | (e :: _) :: t =>
    match best with
    | None => best_peeker (S i) t (Some (i, e))
    | Some (_, b) => let! g := v_gt (e_ver e) (e_ver b) in
                     best_peeker (S i) t (if g then Some (i, e) else best)
    end
  end.
Fixpoint drop_head (i : nat) (ps : list (list element)) : list (list element) :=
  match ps, i with
  | [], _ => []
  | p :: t, O => tl p :: t
  | p :: t, S k => p :: drop_head k t
  end.
(** rads.py:127-138: the merge loop.  [fuel] bounds the number of yielded elements; running out
    gives RuntimeError, which the theorems exclude. *)
Fixpoint merge_loop (fuel : nat) (ps : list (list element)) : result (list element) :=
  let! b := best_peeker 0 ps None in
  match b with
  | None => Ok []
  | Some (i, e) =>
    match fuel with
    | O => Err RuntimeError
    | S f => let! r := merge_loop f (drop_head i ps) in Ok (e :: r)
    end
  end.
(** rads.py:94-138 [RadsStorage.patch_elements]. *)
Definition rads_patch_elements (client game : list element) : result (list element) :=
  merge_loop (length client + length game) [client; game].
