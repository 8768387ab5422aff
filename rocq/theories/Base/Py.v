(** * Python substrate: exceptions, results, byte strings and text

    Python exceptions are values of type [exn]; a computation that may raise is a
    [result].  [bytes] is a list of [byte]; [str] is a list of Unicode code points. *)

From Coq Require Export List NArith ZArith Lia Bool Permutation.
From Coq Require Export ZifyBool ZifyNat ZifyN.
From Coq Require Strings.String Strings.Ascii Strings.Byte Init.Byte.
Export ListNotations.
Export String.StringSyntax.
Import Coq.Init.Byte.
Export Coq.Init.Byte.
#[global] Open Scope bool_scope.
#[global] Open Scope list_scope.
#[global] Open Scope N_scope.

Arguments N.add : simpl never.
Arguments N.sub : simpl never.
Arguments N.mul : simpl never.
Arguments N.div : simpl never.
Arguments N.modulo : simpl never.
Arguments N.pow : simpl never.
Arguments N.of_nat : simpl never.
Arguments N.to_nat : simpl never.
Arguments N.eqb : simpl never.
Arguments N.ltb : simpl never.
Arguments N.leb : simpl never.
Arguments Z.add : simpl never.
Arguments Z.sub : simpl never.
Arguments Z.mul : simpl never.
Arguments Z.of_N : simpl never.
Arguments Z.to_N : simpl never.
Arguments Z.eqb : simpl never.
Arguments Z.ltb : simpl never.
Arguments Z.leb : simpl never.

(** ** Bytes and text *)

Definition bytes := list byte.
(** Python [str]: a list of Unicode code points. *)
Definition str := list N.

Definition b2n (b : byte) : N := Strings.Byte.to_N b.
Definition n2b (n : N) : byte :=
  match Strings.Byte.of_N (n mod 256) with Some b => b | None => x00 end.

(** Text and byte literals (ASCII only). *)
Definition bl (s : String.string) : bytes := String.list_byte_of_string s.
Definition lit (s : String.string) : str := map b2n (bl s).
Arguments bl s%string_scope.
Arguments lit s%string_scope.

(** ** Exceptions *)

(** [errno] values that the code distinguishes. *)
Inductive errno := ENOENT | EEXIST | EISDIR | ENOTDIR | ENOTEMPTY | EINVAL | ENAMETOOLONG | ELOOP | EIO.

Inductive exn :=
| ValueError
| UnicodeDecodeError       (* a subclass of ValueError in Python *)
| TypeError
| KeyError
| IndexError
| AttributeError
| NameError
| StructError              (* struct.error *)
| AssertionError
| EOFError
| StopIteration
| RuntimeError
| OSError (e : errno)
| HTTPError
| BaseExn (n : N)          (* anything else, e.g. KeyboardInterrupt, zlib.error *)
| MalformedSubchunkError (data : bytes)
| FileConversionError.

(** ** Results *)

Inductive result (A : Type) := Ok (a : A) | Err (e : exn).
Arguments Ok {A} a.
Arguments Err {A} e.

Definition rbind {A B} (m : result A) (k : A -> result B) : result B :=
  match m with Ok a => k a | Err e => Err e end.
Definition rmap {A B} (f : A -> B) (m : result A) : result B :=
  match m with Ok a => Ok (f a) | Err e => Err e end.
Definition of_opt {A} (e : exn) (o : option A) : result A :=
  match o with Some a => Ok a | None => Err e end.

Fixpoint rmapM {A B} (f : A -> result B) (l : list A) : result (list B) :=
  match l with
  | [] => Ok []
  | x :: t => rbind (f x) (fun y => rbind (rmapM f t) (fun ys => Ok (y :: ys)))
  end.

Notation "'let!' x := m 'in' k" := (rbind m (fun x => k))
  (at level 200, x pattern, m at level 100, k at level 200, right associativity).

(** ** Decidable equality *)

Class EqDec (A : Type) := eq_dec : forall x y : A, {x = y} + {x <> y}.
#[global] Instance EqDec_N : EqDec N := N.eq_dec.
#[global] Instance EqDec_Z : EqDec Z := Z.eq_dec.
#[global] Instance EqDec_nat : EqDec nat := Nat.eq_dec.
#[global] Instance EqDec_bool : EqDec bool := Bool.bool_dec.
#[global] Instance EqDec_byte : EqDec byte := Strings.Byte.byte_eq_dec.
#[global] Instance EqDec_list {A} `{EqDec A} : EqDec (list A) := list_eq_dec eq_dec.
#[global] Instance EqDec_option {A} `{EqDec A} : EqDec (option A).
Proof. intros x y; unfold EqDec in *; decide equality. Defined.
#[global] Instance EqDec_prod {A B} `{EqDec A} `{EqDec B} : EqDec (A * B).
Proof. intros x y; unfold EqDec in *; decide equality. Defined.

Definition eqb {A} `{EqDec A} (x y : A) : bool := if eq_dec x y then true else false.

Definition mem {A} `{EqDec A} (x : A) (l : list A) : bool := existsb (eqb x) l.

(** ** Lengths and slices *)

Fixpoint lenN_acc {A} (acc : N) (l : list A) : N :=
  match l with [] => acc | _ :: t => lenN_acc (N.succ acc) t end.
(** [len(l)] *)
Definition lenN {A} (l : list A) : N := lenN_acc 0 l.

(** [l[:n]] and [l[n:]] for [n >= 0]; recursion on the list so that huge [n] are harmless. *)
Fixpoint takeN {A} (n : N) (l : list A) : list A :=
  match l with
  | [] => []
  | x :: t => if n =? 0 then [] else x :: takeN (N.pred n) t
  end.
Fixpoint dropN {A} (n : N) (l : list A) : list A :=
  match l with
  | [] => []
  | x :: t => if n =? 0 then l else dropN (N.pred n) t
  end.

(** [l[a:b]] for [a, b >= 0]. *)
Definition sliceN {A} (l : list A) (a b : N) : list A := takeN (b - a) (dropN a l).

(** Python slice bounds: a negative index counts from the end, both are clamped. *)
Definition pyidx (len : N) (i : Z) : N :=
  if (i <? 0)%Z then Z.to_N (Z.max 0 (Z.of_N len + i)) else N.min len (Z.to_N i).
(** [l[:i]], [l[i:]], [l[i:j]] for any integers. *)
Definition py_take {A} (l : list A) (i : Z) : list A := takeN (pyidx (lenN l) i) l.
Definition py_drop {A} (l : list A) (i : Z) : list A := dropN (pyidx (lenN l) i) l.
Definition py_slice {A} (l : list A) (i j : Z) : list A :=
  sliceN l (pyidx (lenN l) i) (pyidx (lenN l) j).

(** [l[i]] for [i >= 0]. *)
Fixpoint nthN {A} (l : list A) (n : N) : option A :=
  match l with
  | [] => None
  | x :: t => if n =? 0 then Some x else nthN t (N.pred n)
  end.

(** [range(n)] as a list. *)
Fixpoint rangeN_from (start : N) (n : nat) : list N :=
  match n with O => [] | S k => start :: rangeN_from (N.succ start) k end.
Definition rangeN (n : N) : list N := rangeN_from 0 (N.to_nat n).

(** ** Dictionaries: association lists in insertion order, unique keys *)

Section Dict.
  Context {K V : Type} `{EqDec K}.

  Fixpoint dget (k : K) (d : list (K * V)) : option V :=
    match d with
    | [] => None
    | (k', v) :: t => if eqb k k' then Some v else dget k t
    end.
  (** [d[k] = v]: keeps the position of an existing key, else appends. *)
  Fixpoint dset (k : K) (v : V) (d : list (K * V)) : list (K * V) :=
    match d with
    | [] => [(k, v)]
    | (k', v') :: t => if eqb k k' then (k', v) :: t else (k', v') :: dset k v t
    end.
  Definition ddel (k : K) (d : list (K * V)) : list (K * V) :=
    filter (fun p => negb (eqb k (fst p))) d.
  Definition dhas (k : K) (d : list (K * V)) : bool :=
    match dget k d with Some _ => true | None => false end.
  Definition dkeys (d : list (K * V)) : list K := map fst d.
  Definition dvals (d : list (K * V)) : list V := map snd d.
  (** [{k: v for k, v in l}] *)
  Definition dict_of (l : list (K * V)) : list (K * V) :=
    fold_left (fun d p => dset (fst p) (snd p) d) l [].
End Dict.

(** Set built by [{x for x in l}]: first occurrences kept (iteration order is not observable). *)
Definition set_add {A} `{EqDec A} (x : A) (s : list A) : list A :=
  if mem x s then s else s ++ [x].
Definition set_of {A} `{EqDec A} (l : list A) : list A := fold_left (fun s x => set_add x s) l [].
