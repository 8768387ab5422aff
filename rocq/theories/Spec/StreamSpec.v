(** * Specification of streaming reads: operations on the whole body, no chunks *)

From Verif Require Import Base.Py Model.Stream.

(** What each operation must deliver for a body read from position [pos]. Exceptions stop the
    program; a read past the end delivers what is left. *)
Fixpoint body_run (body : bytes) (pos : N) (ops : list sop) : list bytes * option exn :=
  match ops with
  | [] => ([], None)
  | OCopy n :: t =>
    if lenN body <? pos + Z.to_N n then ([skipn (N.to_nat pos) body], Some StopIteration)
    else let '(r, e) := body_run body (pos + Z.to_N n) t in
         (firstn (Z.to_nat n) (skipn (N.to_nat pos) body) :: r, e)
  | OSkip n :: t =>
    if lenN body <? pos + Z.to_N n then ([[]], Some StopIteration)
    else let '(r, e) := body_run body (pos + Z.to_N n) t in ([] :: r, e)
  | OSkipTo p :: t =>
    if (p <? Z.of_N pos)%Z then ([[]], Some AssertionError)
    else if lenN body <? Z.to_N p then ([[]], Some StopIteration)
    else let '(r, e) := body_run body (Z.to_N p) t in ([] :: r, e)
  end.

(** Operations with non-negative sizes. *)
Definition sop_ok (o : sop) : Prop :=
  match o with OCopy n | OSkip n => (0 <= n)%Z | OSkipTo _ => True end.
