(** * Iterations whose progress is displayed on interruption: cdtb/hashes.py:128-162

    An execution is a sequence of steps of the iterator, of demands of the loop which consumes it and of signals, which can arrive between
    any two steps.  Steps are as fine as needed for signals: the installation of the handler, the entrance in the [try], each item, the
    test and the reset of the flag, the [finally].
    Without terminal (hashes.py:164-168) the sequence itself is used instead.
    Parameters: [percent], the text of [%5.1f] for [100 * i / n]; [form], the text of the formatted values.
    Simplifications: times are integers (milliseconds) instead of floats; a signal handled while the consumer runs and which interrupts
    it makes it leave its loop (callers do not catch KeyboardInterrupt), and leaving the loop closes the iterator at once (reference
    counting). *)

From Verif Require Import Base.Py Base.Text.

(** Handler of the signal: the one of the iterator, or another one. *)
Inductive handler := Own | Other (n : N).
(** How the iteration ends: all items given, interruption (KeyboardInterrupt), loop left by the consumer, exception in the iterator. *)
Inductive ending := Exhausted | Interrupted | Closed | Failed.
Inductive point {A : Type} :=
| Start                    (* not started *)
| Installed                (* hashes.py:141 done, before the [try] *)
| Loop                     (* hashes.py:158, before an item *)
| Check (x : A)            (* hashes.py:159 *)
| Printed (x : A)          (* hashes.py:160 done, before 161 *)
| Yielding (x : A)         (* hashes.py:162 *)
| Waiting                  (* the consumer runs *)
| Leaving (e : ending)     (* hashes.py:145 *)
| Over (e : ending).
Arguments point : clear implicits.

Record state {A : Type} := {
  s_point : point A;
  s_handler : handler;
  s_saved : handler;       (* [previous_handler] *)
  s_flag : bool;           (* [interrupted] *)
  s_last : Z;              (* [tlast] *)
  s_index : N;             (* number of items taken from [enumerate] *)
  s_todo : list A;
  s_given : list A;        (* items yielded *)
  s_lines : list str       (* lines displayed *)
}.
Arguments state : clear implicits.

(** What happens: a step of the iterator (on its own, or asked by the consumer), the consumer leaves its loop, an exception in the
    iterator (iteration or display), a signal at a given time. *)
Inductive event := Step | Leave | Fail | Signal (t : Z).

Section Progress.
  Variable A : Type.
  Variable percent : N -> N -> str.
  Variable form : A -> str.
  Variable seq : list A.

  Definition init (h : handler) : state A :=
    {| s_point := Start; s_handler := h; s_saved := h; s_flag := false; s_last := 0; s_index := 0; s_todo := seq; s_given := []; s_lines := [] |}.
  Definition at_point (p : point A) (s : state A) : state A :=
    {| s_point := p; s_handler := s_handler s; s_saved := s_saved s; s_flag := s_flag s; s_last := s_last s; s_index := s_index s; s_todo := s_todo s; s_given := s_given s; s_lines := s_lines s |}.
  Definition with_handler (h : handler) (s : state A) : state A :=
    {| s_point := s_point s; s_handler := h; s_saved := s_saved s; s_flag := s_flag s; s_last := s_last s; s_index := s_index s; s_todo := s_todo s; s_given := s_given s; s_lines := s_lines s |}.
  Definition with_flag (b : bool) (s : state A) : state A :=
    {| s_point := s_point s; s_handler := s_handler s; s_saved := s_saved s; s_flag := b; s_last := s_last s; s_index := s_index s; s_todo := s_todo s; s_given := s_given s; s_lines := s_lines s |}.
  Definition with_last (t : Z) (s : state A) : state A :=
    {| s_point := s_point s; s_handler := s_handler s; s_saved := s_saved s; s_flag := s_flag s; s_last := t; s_index := s_index s; s_todo := s_todo s; s_given := s_given s; s_lines := s_lines s |}.

  (** hashes.py:160 *)
  Definition line (i : N) (x : A) : str := lit "  " ++ percent (100 * i) (lenN seq) ++ lit "%  " ++ form x.

  (** Steps of hashes.py:141-145 and 157-162 *)
  Definition step (s : state A) : option (state A) :=
    match s_point s with
    | Start => Some (at_point Installed (with_handler Own s))
    | Installed => Some (at_point Loop s)
    | Loop =>
      match s_todo s with
      | [] => Some (at_point (Leaving Exhausted) s)
      | x :: t => Some {| s_point := Check x; s_handler := s_handler s; s_saved := s_saved s; s_flag := s_flag s; s_last := s_last s; s_index := s_index s + 1; s_todo := t; s_given := s_given s; s_lines := s_lines s |}
      end
    | Check x =>
      if s_flag s then Some {| s_point := Printed x; s_handler := s_handler s; s_saved := s_saved s; s_flag := true; s_last := s_last s; s_index := s_index s; s_todo := s_todo s; s_given := s_given s; s_lines := s_lines s ++ [line (s_index s - 1) x] |}
      else Some (at_point (Yielding x) s)
    | Printed x => Some (at_point (Yielding x) (with_flag false s))
    | Yielding x => Some {| s_point := Waiting; s_handler := s_handler s; s_saved := s_saved s; s_flag := s_flag s; s_last := s_last s; s_index := s_index s; s_todo := s_todo s; s_given := s_given s ++ [x]; s_lines := s_lines s |}
    | Waiting => Some (at_point Loop s)
    | Leaving e => Some (at_point (Over e) (with_handler (s_saved s) s))
    | Over _ => None
    end.
  (** KeyboardInterrupt raised where the execution is: the [finally] is executed, unless it has not been entered yet or is being executed *)
  Definition interrupt (s : state A) : state A :=
    match s_point s with
    | Installed | Leaving _ => at_point (Over Interrupted) s
    | _ => at_point (Leaving Interrupted) s
    end.
  (** hashes.py:133-139, with the callback of hashes.py:154-156 *)
  Definition signal_handler (t : Z) (s : state A) : state A :=
    let s := with_flag true s in
    if (t - s_last s <? 500)%Z then interrupt s else with_last t s.
  Definition happens (e : event) (s : state A) : option (state A) :=
    match e with
    | Step => step s
    | Leave => match s_point s with Waiting => Some (at_point (Leaving Closed) s) | _ => None end
    | Fail => match s_point s with Loop => Some (at_point (Leaving Failed) s) | Check _ => if s_flag s then Some (at_point (Leaving Failed) s) else None | _ => None end
    | Signal t => match s_point s, s_handler s with Start, _ | Over _, _ | _, Other _ => None | _, Own => Some (signal_handler t s) end
    end.
  Fixpoint exec (l : list event) (s : state A) : option (state A) :=
    match l with [] => Some s | e :: l => match happens e s with Some s => exec l s | None => None end end.
End Progress.
