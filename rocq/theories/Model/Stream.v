(** * Streaming downloads: cdtb/storage.py:99-129 [RequestStreamReader] *)

From Verif Require Import Base.Py.

(** storage.py:104-107.  [r.iter_content()] is the list of chunks not yet received; the way the
    body is cut into chunks (empty chunks included) is arbitrary. *)
Record stream := { st_it : list bytes; st_pos : Z; st_buf : bytes }.
Definition stream_open (chunks : list bytes) : stream := {| st_it := chunks; st_pos := 0; st_buf := [] |}.

(** storage.py:112-121: the loop of [copy], returning the data passed to each call of the
    writer, the remaining iterator and buffer, and the exception raised if any.
    [w] tells whether a writer is given.  [n] may be any integer (a manifest may hold negative
    sizes).  When [next(self.it)] raises, [self.buf] is left as is. *)
Fixpoint copy_loop (w : bool) (it : list bytes) (buf : bytes) (n : Z)
  : list bytes * (list bytes * bytes) * option exn :=
  if (n =? 0)%Z then ([], (it, buf), None)
  else if (n <=? Z.of_N (lenN buf))%Z then
    (if w then [py_take buf n] else [], (it, py_drop buf n), None)
  else
    let ws := if w then match buf with [] => [] | _ => [buf] end else [] in
    match it with
    | [] => (ws, ([], buf), Some StopIteration)
    | c :: it' =>
      let '(ws', st, e) := copy_loop w it' c (n - Z.of_N (lenN buf))%Z in
      (ws ++ ws', st, e)
    end.

(** storage.py:109-121 [copy]. *)
Definition stream_copy (w : bool) (n : Z) (s : stream) : list bytes * stream * option exn :=
  let '(ws, (it, buf), e) := copy_loop w (st_it s) (st_buf s) n in
  (ws, {| st_it := it; st_pos := (st_pos s + n)%Z; st_buf := buf |}, e).

(** storage.py:123-125 [skip]. *)
Definition stream_skip (n : Z) (s : stream) : list bytes * stream * option exn :=
  stream_copy false n s.

(** storage.py:127-129 [skip_to]. *)
Definition stream_skip_to (p : Z) (s : stream) : list bytes * stream * option exn :=
  if (st_pos s <=? p)%Z then stream_skip (p - st_pos s)%Z s
  else ([], s, Some AssertionError).

(** A user program: a sequence of calls, stopping at the first exception.  The result lists the
    writer calls made by each operation. *)
Inductive sop := OCopy (n : Z) | OSkip (n : Z) | OSkipTo (p : Z).
Definition run_sop (o : sop) (s : stream) : list bytes * stream * option exn :=
  match o with
  | OCopy n => stream_copy true n s
  | OSkip n => stream_skip n s
  | OSkipTo p => stream_skip_to p s
  end.
Fixpoint run_sops (ops : list sop) (s : stream) : list (list bytes) * stream * option exn :=
  match ops with
  | [] => ([], s, None)
  | o :: t =>
    let '(ws, s', e) := run_sop o s in
    match e with
    | Some _ => ([ws], s', e)
    | None => let '(wss, s'', e') := run_sops t s' in (ws :: wss, s'', e')
    end
  end.
