(** * Binary parsing: [struct] and [cdtb.tools.BinaryParser] (cdtb/tools.py:55-82)

    A parser runs on the whole content of the file and the current position.  [file.read(n)] may
    return fewer than [n] bytes at the end of the file; seeking past the end is allowed.

    Simplification: [unpack] of several fields is modelled as one read per field.  Values and
    raised exceptions are the same ([struct.error] when the file is too short); only the position
    after an error differs, and no code continues after a [struct.error]. *)

From Verif Require Export Base.Py.

(** ** Little-endian integers *)

Fixpoint ledec (b : bytes) : N :=
  match b with [] => 0 | x :: t => b2n x + 256 * ledec t end.
Fixpoint leenc (w : nat) (n : N) : bytes :=
  match w with O => [] | S k => n2b n :: leenc k (n / 256) end.
(** Two's complement. *)
Definition to_signed (w : N) (n : N) : Z :=
  if n <? 2 ^ (8 * w - 1) then Z.of_N n else (Z.of_N n - 2 ^ (8 * Z.of_N w))%Z.
Definition of_signed (w : N) (z : Z) : N := Z.to_N (z mod 2 ^ (8 * Z.of_N w)).

(** ** Parsers *)

Definition P (A : Type) := bytes -> N -> result (A * N).
Definition pret {A} (a : A) : P A := fun _ p => Ok (a, p).
Definition praise {A} (e : exn) : P A := fun _ _ => Err e.
Definition pbind {A B} (m : P A) (k : A -> P B) : P B :=
  fun b p => match m b p with Ok (a, p') => k a b p' | Err e => Err e end.
Notation "'let*' x := m 'in' k" := (pbind m (fun x => k))
  (at level 200, x pattern, m at level 100, k at level 200, right associativity).
Definition plift {A} (r : result A) : P A := match r with Ok a => pret a | Err e => praise e end.

(** [f.read(n)] (also [BinaryParser.raw]) *)
Definition pread (n : N) : P bytes :=
  fun b p => let d := takeN n (dropN p b) in Ok (d, p + lenN d).
(** [f.read()] *)
Definition pread_all : P bytes := fun b p => let d := dropN p b in Ok (d, p + lenN d).
(** [f.tell()] *)
Definition ptell : P N := fun _ p => Ok (p, p).
(** [f.seek(n, 0)], which rejects negative positions. *)
Definition pseek (n : Z) : P unit :=
  fun _ _ => if (n <? 0)%Z then Err ValueError else Ok (tt, Z.to_N n).
(** [f.seek(n, 1)]; [io.BytesIO] clamps at 0. *)
Definition pskip (n : Z) : P unit := fun _ p => Ok (tt, Z.to_N (Z.max 0 (Z.of_N p + n))).

(** Exactly [n] bytes, for [struct.unpack(fmt, f.read(n))]. *)
Definition punpack (n : N) : P bytes :=
  let* d := pread n in if lenN d =? n then pret d else praise StructError.
Definition u8 : P N := let* d := punpack 1 in pret (ledec d).
Definition u16 : P N := let* d := punpack 2 in pret (ledec d).
Definition u32 : P N := let* d := punpack 4 in pret (ledec d).
Definition u64 : P N := let* d := punpack 8 in pret (ledec d).
Definition i8 : P Z := let* d := punpack 1 in pret (to_signed 1 (ledec d)).
Definition i16 : P Z := let* d := punpack 2 in pret (to_signed 2 (ledec d)).
Definition i32 : P Z := let* d := punpack 4 in pret (to_signed 4 (ledec d)).
Definition i64 : P Z := let* d := punpack 8 in pret (to_signed 8 (ledec d)).
(** Format [?] *)
Definition ubool : P bool := let* n := u8 in pret (negb (n =? 0)).

(** [[m() for _ in range(n)]] *)
Fixpoint prep {A} (n : nat) (m : P A) : P (list A) :=
  match n with
  | O => pret []
  | S k => let* x := m in let* l := prep k m in pret (x :: l)
  end.
Definition plist {A} (n : N) (m : P A) : P (list A) := prep (N.to_nat n) m.

(** [[m(x) for x in l]] *)
Fixpoint pmapM {A B} (m : A -> P B) (l : list A) : P (list B) :=
  match l with
  | [] => pret []
  | x :: t => let* y := m x in let* ys := pmapM m t in pret (y :: ys)
  end.

(** Run a parser from the start of a file. *)
Definition prun {A} (m : P A) (b : bytes) : result A := rmap fst (m b 0).
