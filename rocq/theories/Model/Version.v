(** * Version numbers: cdtb/storage.py:17-97 and cdtb/rads.py:23-34 *)

From Verif Require Import Base.Text.

(** Value of [self.t]: a tuple of integers, or the string ["main"] (storage.py:83). *)
Inductive vkey := VMain | VNum (t : list Z).

(** storage.py:17-68.  A version object: its text [s] and its comparison key [t]. *)
Record version := { v_s : str; v_t : vkey }.

(** Constructor argument (storage.py:23).  Simplification: tuples hold integers only. *)
Inductive varg := ArgStr (s : str) | ArgTuple (t : list Z).

(** ['.'.join(str(x) for x in t)], used at storage.py:30 and 89. *)
Definition dotted (t : list Z) : str := join [cDot] (map decZ t).

(** storage.py:23-33 [BaseVersion.__init__]. *)
Definition base_version (v : varg) : result (str * list Z) :=
  match v with
  | ArgStr [] | ArgTuple [] => Err ValueError
  | ArgStr s => let! t := rmapM int10 (split_ch cDot s) in Ok (s, t)
  | ArgTuple t => Ok (dotted t, t)
  end.

(** storage.py:80-90 [PatchVersion.__init__]. *)
Definition patch_version (v : varg) : result version :=
  match v with
  | ArgStr s =>
    if eqb s (lit "main") then Ok {| v_s := s; v_t := VMain |}
    else
      let! (s, t) := base_version v in
      let '(s, t) := if 2 <? lenN t then (dotted (takeN 2 t), takeN 2 t) else (s, t) in
      if lenN t =? 2 then Ok {| v_s := s; v_t := VNum t |} else Err AssertionError
  | ArgTuple _ =>
      let! (s, t) := base_version v in
      let '(s, t) := if 2 <? lenN t then (dotted (takeN 2 t), takeN 2 t) else (s, t) in
      if lenN t =? 2 then Ok {| v_s := s; v_t := VNum t |} else Err AssertionError
  end.

(** rads.py:32-34 [RadsVersion.__init__]. *)
Definition rads_version (v : varg) : result version :=
  let! (s, t) := base_version v in
  if lenN t =? 4 then Ok {| v_s := s; v_t := VNum t |} else Err AssertionError.

(** Tuple comparison [t1 < t2]. *)
Definition tuple_lt : list Z -> list Z -> bool := lex_lt Z.ltb Z.eqb.

(** storage.py:41-51: rich comparisons of the [t] attributes.  Comparing a string with a tuple
    raises TypeError; ["main"] compared with itself behaves as equal strings. *)
Definition v_lt (a b : version) : result bool :=
  match v_t a, v_t b with
  | VNum x, VNum y => Ok (tuple_lt x y)
  | VMain, VMain => Ok false
  | _, _ => Err TypeError
  end.
Definition v_gt (a b : version) : result bool :=
  match v_t a, v_t b with
  | VNum x, VNum y => Ok (tuple_lt y x)
  | VMain, VMain => Ok false
  | _, _ => Err TypeError
  end.
Definition v_le (a b : version) : result bool :=
  match v_t a, v_t b with
  | VNum x, VNum y => Ok (negb (tuple_lt y x))
  | VMain, VMain => Ok true
  | _, _ => Err TypeError
  end.
Definition v_ge (a b : version) : result bool :=
  match v_t a, v_t b with
  | VNum x, VNum y => Ok (negb (tuple_lt x y))
  | VMain, VMain => Ok true
  | _, _ => Err TypeError
  end.

(** storage.py:53-62 [__eq__] against a version, a string, a tuple. *)
Definition v_eq (a b : version) : bool := eqb (v_s a) (v_s b).
Definition v_eq_str (a : version) (s : str) : bool := eqb (v_s a) s.
Definition v_eq_tuple (a : version) (t : list Z) : bool :=
  match v_t a with VNum x => eqb x t | VMain => false end.

(** storage.py:67-68 [__hash__]: any hash of the text. *)
Definition v_hash (h : str -> Z) (a : version) : Z := h (v_s a).

(** storage.py:92-97 [as_int]. *)
Definition as_int (a : version) : result Z :=
  match v_t a with
  | VMain => Ok 9999%Z
  | VNum [v0; v1] => Ok (v0 * 100 + v1)%Z
  | VNum _ => Err ValueError
  end.
