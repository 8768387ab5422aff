(** * Lines of text files *)

From Verif Require Import Base.Py Base.Text.

(** Universal newlines: what [open(path)] (text mode) returns for a decoded text. *)
Fixpoint nl_norm (s : str) : str :=
  match s with
  | [] => []
  | c :: t =>
    if c =? cCR then
      match t with
      | d :: t' => if d =? cNL then cNL :: nl_norm t' else cNL :: nl_norm t
      | [] => [cNL]
      end
    else c :: nl_norm t
  end.

(** [for line in f]: lines with their final newline. *)
Fixpoint file_lines (s : str) : list str :=
  match s with
  | [] => []
  | c :: t =>
    if c =? cNL then [c] :: file_lines t
    else match file_lines t with [] => [[c]] | l :: ls => (c :: l) :: ls end
  end.

(** [str.splitlines()] *)
Definition is_break (c : N) : bool :=
  ((10 <=? c) && (c <=? 13)) || ((28 <=? c) && (c <=? 30)) || (c =? 133) || (c =? 8232) || (c =? 8233).
Fixpoint splitlines (s : str) : list str :=
  match s with
  | [] => []
  | c :: t =>
    if c =? cCR then
      match t with
      | d :: t' => if d =? cNL then [] :: splitlines t' else [] :: splitlines t
      | [] => [[]]
      end
    else if is_break c then [] :: splitlines t
    else match splitlines t with [] => [[c]] | l :: ls => (c :: l) :: ls end
  end.

(** [l[i]] with Python's negative indices. *)
Definition py_nth {A} (l : list A) (i : Z) : result A :=
  let j := (if (i <? 0)%Z then i + Z.of_N (lenN l) else i)%Z in
  if (j <? 0)%Z then Err IndexError else of_opt IndexError (nthN l (Z.to_N j)).
