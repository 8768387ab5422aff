(** * Text: the [str] methods, number formatting and [posixpath] functions used by cdtb *)

From Verif Require Export Base.Py.

(** ** Characters *)

Definition cSlash : N := 47.
Definition cDot : N := 46.
Definition cNL : N := 10.
Definition cCR : N := 13.
Definition cSpace : N := 32.
Definition cComma : N := 44.
Definition cMinus : N := 45.
Definition cPlus : N := 43.
Definition cUnder : N := 95.

Definition is_digit (c : N) : bool := (48 <=? c) && (c <=? 57).
Definition is_upper_hex (c : N) : bool := is_digit c || ((65 <=? c) && (c <=? 70)).
(** ASCII whitespace, as removed by [str.strip()], and as ignored by [int()].
    Simplification: non-ASCII whitespace is not considered. *)
Definition is_space (c : N) : bool := ((9 <=? c) && (c <=? 13)) || ((28 <=? c) && (c <=? 32)).
Definition is_int_space (c : N) : bool := ((9 <=? c) && (c <=? 13)) || (c =? 32).

(** [str.lower()], restricted to ASCII: other characters are left unchanged. *)
Definition lower1 (c : N) : N := if (65 <=? c) && (c <=? 90) then c + 32 else c.
Definition lower (s : str) : str := map lower1 s.
Definition upper1 (c : N) : N := if (97 <=? c) && (c <=? 122) then c - 32 else c.
Definition upper (s : str) : str := map upper1 s.

(** ** Searching and splitting *)

Fixpoint startswith {A} `{EqDec A} (s p : list A) {struct p} : bool :=
  match p, s with
  | [], _ => true
  | _ :: _, [] => false
  | y :: p', x :: s' => eqb x y && startswith s' p'
  end.
(** [s.endswith(p)] *)
Definition endswith {A} `{EqDec A} (s p : list A) : bool := startswith (rev s) (rev p).
(** [s.removeprefix]-like slicing [s[len(p):]] *)
Definition drop_prefix {A} (p s : list A) : list A := dropN (lenN p) s.

(** [s.find(c)]: position of the first [c], for a single character. *)
Fixpoint find_ch {A} `{EqDec A} (c : A) (s : list A) : option N :=
  match s with
  | [] => None
  | x :: t => if eqb x c then Some 0 else option_map N.succ (find_ch c t)
  end.

(** [s.split(c)] for a single-character separator (also [bytes.split]). *)
Fixpoint split_ch {A} `{EqDec A} (c : A) (s : list A) : list (list A) :=
  match s with
  | [] => [[]]
  | x :: t => if eqb x c then [] :: split_ch c t
              else match split_ch c t with
                   | h :: r => (x :: h) :: r
                   | [] => [[x]]
                   end
  end.

(** [s.split(c, 1)], [s.partition(c)]: cut at the first [c]. *)
Fixpoint cut_first {A} `{EqDec A} (c : A) (s : list A) : option (list A * list A) :=
  match s with
  | [] => None
  | x :: t => if eqb x c then Some ([], t)
              else match cut_first c t with Some (a, b) => Some (x :: a, b) | None => None end
  end.
(** [s.rsplit(c, 1)]: cut at the last [c]. *)
Fixpoint cut_last {A} `{EqDec A} (c : A) (s : list A) : option (list A * list A) :=
  match s with
  | [] => None
  | x :: t => match cut_last c t with
              | Some (a, b) => Some (x :: a, b)
              | None => if eqb x c then Some ([], t) else None
              end
  end.

(** [sep.join(l)] *)
Fixpoint join {A} (sep : list A) (l : list (list A)) : list A :=
  match l with
  | [] => []
  | [x] => x
  | x :: t => x ++ sep ++ join sep t
  end.

(** [s.rstrip(chars)], [s.lstrip(chars)], [s.strip(chars)] for a character predicate. *)
Fixpoint lstrip {A} (f : A -> bool) (s : list A) : list A :=
  match s with [] => [] | x :: t => if f x then lstrip f t else s end.
Definition rstrip {A} (f : A -> bool) (s : list A) : list A := rev (lstrip f (rev s)).
Definition strip {A} (f : A -> bool) (s : list A) : list A := rstrip f (lstrip f s).

(** ** Numbers *)

(** Digits of [n] in the given base, most significant first; [0] has one digit. *)
Fixpoint digits_fuel (fuel : nat) (base n : N) (acc : list N) : list N :=
  match fuel with
  | O => acc
  | S f => let acc' := (n mod base) :: acc in
           if n <? base then acc' else digits_fuel f base (n / base) acc'
  end.
Definition digits (base n : N) : list N := digits_fuel (S (N.size_nat n)) base n [].
Definition undigits (base : N) (ds : list N) : N := fold_left (fun a d => a * base + d) ds 0.

Definition digit_lower (d : N) : N := if d <? 10 then 48 + d else 87 + d.
Definition digit_upper (d : N) : N := if d <? 10 then 48 + d else 55 + d.
Definition digit_val (c : N) : option N :=
  if is_digit c then Some (c - 48)
  else if (97 <=? c) && (c <=? 102) then Some (c - 87)
  else if (65 <=? c) && (c <=? 70) then Some (c - 55)
  else None.

(** [str(n)] *)
Definition dec (n : N) : str := map digit_lower (digits 10 n).
Definition decZ (z : Z) : str :=
  match z with Zneg p => cMinus :: dec (Npos p) | _ => dec (Z.to_N z) end.
Definition pad0 (w : N) (s : str) : str := repeat 48 (N.to_nat (w - lenN s)) ++ s.
(** [f"{n:0wx}"] and [f"{n:0wX}"] *)
Definition hexl (w n : N) : str := pad0 w (map digit_lower (digits 16 n)).
Definition hexu (w n : N) : str := pad0 w (map digit_upper (digits 16 n)).

(** Unsigned digit string with single underscores allowed between digits, as in [int()]. *)
Fixpoint int_digits (base : N) (s : str) (acc : N) : option N :=
  match s with
  | [] => Some acc
  | c :: t =>
    if c =? cUnder then
      match t with
      | d :: t' => match digit_val d with
                   | Some v => if v <? base then int_digits base t' (acc * base + v) else None
                   | None => None
                   end
      | [] => None
      end
    else match digit_val c with
         | Some v => if v <? base then int_digits base t (acc * base + v) else None
         | None => None
         end
  end.
Definition int_unsigned (base : N) (s : str) : option N :=
  match s with
  | [] => None
  | c :: _ => if c =? cUnder then None else int_digits base s 0
  end.
(** [int(s, base)] for bases up to 16, with surrounding whitespace and an optional sign.
    Simplification: non-ASCII digits and [0x] prefixes (base 16) are rejected. *)
Definition int_of (base : N) (s : str) : result Z :=
  match strip is_int_space s with
  | c :: t =>
    if c =? cMinus then of_opt ValueError (option_map (fun n => (- Z.of_N n)%Z) (int_unsigned base t))
    else if c =? cPlus then of_opt ValueError (option_map Z.of_N (int_unsigned base t))
    else of_opt ValueError (option_map Z.of_N (int_unsigned base (c :: t)))
  | [] => Err ValueError
  end.
Definition int10 : str -> result Z := int_of 10.
Definition int16 : str -> result Z := int_of 16.

(** ** posixpath *)

(** [os.path.split(p)] *)
Definition path_split (p : str) : str * str :=
  match cut_last cSlash p with
  | None => ([], p)
  | Some (h, t) =>
    let head := h ++ [cSlash] in
    if forallb (N.eqb cSlash) head then (head, t)
    else (rstrip (N.eqb cSlash) head, t)
  end.
Definition dirname (p : str) : str := fst (path_split p).
Definition basename (p : str) : str := snd (path_split p).

(** [os.path.splitext(p)]: the extension starts at the last dot of the last component, provided
    a non-dot character of that component precedes it. *)
Definition splitext (p : str) : str * str :=
  let '(dir, base) :=
    match cut_last cSlash p with Some (h, t) => (h ++ [cSlash], t) | None => ([], p) end in
  match cut_last cDot base with
  | Some (b, e) => if forallb (N.eqb cDot) b then (p, []) else (dir ++ b, cDot :: e)
  | None => (p, [])
  end.

(** [os.path.join(a, b)] *)
Definition path_join (a b : str) : str :=
  if startswith b [cSlash] then b
  else if eqb a [] || endswith a [cSlash] then a ++ b
  else a ++ [cSlash] ++ b.

(** ** Comparison and sorting *)

(** Lexicographic [<] on sequences (Python tuples, lists, strings). *)
Fixpoint lex_lt {A} (lt : A -> A -> bool) (eq : A -> A -> bool) (x y : list A) : bool :=
  match x, y with
  | _, [] => false
  | [], _ :: _ => true
  | a :: x', b :: y' => if eq a b then lex_lt lt eq x' y' else lt a b
  end.
Definition str_lt : str -> str -> bool := lex_lt N.ltb N.eqb.

(** [sorted(l)]: stable, using only [<]. *)
Fixpoint insert_sorted {A} (lt : A -> A -> bool) (x : A) (l : list A) : list A :=
  match l with
  | [] => [x]
  | y :: t => if lt y x then y :: insert_sorted lt x t else x :: l
  end.
Definition py_sorted {A} (lt : A -> A -> bool) (l : list A) : list A :=
  fold_right (insert_sorted lt) [] l.
(** [sorted(l, reverse=True)]: Python reverses, sorts stably and reverses again. *)
Definition py_sorted_rev {A} (lt : A -> A -> bool) (l : list A) : list A :=
  rev (py_sorted lt (rev l)).
