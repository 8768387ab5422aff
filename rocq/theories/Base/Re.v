(** * Matching of regular expressions by backtracking, as done by [re] *)

From Verif Require Export Base.Py.

(** A character of a class, [p*], [p*?] for a class, a sequence, [|], a group and [\b]. *)
Inductive re (A : Type) :=
| Cls (p : A -> bool) | Star (p : A -> bool) | Lazy (p : A -> bool)
| Eps | Seq (r s : re A) | Alt (r s : re A) | Group (r : re A) | Bound.
Arguments Cls {A}. Arguments Star {A}. Arguments Lazy {A}. Arguments Eps {A}. Arguments Seq {A}. Arguments Alt {A}. Arguments Group {A}. Arguments Bound {A}.
Notation "r ;; s" := (Seq r s) (at level 62, right associativity).

(** The character before the position, the text after it and the texts of the groups. *)
Definition rstate (A : Type) : Type := option A * list A * list (list A).

Section Re.
  Context {A : Type} `{EqDec A}.
  (** [\w] *)
  Variable word : A -> bool.

  Definition Lit (w : list A) : re A := fold_right (fun c r => Cls (eqb c) ;; r) Eps w.
  Definition Plus (p : A -> bool) : re A := Cls p ;; Star p.
  Definition Alts (l : list (re A)) (last : re A) : re A := fold_right Alt last l.

  Definition in_word (o : option A) : bool := match o with Some c => word c | None => false end.

  (** The first match that is continued by [k]; the alternatives are tried in order. *)
  Fixpoint star_from (p : A -> bool) (k : rstate A -> option (rstate A)) (g : list (list A)) (b : option A) (s : list A) : option (rstate A) :=
    match s with
    | [] => k (b, s, g)
    | c :: t => if p c then match star_from p k g (Some c) t with Some x => Some x | None => k (b, s, g) end else k (b, s, g)
    end.
  Fixpoint lazy_from (p : A -> bool) (k : rstate A -> option (rstate A)) (g : list (list A)) (b : option A) (s : list A) : option (rstate A) :=
    match k (b, s, g) with
    | Some x => Some x
    | None => match s with [] => None | c :: t => if p c then lazy_from p k g (Some c) t else None end
    end.
  Fixpoint matches (r : re A) (st : rstate A) (k : rstate A -> option (rstate A)) : option (rstate A) :=
    let '(b, s, g) := st in
    match r with
    | Cls p => match s with c :: t => if p c then k (Some c, t, g) else None | [] => None end
    | Star p => star_from p k g b s
    | Lazy p => lazy_from p k g b s
    | Eps => k st
    | Seq r1 r2 => matches r1 st (fun st' => matches r2 st' k)
    | Alt r1 r2 => match matches r1 st k with Some x => Some x | None => matches r2 st k end
    | Group r1 => matches r1 st (fun st' => let '(b', s', g') := st' in k (b', s', g' ++ [firstn (length s - length s') s]))
    | Bound => if xorb (in_word b) (in_word (hd_error s)) then k st else None
    end.
  Definition match_at (r : re A) (b : option A) (s : list A) : option (rstate A) := matches r (b, s, []) Some.

  (** The groups of the matches given by [re.finditer], for a pattern that does not match the empty text. *)
  Fixpoint finditer (r : re A) (skip : nat) (b : option A) (s : list A) : list (list (list A)) :=
    match s with
    | [] => []
    | c :: t =>
      match skip with
      | S k => finditer r k (Some c) t
      | O => match match_at r b s with
             | Some (_, s', g) => g :: finditer r (length t - length s') (Some c) t
             | None => finditer r 0 (Some c) t
             end
      end
    end.
End Re.
