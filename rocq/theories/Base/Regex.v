(** * The fragment of [re] used on paths *)

From Verif Require Export Base.Text.

(** A character, [.] (anything but a newline), [.*], [$] (the end, or just before a final newline). *)
Inductive ritem := RChr (c : N) | RAny | RStar | REnd.
Definition rlit (s : str) : list ritem := map RChr s.

(** [re.match]: the pattern matches a prefix. *)
Fixpoint rmatch (r : list ritem) : str -> bool :=
  match r with
  | [] => fun _ => true
  | RChr c :: r' => fun s => match s with x :: t => (x =? c) && rmatch r' t | [] => false end
  | RAny :: r' => fun s => match s with x :: t => negb (x =? cNL) && rmatch r' t | [] => false end
  | RStar :: r' => fix star (s : str) : bool := rmatch r' s || match s with x :: t => negb (x =? cNL) && star t | [] => false end
  | REnd :: r' => fun s => (eqb s [] || eqb s [cNL]) && rmatch r' s
  end.
(** [re.search]: the first position that matches. *)
Fixpoint rfind (r : list ritem) (s : str) : option str :=
  if rmatch r s then Some s else match s with [] => None | _ :: t => rfind r t end.
Definition rsearch (r : list ritem) (s : str) : bool := match rfind r s with Some _ => true | None => false end.
(** Alternatives *)
Definition rsearch_any (l : list (list ritem)) (s : str) : bool := existsb (fun r => rsearch r s) l.

(** [sub in s] *)
Fixpoint contains_str (sub s : str) : bool := startswith s sub || match s with [] => false | _ :: t => contains_str sub t end.
