(** * Specification of the guessing of numbers and words in basenames *)

From Verif Require Import Base.Py Base.Text.

Definition digit (c : N) : Prop := 48 <= c <= 57.
Definition word_char (c : N) : Prop := ~ In c (lit "/_.-").
(** [run] is a longest run of such characters between [a] and [b]. *)
Definition longest_run (P : N -> Prop) (a run b : str) : Prop :=
  run <> [] /\ Forall P run /\ (forall x c, a = x ++ [c] -> ~ P c) /\ (forall c x, b = c :: x -> ~ P c).
(** The end of a basename, with an extension. *)
Definition with_extension (b : str) : Prop := ~ In cSlash b /\ exists x c y, b = x ++ cDot :: c :: y.

(** Another number in the basename. *)
Definition other_number (nmax : N) (path q : str) : Prop :=
  exists a d b n, path = a ++ d ++ b /\ longest_run digit a d b /\ with_extension b /\ n < nmax /\ q = a ++ dec n ++ b.
(** Groups of [w] digits. *)
Definition other_digits (w nmax : N) (path q : str) : Prop :=
  exists a d1 d d2 b n k, path = a ++ (d1 ++ d ++ d2) ++ b /\ longest_run digit a (d1 ++ d ++ d2) b /\ with_extension b /\
    lenN d1 = k * w /\ lenN d = w /\ n < nmax /\ q = a ++ d1 ++ pad0 w (dec n) ++ d2 ++ b.

(** Words side by side. *)
Inductive side_by_side : list str -> str -> Prop :=
| sbs_one w : w <> [] -> Forall word_char w -> side_by_side [w] w
| sbs_more w c ws s : w <> [] -> Forall word_char w -> (c = cMinus \/ c = cUnder) -> side_by_side ws s -> side_by_side (w :: ws) (w ++ c :: s).
(** Some words replaced by others. *)
Definition other_words (words : list str) (nold nnew : nat) (path q : str) : Prop :=
  exists a old s b new c, path = a ++ s ++ b /\ side_by_side old s /\ length old = nold /\ (forall x d, a = x ++ [d] -> ~ word_char d) /\ (forall d x, b = d :: x -> ~ word_char d) /\ with_extension b /\
    length new = nnew /\ Forall (fun w => In w words) new /\ (c = cMinus \/ c = cUnder) /\ q = a ++ join [c] new ++ b.
(** A word added before or after another. *)
Definition one_more_word (words : list str) (path q : str) : Prop :=
  exists a w b new c, path = a ++ w ++ b /\ longest_run word_char a w b /\ with_extension b /\ In new words /\ (c = cMinus \/ c = cUnder) /\
    (q = a ++ new ++ c :: w ++ b \/ q = a ++ w ++ c :: new ++ b).

(** ** Filters *)

Definition hex_char (c : N) : Prop := 48 <= c <= 57 \/ 97 <= c <= 102.
(** A file whose name is a digest. *)
Definition digest_name (p : str) : Prop := exists a h b, p = a ++ cSlash :: h ++ cDot :: b /\ lenN h = 32 /\ Forall hex_char h.
Definition part (s : str) : Prop := s <> [] /\ ~ In cSlash s.
(** Paths of the client without numbers to change. *)
Inductive numbers_kept : str -> Prop :=
| nk_champion x y r : part x -> part y -> numbers_kept (lit "plugins/rcp-be-lol-game-data/" ++ x ++ lit "/" ++ y ++ lit "/v1/champion-" ++ r)
| nk_characters d r : d = lit "data" \/ d = lit "assets" -> numbers_kept (lit "plugins/rcp-be-lol-game-data/global/default/" ++ d ++ lit "/characters/" ++ r)
| nk_items n r : n <> [] -> Forall digit n -> numbers_kept (lit "plugins/rcp-be-lol-game-data/global/default/data/items/icons2d/" ++ n ++ lit "_" ++ r)
| nk_none x y c r : part x -> part y -> c <> cNL -> numbers_kept (lit "plugins/rcp-be-lol-game-data/" ++ x ++ lit "/" ++ y ++ lit "/v1/champions/-1" ++ c :: lit "json" ++ r)
| nk_digest p : digest_name p -> numbers_kept p.
(** Words between separators, except large numbers. *)
Definition word_of (p w : str) : Prop :=
  Forall word_char w /\ exists a c b, p = a ++ w ++ c :: b /\ ~ word_char c /\ (a = [] \/ exists a' c', a = a' ++ [c'] /\ ~ word_char c').
Definition large_number (w : str) : Prop := exists d, (w = d \/ w = d ++ [cNL]) /\ (3 <= length d)%nat /\ Forall digit d.
