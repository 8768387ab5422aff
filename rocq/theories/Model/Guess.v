(** * Guessing of numbers and words in basenames: cdtb/hashes.py:278-337, 370-428, 570-622 *)

From Verif Require Import Base.Py Base.Text Model.Hashes Model.Patcher.

(** ** Formats of Python *)

(** Arguments of the operator [%]. *)
Inductive parg := PInt (n : N) | PStr (s : str).
Definition parg_str (a : parg) : str := match a with PInt n => dec n | PStr s => s end.

(** The digits at the start of a text, and the rest. *)
Fixpoint span_digits (s : str) : str * str :=
  match s with
  | [] => ([], [])
  | c :: t => if is_digit c then let '(a, b) := span_digits t in (c :: a, b) else ([], s)
  end.

Section Format.
  (** The result for a format that starts with a directive other than [%%], [%s], [%d] and [%0...d]. *)
  Variable other : str -> list parg -> result str.

  Fixpoint pct_fuel (fuel : nat) (fmt : str) (args : list parg) : result str :=
    match fuel with
    | O => Err RuntimeError
    | S k =>
      match fmt with
      | [] => match args with [] => Ok [] | _ => Err TypeError end
      | c :: t =>
        if negb (c =? 37) then rmap (cons c) (pct_fuel k t args) else
        match t with
        | [] => Err ValueError
        | d :: u =>
          if d =? 37 then rmap (cons 37) (pct_fuel k u args)
          else if d =? 115 then
            match args with [] => Err TypeError | a :: args => rmap (app (parg_str a)) (pct_fuel k u args) end
          else if d =? 100 then
            match args with PInt n :: args => rmap (app (dec n)) (pct_fuel k u args) | _ => Err TypeError end
          else if d =? 48 then
            let '(w, v) := span_digits u in
            match v with
            | x :: v =>
              if x =? 100 then
                match args with PInt n :: args => rmap (app (pad0 (undigits 10 (map (fun c => c - 48) w)) (dec n))) (pct_fuel k v args) | _ => Err TypeError end
              else other fmt args
            | [] => other fmt args
            end
          else other fmt args
        end
      end
    end.
  (** [fmt % args] *)
  Definition pct (fmt : str) (args : list parg) : result str := pct_fuel (S (length fmt)) fmt args.
End Format.

(** ** Matches in basenames *)

(** The longest runs of some characters, with what is before and after each of them. *)
Fixpoint runs (p : N -> bool) (pre run s : str) : list (str * str * str) :=
  match s with
  | [] => match run with [] => [] | _ => [(pre, run, [])] end
  | c :: t =>
    if p c then runs p pre (run ++ [c]) t
    else match run with [] => runs p (pre ++ [c]) [] t | _ => (pre, run, s) :: runs p (pre ++ run ++ [c]) [] t end
  end.
(** [(?=[^/]*\.[^/]+$)] *)
Definition ext_ahead (s : str) : bool := negb (mem cSlash s) && mem cDot (removelast s).
(** [[^/_.-]] *)
Definition is_word (c : N) : bool := negb (mem c (lit "/_.-")).

(** hashes.py:326 *)
Definition number_matches (path : str) : list (str * str * str) := filter (fun m => ext_ahead (snd m)) (runs is_digit [] [] path).
(** hashes.py:329: the groups of [w] digits of each run.  Simplification: [w] is not 0. *)
Fixpoint blocks (fuel : nat) (w : N) (pre run post : str) : list (str * str) :=
  match fuel with
  | O => []
  | S k => if (w =? 0) || (lenN run <? w) then [] else (pre, dropN w run ++ post) :: blocks k w (pre ++ takeN w run) (dropN w run) post
  end.
Definition block_matches (w : N) (path : str) : list (str * str) :=
  flat_map (fun m => let '(pre, run, post) := m in blocks (length run) w pre run post) (number_matches path).
(** hashes.py:307: words *)
Definition word_matches (path : str) : list (str * str * str) := filter (fun m => ext_ahead (snd m)) (runs is_word [] [] path).
(** hashes.py:287: [n] more words, and what follows *)
Fixpoint more_words (n : nat) (s : str) : option str :=
  match n with
  | O => Some s
  | S k =>
    match s with
    | c :: t =>
      if (c =? cMinus) || (c =? cUnder) then
        match lstrip is_word t with r => if lenN r =? lenN t then None else more_words k r end
      else None
    | [] => None
    end
  end.
Definition words_matches (nold : nat) (path : str) : list (str * str) :=
  flat_map (fun m => match more_words (nold - 1) (snd m) with Some r => if ext_ahead r then [(fst (fst m), r)] else [] | None => [] end) (runs is_word [] [] path).

(** [itertools.product(words, repeat=n)] *)
Fixpoint product (n : nat) (words : list str) : list (list str) :=
  match n with O => [[]] | S k => flat_map (fun w => map (cons w) (product k words)) words end.

Definition seps : list str := [[cMinus]; [cUnder]].
Definition fmt_sep : str := lit "{sep}%s".

Section Guess.
  Variable H : str -> Z.
  Variable other : str -> list parg -> result str.
  Notation pct := (pct other).

  (** [self.check_iter(...)] with a generator which may raise *)
  Fixpoint check_gen (l : list (result str)) (g : guesser) : guesser * result unit :=
    match l with
    | [] => (g, Ok tt)
    | Err e :: _ => (g, Err e)
    | Ok p :: t => check_gen t (check H p g)
    end.
  (** [for fmt in sorted(formats): self.check_iter(fmt % x for x in args)] *)
  Definition check_formats (formats : list str) (args : list (list parg)) (g : guesser) : guesser * result unit :=
    check_gen (flat_map (fun fmt => map (pct fmt) args) (py_sorted str_lt (set_of formats))) g.

  (** hashes.py:316-337 [_substitute_numbers] *)
  Inductive digits_arg := DigitsNone | DigitsTrue | Digits (n : N).
  Definition number_formats (digits : digits_arg) (nmax : N) (paths : list str) : list str :=
    let group w := flat_map (fun p => map (fun m => fst m ++ lit "%0" ++ dec w ++ lit "d" ++ snd m) (block_matches w p)) paths in
    match digits with
    | DigitsNone => flat_map (fun p => map (fun m => fst (fst m) ++ lit "%d" ++ snd m) (number_matches p)) paths
    | DigitsTrue => group (lenN (decZ (Z.of_N nmax - 1)))
    | Digits w => group w
    end.
  Definition substitute_numbers_in (paths : list str) (nmax : N) (digits : digits_arg) (g : guesser) : guesser * result unit :=
    check_formats (number_formats digits nmax paths) (map (fun n => [PInt n]) (rangeN nmax)) g.

  (** hashes.py:278-299 [_substitute_basename_words] *)
  Definition word_formats (nold nnew : nat) (paths : list str) : list str :=
    flat_map (fun fmt => map (fun sep => str_replace (lit "{sep}") sep fmt) seps)
      (flat_map (fun p => map (fun m => fst m ++ lit "%s" ++ concat (repeat fmt_sep (nnew - 1)) ++ snd m) (words_matches nold p)) paths).
  Definition substitute_words_in (paths words : list str) (nold nnew : nat) (g : guesser) : guesser * result unit :=
    if Nat.eqb nold 0 || Nat.eqb nnew 0 then (g, Err ValueError)
    else check_formats (word_formats nold nnew paths) (map (map PStr) (product nnew words)) g.

  (** hashes.py:301-314 [_add_basename_word] *)
  Definition added_formats (paths : list str) : list str :=
    flat_map (fun p => flat_map (fun m => let '(pre, w, post) := m in
      map (fun sep => pre ++ lit "%s" ++ sep ++ w ++ post) seps ++ map (fun sep => pre ++ w ++ sep ++ lit "%s" ++ post) seps) (word_matches p)) paths.
  Definition add_word_in (paths words : list str) (g : guesser) : guesser * result unit :=
    check_formats (added_formats paths) (map (fun w => [PStr w]) words) g.

  (** ** Filters of the guessers *)

  (** hashes.py:383, 424: [/[0-9a-f]{32}\.] anywhere *)
  Definition is_hexl (c : N) : bool := is_digit c || ((97 <=? c) && (c <=? 102)).
  Definition hex32_here (s : str) : bool := (lenN (takeN 32 s) =? 32) && forallb is_hexl (takeN 32 s) && startswith (dropN 32 s) [cDot].
  Fixpoint has_hex32 (s : str) : bool :=
    match s with [] => false | c :: t => ((c =? cSlash) && hex32_here t) || has_hex32 t end.
  (** hashes.py:419-425 *)
  Definition game_data : str := lit "plugins/rcp-be-lol-game-data/".
  Definition after (p s : str) : option str := if startswith s p then Some (drop_prefix p s) else None.
  (** [[^/]+/] *)
  Definition after_part (s : str) : option str :=
    match cut_first cSlash s with Some ((_ :: _), r) => Some r | _ => None end.
  Definition opt_bind {A B} (o : option A) (k : A -> option B) : option B := match o with Some a => k a | None => None end.
  Definition is_some {A} (o : option A) : bool := match o with Some _ => true | None => false end.
  Definition no_numbers (s : str) : bool :=
    is_some (opt_bind (after game_data s) (fun s => opt_bind (after_part s) (fun s => opt_bind (after_part s) (after (lit "v1/champion-"))))) ||
    startswith s (game_data ++ lit "global/default/data/characters/") || startswith s (game_data ++ lit "global/default/assets/characters/") ||
    match after (game_data ++ lit "global/default/data/items/icons2d/") s with
    | Some r => match lstrip is_digit r with c :: _ => (c =? cUnder) && negb (lenN (lstrip is_digit r) =? lenN r) | [] => false end
    | None => false
    end ||
    match opt_bind (after game_data s) (fun s => opt_bind (after_part s) (fun s => opt_bind (after_part s) (after (lit "v1/champions/-1")))) with
    | Some (c :: r) => negb (c =? cNL) && startswith r (lit "json")
    | _ => false
    end ||
    has_hex32 s.

  (** hashes.py:418-428 and 597-599 [substitute_numbers] *)
  Definition lcu_substitute_numbers (nmax : N) (digits : digits_arg) (g : guesser) : guesser * result unit :=
    substitute_numbers_in (filter (fun p => negb (no_numbers p)) (dvals (g_known g))) nmax digits g.
  Definition game_substitute_numbers (nmax : N) (digits : digits_arg) (g : guesser) : guesser * result unit :=
    substitute_numbers_in (dvals (g_known g)) nmax digits g.
  (** hashes.py:382-385 and 582-583 [build_wordlist] *)
  Definition lcu_wordlist (g : guesser) : list str :=
    build_wordlist (filter (fun p => negb (startswith p (game_data ++ lit "global/default/data/characters/") || has_hex32 p)) (dvals (g_known g))).
  Definition game_wordlist (g : guesser) : list str := build_wordlist (dvals (g_known g)).
  (** hashes.py:401-413 and 617-618 [substitute_basename_words] *)
  Definition nonempty_text (o : option str) : option str := match o with Some [] => None | _ => o end.
  Definition lcu_substitute_words (plugin fileext : option str) (words : option (list str)) (nold nnew : nat) (g : guesser) : guesser * result unit :=
    let words := match words with Some w => w | None => lcu_wordlist g end in
    let paths := dvals (g_known g) in
    let paths := match nonempty_text plugin with Some x => filter (fun p => startswith p (lit "plugins/" ++ x ++ lit "/")) paths | None => paths end in
    let paths := match nonempty_text fileext with Some x => filter (fun p => endswith p x) paths | None => paths end in
    substitute_words_in paths words nold nnew g.
  Definition game_substitute_words (g : guesser) : guesser * result unit := substitute_words_in (dvals (g_known g)) (game_wordlist g) 1 1 g.
  (** hashes.py:415-416 and 620-622 [add_basename_word] *)
  Fixpoint contains (sub s : str) : bool := startswith s sub || match s with [] => false | _ :: t => contains sub t end.
  Definition lcu_add_word (g : guesser) : guesser * result unit := add_word_in (dvals (g_known g)) (lcu_wordlist g) g.
  Definition game_add_word (g : guesser) : guesser * result unit :=
    add_word_in (filter (fun p => negb (existsb (fun part => contains part p) [lit "assets/characters/"; lit "vo/"; lit "sfx/"; lit "skins_skin"])) (dvals (g_known g))) (game_wordlist g) g.
End Guess.
