(** * Specification of the commands on archives *)

From Verif Require Import Base.Py Base.Text Base.Utf8 Base.Fs Spec.FsSpec Spec.PatchCacheSpec Model.Wad Model.Hashes Model.WadCli.

(** ** Patterns with wildcards *)

(** A character of a set like [a-z_]. *)
Inductive in_set : str -> N -> Prop :=
| set_range a b t c : a <= c <= b -> in_set (a :: 45 :: b :: t) c
| set_after a b t c : in_set t c -> in_set (a :: 45 :: b :: t) c
| set_one a t : ~ (exists b t', t = 45 :: b :: t') -> in_set (a :: t) a
| set_next a t c : ~ (exists b t', t = 45 :: b :: t') -> in_set t c -> in_set (a :: t) c.
(** The text of a set ends at the first bracket which is not its first character. *)
Definition set_text (s : str) : Prop := exists a t, s = a :: t /\ ~ In 93 t.
(** The text after a bracket is that of a set: negated or not, its text and what follows. *)
Inductive is_set : str -> bool -> str -> str -> Prop :=
| set_neg body r : set_text body -> is_set (33 :: body ++ 93 :: r) true body r
| set_pos body r : set_text body -> hd 0 body <> 33 -> is_set (body ++ 93 :: r) false body r.

(** [*]: any text, [?]: any character, [[...]] and [[!...]]: a character (not) of a set, which must be closed. *)
Inductive wild : str -> str -> Prop :=
| wild_nil : wild [] []
| wild_star p s t : wild p t -> wild (42 :: p) (s ++ t)
| wild_any p c s : wild p s -> wild (63 :: p) (c :: s)
| wild_in p body r c s : is_set p false body r -> in_set body c -> wild r s -> wild (91 :: p) (c :: s)
| wild_out p body r c s : is_set p true body r -> ~ in_set body c -> wild r s -> wild (91 :: p) (c :: s)
| wild_bracket p s : ~ (exists neg body r, is_set p neg body r) -> wild p s -> wild (91 :: p) (91 :: s)
| wild_char c p s : ~ In c [42; 63; 91] -> wild p s -> wild (c :: p) (c :: s).

(** ** Choice of the entries *)

(** [l'] is [l] without the elements that do not satisfy [P]. *)
Inductive kept {A} (P : A -> Prop) : list A -> list A -> Prop :=
| kept_nil : kept P [] []
| kept_yes x l l' : P x -> kept P l l' -> kept P (x :: l) (x :: l')
| kept_no x l l' : ~ P x -> kept P l l' -> kept P (x :: l) l'.

(** What an entry must be for [--unknown] and [--pattern]. *)
Inductive unknown_ok : str -> option str -> Prop :=
| uo_yes p : unknown_ok (lit "yes") p
| uo_only : unknown_ok (lit "only") None
| uo_no p : unknown_ok (lit "no") (Some p).
Definition pattern_ok (patterns : list str) (path : option str) : Prop :=
  patterns = [] \/ exists s p, path = Some s /\ In p patterns /\ wild p s.

(** The entries to extract. *)
Definition unknown_text (u : unknown_arg) : str := match u with UYes => lit "yes" | UOnly => lit "only" | UNo => lit "no" end.
Definition wanted (u : unknown_arg) (patterns : list str) (e : wfile) : Prop := unknown_ok (unknown_text u) (w_path e) /\ pattern_ok patterns (w_path e).

(** ** Opened archives *)

(** A file of the default directory of hashes. *)
Definition dir_file (dir : ppath) (name : str) : str := pp_root dir ++ join [cSlash] (pp_parts dir ++ [name]).
(** The file of hashes of an archive: the given one, or that of the kind of archive. *)
Inductive table_file (dir : ppath) : option str -> str -> str -> Prop :=
| tf_given s wad : table_file dir (Some s) wad s
| tf_game p : table_file dir None (p ++ lit ".wad.client") (dir_file dir (lit "hashes.game.txt"))
| tf_lcu p : table_file dir None (p ++ lit ".wad") (dir_file dir (lit "hashes.lcu.txt")).

Section Opened.
  Variable gunzip unzstd : bytes -> result bytes.
  Variable xxh3 : bytes -> N.
  Variable cwd : path.
  Variable dir : ppath.
  Variable f : fs.
  (** The table of hashes which is used for the archive. *)
  Definition table_used (given : option str) (wad : str) (d : hashes) : Prop :=
    exists s data text, table_file dir given wad s /\ has_content cwd f s data /\ utf8_dec data = Ok text /\ parse_hashes text = Ok d.
  (** The archive: its content, and the archive opened with a table of hashes (C13-C16). *)
  Definition opened (given : option str) (s : str) (data : bytes) (w : wad) : Prop :=
    has_content cwd f s data /\
    exists d t, table_used given s d /\ (forall h p, dget h t = Some p <-> dget (Z.of_N h) d = Some p) /\ open_wad gunzip unzstd xxh3 t data = Ok w.
End Opened.

(** Something which is not a directory is at a path. *)
Definition not_dir (cwd : path) (f : fs) (s : str) : Prop := exists p n, locate cwd f true s = Ok p /\ look f p = Some n /\ n <> NDir.

(** The extraction can start: the output is not something else than a directory, the archive can be opened, and the extensions of the
    wanted entries can be guessed (C17), which gives [l]. *)
Definition prepared (gunzip unzstd : bytes -> result bytes) (xxh3 : bytes -> N) (json_loads : bytes -> result unit) (cwd : path) (dir : ppath)
  (a : extract_args) (f : fs) (data : bytes) (w : wad) (l : list wfile) : Prop :=
  ~ not_dir cwd f (output_dir a) /\ opened gunzip unzstd xxh3 cwd dir f (ea_hashes a) (ea_wad a) data w /\
  exists sel c, kept (wanted (ea_unknown a) (ea_pattern a)) (wad_files w) sel /\ guess_extensions gunzip unzstd xxh3 json_loads data (wad_toc w) [] sel = Ok (c, l).

(** ** Output *)

(** The directory of an archive without a given one: its name without its last extension. *)
Inductive default_output : str -> str -> Prop :=
| do_game p : default_output (p ++ lit ".wad.client") (p ++ lit ".wad")
| do_lcu d n c : In c n -> c <> cDot -> ~ In cSlash n -> (d = [] \/ exists d', d = d' ++ [cSlash]) -> default_output (d ++ n ++ lit ".wad") (d ++ n).

(** ** Listing *)

(** A line of the listing. *)
Definition list_line (h : N) (text : str) : str := hexl 16 h ++ [cSpace] ++ text.
(** The text of an entry: its path, or a question mark. *)
Inductive list_text : option str -> str -> Prop :=
| lt_path c p : list_text (Some (c :: p)) (c :: p)
| lt_empty : list_text (Some []) [63]
| lt_none : list_text None [63].
(** Order of the lines. *)
Definition line_le (a b : str * N) : Prop := str_lt (fst a) (fst b) = true \/ fst a = fst b /\ snd a <= snd b.
