(** * Hash lists and hash guessing: cdtb/hashes.py *)

From Verif Require Import Base.Py Base.Text Base.Lines.

(** ** HashFile *)

(** A table of hashes, [{int: str}]. *)
Definition hashes := list (Z * str).

(** hashes.py:53-59.  The file name is left out: the file is an argument of [hf_load]. *)
Record hashfile := { hf_size : N; hf_hashes : option hashes }.

(** [f"{{:0{w}x}}".format(h)]: the zero padding comes after the sign. *)
Definition fmt_hash (w : N) (h : Z) : str :=
  match h with
  | Zneg p => cMinus :: hexl (w - 1) (Npos p)
  | _ => hexl w (Z.to_N h)
  end.

(** hashes.py:65-66: one line of the file. *)
Definition parse_hash_line (l : str) : result (Z * str) :=
  match cut_first cSpace l with
  | None => Err ValueError
  | Some (h, s) => let! n := int16 h in Ok (n, rstrip (N.eqb cNL) s)
  end.
(** hashes.py:64-66, [text] being the decoded content of the file. *)
Definition parse_hashes (text : str) : result hashes :=
  let! l := rmapM parse_hash_line (file_lines (nl_norm text)) in Ok (dict_of l).

(** hashes.py:61-69 [HashFile.load].  [file] is the outcome of opening and decoding the file
    (FileNotFoundError is raised again with another message). *)
Definition hf_load (force : bool) (file : result str) (hf : hashfile) : hashfile * result hashes :=
  match hf_hashes hf with
  | Some d => if force then
      match rbind file parse_hashes with
      | Ok d' => ({| hf_size := hf_size hf; hf_hashes := Some d' |}, Ok d')
      | Err e => (hf, Err e)
      end else (hf, Ok d)
  | None =>
      match rbind file parse_hashes with
      | Ok d' => ({| hf_size := hf_size hf; hf_hashes := Some d' |}, Ok d')
      | Err e => (hf, Err e)
      end
  end.

(** hashes.py:71-74 [HashFile.save]: the text written.  Saving before loading raises, once the
    file has been emptied. *)
Definition by_string (a b : Z * str) : bool := str_lt (snd a) (snd b).
Definition hash_line (w : N) (kv : Z * str) : str := fmt_hash w (fst kv) ++ [cSpace] ++ snd kv ++ [cNL].
Definition hf_save (hf : hashfile) : result str :=
  match hf_hashes hf with
  | None => Err AttributeError
  | Some d => Ok (concat (map (hash_line (hf_size hf)) (py_sorted by_string d)))
  end.

(** hashes.py:79-86 [default_hashfile]. *)
Inductive which_hashes := HashesLcu | HashesGame.
Definition default_hashfile (path : str) : result which_hashes :=
  if endswith path (lit ".wad.client") then Ok HashesGame
  else if endswith path (lit ".wad") then Ok HashesLcu
  else Err ValueError.

(** ** The default hash directory *)

(** A [PurePosixPath]: root ("", "/" or "//") and components. *)
Record ppath := { pp_root : str; pp_parts : list str }.
Definition keep_part (p : str) : bool := negb (eqb p []) && negb (eqb p [cDot]).
Definition mkpath (s : str) : ppath :=
  {| pp_root := if startswith s [cSlash; cSlash; cSlash] then [cSlash]
                else if startswith s [cSlash; cSlash] then [cSlash; cSlash]
                else if startswith s [cSlash] then [cSlash] else [];
     pp_parts := filter keep_part (split_ch cSlash s) |}.
Definition is_absolute (p : ppath) : bool := negb (eqb (pp_root p) []).
(** [p / s] *)
Definition pdiv (p : ppath) (s : str) : ppath :=
  let q := mkpath s in if is_absolute q then q else {| pp_root := pp_root p; pp_parts := pp_parts p ++ pp_parts q |}.

(** hashes.py:23-50 [_default_hash_dir]; [env] is [os.environ.get], [home] is [Path.home()]. *)
Definition env_dir (env : str -> option str) (name : str) : option ppath :=
  match env name with
  | Some v => if eqb v [] then None else Some (mkpath v)
  | None => None
  end.
Definition default_hash_dir (env : str -> option str) (home : ppath) : ppath :=
  match env_dir env (lit "CDTB_HASHES_DIR") with
  | Some p => p
  | None =>
    match env_dir env (lit "CDRAGON_DATA") with
    | Some p => pdiv p (lit "hashes/lol")
    | None =>
      let local :=
        match env_dir env (lit "LOCALAPPDATA") with Some p => p | None => pdiv home (lit ".local/share") end in
      let base :=
        match env_dir env (lit "XDG_DATA_HOME") with
        | Some p => if is_absolute p then p else local
        | None => local
        end in
      pdiv base (lit "cdragon/data/hashes/lol")
    end
  end.

(** ** build_wordlist *)

(** hashes.py:122-124: [re.search(r'^[0-9]{3,}$', w)]; [$] also matches before a final newline. *)
Definition is_large_number (w : str) : bool :=
  let w' := match rev w with c :: r => if c =? cNL then rev r else w | [] => w end in
  (3 <=? lenN w') && forallb is_digit w'.
(** hashes.py:113-125 *)
Definition sep_to_dash (c : N) : N := if (c =? cSlash) || (c =? cUnder) || (c =? cDot) then cMinus else c.
Definition path_words (path : str) : list str := removelast (split_ch cMinus (map sep_to_dash path)).
Definition build_wordlist (paths : list str) : list str :=
  py_sorted str_lt (filter (fun w => negb (is_large_number w)) (set_of (flat_map path_words paths))).

(** ** HashGuesser *)

(** hashes.py:177-185.  [g_dirs] caches the directory list. *)
Record guesser := { g_known : hashes; g_unknown : list Z; g_dirs : option (list str) }.
Definition guesser_init (known : hashes) (hs : list Z) : guesser :=
  {| g_known := known; g_unknown := filter (fun h => negb (dhas h known)) (set_of hs); g_dirs := None |}.

(** hashes.py:195-203 [unknown_from_export]; the texts of the files found. *)
Definition unknown_from_export (files : list str) : result (list Z) :=
  let! ls := rmapM (fun text => rmapM int16 (file_lines (nl_norm text))) files in Ok (set_of (concat ls)).

Section Guess.
  (** [xxh64_intdigest] *)
  Variable H : str -> Z.

  (** hashes.py:208-211 [_add_known] *)
  Definition add_known (h : Z) (p : str) (g : guesser) : guesser :=
    {| g_known := dset h p (g_known g); g_unknown := filter (fun x => negb (eqb h x)) (g_unknown g); g_dirs := g_dirs g |}.
  (** hashes.py:213-218 [check] *)
  Definition check (p : str) (g : guesser) : guesser :=
    if mem (H p) (g_unknown g) then add_known (H p) p g else g.
  (** hashes.py:220-227 [is_known] *)
  Definition is_known (p : str) (g : guesser) : guesser * bool :=
    if mem (H p) (g_unknown g) then (add_known (H p) p g, true) else (g, dhas (H p) (g_known g)).
  (** hashes.py:229-239 [check_iter]; the argument may be a string by mistake. *)
  Inductive iter_arg := ArgText (s : str) | ArgIter (l : list str).
  Definition check_all (ps : list str) (g : guesser) : guesser := fold_left (fun g p => check p g) ps g.
  Definition check_iter (a : iter_arg) (g : guesser) : guesser * result unit :=
    match a with
    | ArgText _ => (g, Err TypeError)
    | ArgIter ps => (check_all ps g, Ok tt)
    end.

  (** hashes.py:256-267 [directory_list]: [None] when [fuel] rounds are not enough. *)
  Fixpoint dirs_loop (fuel : nat) (bases dirs : list str) : option (list str) :=
    match bases with
    | [] => Some dirs
    | _ :: _ =>
      match fuel with
      | O => None
      | S fuel' =>
        let bases' := filter (fun d => negb (mem d dirs)) (set_of (map dirname bases)) in
        dirs_loop fuel' bases' (dirs ++ bases')
      end
    end.
  Definition longest (l : list str) : nat := fold_right Nat.max O (map (@length N) l).
  Definition compute_dirs (known : hashes) : option (list str) :=
    dirs_loop (S (S (longest (dvals known)))) (dvals known) [].
  Definition directory_list (cached : bool) (g : guesser) : guesser * option (list str) :=
    match g_dirs g with
    | Some l => if cached then (g, Some l)
                else ({| g_known := g_known g; g_unknown := g_unknown g; g_dirs := compute_dirs (g_known g) |}, compute_dirs (g_known g))
    | None => ({| g_known := g_known g; g_unknown := g_unknown g; g_dirs := compute_dirs (g_known g) |}, compute_dirs (g_known g))
    end.

  (** hashes.py:249-254 and 269-276: candidates [f"{dir}/{name}"]. *)
  Definition in_dirs (dirs : list str) (name : str) : list str := map (fun d => d ++ [cSlash] ++ name) dirs.
  Definition check_basenames (names : list str) (g : guesser) : guesser :=
    let (g, dirs) := directory_list true g in
    match dirs with
    | None => g
    | Some dirs => fold_left (fun g name => check_all (in_dirs dirs name) g) (py_sorted str_lt names) g
    end.
  Definition substitute_basenames (g : guesser) : guesser :=
    check_basenames (set_of (map basename (dvals (g_known g)))) g.

  (** hashes.py:339-352 [substitute_extensions] *)
  Definition substitute_extensions (g : guesser) : guesser :=
    let paths := dvals (g_known g) in
    let prefixes := set_of (map (fun p => fst (splitext p)) paths) in
    let exts := set_of (filter (fun e => negb (endswith e (lit "00"))) (map (fun p => snd (splitext p)) paths)) in
    fold_left (fun g prefix => check_all (map (fun e => prefix ++ e) exts) g) (py_sorted str_lt prefixes) g.

  (** hashes.py:551-554, the end of [LcuHashGuesser.guess_patterns]: the dictionary is extended
      while it is iterated over, and the iterator then raises at its next step. *)
  Definition loot_prefix : str := lit "plugins/rcp-fe-lol-loot/global/default/assets/loot_item_icons/".
  Fixpoint loot_loop (replace : str -> str) (n : N) (values : list str) (g : guesser) : guesser * result unit :=
    if negb (lenN (g_known g) =? n) then (g, Err RuntimeError) else
    match values with
    | [] => (g, Ok tt)
    | p :: t => loot_loop replace n t (if startswith p loot_prefix then check (replace p) g else g)
    end.
  Definition guess_loot (replace : str -> str) (g : guesser) : guesser * result unit :=
    loot_loop replace (lenN (g_known g)) (dvals (g_known g)) g.

  (** A sequence of calls. *)
  Inductive guess_op :=
  | OpCheck (p : str) | OpIsKnown (p : str) | OpCheckIter (a : iter_arg) | OpDirectories (cached : bool)
  | OpCheckBasenames (names : list str) | OpSubstituteBasenames | OpSubstituteExtensions | OpLoot (replace : str -> str).
  Definition run_op (o : guess_op) (g : guesser) : guesser :=
    match o with
    | OpCheck p => check p g
    | OpIsKnown p => fst (is_known p g)
    | OpCheckIter a => fst (check_iter a g)
    | OpDirectories c => fst (directory_list c g)
    | OpCheckBasenames ns => check_basenames ns g
    | OpSubstituteBasenames => substitute_basenames g
    | OpSubstituteExtensions => substitute_extensions g
    | OpLoot r => fst (guess_loot r g)
    end.
  Definition run_ops (os : list guess_op) (g : guesser) : guesser := fold_left (fun g o => run_op o g) os g.
End Guess.
