(** * Guessing of hashes from the command line: cdtb/__main__.py:159-261

    Arguments are given parsed.  Simplifications: an archive is read once, when it is opened (the code opens it again to guess extensions
    and to search paths); the tables of hashes are read each time they are used (the code keeps them).  Not modelled: what is printed, the
    progress bar and its handler of SIGINT. *)

From Verif Require Import Base.Py Base.Text Base.Utf8 Base.Fs Model.Files Model.Wad Model.WadExtract Model.Hashes Model.FetchHashes Model.Stringtables
  Model.Storage Model.Component Model.Cli Model.Components Model.WadCli Model.Guess Model.GuessPaths Model.GuessChars Model.Releases Model.Grep Model.GrepLcu.

(** __main__.py:160-172 *)
Definition all_methods : list str :=
  [lit "grep"; lit "numbers"; lit "basenames"; lit "words"; lit "ext"; lit "regionlang"; lit "plugin"; lit "skin-num"; lit "character"; lit "prefixes"].
(** __main__.py:182-188 *)
Definition method_names (methods : option str) : result (list str) :=
  match truthy methods with
  | None => Ok (filter (fun n => negb (mem n [lit "basenames"; lit "words"])) all_methods)
  | Some s =>
    let names := map (strip is_space) (split_ch 44 s) in
    if forallb (fun n => mem n all_methods) names then Ok names else Err SysExit
  end.

(** An archive: its path, its content, its table of sub-chunks and its files *)
Record gwad := { gw_path : str; gw_data : bytes; gw_toc : option bytes; gw_files : list wfile }.
(** __main__.py:207 *)
Definition is_wad (p : str) : bool := endswith p (lit ".wad") || endswith p (lit ".wad.client").
Definition method := guesser -> guesser * result unit.
Definition total (m : guesser -> guesser) : method := fun g => (m g, Ok tt).
Fixpoint gather {A B} (l : list A) (body : A -> prog (list B)) : prog (list B) :=
  match l with [] => Ret [] | x :: t => let~ a := body x in let~ b := gather t body in Ret (a ++ b) end.

Section Guess.
  Variable gunzip unzstd : bytes -> result bytes.
  Variable xxh3 : bytes -> N.
  Variable json_loads : bytes -> result unit.
  Variable cwd : path.
  (** [default_hash_dir] *)
  Variable dir : ppath.
  (** [xxh64_intdigest]; formats with other directives; [\w], [str.lower], [json.loads] and [str] of texts; order of sets *)
  Variable H : str -> Z.
  Variable other : str -> list parg -> result str.
  Variable word : N -> bool.
  Variable ulower : str -> str.
  Variable loads : str -> result (option json).
  Variable show : json -> str.
  Variable order : list str -> list str.
  (** UTF-8 encoding *)
  Variable enc : str -> bytes.
  (** The storage, and [fspaths()] of its elements *)
  Variable listing : bool -> list element.
  Variable fspaths : element -> printed.

  (** [Wad(path)] *)
  Definition open_at (s : str) : prog (list gwad) :=
    let~ (data, w) := load_wad gunzip unzstd xxh3 cwd dir None s in
    Ret [{| gw_path := s; gw_data := data; gw_toc := wad_toc w; gw_files := wad_files w |}].
  (** __main__.py:206-207 *)
  Definition element_wads (e : element) : prog (list gwad) :=
    let~ l := gather (filter is_wad (fst (fspaths e))) open_at in
    match snd (fspaths e) with Some x => Rai x | None => Ret l end.
  (** __main__.py:193-207: an element has no attribute [elements] *)
  Definition arg_wads (a : str) : prog (list gwad) :=
    match parse_component listing a with
    | Err ValueError => open_at a
    | Err e => Rai e
    | Ok (CPatch None) | Ok (CElement None) => Ret []
    | Ok (CPatch (Some p)) => gather (p_elems p) element_wads
    | Ok (CElement (Some _)) => Rai AttributeError
    end.

  Definition wad_entries (w : gwad) (files : list wfile) : list entry :=
    map (fun e => {| en_type := w_type e; en_ext := w_ext e; en_path := w_path e; en_data := read_file_data gunzip unzstd xxh3 (gw_data w) (gw_toc w) e |}) files.
  (** __main__.py:213-216 and 240-243; the cache of extensions is global *)
  Fixpoint grep_all (grep : list entry -> method) (ws : list gwad) (c : cache) (g : guesser) : cache * (guesser * result unit) :=
    match ws with
    | [] => (c, (g, Ok tt))
    | w :: t =>
      match guess_extensions gunzip unzstd xxh3 json_loads (gw_data w) (gw_toc w) c (gw_files w) with
      | Err x => (c, (g, Err x))
      | Ok (c, files) =>
        match grep (wad_entries w files) g with
        | (g, Ok _) => grep_all grep t c g
        | r => (c, r)
        end
      end
    end.
  (** [if "..." in method_names: ...], in this order *)
  Fixpoint run_methods (names : list str) (ms : list (str * method)) (g : guesser) : guesser * result unit :=
    match ms with
    | [] => (g, Ok tt)
    | (n, m) :: t =>
      if mem n names then match m g with (g, Ok _) => run_methods names t g | r => r end
      else run_methods names t g
    end.
  (** __main__.py:217-228 *)
  Definition lcu_methods : list (str * method) := [
    (lit "numbers", lcu_substitute_numbers H other 10000 DigitsNone);
    (lit "basenames", total (substitute_basenames H));
    (lit "words", lcu_substitute_words H other None None None 1 1);
    (lit "ext", total (substitute_extensions H));
    (lit "regionlang", total (substitute_region_lang H));
    (lit "plugin", substitute_plugin H other) ].
  (** __main__.py:244-257 *)
  Definition game_methods : list (str * method) := [
    (lit "numbers", game_substitute_numbers H other 100 DigitsNone);
    (lit "basenames", total (substitute_basenames H));
    (lit "words", game_substitute_words H other);
    (lit "ext", total (substitute_extensions H));
    (lit "skin-num", substitute_skin_numbers H other order);
    (lit "character", total (substitute_character H));
    (lit "prefixes", total (check_basename_prefixes H None)) ].

  (** [HashFile.load], and hashes.py:71-74, 205-206 [save] *)
  Definition load_hashes (name : str) : prog hashes :=
    let~ data := read_file cwd (hash_path dir name) in lift (let! text := utf8_dec data in parse_hashes text).
  Definition save_hashes (name : str) (d : hashes) : prog unit :=
    let~ h := open_w cwd (hash_path dir name) in
    with_close (let~ text := lift (hf_save {| hf_size := 16; hf_hashes := Some d |}) in fwrite h (enc text)).

  (** __main__.py:209-234 and 236-261 *)
  Definition guess_part (file suffix : str) (grep : list entry -> method) (ms : list (str * method)) (names : list str) (dry : bool) (ws : list gwad) (c : cache) : prog cache :=
    let ws := filter (fun w => endswith (gw_path w) suffix) ws in
    let~ known := load_hashes file in
    let g := guesser_init known (flat_map (fun w => map (fun e => Z.of_N (w_hash e)) (gw_files w)) ws) in
    match g_unknown g with
    | [] => Ret c
    | _ =>
      let '(c, (g1, r)) := if mem (lit "grep") names then grep_all grep ws c g else (c, (g, Ok tt)) in
      let~ _ := lift r in
      let (g2, r) := run_methods names ms g1 in
      let~ _ := lift r in
      if Nat.eqb (length (g_unknown g) - length (g_unknown g2)) 0 then Ret c
      else if dry then Ret c
      else let~ _ := save_hashes file (g_known g2) in Ret c
    end.

  (** __main__.py:159-261 [command_hashes_guess], without [--list-methods]; [c] is the cache of extensions *)
  Definition command_hashes_guess (args : list str) (methods : option str) (dry : bool) (c : cache) : prog unit :=
    match args with
    | [] => Rai SysExit
    | _ =>
      let~ names := lift (method_names methods) in
      let~ ws := gather args arg_wads in
      let~ c := guess_part (lit "hashes.lcu.txt") (lit ".wad") (grep_lcu word ulower loads show H) lcu_methods names dry ws c in
      let~ _ := guess_part (lit "hashes.game.txt") (lit ".wad.client") (Grep.grep_wad H other) game_methods names dry ws c in
      Ret tt
    end.
End Guess.
