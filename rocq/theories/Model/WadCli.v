(** * Commands on archives: cdtb/__main__.py:117-156

    Arguments are given parsed.  Simplification: the archive is read once, when it is opened (the code opens it again to
    read the sub-chunks and the extensions).  Hash files are UTF-8 texts. *)

From Verif Require Import Base.Py Base.Text Base.Utf8 Base.Fs Model.Files Model.Wad Model.WadExtract Model.Hashes Model.FetchHashes Model.Stringtables Model.Cli.

Inductive unknown_arg := UYes | UOnly | UNo.
Record extract_args := { ea_wad : str; ea_output : option str; ea_hashes : option str; ea_unknown : unknown_arg; ea_pattern : list str; ea_lazy : bool }.

(** __main__.py:131-139 *)
Definition no_path (w : wfile) : bool := match w_path w with None => true | Some _ => false end.
Definition selected (u : unknown_arg) (patterns : list str) (files : list wfile) : list wfile :=
  let files :=
    match u with
    | UYes => files
    | UOnly => filter no_path files
    | UNo => filter (fun w => negb (no_path w)) files
    end in
  match patterns with
  | [] => files
  | _ => filter (fun w => existsb (fun p => match w_path w with Some path => fnmatch path p | None => false end) patterns) files
  end.
(** __main__.py:120-121 *)
Definition output_dir (a : extract_args) : str := match truthy (ea_output a) with Some s => s | None => fst (splitext (ea_wad a)) end.

(** The table, as [resolve_paths] uses it: [h in hashes], [hashes[h]] for a nonnegative [h] *)
Definition table_of (d : hashes) : list (N * str) := map (fun kv => (Z.to_N (fst kv), snd kv)) (filter (fun kv => (0 <=? fst kv)%Z) d).
(** __main__.py:151: [(wf.path or ('?.%s' % wf.ext if wf.ext else '?'), wf.path_hash)] *)
Definition list_entry (w : wfile) : str * N :=
  (match truthy (w_path w) with
   | Some p => p
   | None => match truthy (w_ext w) with Some e => lit "?." ++ e | None => lit "?" end
   end, w_hash w).
(** Comparison of pairs *)
Definition entry_lt (a b : str * N) : bool := str_lt (fst a) (fst b) || eqb (fst a) (fst b) && (snd a <? snd b).

Section Commands.
  Variable gunzip unzstd : bytes -> result bytes.
  Variable xxh3 : bytes -> N.
  Variable json_loads : bytes -> result unit.
  Variable cwd : path.
  (** [default_hash_dir] *)
  Variable dir : ppath.

  (** __main__.py:125-129, hashes.py:61-69, 76-86 *)
  Definition hash_file (hashes : option str) (wad : str) : result str :=
    match hashes with
    | Some s => Ok s
    | None =>
      let! w := default_hashfile wad in
      Ok (hash_path dir (match w with HashesLcu => lit "hashes.lcu.txt" | HashesGame => lit "hashes.game.txt" end))
    end.
  Definition load_table (hashes : option str) (wad : str) : prog (list (N * str)) :=
    let~ s := lift (hash_file hashes wad) in
    let~ data := read_file cwd s in
    lift (let! text := utf8_dec data in let! d := parse_hashes text in Ok (table_of d)).
  (** The content of the archive, and the archive *)
  Definition load_wad (hashes : option str) (s : str) : prog (bytes * wad) :=
    let~ table := load_table hashes s in
    let~ data := read_file cwd s in
    let~ w := lift (open_wad gunzip unzstd xxh3 table data) in
    Ret (data, w).

  (** __main__.py:117-142 [command_wad_extract] *)
  Definition command_wad_extract (a : extract_args) : prog unit :=
    let~ isf := isfile cwd (ea_wad a) in
    if negb isf then Rai SysExit else
    let output := output_dir a in
    let~ ex := exists_ cwd output in
    let~ blocked := (if ex : bool then let~ d := isdir cwd output in Ret (negb d) else Ret false) in
    if blocked : bool then Rai SysExit else
    let~ (data, w) := load_wad (ea_hashes a) (ea_wad a) in
    let files := selected (ea_unknown a) (ea_pattern a) (wad_files w) in
    let~ (_, files) := lift (guess_extensions gunzip unzstd xxh3 json_loads data (wad_toc w) [] files) in
    wad_extract gunzip unzstd xxh3 cwd data (wad_toc w) files output (negb (ea_lazy a)).

  (** __main__.py:145-156 [command_wad_list]: the lines printed *)
  Definition command_wad_list (hashes : option str) (s : str) : prog (list str) :=
    let~ isf := isfile cwd s in
    if negb isf then Rai SysExit else
    let~ (_, w) := load_wad hashes s in
    Ret (map (fun e => hexl 16 (snd e) ++ lit " " ++ fst e) (py_sorted entry_lt (map list_entry (wad_files w)))).
End Commands.
