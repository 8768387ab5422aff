(** * Search of paths in the files of an archive: cdtb/hashes.py:245-247, 594, 800-912 (game archives) *)

From Verif Require Import Base.Py Base.Text Base.Bin Base.Lines Model.Hashes Model.Patcher Model.Guess Model.GuessPaths Model.GuessChars.

(** [b.lower().decode('ascii')] *)
Definition ascii (b : bytes) : option str := let s := map b2n b in if forallb (fun c => c <? 128) s then Some (lower s) else None.

(** [os.path.normpath] *)
Definition norm_step (abs : bool) (acc : list str) (c : str) : list str :=
  if eqb c [] || eqb c (lit ".") then acc
  else if negb (eqb c (lit "..")) then c :: acc
  else match acc with
       | [] => if abs then [] else [c]
       | x :: t => if eqb x (lit "..") then c :: acc else t
       end.
Definition normpath (p : str) : str :=
  let slashes := if startswith p (lit "//") && negb (startswith p (lit "///")) then lit "//" else if startswith p (lit "/") then lit "/" else [] in
  let r := slashes ++ join [cSlash] (rev (fold_left (norm_step (negb (eqb slashes []))) (split_ch cSlash p) [])) in
  match r with [] => lit "." | _ => r end.

(** ** Game archives *)

(** hashes.py:818 [(?:ASSETS|DATA|...)/], the positions of the matches *)
Definition bin_names : list bytes :=
  [bl "ASSETS/"; bl "DATA/"; bl "Characters/"; bl "Shaders/"; bl "Maps/"; bl "Gameplay/"; bl "ClientStates/"; bl "Patching/"; bl "Loadouts/"].
Fixpoint name_starts (names : list bytes) (skip : nat) (pos : N) (s : bytes) : list N :=
  match s with
  | [] => []
  | _ :: t =>
    match skip with
    | S k => name_starts names k (N.succ pos) t
    | O => match find (startswith s) names with
           | Some n => pos :: name_starts names (length n - 1) (N.succ pos) t
           | None => name_starts names 0 (N.succ pos) t
           end
    end
  end.
Definition updir (p : str) : str := match cut_last cSlash p with Some (a, _) => a | None => p end.
Definition without (n : N) (p : str) : str := takeN (lenN p - n) p.
(** hashes.py:594 *)
Definition shader_extensions : list str := [lit ".ps_2_0"; lit ".ps_3_0"; lit ".vs_2_0"; lit ".vs_3_0"; lit ".ps"; lit ".vs"].
(** hashes.py:825-847 *)
Definition bin_paths (p : str) : list str :=
  if startswith p (lit "characters") then [p; lit "assets/" ++ p; lit "data/" ++ p]
  else if endswith p (lit ".lua") then [p; without 4 p ++ lit ".luabin"; without 4 p ++ lit ".luabin64"; without 4 p ++ lit ".preload"]
  else if startswith p (lit "shaders") then
    map (fun e => lit "assets/shaders/generated/" ++ p ++ e) shader_extensions ++
    flat_map (fun e => map (fun v => lit "assets/shaders/generated/" ++ p ++ e ++ v) shader_variants) shader_extensions
  else if startswith p (lit "maps/mapgeometry/") then [lit "data/" ++ p ++ lit ".mapgeo"; lit "data/" ++ p ++ lit ".materials.bin"]
  else if existsb (startswith p) [lit "clientstates"; lit "patching"; lit "loadouts"; lit "maps"] then [p; updir p; updir (updir p)]
  else p :: if endswith p (lit ".png") then [without 4 p ++ lit ".dds"] else [].
(** hashes.py:816-847; [data[i-2]] may count from the end *)
Definition bin_candidates (data : bytes) : list (result str) :=
  flat_map (fun i =>
    match rbind (py_nth data (Z.of_N i - 2)) (fun x => rbind (py_nth data (Z.of_N i - 1)) (fun y => Ok (b2n x + 256 * b2n y))) with
    | Err e => [Err e]
    | Ok n => match ascii (takeN n (dropN i data)) with Some p => map Ok (bin_paths p) | None => [] end
    end) (name_starts bin_names 0 0 data).

(** The texts of the matches of [key], a nonempty text without quotes, a quote *)
Definition cQuote : byte := x22.
Definition quoted_here (key s : bytes) : option bytes :=
  if startswith s key then match cut_first cQuote (drop_prefix key s) with Some (x :: v, _) => Some (x :: v) | _ => None end else None.
Fixpoint quoted (key : bytes) (skip : nat) (s : bytes) : list bytes :=
  match s with
  | [] => []
  | _ :: t =>
    match skip with
    | S k => quoted key k t
    | O => match quoted_here key s with Some v => v :: quoted key (length key + length v) t | None => quoted key 0 t end
    end
  end.

(** hashes.py:885-912 [grep_file]: the positions and texts of the matches of [(?:ASSETS|...)/[0-9a-zA-Z_. /-]+] *)
Definition file_names : list bytes :=
  [bl "ASSETS/"; bl "Common/"; bl "DATA/"; bl "DATA_SOON/"; bl "DATA_Soon/"; bl "Gameplay/"; bl "Global/"; bl "LEVELS/"; bl "Loadouts/"; bl "UX/"; bl "UIAutoAtlas/"].
Definition path_byte (b : byte) : bool :=
  let c := b2n b in is_digit c || ((65 <=? c) && (c <=? 90)) || ((97 <=? c) && (c <=? 122)) || mem c [cUnder; cDot; cSpace; cSlash; cMinus].
Fixpoint path_run (s : bytes) : bytes := match s with [] => [] | c :: t => if path_byte c then c :: path_run t else [] end.
Definition file_here (s : bytes) : option bytes :=
  match find (startswith s) file_names with
  | Some n => match path_run (drop_prefix n s) with [] => None | r => Some (n ++ r) end
  | None => None
  end.
Fixpoint file_matches (skip : nat) (pos : N) (s : bytes) : list (N * bytes) :=
  match s with
  | [] => []
  | _ :: t =>
    match skip with
    | S k => file_matches k (N.succ pos) t
    | O => match file_here s with
           | Some m => (pos, m) :: file_matches (length m - 1) (N.succ pos) t
           | None => file_matches 0 (N.succ pos) t
           end
    end
  end.
Definition not_soon (p : str) : str := str_replace (lit "data_soon/") (lit "data/") p.
Definition match_paths (data : bytes) (m : N * bytes) : list str :=
  let path := lower (map b2n (snd m)) in let pos := fst m in
  not_soon path ::
  if 2 <=? pos then
    let n := ledec (takeN 2 (dropN (pos - 2) data)) in
    let n := if (n =? 0) && (4 <=? pos) then ledec (takeN 4 (dropN (pos - 4) data)) else n in
    if n <? lenN path then [not_soon (takeN n path)] else []
  else [].
Definition lua_paths (p : str) : list str :=
  p :: if endswith p (lit ".lua") then [without 4 p ++ lit ".luabin"; without 4 p ++ lit ".luabin64"; without 4 p ++ lit ".preload"] else [].
Definition file_candidates (data : bytes) : list str := flat_map lua_paths (set_of (flat_map (match_paths data) (file_matches 0 0 data))).

(** An entry of an archive: its type, extension and path, and the result of [wad.read_file_data] *)
Record entry := { en_type : N; en_ext : option str; en_path : option str; en_data : result (option bytes) }.
Definition skipped_exts : list str :=
  [lit "dds"; lit "jpg"; lit "png"; lit "tga"; lit "ttf"; lit "otf"; lit "ogg"; lit "webm"; lit "anm"; lit "skl"; lit "skn"; lit "scb"; lit "sco"; lit "troybin"; lit "bnk"; lit "wpk"; lit "tex"].
Definition ext_in (l : list str) (e : entry) : bool := match en_ext e with Some x => mem x l | None => false end.
(** [if wadfile.path] *)
Definition has_path (e : entry) : option str := match en_path e with Some (c :: p) => Some (c :: p) | _ => None end.

Section Grep.
  Variable H : str -> Z.
  Variable other : str -> list parg -> result str.

  (** hashes.py:849-861 *)
  Definition preload_candidates (path : option str) (data : bytes) : list (result str) :=
    flat_map (fun v =>
      match ascii v with
      | None => [Err UnicodeDecodeError]
      | Some p =>
        if endswith p (lit ".lua") then [Ok p; Ok (without 4 p ++ lit ".luabin"); Ok (without 4 p ++ lit ".luabin64")]
        else if endswith p (lit ".troy") then [Ok (lit "data/shared/particles/" ++ without 5 p ++ lit ".troybin")]
        else match path with Some w => [pct other (dirname w ++ lit "/%s.preload") [PStr p]] | None => [] end
      end) (quoted (bl "Name=""") 0 data).
  (** hashes.py:863-869 *)
  Definition include_candidates (path : option str) (data : bytes) : list (result str) :=
    match path with
    | None => []
    | Some w =>
      map (fun v => match ascii v with None => Err UnicodeDecodeError | Some p => Ok (str_replace [92] [cSlash] (normpath (dirname w ++ lit "/" ++ p))) end)
        (quoted (bl "#include """) 0 data)
    end.
  (** hashes.py:871-879 *)
  Definition atlas_candidates (path : option str) (data : bytes) : list (result str) :=
    match path with
    | None => []
    | Some w => flat_map (fun l => match ascii l with None => [] | Some p => [Ok (dirname w ++ lit "/" ++ p)] end) (split_ch x0a data)
    end.
  (** hashes.py:806-883 *)
  Definition entry_candidates (e : entry) : list (result str) :=
    if en_type e =? 2 then []
    else if ext_in skipped_exts e then []
    else match en_data e with
         | Err x => [Err x]
         | Ok None => []
         | Ok (Some data) =>
           if ext_in [lit "bin"; lit "inibin"] e then bin_candidates data
           else if ext_in [lit "preload"] e then preload_candidates (has_path e) data
           else if ext_in [lit "hls"; lit "ps_2_0"; lit "ps_3_0"; lit "vs_2_0"; lit "vs_3_0"] e then include_candidates (has_path e) data
           else if ext_in [lit "atlas"] e then atlas_candidates (has_path e) data
           else map Ok (file_candidates data)
         end.
  (** hashes.py:800-883 [GameHashGuesser.grep_wad] *)
  Definition grep_wad (entries : list entry) (g : guesser) : guesser * result unit := check_gen H (flat_map entry_candidates entries) g.

  (** hashes.py:245-247 [check_xdbg_hashes], on the lines of the file *)
  Definition xdbg_paths (lines : list str) : list (result str) :=
    map (fun l => match split_ch 34 l with _ :: p :: _ => Ok p | _ => Err IndexError end) (filter (fun l => startswith l (lit "hash: ")) lines).
  Definition check_xdbg_hashes (lines : list str) (g : guesser) : guesser * result unit := check_gen H (xdbg_paths lines) g.
End Grep.
