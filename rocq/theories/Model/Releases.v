(** * Releases of the patcher storage: cdtb/patcher.py *)

From Verif Require Import Base.Py Base.Text Base.Utf8 Base.Fs Base.FsDir Model.Files.

(** ** JSON values *)

(** Values returned by [json.load]; numbers that are not integers are not distinguished. *)
Inductive json := JNull | JBool (b : bool) | JInt (z : Z) | JFloat | JStr (s : str) | JArr (l : list json) | JObj (d : list (str * json)).

(** [v[key]] for a text *)
Definition jget (key : str) (v : json) : result json :=
  match v with
  | JObj d => of_opt KeyError (dget key d)
  | _ => Err TypeError
  end.
(** [for x in v]: a dict gives its keys and a text its characters *)
Definition jiter (v : json) : result (list json) :=
  match v with
  | JArr l => Ok l
  | JObj d => Ok (map (fun kv => JStr (fst kv)) d)
  | JStr s => Ok (map (fun c => JStr [c]) s)
  | _ => Err TypeError
  end.
(** [v == text] *)
Definition jis (t : str) (v : json) : bool := match v with JStr s => eqb s t | _ => false end.

Section Releases.
  (** Current directory of the process, path of the storage, its patchline and [clientconfig_data]. *)
  Variable cwd : path.
  Variable base patchline : str.
  Variable conf : option str.
  (** JSON body of the response to a request, or the exception raised by [get], [raise_for_status] or
      [json]. *)
  Variable get : str -> result json.
  (** [json.load] of a file with the given content, texts written by [json.dump], and [==]. *)
  Variable load : bytes -> result json.
  Variable dump : json -> list bytes.
  Variable same : json -> json -> bool.
  (** The order of [os.listdir]. *)
  Variable order : list str -> list str.

  (** patcher.py:329-330 [base_release_path] *)
  Definition release_base : str := fspath base (lit "cdtb/releases/" ++ patchline).

  (** patcher.py:382-397 [get_latest_client_manifest] *)
  Definition client_doc : prog json :=
    match conf with
    | Some ((_ :: _) as u) =>
      let~ local := (if startswith u (lit "http://") || startswith u (lit "https://") then Ret false else exists_ cwd u) in
      if local : bool then let~ b := read_file cwd u in lift (load b) else lift (get u)
    | _ => lift (get (lit "https://clientconfig.rpg.riotgames.com/api/v1/config/public?namespace=keystone.products.league_of_legends.patchlines"))
    end.
  Fixpoint find_config (region : str) (l : list json) : result json :=
    match l with
    | [] => Err ValueError
    | c :: t => let! id := jget (lit "id") c in if jis region id then jget (lit "patch_url") c else find_config region t
    end.
  Definition client_url (data : json) : result json :=
    let region := if eqb patchline (lit "pbe") then lit "PBE" else lit "EUW" in
    let! v := jget (lit "keystone.products.league_of_legends.patchlines." ++ patchline) data in
    let! v := jget (lit "platforms") v in
    let! v := jget (lit "win") v in
    let! v := jget (lit "configurations") v in
    let! l := jiter v in
    find_config region l.
  Definition get_latest_client_manifest : prog json := let~ data := client_doc in lift (client_url data).

  (** patcher.py:399-405 [get_latest_game_manifest].  [len(v)] then [v[-1]]: a dict has no key -1, and
      the character of a text cannot be indexed by a text. *)
  Definition game_url (data : json) : result json :=
    let! v := jget (lit "releases") data in
    match v with
    | JArr l => match l with [r] => let! d := jget (lit "download") r in jget (lit "url") d | _ => Err AssertionError end
    | JObj d => if lenN d =? 1 then Err KeyError else Err AssertionError
    | JStr s => if lenN s =? 1 then Err TypeError else Err AssertionError
    | _ => Err TypeError
    end.
  Definition get_latest_game_manifest : prog json :=
    let platform := if eqb patchline (lit "pbe") then lit "PBE1" else lit "EUW1" in
    let~ data := lift (get (lit "https://sieve.services.riotcdn.net/api/v1/products/lol/version-sets/" ++ platform ++ lit "?q[platform]=windows&q[published]=true")) in
    lift (game_url data).

  (** patcher.py:406-411 [latest_timestamp].  Text files are read as UTF-8. *)
  Definition latest_path : str := release_base ++ lit "/latest.timestamp".
  Definition latest_timestamp : prog (option Z) :=
    let~ e := exists_ cwd latest_path in
    if e : bool then
      let~ b := read_file cwd latest_path in
      let~ s := lift (utf8_dec b) in
      let~ t := lift (int10 (strip is_space s)) in
      Ret (Some t)
    else Ret None.

  (** patcher.py:476-481 [PatcherRelease.__init__]: the data of the release *)
  Definition release_path (v : Z) : str := release_base ++ cSlash :: decZ v ++ lit "/release.json".
  Definition load_release (v : Z) : prog json :=
    let~ b := read_file cwd (release_path v) in lift (load b).

  (** patcher.py:358-380 [fetch_latest_update]; [now] is [int(time.time())] *)
  Definition release_info (client game : json) : json :=
    JObj [(lit "client_patch_url", client); (lit "game_patch_url", game)].
  Definition write_release (now : Z) (info : json) : prog unit :=
    let~ _ := write_file_or_remove cwd (release_path now) (write_pieces (dump info) None) in
    write_file_or_remove cwd latest_path (write_pieces [map n2b (decZ now ++ [cNL])] None).
  Definition latest_info : prog json :=
    let~ client := get_latest_client_manifest in
    let~ game := get_latest_game_manifest in
    Ret (release_info client game).
  Definition fetch_latest_update (now : Z) : prog unit :=
    let~ info := latest_info in
    let~ latest := latest_timestamp in
    match latest with
    | None => write_release now info
    | Some t => let~ d := load_release t in if same info d then Ret tt else write_release now info
    end.

  (** patcher.py:332-347 [iter_releases], when the whole list is asked for *)
  Fixpoint load_releases (l : list Z) : prog (list (Z * json)) :=
    match l with
    | [] => Ret []
    | v :: t =>
      let~ b := isfile cwd (release_path v) in
      if b : bool then let~ d := load_release v in let~ r := load_releases t in Ret ((v, d) :: r)
      else load_releases t
    end.
  Definition versions (l : list str) : list Z :=
    flat_map (fun n => match int10 n with Ok v => [v] | Err _ => [] end) l.
  Definition iter_releases : prog (list (Z * json)) :=
    let~ b := isdir cwd release_base in
    if b : bool then
      let~ l := listdir order cwd release_base in
      load_releases (py_sorted_rev Z.ltb (versions l))
    else Ret [].
End Releases.
