(** * Binary tables of cdtb/export.py: atlas infos and champion skins

    [lower] is [str.lower].  Floats are modelled by their 32-bit patterns.  The hash list ([hashfile_game.load()])
    is a parameter. *)

From Verif Require Import Base.Py Base.Text Base.Bin Base.Utf8 Model.Tools.

Section Tables.
Variable lower : str -> str.

(** cdtb/tools.py:110-114 *)
Definition convert_cdragon_path (path : str) : str :=
  let (path, ext) := splitext (lower path) in
  let ext := if eqb ext (lit ".dds") || eqb ext (lit ".tex") then lit ".png" else ext in
  path ++ ext.

(** A value of the table; start and end coordinates. *)
Record atlas_entry := { ae_atlas : str; ae_startx : N; ae_starty : N; ae_endx : N; ae_endy : N }.

(** export.py:804-806, 816-817 *)
Definition atlas_row (atlas_paths : list str) (name : P str) : P (str * atlas_entry) :=
  let* n := name in
  let* startx := u32 in let* starty := u32 in let* endx := u32 in let* endy := u32 in let* i := u32 in
  let* a := plift (of_opt IndexError (nth_error atlas_paths (N.to_nat i))) in
  pret (n, {| ae_atlas := a; ae_startx := startx; ae_starty := starty; ae_endx := endx; ae_endy := endy |}).

Definition hash_name (h : N) : str := lit "{" ++ hexl 16 h ++ lit "}".

(** export.py:787-819 *)
Definition parse_atlasinfo (hashes : list (N * str)) : P (list (str * atlas_entry)) :=
  let* maybe_magic := pread 4 in
  if eqb maybe_magic (bl "IMAA") then
    let* atlas_count := u32 in
    let* atlas_hashes := plist atlas_count u64 in
    let atlas_paths := map (fun h => match dget h hashes with Some p => convert_cdragon_path p | None => hash_name h end) atlas_hashes in
    let* texture_count := u32 in
    let* rows := plist texture_count (atlas_row atlas_paths
      (let* h := u64 in pret (match dget h hashes with Some p => p | None => hash_name h end))) in
    pret (dict_of rows)
  else
    let* atlas_count := (if lenN maybe_magic =? 4 then pret (ledec maybe_magic) else praise StructError) in
    let* atlas_paths := plist atlas_count (let* s := unpack_string in pret (convert_cdragon_path s)) in
    let* texture_count := u32 in
    let* rows := plist texture_count (atlas_row atlas_paths unpack_string) in
    pret (dict_of rows).

(** export.py:866-870: identifier, name, prestige *)
Definition skin_row : P (N * (str * bool)) :=
  let* id := u32 in let* flag := u8 in let* name := unpack_string in pret (id, (name, flag =? 4)).

(** export.py:848-874 *)
Definition parse_championskininfo : P (list (str * list (N * (str * bool)))) :=
  let* magic := punpack 4 in
  if negb (eqb magic (bl "mahC")) then praise ValueError else
  let* version := u32 in
  if negb (version =? 2) then praise ValueError else
  let* nchampions := u32 in
  let* rows := plist nchampions
    (let* champion := unpack_string in let* nskins := u32 in let* skins := plist nskins skin_row in pret (champion, dict_of skins)) in
  pret (dict_of rows).

End Tables.
