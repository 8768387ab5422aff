(** * WAD archives: cdtb/wad.py *)

From Verif Require Export Base.Text Base.Bin Base.Utf8.

(** wad.py:75-87 [WadFileHeader] attributes. *)
Record wfile := {
  w_hash : N; w_off : N; w_csize : N; w_size : N; w_type : N; w_count : N;
  w_dup : bool; w_first : option N; w_sha : option N;
  w_path : option str; w_ext : option str
}.

(** wad.py:75-87 [WadFileHeader.__init__] *)
Definition mk_header (path_hash offset csize size type : N) (dup : bool) (first sha : option N) : wfile :=
  {| w_hash := path_hash; w_off := offset; w_csize := csize; w_size := size;
     w_type := N.land type 15; w_count := N.shiftr (N.land type 240) 4;
     w_dup := dup; w_first := first; w_sha := sha; w_path := None; w_ext := None |}.

(** wad.py:221 *)
Definition entry_v1 : P wfile :=
  let* h := u64 in let* off := u32 in let* cs := u32 in let* sz := u32 in let* t := u32 in
  pret (mk_header h off cs sz t false None None).
(** wad.py:223 *)
Definition entry_v2 : P wfile :=
  let* h := u64 in let* off := u32 in let* cs := u32 in let* sz := u32 in
  let* t := u8 in let* dup := ubool in let* first := u16 in let* sha := u64 in
  pret (mk_header h off cs sz t dup (Some first) (Some sha)).
(** wad.py:226-229 *)
Definition entry_v34 : P wfile :=
  let* h := u64 in let* off := u32 in let* cs := u32 in let* sz := u32 in
  let* t := u8 in let* hi := u8 in let* lo := u16 in let* sha := u64 in
  pret (mk_header h off cs sz t false (Some (lo + N.shiftl hi 16)) (Some sha)).

(** wad.py:198-229 [Wad.parse_headers] *)
Definition parse_headers : P ((N * N) * list wfile) :=
  let* magic := punpack 2 in
  let* major := u8 in
  let* minor := u8 in
  if negb (eqb magic (bl "RW")) then praise ValueError else
  let* _ := (if major =? 1 then pseek 8
             else if major =? 2 then pseek 100
             else if major =? 3 then pseek 268
             else praise ValueError) in
  let* count := u32 in
  let* files :=
    (if major =? 1 then plist count entry_v1
     else if (major <=? 2) || ((major =? 3) && (minor <=? 3)) then plist count entry_v2
     else plist count entry_v34) in
  pret ((major, minor), files).

(** [x or default] on optional strings: None and '' are falsy. *)
Definition truthy (o : option str) : option str :=
  match o with Some (c :: s) => Some (c :: s) | _ => None end.

Definition set_path (w : wfile) (p : option str) : wfile :=
  {| w_hash := w_hash w; w_off := w_off w; w_csize := w_csize w; w_size := w_size w; w_type := w_type w;
     w_count := w_count w; w_dup := w_dup w; w_first := w_first w; w_sha := w_sha w; w_path := p; w_ext := w_ext w |}.
Definition set_ext (w : wfile) (e : option str) : wfile :=
  {| w_hash := w_hash w; w_off := w_off w; w_csize := w_csize w; w_size := w_size w; w_type := w_type w;
     w_count := w_count w; w_dup := w_dup w; w_first := w_first w; w_sha := w_sha w; w_path := w_path w; w_ext := e |}.

(** wad.py:231-239 [Wad.resolve_paths], for one file.  [hashes] is the loaded dictionary. *)
Definition resolve_path (hashes : list (N * str)) (w : wfile) : wfile :=
  match dget (w_hash w) hashes with
  | Some p => set_ext (set_path w (Some p)) (Some (dropN 1 (snd (splitext p))))
  | None => w
  end.
Definition resolve_paths (hashes : list (N * str)) : list wfile -> list wfile := map (resolve_path hashes).

Section Data.
  (** [gzip.decompress], [zstd_decompress], [xxh3_64_intdigest]. *)
  Variable gunzip unzstd : bytes -> result bytes.
  Variable xxh3 : bytes -> N.

  (** wad.py:111-122: the loop over the sub-chunk indices. *)
  Fixpoint read_subchunks (data toc : bytes) (index offset : N) (count : nat) : result bytes :=
    match count with
    | O => Ok []
    | S k =>
      let rec := sliceN toc (16 * index) (16 * (index + 1)) in
      if negb (lenN rec =? 16) then Err StructError else
      let csize := ledec (takeN 4 rec) in
      let usize := ledec (sliceN rec 4 8) in
      let hash := ledec (dropN 8 rec) in
      let chunk := sliceN data offset (offset + csize) in
      if (lenN data <? offset + csize) || negb (xxh3 chunk =? hash) then Err (MalformedSubchunkError data) else
      let! d := (if csize =? usize then Ok chunk else unzstd chunk) in
      let! r := read_subchunks data toc (index + 1) (offset + csize) k in
      Ok (d ++ r)
    end.

  (** wad.py:89-130 [WadFileHeader.read_data] on the content [f] of the WAD.
      Simplification: [except Exception] (line 128) catches every decompression error. *)
  Definition read_data (f : bytes) (w : wfile) (toc : option bytes) : result (option bytes) :=
    let data := takeN (w_csize w) (dropN (w_off w) f) in
    if w_type w =? 0 then Ok (Some data)
    else if w_type w =? 1 then rmap Some (gunzip data)
    else if w_type w =? 2 then
      if negb (lenN (takeN 4 data) =? 4) then Err StructError else
      let n := ledec (takeN 4 data) in
      let! _ := utf8_dec (rstrip (eqb x00) (sliceN data 4 (4 + n))) in
      Ok None
    else if w_type w =? 3 then rmap Some (unzstd data)
    else if w_type w =? 4 then
      match toc with
      | Some toc =>
        match w_first w with
        | None => Err TypeError
        | Some first => rmap Some (read_subchunks data toc first 0 (N.to_nat (w_count w)))
        end
      | None => match unzstd data with
                | Ok d => Ok (Some d)
                | Err _ => Err (MalformedSubchunkError data)
                end
      end
    else Err ValueError.

  (** wad.py:329-340 [Wad.read_file_data] *)
  Definition read_file_data (f : bytes) (toc : option bytes) (w : wfile) : result (option bytes) :=
    match read_data f w toc with
    | Err (MalformedSubchunkError _) => Ok None
    | r => r
    end.

  (** wad.py:241-254 [Wad.load_subchunk_toc] *)
  Fixpoint load_subchunk_toc (f : bytes) (files : list wfile) : result (option bytes) :=
    match files with
    | [] => Ok None
    | w :: t => match w_path w with
                | Some p => if endswith p (lit ".subchunktoc") then read_data f w None
                            else load_subchunk_toc f t
                | None => load_subchunk_toc f t
                end
    end.

  (** wad.py:190-196 [Wad.__init__] on the content of the file and an explicit hash dictionary. *)
  Record wad := { wad_version : N * N; wad_files : list wfile; wad_toc : option bytes }.
  Definition open_wad (hashes : list (N * str)) (f : bytes) : result wad :=
    let! (v, files) := prun parse_headers f in
    let files := resolve_paths hashes files in
    let! toc := load_subchunk_toc f files in
    Ok {| wad_version := v; wad_files := files; wad_toc := toc |}.

  (** wad.py:35-73 [_magic_numbers_ext] *)
  Inductive matcher := MPrefix (b : bytes) | MJpeg.
  Definition matches (m : matcher) (data : bytes) : bool :=
    match m with
    | MPrefix b => startswith data b
    | MJpeg => let s := sliceN data 6 10 in eqb s (bl "JFIF") || eqb s (bl "Exif")
    end.
  Definition pb (l : list N) : bytes := map n2b l.
  Definition magic_table : list (matcher * str) := [
    (MPrefix (pb [255; 216; 255; 219]), lit "jpg");
    (MPrefix (pb [255; 216; 255; 225]), lit "jpg");
    (MJpeg, lit "jpg");
    (MPrefix (pb [137] ++ bl "PNG" ++ pb [13; 10; 26; 10]), lit "png");
    (MPrefix (bl "GIF87a"), lit "gif");
    (MPrefix (bl "GIF89a"), lit "gif");
    (MPrefix (bl "OggS"), lit "ogg");
    (MPrefix (pb [0; 1; 0; 0]), lit "ttf");
    (MPrefix (pb [26; 69; 223; 163]), lit "webm");
    (MPrefix (bl "true"), lit "ttf");
    (MPrefix (bl "OTTO" ++ pb [0]), lit "otf");
    (MPrefix (pb [34] ++ bl "use strict" ++ pb [34; 59]), lit "min.js");
    (MPrefix (bl "<template "), lit "template.html");
    (MPrefix (bl "<!-- Elements -->"), lit "template.html");
    (MPrefix (bl "<!DOCTYPE html>"), lit "html");
    (MPrefix (bl "<html"), lit "html");
    (MPrefix (bl "DDS "), lit "dds");
    (MPrefix (bl "<svg"), lit "svg");
    (MPrefix (bl "PROP"), lit "bin");
    (MPrefix (bl "PTCH"), lit "bin");
    (MPrefix (bl "BKHD"), lit "bnk");
    (MPrefix (bl "r3d2Mesh"), lit "scb");
    (MPrefix (bl "r3d2anmd"), lit "anm");
    (MPrefix (bl "r3d2canm"), lit "anm");
    (MPrefix (bl "r3d2sklt"), lit "skl");
    (MPrefix (bl "r3d2"), lit "wpk");
    (MPrefix (pb [51; 34; 17; 0]), lit "skn");
    (MPrefix (bl "PreLoadBuildingBlocks = {"), lit "preload");
    (MPrefix (pb [27] ++ bl "LuaQ" ++ pb [0; 1; 4; 4]), lit "luabin");
    (MPrefix (pb [27] ++ bl "LuaQ" ++ pb [0; 1; 4; 8]), lit "luabin64");
    (MPrefix (pb [2; 61; 0; 40]), lit "troybin");
    (MPrefix (bl "[ObjectBegin]"), lit "sco");
    (MPrefix (bl "OEGM"), lit "mapgeo");
    (MPrefix (bl "TEX" ++ pb [0]), lit "tex");
    (MPrefix (pb [0] ++ bl "asm"), lit "wasm");
    (MPrefix (bl "UnityFS"), lit "bundle");
    (MPrefix (bl "UnityWebData1.0"), lit "data")
  ].

  (** [json.loads(data)], whose value is not used. *)
  Variable json_loads : bytes -> result unit.

  (** wad.py:158-177 [WadFileHeader.guess_extension] *)
  Fixpoint first_match (t : list (matcher * str)) (data : bytes) : option str :=
    match t with
    | [] => None
    | (m, ext) :: r => if matches m data then Some ext else first_match r data
    end.
  Definition guess_extension (data : bytes) : result (option str) :=
    match first_match magic_table data with
    | Some ext => Ok (Some ext)
    | None => match json_loads data with
              | Ok _ => Ok (Some (lit "json"))
              | Err ValueError | Err UnicodeDecodeError => Ok None
              | Err e => Err e
              end
    end.

  (** [_hash_to_guessed_extensions] (wad.py:22) *)
  Definition cache := list (N * option str).

  (** wad.py:259-263, one file *)
  Definition ext_from_cache (c : cache) (w : wfile) : wfile :=
    match truthy (w_ext w) with
    | Some _ => w
    | None => set_ext w (match dget (w_hash w) c with Some e => e | None => None end)
    end.
  (** wad.py:268-274 *)
  Fixpoint guess_loop (f : bytes) (toc : option bytes) (c : cache) (files : list wfile)
    : result (cache * list wfile) :=
    match files with
    | [] => Ok (c, [])
    | w :: t =>
      match truthy (w_ext w) with
      | Some _ => let! (c', t') := guess_loop f toc c t in Ok (c', w :: t')
      | None =>
        let! data := read_file_data f toc w in
        match data with
        | None | Some [] => let! (c', t') := guess_loop f toc c t in Ok (c', w :: t')
        | Some d =>
          let! ext := guess_extension d in
          let! (c', t') := guess_loop f toc (dset (w_hash w) ext c) t in
          Ok (c', set_ext w ext :: t')
        end
      end
    end.
  (** wad.py:256-274 [Wad.guess_extensions]; the cache is global state. *)
  Definition guess_extensions (f : bytes) (toc : option bytes) (c : cache) (files : list wfile)
    : result (cache * list wfile) :=
    let files := map (ext_from_cache c) files in
    if existsb (fun w => match truthy (w_ext w) with None => true | _ => false end) files
    then guess_loop f toc c files
    else Ok (c, files).
End Data.

(** wad.py:276-284 [Wad.set_unknown_paths], one file *)
Definition set_unknown_path (dir : str) (w : wfile) : wfile :=
  match truthy (w_path w) with
  | Some _ => w
  | None =>
    match truthy (w_ext w) with
    | Some e => set_path w (Some (dir ++ lit "/" ++ hexl 16 (w_hash w) ++ lit "." ++ e))
    | None => set_path w (Some (dir ++ lit "/" ++ hexl 16 (w_hash w)))
    end
  end.
Definition set_unknown_paths (dir : str) : list wfile -> list wfile := map (set_unknown_path dir).

(** wad.py:286-306 [Wad.sanitize_paths], one file *)
Definition sanitize_path (w : wfile) : wfile :=
  match truthy (w_path w) with
  | None => w
  | Some p =>
    let ext0 := snd (splitext p) in
    let '(p, ext) :=
      if eqb ext0 [] then
        let ext := lit ".cdtb" ++ match truthy (w_ext w) with Some e => lit "." ++ e | None => [] end in
        (p ++ ext, ext)
      else (p, ext0) in
    let '(dir, filename) := path_split p in
    if 250 <=? lenN filename then
      set_path w (Some (path_join dir
        (py_take filename (250 - 17 - Z.of_N (lenN ext)) ++ lit "." ++ hexl 16 (w_hash w) ++ ext)))
    else set_path w (Some p)
  end.
Definition sanitize_paths : list wfile -> list wfile := map sanitize_path.
