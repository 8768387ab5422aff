(** * Patcher manifests: cdtb/patcher.py *)

From Verif Require Import Base.Py Base.Text Base.Bin Base.Utf8 Model.Tools.

(** ** Objects *)

(** patcher.py:27-33 [PatcherChunk] (the bundle by its identifier); fields absent from the manifest are None. *)
Record chunk := { c_id : option N; c_bundle : option N; c_offset : N; c_size : option N; c_target : option N }.
(** patcher.py:35-46 [PatcherBundle] *)
Record bundle := { b_id : option N; b_chunks : list chunk }.
(** patcher.py:48-54 [PatcherFile] *)
Record mfile := { f_name : option str; f_size : option N; f_link : option str; f_flags : option (list str); f_chunks : list chunk }.

(** patcher.py:40-46 [add_chunk] *)
Definition add_chunk (b : bundle) (x : option N * option N * option N) : result bundle :=
  let '(id, size, target) := x in
  let! offset :=
    (match rev (b_chunks b) with
     | c :: _ => match c_size c with Some n => Ok (c_offset c + n) | None => Err TypeError end
     | [] => Ok 0
     end) in
  Ok {| b_id := b_id b; b_chunks := b_chunks b ++ [{| c_id := id; c_bundle := b_id b; c_offset := offset; c_size := size; c_target := target |}] |}.

(** ** Tables *)

(** patcher.py:154-163 [_parse_table], the entries being given to [step] one after the other *)
Fixpoint table_loop {A S} (n : nat) (m : P A) (step : S -> A -> result S) (s : S) : P S :=
  match n with
  | O => pret s
  | Datatypes.S k =>
    let* pos := ptell in
    let* offset := i32 in
    let* _ := pseek (Z.of_N pos + offset) in
    let* x := m in
    let* s' := plift (step s x) in
    let* _ := pseek (Z.of_N pos + 4) in
    table_loop k m step s'
  end.
Definition parse_table {A S} (m : P A) (step : S -> A -> result S) (s : S) : P S :=
  let* count := i32 in table_loop (Z.to_nat count) m step s.
Definition collect {A} (l : list A) (x : A) : result (list A) := Ok (l ++ [x]).

(** patcher.py:238-266 [_parse_field_table]: [vtable] is the part before the loop; one call of [get_field] per named field. *)
Definition vtable : P (N * list N) :=
  let* entry := ptell in
  let* v := i32 in
  let* _ := pseek (Z.of_N entry - v) in
  let* size := u16 in
  let* _ := pskip 2 in
  let n := ((Z.of_N size - 4) / 2)%Z in
  if (n <? 0)%Z then praise StructError else
  let* offsets := prep (Z.to_nat n) u16 in
  pret (entry, offsets).
Definition get_field {A} (o : N * list N) (i : nat) (fmt : N -> P A) : P (option A) :=
  match nth_error (snd o) i with
  | None | Some 0 => pret None
  | Some off =>
    let pos := fst o + off in
    let* _ := pseek (Z.of_N pos) in
    let* v := fmt pos in
    pret (Some v)
  end.
Definition fQ (_ : N) : P N := u64.
Definition fL (_ : N) : P N := u32.
Definition fOffset (pos : N) : P Z := let* v := i32 in pret (Z.of_N pos + v)%Z.
Definition fStr (pos : N) : P str :=
  let* v := i32 in
  let* _ := pseek (Z.of_N pos + v) in
  unpack_string.
(** [parser.seek(None)] *)
Definition pseek_opt (o : option Z) : P unit := match o with Some z => pseek z | None => praise TypeError end.

(** ** Entries *)

(** patcher.py:169-175 [parse_chunklist] *)
Definition parse_chunk : P (option N * option N * option N) :=
  let* o := vtable in
  let* id := get_field o 0 fQ in
  let* size := get_field o 1 fL in
  let* target := get_field o 2 fL in
  pret (id, size, target).
(** patcher.py:165-187 [_parse_bundle] *)
Definition parse_bundle : P bundle :=
  let* o := vtable in
  let* id := get_field o 0 fQ in
  let* chunks := get_field o 1 fOffset in
  let* _ := pseek_opt chunks in
  parse_table parse_chunk add_chunk {| b_id := id; b_chunks := [] |}.
(** patcher.py:189-194 [_parse_flag] *)
Definition parse_flag : P (N * str) :=
  let* _ := pskip 4 in
  let* _ := punpack 3 in
  let* id := u8 in
  let* offset := i32 in
  let* _ := pskip (offset - 4) in
  let* s := unpack_string in
  pret (id, s).
(** patcher.py:196-224 [_parse_file_entry] *)
Record file_entry := {
  e_name : option str; e_link : option str; e_flags : option (list N); e_dir : option N; e_size : option N; e_chunks : list N
}.
Definition flag_ids (mask : option N) : option (list N) :=
  match mask with
  | None | Some 0 => None
  | Some m => Some (map (fun i => N.of_nat i + 1) (filter (fun i => N.testbit m (N.of_nat i)) (seq 0 64)))
  end.
Definition parse_file_entry : P file_entry :=
  let* o := vtable in
  let* _ := get_field o 0 fQ in
  let* dir := get_field o 1 fQ in
  let* size := get_field o 2 fL in
  let* name := get_field o 3 fStr in
  let* mask := get_field o 4 fQ in
  let* chunks := get_field o 7 fOffset in
  let* link := get_field o 9 fStr in
  let* _ := pseek_opt chunks in
  let* count := u32 in
  let* ids := plist count u64 in
  pret {| e_name := name; e_link := link; e_flags := flag_ids mask; e_dir := dir; e_size := size; e_chunks := ids |}.
(** patcher.py:226-236 [_parse_directory]: name, identifier, parent *)
Definition parse_directory : P (option str * option N * option N) :=
  let* o := vtable in
  let* id := get_field o 0 fQ in
  let* parent := get_field o 1 fQ in
  let* name := get_field o 2 fStr in
  pret (name, id, parent).

(** ** Manifests *)

Record tables := { t_bundles : list bundle; t_flags : list (N * str); t_files : list file_entry; t_dirs : list (option str * option N * option N) }.
(** patcher.py:113-134, the reading part of [parse_body] *)
Definition parse_tables : P tables :=
  let* n := i32 in
  let* _ := pskip n in
  let* base := ptell in
  let* v0 := i32 in let* v1 := i32 in let* v2 := i32 in let* v3 := i32 in let* _ := i32 in let* _ := i32 in
  let* _ := pseek (Z.of_N base + v0) in
  let* bundles := parse_table parse_bundle collect [] in
  let* _ := pseek (Z.of_N base + 4 + v1) in
  let* flags := parse_table parse_flag collect [] in
  let* _ := pseek (Z.of_N base + 8 + v2) in
  let* files := parse_table parse_file_entry collect [] in
  let* _ := pseek (Z.of_N base + 12 + v3) in
  let* dirs := parse_table parse_directory collect [] in
  pret {| t_bundles := bundles; t_flags := flags; t_files := files; t_dirs := dirs |}.

(** [f"{x}"] of a name which may be None *)
Definition show (o : option str) : str := match o with Some s => s | None => lit "None" end.
(** patcher.py:139-141; [fuel] bounds the number of iterations, [None] is returned when it is exhausted. *)
Fixpoint full_name (fuel : nat) (dirs : list (option N * (option str * option N))) (name : option str) (dir : option N) : option (result (option str)) :=
  match dir with
  | None => Some (Ok name)
  | Some _ =>
    match fuel with
    | O => None
    | S k =>
      match dget dir dirs with
      | None => Some (Err KeyError)
      | Some (dname, parent) => full_name k dirs (Some (show dname ++ lit "/" ++ show name)) parent
      end
    end
  end.
Record manifest := { m_bundles : list bundle; m_chunks : list (option N * chunk); m_flags : list (N * str); m_files : list (option str * mfile) }.
Section Merge.
Variable fuel : nat.
Variable dirs : list (option N * (option str * option N)).
Variable flags : list (N * str).
Variable chunks : list (option N * chunk).
(** patcher.py:138-147 *)
Definition merge_file (e : file_entry) : option (result mfile) :=
  match full_name fuel dirs (e_name e) (e_dir e) with
  | None => None
  | Some (Err er) => Some (Err er)
  | Some (Ok name) => Some (
    let! fl := (match e_flags e with
      | Some ids => rmap Some (rmapM (fun i => of_opt KeyError (dget i flags)) ids)
      | None => Ok None
      end) in
    let! cs := rmapM (fun i => of_opt KeyError (dget (Some i) chunks)) (e_chunks e) in
    Ok {| f_name := name; f_size := e_size e; f_link := e_link e; f_flags := fl; f_chunks := cs |})
  end.
Fixpoint merge_files (l : list file_entry) (acc : list (option str * mfile)) : option (result (list (option str * mfile))) :=
  match l with
  | [] => Some (Ok acc)
  | e :: t =>
    match merge_file e with
    | None => None
    | Some (Err er) => Some (Err er)
    | Some (Ok f) => merge_files t (dset (f_name f) f acc)
    end
  end.
End Merge.
(** patcher.py:119-149 *)
Definition merge (fuel : nat) (t : tables) : option (result manifest) :=
  let flags := dict_of (t_flags t) in
  let chunks := dict_of (flat_map (fun b => map (fun c => (c_id c, c)) (b_chunks b)) (t_bundles t)) in
  let dirs := dict_of (map (fun d => let '(name, id, parent) := d in (id, (name, parent))) (t_dirs t)) in
  match merge_files fuel dirs flags chunks (t_files t) [] with
  | None => None
  | Some r => Some (let! files := r in Ok {| m_bundles := t_bundles t; m_chunks := chunks; m_flags := flags; m_files := files |})
  end.
Definition parse_body (fuel : nat) (b : bytes) : option (result manifest) :=
  match prun parse_tables b with Ok t => merge fuel t | Err er => Some (Err er) end.

(** patcher.py:97-110 [parse_rman], up to the body; [zstd] is [zstd_decompress] *)
Definition read_rman (zstd : bytes -> result bytes) : P bytes :=
  let* magic := punpack 4 in
  let* major := u8 in let* minor := u8 in
  if negb (eqb magic (bl "RMAN")) then praise ValueError else
  if negb ((major =? 2) && ((minor =? 0) || (minor =? 1))) then praise ValueError else
  let* flags := u16 in let* offset := u32 in let* length := u32 in let* _ := u64 in let* _ := u32 in
  if negb (N.testbit flags 9) then praise AssertionError else
  let* pos := ptell in
  if negb (offset =? pos) then praise AssertionError else
  let* raw := pread length in
  plift (zstd raw).
Definition parse_rman (zstd : bytes -> result bytes) (fuel : nat) (b : bytes) : option (result manifest) :=
  match prun (read_rman zstd) b with Ok body => parse_body fuel body | Err er => Some (Err er) end.

(** ** Languages *)

Inductive langs_arg := LTrue | LFalse | LStr (s : str) | LOther.
Definition locale_flag (f : str) : bool := existsb (fun c => c =? 95) f && (lenN f =? 5).
(** patcher.py:63-73 [langs_predicate]; [lower] is [str.lower] *)
Definition langs_predicate (lower : str -> str) (langs : langs_arg) : result (mfile -> bool) :=
  match langs with
  | LFalse => Ok (fun f => match f_flags f with None => true | Some l => negb (existsb locale_flag l) end)
  | LTrue => Ok (fun _ => true)
  | LStr s => Ok (fun f => match f_flags f with None => false | Some l => existsb (fun x => eqb (lower x) (lower s)) l end)
  | LOther => Err AttributeError
  end.
(** patcher.py:92-94 [filter_files] *)
Definition filter_files (lower : str -> str) (m : manifest) (langs : langs_arg) : result (list mfile) :=
  let! p := langs_predicate lower langs in Ok (filter p (map snd (m_files m))).
