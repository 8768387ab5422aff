(** * cdtb/binfile.py: BIN (property) files

    Parameters: the recursion limit (number of nested values that can be read before RecursionError, a
    RuntimeError), the loaded hash lists (for names only), [str.lower]+xxh64 for path hashes.  A float is
    modelled by its 32-bit pattern.  Not modelled: opening a file by name (binfile.py:347-348).
    [repr] and [dump] are in Model/BinDump. *)

From Verif Require Export Base.Text Base.Bin Base.Utf8.

(** ** Types *)

(** binfile.py:193-222 *)
Inductive btype :=
| TEmpty | TBool | TS8 | TU8 | TS16 | TU16 | TS32 | TU32 | TS64 | TU64 | TFloat | TVec2 | TVec3 | TVec4 | TMatrix
| TRgba | TString | THash | TPath | TList | TList2 | TStruct | TEmbedded | TLink | TOption | TMap | TFlag.
#[global] Instance EqDec_btype : EqDec btype.
Proof. intros x y. decide equality. Defined.

(** [BinType(v)] *)
Definition bintype (v : N) : result btype :=
  match v with
  | 0 => Ok TEmpty | 1 => Ok TBool | 2 => Ok TS8 | 3 => Ok TU8 | 4 => Ok TS16 | 5 => Ok TU16 | 6 => Ok TS32 | 7 => Ok TU32
  | 8 => Ok TS64 | 9 => Ok TU64 | 10 => Ok TFloat | 11 => Ok TVec2 | 12 => Ok TVec3 | 13 => Ok TVec4 | 14 => Ok TMatrix
  | 15 => Ok TRgba | 16 => Ok TString | 17 => Ok THash | 18 => Ok TPath
  | 0x80 => Ok TList | 0x81 => Ok TList2 | 0x82 => Ok TStruct | 0x83 => Ok TEmbedded | 0x84 => Ok TLink
  | 0x85 => Ok TOption | 0x86 => Ok TMap | 0x87 => Ok TFlag
  | _ => Err ValueError
  end.

(** binfile.py:392: [btype_version or 1008] *)
Definition reader_version (v : option Z) : Z :=
  match v with Some z => if (z =? 0)%Z then 1008 else z | None => 1008 end%Z.
(** binfile.py:539-548 *)
Definition parse_bintype (ver : Z) (v : N) : result btype :=
  let v := if (ver <? 923)%Z then if v =? 18 then 0x80 else if 19 <=? v then 0x80 + v - 18 else v else v in
  let v := if (ver <? 1008)%Z then if 0x81 <=? v then v + 1 else v else v in
  bintype v.

(** ** Values *)

(** What [read_bvalue] returns.  [VInts]: tuple of integers (EMPTY, RGBA); [VVec]: tuple of floats;
    hashed values keep their hash, their name is looked up in the hash lists (see [names]). *)
Inductive bval :=
| VInts (l : list N) | VBool (b : bool) | VInt (z : Z) | VFloat (f : N) | VVec (l : list N) | VMatrix (rows : list (list N))
| VStr (s : str) | VHash (h : N) | VPath (h : N) | VLink (h : N)
| VList (vtype : btype) (values : list bval)
| VStruct (htype : N) (fields : list (N * btype * bval))
| VEmbedded (htype : N) (fields : list (N * btype * bval))
| VOption (vtype : btype) (value : option bval)
| VMap (ktype vtype : btype) (values : list (bval * bval)).
(** [BinField]: name hash, type, value. *)
Definition bfield := (N * btype * bval)%type.

(** *** Dictionary keys *)

(** Python's [==] on floats: a NaN differs from everything, the two zeros are equal. *)
Definition is_nan (n : N) : bool := (0x7f800000 <? N.land n 0x7fffffff).
Definition float_eq (a b : N) : bool :=
  negb (is_nan a) && negb (is_nan b) && ((a =? b) || (N.land (N.lor a b) 0x7fffffff =? 0)).
Fixpoint all2 {A} (p : A -> A -> bool) (a b : list A) : bool :=
  match a, b with
  | [], [] => true
  | x :: a', y :: b' => p x y && all2 p a' b'
  | _, _ => false
  end.
(** Two keys read separately are equal; objects without [__eq__] are compared by identity. *)
Definition key_eq (a b : bval) : bool :=
  match a, b with
  | VInts x, VInts y => all2 N.eqb x y
  | VBool x, VBool y => Bool.eqb x y
  | VInt x, VInt y => (x =? y)%Z
  | VFloat x, VFloat y => float_eq x y
  | VVec x, VVec y => all2 float_eq x y
  | VMatrix x, VMatrix y => all2 (all2 float_eq) x y
  | VStr x, VStr y => eqb x y
  | VHash x, VHash y => x =? y
  | VPath x, VPath y => x =? y
  | VLink x, VLink y => x =? y
  | _, _ => false
  end.
(** [d[k] = v] *)
Fixpoint map_set (k v : bval) (d : list (bval * bval)) : list (bval * bval) :=
  match d with
  | [] => [(k, v)]
  | (k', v') :: t => if key_eq k k' then (k', v) :: t else (k', v') :: map_set k v t
  end.
Definition map_of (l : list (bval * bval)) : list (bval * bval) :=
  fold_left (fun d kv => map_set (fst kv) (snd kv) d) l [].

(** ** Reading values *)

(** binfile.py:491-492: the length is not checked *)
Definition read_string : P str :=
  let* n := u16 in let* raw := pread n in plift (utf8_dec raw).
Definition floats (n : nat) : P (list N) := prep n u32.

Section Reader.
Variable ver : Z.
Definition ptype (v : N) : P btype := plift (parse_bintype ver v).

(** binfile.py:534-537 *)
Definition read_field_with (rv : btype -> P bval) : P bfield :=
  let* h := u32 in let* c := u8 in
  let* t := ptype c in
  let* v := rv t in
  pret (h, t, v).

(** binfile.py:440-532, with the table of lines 551-579; [limit] is the recursion limit. *)
Fixpoint read_bvalue (limit : nat) (t : btype) : P bval :=
  match limit with
  | O => praise RuntimeError
  | S limit =>
    match t with
    | TEmpty => let* l := prep 3 u16 in pret (VInts l)
    | TBool => let* b := ubool in pret (VBool b)
    | TS8 => let* z := i8 in pret (VInt z)
    | TU8 | TFlag => let* n := u8 in pret (VInt (Z.of_N n))
    | TS16 => let* z := i16 in pret (VInt z)
    | TU16 => let* n := u16 in pret (VInt (Z.of_N n))
    | TS32 => let* z := i32 in pret (VInt z)
    | TU32 => let* n := u32 in pret (VInt (Z.of_N n))
    | TS64 => let* z := i64 in pret (VInt z)
    | TU64 => let* n := u64 in pret (VInt (Z.of_N n))
    | TFloat => let* f := u32 in pret (VFloat f)
    | TVec2 => let* l := floats 2 in pret (VVec l)
    | TVec3 => let* l := floats 3 in pret (VVec l)
    | TVec4 => let* l := floats 4 in pret (VVec l)
    | TMatrix => let* l := prep 4 (floats 4) in pret (VMatrix l)
    | TRgba => let* l := prep 4 u8 in pret (VInts l)
    | TString => let* s := read_string in pret (VStr s)
    | THash => let* h := u32 in pret (VHash h)
    | TPath => let* h := u64 in pret (VPath h)
    | TLink => let* h := u32 in pret (VLink h)
    | TList | TList2 =>
      let* c := u8 in let* _ := u32 in let* count := u32 in
      let* vt := ptype c in
      let* vs := plist count (read_bvalue limit vt) in
      pret (VList vt vs)
    | TStruct =>
      let* h := u32 in
      let* count := (if h =? 0 then pret 0 else let* _ := u32 in u16) in
      let* fs := plist count (read_field_with (read_bvalue limit)) in
      pret (VStruct h fs)
    | TEmbedded =>
      let* h := u32 in let* _ := u32 in let* count := u16 in
      let* fs := plist count (read_field_with (read_bvalue limit)) in
      pret (VEmbedded h fs)
    | TOption =>
      let* c := u8 in let* has := ubool in
      let* vt := ptype c in
      let* o := (if has : bool then let* v := read_bvalue limit vt in pret (Some v) else pret None) in
      pret (VOption vt o)
    | TMap =>
      let* ck := u8 in let* cv := u8 in let* _ := u32 in let* count := u32 in
      let* kt := ptype ck in let* vt := ptype cv in
      let* kvs := plist count (let* k := read_bvalue limit kt in let* v := read_bvalue limit vt in pret (k, v)) in
      pret (VMap kt vt (map_of kvs))
    end
  end.
Definition read_field (limit : nat) : P bfield := read_field_with (read_bvalue limit).

(** ** Files *)

(** [BinEntry]: path and type hashes, fields. *)
Record bentry := { be_path : N; be_type : N; be_fields : list bfield }.
(** [BinPatchEntry]: path hash; fields (object path, type, value). *)
Definition pfield := (str * btype * bval)%type.
Definition bpatch := (N * list pfield)%type.
Record binfile := {
  bf_patch : bool; bf_version : N; bf_linked : option (list str); bf_entries : list bentry; bf_patches : option (list bpatch)
}.

(** binfile.py:398-408 *)
Definition read_header : P (N * option (list str) * list N) :=
  let* version := u32 in
  let* linked := (if 2 <=? version then let* n := u32 in let* l := plist n read_string in pret (Some l) else pret None) in
  let* count := u32 in
  let* types := plist count u32 in
  pret (version, linked, types).
(** binfile.py:410-418 *)
Definition read_entry (limit : nat) (htype : N) : P bentry :=
  let* start := ptell in
  let* length := u32 in let* hpath := u32 in let* count := u16 in
  let* fs := plist count (read_field limit) in
  let* fin := ptell in
  if (Z.of_N fin - (Z.of_N start + 4) =? Z.of_N length)%Z then pret {| be_path := hpath; be_type := htype; be_fields := fs |}
  else praise AssertionError.
(** binfile.py:425-428 *)
Definition read_patch (limit : nat) : P (N * pfield) :=
  let* h := u32 in let* _ := u32 in
  let* c := u8 in let* t := ptype c in
  let* path := read_string in
  let* v := read_bvalue limit t in
  pret (h, (path, t, v)).
Definition patch_add (d : list bpatch) (p : N * pfield) : list bpatch :=
  dset (fst p) (match dget (fst p) d with Some l => l | None => [] end ++ [snd p]) d.
(** binfile.py:420-436 *)
Definition read_patch_section (limit : nat) : P (list bpatch) :=
  let* count := u32 in
  let* ps := plist count (read_patch limit) in
  pret (fold_left patch_add ps []).

(** binfile.py:346-363, on the content of the file *)
Definition read_binfile (limit : nat) : P binfile :=
  let* magic := pread 4 in
  let is_patch := eqb magic (bl "PTCH") in
  let* magic := (if is_patch then
      let* a := u32 in let* b := u32 in
      if (a =? 1) && (b =? 0) then pread 4 else praise AssertionError
    else pret magic) in
  if negb (eqb magic (bl "PROP")) then praise ValueError else
  let* (version, linked, types) := read_header in
  let* entries := pmapM (read_entry limit) types in
  let* patches := (if is_patch && (3 <=? version) then let* l := read_patch_section limit in pret (Some l) else pret None) in
  pret {| bf_patch := is_patch; bf_version := version; bf_linked := linked; bf_entries := entries; bf_patches := patches |}.
End Reader.

(** ** Hashes and names *)

Definition ascii_lower (c : N) : N := if (65 <=? c) && (c <=? 90) then c + 32 else c.
Definition fnv_step (h b : N) : N := (N.lxor h b * 0x01000193) mod 0x100000000.
(** binfile.py:22-30; a UnicodeEncodeError is a ValueError. *)
Definition compute_binhash (s : str) : result N :=
  if forallb (fun c => c <? 128) s then Ok (fold_left fnv_step (map ascii_lower s) 0x811c9dc5) else Err ValueError.

(** A key given to an object: a [BinHashBase], a string, an integer, or something else. *)
Inductive bkey := KBin (h : N) | KStr (s : str) | KInt (z : Z) | KOther.
(** binfile.py:118-124, the result being compared with hashes; [None] is equal to no hash. *)
Definition key_to_hash (k : bkey) : result (option N) :=
  match k with
  | KBin h => Ok (Some h)
  | KStr s => rmap Some (compute_binhash s)
  | KInt z => Ok (if (z <? 0)%Z then None else Some (Z.to_N z))
  | KOther => Ok None
  end.

Definition f_name (f : bfield) : N := fst (fst f).
Definition f_value (f : bfield) : bval := snd f.
Definition is_named (o : option N) (f : bfield) : bool := eqb (Some (f_name f)) o.

(** binfile.py:132-137 *)
Definition getitem (fs : list bfield) (k : bkey) : result bfield :=
  let! h := key_to_hash k in of_opt KeyError (find (is_named h) fs).
(** binfile.py:139-146 *)
Fixpoint set_field (h : option N) (f : bfield) (fs : list bfield) : list bfield :=
  match fs with
  | [] => [f]
  | x :: t => if is_named h x then f :: t else x :: set_field h f t
  end.
Definition setitem (fs : list bfield) (k : bkey) (f : bfield) : result (list bfield) :=
  let! h := key_to_hash k in Ok (set_field h f fs).
(** binfile.py:148-153 *)
Definition contains (fs : list bfield) (k : bkey) : result bool :=
  let! h := key_to_hash k in Ok (existsb (is_named h) fs).
(** binfile.py:155-159 *)
Definition get (fs : list bfield) (k : bkey) (default : option bfield) : result (option bfield) :=
  match getitem fs k with
  | Ok f => Ok (Some f)
  | Err KeyError => Ok default
  | Err e => Err e
  end.
(** binfile.py:585-593 [_to_python_type]: values of a list or map, value of an option, or the value itself. *)
Inductive pyres := RList (l : list bval) | RDict (d : list (bval * bval)) | RNone | RVal (v : bval) | RSelf | RDefault.
Definition to_python (v : bval) : pyres :=
  match v with
  | VList _ l => RList l
  | VMap _ _ d => RDict d
  | VOption _ None => RNone
  | VOption _ (Some v) => RVal v
  | _ => RVal v
  end.
(** binfile.py:161-166 *)
Definition getv (fs : list bfield) (k : bkey) : result pyres :=
  match getitem fs k with
  | Ok f => Ok (to_python (f_value f))
  | Err KeyError => Ok RDefault
  | Err e => Err e
  end.
(** [v[k].value] for a value which is not an object: tuples and strings can only be indexed by integers, and their elements
    have no attribute [value]. *)
Definition seq_item (len : N) (k : bkey) : result bval :=
  match k with
  | KInt z => if (- Z.of_N len <=? z)%Z && (z <? Z.of_N len)%Z then Err AttributeError else Err IndexError
  | _ => Err TypeError
  end.
Definition item_value (v : bval) (k : bkey) : result bval :=
  match v with
  | VStruct _ fs | VEmbedded _ fs => rmap f_value (getitem fs k)
  | VInts l | VVec l => seq_item (lenN l) k
  | VMatrix l => seq_item (lenN l) k
  | VStr l => seq_item (lenN l) k
  | _ => Err TypeError
  end.
Fixpoint path_loop (v : bval) (ks : list bkey) : result pyres :=
  match ks with
  | [] => Ok (to_python v)
  | k :: t => let! v' := item_value v k in path_loop v' t
  end.
(** binfile.py:168-176 *)
Definition get_path (fs : list bfield) (ks : list bkey) : result pyres :=
  match ks with
  | [] => Ok RSelf
  | k :: t =>
    match rbind (rmap f_value (getitem fs k)) (fun v => path_loop v t) with
    | Err KeyError => Ok RDefault
    | r => r
    end
  end.

(** [BinHashBase.__eq__] (binfile.py:41-50) with another hash, a string, an integer; [s] is the known name. *)
Definition hash_eq_hash (h h' : N) : bool := h =? h'.
Definition hash_eq_str (compute : str -> result N) (h : N) (s : option str) (t : str) : result bool :=
  match s with
  | None => let! n := compute t in Ok (h =? n)
  | Some x => Ok (eqb x t)
  end.

(** ** JSON *)

(** The loaded hash lists: fields, types, hashes, entries, paths. *)
Record names := { n_field : N -> option str; n_type : N -> option str; n_hash : N -> option str; n_entry : N -> option str; n_path : N -> option str }.
(** binfile.py:52-55, 67-68, 105-106 *)
Definition hash_str (w : N) (known : N -> option str) (h : N) : str :=
  match known h with Some s => s | None => lit "{" ++ hexl w h ++ lit "}" end.

(** Python values built of None, booleans, numbers, strings, tuples, lists, and dictionaries (with string keys, or of a map). *)
Inductive pyval :=
| PNone | PBool (b : bool) | PInt (z : Z) | PFloat (f : N) | PStr (s : str) | PTuple (l : list pyval) | PList (l : list pyval)
| PObj (d : list (str * pyval)) | PMap (d : list (pyval * pyval)).
(** Keys: lists and dictionaries are not hashable.  Simplification: an integer and a float are different
    keys; both can only occur in a map whose keys are options. *)
Fixpoint pyhashable (v : pyval) : bool :=
  match v with
  | PList _ | PObj _ | PMap _ => false
  | PTuple l => forallb pyhashable l
  | _ => true
  end.
Definition pyint (v : pyval) : option Z := match v with PInt z => Some z | PBool b => Some (if b then 1 else 0)%Z | _ => None end.
Fixpoint pyeq (a b : pyval) : bool :=
  match a, b with
  | PNone, PNone => true
  | PFloat x, PFloat y => float_eq x y
  | PStr x, PStr y => eqb x y
  | PTuple x, PTuple y =>
    (fix go (x y : list pyval) : bool :=
       match x, y with [], [] => true | u :: x', v :: y' => pyeq u v && go x' y' | _, _ => false end) x y
  | _, _ => match pyint a, pyint b with Some x, Some y => (x =? y)%Z | _, _ => false end
  end.
Fixpoint pydict_set (k v : pyval) (d : list (pyval * pyval)) : list (pyval * pyval) :=
  match d with
  | [] => [(k, v)]
  | (k', v') :: t => if pyeq k k' then (k', v) :: t else (k', v') :: pydict_set k v t
  end.

Section Json.
Variable nm : names.
(** binfile.py:188-191: the fields, then the type. *)
Definition ser_object (htype : N) (fs : list (str * pyval)) : pyval :=
  PObj (dset (lit "__type") (PStr (hash_str 8 (n_type nm) htype)) (dict_of fs)).
(** The [to_serializable] methods of values and fields. *)
Fixpoint ser (v : bval) : result pyval :=
  let ser_list := fix go (l : list bval) : result (list pyval) :=
    match l with [] => Ok [] | x :: t => let! y := ser x in let! ys := go t in Ok (y :: ys) end in
  let ser_fields := fix go (l : list (N * btype * bval)) : result (list (str * pyval)) :=
    match l with
    | [] => Ok []
    | (h, _, x) :: t => let! y := ser x in let! ys := go t in Ok ((hash_str 8 (n_field nm) h, y) :: ys)
    end in
  let ser_map := fix go (l : list (bval * bval)) (d : list (pyval * pyval)) : result (list (pyval * pyval)) :=
    match l with
    | [] => Ok d
    | (k, x) :: t =>
      let! k' := ser k in
      let! x' := ser x in
      if pyhashable k' then go t (pydict_set k' x' d) else Err TypeError
    end in
  match v with
  | VInts l => Ok (PTuple (map (fun n => PInt (Z.of_N n)) l))
  | VBool b => Ok (PBool b)
  | VInt z => Ok (PInt z)
  | VFloat f => Ok (PFloat f)
  | VVec l => Ok (PTuple (map PFloat l))
  | VMatrix l => Ok (PTuple (map (fun r => PTuple (map PFloat r)) l))
  | VStr s => Ok (PStr s)
  | VHash h => Ok (PStr (hash_str 8 (n_hash nm) h))
  | VPath h => Ok (PStr (hash_str 16 (n_path nm) h))
  | VLink h => Ok (PStr (hash_str 8 (n_entry nm) h))
  | VList _ l => rmap PList (ser_list l)
  | VStruct h fs => if h =? 0 then Ok PNone else rmap (ser_object h) (ser_fields fs)
  | VEmbedded h fs => rmap (ser_object h) (ser_fields fs)
  | VOption _ None => Ok PNone
  | VOption _ (Some x) => ser x
  | VMap _ _ d => rmap PMap (ser_map d [])
  end.
Fixpoint ser_fields (l : list bfield) : result (list (str * pyval)) :=
  match l with
  | [] => Ok []
  | (h, _, x) :: t => let! y := ser x in let! ys := ser_fields t in Ok ((hash_str 8 (n_field nm) h, y) :: ys)
  end.
Definition ser_entry (e : bentry) : result pyval := rmap (ser_object (be_type e)) (ser_fields (be_fields e)).
(** binfile.py:333-334 *)
Definition ser_patch (p : bpatch) : result pyval :=
  rmap (fun l => PObj (dict_of l)) (rmapM (fun f : pfield => let! y := ser (snd f) in Ok (fst (fst f), y)) (snd p)).
(** binfile.py:365-371 *)
Definition ser_file (f : binfile) : result pyval :=
  let! es := rmapM (fun e => let! y := ser_entry e in Ok (hash_str 8 (n_entry nm) (be_path e), y)) (bf_entries f) in
  let d := dict_of es in
  let d := match bf_linked f with Some l => dset (lit "__linked") (PList (map PStr l)) d | None => d end in
  match bf_patches f with
  | Some ps =>
    let! qs := rmapM (fun p => let! y := ser_patch p in Ok (hash_str 8 (n_entry nm) (fst p), y)) ps in
    Ok (PObj (dset (lit "__patches") (PObj (dict_of qs)) d))
  | None => Ok (PObj d)
  end.
End Json.
