(** * Text dump of BIN files: cdtb/binfile.py:7-13, 224-243, 373-380 and the [__repr__] methods; cdtb/__main__.py:319-330

    Parameters: [printable], the characters beyond ASCII that [repr] does not escape; [show], the [repr] of a float of 32 bits.
    Simplification: no recursion limit when a file is dumped. *)

From Verif Require Import Base.Py Base.Text Base.Bin Base.Fs Model.Files Model.BinFile Model.Version Model.Cli.

(** Names of the members of [BinType] (binfile.py:193-222). *)
Definition btype_name (t : btype) : str :=
  match t with
  | TEmpty => lit "EMPTY" | TBool => lit "BOOL" | TS8 => lit "S8" | TU8 => lit "U8" | TS16 => lit "S16" | TU16 => lit "U16" | TS32 => lit "S32" | TU32 => lit "U32"
  | TS64 => lit "S64" | TU64 => lit "U64" | TFloat => lit "FLOAT" | TVec2 => lit "VEC2_FLOAT" | TVec3 => lit "VEC3_FLOAT" | TVec4 => lit "VEC4_FLOAT" | TMatrix => lit "MATRIX4X4"
  | TRgba => lit "RGBA" | TString => lit "STRING" | THash => lit "HASH" | TPath => lit "PATH" | TList => lit "LIST" | TList2 => lit "LIST2" | TStruct => lit "STRUCT"
  | TEmbedded => lit "EMBEDDED" | TLink => lit "LINK" | TOption => lit "OPTION" | TMap => lit "MAP" | TFlag => lit "FLAG"
  end.

(** binfile.py:7-8: [.replace('\n', '\n  ')] *)
Definition indent (s : str) : str := flat_map (fun c => if c =? cNL then [cNL; cSpace; cSpace] else [c]) s.
(** binfile.py:10-13, on the [repr] of the values *)
Definition indent_list (l : list str) : str :=
  match l with
  | [] => lit "[]"
  | _ => lit "[" ++ [cNL] ++ flat_map (fun s => lit "  " ++ indent s ++ [cNL]) l ++ lit "]"
  end.

Section Dump.
  Variable printable : N -> bool.
  Variable show : N -> str.
  Variable nm : names.

  (** [repr] of a string (CPython [unicode_repr]) *)
  Definition repr_char (q c : N) : str :=
    if (c =? q) || (c =? 92) then [92; c]
    else if c =? 9 then lit "\t" else if c =? 10 then lit "\n" else if c =? 13 then lit "\r"
    else if (c <? 32) || (c =? 127) then lit "\x" ++ hexl 2 c
    else if c <? 127 then [c]
    else if printable c then [c]
    else if c <? 0x100 then lit "\x" ++ hexl 2 c
    else if c <? 0x10000 then lit "\u" ++ hexl 4 c
    else lit "\U" ++ hexl 8 c.
  Definition repr_quote (s : str) : N := if mem 39 s && negb (mem 34 s) then 34 else 39.
  Definition repr_str (s : str) : str := [repr_quote s] ++ flat_map (repr_char (repr_quote s)) s ++ [repr_quote s].
  (** [BinHashValue.__repr__], [BinEntryPath.__repr__], [BinPathValue.__repr__] (binfile.py:75-78, 85-88, 112-115); other hashes use [hash_str] *)
  Definition hash_repr (w : N) (known : N -> option str) (h : N) : str :=
    match known h with Some s => repr_str s | None => lit "{" ++ hexl w h ++ lit "}" end.
  (** [repr] of a tuple of two elements or more *)
  Definition tuple_repr (l : list str) : str := lit "(" ++ join (lit ", ") l ++ lit ")".

  (** [repr] of values that are not [BinList], [BinStruct], [BinEmbedded], [BinOption], [BinMap] *)
  Definition atom_repr (v : bval) : option str :=
    match v with
    | VInts l => Some (tuple_repr (map dec l))
    | VBool b => Some (if b then lit "True" else lit "False")
    | VInt z => Some (decZ z)
    | VFloat f => Some (show f)
    | VVec l => Some (tuple_repr (map show l))
    | VMatrix l => Some (tuple_repr (map (fun r => tuple_repr (map show r)) l))
    | VStr s => Some (repr_str s)
    | VHash h => Some (hash_repr 8 (n_hash nm) h)
    | VPath h => Some (hash_repr 16 (n_path nm) h)
    | VLink h => Some (hash_repr 8 (n_entry nm) h)
    | _ => None
    end.
  (** The type with which the [__repr__] of these classes call [format_binvalue] (binfile.py:251-252, 260-261, 269-270, 277-278, 289-290) *)
  Definition own_type (v : bval) : btype :=
    match v with VStruct _ _ => TStruct | VEmbedded _ _ => TEmbedded | VOption _ _ => TOption | VMap _ _ _ => TMap | _ => TList end.
  (** [str] of a key of a map *)
  Definition atom_str (v : bval) : option str :=
    match v with
    | VStr s => Some s
    | VHash h => Some (hash_str 8 (n_hash nm) h)
    | VPath h => Some (hash_str 16 (n_path nm) h)
    | VLink h => Some (hash_str 8 (n_entry nm) h)
    | _ => atom_repr v
    end.

  (** binfile.py:224-243 [format_binvalue]: the value of a field has the type of the field, thus is known by its constructor, except for
      the two types of lists and the two types of structures (objects of the same attributes) *)
  Fixpoint format_binvalue (t : btype) (v : bval) : str :=
    match v with
    | VList vt vs =>
      btype_name t ++ lit "(" ++ btype_name vt ++ lit ") " ++
      indent_list (map (fun x => match atom_repr x with Some s => s | None => lit "<" ++ format_binvalue (own_type x) x ++ lit ">" end) vs)
    | VStruct h fs | VEmbedded h fs =>
      match t with
      | TStruct =>
        if h =? 0 then lit "STRUCT None"
        else lit "STRUCT " ++ hash_str 8 (n_type nm) h ++ lit " " ++
          indent_list (map (fun f => match f with (n, ft, x) => lit "<" ++ hash_str 8 (n_field nm) n ++ lit " " ++ format_binvalue ft x ++ lit ">" end) fs)
      | _ =>
        lit "EMBEDDED " ++ hash_str 8 (n_type nm) h ++ lit " " ++
          indent_list (map (fun f => match f with (n, ft, x) => lit "<" ++ hash_str 8 (n_field nm) n ++ lit " " ++ format_binvalue ft x ++ lit ">" end) fs)
      end
    | VOption vt o =>
      lit "OPTION(" ++ btype_name vt ++ lit ") " ++
      match o with None => lit "None" | Some x => match atom_repr x with Some s => s | None => lit "<" ++ format_binvalue (own_type x) x ++ lit ">" end end
    | VMap kt vt d =>
      lit "MAP(" ++ btype_name kt ++ lit "," ++ btype_name vt ++ lit ") {" ++ [cNL] ++
      flat_map (fun kx => match kx with (k, x) =>
        lit "  " ++ match atom_str k with Some s => s | None => lit "<" ++ format_binvalue (own_type k) k ++ lit ">" end ++ lit " => " ++
        indent match atom_repr x with Some s => s | None => lit "<" ++ format_binvalue (own_type x) x ++ lit ">" end ++ [cNL] end) d ++ lit "}"
    | _ => btype_name t ++ lit " " ++ match atom_repr v with Some s => s | None => [] end
    end.
  (** [repr] of a value *)
  Definition value_repr (v : bval) : str := match atom_repr v with Some s => s | None => lit "<" ++ format_binvalue (own_type v) v ++ lit ">" end.
  (** [str] of a key *)
  Definition key_str (v : bval) : str := match atom_str v with Some s => s | None => value_repr v end.
  (** binfile.py:303-304, 317-318: [BinField.__repr__], [BinPatchField.__repr__] *)
  Definition field_repr (f : bfield) : str := match f with (n, t, x) => lit "<" ++ hash_str 8 (n_field nm) n ++ lit " " ++ format_binvalue t x ++ lit ">" end.
  Definition pfield_repr (f : pfield) : str := match f with (p, t, x) => lit "<" ++ p ++ lit " " ++ format_binvalue t x ++ lit ">" end.
  (** binfile.py:341-343 [BinEntry.__repr__], 329-331 [BinPatchEntry.__repr__] *)
  Definition entry_repr (e : bentry) : str :=
    lit "<BinEntry " ++ hash_repr 8 (n_entry nm) (be_path e) ++ lit " " ++ hash_str 8 (n_type nm) (be_type e) ++ lit " " ++ indent_list (map field_repr (be_fields e)) ++ lit ">".
  Definition patch_repr (p : bpatch) : str :=
    lit "<BinPatchEntry " ++ hash_repr 8 (n_entry nm) (fst p) ++ lit " " ++ indent_list (map pfield_repr (snd p)) ++ lit ">".
  (** binfile.py:373-380 *)
  Definition dump (b : binfile) : str :=
    match bf_linked b with Some l => lit "<Linked: " ++ indent_list (map repr_str l) ++ lit ">" ++ [cNL] | None => [] end ++
    flat_map (fun e => entry_repr e ++ [cNL]) (bf_entries b) ++
    match bf_patches b with Some l => flat_map (fun p => patch_repr p ++ [cNL]) l | None => [] end.

  Variable limit : nat.
  Variable cwd : path.
  (** [json_dump] of the serialized file *)
  Variable json : pyval -> result str.
  (** __main__.py:319-330 [command_bin_dump]: what is printed *)
  Definition command_bin_dump (s : str) (version : option str) (as_json : bool) : prog str :=
    let~ isf := isfile cwd s in
    if negb isf then Rai SysExit else
    let~ v := lift (patch_version (ArgStr match version with Some (c :: v) => c :: v | _ => lit "main" end)) in
    let~ n := lift (as_int v) in
    let~ data := read_file cwd s in
    let~ b := lift (prun (read_binfile (reader_version (Some n)) limit) data) in
    if as_json then lift (let! p := ser_file nm b in json p) else Ret (dump b).
End Dump.
