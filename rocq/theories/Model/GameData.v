(** * Python values of BIN data, as used by cdtb/tftdata.py and cdtb/arenadata.py

    Parameters: the loaded hash lists, and [repr], the text of numbers and objects which are neither strings, hashes,
    integers nor booleans. *)

From Verif Require Export Model.BinFile.

Definition fld (s : String.string) : bkey := KStr (lit s).
Arguments fld s%string_scope.

(** [x.getv(k, default)] *)
Definition getd (fs : list bfield) (k : bkey) (default : pyres) : result pyres :=
  let! r := getv fs k in Ok (match r with RDefault => default | _ => r end).
(** [x.getv(k)] *)
Definition getn (fs : list bfield) (k : bkey) : result pyres := getd fs k RNone.

(** The object on which [getv], ... is called. *)
Definition bobj (v : bval) : result (list bfield) :=
  match v with VStruct _ fs | VEmbedded _ fs => Ok fs | _ => Err AttributeError end.
Definition obj (r : pyres) : result (list bfield) :=
  match r with RVal v => bobj v | _ => Err AttributeError end.

(** [for x in r].  Simplification: iterating on an object with a field whose name is 0, 1, ... *)
Definition py_iter (r : pyres) : result (list bval) :=
  match r with
  | RList l => Ok l
  | RDict d => Ok (map fst d)
  | RVal (VStr s) => Ok (map (fun c => VStr [c]) s)
  | RVal (VInts l) => Ok (map (fun n => VInt (Z.of_N n)) l)
  | RVal (VVec l) => Ok (map VFloat l)
  | RVal (VMatrix l) => Ok (map VVec l)
  | RVal (VStruct _ _) | RVal (VEmbedded _ _) => Err KeyError
  | _ => Err TypeError
  end.
(** [len(v)] *)
Definition py_len (v : bval) : result N :=
  match v with
  | VStr l => Ok (lenN l) | VInts l => Ok (lenN l) | VVec l => Ok (lenN l) | VMatrix l => Ok (lenN l)
  | _ => Err TypeError
  end.

(** The hash to which a key is equal, for a dictionary indexed by hashes.  Simplification: floats are equal to none. *)
Definition key_hash (v : bval) : option N :=
  match v with
  | VHash h | VPath h | VLink h => Some h
  | VInt z => if (z <? 0)%Z then None else Some (Z.to_N z)
  | VBool b => Some (if b then 1 else 0)
  | _ => None
  end.
(** [d.get(v)] in such a dictionary. *)
Definition hget {A} (v : bval) (d : list (N * A)) : option A :=
  match key_hash v with Some h => dget h d | None => None end.
(** [v.h] *)
Definition attr_h (v : bval) : result N :=
  match v with VHash h | VPath h | VLink h => Ok h | _ => Err AttributeError end.

(** [bool(r)]; objects are true. *)
Definition py_true (r : pyres) : bool :=
  match r with
  | RList [] | RDict [] | RNone | RDefault | RVal (VBool false) | RVal (VStr []) | RVal (VInts []) | RVal (VVec []) | RVal (VMatrix []) => false
  | RVal (VInt z) => negb (z =? 0)%Z
  | RVal (VFloat f) => negb (N.land f 0x7fffffff =? 0)
  | _ => true
  end.
(** [r is None] *)
Definition is_none (r : pyres) : bool := match r with RNone => true | _ => false end.
(** [a or b] *)
Definition py_or (a b : pyres) : pyres := if py_true a then a else b.

(** [p in s] on strings *)
Fixpoint has_sub (p s : str) : bool := startswith s p || match s with [] => false | _ :: t => has_sub p t end.

Section Data.
Variable nm : names.
Variable repr : pyres -> str.

(** [str(r)] *)
Definition py_str (r : pyres) : str :=
  match r with
  | RNone | RDefault => lit "None"
  | RVal (VStr s) => s
  | RVal (VHash h) => hash_str 8 (n_hash nm) h
  | RVal (VPath h) => hash_str 16 (n_path nm) h
  | RVal (VLink h) => hash_str 8 (n_entry nm) h
  | RVal (VInt z) => decZ z
  | RVal (VBool b) => if b then lit "True" else lit "False"
  | _ => repr r
  end.

(** A hash compared with an ASCII name: [x.type == s], [f.name == s]. *)
Definition named (known : N -> option str) (h : N) (s : str) : bool :=
  match hash_eq_str compute_binhash h (known h) s with Ok b => b | Err _ => false end.
Definition of_type (s : str) (x : bentry) : bool := named (n_type nm) (be_type x) s.
(** [{x.path: x for x in l}] *)
Definition by_path (l : list bentry) : list (N * bentry) := dict_of (map (fun x => (be_path x, x)) l).
End Data.
