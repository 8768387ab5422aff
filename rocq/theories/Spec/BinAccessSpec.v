(** * Specification of the access to BIN objects and of their JSON form *)

From Verif Require Import Base.Py Base.Text Spec.BinSpec Model.BinFile.

(** ** Keys *)

(** 32-bit FNV-1a of a list of bytes. *)
Inductive fnv1a : list N -> N -> Prop :=
| FNV_nil : fnv1a [] 2166136261
| FNV_snoc l h c : fnv1a l h -> fnv1a (l ++ [c]) ((N.lxor h c * 16777619) mod 2 ^ 32).
(** [l] is the ASCII text [s] with upper case letters replaced. *)
Definition lower_of (c d : N) : Prop := (65 <= c <= 90 /\ d = c + 32) \/ (~ 65 <= c <= 90 /\ d = c).
Definition name_hash (s : str) (h : N) : Prop :=
  Forall (fun c => c < 128) s /\ exists l, Forall2 lower_of s l /\ fnv1a l h.
(** The key [k] designates the hash [h]. *)
Inductive denotes : bkey -> N -> Prop :=
| D_bin h : denotes (KBin h) h
| D_str s h : name_hash s h -> denotes (KStr s) h
| D_int h : denotes (KInt (Z.of_N h)) h.
(** The texts are equal up to the case of ASCII letters. *)
Definition same_case (c d : N) : Prop := c = d \/ (65 <= c <= 90 /\ d = c + 32) \/ (65 <= d <= 90 /\ c = d + 32).

(** ** Fields *)

(** [f] is the first of the fields whose name is [h]. *)
Definition first_named (h : N) (fs : list bfield) (f : bfield) : Prop :=
  exists l1 l2, fs = l1 ++ f :: l2 /\ fst (fst f) = h /\ Forall (fun g => fst (fst g) <> h) l1.
Definition absent (h : N) (fs : list bfield) : Prop := Forall (fun g => fst (fst g) <> h) fs.
(** Fields of an object. *)
Definition object_fields (v : bval) : option (list bfield) :=
  match v with VStruct _ fs | VEmbedded _ fs => Some fs | _ => None end.
(** Successive fields lead from an object with fields [fs] to a value. *)
Inductive follows : list bfield -> list bkey -> bval -> Prop :=
| F_one fs k h f : denotes k h -> first_named h fs f -> follows fs [k] (snd f)
| F_more fs k h f fs' ks v : denotes k h -> first_named h fs f -> object_fields (snd f) = Some fs' -> follows fs' ks v -> follows fs (k :: ks) v.
(** Successive fields exist up to an object which lacks the next one. *)
Inductive misses : list bfield -> list bkey -> Prop :=
| M_here fs k h ks : denotes k h -> absent h fs -> misses fs (k :: ks)
| M_later fs k h f fs' ks : denotes k h -> first_named h fs f -> object_fields (snd f) = Some fs' -> misses fs' ks -> misses fs (k :: ks).

(** What users get for a value: the elements of a container, the content of an option, anything else as it is. *)
Inductive plain_value : bval -> pyres -> Prop :=
| PV_list t l : plain_value (VList t l) (RList l)
| PV_map kt vt d : plain_value (VMap kt vt d) (RDict d)
| PV_none t : plain_value (VOption t None) RNone
| PV_some t v : plain_value (VOption t (Some v)) (RVal v)
| PV_other v : (forall t l, v <> VList t l) -> (forall kt vt d, v <> VMap kt vt d) -> (forall t o, v <> VOption t o) -> plain_value v (RVal v).

(** ** JSON *)

(** The names given to hashes are right and none looks like an unknown hash. *)
Definition faithful (hash : str -> result N) (known : N -> option str) : Prop :=
  forall h s, known h = Some s -> hash s = Ok h /\ ~ exists t, s = lit "{" ++ t ++ lit "}".

Definition leaf_kind (v : bval) : option N :=
  match v with
  | VInts _ => Some 0 | VBool _ => Some 1 | VInt _ => Some 2 | VFloat _ => Some 3 | VVec _ => Some 4 | VMatrix _ => Some 5
  | VStr _ => Some 6 | VHash _ => Some 7 | VPath _ => Some 8 | VLink _ => Some 9
  | _ => None
  end.

Section Json.
Variable nm : names.
Definition shown (w : N) (known : N -> option str) (h : N) (s : str) : Prop :=
  known h = Some s \/ (known h = None /\ s = lit "{" ++ hexl w h ++ lit "}").

(** The JSON value has the same structure: all members of objects are there, in order, followed by the type. *)
Inductive json : bval -> pyval -> Prop :=
| J_ints l : json (VInts l) (PTuple (map (fun n => PInt (Z.of_N n)) l))
| J_bool b : json (VBool b) (PBool b)
| J_int z : json (VInt z) (PInt z)
| J_float f : json (VFloat f) (PFloat f)
| J_vec l : json (VVec l) (PTuple (map PFloat l))
| J_matrix l : json (VMatrix l) (PTuple (map (fun r => PTuple (map PFloat r)) l))
| J_str s : json (VStr s) (PStr s)
| J_hash h s : shown 8 (n_hash nm) h s -> json (VHash h) (PStr s)
| J_path h s : shown 16 (n_path nm) h s -> json (VPath h) (PStr s)
| J_link h s : shown 8 (n_entry nm) h s -> json (VLink h) (PStr s)
| J_list t l l' : Forall2 json l l' -> json (VList t l) (PList l')
| J_null fs : json (VStruct 0 fs) PNone
| J_struct h fs d : h <> 0 -> members h fs d -> json (VStruct h fs) (PObj d)
| J_embedded h fs d : members h fs d -> json (VEmbedded h fs) (PObj d)
| J_none t : json (VOption t None) PNone
| J_some t v y : json v y -> json (VOption t (Some v)) y
| J_map kt vt d d' : Forall2 (fun kv kv' => json (fst kv) (fst kv') /\ json (snd kv) (snd kv')) d d' -> json (VMap kt vt d) (PMap d')
with members : N -> list bfield -> list (str * pyval) -> Prop :=
| Members h fs ds t : Forall2 (fun f d => shown 8 (n_field nm) (fst (fst f)) (fst d) /\ json (snd f) (snd d)) fs ds ->
    shown 8 (n_type nm) h t -> members h fs (ds ++ [(lit "__type", PStr t)]).

(** No two fields of an object have the same name, none is called "__type"; the keys of maps are distinct and are plain values. *)
Inductive clean : bval -> Prop :=
| C_leaf v : leaf_kind v <> None -> clean v
| C_list t l : Forall clean l -> clean (VList t l)
| C_null fs : clean (VStruct 0 fs)
| C_struct h fs : clean_fields fs -> clean (VStruct h fs)
| C_embedded h fs : clean_fields fs -> clean (VEmbedded h fs)
| C_none t : clean (VOption t None)
| C_some t v : clean v -> clean (VOption t (Some v))
| C_map kt vt d kd : Forall (fun kv => leaf_kind (fst kv) = Some kd) d -> ForallOrdPairs (fun a b => ~ same_key (fst b) (fst a)) d ->
    Forall (fun kv => clean (snd kv)) d -> clean (VMap kt vt d)
with clean_fields : list bfield -> Prop :=
| Clean_fields fs : NoDup (map (fun f => fst (fst f)) fs) -> (forall f, In f fs -> ~ shown 8 (n_field nm) (fst (fst f)) (lit "__type")) ->
    Forall (fun f => clean (snd f)) fs -> clean_fields fs.

(** A whole file: all entries in order, then linked files, then patches. *)
Definition json_file (f : binfile) (y : pyval) : Prop :=
  exists es l p, y = PObj (es ++ l ++ p) /\
  Forall2 (fun e kv => shown 8 (n_entry nm) (be_path e) (fst kv) /\ exists d, snd kv = PObj d /\ members (be_type e) (be_fields e) d) (bf_entries f) es /\
  l = match bf_linked f with Some l => [(lit "__linked", PList (map PStr l))] | None => [] end /\
  match bf_patches f with
  | None => p = []
  | Some ps => exists qs, p = [(lit "__patches", PObj qs)] /\
      Forall2 (fun q kv => shown 8 (n_entry nm) (fst q) (fst kv) /\
        exists d, snd kv = PObj d /\ Forall2 (fun pf m => fst m = fst (fst pf) /\ json (snd pf) (snd m)) (snd q) d) ps qs
  end.
Definition clean_file (f : binfile) : Prop :=
  NoDup (map be_path (bf_entries f)) /\
  (forall e, In e (bf_entries f) -> ~ shown 8 (n_entry nm) (be_path e) (lit "__linked") /\ ~ shown 8 (n_entry nm) (be_path e) (lit "__patches") /\
     clean_fields (be_fields e)) /\
  forall ps, bf_patches f = Some ps -> NoDup (map fst ps) /\
    forall q, In q ps -> NoDup (map (fun pf => fst (fst pf)) (snd q)) /\ Forall (fun pf => clean (snd pf)) (snd q).
End Json.
