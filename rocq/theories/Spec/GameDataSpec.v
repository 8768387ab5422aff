(** * Specification of the values found in BIN data *)

From Verif Require Import Base.Py Base.Text Spec.DictSpec Spec.BinAccessSpec Model.BinFile.

(** The value of the first field with this name; there is no such field. *)
Definition present (s : String.string) (fs : list bfield) (r : pyres) : Prop :=
  exists h f, name_hash (lit s) h /\ first_named h fs f /\ plain_value (snd f) r.
Definition missing (s : String.string) (fs : list bfield) : Prop := exists h, name_hash (lit s) h /\ absent h fs.
Arguments present s%string_scope.
Arguments missing s%string_scope.
Definition field_value (s : String.string) (fs : list bfield) (default r : pyres) : Prop := present s fs r \/ missing s fs /\ r = default.
Arguments field_value s%string_scope.

(** Elements of a value. *)
Inductive elements : pyres -> list bval -> Prop :=
| EL_list l : elements (RList l) l
| EL_dict d : elements (RDict d) (map fst d)
| EL_str s : elements (RVal (VStr s)) (map (fun c => VStr [c]) s)
| EL_ints l : elements (RVal (VInts l)) (map (fun n => VInt (Z.of_N n)) l)
| EL_vec l : elements (RVal (VVec l)) (map VFloat l)
| EL_matrix l : elements (RVal (VMatrix l)) (map VVec l).
(** Elements of the list in a field, none if there is no such field. *)
Definition field_list (s : String.string) (fs : list bfield) (l : list bval) : Prop := exists r, field_value s fs (RList []) r /\ elements r l.
Arguments field_list s%string_scope.

Inductive hash_value : bval -> N -> Prop :=
| HV_hash h : hash_value (VHash h) h
| HV_path h : hash_value (VPath h) h
| HV_link h : hash_value (VLink h) h.
(** As a key, a value designates a hash. *)
Inductive refers : bval -> N -> Prop :=
| RF_hash v h : hash_value v h -> refers v h
| RF_int h : refers (VInt (Z.of_N h)) h
| RF_bool b : refers (VBool b) (if b then 1 else 0).

(** Values that are false. *)
Inductive falsy : pyres -> Prop :=
| FA_none : falsy RNone
| FA_list : falsy (RList [])
| FA_dict : falsy (RDict [])
| FA_bool : falsy (RVal (VBool false))
| FA_int : falsy (RVal (VInt 0))
| FA_str : falsy (RVal (VStr []))
| FA_ints : falsy (RVal (VInts []))
| FA_vec : falsy (RVal (VVec []))
| FA_matrix : falsy (RVal (VMatrix []))
| FA_float f : f mod 2 ^ 31 = 0 -> falsy (RVal (VFloat f)).

(** The sublist of the elements such that ... *)
Inductive picks {A} (P : A -> Prop) : list A -> list A -> Prop :=
| PK_nil : picks P [] []
| PK_yes x l r : P x -> picks P l r -> picks P (x :: l) (x :: r)
| PK_no x l r : ~ P x -> picks P l r -> picks P (x :: l) r.
(** Each element designates something or nothing; the results are put together. *)
Inductive gathers {A B} (look : bval -> A -> Prop) (R : A -> list B -> Prop) : list bval -> list B -> Prop :=
| G_nil : gathers look R [] []
| G_skip v l r : (forall a, ~ look v a) -> gathers look R l r -> gathers look R (v :: l) r
| G_take v a b l r : look v a -> R a b -> gathers look R l r -> gathers look R (v :: l) (b ++ r).

Section Names.
Variable nm : names.
Variable repr : pyres -> str.
(** The text of a value. *)
Inductive text_of : pyres -> str -> Prop :=
| TX_none : text_of RNone (lit "None")
| TX_str s : text_of (RVal (VStr s)) s
| TX_hash h s : shown 8 (n_hash nm) h s -> text_of (RVal (VHash h)) s
| TX_path h s : shown 16 (n_path nm) h s -> text_of (RVal (VPath h)) s
| TX_link h s : shown 8 (n_entry nm) h s -> text_of (RVal (VLink h)) s
| TX_int z : text_of (RVal (VInt z)) (decZ z)
| TX_bool b : text_of (RVal (VBool b)) (if b then lit "True" else lit "False")
| TX_list l : text_of (RList l) (repr (RList l))
| TX_dict d : text_of (RDict d) (repr (RDict d))
| TX_other v : (forall k, leaf_kind v = Some k -> In k [0; 3; 4; 5]) -> text_of (RVal v) (repr (RVal v)).

(** A hash has this name: the one in the list, or else the one with this hash. *)
Definition has_name (known : N -> option str) (s : String.string) (h : N) : Prop := known h = Some (lit s) \/ known h = None /\ name_hash (lit s) h.
Definition of_kind (s : String.string) (x : bentry) : Prop := has_name (n_type nm) s (be_type x).
End Names.
Arguments has_name known s%string_scope h.
Arguments of_kind nm s%string_scope x.

(** The last entry with this path, among those such that ... *)
Definition last_entry (P : bentry -> Prop) (es : list bentry) (h : N) (x : bentry) : Prop :=
  exists pre post, es = pre ++ x :: post /\ be_path x = h /\ P x /\ forall y, In y post -> be_path y = h -> ~ P y.
Definition part_of (p s : str) : Prop := exists a b, s = a ++ p ++ b.
