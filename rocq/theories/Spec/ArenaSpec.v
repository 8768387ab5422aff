(** * Specification of the Arena data *)

From Verif Require Import Base.Py Base.Text Spec.DictSpec Spec.BinAccessSpec Spec.GameDataSpec Spec.TftSpec Spec.TftChampSpec Spec.TftExportSpec Spec.TablesSpec Model.BinFile Model.Rst Model.Translations Model.Arena.

Inductive first_of : pyres -> pyres -> Prop :=
| FO_list v l : first_of (RList (v :: l)) (RVal v)
| FO_str c s : first_of (RVal (VStr (c :: s))) (RVal (VStr [c]))
| FO_ints n l : first_of (RVal (VInts (n :: l))) (RVal (VInt (Z.of_N n)))
| FO_vec f l : first_of (RVal (VVec (f :: l))) (RVal (VFloat f))
| FO_matrix r l : first_of (RVal (VMatrix (r :: l))) (RVal (VVec r)).
(** The names of hashes are right. *)
Definition right_names (nm : names) : Prop := exists path_hash, faithful compute_binhash (n_field nm) /\ faithful compute_binhash (n_hash nm) /\ faithful compute_binhash (n_entry nm) /\ faithful path_hash (n_path nm).
Definition text_key (s : str) : pyres := RVal (VStr s).

Section Arena.
Variable nm : names.
Variable repr : pyres -> str.
Variable plower : str -> str.
Notation text := (text_of nm repr).
Notation kind := (of_kind nm).

(** The values themselves, or else the first of the older ones, which must exist in both cases. *)
Definition data_value_of (v : bval) (kv : pyres * pyres) : Prop :=
  exists fs r x, object_fields v = Some fs /\ prefer "name" "mName" fs RNone (fst kv) /\ field_value "mValues" fs (RList [VInt 0]) r /\ first_of r x /\ field_value "values" fs x (snd kv).
(** A dictionary: the last value for each name. *)
Definition named_values (kvs d : list (pyres * pyres)) : Prop :=
  (forall s v, In (text_key s, v) d <-> last_value (text_key s) kvs (Some v)) /\ forall k v, In (k, v) d -> In v (map snd kvs) /\ In k (map fst kvs).
Definition calculations_of (a : list bfield) (c : pyval) : Prop :=
  (exists h f, name_hash (lit "mSpellCalculations") h /\ first_named h a f /\ (right_names nm -> clean nm (snd f) -> json nm (snd f) c)) \/ missing "mSpellCalculations" a /\ c = PObj [].
(** The spell of an augment, if any. *)
Inductive root_spell (es : list bentry) (x : bentry) : option (list bfield) -> Prop :=
| RS_none r : field_value "RootSpell" (be_fields x) RNone r -> falsy r -> root_spell es x None
| RS_some v y w a : field_value "RootSpell" (be_fields x) RNone (RVal v) -> ~ falsy (RVal v) -> at_key (kind "SpellObject") es v y -> field_value "mSpell" (be_fields y) RNone (RVal w) ->
    object_fields w = Some a -> root_spell es x (Some a).
Definition spell_data_of (o : option (list bfield)) (d : list (pyres * pyres)) (c : pyval) : Prop :=
  match o with
  | None => d = [] /\ c = PObj []
  | Some a => exists r l kvs, prefer "DataValues" "mDataValues" a (RList []) r /\ elements r l /\ Forall2 data_value_of l kvs /\ named_values kvs d /\ calculations_of a c
  end.
Definition enabled (x : bentry) : Prop := exists r, field_value "enabled" (be_fields x) (RVal (VBool true)) r /\ ~ falsy r.
Definition icon_of (k : String.string) (fs : list bfield) (p : str) : Prop := exists r s, field_value k fs RNone r /\ text r s /\ image_path plower s p.
Arguments icon_of k%string_scope.
Definition augment_of (es : list bentry) (x : bentry) (a : augment) : Prop :=
  let fs := be_fields x in
  field_value "AugmentPlatformId" fs RNone (au_id a) /\ field_value "AugmentNameId" fs RNone (au_api a) /\ field_value "NameTra" fs RNone (au_name a) /\
  field_value "DescriptionTra" fs RNone (au_desc a) /\ field_value "AugmentTooltipTra" fs RNone (au_tooltip a) /\ icon_of "AugmentSmallIconPath" fs (au_small a) /\
  icon_of "AugmentLargeIconPath" fs (au_large a) /\ field_value "rarity" fs (num 0) (au_rarity a) /\
  exists o, root_spell es x o /\ spell_data_of o (au_values a) (au_calculations a).
End Arena.
Definition augment_translated (xxh3 xxh64 : str -> N) (plower : str -> str) (r : rst) (a b : augment) : Prop :=
  let t := translated xxh3 xxh64 plower (FromRst r) in
  t (au_name a) (au_name b) /\ t (au_desc a) (au_desc b) /\ t (au_tooltip a) (au_tooltip b) /\ au_id b = au_id a /\ au_api b = au_api a /\ au_small b = au_small a /\
  au_large b = au_large a /\ au_rarity b = au_rarity a /\ au_values b = au_values a /\ au_calculations b = au_calculations a.
(** What is needed to read the values of a spell. *)
Definition readable (o : option (list bfield)) : Prop :=
  match o with
  | None => True
  | Some a => exists r l kvs, prefer "DataValues" "mDataValues" a (RList []) r /\ elements r l /\ Forall2 data_value_of l kvs /\
      forall kv, In kv kvs -> (forall l, fst kv <> RList l) /\ forall d, fst kv <> RDict d
  end.
