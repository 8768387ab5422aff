(** * Specification of the TFT data *)

From Verif Require Import Base.Py Base.Text Spec.DictSpec Spec.BinAccessSpec Spec.GameDataSpec Model.BinFile Model.Tft.
From Coq Require Import Sorted.

(** A dictionary made of successive pairs. *)
Definition dict_from {K V} `{EqDec K} (l : list (K * V)) (d : list (K * V)) : Prop := NoDup (map fst d) /\ forall k, last_value k l (dget k d).

Section Tft.
Variable nm : names.
Variable repr : pyres -> str.
Variable plower : str -> str.
Notation text := (text_of nm repr).
Notation kind := (of_kind nm).

(** ** Effects: amounts, or else constants, or else nothing *)

Definition amount (v : bval) (kv : str * pyres) : Prop :=
  exists o n, object_fields v = Some o /\ field_value "name" o RNone n /\ text n (fst kv) /\ field_value "value" o RNone (snd kv).
Definition constant (c : bval * bval) (kv : str * pyres) : Prop :=
  exists o, text (RVal (fst c)) (fst kv) /\ object_fields (snd c) = Some o /\ field_value "mValue" o RNone (snd kv).
Definition value_at (h : N) (fs : list bfield) (default r : pyres) : Prop :=
  (exists f, first_named h fs f /\ plain_value (snd f) r) \/ absent h fs /\ r = default.
Inductive effects_of (fs : list bfield) : list (str * pyres) -> Prop :=
| EF_amounts r l kvs d : present "effectAmounts" fs r -> elements r l -> Forall2 amount l kvs -> dict_from kvs d -> effects_of fs d
| EF_constants v o c kvs d : missing "effectAmounts" fs -> present "constants" fs (RVal v) -> object_fields v = Some o ->
    value_at 3741866899 o (RDict []) (RDict c) -> Forall2 constant c kvs -> dict_from kvs d -> effects_of fs d
| EF_none : missing "effectAmounts" fs -> missing "constants" fs -> effects_of fs [].

(** ** Items *)

(** Entries whose name is neither that of a template nor that of the null item. *)
Definition item_entry (x : bentry) : Prop :=
  kind "TftItemData" x /\ exists s, field_value "mName" (be_fields x) RNone (RVal (VStr s)) /\ ~ part_of (lit "Template") s /\ s <> lit "TFT_Item_Null".
(** A field [k] of the last entry with this hash. *)
Definition linked (P : bentry -> Prop) (es : list bentry) (k : String.string) (v : bval) (n : pyres) : Prop :=
  exists h x, hash_value v h /\ last_entry P es h x /\ field_value k (be_fields x) RNone n.
Arguments linked P es k%string_scope v n.
Definition item_of (es : list bentry) (x : bentry) (i : titem) : Prop :=
  let fs := be_fields x in
  field_value "mName" fs RNone (ti_api i) /\ field_value "mId" fs RNone (ti_id i) /\ field_value "mDisplayNameTra" fs RNone (ti_name i) /\
  field_value "mDescriptionNameTra" fs RNone (ti_desc i) /\ (exists r, field_value "mIconPath" fs RNone r /\ text r (ti_icon i)) /\
  field_value "IsAugment" fs (RVal (VBool false)) (ti_augment i) /\ field_value "mIsUnique" fs (RVal (VBool false)) (ti_unique i) /\
  effects_of fs (ti_effects i) /\
  (exists l, field_list "ItemTags" fs l /\ Forall2 (fun v s => text (RVal v) s) l (ti_tags i)) /\
  (exists l, field_list "AssociatedTraits" fs l /\ Forall2 (linked (kind "TftTraitData") es "mName") l (ti_associated i)) /\
  (exists l, field_list "IncompatibleTraits" fs l /\ Forall2 (linked (kind "TftTraitData") es "mName") l (ti_incompatible i)) /\
  exists l, field_list "mComposition" fs l /\ Forall2 (linked item_entry es "mName") l (ti_composition i) /\
    match ti_from i with
    | None => ti_id i = RNone
    | Some from => ti_id i <> RNone /\ Forall2 (linked item_entry es "mId") l from
    end.

(** ** Traits *)

Definition trait_entry (x : bentry) : Prop :=
  kind "TftTraitData" x /\ exists s, field_value "mName" (be_fields x) RNone (RVal (VStr s)) /\ ~ part_of (lit "Template") s.
(** The variables of a level are those common to all levels, replaced by its own. *)
Definition effect_of (kmin kmax kstyle : String.string) (common : list (str * pyres)) (v : bval) (e : effect) : Prop :=
  exists fs d, object_fields v = Some fs /\ field_value kmin fs RNone (ef_min e) /\
    (exists m, field_value kmax fs RNone m /\ (~ falsy m /\ ef_max e = m \/ falsy m /\ ef_max e = RVal (VInt 25000))) /\
    field_value kstyle fs (RVal (VInt 1)) (ef_style e) /\ effects_of fs d /\
    forall k, dget k (ef_vars e) = match dget k d with Some v => Some v | None => dget k common end.
Arguments effect_of (kmin kmax kstyle)%string_scope common v e.
Inductive common_effects : list bval -> list (str * pyres) -> Prop :=
| CE_nil : common_effects [] []
| CE_snoc l c v fs d c' : common_effects l c -> object_fields v = Some fs -> effects_of fs d ->
    (forall k, dget k c' = match dget k d with Some v => Some v | None => dget k c end) -> common_effects (l ++ [v]) c'.
Definition trait_of (x : bentry) (t : trait) : Prop :=
  let fs := be_fields x in
  field_value "mName" fs RNone (tr_api t) /\ field_value "mDisplayNameTra" fs RNone (tr_name t) /\ field_value "mDescriptionNameTra" fs RNone (tr_desc t) /\
  (exists r, field_value "mIconPath" fs RNone r /\ text r (tr_icon t)) /\
  exists innate common, field_list "InnateTraitSets" fs innate /\ common_effects innate common /\
    ((exists r l, present "mTraitSets" fs r /\ elements r l /\ Forall2 (effect_of "mMinUnits" "mMaxUnits" "mStyle" common) l (tr_effects t))
     \/ missing "mTraitSets" fs /\ exists l, field_list "mConditionalTraitSets" fs l /\ Forall2 (effect_of "MinUnits" "MaxUnits" "Style" common) l (tr_effects t)).

(** A table indexed by paths: what is computed from the last entry with this path. *)
Definition table_of {A} (P : bentry -> Prop) (Q : bentry -> A -> Prop) (es : list bentry) (d : list (N * A)) : Prop :=
  forall h, (forall a, dget h d = Some a -> exists x, last_entry P es h x /\ Q x a) /\ (forall x, last_entry P es h x -> exists a, dget h d = Some a /\ Q x a).

(** ** Sets *)

Definition character_entry (x : bentry) : Prop := kind "Character" x \/ kind "TftCharacter" x.
Definition character_list (x : bentry) : Prop := kind "MapCharacterList" x \/ kind "TftCharacterList" x.
(** A key designates the last entry with this path. *)
Definition at_key (P : bentry -> Prop) (es : list bentry) (v : bval) (x : bentry) : Prop := exists h, refers v h /\ last_entry P es h x.
Definition lower_name (x : bentry) (n : str) : Prop := exists s, field_value "name" (be_fields x) RNone (RVal (VStr s)) /\ n = plower s.
Definition characters (es : list bentry) (x : bentry) (l : list str) : Prop :=
  exists r vs, field_value "Characters" (be_fields x) RNone r /\ elements r vs /\ gathers (at_key character_entry es) (fun c ns => exists n, ns = [n] /\ lower_name c n) vs l.
(** A trait of one of the lists. *)
Definition listed_trait (es : list bentry) (lists : list bval) (h : N) : Prop :=
  exists v x r vs w, In v lists /\ at_key (kind "TftTraitList") es v x /\ field_value "mTraits" (be_fields x) RNone r /\ elements r vs /\ In w vs /\ refers w h.
(** An item of one of the lists; [augment] tells its kind. *)
Definition listed_item (es : list bentry) (lists : list bval) (augment : bool) (n : pyres) : Prop :=
  exists v x vs w i a, In v lists /\ at_key (kind "TFTItemList") es v x /\ field_list "mItems" (be_fields x) vs /\ In w vs /\ at_key (kind "TftItemData") es w i /\
    field_value "IsAugment" (be_fields i) RNone a /\ (falsy a <-> augment = false) /\ field_value "mName" (be_fields i) RNone n.
(** Names in increasing order, without repetition. *)
Definition sorted_set (l : list pyres) : Prop :=
  (exists ss, l = map (fun s => RVal (VStr s)) ss /\ StronglySorted (fun a b => str_lt a b = true) ss) \/ l = [RNone].
(** The lists of a set which is not skipped. *)
Definition set_lists (x : bentry) (chars : list bval) (traits : list bval) : Prop :=
  (exists c1 c2, field_value "characterLists" (be_fields x) (RList []) (RList c1) /\ field_value "tftCharacterLists" (be_fields x) (RList []) (RList c2) /\ chars = c1 ++ c2) /\
  chars <> [] /\ exists r, field_value "TraitLists" (be_fields x) RNone r /\ r <> RNone /\ elements r traits.
Definition set_name (x : bentry) (n : pyres) : Prop :=
  exists d v fs, field_value "ScriptData" (be_fields x) RNone (RDict d) /\ (exists d1 d2, d = d1 ++ (VStr (lit "SetName"), v) :: d2 /\ forall w, ~ In (VStr (lit "SetName"), w) d1) /\
    object_fields v = Some fs /\ field_value "mValue" fs RNone n.
Definition set_of_entry (es : list bentry) (x : bentry) (s : tset) : Prop :=
  exists chars traits items, set_lists x chars traits /\ field_list "ItemLists" (be_fields x) items /\
  field_value "number" (be_fields x) RNone (ts_number s) /\ ts_number s <> RNone /\ set_name x (ts_name s) /\ ts_name s <> RNone /\
  (exists m, field_value "Mutator" (be_fields x) RNone m /\ (m <> RNone /\ ts_mutator s = m \/ m = RNone /\ field_value "name" (be_fields x) RNone (ts_mutator s))) /\
  gathers (at_key character_list es) (characters es) chars (ts_chars s) /\
  NoDup (ts_traits s) /\ (forall h, In h (ts_traits s) <-> listed_trait es traits h /\ exists y, In y es /\ trait_entry y /\ be_path y = h) /\
  sorted_set (ts_augments s) /\ (forall n, In n (ts_augments s) <-> listed_item es items true n) /\
  sorted_set (ts_items s) /\ (forall n, In n (ts_items s) <-> listed_item es items false n).
(** A set which is skipped: no list of characters or of traits, no number or no name. *)
Definition skipped_set (x : bentry) : Prop :=
  (field_value "characterLists" (be_fields x) (RList []) (RList []) /\ field_value "tftCharacterLists" (be_fields x) (RList []) (RList [])) \/
  field_value "TraitLists" (be_fields x) RNone RNone \/ field_value "number" (be_fields x) RNone RNone \/ set_name x RNone.
(** A set which can be parsed: it is skipped, or it and the entries of its lists have lists, and its augments (its other
    items) have names or none has one. *)
Definition usual_set (es : list bentry) (x : bentry) : Prop :=
  exists c1 c2, field_value "characterLists" (be_fields x) (RList []) (RList c1) /\ field_value "tftCharacterLists" (be_fields x) (RList []) (RList c2) /\
  (c1 ++ c2 = [] \/ field_value "TraitLists" (be_fields x) RNone RNone \/
   exists n, set_name x n /\
   (n = RNone \/ field_value "number" (be_fields x) RNone RNone \/
    (forall v y, In v (c1 ++ c2) -> at_key character_list es v y -> exists r vs, field_value "Characters" (be_fields y) RNone r /\ elements r vs) /\
    (exists r l, field_value "TraitLists" (be_fields x) RNone r /\ elements r l /\
       forall v y, In v l -> at_key (kind "TftTraitList") es v y -> exists r vs, field_value "mTraits" (be_fields y) RNone r /\ elements r vs) /\
    exists l, field_list "ItemLists" (be_fields x) l /\ (forall v y, In v l -> at_key (kind "TFTItemList") es v y -> exists vs, field_list "mItems" (be_fields y) vs) /\
      forall augment, (forall n, listed_item es l augment n -> exists s, n = RVal (VStr s)) \/ (forall n, listed_item es l augment n -> n = RNone))).
End Tft.
