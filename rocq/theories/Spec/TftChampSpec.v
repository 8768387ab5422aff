(** * Specification of the TFT champions *)

From Verif Require Import Base.Py Base.Text Spec.DictSpec Spec.BinAccessSpec Spec.GameDataSpec Spec.TftSpec Model.BinFile Model.Tft.

(** The field [s], or else the field [s']. *)
Definition prefer (s s' : String.string) (fs : list bfield) (default r : pyres) : Prop := present s fs r \/ missing s fs /\ field_value s' fs default r.
Arguments prefer (s s')%string_scope.
(** The field [BaseValue] of the object in the field [s], or else the field [s']. *)
Inductive base_value (s s' : String.string) (fs : list bfield) (default : pyres) : pyres -> Prop :=
| BV_plain r : field_value s fs RNone RNone -> field_value s' fs default r -> base_value s s' fs default r
| BV_object v o r : field_value s fs RNone (RVal v) -> object_fields v = Some o -> field_value "BaseValue" o default r -> base_value s s' fs default r.
Arguments base_value (s s')%string_scope.
Definition num (z : Z) : pyres := RVal (VInt z).
Arguments num z%Z_scope.
(** The mana is 100 by default. *)
Inductive mana_of (fs : list bfield) : pyres -> Prop :=
| MA_none : field_value "primaryAbilityResource" fs RNone RNone -> mana_of fs (num 100)
| MA_old v o r : field_value "primaryAbilityResource" fs RNone (RVal v) -> object_fields v = Some o -> value_at 1919870413 o RNone RNone -> field_value "arBase" o (num 100) r -> mana_of fs r
| MA_new v o w o' r : field_value "primaryAbilityResource" fs RNone (RVal v) -> object_fields v = Some o -> value_at 1919870413 o RNone (RVal w) -> object_fields w = Some o' ->
    field_value "BaseValue" o' (num 100) r -> mana_of fs r.
(** The cost is the tier, or else the rarity and one more, and one more for the highest ones. *)
Inductive cost (record champ : list bfield) : pyres -> Prop :=
| CO_tier t : field_value "tier" record RNone t -> t <> RNone -> cost record champ t
| CO_rarity z : field_value "tier" record RNone RNone -> field_value "mRarity" champ (num 0) (num z) -> cost record champ (num (z + 1 + Z.quot (z + 1) 6)).
(** What follows the last slash. *)
Definition after_slash (s t : str) : Prop := ~ In cSlash t /\ (s = t \/ exists a, s = a ++ cSlash :: t).
(** A first text. *)
Inductive first_text : pyres -> str -> Prop :=
| FT_list s l : first_text (RList (VStr s :: l)) s
| FT_str c s : first_text (RVal (VStr (c :: s))) [c].
(** The first hash which is not zero. *)
Inductive first_hash : list bval -> option N -> Prop :=
| FH_none : first_hash [] None
| FH_zero v l o : hash_value v 0 -> first_hash l o -> first_hash (v :: l) o
| FH_hash v h l : hash_value v h -> h <> 0 -> first_hash (v :: l) (Some h).
(** The value of the key [s] of a map. *)
Definition map_value (d : list (bval * bval)) (s : String.string) (r : pyres) : Prop :=
  (exists d1 d2 v, d = d1 ++ (VStr (lit s), v) :: d2 /\ (forall w, ~ In (VStr (lit s), w) d1) /\ r = RVal v) \/ (forall w, ~ In (VStr (lit s), w) d) /\ r = RNone.
Arguments map_value d s%string_scope r.
(** A text, or else a value. *)
Definition text_or (text : pyres -> str -> Prop) (a b r : pyres) : Prop := exists s, text a s /\ (s <> [] /\ r = RVal (VStr s) \/ s = [] /\ r = b).
Definition value_or (a b r : pyres) : Prop := ~ falsy a /\ r = a \/ falsy a /\ r = b.
(** [x] is the first element such that ... *)
Definition first_one {A} (P : A -> Prop) (l : list A) (x : A) : Prop := exists pre post, l = pre ++ x :: post /\ P x /\ forall y, In y pre -> ~ P y.

Section Champ.
Variable nm : names.
Variable repr : pyres -> str.
Variable plower : str -> str.
Variable exists_bin : str -> bool.
Variable load_bin : str -> result (list bentry).
Variable fdiv : N -> bval.
Variable dir : str.
Notation text := (text_of nm repr).
Notation kind := (of_kind nm).

(** The file of a champion: the exported one, or else the original one. *)
Inductive file_of (name : str) : str -> Prop :=
| FO_new : exists_bin (path_join (path_join dir (lit "characters")) (name ++ lit ".cdtb.bin")) = true -> file_of name (path_join (path_join dir (lit "characters")) (name ++ lit ".cdtb.bin"))
| FO_old : exists_bin (path_join (path_join dir (lit "characters")) (name ++ lit ".cdtb.bin")) = false ->
    exists_bin (path_join (path_join (path_join (path_join dir (lit "data")) (lit "characters")) name) (name ++ lit ".bin")) = true ->
    file_of name (path_join (path_join (path_join (path_join dir (lit "data")) (lit "characters")) name) (name ++ lit ".bin")).

(** The spells of a record. *)
Inductive spell_of (record : list bfield) : (bentry -> Prop) -> Prop :=
| SP_path r l o : present "spells" record r -> elements r l -> first_hash l o -> spell_of record (fun x => o = Some (be_path x))
| SP_name r s t : missing "spells" record -> present "spellNames" record r -> first_text r s -> after_slash s t ->
    spell_of record (fun x => exists n, field_value "mScriptName" (be_fields x) (RVal (VStr [])) (RVal (VStr n)) /\ plower n = plower t).
Definition variable_of (v : bval) (nv : pyres * pyres) : Prop :=
  exists fs, object_fields v = Some fs /\ prefer "name" "mName" fs RNone (fst nv) /\ prefer "values" "mValues" fs RNone (snd nv).
Definition loc_path : list bkey := [KStr (lit "mClientData"); KStr (lit "mTooltipData"); KStr (lit "mLocKeys")].
(** The variables of a spell and its keys. *)
Inductive spell_keys (a : list bfield) : pyres -> pyres -> Prop :=
| SK_map v d n t : follows a loc_path v -> plain_value v (RDict d) -> d <> [] -> map_value d "keyName" n -> map_value d "keyTooltip" t -> spell_keys a n t
| SK_none : (forall v r, follows a loc_path v -> plain_value v r -> falsy r) -> spell_keys a RNone RNone.
Inductive spell_values (es : list bentry) (want : bentry -> Prop) : list (pyres * pyres) -> pyres -> pyres -> Prop :=
| SV_none : (forall x, In x es -> kind "SpellObject" x -> ~ want x) -> spell_values es want [] RNone RNone
| SV_some x v a r l vars n t : first_one (fun x => kind "SpellObject" x /\ want x) es x -> field_value "mSpell" (be_fields x) RNone (RVal v) -> object_fields v = Some a ->
    prefer "DataValues" "mDataValues" a (RList []) r -> elements r l -> Forall2 variable_of l vars -> spell_keys a n t -> spell_values es want vars n t.

(** The keys of the traits of a champion. *)
Inductive trait_keys : list bval -> list bval -> Prop :=
| TK_nil : trait_keys [] []
| TK_object h fs fs' l r : picks (fun f => has_name (n_field nm) "TraitData" (fst (fst f))) fs fs' -> trait_keys l r -> trait_keys (VEmbedded h fs :: l) (map snd fs' ++ r)
| TK_hash v h l r : hash_value v h -> trait_keys l r -> trait_keys (v :: l) (VInt (Z.of_N h) :: r).
(** The range, in cells. *)
Inductive cells : pyres -> pyres -> Prop :=
| CE_int z : cells (num z) (num (z / 180))
| CE_float f : cells (RVal (VFloat f)) (RVal (fdiv f)).

Definition stats_of (record : list bfield) (stats : list (str * pyres)) : Prop :=
  exists hp mana initial damage armor mr crit chance speed range range',
  stats = [(lit "hp", hp); (lit "mana", mana); (lit "initialMana", initial); (lit "damage", damage); (lit "armor", armor); (lit "magicResist", mr);
    (lit "critMultiplier", crit); (lit "critChance", chance); (lit "attackSpeed", speed); (lit "range", range)] /\
  base_value "baseHPModifiable" "baseHP" record RNone hp /\ mana_of record mana /\ field_value "mInitialMana" record (num 0) initial /\
  base_value "baseDamageModifiable" "BaseDamage" record RNone damage /\ base_value "baseArmorModifiable" "baseArmor" record RNone armor /\
  base_value "baseMR" "baseSpellBlock" record RNone mr /\ field_value "critDamageMultiplier" record RNone crit /\ field_value "baseCritChance" record RNone chance /\
  base_value "attackSpeedModifiable" "attackSpeed" record RNone speed /\ base_value "attackRangeModifiable" "attackRange" record (num 0) range' /\ cells range' range.

(** The role designated by the record. *)
Definition role_of (es : list bentry) (record : list bfield) (role : pyres) : Prop :=
  field_value "CharacterRole" record RNone RNone /\ role = RNone \/
  exists v y, field_value "CharacterRole" record RNone (RVal v) /\ at_key (kind "TFTCharacterRoleData") es v y /\ field_value "name" (be_fields y) RNone role.

Definition shop_name (x : bentry) (n : str) : Prop := exists s, field_value "mName" (be_fields x) RNone (RVal (VStr s)) /\ n = plower s.
(** The record of a champion which is kept, with the entries of its file. *)
Definition record_of (x : bentry) (es : list bentry) (rec : bentry) : Prop :=
  kind "TftShopData" x /\ exists n file, shop_name x n /\ n <> lit "tft_template" /\ file_of n file /\ load_bin file = Ok es /\ first_one (kind "TFTCharacterRecord") es rec /\
  ~ (missing "spells" (be_fields rec) /\ missing "spellNames" (be_fields rec)).
(** A champion, from the entries [map22] and those of its file. *)
Definition champ_of (map22 : list bentry) (x : bentry) (c : champ) : Prop :=
  exists es rec, record_of x es rec /\ let fs := be_fields x in let record := be_fields rec in
  field_value "mName" fs RNone (ch_api c) /\ field_value "mCharacterName" record RNone (ch_character c) /\ field_value "mDisplayNameTra" fs RNone (ch_name c) /\
  cost record fs (ch_cost c) /\ role_of map22 record (ch_role c) /\ stats_of record (ch_stats c) /\
  (exists a b, field_value "PcSplashPath" fs RNone a /\ field_value "mIconPath" fs RNone b /\ text_or text a b (ch_icon c)) /\
  (exists a, field_value "TeamPlannerPortraitPath" fs RNone a /\ text a (ch_tile c)) /\ (exists a, field_value "SquareSplashPath" fs RNone a /\ text a (ch_square c)) /\
  (exists l keys, field_list "mLinkedTraits" record l /\ trait_keys l keys /\
     gathers (at_key (trait_entry nm) map22) (fun t ns => exists n, ns = [n] /\ field_value "mDisplayNameTra" (be_fields t) RNone n) keys (ch_traits c)) /\
  exists want kname ktip, spell_of record want /\ spell_values es want (ab_vars (ch_ability c)) kname ktip /\
  (exists a, field_value "mAbilityNameTra" fs RNone a /\ value_or a kname (ab_name (ch_ability c))) /\
  (exists a, field_value "mDescriptionTra" fs RNone a /\ value_or a ktip (ab_desc (ch_ability c))) /\
  exists a b, field_value "AbilityIconPath" fs RNone a /\ field_value "mPortraitIconPath" fs RNone b /\ text_or text a b (ab_icon (ch_ability c)).
(** A champion which is kept. *)
Definition champ_entry (x : bentry) : Prop := exists es rec, record_of x es rec.
(** The spells of a file can be looked through: script names are texts, and the localized keys are either found or missing. *)
Definition usable_spells (es : list bentry) : Prop := forall x, In x es -> kind "SpellObject" x ->
  (exists n, field_value "mScriptName" (be_fields x) (RVal (VStr [])) (RVal (VStr n))) /\
  forall v a, field_value "mSpell" (be_fields x) RNone (RVal v) -> object_fields v = Some a -> misses a loc_path \/ exists w, follows a loc_path w.
(** What is needed of the entry of a champion: a name and, when it is kept, the data which are described above. *)
Definition champ_ready (map22 : list bentry) (x : bentry) : Prop := exists s, field_value "mName" (be_fields x) RNone (RVal (VStr s)) /\
  forall file, plower s <> lit "tft_template" -> file_of (plower s) file -> exists es, load_bin file = Ok es /\ usable_spells es /\ (champ_entry x -> exists c, champ_of map22 x c).
End Champ.
