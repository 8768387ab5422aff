(** * cdtb/tftdata.py:26-375: TFT data

    Parameters: those of GameData; [plower] is [str.lower]; [exists_bin], [load_bin] look for the BIN files of
    champions and read them; [fdiv] is the division of a float by 180; [set_order] is the order of a set.
    Simplifications: names of items and traits are strings or absent (another type raises TypeError); the rarity and
    the range are numbers; an object instead of a map of localized keys raises TypeError (in Python the error comes
    when writing the JSON file). *)

From Verif Require Import Model.Rst.
From Verif Require Export Model.GameData Model.Translations.

Record effect := { ef_min : pyres; ef_max : pyres; ef_style : pyres; ef_vars : list (str * pyres) }.
Record trait := { tr_api : pyres; tr_name : pyres; tr_desc : pyres; tr_icon : str; tr_effects : list effect }.
Record titem := { ti_id : pyres; ti_name : pyres; ti_api : pyres; ti_desc : pyres; ti_icon : str; ti_augment : pyres; ti_unique : pyres;
  ti_composition : list pyres; ti_associated : list pyres; ti_incompatible : list pyres; ti_effects : list (str * pyres); ti_tags : list str;
  ti_from : option (list pyres) }.
Record ability := { ab_name : pyres; ab_desc : pyres; ab_icon : pyres; ab_vars : list (pyres * pyres) }.
Record champ := { ch_api : pyres; ch_character : pyres; ch_name : pyres; ch_cost : pyres; ch_icon : pyres; ch_tile : str; ch_square : str;
  ch_traits : list pyres; ch_role : pyres; ch_stats : list (str * pyres); ch_ability : ability }.
(** A set: [ts_chars] are names, [ts_traits] are paths (the traits are shared between sets). *)
Record tset := { ts_number : pyres; ts_mutator : pyres; ts_name : pyres; ts_chars : list str; ts_traits : list N; ts_augments : list pyres; ts_items : list pyres }.

(** [d | d'] *)
Definition dunion {V} (d d' : list (str * V)) : list (str * V) := fold_left (fun d kv => dset (fst kv) (snd kv) d) d' d.

(** [for x in l: ...] where the body may skip, and adds to a dictionary *)
Fixpoint dict_loop {A K V} `{EqDec K} (f : A -> result (option (K * V))) (l : list A) (d : list (K * V)) : result (list (K * V)) :=
  match l with
  | [] => Ok d
  | x :: t => let! o := f x in dict_loop f t (match o with Some (k, v) => dset k v d | None => d end)
  end.
(** The same with a list. *)
Fixpoint list_loop {A B} (f : A -> result (option B)) (l : list A) : result (list B) :=
  match l with
  | [] => Ok []
  | x :: t => let! o := f x in let! r := list_loop f t in Ok (match o with Some y => y :: r | None => r end)
  end.

Section Tft.
Variable nm : names.
Variable repr : pyres -> str.
Variable plower : str -> str.

Notation str_of := (py_str nm repr).
Notation typed s := (of_type nm (lit s)).

(** Lines 26-33 *)
Definition collect_effects (fs : list bfield) : result (list (str * pyres)) :=
  let! has := contains fs (fld "effectAmounts") in
  if has : bool then
    let! l := getn fs (fld "effectAmounts") in
    let! l := py_iter l in
    rmap dict_of (rmapM (fun e => let! o := bobj e in let! n := getn o (fld "name") in let! v := getn o (fld "value") in Ok (str_of n, v)) l)
  else
    let! has := contains fs (fld "constants") in
    if has : bool then
      let! c := getn fs (fld "constants") in
      let! o := obj c in
      let! d := getd o (KInt 0xdf085b93) (RDict []) in
      match d with
      | RDict d => rmap dict_of (rmapM (fun kv => let! o := bobj (snd kv) in let! v := getn o (fld "mValue") in Ok (str_of (RVal (fst kv)), v)) d)
      | _ => Err AttributeError
      end
    else Ok [].

(** A name on which [in] is used. *)
Definition name_str (r : pyres) : result str := match r with RVal (VStr s) => Ok s | _ => Err TypeError end.
(** A name on which [lower] is called. *)
Definition name_lower (r : pyres) : result str := match r with RVal (VStr s) => Ok (plower s) | _ => Err AttributeError end.

(** Lines 340-375 *)
Definition parse_effect (prefix : str) (base : list (str * pyres)) (v : bval) : result effect :=
  let! o := bobj v in
  let! a := getn o (KStr (prefix ++ lit "MinUnits")) in
  let! b := getn o (KStr (prefix ++ lit "MaxUnits")) in
  let! s := getd o (KStr (prefix ++ lit "Style")) (RVal (VInt 1)) in
  let! e := collect_effects o in
  Ok {| ef_min := a; ef_max := py_or b (RVal (VInt 25000)); ef_style := s; ef_vars := dunion base e |}.
Fixpoint base_effects (l : list bval) (d : list (str * pyres)) : result (list (str * pyres)) :=
  match l with
  | [] => Ok d
  | v :: t => let! o := bobj v in let! e := collect_effects o in base_effects t (dunion d e)
  end.
Definition parse_trait (x : bentry) : result (option (N * trait)) :=
  let fs := be_fields x in
  let! n := getn fs (fld "mName") in
  let! s := name_str n in
  if has_sub (lit "Template") s then Ok None else
  let! inn := getd fs (fld "InnateTraitSets") (RList []) in
  let! inn := py_iter inn in
  let! base := base_effects inn [] in
  let! has := contains fs (fld "mTraitSets") in
  let! sets := (if has : bool then getn fs (fld "mTraitSets") else getd fs (fld "mConditionalTraitSets") (RList [])) in
  let! sets := py_iter sets in
  let! effects := rmapM (parse_effect (if has then lit "m" else []) base) sets in
  let! dn := getn fs (fld "mDisplayNameTra") in
  let! dd := getn fs (fld "mDescriptionNameTra") in
  let! di := getn fs (fld "mIconPath") in
  Ok (Some (be_path x, {| tr_api := n; tr_name := dn; tr_desc := dd; tr_icon := str_of di; tr_effects := effects |})).
Definition parse_traits (es : list bentry) : result (list (N * trait)) :=
  dict_loop parse_trait (filter (typed "TftTraitData") es) [].

(** Lines 121-124 *)
Definition parse_character_names (es : list bentry) : result (list (N * str)) :=
  dict_loop (fun x => let! n := getn (be_fields x) (fld "name") in let! s := name_lower n in Ok (Some (be_path x, s)))
    (filter (fun x => typed "Character" x || typed "TftCharacter" x) es) [].

(** *** Sets: lines 126-193 *)

(** Lines 136-143: the list which is the first field of the entry with the longest one. *)
Definition longest (l : list bentry) : result unit :=
  let! _ := rmapM (fun x => match be_fields x with [] => Err IndexError | f :: _ => py_len (f_value f) end) l in
  match l with [] => Err ValueError | _ => Ok tt end.

(** [sorted] of a set of names *)
Definition opt_name (r : pyres) : result (option str) :=
  match r with RVal (VStr s) => Ok (Some s) | RNone => Ok None | _ => Err TypeError end.
Definition sorted_names (l : list pyres) : result (list pyres) :=
  let! l := rmapM opt_name l in
  match set_of l with
  | [None] => Ok [RNone]
  | s => let! s := rmapM (of_opt TypeError) s in Ok (map (fun x => RVal (VStr x)) (py_sorted str_lt s))
  end.

(** The lists [a + b] *)
Definition py_concat (a b : pyres) : result (list bval) :=
  match a, b with RList x, RList y => Ok (x ++ y) | _, _ => Err TypeError end.

(** Line 158: the object with key "SetName" in a map. *)
Definition set_name_of (info : pyres) : result pyres :=
  match info with
  | RDict d => match find (fun kv => key_eq (VStr (lit "SetName")) (fst kv)) d with
               | Some (_, v) => let! o := bobj v in getn o (fld "mValue")
               | None => Err KeyError
               end
  | RVal (VStruct _ fs) | RVal (VEmbedded _ fs) => let! _ := getitem fs (fld "SetName") in Err AttributeError
  | _ => Err TypeError
  end.

(** [for x in l: if x not in d: continue; r += f(d[x])] *)
Fixpoint collect {A B} (d : list (N * A)) (f : A -> result (list B)) (l : list bval) : result (list B) :=
  match l with
  | [] => Ok []
  | v :: t => match hget v d with
              | None => collect d f t
              | Some x => let! a := f x in let! r := collect d f t in Ok (a ++ r)
              end
  end.

Variable set_order : list N -> list N.

(** Lines 162-187: what the lists of characters, traits, items give. *)
Definition set_characters (character_names : list (N * str)) (x : bentry) : result (list str) :=
  let! l := getn (be_fields x) (fld "Characters") in
  let! l := py_iter l in
  Ok (flat_map (fun c => match hget c character_names with Some n => [n] | None => [] end) l).
Definition set_trait_paths (x : bentry) : result (list bval) := let! l := getn (be_fields x) (fld "mTraits") in py_iter l.
Definition set_item_name (x : bentry) : result (list (bool * pyres)) :=
  let! a := getn (be_fields x) (fld "IsAugment") in
  let! n := getn (be_fields x) (fld "mName") in
  let! _ := opt_name n in
  Ok [(py_true a, n)].
Definition set_item_names (item_entries : list (N * bentry)) (x : bentry) : result (list (bool * pyres)) :=
  let! l := getd (be_fields x) (fld "mItems") (RList []) in
  let! l := py_iter l in
  collect item_entries set_item_name l.

(** Lines 146-192; [None]: the set is skipped. *)
Definition parse_set (es : list bentry) (character_names : list (N * str)) (traits : list (N * trait)) (item : bentry) : result (option tset) :=
  let character_lists := by_path (filter (fun x => typed "MapCharacterList" x || typed "TftCharacterList" x) es) in
  let trait_lists := by_path (filter (typed "TftTraitList") es) in
  let item_lists := by_path (filter (typed "TFTItemList") es) in
  let item_entries := by_path (filter (typed "TftItemData") es) in
  let fs := be_fields item in
  let! number := getn fs (fld "number") in
  let! mutator := getn fs (fld "Mutator") in
  let! mutator := (if is_none mutator then getn fs (fld "name") else Ok mutator) in
  let! c1 := getd fs (fld "characterLists") (RList []) in
  let! c2 := getd fs (fld "tftCharacterLists") (RList []) in
  let! char_lists := py_concat c1 c2 in
  if eqb (lenN char_lists) 0 then Ok None else
  let! tl := getn fs (fld "TraitLists") in
  if is_none tl then Ok None else
  let! info := getn fs (fld "ScriptData") in
  let! name := set_name_of info in
  if is_none number || is_none name then Ok None else
  let! chars := collect character_lists (set_characters character_names) char_lists in
  let! tl := py_iter tl in
  let! paths := collect trait_lists set_trait_paths tl in
  let keys := flat_map (fun v => match key_hash v with Some h => [h] | None => [] end) paths in
  let set_traits := filter (fun h => dhas h traits) (set_order (set_of keys)) in
  let! il := getd fs (fld "ItemLists") (RList []) in
  let! il := py_iter il in
  let! items := collect item_lists (set_item_names item_entries) il in
  let! augments := sorted_names (map snd (filter fst items)) in
  let! others := sorted_names (map snd (filter (fun x => negb (fst x)) items)) in
  Ok (Some {| ts_number := number; ts_mutator := mutator; ts_name := name; ts_chars := chars; ts_traits := set_traits; ts_augments := augments; ts_items := others |}).
(** [None]: the old format, a list of one tuple of four elements. *)
Definition parse_sets (es : list bentry) (character_names : list (N * str)) (traits : list (N * trait)) : result (option (list tset)) :=
  match filter (typed "TFTSetData") es with
  | [] =>
    let! _ := longest (map snd (by_path (filter (fun x => typed "MapCharacterList" x || typed "TftCharacterList" x) es))) in
    let! _ := longest (map snd (by_path (filter (typed "TftTraitList") es))) in
    Ok None
  | sets => rmap Some (list_loop (parse_set es character_names traits) sets)
  end.

(** *** Items: lines 195-241 *)

Definition hashes_of (fs : list bfield) (k : bkey) : result (list N) :=
  let! l := getd fs k (RList []) in let! l := py_iter l in rmapM attr_h l.
(** Lines 204-225, with the hashes still to be replaced: path, item, composition, associated and incompatible traits. *)
Definition raw_item : Type := N * titem * (list N * list N * list N).
Definition parse_item (x : bentry) : result (option raw_item) :=
  let fs := be_fields x in
  let! n := getn fs (fld "mName") in
  let! s := name_str n in
  if has_sub (lit "Template") s || eqb s (lit "TFT_Item_Null") then Ok None else
  let! id := getn fs (fld "mId") in
  let! name := getn fs (fld "mDisplayNameTra") in
  let! desc := getn fs (fld "mDescriptionNameTra") in
  let! icon := getn fs (fld "mIconPath") in
  let! aug := getd fs (fld "IsAugment") (RVal (VBool false)) in
  let! uniq := getd fs (fld "mIsUnique") (RVal (VBool false)) in
  let! comp := hashes_of fs (fld "mComposition") in
  let! assoc := hashes_of fs (fld "AssociatedTraits") in
  let! incomp := hashes_of fs (fld "IncompatibleTraits") in
  let! eff := collect_effects fs in
  let! tags := getd fs (fld "ItemTags") (RList []) in
  let! tags := py_iter tags in
  Ok (Some (be_path x, {| ti_id := id; ti_name := name; ti_api := n; ti_desc := desc; ti_icon := str_of icon; ti_augment := aug; ti_unique := uniq;
    ti_composition := []; ti_associated := []; ti_incompatible := []; ti_effects := eff; ti_tags := map (fun v => str_of (RVal v)) tags; ti_from := None |},
    (comp, assoc, incomp))).
(** Lines 230-240 *)
Definition link_item (by_hash : list (N * titem)) (traits_by_hash : list (N * pyres)) (r : raw_item) : result titem :=
  let '(_, i, (comp, assoc, incomp)) := r in
  let item h := of_opt KeyError (dget h by_hash) in
  let trait h := of_opt KeyError (dget h traits_by_hash) in
  let! from := (if is_none (ti_id i) then Ok None else rmap Some (rmapM (fun h => rmap ti_id (item h)) comp)) in
  let! comp := rmapM (fun h => rmap ti_api (item h)) comp in
  let! incomp := rmapM trait incomp in
  let! assoc := rmapM trait assoc in
  Ok {| ti_id := ti_id i; ti_name := ti_name i; ti_api := ti_api i; ti_desc := ti_desc i; ti_icon := ti_icon i; ti_augment := ti_augment i; ti_unique := ti_unique i;
    ti_composition := comp; ti_associated := assoc; ti_incompatible := incomp; ti_effects := ti_effects i; ti_tags := ti_tags i; ti_from := from |}.
Definition parse_items (es : list bentry) : result (list titem) :=
  let! traits_by_hash := rmap dict_of (rmapM (fun x => let! n := getn (be_fields x) (fld "mName") in Ok (be_path x, n)) (filter (typed "TftTraitData") es)) in
  let! raw := list_loop parse_item (filter (typed "TftItemData") es) in
  let by_hash := dict_of (map (fun r : raw_item => (fst (fst r), snd (fst r))) raw) in
  rmapM (link_item by_hash traits_by_hash) raw.

(** *** Champions: lines 243-338 *)

Variable exists_bin : str -> bool.
Variable load_bin : str -> result (list bentry).
Variable fdiv : N -> bval.
Variable input_dir : str.

(** Lines 256-263 *)
Definition champ_file (name : str) : option str :=
  let p := path_join (path_join input_dir (lit "characters")) (name ++ lit ".cdtb.bin") in
  let q := path_join (path_join (path_join (path_join input_dir (lit "data")) (lit "characters")) name) (name ++ lit ".bin") in
  if exists_bin p then Some p else if exists_bin q then Some q else None.

(** Lines 267-275: how the spell is found; [None]: the champion is skipped. *)
Inductive spell_match := ByPath (ref : option N) | ByName (s : str).
Fixpoint first_ref (l : list bval) : result (option N) :=
  match l with
  | [] => Ok None
  | v :: t => let! h := attr_h v in if h =? 0 then first_ref t else Ok (Some h)
  end.
Definition last_part (s : str) : str := match cut_last cSlash s with Some (_, b) => b | None => s end.
Definition find_match (record : list bfield) : result (option spell_match) :=
  let! has := contains record (fld "spells") in
  if has : bool then
    let! l := getn record (fld "spells") in
    let! l := py_iter l in
    let! r := first_ref l in Ok (Some (ByPath r))
  else
    let! has := contains record (fld "spellNames") in
    if has : bool then
      let! l := getn record (fld "spellNames") in
      match l with
      | RList [] => Err IndexError
      | RList (VStr s :: _) => Ok (Some (ByName (plower (last_part s))))
      | RList _ => Err AttributeError
      | RVal (VStr (c :: _)) => Ok (Some (ByName (plower (last_part [c]))))
      | RVal (VStr []) => Err IndexError
      | _ => Err TypeError
      end
    else Ok None.
Definition matches (m : spell_match) (x : bentry) : result bool :=
  match m with
  | ByPath (Some h) => Ok (be_path x =? h)
  | ByPath None => Ok false
  | ByName s => let! n := getd (be_fields x) (fld "mScriptName") (RVal (VStr [])) in let! n := name_lower n in Ok (eqb n s)
  end.
Fixpoint find_spell (m : spell_match) (es : list bentry) : result (option bentry) :=
  match es with
  | [] => Ok None
  | x :: t => if typed "SpellObject" x then let! b := matches m x in if b : bool then Ok (Some x) else find_spell m t else find_spell m t
  end.

(** Lines 277-282: keys of the traits. *)
Definition linked_traits (record : list bfield) : result (list bval) :=
  let! l := getd record (fld "mLinkedTraits") (RList []) in
  let! l := py_iter l in
  rmap (@concat bval) (rmapM (fun v => match v with
    | VEmbedded _ fs => Ok (map f_value (filter (fun f => named (n_field nm) (f_name f) (lit "TraitData")) fs))
    | _ => let! h := attr_h v in Ok [VInt (Z.of_N h)]
    end) l).

(** Lines 286-297: variables, names of the keys. *)
Definition dict_str (d : list (bval * bval)) (s : str) : pyres :=
  match find (fun kv => key_eq (VStr s) (fst kv)) d with Some (_, v) => RVal v | None => RNone end.
Definition spell_data (es : list bentry) (m : spell_match) : result (list (pyres * pyres) * pyres * pyres) :=
  let! x := find_spell m es in
  match x with
  | None => Ok ([], RNone, RNone)
  | Some x =>
    let! a := getn (be_fields x) (fld "mSpell") in
    let! a := obj a in
    let! md := getd a (fld "mDataValues") (RList []) in
    let! dv := getd a (fld "DataValues") md in
    let! dv := py_iter dv in
    let! vars := rmapM (fun v => let! o := bobj v in
      let! n := getn o (fld "mName") in let! n := getd o (fld "name") n in
      let! w := getn o (fld "mValues") in let! w := getd o (fld "values") w in Ok (n, w)) dv in
    let! loc := get_path a [fld "mClientData"; fld "mTooltipData"; fld "mLocKeys"] in
    match loc with
    | RDict (kv :: d) => Ok (vars, dict_str (kv :: d) (lit "keyName"), dict_str (kv :: d) (lit "keyTooltip"))
    | _ => if py_true loc then Err (match loc with RVal (VStruct _ _) | RVal (VEmbedded _ _) => TypeError | _ => AttributeError end) else Ok (vars, RNone, RNone)
    end
  end.

(** [s.getv("BaseValue", d) if (s := record.getv(k)) is not None else record.getv(k', d)] *)
Definition modifiable (record : list bfield) (k base k' : bkey) (d : pyres) : result pyres :=
  let! s := getn record k in
  if is_none s then getd record k' d else let! o := obj s in getd o base d.
Definition cost_of (record champ : list bfield) : result pyres :=
  let! t := getn record (fld "tier") in
  if is_none t then
    let! r := getd champ (fld "mRarity") (RVal (VInt 0)) in
    match r with
    | RVal (VInt z) => let r := (z + 1)%Z in Ok (RVal (VInt (r + Z.quot r 6)))
    | _ => Err TypeError
    end
  else Ok t.
Definition range_of (r : pyres) : result pyres :=
  match r with
  | RVal (VInt z) => Ok (RVal (VInt (z / 180)))
  | RVal (VFloat f) => Ok (RVal (fdiv f))
  | _ => Err TypeError
  end.
(** [str(a) or b] *)
Definition str_or (a b : pyres) : pyres := match str_of a with [] => b | s => RVal (VStr s) end.

(** Lines 252-336 *)
Definition parse_champ (roles : list (N * bentry)) (traits : list (N * trait)) (x : bentry) : result (option (str * champ)) :=
  let fs := be_fields x in
  let! api := getn fs (fld "mName") in
  let! name := name_lower api in
  if eqb name (lit "tft_template") then Ok None else
  match champ_file name with None => Ok None | Some file =>
  let! es := load_bin file in
  match find (typed "TFTCharacterRecord") es with None => Ok None | Some rec =>
  let record := be_fields rec in
  let! m := find_match record in
  match m with None => Ok None | Some m =>
  let! keys := linked_traits record in
  let! (vars, kname, ktip) := spell_data es m in
  let! cost := cost_of record fs in
  let! rk := getn record (fld "CharacterRole") in
  let! role := (match rk with
    | RNone => Ok RNone
    | RVal v => match hget v roles with Some r => getn (be_fields r) (fld "name") | None => Err KeyError end
    | _ => Err TypeError
    end) in
  let! res := getn record (fld "primaryAbilityResource") in
  let! mana := (if is_none res then Ok (RVal (VInt 100))
    else let! o := obj res in modifiable o (KInt 0x726ee5cd) (fld "BaseValue") (fld "arBase") (RVal (VInt 100))) in
  let! character := getn record (fld "mCharacterName") in
  let! display := getn fs (fld "mDisplayNameTra") in
  let! splash := getn fs (fld "PcSplashPath") in
  let! icon := getn fs (fld "mIconPath") in
  let! tile := getn fs (fld "TeamPlannerPortraitPath") in
  let! square := getn fs (fld "SquareSplashPath") in
  let names := flat_map (fun v => match hget v traits with Some t => [tr_name t] | None => [] end) keys in
  let! hp := modifiable record (fld "baseHPModifiable") (fld "BaseValue") (fld "baseHP") RNone in
  let! initial := getd record (fld "mInitialMana") (RVal (VInt 0)) in
  let! damage := modifiable record (fld "baseDamageModifiable") (fld "BaseValue") (fld "BaseDamage") RNone in
  let! armor := modifiable record (fld "baseArmorModifiable") (fld "BaseValue") (fld "baseArmor") RNone in
  let! mr := modifiable record (fld "baseMR") (fld "BaseValue") (fld "baseSpellBlock") RNone in
  let! crit := getn record (fld "critDamageMultiplier") in
  let! chance := getn record (fld "baseCritChance") in
  let! speed := modifiable record (fld "attackSpeedModifiable") (fld "BaseValue") (fld "attackSpeed") RNone in
  let! range := modifiable record (fld "attackRangeModifiable") (fld "BaseValue") (fld "attackRange") (RVal (VInt 0)) in
  let! range := range_of range in
  let! aname := getn fs (fld "mAbilityNameTra") in
  let! adesc := getn fs (fld "mDescriptionTra") in
  let! aicon := getn fs (fld "AbilityIconPath") in
  let! picon := getn fs (fld "mPortraitIconPath") in
  Ok (Some (name, {| ch_api := api; ch_character := character; ch_name := display; ch_cost := cost; ch_icon := str_or splash icon;
    ch_tile := str_of tile; ch_square := str_of square; ch_traits := names; ch_role := role;
    ch_stats := [(lit "hp", hp); (lit "mana", mana); (lit "initialMana", initial); (lit "damage", damage); (lit "armor", armor); (lit "magicResist", mr);
      (lit "critMultiplier", crit); (lit "critChance", chance); (lit "attackSpeed", speed); (lit "range", range)];
    ch_ability := {| ab_name := py_or aname kname; ab_desc := py_or adesc ktip; ab_icon := str_or aicon picon; ab_vars := vars |} |}))
  end end end.
Definition parse_champs (es : list bentry) (traits : list (N * trait)) : result (list (str * champ)) :=
  dict_loop (parse_champ (by_path (filter (typed "TFTCharacterRoleData") es)) traits) (filter (typed "TftShopData") es) [].

(** *** Template: lines 40-59, 95-119

    Traits and champions are objects shared by the sets, items are not shared.  A set in the output is its data with the
    names of its champions; [tp_sets] is indexed by set numbers.  Simplification: numbers of different kinds (an integer
    and a boolean) are different. *)
Record template := { tp_traits : list (N * trait); tp_champs : list (str * champ); tp_sets : list (bval * (tset * list str));
  tp_data : list (tset * list str); tp_items : list titem }.
Fixpoint number_set (v : bval) (s : tset * list str) (d : list (bval * (tset * list str))) : list (bval * (tset * list str)) :=
  match d with
  | [] => [(v, s)]
  | (k, x) :: d' => if key_eq v k then (k, s) :: d' else (k, x) :: number_set v s d'
  end.
Fixpoint output_sets (data : list (tset * list str)) (d : list (bval * (tset * list str))) : result (list (bval * (tset * list str))) :=
  match data with
  | [] => Ok d
  | s :: t => match ts_number (fst s) with RVal v => output_sets t (number_set v s d) | _ => Err TypeError end
  end.
Definition build_template (es : list bentry) : result template :=
  let! character_names := parse_character_names es in
  let! traits := parse_traits es in
  let! sets := parse_sets es character_names traits in
  let! champs := parse_champs es traits in
  match sets with
  | None => Err ValueError
  | Some sets =>
    let data := map (fun s => (s, filter (fun n => dhas n champs) (ts_chars s))) sets in
    let! out := output_sets data [] in
    let! items := parse_items es in
    Ok {| tp_traits := traits; tp_champs := champs; tp_sets := out; tp_data := data; tp_items := items |}
  end.
End Tft.

(** ** Export: lines 61-93 *)

Section Export.
Variable xxh3 xxh64 : str -> N.
Variable plower : str -> str.
Variable tr : translations.

(** [replacements.get(v, v)]; a key which is neither text nor a number is not found, a list or a map raises TypeError for a
    dictionary. *)
Definition rkey_of (r : pyres) : rkey :=
  match r with
  | RVal (VStr s) => RStr s
  | RVal (VInt z) => RInt z
  | RVal (VBool b) => RInt (if b then 1 else 0)%Z
  | _ => ROther
  end.
Definition translation (r : pyres) : result (option str) :=
  match tr with
  | FromRst x => rst_get xxh3 xxh64 plower x (rkey_of r) None
  | FromText d =>
    match r with
    | RVal (VStr s) => Ok (dget s d)
    | RList _ | RDict _ => Err TypeError
    | _ => Ok None
    end
  end.
Definition replace (r : pyres) : result pyres :=
  let! o := translation r in Ok (match o with Some s => RVal (VStr s) | None => r end).

Definition replace_trait (t : trait) : result trait :=
  let! n := replace (tr_name t) in
  let! d := replace (tr_desc t) in
  Ok {| tr_api := tr_api t; tr_name := n; tr_desc := d; tr_icon := tr_icon t; tr_effects := tr_effects t |}.
Definition replace_ability (a : ability) : result ability :=
  let! n := replace (ab_name a) in
  let! d := replace (ab_desc a) in
  Ok {| ab_name := n; ab_desc := d; ab_icon := ab_icon a; ab_vars := ab_vars a |}.
Definition replace_champ (c : champ) : result champ :=
  let! n := replace (ch_name c) in
  let! ts := rmapM replace (ch_traits c) in
  let! a := replace_ability (ch_ability c) in
  Ok {| ch_api := ch_api c; ch_character := ch_character c; ch_name := n; ch_cost := ch_cost c; ch_icon := ch_icon c; ch_tile := ch_tile c; ch_square := ch_square c;
    ch_traits := ts; ch_role := ch_role c; ch_stats := ch_stats c; ch_ability := a |}.
Definition replace_item (i : titem) : result titem :=
  let! n := replace (ti_name i) in
  let! d := replace (ti_desc i) in
  Ok {| ti_id := ti_id i; ti_name := n; ti_api := ti_api i; ti_desc := d; ti_icon := ti_icon i; ti_augment := ti_augment i; ti_unique := ti_unique i;
    ti_composition := ti_composition i; ti_associated := ti_associated i; ti_incompatible := ti_incompatible i; ti_effects := ti_effects i; ti_tags := ti_tags i; ti_from := ti_from i |}.

(** Modify a shared object in place. *)
Definition dmodify {K V} `{EqDec K} (f : V -> result V) (k : K) (d : list (K * V)) : result (list (K * V)) :=
  match dget k d with None => Ok d | Some v => let! v := f v in Ok (dset k v d) end.
Fixpoint modify_all {K V} `{EqDec K} (f : V -> result V) (ks : list K) (d : list (K * V)) : result (list (K * V)) :=
  match ks with [] => Ok d | k :: t => let! d := dmodify f k d in modify_all f t d end.
Definition objects : Type := list (N * trait) * list (str * champ).
Definition replace_set (o : objects) (s : tset * list str) : result objects :=
  let! ts := modify_all replace_trait (ts_traits (fst s)) (fst o) in
  let! cs := modify_all replace_champ (snd s) (snd o) in
  Ok (ts, cs).
Fixpoint replace_sets (l : list (tset * list str)) (o : objects) : result objects :=
  match l with [] => Ok o | s :: t => let! o := replace_set o s in replace_sets t o end.
Definition translate (t : template) : result template :=
  let! o := replace_sets (map snd (tp_sets t)) (tp_traits t, tp_champs t) in
  let! (ts, cs) := replace_sets (tp_data t) o in
  let! is := rmapM replace_item (tp_items t) in
  Ok {| tp_traits := ts; tp_champs := cs; tp_sets := tp_sets t; tp_data := tp_data t; tp_items := is |}.
End Export.

(** What is written: the lists of a set, with the objects. *)
Record oset := { o_number : pyres; o_mutator : pyres; o_name : pyres; o_traits : list trait; o_champions : list champ; o_augments : list pyres; o_items : list pyres }.
Definition show_set (t : template) (s : tset * list str) : oset :=
  {| o_number := ts_number (fst s); o_mutator := ts_mutator (fst s); o_name := ts_name (fst s);
     o_traits := flat_map (fun h => match dget h (tp_traits t) with Some x => [x] | None => [] end) (ts_traits (fst s));
     o_champions := flat_map (fun n => match dget n (tp_champs t) with Some x => [x] | None => [] end) (snd s);
     o_augments := ts_augments (fst s); o_items := ts_items (fst s) |}.
(** "sets" (number; name, traits and champions), "setData", "items" *)
Definition output : Type := list (bval * oset) * list oset * list titem.
Definition show (t : template) : output :=
  (map (fun kv => (fst kv, show_set t (snd kv))) (tp_sets t), map (show_set t) (tp_data t), tp_items t).
