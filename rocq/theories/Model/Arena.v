(** * cdtb/arenadata.py: Arena data

    Parameters: those of GameData; [plower] is [str.lower].
    Simplification: the first element of a map or of an object raises KeyError. *)

From Verif Require Import Model.Rst Model.Translations Model.Tables Model.Tft.
From Verif Require Export Model.GameData.

Record augment := { au_id : pyres; au_api : pyres; au_name : pyres; au_desc : pyres; au_tooltip : pyres; au_small : str; au_large : str; au_rarity : pyres;
  au_values : list (pyres * pyres); au_calculations : pyval }.

(** [r[0]] *)
Definition py_first (r : pyres) : result pyres :=
  match r with
  | RList (v :: _) => Ok (RVal v)
  | RVal (VStr (c :: _)) => Ok (RVal (VStr [c]))
  | RVal (VInts (n :: _)) => Ok (RVal (VInt (Z.of_N n)))
  | RVal (VVec (f :: _)) => Ok (RVal (VFloat f))
  | RVal (VMatrix (r :: _)) => Ok (RVal (VVec r))
  | RList [] | RVal (VStr []) | RVal (VInts []) | RVal (VVec []) | RVal (VMatrix []) => Err IndexError
  | RDict _ | RVal (VStruct _ _) | RVal (VEmbedded _ _) => Err KeyError
  | _ => Err TypeError
  end.
(** [d[k] = v] *)
Definition res_eq (a b : pyres) : bool :=
  match a, b with RNone, RNone => true | RVal x, RVal y => key_eq x y | _, _ => false end.
Fixpoint res_set (k v : pyres) (d : list (pyres * pyres)) : list (pyres * pyres) :=
  match d with
  | [] => [(k, v)]
  | (k', x) :: t => if res_eq k k' then (k', v) :: t else (k', x) :: res_set k v t
  end.

Section Arena.
Variable nm : names.
Variable repr : pyres -> str.
Variable plower : str -> str.

(** Lines 69-70 *)
Definition data_value (v : bval) : result (pyres * pyres) :=
  let! o := bobj v in
  let! n := getn o (fld "mName") in
  let! n := getd o (fld "name") n in
  let! m := getd o (fld "mValues") (RList [VInt 0]) in
  let! m := py_first m in
  let! m := getd o (fld "values") m in
  Ok (n, m).
Fixpoint data_values (l : list bval) (d : list (pyres * pyres)) : result (list (pyres * pyres)) :=
  match l with
  | [] => Ok d
  | v :: t =>
    let! (n, m) := data_value v in
    match n with
    | RList _ | RDict _ => Err TypeError
    | _ => data_values t (res_set n m d)
    end
  end.
(** Lines 68-74 *)
Definition spell_values_of (spell : list bfield) : result (list (pyres * pyres) * pyval) :=
  let! old := getd spell (fld "mDataValues") (RList []) in
  let! l := getd spell (fld "DataValues") old in
  let! l := py_iter l in
  let! values := data_values l [] in
  let! calculations := match getitem spell (fld "mSpellCalculations") with
    | Ok f => ser nm (snd f)
    | Err KeyError => Ok (PObj [])
    | Err e => Err e
    end in
  Ok (values, calculations).

(** Lines 60-87 *)
Definition parse_augment (spells : list (N * bentry)) (x : bentry) : result (option augment) :=
  let fs := be_fields x in
  let! enabled := getd fs (fld "enabled") (RVal (VBool true)) in
  if negb (py_true enabled) then Ok None else
  let! ref := getn fs (fld "RootSpell") in
  let! (values, calculations) :=
    if py_true ref then
      let! y := match ref with
        | RVal v => match hget v spells with Some y => Ok y | None => Err KeyError end
        | RList _ | RDict _ => Err TypeError
        | _ => Err KeyError
        end in
      let! spell := getn (be_fields y) (fld "mSpell") in
      let! spell := obj spell in
      spell_values_of spell
    else Ok ([], PObj []) in
  let! id := getn fs (fld "AugmentPlatformId") in
  let! api := getn fs (fld "AugmentNameId") in
  let! name := getn fs (fld "NameTra") in
  let! desc := getn fs (fld "DescriptionTra") in
  let! tooltip := getn fs (fld "AugmentTooltipTra") in
  let! small := getn fs (fld "AugmentSmallIconPath") in
  let! large := getn fs (fld "AugmentLargeIconPath") in
  let! rarity := getd fs (fld "rarity") (RVal (VInt 0)) in
  Ok (Some {| au_id := id; au_api := api; au_name := name; au_desc := desc; au_tooltip := tooltip;
    au_small := convert_cdragon_path plower (py_str nm repr small); au_large := convert_cdragon_path plower (py_str nm repr large);
    au_rarity := rarity; au_values := values; au_calculations := calculations |}).
(** Lines 52-89 *)
Definition parse_augments (es : list bentry) : result (list augment) :=
  list_loop (parse_augment (by_path (filter (of_type nm (lit "SpellObject")) es))) (filter (of_type nm (lit "AugmentData")) es).

(** Lines 42-48 *)
Variable xxh3 xxh64 : str -> N.
Definition translate_augment (r : rst) (a : augment) : result augment :=
  let replace := replace xxh3 xxh64 plower (FromRst r) in
  let! n := replace (au_name a) in
  let! d := replace (au_desc a) in
  let! t := replace (au_tooltip a) in
  Ok {| au_id := au_id a; au_api := au_api a; au_name := n; au_desc := d; au_tooltip := t; au_small := au_small a; au_large := au_large a; au_rarity := au_rarity a;
    au_values := au_values a; au_calculations := au_calculations a |}.
(** Lines 36-51, without writing the file *)
Definition augments_in (r : rst) (l : list augment) : result (list augment) := rmapM (translate_augment r) l.
End Arena.
