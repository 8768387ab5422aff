(** * Specification of the exported TFT data *)

From Verif Require Import Base.Py Base.Text Spec.DictSpec Spec.BinAccessSpec Spec.GameDataSpec Spec.TftSpec Spec.TftChampSpec Model.BinFile Model.Rst Model.Translations Model.Tft.

(** ** Translation *)

Section Translation.
Variable xxh3 xxh64 : str -> N.
Variable plower : str -> str.
Variable tr : translations.

(** The table has this text for a key: the key itself, or its hash in a string table. *)
Inductive entry_for : pyres -> str -> Prop :=
| EN_text d s t : tr = FromText d -> dget s d = Some t -> entry_for (RVal (VStr s)) t
| EN_rst r s t : tr = FromRst r -> dget ((if r_game r <? 1415 then xxh64 (plower s) else xxh3 (plower s)) mod 2 ^ r_bits r) (r_entries r) = Some t -> entry_for (RVal (VStr s)) t
| EN_int r z t : tr = FromRst r -> dget (Z.to_N (z mod 2 ^ Z.of_N (r_bits r))) (r_entries r) = Some t -> entry_for (RVal (VInt z)) t
| EN_bool r (b : bool) t : tr = FromRst r -> dget (Z.to_N ((if b then 1 else 0) mod 2 ^ Z.of_N (r_bits r))) (r_entries r) = Some t -> entry_for (RVal (VBool b)) t.
(** What is not in the table is left as it is. *)
Definition translated (r r' : pyres) : Prop := (exists t, entry_for r t /\ r' = RVal (VStr t)) \/ (forall t, ~ entry_for r t) /\ r' = r.
(** Only the name and the description of an object are translated, and the names of the traits of a champion. *)
Definition trait_translated (x y : trait) : Prop :=
  translated (tr_name x) (tr_name y) /\ translated (tr_desc x) (tr_desc y) /\ tr_api y = tr_api x /\ tr_icon y = tr_icon x /\ tr_effects y = tr_effects x.
Definition ability_translated (x y : ability) : Prop :=
  translated (ab_name x) (ab_name y) /\ translated (ab_desc x) (ab_desc y) /\ ab_icon y = ab_icon x /\ ab_vars y = ab_vars x.
Definition champ_translated (x y : champ) : Prop :=
  translated (ch_name x) (ch_name y) /\ Forall2 translated (ch_traits x) (ch_traits y) /\ ability_translated (ch_ability x) (ch_ability y) /\
  ch_api y = ch_api x /\ ch_character y = ch_character x /\ ch_cost y = ch_cost x /\ ch_icon y = ch_icon x /\ ch_tile y = ch_tile x /\ ch_square y = ch_square x /\
  ch_role y = ch_role x /\ ch_stats y = ch_stats x.
Definition item_translated (x y : titem) : Prop :=
  translated (ti_name x) (ti_name y) /\ translated (ti_desc x) (ti_desc y) /\
  y = {| ti_id := ti_id x; ti_name := ti_name y; ti_api := ti_api x; ti_desc := ti_desc y; ti_icon := ti_icon x; ti_augment := ti_augment x; ti_unique := ti_unique x;
    ti_composition := ti_composition x; ti_associated := ti_associated x; ti_incompatible := ti_incompatible x; ti_effects := ti_effects x; ti_tags := ti_tags x; ti_from := ti_from x |}.
(** The text for a key is not itself a key, unless it stands for itself. *)
Definition final : Prop := forall r t t', entry_for r t -> entry_for (RVal (VStr t)) t' -> t' = t.
End Translation.

(** Something done several times. *)
Inductive times {A} (R : A -> A -> Prop) : nat -> A -> A -> Prop :=
| TI_zero x : times R 0 x x
| TI_more n x y z : R x y -> times R n y z -> times R (S n) x z.
(** How many times [k] appears. *)
Inductive appears {K} (k : K) : list K -> nat -> Prop :=
| AP_nil : appears k [] 0
| AP_same l n : appears k l n -> appears k (k :: l) (S n)
| AP_other k' l n : k' <> k -> appears k l n -> appears k (k' :: l) n.

(** ** What is exported *)

Section Export.
Variable nm : names.
Variable repr : pyres -> str.
Variable plower : str -> str.
Variable exists_bin : str -> bool.
Variable load_bin : str -> result (list bentry).
Variable fdiv : N -> bval.
Variable dir : str.
Variable xxh3 xxh64 : str -> N.
Variable tr : translations.
Variable es : list bentry.

(** The champion with this name: the last entry which is kept. *)
Definition last_champ (n : str) (x : bentry) : Prop :=
  exists pre post, es = pre ++ x :: post /\ champ_entry nm plower exists_bin load_bin dir x /\ shop_name plower x n /\
    forall y, In y post -> champ_entry nm plower exists_bin load_bin dir y -> ~ shop_name plower y n.
Definition shown_trait (h : N) (t : trait) : Prop := exists x t0, last_entry (trait_entry nm) es h x /\ trait_of nm repr x t0 /\ trait_translated xxh3 xxh64 plower tr t0 t.
Definition shown_champ (n : str) (c : champ) : Prop :=
  exists x c0, last_champ n x /\ champ_of nm repr plower exists_bin load_bin fdiv dir es x c0 /\ champ_translated xxh3 xxh64 plower tr c0 c.
Definition shown_set (s : tset) (o : oset) : Prop :=
  o_number o = ts_number s /\ o_mutator o = ts_mutator s /\ o_name o = ts_name s /\ o_augments o = ts_augments s /\ o_items o = ts_items s /\
  Forall2 shown_trait (ts_traits s) (o_traits o) /\
  exists names, picks (fun n => exists x, last_champ n x) (ts_chars s) names /\ Forall2 shown_champ names (o_champions o).
Definition shown_item (x : bentry) (i : titem) : Prop := exists i0, item_of nm repr es x i0 /\ item_translated xxh3 xxh64 plower tr i0 i.
End Export.
