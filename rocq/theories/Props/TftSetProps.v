(** * C58: traits and sets of the TFT data *)

From Verif Require Import Base.Py Base.PyFacts Base.Text Base.TextFacts Spec.DictSpec Spec.BinAccessSpec Spec.GameDataSpec Spec.TftSpec Model.Tft Proofs.GameDataProofs Proofs.TftProofs Proofs.TftSetProofs.
From Coq Require Import Permutation.

Section Sets.
Variable nm : names.
Variable repr : pyres -> str.
Variable plower : str -> str.

(** A trait is found exactly at the path of an entry which is not a template; its data is that of the last such entry. *)
Theorem C58_traits es ts : parse_traits nm repr es = Ok ts -> table_of (trait_entry nm) (trait_of nm repr) es ts.
Proof. exact (parse_traits_ok nm repr es ts). Qed.
Theorem C58_traits_succeeds es : (exists ts, parse_traits nm repr es = Ok ts) <->
  (forall x, In x es -> of_kind nm "TftTraitData" x -> exists s, field_value "mName" (be_fields x) RNone (RVal (VStr s))) /\
  (forall x, In x es -> trait_entry nm x -> exists t, trait_of nm repr x t).
Proof. exact (parse_traits_total nm repr es). Qed.

(** Names of characters are in lower case. *)
Theorem C58_characters es cn : parse_character_names nm plower es = Ok cn -> table_of (character_entry nm) (lower_name plower) es cn.
Proof. exact (names_ok nm plower es cn). Qed.
Theorem C58_characters_succeeds es : (exists cn, parse_character_names nm plower es = Ok cn) <-> forall x, In x es -> character_entry nm x -> exists n, lower_name plower x n.
Proof. exact (names_total nm plower es). Qed.

(** The sets are those which are not skipped, in order; each has the characters of its lists, in order, its traits once
    each, and its augments and items sorted. *)
Theorem C58_sets set_order es cn ts sets : (forall l, Permutation (set_order l) l) ->
  parse_character_names nm plower es = Ok cn -> parse_traits nm repr es = Ok ts -> parse_sets nm set_order es cn ts = Ok (Some sets) ->
  exists sel, picks (fun x => of_kind nm "TFTSetData" x /\ ~ skipped_set x) es sel /\ Forall2 (set_of_entry nm plower es) sel sets.
Proof. intros Hp Hc Ht. exact (parse_sets_ok nm repr plower set_order Hp es cn ts (names_ok nm plower es cn Hc) (parse_traits_ok nm repr es ts Ht) sets). Qed.

(** Parsing succeeds exactly when there is a set and all of them are skipped or have the usual lists and names. *)
Theorem C58_sets_succeeds set_order es cn ts : (exists sets, parse_sets nm set_order es cn ts = Ok (Some sets)) <->
  (exists x, In x es /\ of_kind nm "TFTSetData" x) /\ forall x, In x es -> of_kind nm "TFTSetData" x -> usual_set nm es x.
Proof. exact (parse_sets_total nm set_order es cn ts). Qed.

(** Without any entry for a set, nothing is exported: the old format is not read. *)
Theorem C58_old_format set_order exists_bin load_bin fdiv dir es t : (forall x, In x es -> ~ of_kind nm "TFTSetData" x) ->
  build_template nm repr plower set_order exists_bin load_bin fdiv dir es <> Ok t.
Proof.
  intros Hn E. unfold build_template in E. apply rbind_Ok in E as (cn & _ & E). apply rbind_Ok in E as (ts & _ & E). apply rbind_Ok in E as (sets & Es & E). apply rbind_Ok in E as (champs & _ & E).
  destruct sets as [sets|]; [|discriminate]. unfold parse_sets in Es. destruct (filter (of_type nm (lit "TFTSetData")) es) as [|x l] eqn:Ef.
  - apply rbind_Ok in Es as (u & _ & Es). apply rbind_Ok in Es as (u' & _ & Es). discriminate.
  - assert (Hx : In x (filter (of_type nm (lit "TFTSetData")) es)) by (rewrite Ef; left; reflexivity). apply filter_In in Hx as [Hx Hk]. apply (Hn x Hx). apply of_type_iff; [reflexivity | exact Hk].
Qed.
End Sets.
Print Assumptions C58_traits.
Print Assumptions C58_traits_succeeds.
Print Assumptions C58_characters.
Print Assumptions C58_characters_succeeds.
Print Assumptions C58_sets.
Print Assumptions C58_sets_succeeds.
Print Assumptions C58_old_format.

Local Definition bh (s : String.string) : N := match compute_binhash (lit s) with Ok h => h | Err _ => 0 end.
Arguments bh s%string_scope.
Local Definition sf (k : String.string) (v : bval) : bfield := (bh k, TString, v).
Arguments sf k%string_scope v.
Local Definition st (s : String.string) : bval := VStr (lit s).
Arguments st s%string_scope.
Local Definition ent (path : N) (type : String.string) (fs : list bfield) : bentry := {| be_path := path; be_type := bh type; be_fields := fs |}.
Arguments ent path type%string_scope fs.
Local Definition nm0 : names := {| n_field := fun _ => None; n_type := fun _ => None; n_hash := fun _ => None; n_entry := fun _ => None; n_path := fun _ => None |}.
Local Definition repr0 (_ : pyres) : str := lit "?".
Local Definition low (s : str) : str := map (fun c => if (65 <=? c) && (c <=? 90) then c + 32 else c) s.
Local Definition am (k : String.string) (z : Z) : bval := VEmbedded 5 [sf "name" (VStr (lit k)); sf "value" (VInt z)].
Arguments am k%string_scope z%Z_scope.
Local Definition vars (l : list bval) : bval := VList TEmbedded l.
Local Definition sample : list bentry := [
  ent 1 "TftTraitData" [sf "mName" (st "Template_Trait")];
  ent 2 "TftTraitData" [sf "mName" (st "Set1_Brawler"); sf "mDisplayNameTra" (st "brawler"); sf "mIconPath" (st "a.dds");
    sf "InnateTraitSets" (VList TEmbedded [VEmbedded 5 [sf "effectAmounts" (vars [am "A" 1; am "B" 2])]]);
    sf "mTraitSets" (VList TEmbedded [VEmbedded 5 [sf "mMinUnits" (VInt 2); sf "mMaxUnits" (VInt 0); sf "effectAmounts" (vars [am "B" 7])]; VEmbedded 5 [sf "mMinUnits" (VInt 4); sf "mMaxUnits" (VInt 6); sf "mStyle" (VInt 3)]])];
  ent 3 "TftTraitData" [sf "mName" (st "Set1_Old"); sf "mConditionalTraitSets" (VList TEmbedded [VEmbedded 5 [sf "MinUnits" (VInt 1)]])];
  ent 10 "Character" [sf "name" (st "TFT1_Ahri")]; ent 11 "TftCharacter" [sf "name" (st "TFT1_Zed")];
  ent 20 "MapCharacterList" [sf "Characters" (VList TLink [VLink 11; VLink 99; VLink 10])]; ent 21 "TftCharacterList" [sf "Characters" (VList TLink [VLink 10])];
  ent 30 "TftTraitList" [sf "mTraits" (VList TLink [VLink 3; VLink 2; VLink 1; VLink 2])];
  ent 40 "TftItemData" [sf "mName" (st "Sword")]; ent 41 "TftItemData" [sf "mName" (st "Orb")]; ent 42 "TftItemData" [sf "mName" (st "Aug"); sf "IsAugment" (VBool true)];
  ent 50 "TFTItemList" [sf "mItems" (VList TLink [VLink 40; VLink 42; VLink 41; VLink 40; VLink 77])];
  ent 60 "TFTSetData" [sf "number" (VInt 1); sf "name" (st "TFTSet1"); sf "characterLists" (VList TLink [VLink 20; VLink 88]); sf "tftCharacterLists" (VList TLink [VLink 21]); sf "TraitLists" (VList TLink [VLink 30]);
    sf "ScriptData" (VMap TString TEmbedded [(st "Other", VInt 0); (st "SetName", VEmbedded 5 [sf "mValue" (st "Set1")])]); sf "ItemLists" (VList TLink [VLink 50])];
  ent 61 "TFTSetData" [sf "number" (VInt 2)];
  ent 62 "TFTSetData" [sf "Mutator" (st "M"); sf "characterLists" (VList TLink [VLink 20]); sf "TraitLists" (VList TLink [VLink 30]); sf "ScriptData" (VMap TString TEmbedded [(st "SetName", VEmbedded 5 [sf "mValue" (st "Set3")])])]].
Local Definition parsed : result (list (N * str) * list (N * trait) * option (list tset)) :=
  let! cn := parse_character_names nm0 low sample in let! ts := parse_traits nm0 repr0 sample in let! s := parse_sets nm0 (@rev N) sample cn ts in Ok (cn, ts, s).
Example C58_traits_ex : rmap (map (fun kv => (fst kv, map (fun e => (ef_min e, ef_max e, ef_style e, ef_vars e)) (tr_effects (snd kv))))) (parse_traits nm0 repr0 sample) = Ok [
  (2, [(RVal (VInt 2), RVal (VInt 25000), RVal (VInt 1), [(lit "A", RVal (VInt 1)); (lit "B", RVal (VInt 7))]); (RVal (VInt 4), RVal (VInt 6), RVal (VInt 3), [(lit "A", RVal (VInt 1)); (lit "B", RVal (VInt 2))])]);
  (3, [(RVal (VInt 1), RVal (VInt 25000), RVal (VInt 1), [])])].
Proof. vm_compute. reflexivity. Qed.
Example C58_characters_ex : parse_character_names nm0 low sample = Ok [(10, lit "tft1_ahri"); (11, lit "tft1_zed")].
Proof. vm_compute. reflexivity. Qed.
Example C58_sets_ex : (forall l : list N, Permutation (rev l) l) /\ rmap snd parsed = Ok (Some [{| ts_number := RVal (VInt 1); ts_mutator := RVal (st "TFTSet1"); ts_name := RVal (st "Set1");
  ts_chars := [lit "tft1_zed"; lit "tft1_ahri"; lit "tft1_ahri"]; ts_traits := [2; 3]; ts_augments := [RVal (st "Aug")]; ts_items := [RVal (st "Orb"); RVal (st "Sword")] |}]).
Proof. split; [intros l; apply Permutation_sym, Permutation_rev | vm_compute; reflexivity]. Qed.
(** All sets of the sample can be parsed, but not one whose items have names or none. *)
Example C58_sets_succeeds_ex : (forall x, In x sample -> of_kind nm0 "TFTSetData" x -> usual_set nm0 sample x) /\
  forall x, In x sample -> of_kind nm0 "TFTSetData" x -> be_path x = 60 -> ~ usual_set nm0 (sample ++ [ent 40 "TftItemData" []]) x.
Proof.
  split.
  - apply (proj1 (C58_sets_succeeds nm0 (@rev N) sample [] [])). eexists. vm_compute. reflexivity.
  - intros x Hx Hk Hp Hu. apply (parse_set_total nm0 (@rev N) _ [] []) in Hu as [o E].
    repeat (destruct Hx as [<-|Hx]; [try discriminate Hp|]); [|destruct Hx]. vm_compute in E. discriminate E.
Qed.
(** The old format, with one list of characters and one of traits, is refused. *)
Local Definition old : list bentry := [ent 10 "Character" [sf "name" (st "Ahri")]; ent 20 "MapCharacterList" [sf "Characters" (VList TLink [VLink 10])]; ent 2 "TftTraitData" [sf "mName" (st "Brawler")]; ent 30 "TftTraitList" [sf "mTraits" (VList TLink [VLink 2])]].
Theorem C58_old_format_refuted : exists es, (exists x, In x es /\ character_list nm0 x) /\ (exists x, In x es /\ of_kind nm0 "TftTraitList" x) /\
  forall exists_bin load_bin fdiv dir, build_template nm0 repr0 low (@rev N) exists_bin load_bin fdiv dir es = Err TypeError.
Proof.
  exists old. split; [eexists; split; [right; left; reflexivity | left; apply of_type_iff; vm_compute; reflexivity]|]. split; [eexists; split; [right; right; right; left; reflexivity | apply of_type_iff; vm_compute; reflexivity]|].
  intros exists_bin load_bin fdiv dir. vm_compute. reflexivity.
Qed.
Print Assumptions C58_old_format_refuted.
