(** * C57: items of the TFT data *)

From Verif Require Import Base.Py Base.Text Spec.DictSpec Spec.BinAccessSpec Spec.GameDataSpec Spec.TftSpec Model.Tft Proofs.GameDataProofs Proofs.TftProofs.

Section Items.
Variable nm : names.
Variable repr : pyres -> str.

(** The items are those of the entries which are kept, in order, each with the data of its entry; what an item is made
    of, and its traits, are replaced by the names found in the last entry with this hash. *)
Theorem C57_items es items : parse_items nm repr es = Ok items ->
  exists sel, picks (item_entry nm) es sel /\ Forall2 (item_of nm repr es) sel items.
Proof. intros H. exact (proj2 (parse_items_ok nm repr es items H)). Qed.

(** The table is built exactly when names are strings and links are those of known traits and kept items. *)
Theorem C57_succeeds es : (exists items, parse_items nm repr es = Ok items) <->
  (forall x, In x es -> of_kind nm "TftItemData" x -> exists s, field_value "mName" (be_fields x) RNone (RVal (VStr s))) /\
  exists sel items, picks (item_entry nm) es sel /\ Forall2 (item_of nm repr es) sel items.
Proof.
  split.
  - intros [items H]. destruct (parse_items_ok nm repr es items H) as (HN & sel & Hp & F). split; [exact HN | exists sel, items; auto].
  - intros (HN & sel & items & Hp & F). exact (parse_items_complete nm repr es sel items HN Hp F).
Qed.
End Items.
Print Assumptions C57_items.
Print Assumptions C57_succeeds.

Local Definition bh (s : String.string) : N := match compute_binhash (lit s) with Ok h => h | Err _ => 0 end.
Arguments bh s%string_scope.
Local Definition sf (k : String.string) (v : bval) : bfield := (bh k, TString, v).
Arguments sf k%string_scope v.
Local Definition st (s : String.string) : bval := VStr (lit s).
Arguments st s%string_scope.
Local Definition ent (path : N) (type : String.string) (fs : list bfield) : bentry := {| be_path := path; be_type := bh type; be_fields := fs |}.
Arguments ent path type%string_scope fs.
Local Definition nm0 : names := {| n_field := fun _ => None; n_type := fun _ => None; n_hash := fun h => if h =? 9 then Some (lit "{tag}") else None; n_entry := fun _ => None; n_path := fun _ => None |}.
Local Definition repr0 (_ : pyres) : str := lit "?".
Local Definition sample : list bentry := [
  ent 1 "TftItemData" [sf "mName" (st "TFT_Item_Template"); sf "mComposition" (VList TLink [VLink 99])];
  ent 2 "TftItemData" [sf "mName" (st "Sword"); sf "mId" (VInt 1); sf "mDisplayNameTra" (st "sword_name"); sf "ItemTags" (VList THash [VHash 9; VHash 10])];
  ent 3 "TftItemData" [sf "mName" (st "Blade"); sf "mId" (VInt 11); sf "mComposition" (VList TLink [VLink 2; VLink 2]); sf "AssociatedTraits" (VList TLink [VLink 7]);
    sf "effectAmounts" (VList TEmbedded [VEmbedded 5 [sf "name" (st "AD"); sf "value" (VFloat 1065353216)]; VEmbedded 5 [sf "name" (VHash 10)]; VEmbedded 5 [sf "name" (st "AD"); sf "value" (VInt 4)]])];
  ent 7 "TftTraitData" [sf "mName" (st "Set1_Blademaster")]; ent 8 "Other" [];
  ent 4 "TftItemData" [sf "mName" (st "TFT_Item_Null")];
  ent 5 "TftItemData" [sf "mName" (st "Orb"); sf "mIconPath" (st "ASSETS/Orb.dds"); sf "IsAugment" (VBool true); sf "mComposition" (VList TLink [VLink 3])]].
Example C57_items_ex : rmap (map (fun i => (ti_api i, ti_composition i, ti_from i, ti_associated i))) (parse_items nm0 repr0 sample) = Ok [
  (RVal (st "Sword"), [], Some [], []);
  (RVal (st "Blade"), [RVal (st "Sword"); RVal (st "Sword")], Some [RVal (VInt 1); RVal (VInt 1)], [RVal (st "Set1_Blademaster")]);
  (RVal (st "Orb"), [RVal (st "Blade")], None, [])] /\
  rmap (map (fun i => (ti_icon i, ti_tags i, ti_effects i, ti_augment i))) (parse_items nm0 repr0 sample) = Ok [
  (lit "None", [lit "{tag}"; lit "{0000000a}"], [], RVal (VBool false));
  (lit "None", [], [(lit "AD", RVal (VInt 4)); (lit "{0000000a}", RNone)], RVal (VBool false));
  (lit "ASSETS/Orb.dds", [], [], RVal (VBool true))].
Proof. split; vm_compute; reflexivity. Qed.
Example C57_succeeds_ex : exists sel items, picks (item_entry nm0) sample sel /\ Forall2 (item_of nm0 repr0 sample) sel items /\ length items = 3%nat.
Proof.
  destruct (parse_items nm0 repr0 sample) as [items|] eqn:E; [|vm_compute in E; discriminate]. destruct (C57_items nm0 repr0 sample items E) as (sel & Hp & F). exists sel, items. split; [exact Hp|]. split; [exact F|].
  vm_compute in E. injection E as <-. reflexivity.
Qed.

(** An item made from a template, or from the null item, makes the whole table fail. *)
Theorem C57_template_refuted : exists es, (forall x, In x es -> of_kind nm0 "TftItemData" x -> exists s, field_value "mName" (be_fields x) RNone (RVal (VStr s))) /\
  (forall x v h, In x es -> field_list "mComposition" (be_fields x) [v] -> hash_value v h -> exists y, In y es /\ of_kind nm0 "TftItemData" y /\ be_path y = h) /\
  parse_items nm0 repr0 es = Err KeyError.
Proof.
  exists [ent 1 "TftItemData" [sf "mName" (st "TFT_Item_Null")]; ent 2 "TftItemData" [sf "mName" (st "Sword"); sf "mComposition" (VList TLink [VLink 1])]]. split; [|split; [|vm_compute; reflexivity]].
  - intros x [<-|[<-|[]]] _; eexists; apply getd_iff; vm_compute; reflexivity.
  - intros x v h [<-|[<-|[]]] Hl Hv.
    + assert (F : field_list "mComposition" (be_fields (ent 1 "TftItemData" [sf "mName" (st "TFT_Item_Null")])) []) by (exists (RList []); split; [apply getd_iff; vm_compute; reflexivity | constructor]). pose proof (field_list_fun "mComposition" _ _ _ eq_refl Hl F). discriminate.
    + assert (F : field_list "mComposition" (be_fields (ent 2 "TftItemData" [sf "mName" (st "Sword"); sf "mComposition" (VList TLink [VLink 1])])) [VLink 1]) by (exists (RList [VLink 1]); split; [apply getd_iff; vm_compute; reflexivity | constructor]). pose proof (field_list_fun "mComposition" _ _ _ eq_refl Hl F) as Ev. injection Ev as ->. inversion Hv; subst.
      eexists. split; [left; reflexivity|]. split; [apply of_type_iff; vm_compute; reflexivity | reflexivity].
Qed.
Print Assumptions C57_template_refuted.
