(** * C59: champions of the TFT data *)

From Verif Require Import Base.Py Base.PyFacts Base.Text Base.TextFacts Spec.DictSpec Spec.BinAccessSpec Spec.GameDataSpec Spec.TftSpec Spec.TftChampSpec Model.Tft.
From Verif Require Import Proofs.BinAccessProofs Proofs.GameDataProofs Proofs.TftProofs Proofs.TftSetProofs Proofs.TftChampProofs.

Section Champs.
Variable nm : names.
Variable repr : pyres -> str.
Variable plower : str -> str.
Variable exists_bin : str -> bool.
Variable load_bin : str -> result (list bentry).
Variable fdiv : N -> bval.
Variable dir : str.
Notation kept := (champ_entry nm plower exists_bin load_bin dir).
Notation champ_of := (champ_of nm repr plower exists_bin load_bin fdiv dir).

(** A champion is the last entry with its lower case name which is kept, with the data of this entry, of the first record
    of its file and of the first spell of the record. *)
Theorem C59_champions es ts champs : parse_traits nm repr es = Ok ts -> parse_champs nm repr plower exists_bin load_bin fdiv dir es ts = Ok champs ->
  forall n c, dget n champs = Some c -> exists pre x post, es = pre ++ x :: post /\ shop_name plower x n /\ champ_of es x c /\
    forall y, In y post -> kept y -> ~ shop_name plower y n.
Proof. intros Ht E. exact (proj1 (parse_champs_ok nm repr plower exists_bin load_bin fdiv dir es ts (parse_traits_ok nm repr es ts Ht) champs E)). Qed.
(** Every entry which is kept gives a champion. *)
Theorem C59_all es ts champs x n : parse_traits nm repr es = Ok ts -> parse_champs nm repr plower exists_bin load_bin fdiv dir es ts = Ok champs ->
  In x es -> kept x -> shop_name plower x n -> exists c, dget n champs = Some c.
Proof. intros Ht E. exact (proj1 (proj2 (parse_champs_ok nm repr plower exists_bin load_bin fdiv dir es ts (parse_traits_ok nm repr es ts Ht) champs E)) x n). Qed.
(** No champion appears twice. *)
Theorem C59_once es ts champs : parse_traits nm repr es = Ok ts -> parse_champs nm repr plower exists_bin load_bin fdiv dir es ts = Ok champs -> NoDup (map fst champs).
Proof. intros Ht E. exact (proj2 (proj2 (parse_champs_ok nm repr plower exists_bin load_bin fdiv dir es ts (parse_traits_ok nm repr es ts Ht) champs E))). Qed.
(** When traits are read and the data of each champion which is kept are there, champions are read. *)
Theorem C59_succeeds es ts : parse_traits nm repr es = Ok ts ->
  (forall x, In x es -> has_name (n_type nm) "TftShopData" (be_type x) -> champ_ready nm repr plower exists_bin load_bin fdiv dir es x) ->
  exists champs, parse_champs nm repr plower exists_bin load_bin fdiv dir es ts = Ok champs.
Proof. intros Ht H. exact (parse_champs_total nm repr plower exists_bin load_bin fdiv dir es ts H). Qed.
(** Without a splash, the icon is the text "None", whatever the other icon is. *)
Theorem C59_icon es x c : champ_of es x c -> missing "PcSplashPath" (be_fields x) -> ch_icon c = RVal (VStr (lit "None")).
Proof.
  intros (es' & rec & _ & H) Hm. cbv zeta in H. destruct H as (_ & _ & _ & _ & _ & _ & (a & b & Ha & _ & s & Hs & Hr) & _). rewrite (field_value_fun "PcSplashPath" _ _ _ _ eq_refl Ha (or_intror (conj Hm eq_refl))) in Hs. apply text_of_fun in Hs. cbn [py_str] in Hs. subst s. destruct Hr as [[_ Hr]|[Hr _]]; [exact Hr | discriminate].
Qed.
End Champs.
Print Assumptions C59_champions.
Print Assumptions C59_all.
Print Assumptions C59_once.
Print Assumptions C59_succeeds.
Print Assumptions C59_icon.

Local Definition bh (s : String.string) : N := match compute_binhash (lit s) with Ok h => h | Err _ => 0 end.
Arguments bh s%string_scope.
Local Definition sf (k : String.string) (v : bval) : bfield := (bh k, TString, v).
Arguments sf k%string_scope v.
Local Definition st (s : String.string) : bval := VStr (lit s).
Arguments st s%string_scope.
Local Definition ent (path : N) (type : String.string) (fs : list bfield) : bentry := {| be_path := path; be_type := bh type; be_fields := fs |}.
Arguments ent path type%string_scope fs.
Local Definition nm0 : names := {| n_field := fun _ => None; n_type := fun _ => None; n_hash := fun _ => None; n_entry := fun _ => None; n_path := fun _ => None |}.
Local Definition repr0 (_ : pyres) : str := lit "?".
Local Definition low (s : str) : str := map (fun c => if (65 <=? c) && (c <=? 90) then c + 32 else c) s.
Local Definition emb (fs : list bfield) : bval := VEmbedded 5 fs.
Local Definition map22 : list bentry := [
  ent 1 "TftTraitData" [sf "mName" (st "Brawler"); sf "mDisplayNameTra" (st "brawler_name")]; ent 2 "TFTCharacterRoleData" [sf "name" (st "Tank")];
  ent 10 "TftShopData" [sf "mName" (st "TFT_Template")];
  ent 11 "TftShopData" [sf "mName" (st "TFT1_Vi"); sf "mDisplayNameTra" (st "vi"); sf "mRarity" (VInt 4); sf "PcSplashPath" (st "vi.dds"); sf "mDescriptionTra" (st "vi_desc")];
  ent 12 "TftShopData" [sf "mName" (st "TFT1_Zed"); sf "mIconPath" (st "zed.dds")];
  ent 13 "TftShopData" [sf "mName" (st "TFT1_None")]].
Local Definition vi : list bentry := [
  ent 100 "SpellObject" [sf "mScriptName" (st "Other")];
  ent 101 "TFTCharacterRecord" [sf "spells" (VList TLink [VLink 0; VLink 102]); sf "mLinkedTraits" (VList TEmbedded [emb [sf "TraitData" (VLink 1)]; VLink 1; VLink 77]); sf "CharacterRole" (VLink 2);
    sf "baseHPModifiable" (emb [sf "BaseValue" (VInt 700)]); sf "baseArmor" (VInt 30); sf "attackRange" (VInt 400); sf "mInitialMana" (VInt 20)];
  ent 102 "SpellObject" [sf "mSpell" (emb [sf "mDataValues" (VList TEmbedded [emb [sf "mName" (st "Dmg"); sf "mValues" (VList TU8 [VInt 1; VInt 2])]]);
    sf "mClientData" (emb [sf "mTooltipData" (emb [sf "mLocKeys" (VMap TString TString [(st "keyName", st "spell_name"); (st "keyTooltip", st "spell_tip")])])])])];
  ent 103 "TFTCharacterRecord" []].
Local Definition zed : list bentry := [ent 101 "TFTCharacterRecord" [sf "spellNames" (VList TString [st "a/b/ZedQ"]); sf "tier" (VInt 3); sf "primaryAbilityResource" (emb [sf "arBase" (VInt 60)])];
  ent 102 "SpellObject" [sf "mScriptName" (st "ZEDQ"); sf "mSpell" (emb [])]].
Local Definition exist (p : str) : bool := eqb p (lit "in/characters/tft1_vi.cdtb.bin") || eqb p (lit "in/data/characters/tft1_vi/tft1_vi.bin") || eqb p (lit "in/data/characters/tft1_zed/tft1_zed.bin").
Local Definition load (p : str) : result (list bentry) := if eqb p (lit "in/characters/tft1_vi.cdtb.bin") then Ok vi else if eqb p (lit "in/data/characters/tft1_zed/tft1_zed.bin") then Ok zed else Err EOFError.
Local Definition parsed : result (list (str * champ)) := let! ts := parse_traits nm0 repr0 map22 in parse_champs nm0 repr0 low exist load VFloat (lit "in") map22 ts.
Example C59_champions_ex :
  rmap (map (fun kv => (fst kv, ch_cost (snd kv), ch_icon (snd kv), ch_traits (snd kv), ch_role (snd kv)))) parsed = Ok [
    (lit "tft1_vi", RVal (VInt 5), RVal (st "vi.dds"), [RVal (st "brawler_name"); RVal (st "brawler_name")], RVal (st "Tank"));
    (lit "tft1_zed", RVal (VInt 3), RVal (st "None"), [], RNone)] /\
  rmap (map (fun kv => map snd (firstn 5 (ch_stats (snd kv))))) parsed = Ok [[RVal (VInt 700); RVal (VInt 100); RVal (VInt 20); RNone; RVal (VInt 30)]; [RNone; RVal (VInt 60); RVal (VInt 0); RNone; RNone]] /\
  rmap (map (fun kv => (ab_name (ch_ability (snd kv)), ab_desc (ch_ability (snd kv)), ab_vars (ch_ability (snd kv))))) parsed = Ok [
    (RVal (st "spell_name"), RVal (st "vi_desc"), [(RVal (st "Dmg"), RList [VInt 1; VInt 2])]); (RNone, RNone, [])].
Proof. split; [vm_compute; reflexivity|]. split; vm_compute; reflexivity. Qed.
Example C59_succeeds_ex x : In x map22 -> has_name (n_type nm0) "TftShopData" (be_type x) -> champ_ready nm0 repr0 low exist load VFloat (lit "in") map22 x.
Proof.
  intros Hx Hk. destruct (parse_traits nm0 repr0 map22) as [ts|] eqn:Et; [|vm_compute in Et; discriminate]. pose proof (parse_traits_ok nm0 repr0 map22 ts Et) as Hts.
  destruct (parse_champ nm0 repr0 low exist load VFloat (lit "in") (by_path (filter (of_type nm0 (lit "TFTCharacterRoleData")) map22)) ts x) as [o|] eqn:Eo.
  2:{ exfalso. vm_compute in Et. injection Et as <-. apply (proj2 (of_type_iff nm0 "TftShopData" x eq_refl)) in Hk. unfold map22 in Hx. cbn [In] in Hx. destruct Hx as [<-|[<-|[<-|[<-|[<-|[<-|[]]]]]]]. all: try (vm_compute in Hk; discriminate Hk). all: vm_compute in Eo; discriminate Eo. }
  pose proof (parse_champ_ok nm0 repr0 low exist load VFloat (lit "in") map22 ts Hts x o Hk Eo) as Ho.
  assert (Hc : champ_entry nm0 low exist load (lit "in") x -> exists c, champ_of nm0 repr0 low exist load VFloat (lit "in") map22 x c) by (intros He; destruct o as [[n c]|]; [exists c; exact (proj1 Ho) | contradiction]).
  clear Ho Eo o Hts Et ts. apply (proj2 (of_type_iff nm0 "TftShopData" x eq_refl)) in Hk.
  assert (Hvi : usable_spells nm0 vi).
  { intros y Hy Hky. apply (proj2 (of_type_iff nm0 "SpellObject" y eq_refl)) in Hky. unfold vi in Hy. cbn [In] in Hy. destruct Hy as [<-|[<-|[<-|[<-|[]]]]]; try (vm_compute in Hky; discriminate Hky).
    - split; [exists (lit "Other"); apply getd_iff; [reflexivity | vm_compute; reflexivity]|]. intros v a Hv. apply getn_iff in Hv; [|reflexivity]. vm_compute in Hv. discriminate Hv.
    - split; [exists []; apply getd_iff; [reflexivity | vm_compute; reflexivity]|]. intros v a Hv Ha. apply getn_iff in Hv; [|reflexivity]. vm_compute in Hv. injection Hv as <-. vm_compute in Ha. injection Ha as <-.
      right. match goal with |- exists w, follows ?a _ w => destruct (get_path_only a loc_path (RDict [(st "keyName", st "spell_name"); (st "keyTooltip", st "spell_tip")])) as (w & Hw & _); [discriminate | vm_compute; reflexivity | discriminate | exists w; exact Hw] end. }
  assert (Hzed : usable_spells nm0 zed).
  { intros y Hy Hky. apply (proj2 (of_type_iff nm0 "SpellObject" y eq_refl)) in Hky. unfold zed in Hy. cbn [In] in Hy. destruct Hy as [<-|[<-|[]]]; try (vm_compute in Hky; discriminate Hky).
    split; [exists (lit "ZEDQ"); apply getd_iff; [reflexivity | vm_compute; reflexivity]|]. intros v a Hv Ha. apply getn_iff in Hv; [|reflexivity]. vm_compute in Hv. injection Hv as <-. vm_compute in Ha. injection Ha as <-.
      left. unfold loc_path. match goal with |- misses _ (KStr (lit ?s) :: _) => destruct (ascii_hash s eq_refl) as (h & Hh & _) end. eapply M_here; [apply D_str; exact Hh | constructor]. }
  unfold map22 in Hx. cbn [In] in Hx. destruct Hx as [<-|[<-|[<-|[<-|[<-|[<-|[]]]]]]]; try (vm_compute in Hk; discriminate Hk); (eexists; split; [apply getn_iff; [reflexivity | vm_compute; reflexivity]|]); intros file Hnt Hf; apply file_iff in Hf; vm_compute in Hf; try discriminate Hf.
  - injection Hf as <-. exists vi. split; [vm_compute; reflexivity | split; assumption].
  - injection Hf as <-. exists zed. split; [vm_compute; reflexivity | split; assumption].
Qed.
(** The icon meant to be used when there is no splash never is. *)
Theorem C59_icon_refuted : exists es ts champs x n c, parse_traits nm0 repr0 es = Ok ts /\ parse_champs nm0 repr0 low exist load VFloat (lit "in") es ts = Ok champs /\
  In x es /\ shop_name low x n /\ dget n champs = Some c /\ missing "PcSplashPath" (be_fields x) /\ present "mIconPath" (be_fields x) (RVal (st "zed.dds")) /\ ch_icon c <> RVal (st "zed.dds").
Proof.
  destruct (parse_traits nm0 repr0 map22) as [ts|] eqn:Et; [|vm_compute in Et; discriminate]. destruct (parse_champs nm0 repr0 low exist load VFloat (lit "in") map22 ts) as [champs|] eqn:Ec; [|vm_compute in Et; injection Et as <-; vm_compute in Ec; discriminate].
  destruct (dget (lit "tft1_zed") champs) as [c|] eqn:Ez.
  2:{ exfalso. vm_compute in Et. injection Et as <-. vm_compute in Ec. injection Ec as <-. vm_compute in Ez. discriminate. }
  exists map22, ts, champs, (ent 12 "TftShopData" [sf "mName" (st "TFT1_Zed"); sf "mIconPath" (st "zed.dds")]), (lit "tft1_zed"), c.
  assert (Hm : missing "PcSplashPath" (be_fields (ent 12 "TftShopData" [sf "mName" (st "TFT1_Zed"); sf "mIconPath" (st "zed.dds")]))) by (apply contains_false; [reflexivity | vm_compute; reflexivity]).
  split; [exact Et|]. split; [exact Ec|]. split; [do 4 right; left; reflexivity|]. split; [eexists; split; [apply getn_iff; [reflexivity|]; vm_compute; reflexivity | reflexivity]|]. split; [exact Ez|]. split; [exact Hm|].
  split; [eapply present_value; [reflexivity | apply contains_true; [reflexivity | vm_compute; reflexivity] | apply (getn_iff "mIconPath"); [reflexivity|]; vm_compute; reflexivity]|].
  vm_compute in Et. injection Et as <-. vm_compute in Ec. injection Ec as <-. vm_compute in Ez. injection Ez as <-. cbn [ch_icon]. discriminate.
Qed.
Print Assumptions C59_icon_refuted.
