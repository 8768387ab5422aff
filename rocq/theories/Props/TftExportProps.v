(** * C60: export of the TFT data *)

From Verif Require Import Base.Py Base.PyFacts Base.Text Base.TextFacts Spec.DictSpec Spec.BinAccessSpec Spec.GameDataSpec Spec.TftSpec Spec.TftChampSpec Spec.TftExportSpec Model.Rst Model.Translations Model.Tft.
From Verif Require Import Proofs.GameDataProofs Proofs.TftProofs Proofs.TftSetProofs Proofs.TftChampProofs Proofs.TftExportProofs Props.RstProps.
From Coq Require Import Permutation.

Section Export.
Variable nm : names.
Variable repr : pyres -> str.
Variable plower : str -> str.
Variable set_order : list N -> list N.
Variable exists_bin : str -> bool.
Variable load_bin : str -> result (list bentry).
Variable fdiv : N -> bval.
Variable dir : str.
Variable xxh3 xxh64 : str -> N.
Variable tr : translations.

(** When the text for a key is never a key of another text, the output has one object for each set, with its traits and
    those of its champions which are known, in order, each translated once; sets with a number, the last one for this
    number; and the items, translated once. *)
Theorem C60_export es t t' : (forall l, Permutation (set_order l) l) -> final xxh3 xxh64 plower tr ->
  build_template nm repr plower set_order exists_bin load_bin fdiv dir es = Ok t -> translate xxh3 xxh64 plower tr t = Ok t' ->
  exists sel sets isel out data items, show t' = (out, data, items) /\ picks (fun x => of_kind nm "TFTSetData" x /\ ~ skipped_set x) es sel /\ Forall2 (set_of_entry nm plower es) sel sets /\
  Forall2 (shown_set nm repr plower exists_bin load_bin fdiv dir xxh3 xxh64 tr es) sets data /\
  (forall z o, In (VInt z, o) out <-> last_value (num z) (map (fun o => (o_number o, o)) data) (Some o)) /\
  picks (item_entry nm) es isel /\ Forall2 (shown_item nm repr plower xxh3 xxh64 tr es) isel items.
Proof. intros Hp. exact (export_ok nm repr plower set_order Hp exists_bin load_bin fdiv dir xxh3 xxh64 tr es t t'). Qed.

(** In general, a trait or a champion is translated once for each set it is in, and once more if it is the last one with
    its number. *)
Theorem C60_times t t' : translate xxh3 xxh64 plower tr t = Ok t' ->
  (forall h x n, dget h (tp_traits t) = Some x -> appears h (flat_map (fun s => ts_traits (fst s)) (map snd (tp_sets t) ++ tp_data t)) n ->
    exists y, dget h (tp_traits t') = Some y /\ times (trait_translated xxh3 xxh64 plower tr) n x y) /\
  (forall k x n, dget k (tp_champs t) = Some x -> appears k (flat_map snd (map snd (tp_sets t) ++ tp_data t)) n ->
    exists y, dget k (tp_champs t') = Some y /\ times (champ_translated xxh3 xxh64 plower tr) n x y).
Proof.
  intros E. apply translate_ok in E as (MT & MC & _). split.
  - intros h x n Hx Hn. specialize (MT h n Hn). rewrite Hx in MT. exact MT.
  - intros k x n Hx Hn. specialize (MC k n Hn). rewrite Hx in MC. exact MC.
Qed.

(** When names, traits, sets, champions and items can be read and numbers of sets are not lists, everything is read. *)
Theorem C60_template_succeeds es : (forall l, Permutation (set_order l) l) ->
  (forall x, In x es -> character_entry nm x -> exists n, lower_name plower x n) ->
  (forall x, In x es -> of_kind nm "TftTraitData" x -> exists s, field_value "mName" (be_fields x) RNone (RVal (VStr s))) ->
  (forall x, In x es -> trait_entry nm x -> exists t, trait_of nm repr x t) ->
  (exists x, In x es /\ of_kind nm "TFTSetData" x) ->
  (forall x, In x es -> of_kind nm "TFTSetData" x -> usual_set nm es x /\ forall n, field_value "number" (be_fields x) RNone n -> n = RNone \/ exists v, n = RVal v) ->
  (forall x, In x es -> has_name (n_type nm) "TftShopData" (be_type x) -> champ_ready nm repr plower exists_bin load_bin fdiv dir es x) ->
  (forall x, In x es -> of_kind nm "TftItemData" x -> exists s, field_value "mName" (be_fields x) RNone (RVal (VStr s))) ->
  (exists sel items, picks (item_entry nm) es sel /\ Forall2 (item_of nm repr es) sel items) ->
  exists t, build_template nm repr plower set_order exists_bin load_bin fdiv dir es = Ok t.
Proof.
  intros Hp Hn Ht1 Ht2 Hs1 Hs2 Hc Hi1 Hi2. unfold build_template.
  destruct (proj2 (names_total nm plower es) Hn) as [cn Ec]. rewrite Ec. cbn [rbind].
  destruct (proj2 (parse_traits_total nm repr es) (conj Ht1 Ht2)) as [ts Et]. rewrite Et. cbn [rbind].
  destruct (proj2 (parse_sets_total nm set_order es cn ts) (conj Hs1 (fun x Hx Hk => proj1 (Hs2 x Hx Hk)))) as [sets Es]. rewrite Es. cbn [rbind].
  destruct (parse_champs_total nm repr plower exists_bin load_bin fdiv dir es ts Hc) as [champs ->]. cbn [rbind].
  destruct (parse_sets_ok nm repr plower set_order Hp es cn ts (names_ok nm plower es cn Ec) (parse_traits_ok nm repr es ts Et) sets Es) as (sel & Hsel & F).
  assert (HV : Forall (fun s => exists v, ts_number s = RVal v) sets).
  { assert (Hin : forall x, In x sel -> In x es /\ of_kind nm "TFTSetData" x) by (intros x Hx; destruct (proj1 (picks_In _ _ _ x Hsel) Hx) as [H1 [H2 _]]; auto).
    clear Hsel Es. induction F as [|x s sel sets Hx F IH]; constructor; [|apply IH; intros y Hy; apply Hin; right; exact Hy].
    destruct Hx as (ch & tl & il & _ & _ & Hnu & Hnn & _). destruct (Hin x (or_introl eq_refl)) as [H1 H2]. destruct (proj2 (Hs2 x H1 H2) _ Hnu) as [H|H]; [contradiction | exact H]. }
  assert (HO : forall d, exists out, output_sets (map (fun s => (s, filter (fun n => dhas n champs) (ts_chars s))) sets) d = Ok out).
  { clear -HV. induction HV as [|s sets [v Ev] _ IH]; intros d; cbn [map output_sets]; [eauto|]. cbn [fst]. rewrite Ev. apply IH. }
  destruct (HO []) as [out ->]. cbn [rbind]. destruct Hi2 as (isel & items & Hip & HF). destruct (parse_items_complete nm repr es isel items Hi1 Hip HF) as [its ->]. cbn [rbind]. eauto.
Qed.

(** With a string table, the translation always succeeds. *)
Theorem C60_succeeds r t : tr = FromRst r -> exists t', translate xxh3 xxh64 plower tr t = Ok t'.
Proof.
  intros Er. assert (Hr : forall v, exists v', replace xxh3 xxh64 plower tr v = Ok v').
  { intros v. unfold replace, translation. rewrite Er. destruct (C32_agree xxh3 xxh64 plower r (rkey_of v) None) as [(_ & x & _ & ->)|(_ & _ & ->)]; cbn [rbind]; eauto. }
  assert (Hl : forall l, exists l', rmapM (replace xxh3 xxh64 plower tr) l = Ok l').
  { induction l as [|v l (l' & IH)]; cbn [rmapM]; [eauto|]. destruct (Hr v) as (v' & ->). cbn [rbind]. rewrite IH. cbn [rbind]. eauto. }
  assert (HT : forall x, exists y, replace_trait xxh3 xxh64 plower tr x = Ok y).
  { intros x. unfold replace_trait. destruct (Hr (tr_name x)) as (a & ->). destruct (Hr (tr_desc x)) as (b & ->). cbn [rbind]. eauto. }
  assert (HC : forall x, exists y, replace_champ xxh3 xxh64 plower tr x = Ok y).
  { intros x. unfold replace_champ, replace_ability. destruct (Hr (ch_name x)) as (a & ->). destruct (Hl (ch_traits x)) as (b & ->). destruct (Hr (ab_name (ch_ability x))) as (c & ->). destruct (Hr (ab_desc (ch_ability x))) as (d & ->). cbn [rbind]. eauto. }
  assert (HI : forall x, exists y, replace_item xxh3 xxh64 plower tr x = Ok y).
  { intros x. unfold replace_item. destruct (Hr (ti_name x)) as (a & ->). destruct (Hr (ti_desc x)) as (b & ->). cbn [rbind]. eauto. }
  assert (HM : forall K V (E : EqDec K) (f : V -> result V) (ks : list K) d, (forall x, exists y, f x = Ok y) -> exists d', modify_all f ks d = Ok d').
  { intros K V E f ks d Hf. revert d. induction ks as [|k ks IH]; intros d; cbn [modify_all]; [eauto|]. unfold dmodify. destruct (dget k d) as [v|]; cbn [rbind]; [|apply IH]. destruct (Hf v) as (y & ->). cbn [rbind]. apply IH. }
  assert (HS : forall l o, exists o', replace_sets xxh3 xxh64 plower tr l o = Ok o').
  { induction l as [|s l IH]; intros o; cbn [replace_sets]; [eauto|]. unfold replace_set. destruct (HM _ _ _ (replace_trait xxh3 xxh64 plower tr) (ts_traits (fst s)) (fst o) HT) as (a & ->). cbn [rbind].
    destruct (HM _ _ _ (replace_champ xxh3 xxh64 plower tr) (snd s) (snd o) HC) as (b & ->). cbn [rbind]. apply IH. }
  unfold translate. destruct (HS (map snd (tp_sets t)) (tp_traits t, tp_champs t)) as (o & ->). cbn [rbind]. destruct (HS (tp_data t) o) as ([a b] & ->). cbn [rbind].
  assert (Hi : exists l, rmapM (replace_item xxh3 xxh64 plower tr) (tp_items t) = Ok l).
  { induction (tp_items t) as [|v l (l' & IH)]; cbn [rmapM]; [eauto|]. destruct (HI v) as (v' & ->). cbn [rbind]. rewrite IH. cbn [rbind]. eauto. }
  destruct Hi as (l & ->). cbn [rbind]. eauto.
Qed.
End Export.
Print Assumptions C60_export.
Print Assumptions C60_times.
Print Assumptions C60_template_succeeds.
Print Assumptions C60_succeeds.

Local Definition bh (s : String.string) : N := match compute_binhash (lit s) with Ok h => h | Err _ => 0 end.
Arguments bh s%string_scope.
Local Definition sf (k : String.string) (v : bval) : bfield := (bh k, TString, v).
Arguments sf k%string_scope v.
Local Definition st (s : String.string) : bval := VStr (lit s).
Arguments st s%string_scope.
Local Definition ent (path : N) (type : String.string) (fs : list bfield) : bentry := {| be_path := path; be_type := bh type; be_fields := fs |}.
Arguments ent path type%string_scope fs.
Local Definition nm0 : names := {| n_field := fun _ => None; n_type := fun _ => None; n_hash := fun _ => None; n_entry := fun _ => None; n_path := fun _ => None |}.
Local Definition repr0 (_ : pyres) : str := lit "?".
Local Definition low (s : str) : str := map (fun c => if (65 <=? c) && (c <=? 90) then c + 32 else c) s.
Local Definition links (l : list N) : bval := VList TLink (map VLink l).
Local Definition aset (path : N) (number : Z) (name : String.string) (chars traits items : list N) : bentry := ent path "TFTSetData" [sf "number" (VInt number); sf "name" (VStr (lit name));
  sf "tftCharacterLists" (links chars); sf "TraitLists" (links traits); sf "ItemLists" (links items); sf "ScriptData" (VMap TString TEmbedded [(st "SetName", VEmbedded 5 [sf "mValue" (VStr (lit name))])])].
Arguments aset path number%Z_scope name%string_scope chars traits items.
Local Definition map22 : list bentry := [
  ent 1 "TftTraitData" [sf "mName" (st "Brawler"); sf "mDisplayNameTra" (st "k1"); sf "mDescriptionNameTra" (st "k2")];
  ent 11 "TftShopData" [sf "mName" (st "TFT1_Vi"); sf "mDisplayNameTra" (st "k3")];
  ent 21 "TftCharacter" [sf "name" (st "TFT1_Vi")]; ent 22 "TftCharacter" [sf "name" (st "TFT1_Zed")];
  ent 31 "TftCharacterList" [sf "Characters" (links [22; 21])]; ent 32 "TftTraitList" [sf "mTraits" (links [1; 99])]; ent 33 "TFTItemList" [sf "mItems" (links [41])];
  ent 41 "TftItemData" [sf "mName" (st "Sword"); sf "mDisplayNameTra" (st "k1")];
  aset 51 1 "A" [31] [32] [33]; aset 52 2 "B" [31] [32] []; aset 53 1 "C" [31] [32] []].
Local Definition vi : list bentry := [ent 101 "TFTCharacterRecord" [sf "spells" (VList TLink [VLink 102]); sf "mLinkedTraits" (VList TLink [VLink 1])]].
Local Definition exist (p : str) : bool := eqb p (lit "in/characters/tft1_vi.cdtb.bin").
Local Definition load (p : str) : result (list bentry) := if eqb p (lit "in/characters/tft1_vi.cdtb.bin") then Ok vi else Err EOFError.
Local Definition built : result template := build_template nm0 repr0 low (fun l => l) exist load VFloat (lit "in") map22.
Local Definition shown (tr : translations) : result output := let! t := built in rmap show (translate (fun _ => 0) (fun _ => 0) low tr t).
Local Definition brief (o : output) := (map (fun kv => (fst kv, o_name (snd kv))) (fst (fst o)),
  map (fun s => (o_name s, map tr_name (o_traits s), map (fun c => (ch_name c, ch_traits c)) (o_champions s), o_items s)) (snd (fst o)), map ti_name (snd o)).
Local Definition txt (s : String.string) : pyres := RVal (st s).
Arguments txt s%string_scope.
Local Definition words : translations := FromText [(lit "k1", lit "Brute"); (lit "k3", lit "Vi")].
Local Definition swap : translations := FromText [(lit "k1", lit "a"); (lit "a", lit "b")].
Example C60_export_ex : final (fun _ => 0) (fun _ => 0) low words /\
  rmap brief (shown words) = Ok ([(VInt 1, txt "C"); (VInt 2, txt "B")],
    map (fun n => (n, [txt "Brute"], [(txt "Vi", [txt "Brute"])], match n with RVal (VStr [65]) => [txt "Sword"] | _ => [] end)) [txt "A"; txt "B"; txt "C"], [txt "Brute"]).
Proof.
  split; [|vm_compute; reflexivity]. intros r t t' A B. inversion A as [d s u Et Ed| | |]; try discriminate. injection Et as <-. inversion B as [d s' u' Et' Ed'| | |]; try discriminate. injection Et' as <-.
  cbn [dget] in Ed. destruct (eqb s (lit "k1")); [|destruct (eqb s (lit "k3")); [|discriminate]]; injection Ed as Ed; subst; vm_compute in Ed'; discriminate.
Qed.
Example C60_template_succeeds_ex :
  (forall x, In x map22 -> character_entry nm0 x -> exists n, lower_name low x n) /\
  (forall x, In x map22 -> of_kind nm0 "TftTraitData" x -> exists s, field_value "mName" (be_fields x) RNone (RVal (VStr s))) /\
  (forall x, In x map22 -> trait_entry nm0 x -> exists t, trait_of nm0 repr0 x t) /\
  (exists x, In x map22 /\ of_kind nm0 "TFTSetData" x) /\
  (forall x, In x map22 -> of_kind nm0 "TFTSetData" x -> usual_set nm0 map22 x /\ forall n, field_value "number" (be_fields x) RNone n -> n = RNone \/ exists v, n = RVal v) /\
  (forall x, In x map22 -> has_name (n_type nm0) "TftShopData" (be_type x) -> champ_ready nm0 repr0 low exist load VFloat (lit "in") map22 x) /\
  (forall x, In x map22 -> of_kind nm0 "TftItemData" x -> exists s, field_value "mName" (be_fields x) RNone (RVal (VStr s))) /\
  (exists sel items, picks (item_entry nm0) map22 sel /\ Forall2 (item_of nm0 repr0 map22) sel items).
Proof.
  destruct (parse_traits nm0 repr0 map22) as [ts|] eqn:Et; [|vm_compute in Et; discriminate].
  destruct (proj1 (parse_traits_total nm0 repr0 map22) (ex_intro _ ts Et)) as [Ht1 Ht2].
  destruct (parse_items nm0 repr0 map22) as [its|] eqn:Ei; [|vm_compute in Ei; discriminate]. destruct (parse_items_ok nm0 repr0 map22 its Ei) as (Hi & sel & Hs & F). clear Ei.
  assert (HS : exists sets, parse_sets nm0 (fun l => l) map22 [] [] = Ok (Some sets)) by (eexists; vm_compute; reflexivity). apply parse_sets_total in HS as [Hs1 Hs2].
  split; [apply (proj1 (names_total nm0 low map22)); eexists; vm_compute; reflexivity|]. split; [exact Ht1|]. split; [exact Ht2|]. split; [exact Hs1|]. split; [|split; [|split; [exact Hi | exists sel, its; auto]]].
  - intros x Hx Hk. split; [exact (Hs2 x Hx Hk)|]. intros n Hn. apply getn_iff in Hn; [|reflexivity]. apply (proj2 (of_type_iff nm0 "TFTSetData" x eq_refl)) in Hk. clear - Hx Hk Hn. unfold map22 in Hx. cbn [In] in Hx.
    repeat (destruct Hx as [<-|Hx]; [try (vm_compute in Hk; discriminate Hk); vm_compute in Hn; injection Hn as <-; eauto|]). destruct Hx.
  - intros x Hx Hk. pose proof (parse_traits_ok nm0 repr0 map22 ts Et) as Hts.
    destruct (parse_champ nm0 repr0 low exist load VFloat (lit "in") (by_path (filter (of_type nm0 (lit "TFTCharacterRoleData")) map22)) ts x) as [o|] eqn:Eo.
    2:{ exfalso. vm_compute in Et. injection Et as <-. apply (proj2 (of_type_iff nm0 "TftShopData" x eq_refl)) in Hk. clear - Hx Hk Eo. unfold map22 in Hx at 1. cbn [In] in Hx. repeat (destruct Hx as [<-|Hx]; [try (vm_compute in Hk; discriminate Hk); vm_compute in Eo; discriminate Eo|]). destruct Hx. }
    pose proof (parse_champ_ok nm0 repr0 low exist load VFloat (lit "in") map22 ts Hts x o Hk Eo) as Ho.
    assert (Hc : champ_entry nm0 low exist load (lit "in") x -> exists c, champ_of nm0 repr0 low exist load VFloat (lit "in") map22 x c) by (intros He; destruct o as [[n c]|]; [exists c; exact (proj1 Ho) | contradiction]).
    apply (proj2 (of_type_iff nm0 "TftShopData" x eq_refl)) in Hk.
    assert (Hvi : usable_spells nm0 vi) by (intros y Hy Hky; apply (proj2 (of_type_iff nm0 "SpellObject" y eq_refl)) in Hky; destruct Hy as [<-|[]]; vm_compute in Hky; discriminate Hky).
    assert (E : x = ent 11 "TftShopData" [sf "mName" (st "TFT1_Vi"); sf "mDisplayNameTra" (st "k3")]).
    { clear - Hx Hk. unfold map22 in Hx. cbn [In] in Hx. repeat (destruct Hx as [<-|Hx]; [try (vm_compute in Hk; discriminate Hk); reflexivity|]). destruct Hx. }
    exists (lit "TFT1_Vi"). split; [rewrite E; apply getn_iff; [reflexivity | vm_compute; reflexivity]|]. intros file _ Hf.
    apply file_iff in Hf. vm_compute in Hf. injection Hf as <-. exists vi. split; [vm_compute; reflexivity | split; assumption].
Qed.
Local Definition none : template := {| tp_traits := []; tp_champs := []; tp_sets := []; tp_data := []; tp_items := [] |}.
Local Definition tmpl : template := Eval vm_compute in match built with Ok t => t | Err _ => none end.
Local Definition tmpl' : template := Eval vm_compute in match translate (fun _ => 0) (fun _ => 0) low swap tmpl with Ok t => t | Err _ => none end.
Local Lemma tmpl_built : build_template nm0 repr0 low (fun l => l) exist load VFloat (lit "in") map22 = Ok tmpl.
Proof. vm_compute. reflexivity. Qed.
Local Lemma tmpl_translated : translate (fun _ => 0) (fun _ => 0) low swap tmpl = Ok tmpl'.
Proof. vm_compute. reflexivity. Qed.
(** A text which is itself a key is translated again in traits and champions, not in items. *)
Theorem C60_twice_refuted : exists es tr t t', build_template nm0 repr0 low (fun l => l) exist load VFloat (lit "in") es = Ok t /\ translate (fun _ => 0) (fun _ => 0) low tr t = Ok t' /\
  (exists h x y, dget h (tp_traits t) = Some x /\ dget h (tp_traits t') = Some y /\ ~ trait_translated (fun _ => 0) (fun _ => 0) low tr x y) /\
  (exists k x y, dget k (tp_champs t) = Some x /\ dget k (tp_champs t') = Some y /\ ~ champ_translated (fun _ => 0) (fun _ => 0) low tr x y) /\
  Forall2 (item_translated (fun _ => 0) (fun _ => 0) low tr) (tp_items t) (tp_items t').
Proof.
  exists map22, swap, tmpl, tmpl'. split; [exact tmpl_built|]. split; [exact tmpl_translated|]. pose proof (translate_ok _ _ _ _ _ _ tmpl_translated) as (_ & _ & _ & _ & HI). split; [|split; [|exact HI]]; clear HI.
  - exists 1. eexists. eexists. split; [vm_compute; reflexivity|]. split; [vm_compute; reflexivity|]. intros (H & _). cbn [tr_name] in H.
    destruct H as [(u & H & E)|[H E]]; [|discriminate]. injection E as <-. inversion H as [d s u' Ed Es| | |]; try discriminate. injection Ed as <-. vm_compute in Es. discriminate.
  - exists (lit "tft1_vi"). eexists. eexists. split; [vm_compute; reflexivity|]. split; [vm_compute; reflexivity|]. intros (_ & H & _). cbn [ch_traits] in H. inversion H as [|a b l l' Hab _]; subst.
    destruct Hab as [(u & Hu & E)|[_ E]]; [|discriminate]. injection E as <-. inversion Hu as [d s u' Ed Es| | |]; try discriminate. injection Ed as <-. vm_compute in Es. discriminate.
Qed.
Print Assumptions C60_twice_refuted.
