(** * C61: Arena data *)

From Verif Require Import Base.Py Base.PyFacts Base.Text Base.TextFacts Spec.DictSpec Spec.BinAccessSpec Spec.GameDataSpec Spec.TftSpec Spec.TftChampSpec Spec.TftExportSpec Spec.ArenaSpec Model.BinFile Model.Rst Model.Translations Model.Tft Model.Arena.
From Verif Require Import Proofs.GameDataProofs Proofs.TftProofs Proofs.TftSetProofs Proofs.TftExportProofs Proofs.ArenaProofs Props.RstProps.

Section Arena.
Variable nm : names.
Variable repr : pyres -> str.
Variable plower : str -> str.
Variable xxh3 xxh64 : str -> N.

(** There is one augment for each enabled entry, in order, with the data of the entry and of its spell. *)
Theorem C61_augments es l : parse_augments nm repr plower es = Ok l -> exists sel, picks (fun x => of_kind nm "AugmentData" x /\ enabled x) es sel /\ Forall2 (augment_of nm repr plower es) sel l.
Proof. exact (parse_augments_ok nm repr plower es l). Qed.

(** It succeeds exactly when the spell of every enabled augment can be found and read. *)
Theorem C61_succeeds es : right_names nm ->
  (forall x y w a h f, In x es -> In y es -> of_kind nm "SpellObject" y -> field_value "mSpell" (be_fields y) RNone (RVal w) -> object_fields w = Some a ->
     name_hash (lit "mSpellCalculations") h -> first_named h a f -> clean nm (snd f)) ->
  ((exists l, parse_augments nm repr plower es = Ok l) <-> forall x, In x es -> of_kind nm "AugmentData" x -> enabled x -> exists s, root_spell nm es x s /\ readable s).
Proof. exact (parse_augments_total nm repr plower es). Qed.

(** A link to a spell which is not in the map makes the whole export fail, even the null link. *)
Theorem C61_foreign es x h : In x es -> of_kind nm "AugmentData" x -> enabled x -> field_value "RootSpell" (be_fields x) RNone (RVal (VLink h)) ->
  (forall y, In y es -> be_path y = h -> ~ of_kind nm "SpellObject" y) -> forall l, parse_augments nm repr plower es <> Ok l.
Proof.
  intros Hx Hk He Hr Hn l E. unfold parse_augments in E. assert (Hin : In x (filter (of_type nm (lit "AugmentData")) es)) by (apply filter_In; split; [exact Hx | apply of_type_iff; [reflexivity | exact Hk]]).
  destruct (list_loop_all _ _ _ E x Hin) as ([a|] & Eo); apply parse_augment_ok in Eo; [|exact (Eo He)]. destruct Eo as (_ & _ & s & Hs & _). destruct Hs as [r Hr' Hf|v y w a' Hv Hnf Hy Hw Ha].
  - rewrite (field_value_fun "RootSpell" _ _ _ _ eq_refl Hr' Hr) in Hf. inversion Hf.
  - pose proof (field_value_fun "RootSpell" _ _ _ _ eq_refl Hv Hr) as Ev. injection Ev as ->. destruct Hy as (h' & Hh & pre & post & -> & Hp & Hky & _). inversion Hh as [v h0 Hv'| |]; subst. inversion Hv'; subst. exact (Hn y (in_elt _ _ _) eq_refl Hky).
Qed.

(** Every augment is translated once: its name, its description, its tooltip. *)
Theorem C61_translated r l : exists l', augments_in plower xxh3 xxh64 r l = Ok l' /\ Forall2 (augment_translated xxh3 xxh64 plower r) l l'.
Proof.
  assert (Hr : forall v, exists v', replace xxh3 xxh64 plower (FromRst r) v = Ok v').
  { intros v. unfold replace, translation. destruct (C32_agree xxh3 xxh64 plower r (rkey_of v) None) as [(_ & x & _ & ->)|(_ & _ & ->)]; cbn [rbind]; eauto. }
  unfold augments_in. induction l as [|a l (l' & E & F)]; cbn [rmapM]; [eauto|].
  destruct (Hr (au_name a)) as (n & En). destruct (Hr (au_desc a)) as (d & Ed). destruct (Hr (au_tooltip a)) as (t & Et).
  destruct (translate_augment plower xxh3 xxh64 r a) as [b|e] eqn:Eb; [|unfold translate_augment in Eb; rewrite En, Ed, Et in Eb; discriminate].
  cbn [rbind]. rewrite E. cbn [rbind]. eexists. split; [reflexivity|]. constructor; [apply translate_augment_ok, Eb | exact F].
Qed.
End Arena.
Print Assumptions C61_augments.
Print Assumptions C61_succeeds.
Print Assumptions C61_foreign.
Print Assumptions C61_translated.

Local Definition bh (s : String.string) : N := match compute_binhash (lit s) with Ok h => h | Err _ => 0 end.
Arguments bh s%string_scope.
Local Definition sf (k : String.string) (v : bval) : bfield := (bh k, TString, v).
Arguments sf k%string_scope v.
Local Definition st (s : String.string) : bval := VStr (lit s).
Arguments st s%string_scope.
Local Definition ent (path : N) (type : String.string) (fs : list bfield) : bentry := {| be_path := path; be_type := bh type; be_fields := fs |}.
Arguments ent path type%string_scope fs.
Local Definition nm0 : names := {| n_field := fun _ => None; n_type := fun _ => None; n_hash := fun _ => None; n_entry := fun _ => None; n_path := fun _ => None |}.
Local Definition repr0 (_ : pyres) : str := lit "?".
Local Definition low (s : str) : str := map (fun c => if (65 <=? c) && (c <=? 90) then c + 32 else c) s.
Local Definition emb (fs : list bfield) : bval := VEmbedded 5 fs.
Local Definition map30 : list bentry := [
  ent 1 "AugmentData" [sf "AugmentNameId" (st "One"); sf "NameTra" (st "k1"); sf "RootSpell" (VLink 9); sf "AugmentSmallIconPath" (st "A/B.dds"); sf "rarity" (VInt 2)];
  ent 2 "AugmentData" [sf "AugmentNameId" (st "Two"); sf "enabled" (VBool false); sf "RootSpell" (VLink 77)];
  ent 3 "AugmentData" [sf "AugmentNameId" (st "Three")];
  ent 9 "SpellObject" [sf "mSpell" (emb [sf "mDataValues" (VList TEmbedded [
    emb [sf "mName" (st "x"); sf "mValues" (VList TFloat [VInt 5; VInt 6])]; emb [sf "mName" (st "y")]; emb [sf "mName" (st "x"); sf "values" (VList TFloat [VInt 7; VInt 8])]]);
    sf "mSpellCalculations" (VMap THash TS32 [(VHash 1, VInt 3)])])]].
Example C61_ex : rmap (map (fun a => (au_api a, au_small a, au_rarity a, au_values a, au_calculations a))) (parse_augments nm0 repr0 low map30) = Ok [
  (RVal (st "One"), lit "a/b.png", RVal (VInt 2), [(RVal (st "x"), RList [VInt 7; VInt 8]); (RVal (st "y"), RVal (VInt 0))], PMap [(PStr (lit "{00000001}"), PInt 3)]);
  (RVal (st "Three"), lit "none", RVal (VInt 0), [], PObj [])].
Proof. vm_compute. reflexivity. Qed.
Example C61_foreign_ex : parse_augments nm0 repr0 low (map30 ++ [ent 4 "AugmentData" [sf "RootSpell" (VLink 0)]]) = Err KeyError.
Proof. vm_compute. reflexivity. Qed.
(** An older list of values which is empty makes the export fail, even if there are newer values. *)
Theorem C61_eager_refuted : exists es x, In x es /\ of_kind nm0 "AugmentData" x /\ enabled x /\ (exists fs, present "values" fs (RList [VInt 1]) /\ In (emb fs) [emb [sf "name" (st "x"); sf "values" (VList TFloat [VInt 1]); sf "mValues" (VList TFloat [])]]) /\
  parse_augments nm0 repr0 low es = Err IndexError.
Proof.
  exists [ent 1 "AugmentData" [sf "RootSpell" (VLink 9)]; ent 9 "SpellObject" [sf "mSpell" (emb [sf "DataValues" (VList TEmbedded [emb [sf "name" (st "x"); sf "values" (VList TFloat [VInt 1]); sf "mValues" (VList TFloat [])]])])]].
  eexists. split; [left; reflexivity|]. split; [apply of_type_iff; [reflexivity | vm_compute; reflexivity]|].
  split; [eexists; split; [apply (getd_iff "enabled"); [reflexivity|]; vm_compute; reflexivity | intros H; inversion H]|].
  split; [eexists; split; [|left; reflexivity] | vm_compute; reflexivity].
  eapply present_value; [reflexivity | apply contains_true; [reflexivity | vm_compute; reflexivity] | apply (getn_iff "values"); [reflexivity|]; vm_compute; reflexivity].
Qed.
Print Assumptions C61_eager_refuted.

(** Values without a name are not accumulated: at most one is kept. *)
Fixpoint none_once (d : list (pyres * pyres)) : Prop := match d with [] => True | (k, _) :: t => none_once t /\ (k = RNone -> ~ In RNone (map fst t)) end.
Lemma none_once_set k v d : none_once d -> none_once (res_set k v d).
Proof.
  induction d as [|[k' x] d IH]; cbn [res_set none_once]; intros H; [split; [exact I | intros _ []]|]. destruct H as [Hd Hk].
  destruct (res_eq k k') eqn:Ek; cbn [none_once]; [split; assumption|]. split; [apply IH, Hd|]. intros -> Hin.
  apply in_map_iff in Hin as ((k1 & y) & E1 & Hin). cbn [fst] in E1. subst k1. apply res_from in Hin as [_ [E|Hin]]; [subst k; discriminate Ek | exact (Hk eq_refl Hin)].
Qed.
Theorem C61_unnamed l d : data_values l [] = Ok d -> forall d1 v d2 v' d3, d <> d1 ++ (RNone, v) :: d2 ++ (RNone, v') :: d3.
Proof.
  assert (G : forall l d0 d, none_once d0 -> data_values l d0 = Ok d -> none_once d).
  { clear. induction l as [|x l IH]; intros d0 d H; cbn [data_values]; [intros [= <-]; exact H|].
    destruct (data_value x) as [[n m]|e]; cbn [rbind]; [|intros E; discriminate E]. destruct n; intros E; try discriminate E; exact (IH _ _ (none_once_set _ _ _ H) E). }
  intros E d1 v d2 v' d3 ->. apply G in E; [|exact I]. induction d1 as [|[k x] d1 IH]; cbn [app none_once] in E; destruct E as [E1 E2].
  - apply (E2 eq_refl). rewrite map_app. apply in_or_app. right. left. reflexivity.
  - exact (IH E1).
Qed.
Print Assumptions C61_unnamed.
Example C61_unnamed_ex : data_values [emb [sf "mValues" (VList TFloat [VInt 1])]; emb [sf "name" (st "x")]; emb [sf "mValues" (VList TFloat [VInt 2])]] [] =
  Ok [(RNone, RVal (VInt 2)); (RVal (VStr (lit "x")), RVal (VInt 0))].
Proof. vm_compute. reflexivity. Qed.
