(** * C30, C31: access to BIN objects, JSON form *)

From Verif Require Import Base.TextFacts Spec.BinSpec Spec.BinAccessSpec Model.BinFile Proofs.BinProofs Proofs.BinAccessProofs.

Local Definition ks (p : String.string) : bkey := KStr (lit p).
Arguments ks p%string_scope.

(** ** C30 *)

(** [obj[k]] is the first field named [k]: by hash, by number or by name. *)
Theorem C30_lookup k h fs : denotes k h ->
  (forall f, getitem fs k = Ok f <-> first_named h fs f) /\ (getitem fs k = Err KeyError <-> absent h fs).
Proof. intros H. split; [intros f; exact (getitem_first k h fs f H) | exact (getitem_absent k h fs H)]. Qed.
Print Assumptions C30_lookup.
(** Keys designating the same hash are interchangeable. *)
Theorem C30_same_key k k' h fs : denotes k h -> denotes k' h -> getitem fs k = getitem fs k'.
Proof. intros H H'. apply denotes_key in H, H'. unfold getitem. rewrite H, H'. reflexivity. Qed.
Print Assumptions C30_same_key.
Theorem C30_case s t fs : Forall2 same_case s t -> getitem fs (KStr s) = getitem fs (KStr t).
Proof. intros H. unfold getitem, key_to_hash. rewrite (case_hash s t H). reflexivity. Qed.
Print Assumptions C30_case.
Local Definition sample : list bfield :=
  [(0xbf9cf968, TU8, VInt 1); (0xe40c292c, TEmbedded, VEmbedded 9 [(0xbf9cf968, TOption, VOption TU8 (Some (VInt 5))); (7, TU8, VInt 6)]); (0xbf9cf968, TU8, VInt 2)].
Example C30_lookup_ex : denotes (ks "FooBar") 0xbf9cf968 /\ denotes (ks "") 0x811c9dc5 /\ denotes (KInt 7) 7 /\
  getitem sample (ks "FOOBAR") = Ok (0xbf9cf968, TU8, VInt 1) /\ getitem sample (KBin 0xbf9cf968) = Ok (0xbf9cf968, TU8, VInt 1) /\
  getitem sample (ks "b") = Err KeyError /\ Forall2 same_case (lit "Foo") (lit "fOO").
Proof.
  split; [apply denotes_key; vm_compute; reflexivity|]. split; [apply denotes_key; vm_compute; reflexivity|]. split; [apply (D_int 7)|].
  repeat (split; [vm_compute; reflexivity|]). repeat constructor; unfold same_case; cbn; lia.
Qed.

(** [in], [get] and [getv] agree with [obj[k]]. *)
Theorem C30_agree fs k d :
  contains fs k = match getitem fs k with Ok _ => Ok true | Err KeyError => Ok false | Err er => Err er end /\
  get fs k d = match getitem fs k with Ok f => Ok (Some f) | Err KeyError => Ok d | Err er => Err er end /\
  (forall r, getv fs k = Ok r <-> (exists f, getitem fs k = Ok f /\ plain_value (snd f) r) \/ (getitem fs k = Err KeyError /\ r = RDefault)).
Proof. split; [exact (proj1 (agree fs k d))|]. split; [exact (proj1 (proj2 (agree fs k d))) | exact (getv_plain fs k)]. Qed.
Print Assumptions C30_agree.
(** The only other error is ValueError, for names which are not ASCII. *)
Theorem C30_errors fs k er : getitem fs k = Err er -> er = KeyError \/ er = ValueError /\ exists s, k = KStr s /\ ~ Forall (fun c => c < 128) s.
Proof. exact (getitem_errors fs k er). Qed.
Print Assumptions C30_errors.
Example C30_agree_ex : contains sample (ks "A") = Ok true /\ contains sample (KInt (-1)) = Ok false /\ contains sample (KStr [233]) = Err ValueError /\
  getv sample (ks "foobar") = Ok (RVal (VInt 1)).
Proof. repeat split; vm_compute; reflexivity. Qed.

(** Assigning a field to its own name. *)
Theorem C30_set fs k f : denotes k (fst (fst f)) -> exists fs', setitem fs k f = Ok fs' /\ getitem fs' k = Ok f /\
  (forall k' h', denotes k' h' -> h' <> fst (fst f) -> getitem fs' k' = getitem fs k') /\
  ((absent (fst (fst f)) fs /\ fs' = fs ++ [f]) \/
   exists l1 g l2, fs = l1 ++ g :: l2 /\ fst (fst g) = fst (fst f) /\ absent (fst (fst f)) l1 /\ fs' = l1 ++ f :: l2).
Proof. exact (set_spec fs k f). Qed.
Print Assumptions C30_set.
Example C30_set_ex : denotes (ks "foobar") 0xbf9cf968 /\
  rbind (setitem sample (ks "foobar") (0xbf9cf968, TBool, VBool true)) (fun fs => Ok (map (fun f => snd f) fs)) =
  Ok [VBool true; VEmbedded 9 [(0xbf9cf968, TOption, VOption TU8 (Some (VInt 5))); (7, TU8, VInt 6)]; VInt 2].
Proof. split; [apply denotes_key; vm_compute; reflexivity | vm_compute; reflexivity]. Qed.
(** The name of the field is not checked: a field with another name may be assigned, and is not found then. *)
Theorem C30_set_name_refuted : exists fs k f fs', setitem fs k f = Ok fs' /\ getitem fs' k <> Ok f.
Proof.
  exists [], (ks "foobar"), (1, TBool, VBool true), [(1, TBool, VBool true)]. split; [vm_compute; reflexivity|].
  vm_compute. discriminate.
Qed.
Print Assumptions C30_set_name_refuted.

(** [get_path] follows successive fields, or gives the default at the first missing one. *)
Theorem C30_path fs ks v r : follows fs ks v -> plain_value v r -> get_path fs ks = Ok r.
Proof. intros H Hr. apply plain_iff in Hr. rewrite <- Hr. exact (get_path_follows fs ks v H). Qed.
Print Assumptions C30_path.
Theorem C30_path_default fs ks : misses fs ks -> get_path fs ks = Ok RDefault.
Proof. exact (get_path_misses fs ks). Qed.
Print Assumptions C30_path_default.
Theorem C30_path_only fs ks r : ks <> [] -> get_path fs ks = Ok r -> r <> RDefault -> exists v, follows fs ks v /\ plain_value v r.
Proof.
  intros Hk E Hr. destruct (get_path_only fs ks r Hk E Hr) as (v & Hv & ->). exists v. split; [exact Hv | apply plain_iff; reflexivity].
Qed.
Print Assumptions C30_path_only.
Example C30_path_ex : follows sample [ks "a"; ks "Foobar"] (VOption TU8 (Some (VInt 5))) /\ misses sample [ks "a"; ks "b"; ks "c"] /\
  get_path sample [ks "a"; ks "Foobar"] = Ok (RVal (VInt 5)).
Proof.
  assert (Ha : denotes (ks "a") 0xe40c292c) by (apply denotes_key; vm_compute; reflexivity).
  assert (Hf : denotes (ks "Foobar") 0xbf9cf968) by (apply denotes_key; vm_compute; reflexivity).
  assert (Hb : denotes (ks "b") 0xe70c2de5) by (apply denotes_key; vm_compute; reflexivity).
  assert (H1 : first_named 0xe40c292c sample (nth 1 sample (0, TU8, VInt 0))) by (apply find_first; vm_compute; reflexivity).
  split; [|split; [|vm_compute; reflexivity]].
  - eapply F_more; [exact Ha | exact H1 | reflexivity|].
    apply (F_one _ _ 0xbf9cf968 (0xbf9cf968, TOption, VOption TU8 (Some (VInt 5))) Hf). apply find_first. vm_compute. reflexivity.
  - eapply M_later; [exact Ha | exact H1 | reflexivity|]. apply (M_here _ _ _ _ Hb). apply find_absent. vm_compute. reflexivity.
Qed.

(** Comparison with a text: by hash when the name is unknown, so regardless of case. *)
Theorem C30_compare h t : Forall (fun c => c < 128) t -> exists b, hash_eq_str compute_binhash h None t = Ok b /\ (b = true <-> name_hash t h).
Proof.
  intros Ht. cbn [hash_eq_str]. destruct (compute_binhash t) as [n|er] eqn:E.
  - cbn [rbind]. exists (h =? n). split; [reflexivity|]. rewrite N.eqb_eq, <- binhash_iff, E. split; congruence.
  - exfalso. unfold compute_binhash in E. destruct (forallb _ t) eqn:Ef; [discriminate|]. apply Bool.not_true_iff_false in Ef. apply Ef.
    apply forallb_forall. rewrite Forall_forall in Ht. intros c Hc. apply N.ltb_lt, Ht, Hc.
Qed.
Print Assumptions C30_compare.
(** When it is known the case matters: the result depends on the hash lists. *)
Theorem C30_compare_known_refuted : exists h s t, name_hash s h /\ name_hash t h /\
  hash_eq_str compute_binhash h None t = Ok true /\ hash_eq_str compute_binhash h (Some s) t = Ok false.
Proof.
  exists 0xbf9cf968, (lit "FooBar"), (lit "foobar"). split; [apply binhash_iff; vm_compute; reflexivity|]. split; [apply binhash_iff; vm_compute; reflexivity|].
  split; vm_compute; reflexivity.
Qed.
Print Assumptions C30_compare_known_refuted.

(** ** C31 *)

(** With right names, none looking like "{...}", hashes are shown differently. *)
Theorem C31_names hash w known h h' s : faithful hash known -> shown w known h s -> shown w known h' s -> h = h'.
Proof. intros HF H H'. apply shown_str in H, H'. apply (hash_str_inj hash w known); [exact HF | congruence]. Qed.
Print Assumptions C31_names.

(** All members of objects, lists and maps are kept, at any depth. *)
Theorem C31_values nm path_hash v : faithful compute_binhash (n_field nm) -> faithful compute_binhash (n_hash nm) ->
  faithful compute_binhash (n_entry nm) -> faithful path_hash (n_path nm) -> clean nm v ->
  exists y, ser nm v = Ok y /\ json nm v y.
Proof. intros Ff Fh Fe Fp. exact (clean_json nm path_hash Ff Fh Fe Fp v). Qed.
Print Assumptions C31_values.
(** In particular an object without repeated names has one member per field, and its type. *)
Theorem C31_count nm path_hash h fs : faithful compute_binhash (n_field nm) -> faithful compute_binhash (n_hash nm) ->
  faithful compute_binhash (n_entry nm) -> faithful path_hash (n_path nm) -> clean_fields nm fs ->
  exists d, ser nm (VEmbedded h fs) = Ok (PObj d) /\ lenN d = lenN fs + 1.
Proof.
  intros Ff Fh Fe Fp Hc. destruct (clean_members nm path_hash Ff Fh Fe Fp h fs Hc) as (d & Ed & Hd). exists d. rewrite ser_embedded. split; [exact Ed|].
  inversion Hd as [h0 fs0 ds t HF Ht]; subst. rewrite lenN_app, lenN_cons, lenN_nil.
  assert (E : lenN fs = lenN ds) by (clear -HF; induction HF; [reflexivity|]; rewrite !lenN_cons; congruence). rewrite E. lia.
Qed.
Print Assumptions C31_count.
(** A whole file: all entries, the linked files and the patches. *)
Theorem C31_file nm path_hash f : faithful compute_binhash (n_field nm) -> faithful compute_binhash (n_hash nm) ->
  faithful compute_binhash (n_entry nm) -> faithful path_hash (n_path nm) -> clean_file nm f ->
  exists y, ser_file nm f = Ok y /\ json_file nm f y.
Proof. intros Ff Fh Fe Fp. exact (clean_file_json nm path_hash Ff Fh Fe Fp f). Qed.
Print Assumptions C31_file.

Local Definition table (l : list str) (h : N) : option str := find (fun s => match compute_binhash s with Ok n => n =? h | Err _ => false end) l.
Local Definition sample_names : names :=
  {| n_field := table [lit "foobar"; lit "a"]; n_type := table []; n_hash := table [lit "a"]; n_entry := table []; n_path := fun _ => None |}.
Local Definition sample_object : bval :=
  VEmbedded 5 [(0xbf9cf968, TMap, VMap THash TList [(VHash 0xe40c292c, VList TU8 [VInt 1; VInt 2]); (VHash 3, VList TU8 [])]); (4, TStruct, VStruct 0 [])].
Lemma table_faithful l : forallb (fun s => match s with c :: _ => negb (c =? 123) | [] => true end) l = true -> faithful compute_binhash (table l).
Proof.
  intros Hl h s E. unfold table in E. apply find_some in E as [Hi E]. destruct (compute_binhash s) as [n|] eqn:En; [|discriminate].
  apply N.eqb_eq in E. subst n. split; [reflexivity|]. intros (t & ->). rewrite forallb_forall in Hl. specialize (Hl _ Hi). discriminate.
Qed.
Example C31_ex : faithful compute_binhash (n_field sample_names) /\ faithful compute_binhash (n_hash sample_names) /\
  faithful compute_binhash (n_entry sample_names) /\ faithful (fun _ => Err ValueError) (n_path sample_names) /\ clean sample_names sample_object /\
  ser sample_names sample_object = Ok (PObj [(lit "foobar", PMap [(PStr (lit "a"), PList [PInt 1; PInt 2]); (PStr (lit "{00000003}"), PList [])]);
    (lit "{00000004}", PNone); (lit "__type", PStr (lit "{00000005}"))]).
Proof.
  split; [apply table_faithful; reflexivity|]. split; [apply table_faithful; reflexivity|]. split; [apply table_faithful; reflexivity|].
  split; [intros h s; discriminate|]. split; [|vm_compute; reflexivity].
  apply C_embedded, Clean_fields.
  - repeat constructor; cbn; intros H; repeat (destruct H as [H|H]; [discriminate|]); exact H.
  - intros f Hf Hs. apply shown_str in Hs. cbn [In] in Hf. destruct Hf as [<-|[<-|[]]]; vm_compute in Hs; discriminate.
  - constructor; [|constructor; [|constructor]]; cbn [snd].
    + apply (C_map _ _ _ _ 7).
      * repeat constructor.
      * constructor; [constructor; [|constructor]|constructor; constructor]. cbn [fst]. intros Hs. inversion Hs.
      * constructor; [|constructor; [|constructor]]; cbn [snd]; apply C_list; repeat constructor; discriminate.
    + apply C_null.
Qed.
(** A field named "__type" is lost. *)
Theorem C31_type_refuted : exists nm fs, faithful compute_binhash (n_field nm) /\ NoDup (map (fun f : bfield => fst (fst f)) fs) /\
  exists d, ser nm (VEmbedded 5 fs) = Ok (PObj d) /\ lenN d = lenN fs.
Proof.
  exists {| n_field := table [lit "__type"]; n_type := table []; n_hash := table []; n_entry := table []; n_path := fun _ => None |}.
  exists [(match compute_binhash (lit "__type") with Ok n => n | Err _ => 0 end, TU8, VInt 1)].
  split; [apply table_faithful; reflexivity|]. split; [constructor; [intros []|constructor]|]. eexists. split; vm_compute; reflexivity.
Qed.
Print Assumptions C31_type_refuted.
(** Two hashes known by the same name are confused. *)
Theorem C31_names_refuted : exists nm fs, NoDup (map (fun f : bfield => fst (fst f)) fs) /\
  exists d, ser nm (VEmbedded 5 fs) = Ok (PObj d) /\ lenN d = lenN fs.
Proof.
  exists {| n_field := fun _ => Some (lit "a"); n_type := table []; n_hash := table []; n_entry := table []; n_path := fun _ => None |}.
  exists [(1, TU8, VInt 1); (2, TU8, VInt 1)].
  split; [repeat constructor; cbn; intros H; repeat (destruct H as [H|H]; [discriminate|]); exact H|]. eexists. split; vm_compute; reflexivity.
Qed.
Print Assumptions C31_names_refuted.
