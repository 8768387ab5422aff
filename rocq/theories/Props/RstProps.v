(** * C32: string tables (RST files) *)

From Verif Require Import Base.TextFacts Base.BinFacts Model.Rst Spec.Utf8Spec Spec.DictSpec Spec.RstSpec
  Proofs.Utf8Proofs Proofs.DictProofs Proofs.RstProofs.

(** What a stored content reads as: text (invalid UTF-8 replaced), or base64 of a marked block. *)
Local Definition reads_as (c : content) (s : str) : Prop :=
  match c with CText raw => s = utf8_dec_replace raw | CBlock raw => base64 s raw end.

(** C32: a file laying out a table yields exactly this table, the last row winning. *)
Theorem C32_decode version game f rows trenc data :
  rst_ok version game f rows trenc data ->
  exists r texts, prun (parse_rst game) (rst_layout version game f rows trenc data) = Ok r /\
    r_version r = version /\ r_game r = game /\ r_bits r = width version game /\
    r_font r = (match f with FNone => None | FSome _ s => Some s end) /\
    Forall2 reads_as (map snd rows) texts /\
    NoDup (map fst (r_entries r)) /\
    forall h, last_value h (combine (map (fun x => fst (fst x)) rows) texts) (dget h (r_entries r)).
Proof.
  intros H. eexists. exists (map (fun x : row => text_of (snd x)) rows).
  split; [exact (rst_decode _ _ _ _ _ _ H)|]. cbn [r_version r_game r_bits r_font r_entries].
  do 4 (split; [reflexivity|]). split; [|split].
  - clear H. induction rows as [|[[h off] c] rows IH]; cbn [map]; constructor; [|exact IH].
    destruct c as [raw|raw]; cbn [snd text_of reads_as]; [reflexivity | apply b64encode_ok].
  - apply dict_of_NoDup.
  - intros h. replace (combine _ _) with (map (fun x : row => (fst (fst x), text_of (snd x))) rows); [apply dict_of_last|].
    clear H. induction rows as [|x rows IH]; [reflexivity|]. cbn [map combine]. f_equal. exact IH.
Qed.
Print Assumptions C32_decode.
Local Definition sample_data : bytes := bl "caf" ++ map n2b [195; 169; 0; 255; 3; 0; 1; 0; 2] ++ bl "end" ++ [x00].
Local Definition sample_rows : list row :=
  [(5, 0, CText (bl "caf" ++ map n2b [195; 169])); (2 ^ 39, 6, CBlock (map n2b [1; 0; 2])); (5, 12, CText (bl "end"))].
Example C32_decode_ex :
  rst_ok 2 1300 (FSome 1 (lit "fc")) sample_rows 1 sample_data /\
  rmap r_entries (prun (parse_rst 1300) (rst_layout 2 1300 (FSome 1 (lit "fc")) sample_rows 1 sample_data)) =
  Ok [(5, lit "end"); (2 ^ 39, lit "AQAC")].
Proof.
  split; [|vm_compute; reflexivity].
  split; [lia|]. split; [cbn; repeat split; try lia; repeat constructor; unfold scalar; lia|].
  split; [cbn; lia|]. split; [lia|]. change (width 2 1300) with 40. change ((2 <? 5) && negb (1 =? 0)) with true.
  unfold sample_rows. apply Forall_cons; [|apply Forall_cons; [|apply Forall_cons; [|apply Forall_nil]]]; (split; [reflexivity|]; split; [reflexivity|]).
  - exists [], (dropN 6 sample_data). split; [reflexivity|]. split; [vm_compute; reflexivity|].
    split; [vm_compute; intuition discriminate | intros _ r; vm_compute; discriminate].
  - exists (takeN 6 sample_data), (dropN 12 sample_data). split; [reflexivity|]. split; [vm_compute; reflexivity|]. split; [reflexivity | cbn; lia].
  - exists (takeN 12 sample_data), []. split; [reflexivity|]. split; [vm_compute; reflexivity|].
    split; [vm_compute; intuition discriminate | intros _ r; vm_compute; discriminate].
Qed.

(** C32: base64 texts determine the block. *)
Theorem C32_block_injective s b1 b2 : base64 s b1 -> base64 s b2 -> b1 = b2.
Proof. intros H1 H2. exact (base64_fun s b1 H1 b2 H2). Qed.
Print Assumptions C32_block_injective.

(** C32: every accepted file has such a header, so files of another format, of another version, or cut
    before their data are rejected. *)
Theorem C32_accepted game b r : prun (parse_rst game) b = Ok r ->
  exists version f rows trenc data, 2 <= version <= 5 /\ font_ok version f /\
    Forall (fun x : N * N => fst x < 2 ^ width version game /\ snd x < 2 ^ (64 - width version game)) rows /\
    b = rst_layout version game f (map (fun x => (x, CText [])) rows) trenc data /\
    r_version r = version /\ r_bits r = width version game /\
    (forall h, In h (map fst (r_entries r)) -> In h (map fst rows)).
Proof.
  intros E. apply rst_accepted in E as (v & f & rows & t & data & Hv & Hf & Hn & Ht & HF & -> & Ed & _ & Ev & Eb & _).
  exists v, f, rows, t, data. split; [assumption|]. split; [assumption|]. split; [assumption|]. split.
  - unfold rst_layout, rst_head. rewrite lenN_map, <- !app_assoc. repeat f_equal.
    clear. induction rows as [|x rows IH]; [reflexivity|]. cbn [map flat_map fst snd]. f_equal. exact IH.
  - split; [assumption|]. split; [assumption|].
    assert (G : forall fl es d d', rst_fill fl data es d = Ok d' -> forall h, In h (map fst d') -> In h (map snd es) \/ In h (map fst d)).
    { intros fl. induction es as [|[i h] es IH]; intros d d' E k Hk; cbn [rst_fill] in E.
      - right. congruence.
      - apply rbind_Ok in E as (s & _ & E). destruct (IH _ _ E k Hk) as [H|H]; cbn [map In snd]; [auto|].
        apply (proj1 (dset_In_keys _ _ _ _)) in H as [H|H]; auto. }
    intros h Hh. destruct (G _ _ _ _ Ed h Hh) as [H|[]]. rewrite map_map in H. cbn [snd] in H. exact H.
Qed.
Print Assumptions C32_accepted.
Theorem C32_rejects_magic game b : 4 <= lenN b -> takeN 3 b <> bl "RST" -> prun (parse_rst game) b = Err ValueError.
Proof. exact (rst_rejects_magic game b). Qed.
Print Assumptions C32_rejects_magic.
Theorem C32_rejects_version game v rest r : v < 256 -> ~ 2 <= v <= 5 ->
  prun (parse_rst game) (bl "RST" ++ leenc 1 v ++ rest) <> Ok r.
Proof.
  intros Hv H5 E. apply C32_accepted in E as (v' & f & rows & t & data & Hv' & _ & _ & E & _).
  unfold rst_layout in E. apply app_inv_head in E. apply app_inv_len in E as [E _]; [|reflexivity].
  assert (v = v') by (rewrite <- (ledec_enc 1 v), <- (ledec_enc 1 v'), E by (cbn; lia); reflexivity). lia.
Qed.
Print Assumptions C32_rejects_version.
Theorem C32_rejects_truncated version game f rows trenc data cut rem r :
  rst_ok version game f rows trenc data -> cut ++ rem = rst_layout version game f rows trenc data ->
  lenN data < lenN rem -> prun (parse_rst game) cut <> Ok r.
Proof.
  intros (Hv & Hf & Hn & _ & _) E Hl.
  set (hd := rst_head version game f (map (fun x : row => fst x) rows) trenc).
  assert (Eh : rst_layout version game f rows trenc data = hd ++ data).
  { subst hd. unfold rst_layout, rst_head. rewrite lenN_map, <- !app_assoc. repeat f_equal.
    clear. induction rows as [|x rows IH]; [reflexivity|]. cbn [map flat_map]. f_equal. exact IH. }
  rewrite Eh in E. assert (El : lenN cut + lenN rem = lenN hd + lenN data) by (rewrite <- !lenN_app, E; reflexivity).
  apply (head_prefix version game f (map (fun x : row => fst x) rows) trenc cut (dropN (lenN cut) hd)); try assumption.
  - rewrite lenN_map. assumption.
  - fold hd. rewrite <- (takeN_dropN (lenN cut) hd) at 2. f_equal.
    rewrite <- (takeN_app_exact cut rem), E at 1. rewrite takeN_app. replace (lenN cut - lenN hd) with 0 by lia.
    rewrite takeN_0, app_nil_r. reflexivity.
  - intros En. apply lenN_0 in En. rewrite lenN_dropN in En. lia.
Qed.
Print Assumptions C32_rejects_truncated.
Example C32_rejects_ex :
  prun (parse_rst 1502) (bl "RST" ++ leenc 1 6 ++ leenc 4 0) = Err ValueError /\
  prun (parse_rst 1502) (bl "RST" ++ leenc 1 5 ++ leenc 4 2 ++ leenc 8 7) = Err StructError.
Proof. split; vm_compute; reflexivity. Qed.

(** C32: a text without terminator (at the end of the data) loses its last byte. *)
Theorem C32_unterminated_refuted :
  exists r, prun (parse_rst 1502) (bl "RST" ++ leenc 1 5 ++ leenc 4 1 ++ leenc 8 7 ++ bl "hello") = Ok r /\
    dget 7 (r_entries r) = Some (lit "hell").
Proof. eexists. split; vm_compute; reflexivity. Qed.
Print Assumptions C32_unterminated_refuted.

(** C32: a string key is looked up by the hash of its lowercase form, kept to the width of the file. *)
Theorem C32_lookup xxh3 xxh64 plower r s :
  rst_getitem xxh3 xxh64 plower r (RStr s) =
  match dget ((if r_game r <? 1415 then xxh64 (plower s) else xxh3 (plower s)) mod 2 ^ r_bits r) (r_entries r) with
  | Some t => Ok t
  | None => Err KeyError
  end.
Proof.
  unfold rst_getitem, key_to_hash. rewrite shiftl1, N.land_ones.
  replace (if 1415 <=? r_game r then xxh3 (plower s) else xxh64 (plower s)) with
    (if r_game r <? 1415 then xxh64 (plower s) else xxh3 (plower s)).
  - destruct (dget _ _); reflexivity.
  - destruct (N.leb_spec 1415 (r_game r)), (N.ltb_spec (r_game r) 1415); try lia; reflexivity.
Qed.
Print Assumptions C32_lookup.
(** An integer key is looked up by its residue, negative or not. *)
Theorem C32_lookup_int xxh3 xxh64 plower r z :
  rst_getitem xxh3 xxh64 plower r (RInt z) =
  match dget (Z.to_N (z mod 2 ^ Z.of_N (r_bits r))) (r_entries r) with Some t => Ok t | None => Err KeyError end.
Proof.
  unfold rst_getitem, key_to_hash. rewrite shiftl1.
  replace (Z.of_N (N.ones (r_bits r))) with (Z.ones (Z.of_N (r_bits r))).
  - rewrite Z.land_ones by lia. destruct (dget _ _); reflexivity.
  - rewrite N.ones_equiv, Z.ones_equiv, N2Z.inj_pred, N2Z.inj_pow; [reflexivity|].
    apply N.neq_0_lt_0, N.pow_nonzero. lia.
Qed.
Print Assumptions C32_lookup_int.

(** C32: [in], [] and [get] agree and only ever raise KeyError. *)
Theorem C32_agree xxh3 xxh64 plower r k default :
  (rst_contains xxh3 xxh64 plower r k = Ok true /\
   exists t, rst_getitem xxh3 xxh64 plower r k = Ok t /\ rst_get xxh3 xxh64 plower r k default = Ok (Some t)) \/
  (rst_contains xxh3 xxh64 plower r k = Ok false /\
   rst_getitem xxh3 xxh64 plower r k = Err KeyError /\ rst_get xxh3 xxh64 plower r k default = Ok default).
Proof.
  unfold rst_get, rst_contains, rst_getitem.
  destruct (key_to_hash xxh3 xxh64 plower k (r_bits r) (r_game r)) as [h|e] eqn:E.
  - unfold dhas. destruct (dget h (r_entries r)) as [t|]; cbn [of_opt]; [left | right]; eauto.
  - destruct k; try discriminate E. injection E as <-. right. auto.
Qed.
Print Assumptions C32_agree.
Example C32_agree_ex :
  let r := {| r_font := None; r_entries := [(3, lit "x")]; r_bits := 2; r_version := 5; r_game := 1502 |} in
  rst_getitem (fun s => lenN s) (fun _ => 0) lower r (RStr (lit "ABCdefg")) = Ok (lit "x") /\
  rst_getitem (fun s => lenN s) (fun _ => 0) lower r (RInt (-1)) = Ok (lit "x") /\
  rst_contains (fun s => lenN s) (fun _ => 0) lower r ROther = Ok false.
Proof. repeat split; reflexivity. Qed.
