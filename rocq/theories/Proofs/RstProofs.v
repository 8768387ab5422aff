(** * Proofs about string tables *)

From Verif Require Import Base.TextFacts Base.BinFacts Spec.Utf8Spec Proofs.Utf8Proofs Model.Rst Spec.DictSpec Spec.RstSpec Proofs.DictProofs.

Ltac Zify.zify_post_hook ::= Z.div_mod_to_equations.

(** ** Base64 *)

Lemma b64_val_char v : v < 64 -> b64_val (b64_char v) = Some v.
Proof.
  intros Hv. unfold b64_char, b64_val.
  destruct (N.ltb_spec v 26). { replace ((65 <=? 65 + v) && (65 + v <=? 90)) with true by lia. f_equal. lia. }
  destruct (N.ltb_spec v 52).
  { replace ((65 <=? 71 + v) && (71 + v <=? 90)) with false by lia.
    replace ((97 <=? 71 + v) && (71 + v <=? 122)) with true by lia. f_equal. lia. }
  destruct (N.ltb_spec v 62).
  { replace ((65 <=? v - 4) && (v - 4 <=? 90)) with false by lia.
    replace ((97 <=? v - 4) && (v - 4 <=? 122)) with false by lia.
    replace ((48 <=? v - 4) && (v - 4 <=? 57)) with true by lia. f_equal. lia. }
  destruct (N.eqb_spec v 62) as [->|]; [reflexivity|]. replace v with 63 by lia. reflexivity.
Qed.
Lemma n2b_to x n : b2n x = n -> n2b n = x. Proof. intros <-. apply n2b_b2n. Qed.

Lemma b64encode_ok b : base64 (b64encode b) b.
Proof.
  remember (length b) as n eqn:En. revert b En.
  induction n as [n IH] using (well_founded_induction lt_wf). intros b ->.
  destruct b as [|x [|y [|z t]]]; cbn [b64encode].
  - constructor.
  - pose proof (b2n_lt x). set (n := b2n x * 65536).
    assert (E : [x] = [n2b (n / 262144 * 4 + n / 4096 mod 64 / 16)]).
    { f_equal. symmetry. apply n2b_to. subst n. lia. }
    rewrite E. clear E. apply B64_1; try (apply b64_val_char; subst n; lia). subst n; lia.
  - pose proof (b2n_lt x). pose proof (b2n_lt y). set (n := b2n x * 65536 + b2n y * 256).
    assert (E : [x; y] = [n2b (n / 262144 * 4 + n / 4096 mod 64 / 16); n2b (n / 4096 mod 64 mod 16 * 16 + n / 64 mod 64 / 4)]).
    { f_equal; [|f_equal]; symmetry; apply n2b_to; subst n; lia. }
    rewrite E. clear E. apply B64_2; try (apply b64_val_char; subst n; lia). subst n; lia.
  - pose proof (b2n_lt x). pose proof (b2n_lt y). pose proof (b2n_lt z). set (n := b2n x * 65536 + b2n y * 256 + b2n z).
    assert (E : x :: y :: z :: t = n2b (n / 262144 * 4 + n / 4096 mod 64 / 16) ::
                n2b (n / 4096 mod 64 mod 16 * 16 + n / 64 mod 64 / 4) :: n2b (n / 64 mod 64 mod 4 * 64 + n mod 64) :: t).
    { f_equal; [|f_equal; [|f_equal]]; symmetry; apply n2b_to; subst n; lia. }
    rewrite E. clear E. apply B64_3; try (apply b64_val_char; subst n; lia).
    apply (IH (length t)); [cbn; lia | reflexivity].
Qed.

(** A base64 text determines the bytes. *)
Lemma base64_fun s b1 : base64 s b1 -> forall b2, base64 s b2 -> b1 = b2.
Proof.
  assert (E61 : b64_val 61 = None) by reflexivity.
  induction 1; intros b2 H2'; inversion H2'; subst; try congruence;
  repeat match goal with H : b64_val ?c = Some ?a, H' : b64_val ?c = Some ?b |- _ =>
    first [constr_eq a b; fail 1 | assert (a = b) by congruence; subst; clear H'] end.
  all: try congruence.
  - do 3 f_equal. apply IHbase64. assumption.
Qed.

(** ** Texts *)

Lemma app_tail {A} (l : list A) x t : (l ++ [x]) ++ t = l ++ x :: t.
Proof. rewrite <- app_assoc. reflexivity. Qed.

Definition text_of (c : content) : str :=
  match c with CText raw => utf8_dec_replace raw | CBlock raw => b64encode raw end.

Lemma find_ch_app x (a b : bytes) : ~ In x a -> find_ch x (a ++ x :: b) = Some (lenN a).
Proof.
  induction a as [|y a IH]; intros Hn; cbn [app find_ch].
  - rewrite eqbR. reflexivity.
  - destruct (eqbP y x) as [->|Hxy]; [exfalso; apply Hn; left; reflexivity|].
    rewrite IH by (intros Hi; apply Hn; right; assumption). rewrite lenN_cons. reflexivity.
Qed.
Lemma nthN_app {A} (a : list A) x b : nthN (a ++ x :: b) (lenN a) = Some x.
Proof.
  induction a as [|y a IH]; [reflexivity|]. cbn [app nthN]. rewrite lenN_cons.
  replace (N.succ (lenN a) =? 0) with false by lia. rewrite N.pred_succ. exact IH.
Qed.
Lemma py_slice_mid {A} (a b c : list A) : py_slice (a ++ b ++ c) (Z.of_N (lenN a)) (Z.of_N (lenN a + lenN b)) = b.
Proof.
  unfold py_slice, sliceN. rewrite !pyidx_pos, !N2Z.id by lia. rewrite !lenN_app, !N.min_r by lia.
  rewrite dropN_app_exact. replace (lenN a + lenN b - lenN a) with (lenN b) by lia. apply takeN_app_exact.
Qed.

Lemma text_stored flag data off c : stored flag data off c -> rst_text flag data off = Ok (text_of c).
Proof.
  intros (pre & post & <- & H). destruct c as [raw|raw]; cbn [text_of].
  - destruct H as (-> & Hz & Hf).
    assert (Hplain : Ok (utf8_dec_replace (py_slice (pre ++ raw ++ x00 :: post) (Z.of_N (lenN pre))
              match find_ch x00 (dropN (lenN pre) (pre ++ raw ++ x00 :: post)) with Some k => Z.of_N (lenN pre + k) | None => (-1)%Z end))
              = Ok (utf8_dec_replace raw)).
    { rewrite dropN_app_exact, find_ch_app by assumption. rewrite py_slice_mid. reflexivity. }
    unfold rst_text. destruct flag; [|exact Hplain].
    specialize (Hf eq_refl). destruct raw as [|x raw].
    + cbn [app] in *. rewrite nthN_app. cbn [b2n N.eqb]. exact Hplain.
    + cbn [app] in *. rewrite nthN_app. destruct (N.eqb_spec (b2n x) 255) as [E|E]; [|exact Hplain].
      exfalso. apply (Hf raw). f_equal. apply b2n_inj. exact E.
  - destruct H as (-> & -> & Hl). unfold rst_text. rewrite nthN_app.
    change (b2n xff =? 255) with true. cbn iota.
    assert (D1 : dropN (lenN pre + 1) (pre ++ xff :: leenc 2 (lenN raw) ++ raw ++ post) = leenc 2 (lenN raw) ++ raw ++ post).
    { rewrite <- (app_tail pre xff). apply dropN_app_n. rewrite lenN_app. reflexivity. }
    assert (D3 : dropN (lenN pre + 3) (pre ++ xff :: leenc 2 (lenN raw) ++ raw ++ post) = raw ++ post).
    { rewrite <- (app_tail pre xff), (app_assoc (pre ++ [xff])). apply dropN_app_n. rewrite !lenN_app, leenc_len. cbn. lia. }
    rewrite D1, D3. rewrite (takeN_app_n (leenc 2 (lenN raw))) by apply leenc_len.
    rewrite ledec_enc by exact Hl. rewrite takeN_app_exact. reflexivity.
Qed.

(** ** The table *)

Lemma shiftl1 n : N.shiftl 1 n - 1 = N.ones n.
Proof. rewrite N.shiftl_1_l. rewrite N.ones_equiv. lia. Qed.

Lemma row_value bits h off : h < 2 ^ bits -> bits <= 64 ->
  N.shiftr (h + off * 2 ^ bits) bits = off /\ N.land (h + off * 2 ^ bits) (N.shiftl 1 bits - 1) = h.
Proof.
  intros Hh Hb. rewrite shiftl1, N.land_ones, N.shiftr_div_pow2.
  assert (0 < 2 ^ bits) by lia. split.
  - rewrite N.div_add by lia. rewrite N.div_small by assumption. lia.
  - rewrite N.mod_add by lia. apply N.mod_small. assumption.
Qed.
Lemma row_small bits h off : h < 2 ^ bits -> off < 2 ^ (64 - bits) -> bits <= 64 -> h + off * 2 ^ bits < 2 ^ 64.
Proof.
  intros Hh Ho Hb. replace (2 ^ 64) with (2 ^ (64 - bits) * 2 ^ bits) by (rewrite <- N.pow_add_r; f_equal; lia).
  nia.
Qed.

Lemma fill_rows flag data rows d :
  Forall (fun r : row => stored flag data (snd (fst r)) (snd r)) rows ->
  rst_fill flag data (map (fun r : row => (snd (fst r), fst (fst r))) rows) d =
  Ok (fold_left (fun d p => dset (fst p) (snd p) d) (map (fun r : row => (fst (fst r), text_of (snd r))) rows) d).
Proof.
  intros HF. revert d. induction HF as [|[[h off] c] rows Hr HF IH]; intros d; [reflexivity|].
  cbn [map rst_fill fst snd] in *. rewrite (text_stored _ _ _ _ Hr). cbn [rbind fold_left fst snd]. apply IH.
Qed.

(** ** The whole file *)

(** Parsing from a position known by what precedes and what follows. *)
Definition at_ {A} (m : P A) (pre post : bytes) (r : result A) : Prop := rmap fst (m (pre ++ post) (lenN pre)) = r.
Lemma at_bind {A B} (m : P A) (k : A -> P B) b1 a pre post r :
  parses m b1 a -> at_ (k a) (pre ++ b1) post r -> at_ (pbind m k) pre (b1 ++ post) r.
Proof.
  unfold at_, pbind. intros Hm Hk. specialize (Hm pre post). rewrite <- app_assoc in Hk. rewrite Hm. cbn iota beta.
  rewrite lenN_app in Hk. exact Hk.
Qed.
Lemma at_bind_nil {A B} (m : P A) (k : A -> P B) a pre post r :
  parses m [] a -> at_ (k a) pre post r -> at_ (pbind m k) pre post r.
Proof. intros Hm Hk. change post with ([] ++ post). eapply at_bind; [exact Hm|]. rewrite app_nil_r. exact Hk. Qed.
Lemma at_all {B} (k : bytes -> P B) pre post r :
  (forall b p, rmap fst (k post b p) = r) -> at_ (pbind pread_all k) pre post r.
Proof. unfold at_, pbind, pread_all. intros Hk. rewrite dropN_app_exact. apply Hk. Qed.
Lemma at_run {A} (m : P A) b r : at_ m [] b r -> prun m b = r.
Proof. unfold at_, prun. cbn [app]. rewrite lenN_nil. auto. Qed.

Definition font_of (f : fontcfg) : option str := match f with FNone => None | FSome _ s => Some s end.

Lemma width_le version game : width version game <= 64 /\ 0 < width version game.
Proof. unfold width. destruct (version <? 4), (game <? 1502); lia. Qed.

Lemma rst_decode version game f rows trenc data :
  rst_ok version game f rows trenc data ->
  prun (parse_rst game) (rst_layout version game f rows trenc data) =
  Ok {| r_font := font_of f; r_entries := dict_of (map (fun r : row => (fst (fst r), text_of (snd r))) rows);
        r_bits := width version game; r_version := version; r_game := game |}.
Proof.
  intros (Hv & Hf & Hn & Ht & HF). unfold rst_layout. apply at_run.
  unfold parse_rst.
  eapply at_bind; [apply parses_unpack; reflexivity|].
  eapply at_bind; [apply parses_u8; lia|].
  rewrite eqbR. cbn [negb].
  eapply (at_bind _ _ _ (font_of f, width version game)).
  { unfold font_bytes, width. destruct (N.eqb_spec version 2) as [->|E2].
    - change (2 <? 4) with true. cbn iota. destruct f as [|c s]; cbn [font_of] in *.
      + eapply parses_bind_last; [apply parses_u8; lia | apply parses_ret].
      + destruct Hf as (_ & Hc & HFs & Hl). eapply parses_bind; [apply parses_u8; lia|].
        replace (c =? 0) with false by lia. cbn [negb].
        eapply parses_bind; [apply parses_u32; assumption|].
        eapply parses_bind_last; [apply parses_read; reflexivity|].
        rewrite utf8_dec_enc by assumption. cbn [plift].
        eapply parses_bind_nil; [apply parses_ret | apply parses_ret].
    - assert (Ef : font_of f = None). { destruct f as [|c s]; [reflexivity | destruct Hf; congruence]. }
      rewrite Ef. destruct (N.eqb_spec version 3) as [->|E3]; [apply parses_ret|].
      replace ((version =? 4) || (version =? 5)) with true by lia.
      replace (version <? 4) with false by lia. replace (if game <? 1502 then 39 else 38) with (if 1502 <=? game then 38 else 39).
      + apply parses_ret.
      + destruct (N.leb_spec 1502 game), (N.ltb_spec game 1502); lia. }
  cbn iota beta.
  destruct (width_le version game) as [Hw _].
  eapply at_bind; [apply parses_u32; assumption|].
  eapply (at_bind _ _ _ (map (fun r : row => (snd (fst r), fst (fst r))) rows)).
  { unfold plist. rewrite lenN_length, Nat2N.id. clear Hn. induction HF as [|[[h off] c] rows Hr HF IH]; cbn [length prep map flat_map fst snd].
    - apply parses_ret.
    - destruct Hr as (Hh & Ho & _). eapply parses_bind.
      + eapply parses_bind_last; [apply parses_u64; apply row_small; assumption|].
        destruct (row_value (width version game) h off Hh Hw) as [E1 E2]. rewrite E1, E2. apply parses_ret.
      + eapply parses_bind_last; [exact IH | apply parses_ret]. }
  assert (HF' : forall flag, flag = ((version <? 5) && negb (trenc =? 0)) ->
    Forall (fun r : row => stored flag data (snd (fst r)) (snd r)) rows).
  { intros flag ->. eapply Forall_impl; [|exact HF]. intros [[h off] c] (_ & _ & H). exact H. }
  assert (Hend : forall flag pre, flag = ((version <? 5) && negb (trenc =? 0)) ->
    at_ (let* data := pread_all in
         let* d := plift (rst_fill flag data (map (fun r : row => (snd (fst r), fst (fst r))) rows) []) in
         pret {| r_font := font_of f; r_entries := d; r_bits := width version game; r_version := version; r_game := game |})
      pre data (Ok {| r_font := font_of f; r_entries := dict_of (map (fun r : row => (fst (fst r), text_of (snd r))) rows);
        r_bits := width version game; r_version := version; r_game := game |})).
  { intros flag pre Ef. apply at_all. intros b p. rewrite fill_rows by (apply HF'; assumption). reflexivity. }
  destruct (N.ltb_spec version 5) as [H5|H5].
  - eapply at_bind; [eapply parses_bind_last; [apply parses_u8; assumption | apply parses_ret]|]. apply Hend. reflexivity.
  - eapply at_bind_nil; [apply parses_ret|]. apply Hend. reflexivity.
Qed.

(** ** What is accepted *)

(** The part after the font configuration, and the same parser with an exact read of the configuration. *)
Definition rst_rest (game version bits : N) (font : option str) : P rst :=
  let mask := N.shiftl 1 bits - 1 in
  let* count := u32 in
  let* es := plist count (let* v := u64 in pret (N.shiftr v bits, N.land v mask)) in
  let* trenc := (if version <? 5 then let* c := u8 in pret (negb (c =? 0)) else pret false) in
  let* data := pread_all in
  let* d := plift (rst_fill trenc data es []) in
  pret {| r_font := font; r_entries := d; r_bits := bits; r_version := version; r_game := game |}.
Definition rst_exact (game : N) : P rst :=
  let* magic := punpack 3 in
  let* version := u8 in
  if negb (eqb magic (bl "RST")) then praise ValueError else
  let* fb :=
    (if version =? 2 then
       let* c := u8 in
       if negb (c =? 0) then
         let* n := u32 in
         let* raw := punpack n in
         let* s := plift (utf8_dec raw) in
         pret (Some s, 40)
       else pret (None, 40)
     else if version =? 3 then pret (None, 40)
     else if (version =? 4) || (version =? 5) then pret (None, if 1502 <=? game then 38 else 39)
     else praise ValueError) in
  rst_rest game version (snd fb) (fst fb).

Lemma u32_end b p : lenN b <= p -> u32 b p = Err StructError.
Proof.
  intros H. unfold u32, punpack, pbind, pread. rewrite dropN_all by assumption. reflexivity.
Qed.
Lemma rest_end game version bits font b p : lenN b <= p -> rst_rest game version bits font b p = Err StructError.
Proof. intros H. unfold rst_rest, pbind. rewrite u32_end by assumption. reflexivity. Qed.

Lemma rst_exact_ok game b r : parse_rst game b 0 = Ok r -> rst_exact game b 0 = Ok r.
Proof.
  unfold parse_rst, rst_exact. intros E.
  apply pbind_Ok in E as (magic & p1 & E1 & E). apply pbind_Ok. exists magic, p1. split; [exact E1|].
  apply pbind_Ok in E as (version & p2 & E2 & E). apply pbind_Ok. exists version, p2. split; [exact E2|].
  destruct (eqb magic (bl "RST")); cbn [negb] in *; [|discriminate].
  apply pbind_Ok in E as ([font bits] & p3 & E3 & E). fold (rst_rest game version bits font) in E.
  apply pbind_Ok. exists (font, bits), p3. split; [|exact E].
  destruct (version =? 2); [|exact E3].
  apply pbind_Ok in E3 as (c & p4 & E4 & E3). apply pbind_Ok. exists c, p4. split; [exact E4|].
  destruct (c =? 0); cbn [negb] in *; [exact E3|].
  apply pbind_Ok in E3 as (n & p5 & E5 & E3). apply pbind_Ok. exists n, p5. split; [exact E5|].
  apply pbind_Ok in E3 as (raw & p6 & E6 & E3). apply pbind_Ok. exists raw, p6. split; [|exact E3].
  unfold pread in E6. assert (Er : takeN n (dropN p5 b) = raw) by congruence.
  assert (Ep : p6 = p5 + lenN raw) by congruence. clear E6.
  unfold punpack, pbind, pread. rewrite Er, <- Ep. destruct (N.eqb_spec (lenN raw) n) as [El|El]; [reflexivity|].
  exfalso. apply pbind_Ok in E3 as (s & p7 & E7 & E3). assert (p7 = p6).
  { destruct (utf8_dec raw); cbn [plift] in E7; unfold pret, praise in E7; congruence. }
  unfold pret in E3. assert (p3 = p6) by congruence. subst p7 p3.
  rewrite rest_end in E; [discriminate|]. subst raw. rewrite lenN_takeN, lenN_dropN in El, Ep. lia.
Qed.

(** The whole file is read. *)
Definition ends {A} (m : P A) : Prop := forall b p v p', m b p = Ok (v, p') -> lenN b <= p'.
Lemma ends_bind {A B} (m : P A) (k : A -> P B) : (forall a, ends (k a)) -> ends (pbind m k).
Proof. intros Hk b p v p' E. apply pbind_Ok in E as (a & p1 & _ & E). exact (Hk _ _ _ _ _ E). Qed.
Lemma rst_exact_ends game : ends (rst_exact game).
Proof.
  unfold rst_exact. apply ends_bind. intros magic. apply ends_bind. intros version.
  destruct (negb (eqb magic (bl "RST"))); [intros b p v p' E; discriminate|].
  apply ends_bind. intros fb. unfold rst_rest. cbn zeta.
  do 3 (apply ends_bind; intros ?). intros b p v p' E. apply pbind_Ok in E as (data & p1 & E1 & E).
  unfold pread_all in E1. assert (Ed : dropN p b = data) by congruence. assert (Ep : p1 = p + lenN data) by congruence.
  assert (lenN b <= p1). { subst data p1. rewrite lenN_dropN. lia. }
  apply pbind_Ok in E as (d & p2 & E2 & E). unfold pret in E. assert (p' = p2) by congruence. subst p2.
  destruct (rst_fill _ _ _ _); cbn [plift] in E2; unfold pret, praise in E2; [|discriminate]. congruence.
Qed.

(** The header of [rst_layout]. *)
Definition rst_head (version game : N) (f : fontcfg) (rows : list (N * N)) (trenc : N) : bytes :=
  bl "RST" ++ leenc 1 version ++ font_bytes version f ++ leenc 4 (lenN rows) ++
  flat_map (fun r => leenc 8 (fst r + snd r * 2 ^ width version game)) rows ++
  (if version <? 5 then leenc 1 trenc else []).

Definition accepted (game : N) (bs : bytes) (r : rst) : Prop :=
  exists version f rows trenc data,
    2 <= version <= 5 /\ font_ok version f /\ lenN rows < 2 ^ 32 /\ trenc < 256 /\
    Forall (fun r => fst r < 2 ^ width version game /\ snd r < 2 ^ (64 - width version game)) rows /\
    bs = rst_head version game f rows trenc ++ data /\
    rst_fill ((version <? 5) && negb (trenc =? 0)) data (map (fun r => (snd r, fst r)) rows) [] = Ok (r_entries r) /\
    r_font r = font_of f /\ r_version r = version /\ r_bits r = width version game /\ r_game r = game.

Lemma reads_all : reads pread_all (fun bs v => v = bs).
Proof.
  intros b p v p' Hp E. unfold pread_all in E. assert (Ev : dropN p b = v) by congruence.
  assert (Ep : p' = p + lenN v) by congruence. exists v. split; [reflexivity|]. split; [assumption|].
  rewrite Ev. split; [rewrite Ep, <- Ev, lenN_dropN; lia | apply takeN_all; lia].
Qed.
Lemma reads_lift {A} (r : result A) : reads (plift r) (fun bs v => bs = [] /\ r = Ok v).
Proof.
  destruct r as [a|e]; cbn [plift]; [apply reads_ret; auto|]. intros b p v p' _ E. discriminate.
Qed.
Lemma reads_raise {A} e (R : bytes -> A -> Prop) : reads (praise e) R.
Proof. intros b p v p' _ E. discriminate. Qed.
Lemma reads_if {A} (c : bool) (m1 m2 : P A) R : (c = true -> reads m1 R) -> (c = false -> reads m2 R) -> reads (if c then m1 else m2) R.
Proof. destruct c; auto. Qed.

Lemma row_split bits v : bits <= 64 -> v < 2 ^ 64 ->
  N.land v (N.shiftl 1 bits - 1) < 2 ^ bits /\ N.shiftr v bits < 2 ^ (64 - bits) /\
  v = N.land v (N.shiftl 1 bits - 1) + N.shiftr v bits * 2 ^ bits.
Proof.
  intros Hb Hv. rewrite shiftl1, N.land_ones, N.shiftr_div_pow2.
  assert (0 < 2 ^ bits) by (apply N.neq_0_lt_0, N.pow_nonzero; lia). split; [apply N.mod_lt; lia|]. split.
  - apply N.div_lt_upper_bound; [lia|]. rewrite <- N.pow_add_r. replace (bits + (64 - bits)) with 64 by lia. assumption.
  - pose proof (N.div_mod v (2 ^ bits)). nia.
Qed.

Lemma reads_rows bits : bits <= 64 ->
  reads (let* v := u64 in pret (N.shiftr v bits, N.land v (N.shiftl 1 bits - 1)))
    (fun bs e => snd e < 2 ^ bits /\ fst e < 2 ^ (64 - bits) /\ bs = leenc 8 (snd e + fst e * 2 ^ bits)).
Proof.
  intros Hb. eapply reads_bind; [apply reads_u64|]. cbn beta. intros bs v [Hv ->]. apply reads_ret.
  cbn [fst snd]. destruct (row_split bits v Hb Hv) as (H1 & H2 & H3). rewrite <- H3, app_nil_r. auto.
Qed.

Lemma rst_accepted game b r : prun (parse_rst game) b = Ok r -> accepted game b r.
Proof.
  unfold prun. intros E. destruct (parse_rst game b 0) as [[r' p]|e] eqn:E0; [|discriminate].
  cbn [rmap fst] in E. assert (r' = r) by congruence. subst r'. clear E. apply rst_exact_ok in E0.
  assert (Hr : reads (rst_exact game) (accepted game)).
  { unfold rst_exact.
    eapply reads_bind; [apply reads_unpack|]. cbn beta. intros b1 magic [_ ->].
    eapply reads_bind; [apply reads_u8|]. cbn beta. intros b2 version [Hv ->].
    apply reads_if; [intros _; apply reads_raise|]. intros Em. apply negb_false_iff, eqb_true in Em. subst b1.
    eapply reads_bind with (R1 := fun bs fb => 2 <= version <= 5 /\ exists f, font_ok version f /\ bs = font_bytes version f /\ fb = (font_of f, width version game)).
    { unfold font_bytes, width. apply reads_if; intros E2.
      - apply N.eqb_eq in E2. subst version. change (2 <? 4) with true. change (2 =? 2) with true. cbn iota.
        eapply reads_bind; [apply reads_u8|]. cbn beta. intros b3 c [Hc ->].
        apply reads_if; intros Ec.
        + eapply reads_bind; [apply reads_u32|]. cbn beta. intros b4 n [Hn ->].
          eapply reads_bind; [apply reads_unpack|]. cbn beta. intros b5 raw [Hl ->].
          eapply reads_bind; [apply reads_lift|]. cbn beta. intros b6 s [-> Es]. apply reads_ret.
          apply utf8_dec_iff in Es as [Hs ->]. split; [lia|]. exists (FSome c s). cbn [font_ok font_of].
          apply negb_true_iff in Ec. rewrite !app_nil_r, Hl. repeat split; try lia. assumption.
        + apply reads_ret. split; [lia|]. exists FNone. cbn [font_ok font_of]. apply negb_false_iff in Ec.
          apply N.eqb_eq in Ec. subst c. rewrite app_nil_r. auto.
      - rewrite E2. apply reads_if; intros E3.
        + apply N.eqb_eq in E3. subst version. apply reads_ret. split; [lia|]. exists FNone. cbn. auto.
        + apply reads_if; intros E4; [|apply reads_raise]. apply reads_ret. split; [lia|]. exists FNone.
          cbn [font_ok font_of]. replace (version <? 4) with false by lia.
          replace (if game <? 1502 then 39 else 38) with (if 1502 <=? game then 38 else 39); [auto|].
          destruct (N.leb_spec 1502 game), (N.ltb_spec game 1502); lia. }
    cbn beta. intros b3 fb (Hv5 & f & Hf & -> & ->). cbn [fst snd]. unfold rst_rest. cbn zeta.
    destruct (width_le version game) as [Hw _].
    eapply reads_bind; [apply reads_u32|]. cbn beta. intros b4 count [Hc ->].
    eapply reads_bind; [apply reads_plist, reads_rows; exact Hw|]. cbn beta. intros b5 es (Hl & bss & -> & HF2).
    eapply reads_bind with (R1 := fun bs v => exists trenc, trenc < 256 /\ bs = (if version <? 5 then leenc 1 trenc else []) /\ v = ((version <? 5) && negb (trenc =? 0))).
    { apply reads_if; intros E5; rewrite E5.
      - eapply reads_bind; [apply reads_u8|]. cbn beta. intros b6 c [Hc6 ->]. apply reads_ret. exists c. rewrite app_nil_r. auto.
      - apply reads_ret. exists 0. repeat split. }
    cbn beta. intros b6 flag (trenc & Ht & -> & ->).
    eapply reads_bind; [apply reads_all|]. cbn beta. intros b7 data ->.
    eapply reads_bind; [apply reads_lift|]. cbn beta. intros b8 d [-> Ed].
    apply reads_ret. rewrite !app_nil_r.
    exists version, f, (map (fun e => (snd e, fst e)) es), trenc, b7.
    cbn [r_entries r_font r_version r_bits r_game]. rewrite lenN_map, Hl.
    split; [assumption|]. split; [assumption|]. split; [exact Hc|]. split; [assumption|].
    rewrite map_map. cbn [fst snd]. split.
    { clear - HF2. induction HF2 as [|bs e bss es H HF2 IH]; cbn [map]; constructor; [cbn [fst snd]; tauto | assumption]. }
    split.
    { unfold rst_head. rewrite lenN_map, Hl, <- !app_assoc. repeat f_equal.
      clear - HF2. induction HF2 as [|bs e bss es H HF2 IH]; [reflexivity|]. cbn [map concat flat_map fst snd].
      rewrite IH. f_equal. tauto. }
    split; [|auto]. replace (map (fun x : N * N => (fst x, snd x)) es) with es; [exact Ed|].
    clear. induction es as [|[x y] es IH]; [reflexivity|]. cbn [map fst snd]. f_equal. exact IH. }
  destruct (Hr b 0 r p ltac:(lia) E0) as (bs & Ha & Ep & Hp & Et).
  rewrite N.add_0_l in Ep. apply rst_exact_ends in E0. rewrite dropN_0, takeN_all in Et by lia. subst bs. exact Ha.
Qed.

Lemma rst_rejects_magic game b : 4 <= lenN b -> takeN 3 b <> bl "RST" -> prun (parse_rst game) b = Err ValueError.
Proof.
  intros Hl Hm. unfold prun, parse_rst, u8, punpack, pbind, pread, pret, praise.
  rewrite dropN_0, lenN_takeN. replace (N.min 3 (lenN b)) with 3 by lia. rewrite N.eqb_refl. cbn iota beta.
  rewrite lenN_takeN, lenN_dropN. replace (N.min 1 (lenN b - (0 + 3))) with 1 by lia. rewrite N.eqb_refl. cbn iota beta.
  match goal with |- context [negb ?c] => destruct c eqn:E end; [apply eqb_true in E; contradiction | reflexivity].
Qed.

Lemma app_inv_len {A} (a b c d : list A) : a ++ b = c ++ d -> lenN a = lenN c -> a = c /\ b = d.
Proof.
  rewrite !lenN_length. intros E Hl. assert (Hl' : length a = length c) by lia. clear Hl.
  revert c E Hl'. induction a as [|x a IH]; intros [|y c] E Hl; try discriminate Hl; cbn [app] in E; [auto|].
  injection E as -> E. cbn [length] in Hl. destruct (IH c E ltac:(lia)) as [-> ->]. auto.
Qed.

(** Any prefix ending inside the header is rejected. *)
Lemma head_prefix version game f rows trenc cut rem :
  2 <= version <= 5 -> font_ok version f -> lenN rows < 2 ^ 32 ->
  cut ++ rem = rst_head version game f rows trenc -> rem <> [] ->
  forall r, prun (parse_rst game) cut <> Ok r.
Proof.
  intros Hv Hf Hn Ec Hr r E. apply rst_accepted in E.
  destruct E as (v' & f' & rows' & t' & data' & Hv' & Hf' & Hn' & Ht' & _ & -> & _).
  assert (Hlen : lenN (rst_head v' game f' rows' t') < lenN (rst_head version game f rows trenc)).
  { rewrite <- Ec, !lenN_app. rewrite <- N.add_assoc. destruct rem; [congruence|]. rewrite !lenN_cons. lia. }
  unfold rst_head in Ec, Hlen. cbn [bl] in Ec. rewrite <- !app_assoc in Ec.
  apply app_inv_head in Ec.
  assert (Ev : leenc 1 v' = leenc 1 version /\ font_bytes v' f' ++ leenc 4 (lenN rows') ++
    flat_map (fun r => leenc 8 (fst r + snd r * 2 ^ width v' game)) rows' ++ (if v' <? 5 then leenc 1 t' else []) ++ data' ++ rem
    = font_bytes version f ++ leenc 4 (lenN rows) ++
    flat_map (fun r => leenc 8 (fst r + snd r * 2 ^ width version game)) rows ++ (if version <? 5 then leenc 1 trenc else [])).
  { apply app_inv_len in Ec; [exact Ec | reflexivity]. }
  destruct Ev as [E1 E2]. assert (v' = version).
  { rewrite <- (ledec_enc 1 v'), <- (ledec_enc 1 version), E1 by (cbn; lia). reflexivity. }
  subst v'. clear E1 Ec.
  assert (Ef : font_bytes version f' = font_bytes version f /\ leenc 4 (lenN rows') ++
    flat_map (fun r => leenc 8 (fst r + snd r * 2 ^ width version game)) rows' ++ (if version <? 5 then leenc 1 t' else []) ++ data' ++ rem
    = leenc 4 (lenN rows) ++
    flat_map (fun r => leenc 8 (fst r + snd r * 2 ^ width version game)) rows ++ (if version <? 5 then leenc 1 trenc else [])).
  { unfold font_bytes in *. destruct (version =? 2); [|auto].
    destruct f' as [|c' s'], f as [|c s]; cbn [font_ok] in *.
    - apply app_inv_len in E2; [exact E2 | reflexivity].
    - exfalso. rewrite <- !app_assoc in E2. apply app_inv_len in E2 as [E2 _]; [|reflexivity].
      assert (0 = c) by (rewrite <- (ledec_enc 1 c), <- E2 by (cbn; lia); reflexivity). lia.
    - exfalso. rewrite <- !app_assoc in E2. apply app_inv_len in E2 as [E2 _]; [|reflexivity].
      assert (0 = c') by (rewrite <- (ledec_enc 1 c'), E2 by (cbn; lia); reflexivity). lia.
    - rewrite <- !app_assoc in E2. apply app_inv_len in E2 as [Ea E2]; [|reflexivity].
      apply app_inv_len in E2 as [Eb E2]; [|reflexivity].
      assert (El : lenN (utf8_enc s') = lenN (utf8_enc s)).
      { rewrite <- (ledec_enc 4 (lenN (utf8_enc s'))), <- (ledec_enc 4 (lenN (utf8_enc s))), Eb by (apply Hf || apply Hf'). reflexivity. }
      apply app_inv_len in E2 as [Ed E2]; [|exact El]. rewrite Ea, Eb, Ed. auto. }
  destruct Ef as [Ef E3]. clear E2. apply app_inv_len in E3 as [En E3]; [|reflexivity].
  assert (El : lenN rows' = lenN rows).
  { rewrite <- (ledec_enc 4 (lenN rows')), <- (ledec_enc 4 (lenN rows)), En by assumption. reflexivity. }
  rewrite Ef, En in Hlen. rewrite !lenN_app in Hlen.
  assert (Hfm : forall l : list (N * N), lenN (flat_map (fun r => leenc 8 (fst r + snd r * 2 ^ width version game)) l) = 8 * lenN l).
  { induction l as [|x l IH]; cbn [flat_map]; [reflexivity|]. rewrite lenN_app, leenc_len, lenN_cons, IH. lia. }
  rewrite !Hfm, El in Hlen. destruct (version <? 5); rewrite ?leenc_len in Hlen; lia.
Qed.
