(** * Proofs about textures *)

From Verif Require Import Base.Py Base.Bin Base.PyFacts Base.BinFacts Model.Tex Spec.TexSpec.
Local Ltac Zify.zify_post_hook ::= Z.div_mod_to_equations.

Lemma tex_header_len f w h a b m : lenN (tex_header f w h a b m) = 12.
Proof. reflexivity. Qed.
Lemma tex_fields f w h a b m rest : w < 2 ^ 16 -> h < 2 ^ 16 ->
  let data := tex_header f w h a b m ++ rest in
  ledec (sliceN data 4 6) = w /\ ledec (sliceN data 6 8) = h /\ ledec (sliceN data 9 10) = fmt_code f /\ ledec (sliceN data 11 12) = ledec [m].
Proof.
  intros Hw Hh data. assert (E1 : sliceN data 4 6 = leenc 2 w) by reflexivity. assert (E2 : sliceN data 6 8 = leenc 2 h) by reflexivity.
  rewrite E1, E2, !ledec_enc by assumption. split; [reflexivity|]. split; [reflexivity|].
  assert (E4 : sliceN data 11 12 = [m]) by (subst data; destruct rest; reflexivity). rewrite E4. split; [destruct f; reflexivity | reflexivity].
Qed.
Lemma tex_magic f w h a b m rest : takeN 4 (tex_header f w h a b m ++ rest) = bl "TEX" ++ [x00].
Proof. reflexivity. Qed.
Lemma tex_drop f w h a b m rest : dropN 12 (tex_header f w h a b m ++ rest) = rest.
Proof. destruct rest; reflexivity. Qed.
Lemma dds_eq f w h : dds_header f w h =
  bl "DDS " ++ leenc 4 124 ++ leenc 4 0x1007 ++ leenc 4 h ++ leenc 4 w ++ zeros 56 ++ dwords (pixel_format f) ++ leenc 4 0x1000 ++ zeros 16 ++ dwords (dx10_header f).
Proof. destruct f; reflexivity. Qed.
Lemma last_bytes_app a b n : lenN b = n -> n <> 0 -> last_bytes n (a ++ b) = b.
Proof.
  intros E Hn. unfold last_bytes. destruct (N.eqb_spec n 0); [contradiction|]. rewrite lenN_app. replace (lenN a + lenN b - n) with (lenN a) by lia. apply dropN_app_exact.
Qed.
Lemma blocks_eq n : (n + 4 - 1) / 4 = blocks n.
Proof. unfold blocks. destruct (N.eqb_spec (n mod 4) 0); lia. Qed.
Lemma blocks_pos n : 0 < n -> 0 < blocks n.
Proof. intros H. unfold blocks. destruct (N.eqb_spec (n mod 4) 0); lia. Qed.
Lemma image_size_pos f w h : 0 < w -> 0 < h -> image_size f w h <> 0.
Proof. intros Hw Hh. pose proof (blocks_pos w Hw). pose proof (blocks_pos h Hh). destruct f; cbn [image_size]; nia. Qed.

Lemma tex_len_ok f w h a b m rest : (lenN (tex_header f w h a b m ++ rest) <? 12) = false.
Proof. apply N.ltb_ge. rewrite lenN_app, tex_header_len. lia. Qed.

Lemma tex_plain f w h a b rest : w < 2 ^ 16 -> h < 2 ^ 16 -> tex_to_dds (tex_header f w h a b x00 ++ rest) = Ok (dds_header f w h ++ rest).
Proof.
  intros Hw Hh. unfold tex_to_dds. rewrite tex_len_ok, tex_magic, eqbR, tex_drop. cbn [negb orb]. destruct (tex_fields f w h a b x00 rest Hw Hh) as (E1 & E2 & E3 & E4).
  rewrite E1, E2, E3, E4, dds_eq. rewrite <- !app_assoc. destruct f; reflexivity.
Qed.
Local Ltac eqbs := repeat match goal with |- context [N.pos ?a =? N.pos ?b] => let v := eval vm_compute in (N.pos a =? N.pos b) in change (N.pos a =? N.pos b) with v end.
Lemma tex_mipmaps f w h a b m smaller largest : w < 2 ^ 16 -> h < 2 ^ 16 -> 0 < w -> 0 < h -> m <> x00 -> f <> RGBA16 -> lenN largest = image_size f w h ->
  tex_to_dds (tex_header f w h a b m ++ smaller ++ largest) = Ok (dds_header f w h ++ largest).
Proof.
  intros Hw Hh Hw0 Hh0 Hm Hf Hl. unfold tex_to_dds. rewrite tex_len_ok, tex_magic, eqbR. cbn [negb orb]. destruct (tex_fields f w h a b m (smaller ++ largest) Hw Hh) as (E1 & E2 & E3 & E4).
  rewrite E1, E2, E3, E4, dds_eq, <- !app_assoc. assert (Em : (ledec [m] =? 0) = false).
  { apply N.eqb_neq. intros E. apply Hm. assert (E' : [m] = [x00]) by (apply ledec_inj; [reflexivity | exact E]). congruence. }
  rewrite Em. pose proof (image_size_pos f w h Hw0 Hh0) as Hp.
  assert (HL : forall n, n = image_size f w h -> last_bytes n (tex_header f w h a b m ++ smaller ++ largest) = largest).
  { intros n ->. rewrite app_assoc. apply last_bytes_app; assumption. }
  cbn [negb]. destruct f; try congruence; cbn [fmt_code]; eqbs; cbn [rbind orb]; rewrite HL; try reflexivity; rewrite ?blocks_eq; cbn [image_size]; rewrite ?N.div_1_r; nia.
Qed.

(** Everything else is rejected. *)
Lemma tex_rejects data : lenN data < 12 \/ takeN 4 data <> bl "TEX" ++ [x00] \/ (forall f, ledec (sliceN data 9 10) <> fmt_code f) -> tex_to_dds data = Err FileConversionError.
Proof.
  unfold tex_to_dds. intros [H|[H|H]].
  - apply N.ltb_lt in H. rewrite H. reflexivity.
  - apply eqbF in H. rewrite H, orb_true_r. reflexivity.
  - destruct ((lenN data <? 12) || negb (eqb (takeN 4 data) (bl "TEX" ++ [x00]))); [reflexivity|].
    pose proof (H DXT1) as H1. pose proof (H DXT5) as H2. pose proof (H BC7) as H3. pose proof (H BC5) as H4. pose proof (H BGRA8) as H5. pose proof (H RGBA16) as H6. cbn [fmt_code] in *.
    apply N.eqb_neq in H1, H2, H3, H4, H5, H6. rewrite H1, H2, H3, H4, H5, H6. reflexivity.
Qed.
Lemma tex_total data : (exists r, tex_to_dds data = Ok r) \/ tex_to_dds data = Err FileConversionError.
Proof.
  unfold tex_to_dds. destruct ((lenN data <? 12) || negb (eqb (takeN 4 data) (bl "TEX" ++ [x00]))); [auto|].
  generalize (ledec (sliceN data 9 10)) as fmt. intros fmt. generalize (negb (ledec (sliceN data 11 12) =? 0)) as mips. intros mips.
  destruct (fmt =? 10); [destruct mips; cbn [rbind]; eauto|]. destruct (fmt =? 12); [destruct mips; cbn [orb rbind]; eauto|].
  destruct (fmt =? 13); [destruct mips; cbn [orb rbind]; eauto|]. destruct (fmt =? 14); [destruct mips; cbn [orb rbind]; eauto|].
  destruct (fmt =? 20); [destruct mips; cbn [orb rbind]; eauto|]. destruct (fmt =? 21); [destruct mips; cbn [orb rbind]; eauto|]. auto.
Qed.
(** Accepted data starts with a header. *)
Lemma tex_accepts data r : tex_to_dds data = Ok r -> exists f w h a b m rest, data = tex_header f w h a b m ++ rest /\ w < 2 ^ 16 /\ h < 2 ^ 16.
Proof.
  intros E. destruct (N.ltb_spec (lenN data) 12) as [Hl|Hl]; [rewrite tex_rejects in E by auto; discriminate|].
  destruct (eqbP (takeN 4 data) (bl "TEX" ++ [x00])) as [Hm|Hm]; [|rewrite tex_rejects in E by auto; discriminate].
  assert (Hf : exists f, ledec (sliceN data 9 10) = fmt_code f).
  { destruct (N.eq_dec (ledec (sliceN data 9 10)) 10); [exists DXT1; assumption|]. destruct (N.eq_dec (ledec (sliceN data 9 10)) 12); [exists DXT5; assumption|].
    destruct (N.eq_dec (ledec (sliceN data 9 10)) 13); [exists BC7; assumption|]. destruct (N.eq_dec (ledec (sliceN data 9 10)) 14); [exists BC5; assumption|].
    destruct (N.eq_dec (ledec (sliceN data 9 10)) 20); [exists BGRA8; assumption|]. destruct (N.eq_dec (ledec (sliceN data 9 10)) 21); [exists RGBA16; assumption|].
    rewrite tex_rejects in E; [discriminate|]. right. right. intros f. destruct f; assumption. }
  destruct Hf as [f Hf].
  destruct data as [|b0 [|b1 [|b2 [|b3 [|b4 [|b5 [|b6 [|b7 [|b8 [|b9 [|b10 [|b11 rest]]]]]]]]]]]]; try (exfalso; vm_compute in Hl; apply Hl; reflexivity).
  exists f, (ledec [b4; b5]), (ledec [b6; b7]), b8, b10, b11, rest. split; [|split; [apply (ledec_bound [b4; b5]) | apply (ledec_bound [b6; b7])]].
  cbn in Hm. injection Hm as -> -> -> ->. change (sliceN _ 9 10) with [b9] in Hf. unfold tex_header. rewrite <- Hf.
  change (leenc 2 (ledec [b4; b5])) with (leenc (length [b4; b5]) (ledec [b4; b5])). change (leenc 2 (ledec [b6; b7])) with (leenc (length [b6; b7]) (ledec [b6; b7])).
  change (leenc 1 (ledec [b9])) with (leenc (length [b9]) (ledec [b9])). rewrite !leenc_dec. reflexivity.
Qed.
