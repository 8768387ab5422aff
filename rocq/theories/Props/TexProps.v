(** * C27: TEX to DDS conversion *)

From Verif Require Import Base.Py Base.Bin Base.PyFacts Model.Tex Spec.TexSpec Proofs.TexProofs.

(** Without mipmaps: the DDS header for this format and dimensions, then all pixel data. *)
Theorem C27_plain : forall f w h a b rest, w < 2 ^ 16 -> h < 2 ^ 16 ->
  tex_to_dds (tex_header f w h a b x00 ++ rest) = Ok (dds_header f w h ++ rest).
Proof. exact tex_plain. Qed.
Print Assumptions C27_plain.

(** With mipmaps, which are stored smallest first: the DDS header and the last image. *)
Theorem C27_mipmaps : forall f w h a b m smaller largest, w < 2 ^ 16 -> h < 2 ^ 16 -> 0 < w -> 0 < h -> m <> x00 -> f <> RGBA16 ->
  lenN largest = image_size f w h ->
  tex_to_dds (tex_header f w h a b m ++ smaller ++ largest) = Ok (dds_header f w h ++ largest).
Proof. exact tex_mipmaps. Qed.
Print Assumptions C27_mipmaps.

(** The header takes 128 bytes, 148 with a DX10 block; dimensions are at the documented place. *)
Theorem C27_header : forall f w h, w < 2 ^ 16 -> h < 2 ^ 16 ->
  lenN (dds_header f w h) = (match f with BC7 | BC5 | RGBA16 => 148 | _ => 128 end)
  /\ ledec (sliceN (dds_header f w h) 12 16) = h /\ ledec (sliceN (dds_header f w h) 16 20) = w.
Proof.
  intros f w h Hw Hh. assert (E1 : sliceN (dds_header f w h) 12 16 = leenc 4 h) by (destruct f; reflexivity).
  assert (E2 : sliceN (dds_header f w h) 16 20 = leenc 4 w) by (destruct f; reflexivity).
  rewrite E1, E2. split; [destruct f; reflexivity|]. split; apply BinFacts.ledec_enc.
  - apply N.lt_trans with (2 ^ 16); [exact Hh | reflexivity].
  - apply N.lt_trans with (2 ^ 16); [exact Hw | reflexivity].
Qed.
Print Assumptions C27_header.

(** Too-short, non-TEX and unsupported data are rejected; nothing else than [FileConversionError] is raised. *)
Theorem C27_rejects : forall data,
  lenN data < 12 \/ takeN 4 data <> bl "TEX" ++ [x00] \/ (forall f, ledec (sliceN data 9 10) <> fmt_code f) ->
  tex_to_dds data = Err FileConversionError.
Proof. exact tex_rejects. Qed.
Theorem C27_total : forall data, (exists r, tex_to_dds data = Ok r) \/ tex_to_dds data = Err FileConversionError.
Proof. exact tex_total. Qed.
(** Accepted data is a TEX file, whose unused bytes are arbitrary. *)
Theorem C27_accepts : forall data r, tex_to_dds data = Ok r ->
  exists f w h a b m rest, data = tex_header f w h a b m ++ rest /\ w < 2 ^ 16 /\ h < 2 ^ 16.
Proof. exact tex_accepts. Qed.
Print Assumptions C27_rejects.
Print Assumptions C27_total.
Print Assumptions C27_accepts.

(** RGBA16 textures are supported, but not with mipmaps. *)
Theorem C27_rgba16_refuted : exists w h largest, lenN largest = image_size RGBA16 w h /\ w = 1 /\ h = 1
  /\ tex_to_dds (tex_header RGBA16 w h x00 x00 x01 ++ largest) = Err FileConversionError
  /\ tex_to_dds (tex_header RGBA16 w h x00 x00 x00 ++ largest) = Ok (dds_header RGBA16 w h ++ largest).
Proof. exists 1, 1, (repeat x05 8). vm_compute. auto. Qed.
Print Assumptions C27_rgba16_refuted.

(** An empty image with mipmaps gives the whole TEX file as pixels. *)
Theorem C27_empty_refuted : exists w h data, image_size DXT1 w h = 0 /\ data = tex_header DXT1 w h x00 x00 x01
  /\ tex_to_dds data = Ok (dds_header DXT1 w h ++ data).
Proof. exists 0, 4, (tex_header DXT1 0 4 x00 x00 x01). vm_compute. auto. Qed.
Print Assumptions C27_empty_refuted.

(** A truncated image with mipmaps is accepted, with a part of the TEX header as pixels. *)
Theorem C27_truncated_refuted : exists w h pixels, lenN pixels < image_size DXT1 w h
  /\ tex_to_dds (tex_header DXT1 w h x00 x00 x01 ++ pixels) = Ok (dds_header DXT1 w h ++ [x00; x0a; x00; x01] ++ pixels).
Proof. exists 4, 4, (repeat x05 4). vm_compute. auto. Qed.
Print Assumptions C27_truncated_refuted.

(** A 5x3 BC7 texture with three images. *)
Example C27_ex : exists smaller largest, lenN smaller = 32 /\ lenN largest = image_size BC7 5 3 /\ image_size BC7 5 3 = 32
  /\ tex_to_dds (tex_header BC7 5 3 x07 x08 x01 ++ smaller ++ largest) = Ok (dds_header BC7 5 3 ++ largest).
Proof. exists (repeat x01 16 ++ repeat x02 16), (repeat x03 32). vm_compute. auto. Qed.
Example C27_plain_ex : tex_to_dds (tex_header BGRA8 1 2 x00 x00 x00 ++ bl "abcdefgh") = Ok (dds_header BGRA8 1 2 ++ bl "abcdefgh")
  /\ sliceN (dds_header BGRA8 1 2) 0 4 = bl "DDS ".
Proof. vm_compute. auto. Qed.
Example C27_rejects_ex : tex_to_dds (bl "TEX" ++ [x00] ++ repeat x0b 12) = Err FileConversionError.
Proof. vm_compute. reflexivity. Qed.
