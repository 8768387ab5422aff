(** * C47: UTF-8 text *)

From Verif Require Import Base.BinFacts Base.Utf8 Spec.Utf8Spec Model.Tools Proofs.Utf8Proofs.

(** C47: a byte string decodes strictly to [s] iff it is the UTF-8 encoding of [s]. *)
Theorem C47_strict b s : utf8_dec b = Ok s <-> Forall scalar s /\ b = utf8_enc s.
Proof. exact (utf8_dec_iff b s). Qed.
Print Assumptions C47_strict.
Example C47_strict_ex : Forall scalar [233; 8364; 128512; 65] /\ utf8_dec (utf8_enc [233; 8364; 128512; 65]) = Ok [233; 8364; 128512; 65].
Proof. split; [repeat constructor; unfold scalar; lia | reflexivity]. Qed.

(** C47: anything else is rejected with UnicodeDecodeError. *)
Theorem C47_strict_rejects b :
  (forall s, Forall scalar s -> b <> utf8_enc s) -> utf8_dec b = Err UnicodeDecodeError.
Proof.
  intros H. destruct (utf8_dec b) as [s|e] eqn:E.
  - apply utf8_dec_sound in E as [HF ->]. exfalso. exact (H s HF eq_refl).
  - apply utf8_dec_error in E. congruence.
Qed.
Print Assumptions C47_strict_rejects.
Example C47_strict_rejects_ex : utf8_dec (map n2b [65; 237; 160; 128]) = Err UnicodeDecodeError.
Proof. reflexivity. Qed.

(** C47: replacement decoding equals strict decoding on valid text. *)
Theorem C47_replace_valid b s : utf8_dec b = Ok s -> utf8_dec_replace b = s.
Proof. exact (replace_strict b s). Qed.
Print Assumptions C47_replace_valid.

(** C47: replacement decoding keeps all valid text around arbitrary bytes. *)
Theorem C47_replace_keeps s1 bad s2 : Forall scalar s1 -> Forall scalar s2 ->
  utf8_dec_replace (utf8_enc s1 ++ bad ++ utf8_enc s2) = s1 ++ utf8_dec_replace bad ++ s2.
Proof. exact (replace_keeps s1 bad s2). Qed.
Print Assumptions C47_replace_keeps.
Example C47_replace_ex :
  utf8_dec_replace (utf8_enc [233] ++ map n2b [226; 130] ++ utf8_enc [97; 8364]) = [233; 65533; 97; 8364].
Proof. reflexivity. Qed.

(** C47: replacement decoding always returns text. *)
Theorem C47_replace_text b : Forall scalar (utf8_dec_replace b).
Proof. exact (replace_scalar b). Qed.
Print Assumptions C47_replace_text.

(** C47: a length-prefixed string of a binary file is recovered exactly, wherever it stands. *)
Theorem C47_unpack_string s pre post :
  Forall scalar s -> lenN (utf8_enc s) < 2 ^ 32 ->
  unpack_string (pre ++ (leenc 4 (lenN (utf8_enc s)) ++ utf8_enc s) ++ post) (lenN pre) =
  Ok (s, lenN pre + (4 + lenN (utf8_enc s))).
Proof.
  intros HF Hl.
  assert (H : parses unpack_string (leenc 4 (lenN (utf8_enc s)) ++ utf8_enc s) s).
  { unfold unpack_string. eapply parses_bind; [apply parses_u32; assumption|].
    eapply parses_bind_last; [apply parses_read; reflexivity|]. rewrite utf8_dec_enc by assumption. apply parses_ret. }
  rewrite (H pre post), lenN_app, leenc_len. reflexivity.
Qed.
Print Assumptions C47_unpack_string.

(** The declared length is not checked against the file: a truncated string is accepted. *)
Theorem C47_truncated_string_refuted :
  exists b s, prun unpack_string b = Ok s /\ lenN (utf8_enc s) <> ledec (takeN 4 b).
Proof. exists (leenc 4 10 ++ bl "abc"), (lit "abc"). split; [reflexivity | discriminate]. Qed.
Print Assumptions C47_truncated_string_refuted.
