(** * UTF-8 (RFC 3629): the encoding of Unicode scalar values *)

From Verif Require Import Base.Py.

Definition scalar (c : N) : Prop := c < 55296 \/ 57344 <= c < 1114112.

Definition utf8_enc1 (c : N) : bytes :=
  if c <? 128 then [n2b c]
  else if c <? 2048 then [n2b (192 + c / 64); n2b (128 + c mod 64)]
  else if c <? 65536 then [n2b (224 + c / 4096); n2b (128 + c / 64 mod 64); n2b (128 + c mod 64)]
  else [n2b (240 + c / 262144); n2b (128 + c / 4096 mod 64); n2b (128 + c / 64 mod 64); n2b (128 + c mod 64)].
Definition utf8_enc (s : str) : bytes := flat_map utf8_enc1 s.
