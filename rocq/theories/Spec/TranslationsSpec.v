(** * Text tables of translations *)

From Verif Require Import Base.Py Base.Text Base.Utf8 Spec.Utf8Spec.

(** A line: [tr "key" = "value"], or anything else. *)
Inductive tline := Entry (key value : str) | Other (raw : bytes).
Definition tline_bytes (l : tline) : bytes :=
  match l with
  | Entry k v => bl "tr """ ++ utf8_enc k ++ bl """ = """ ++ utf8_enc v ++ bl """"
  | Other raw => raw
  end.
Definition other_ok (raw : bytes) : Prop := ~ In x0a raw /\ forall r, raw <> bl "tr """ ++ r.
Definition tline_ok (l : tline) : Prop :=
  match l with
  | Entry k v => Forall scalar k /\ Forall scalar v /\ ~ In 61 k /\ ~ In cNL k /\ ~ In cNL v
  | Other raw => other_ok raw
  end.
(** Lines, each one ended by a newline. *)
Definition tlines_bytes (ls : list tline) : bytes := flat_map (fun l => tline_bytes l ++ [x0a]) ls.
Definition pairs_of (ls : list tline) : list (str * str) := flat_map (fun l => match l with Entry k v => [(k, v)] | Other _ => [] end) ls.

(** A first line which is not an entry, as all known tables have. *)
Definition first_ok (raw : bytes) : Prop := 2 <= lenN raw /\ ~ In x0a raw /\ takeN 3 raw <> bl "RST" /\ other_ok (dropN 3 raw).
