(** * Specification of string tables (RST files) *)

From Verif Require Import Base.Py Base.Text Base.Bin Spec.Utf8Spec.

(** Hash width of each version; since patch 15.2, versions 4 and 5 use 38 bits. *)
Definition width (version game : N) : N :=
  if version <? 4 then 40 else if game <? 1502 then 39 else 38.

(** Base64 (RFC 4648): the value of a character, and decoding. *)
Definition b64_val (c : N) : option N :=
  if (65 <=? c) && (c <=? 90) then Some (c - 65)
  else if (97 <=? c) && (c <=? 122) then Some (c - 71)
  else if (48 <=? c) && (c <=? 57) then Some (c + 4)
  else if c =? 43 then Some 62
  else if c =? 47 then Some 63
  else None.
Inductive base64 : str -> bytes -> Prop :=
| B64_nil : base64 [] []
| B64_3 c1 c2 c3 c4 v1 v2 v3 v4 s b :
    b64_val c1 = Some v1 -> b64_val c2 = Some v2 -> b64_val c3 = Some v3 -> b64_val c4 = Some v4 ->
    base64 s b ->
    base64 (c1 :: c2 :: c3 :: c4 :: s)
           (n2b (v1 * 4 + v2 / 16) :: n2b (v2 mod 16 * 16 + v3 / 4) :: n2b (v3 mod 4 * 64 + v4) :: b)
| B64_2 c1 c2 c3 v1 v2 v3 :
    b64_val c1 = Some v1 -> b64_val c2 = Some v2 -> b64_val c3 = Some v3 -> v3 mod 4 = 0 ->
    base64 [c1; c2; c3; 61] [n2b (v1 * 4 + v2 / 16); n2b (v2 mod 16 * 16 + v3 / 4)]
| B64_1 c1 c2 v1 v2 :
    b64_val c1 = Some v1 -> b64_val c2 = Some v2 -> v2 mod 16 = 0 ->
    base64 [c1; c2; 61; 61] [n2b (v1 * 4 + v2 / 16)].

(** What the data holds at offset [off]: a zero-terminated text, or (when the flag is set) a sized block
    marked by 0xFF. *)
Inductive content := CText (raw : bytes) | CBlock (raw : bytes).
Definition stored (flag : bool) (data : bytes) (off : N) (c : content) : Prop :=
  exists pre post, lenN pre = off /\
  match c with
  | CText raw => data = pre ++ raw ++ x00 :: post /\ ~ In x00 raw /\ (flag = true -> forall r, raw <> xff :: r)
  | CBlock raw => data = pre ++ xff :: leenc 2 (lenN raw) ++ raw ++ post /\ flag = true /\ lenN raw < 2 ^ 16
  end.

(** A line of the table: hash, offset, content. *)
Definition row := (N * N * content)%type.
Definition row_ok (bits : N) (flag : bool) (data : bytes) (r : row) : Prop :=
  let '(h, off, c) := r in h < 2 ^ bits /\ off < 2 ^ (64 - bits) /\ stored flag data off c.

(** Font configuration of version 2: absent, or a text after any nonzero flag byte. *)
Inductive fontcfg := FNone | FSome (flag : N) (s : str).
Definition font_bytes (version : N) (f : fontcfg) : bytes :=
  if version =? 2 then
    match f with
    | FNone => leenc 1 0
    | FSome c s => leenc 1 c ++ leenc 4 (lenN (utf8_enc s)) ++ utf8_enc s
    end
  else [].
Definition font_ok (version : N) (f : fontcfg) : Prop :=
  match f with
  | FNone => True
  | FSome c s => version = 2 /\ 0 < c < 256 /\ Forall scalar s /\ lenN (utf8_enc s) < 2 ^ 32
  end.

(** The whole file; [trenc] is the flag byte of versions before 5. *)
Definition rst_layout (version game : N) (f : fontcfg) (rows : list row) (trenc : N) (data : bytes) : bytes :=
  bl "RST" ++ leenc 1 version ++ font_bytes version f ++ leenc 4 (lenN rows) ++
  flat_map (fun r => leenc 8 (fst (fst r) + snd (fst r) * 2 ^ width version game)) rows ++
  (if version <? 5 then leenc 1 trenc else []) ++ data.
Definition rst_ok (version game : N) (f : fontcfg) (rows : list row) (trenc : N) (data : bytes) : Prop :=
  2 <= version <= 5 /\ font_ok version f /\ lenN rows < 2 ^ 32 /\ trenc < 256 /\
  Forall (row_ok (width version game) ((version <? 5) && negb (trenc =? 0)) data) rows.
