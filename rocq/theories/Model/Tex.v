(** * Textures: cdtb/export.py:626-691 [TexConverter.tex_to_dds] *)

From Verif Require Import Base.Py Base.Bin.

(** [struct.pack] with [x] *)
Definition zeros (n : nat) : bytes := repeat x00 n.
Definition ddspf_cc (cc : bytes) : bytes := leenc 4 32 ++ leenc 4 0x4 ++ cc ++ zeros 20.
Definition dx10_block (format : N) : bytes := leenc 4 format ++ leenc 4 3 ++ zeros 4 ++ leenc 4 1 ++ leenc 4 1.

(** [data[-n:]]: everything when [n] is zero. *)
Definition last_bytes (n : N) (data : bytes) : bytes := if n =? 0 then data else dropN (lenN data - n) data.

Definition tex_to_dds (data : bytes) : result bytes :=
  if (lenN data <? 12) || negb (eqb (takeN 4 data) (bl "TEX" ++ [x00])) then Err FileConversionError else
  let width := ledec (sliceN data 4 6) in
  let height := ledec (sliceN data 6 8) in
  let format := ledec (sliceN data 9 10) in
  let has_mipmaps := negb (ledec (sliceN data 11 12) =? 0) in
  let! (ddspf, dx10) :=
    (if format =? 0x0a then Ok (ddspf_cc (bl "DXT1"), [])
     else if format =? 0x0c then Ok (ddspf_cc (bl "DXT5"), [])
     else if format =? 0x0d then Ok (ddspf_cc (bl "DX10"), dx10_block 99)
     else if format =? 0x0e then Ok (ddspf_cc (bl "DX10"), dx10_block 84)
     else if format =? 0x14 then
       Ok (leenc 4 32 ++ leenc 4 0x41 ++ zeros 4 ++ leenc 4 32 ++ leenc 4 0x00ff0000 ++ leenc 4 0x0000ff00 ++ leenc 4 0x000000ff ++ leenc 4 0xff000000, [])
     else if format =? 0x15 then Ok (ddspf_cc (bl "DX10"), dx10_block 13)
     else Err FileConversionError) in
  let! pixels :=
    (if has_mipmaps then
       let! (block_size, bytes_per_block) :=
         (if format =? 0x0a then Ok (4, 8)
          else if (format =? 0x0c) || (format =? 0x0d) || (format =? 0x0e) then Ok (4, 16)
          else if format =? 0x14 then Ok (1, 4)
          else Err FileConversionError) in
       let block_width := (width + block_size - 1) / block_size in
       let block_height := (height + block_size - 1) / block_size in
       Ok (last_bytes (bytes_per_block * block_width * block_height) data)
     else Ok (dropN 12 data)) in
  let header := bl "DDS " ++ leenc 4 124 ++ leenc 4 0x1007 ++ leenc 4 height ++ leenc 4 width ++ zeros 56 ++ ddspf ++ leenc 4 0x1000 ++ zeros 16 in
  Ok (header ++ dx10 ++ pixels).
