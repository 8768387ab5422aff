(** * TEX and DDS layouts *)

From Verif Require Import Base.Py Base.Bin.

Inductive texfmt := DXT1 | DXT5 | BC7 | BC5 | BGRA8 | RGBA16.
Definition fmt_code (f : texfmt) : N := match f with DXT1 => 10 | DXT5 => 12 | BC7 => 13 | BC5 => 14 | BGRA8 => 20 | RGBA16 => 21 end.

(** A TEX header; [a], [b] are unused bytes, [m] tells whether there are mipmaps. *)
Definition tex_header (f : texfmt) (w h : N) (a b m : byte) : bytes :=
  bl "TEX" ++ [x00] ++ leenc 2 w ++ leenc 2 h ++ [a] ++ leenc 1 (fmt_code f) ++ [b] ++ [m].

(** Number of 4-pixels blocks that cover [n] pixels. *)
Definition blocks (n : N) : N := n / 4 + (if n mod 4 =? 0 then 0 else 1).
(** Size of an image in bytes. *)
Definition image_size (f : texfmt) (w h : N) : N :=
  match f with
  | DXT1 => 8 * (blocks w * blocks h)
  | DXT5 | BC7 | BC5 => 16 * (blocks w * blocks h)
  | BGRA8 => 4 * (w * h)
  | RGBA16 => 8 * (w * h)
  end.

Definition dwords (l : list N) : bytes := concat (map (leenc 4) l).
(** DDS_PIXELFORMAT: size, flags (4: four-character code, 0x41: RGBA), code, bits, masks. *)
Definition pixel_format (f : texfmt) : list N :=
  match f with
  | DXT1 => [32; 4; ledec (bl "DXT1"); 0; 0; 0; 0; 0]
  | DXT5 => [32; 4; ledec (bl "DXT5"); 0; 0; 0; 0; 0]
  | BC7 | BC5 | RGBA16 => [32; 4; ledec (bl "DX10"); 0; 0; 0; 0; 0]
  | BGRA8 => [32; 0x41; 0; 32; 0xff0000; 0xff00; 0xff; 0xff000000]
  end.
(** DDS_HEADER_DXT10: format, 2D texture, one image, straight alpha. *)
Definition dx10_header (f : texfmt) : list N :=
  match f with BC7 => [99; 3; 0; 1; 1] | BC5 => [84; 3; 0; 1; 1] | RGBA16 => [13; 3; 0; 1; 1] | _ => [] end.
(** DDS_HEADER: size, flags (caps, height, width, pixel format), height, width, pitch, depth, mipmap count,
    reserved, pixel format, caps (texture). *)
Definition dds_header (f : texfmt) (w h : N) : bytes :=
  bl "DDS " ++ dwords ([124; 0x1 + 0x2 + 0x4 + 0x1000; h; w; 0; 0; 0] ++ repeat 0 11 ++ pixel_format f ++ [0x1000; 0; 0; 0; 0] ++ dx10_header f).
