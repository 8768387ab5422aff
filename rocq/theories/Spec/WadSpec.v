(** * Specification of the WAD layout, of sub-chunk tables and of WAD paths *)

From Verif Require Import Base.Py Base.Text Base.Bin.

(** What one entry of the table of contents says. *)
Record wentry := {
  we_hash : N; we_off : N; we_csize : N; we_size : N;
  we_type : N;    (* 0..15 *)
  we_count : N;   (* number of sub-chunks, 0..15 *)
  we_high : N;    (* version 1 only: unused high bits of the type field *)
  we_dup : N;     (* duplicate flag byte, until version 3.3 *)
  we_first : N;   (* index of the first sub-chunk *)
  we_sum : N      (* checksum *)
}.

(** The three table formats: version 1; versions 2 and 3.0 to 3.3; version 3.4 and later. *)
Inductive wformat := WF1 | WF2 | WF34.
Definition format_of (major minor : N) : option wformat :=
  match major with
  | 1 => Some WF1
  | 2 => Some WF2
  | 3 => Some (if minor <=? 3 then WF2 else WF34)
  | _ => None
  end.
(** Number of bytes between the version and the entry count. *)
Definition filler_size (major : N) : N :=
  match major with 1 => 4 | 2 => 96 | _ => 264 end.

Definition entry_ok (f : wformat) (e : wentry) : Prop :=
  we_hash e < 2 ^ 64 /\ we_off e < 2 ^ 32 /\ we_csize e < 2 ^ 32 /\ we_size e < 2 ^ 32 /\
  we_type e < 16 /\ we_count e < 16 /\
  match f with
  | WF1 => we_high e < 2 ^ 24
  | WF2 => we_dup e < 2 ^ 8 /\ we_first e < 2 ^ 16 /\ we_sum e < 2 ^ 64
  | WF34 => we_first e < 2 ^ 24 /\ we_sum e < 2 ^ 64
  end.

Definition entry_bytes (f : wformat) (e : wentry) : bytes :=
  leenc 8 (we_hash e) ++ leenc 4 (we_off e) ++ leenc 4 (we_csize e) ++ leenc 4 (we_size e) ++
  match f with
  | WF1 => leenc 4 (we_type e + 16 * we_count e + 256 * we_high e)
  | WF2 => leenc 1 (we_type e + 16 * we_count e) ++ leenc 1 (we_dup e) ++ leenc 2 (we_first e) ++ leenc 8 (we_sum e)
  | WF34 => leenc 1 (we_type e + 16 * we_count e) ++ leenc 1 (we_first e / 2 ^ 16) ++ leenc 2 (we_first e mod 2 ^ 16)
            ++ leenc 8 (we_sum e)
  end.

(** A whole WAD file: header, table, and anything after it. *)
Definition wad_layout (major minor : N) (f : wformat) (filler : bytes) (entries : list wentry) (rest : bytes) : bytes :=
  bl "RW" ++ leenc 1 major ++ leenc 1 minor ++ filler ++ leenc 4 (lenN entries) ++
  flat_map (entry_bytes f) entries ++ rest.

Definition layout_ok (major minor : N) (f : wformat) (filler : bytes) (entries : list wentry) : Prop :=
  major < 256 /\ minor < 256 /\ format_of major minor = Some f /\ lenN filler = filler_size major /\
  lenN entries < 2 ^ 32 /\ Forall (entry_ok f) entries.

(** Sub-chunk tables. *)
Record subchunk := { sc_csize : N; sc_usize : N; sc_hash : N }.
Definition subchunk_bytes (s : subchunk) : bytes :=
  leenc 4 (sc_csize s) ++ leenc 4 (sc_usize s) ++ leenc 8 (sc_hash s).
Definition subchunk_ok (s : subchunk) : Prop := sc_csize s < 2 ^ 32 /\ sc_usize s < 2 ^ 32 /\ sc_hash s < 2 ^ 64.

(** Records [first], [first + 1]... of the table [toc] are [scs]. *)
Definition toc_has (toc : bytes) (first : N) (scs : list subchunk) : Prop :=
  Forall subchunk_ok scs /\
  takeN (16 * lenN scs) (dropN (16 * first) toc) = flat_map subchunk_bytes scs.

(** [data] starts with the chunks, each of the announced size and checksum. *)
Definition verified (xxh3 : bytes -> N) (data : bytes) (scs : list subchunk) (chunks : list bytes) : Prop :=
  (exists rest, data = concat chunks ++ rest) /\
  Forall2 (fun s c => lenN c = sc_csize s /\ xxh3 c = sc_hash s) scs chunks.

(** Decompression of a chunk. *)
Definition unchunk (unzstd : bytes -> result bytes) (s : subchunk) (c : bytes) (d : bytes) : Prop :=
  (sc_csize s = sc_usize s /\ d = c) \/ (sc_csize s <> sc_usize s /\ unzstd c = Ok d).

(** The published signatures (hexadecimal first bytes) and their extensions, in order of priority;
    the JPEG marker at offset 6 is the third one. *)
Definition text (s : String.string) : list N := lit s.
Arguments text s%string_scope.
Definition signatures : list (option (list N) * str) := [
  (Some [0xff; 0xd8; 0xff; 0xdb], lit "jpg"); (Some [0xff; 0xd8; 0xff; 0xe1], lit "jpg"); (None, lit "jpg");
  (Some [0x89; 0x50; 0x4e; 0x47; 0x0d; 0x0a; 0x1a; 0x0a], lit "png");
  (Some (text "GIF87a"), lit "gif"); (Some (text "GIF89a"), lit "gif"); (Some (text "OggS"), lit "ogg");
  (Some [0; 1; 0; 0], lit "ttf"); (Some [0x1a; 0x45; 0xdf; 0xa3], lit "webm"); (Some (text "true"), lit "ttf");
  (Some [0x4f; 0x54; 0x54; 0x4f; 0], lit "otf");
  (Some ([34] ++ text "use strict" ++ [34; 59]), lit "min.js");
  (Some (text "<template "), lit "template.html"); (Some (text "<!-- Elements -->"), lit "template.html");
  (Some (text "<!DOCTYPE html>"), lit "html"); (Some (text "<html"), lit "html");
  (Some (text "DDS "), lit "dds"); (Some (text "<svg"), lit "svg"); (Some (text "PROP"), lit "bin");
  (Some (text "PTCH"), lit "bin"); (Some (text "BKHD"), lit "bnk"); (Some (text "r3d2Mesh"), lit "scb");
  (Some (text "r3d2anmd"), lit "anm"); (Some (text "r3d2canm"), lit "anm"); (Some (text "r3d2sklt"), lit "skl");
  (Some (text "r3d2"), lit "wpk"); (Some [0x33; 0x22; 0x11; 0], lit "skn");
  (Some (text "PreLoadBuildingBlocks = {"), lit "preload");
  (Some ([0x1b] ++ text "LuaQ" ++ [0; 1; 4; 4]), lit "luabin"); (Some ([0x1b] ++ text "LuaQ" ++ [0; 1; 4; 8]), lit "luabin64");
  (Some [0x02; 0x3d; 0; 0x28], lit "troybin"); (Some (text "[ObjectBegin]"), lit "sco"); (Some (text "OEGM"), lit "mapgeo");
  (Some [0x54; 0x45; 0x58; 0], lit "tex"); (Some [0; 0x61; 0x73; 0x6d], lit "wasm"); (Some (text "UnityFS"), lit "bundle");
  (Some (text "UnityWebData1.0"), lit "data") ].
Definition has_signature (sig : option (list N)) (data : bytes) : Prop :=
  match sig with
  | Some p => exists rest, map b2n data = p ++ rest
  | None => exists a rest, lenN a = 6 /\ (map b2n data = a ++ lit "JFIF" ++ rest \/ map b2n data = a ++ lit "Exif" ++ rest)
  end.
(** [ext] is the extension of the first signature that [data] has. *)
Definition first_signature (data : bytes) (ext : str) : Prop :=
  exists pre sig post, signatures = pre ++ (sig, ext) :: post /\ has_signature sig data /\
    forall s e, In (s, e) pre -> ~ has_signature s data.

(** Exported names: the extension used for path [p] with the guessed extension, the name before
    truncation, whether it is short enough, and extensions whose dotted pieces are short. *)
Definition used_ext (p : str) (guessed : option str) : str :=
  match snd (splitext p) with
  | [] => lit ".cdtb" ++ match guessed with Some (c :: e) => lit "." ++ c :: e | _ => [] end
  | e => e
  end.
Definition named (p : str) (guessed : option str) : str :=
  match snd (splitext p) with [] => p ++ used_ext p guessed | _ => p end.
Definition short (p : str) (g : option str) : Prop := lenN (basename (named p g)) < 250.
Definition short_pieces (g : option str) : Prop :=
  match g with Some e => Forall (fun piece => lenN piece < 16) (split_ch cDot e) | None => True end.
