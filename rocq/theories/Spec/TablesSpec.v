(** * Layout of atlas infos and champion skins *)

From Verif Require Import Base.Py Base.Text Base.Bin Base.Utf8 Spec.Utf8Spec Spec.DictSpec.

(** A text preceded by its length in bytes. *)
Definition sized (s : str) : bytes := leenc 4 (lenN (utf8_enc s)) ++ utf8_enc s.
Definition text_ok (s : str) : Prop := Forall scalar s /\ lenN (utf8_enc s) < 2 ^ 32.

(** A texture: its name, the corners of its area, the index of the atlas it is in. *)
Record texture {A} := { t_name : A; t_x0 : N; t_y0 : N; t_x1 : N; t_y1 : N; t_atlas : N }.
Arguments texture : clear implicits.
Definition area_ok {A} (t : texture A) : Prop := t_x0 t < 2 ^ 32 /\ t_y0 t < 2 ^ 32 /\ t_x1 t < 2 ^ 32 /\ t_y1 t < 2 ^ 32 /\ t_atlas t < 2 ^ 32.
Definition texture_layout {A} (enc : A -> bytes) (t : texture A) : bytes :=
  enc (t_name t) ++ leenc 4 (t_x0 t) ++ leenc 4 (t_y0 t) ++ leenc 4 (t_x1 t) ++ leenc 4 (t_y1 t) ++ leenc 4 (t_atlas t).

(** Tables of names, up to patch 16.16, and tables of hashes. *)
Definition atlas_layout (atlases : list str) (textures : list (texture str)) : bytes :=
  leenc 4 (lenN atlases) ++ flat_map sized atlases ++ leenc 4 (lenN textures) ++ flat_map (texture_layout sized) textures.
Definition imaa_layout (atlases : list N) (textures : list (texture N)) : bytes :=
  bl "IMAA" ++ leenc 4 (lenN atlases) ++ flat_map (leenc 8) atlases ++ leenc 4 (lenN textures) ++ flat_map (texture_layout (leenc 8)) textures.

Definition atlas_ok (atlases : list str) (textures : list (texture str)) : Prop :=
  lenN atlases < 2 ^ 32 /\ lenN atlases <> ledec (bl "IMAA") /\ Forall text_ok atlases /\ lenN textures < 2 ^ 32
  /\ Forall (fun t => text_ok (t_name t) /\ area_ok t) textures.
Definition imaa_ok (atlases : list N) (textures : list (texture N)) : Prop :=
  lenN atlases < 2 ^ 32 /\ Forall (fun h => h < 2 ^ 64) atlases /\ lenN textures < 2 ^ 32
  /\ Forall (fun t => t_name t < 2 ^ 64 /\ area_ok t) textures.

(** Name of a hash: the known one, or the hash in braces. *)
Definition shown (hashes : list (N * str)) (h : N) : str :=
  match dget h hashes with Some p => p | None => lit "{" ++ hexl 16 h ++ lit "}" end.

(** Converted image paths: lower case, and [.png] instead of [.dds] and [.tex] (a name made of dots and the
    extension has no extension). *)
Definition has_name (stem : str) : Prop := exists dir name, stem = dir ++ name /\ (dir = [] \/ exists d, dir = d ++ [cSlash]) /\ ~ In cSlash name /\ exists c, In c name /\ c <> cDot.
Definition image_path (lower : str -> str) (p q : str) : Prop :=
  (exists stem, (lower p = stem ++ lit ".dds" \/ lower p = stem ++ lit ".tex") /\ has_name stem /\ q = stem ++ lit ".png")
  \/ (q = lower p /\ forall stem, lower p = stem ++ lit ".dds" \/ lower p = stem ++ lit ".tex" -> ~ has_name stem).

(** A champion: name, skins (identifier, kind, name). *)
Definition skin := (N * N * str)%type.
Definition skin_layout (s : skin) : bytes := let '(id, kind, name) := s in leenc 4 id ++ leenc 1 kind ++ sized name.
Definition skin_ok (s : skin) : Prop := let '(id, kind, name) := s in id < 2 ^ 32 /\ kind < 256 /\ text_ok name.
Definition champion := (str * list skin)%type.
Definition champion_layout (c : champion) : bytes := sized (fst c) ++ leenc 4 (lenN (snd c)) ++ flat_map skin_layout (snd c).
Definition champion_ok (c : champion) : Prop := text_ok (fst c) /\ lenN (snd c) < 2 ^ 32 /\ Forall skin_ok (snd c).
Definition skins_layout (l : list champion) : bytes := bl "mahC" ++ leenc 4 2 ++ leenc 4 (lenN l) ++ flat_map champion_layout l.

(** A dictionary built from pairs, the last one of a key giving its value. *)
Definition built_from {K V} `{EqDec K} (l : list (K * V)) (d : list (K * V)) : Prop := NoDup (dkeys d) /\ forall k, last_value k l (dget k d).
