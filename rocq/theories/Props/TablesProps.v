(** * C48: atlas and champion skin tables *)

From Verif Require Import Base.Py Base.Text Base.Bin Base.Utf8 Base.PyFacts Base.BinFacts Model.Tables
  Spec.Utf8Spec Spec.DictSpec Spec.TablesSpec Proofs.TablesProofs.

(** What a texture becomes, when [images] are the paths of the atlases. *)
Definition placed {A} (images : list str) (t : texture A) : atlas_entry :=
  {| ae_atlas := nth (N.to_nat (t_atlas t)) images []; ae_startx := t_x0 t; ae_starty := t_y0 t; ae_endx := t_x1 t; ae_endy := t_y1 t |}.

(** Atlas paths are lower case image paths; there is exactly one for each path. *)
Theorem C48_image_path : forall lower p q, convert_cdragon_path lower p = q <-> image_path lower p q.
Proof.
  intros lower p q. split; [intros <-; apply convert_image|]. intros H. exact (image_path_fun lower p _ _ (convert_image lower p) H).
Qed.
Print Assumptions C48_image_path.

(** Tables of names, before patch 16.17; anything can follow the table. *)
Theorem C48_names : forall lower hashes atlases images textures post,
  atlas_ok atlases textures -> Forall (fun t => t_atlas t < lenN atlases) textures -> Forall2 (image_path lower) atlases images ->
  exists d, prun (parse_atlasinfo lower hashes) (atlas_layout atlases textures ++ post) = Ok d
  /\ built_from (map (fun t => (t_name t, placed images t)) textures) d.
Proof.
  intros lower hashes atlases images textures post Hok HI HF. assert (E : images = str_paths lower atlases).
  { unfold str_paths. clear - HF. induction HF as [|a i l l' Ha _ IH]; [reflexivity|]. cbn [map]. f_equal.
    - exact (image_path_fun lower a _ _ Ha (convert_image lower a)).
    - exact IH. }
  eexists. split; [apply parses_run, atlas_parses; assumption|]. subst images. apply built_dict_of.
Qed.
Print Assumptions C48_names.

(** Tables of hashes. *)
Definition atlas_image (lower : str -> str) (hashes : list (N * str)) (h : N) (q : str) : Prop :=
  match dget h hashes with Some p => image_path lower p q | None => q = lit "{" ++ hexl 16 h ++ lit "}" end.
Theorem C48_hashes : forall lower hashes atlases images textures post,
  imaa_ok atlases textures -> Forall (fun t => t_atlas t < lenN atlases) textures -> Forall2 (atlas_image lower hashes) atlases images ->
  exists d, prun (parse_atlasinfo lower hashes) (imaa_layout atlases textures ++ post) = Ok d
  /\ built_from (map (fun t => (shown hashes (t_name t), placed images t)) textures) d.
Proof.
  intros lower hashes atlases images textures post Hok HI HF. assert (E : images = map (hash_path lower hashes) atlases).
  { clear - HF. induction HF as [|a i l l' Ha _ IH]; [reflexivity|]. cbn [map]. f_equal; [|exact IH].
    unfold atlas_image, hash_path in *. destruct (dget a hashes); [exact (image_path_fun lower _ _ _ Ha (convert_image lower _)) | exact Ha]. }
  eexists. split; [apply parses_run, imaa_parses; assumption|]. subst images. apply built_dict_of.
Qed.
Print Assumptions C48_hashes.

(** The index of an atlas that does not exist is rejected. *)
Theorem C48_atlas_index : forall lower hashes atlases good bad rest post,
  atlas_ok atlases (good ++ bad :: rest) -> Forall (fun t => t_atlas t < lenN atlases) good -> lenN atlases <= t_atlas bad ->
  prun (parse_atlasinfo lower hashes) (atlas_layout atlases (good ++ bad :: rest) ++ post) = Err IndexError.
Proof. intros lower hashes atlases good bad rest post H1 H2 H3. apply fails_run, fails_app, atlas_index; assumption. Qed.
Theorem C48_hashes_index : forall lower hashes atlases good bad rest post,
  imaa_ok atlases (good ++ bad :: rest) -> Forall (fun t => t_atlas t < lenN atlases) good -> lenN atlases <= t_atlas bad ->
  prun (parse_atlasinfo lower hashes) (imaa_layout atlases (good ++ bad :: rest) ++ post) = Err IndexError.
Proof. intros lower hashes atlases good bad rest post H1 H2 H3. apply fails_run, fails_app, imaa_index; assumption. Qed.
Print Assumptions C48_atlas_index.
Print Assumptions C48_hashes_index.

(** Champion skins: a skin of kind 4 is a prestige skin. *)
Theorem C48_skins : forall l post, lenN l < 2 ^ 32 -> Forall champion_ok l ->
  exists d tables, prun parse_championskininfo (skins_layout l ++ post) = Ok d
  /\ Forall2 (fun c t => built_from (map (fun '(id, kind, name) => (id, (name, kind =? 4))) (snd c)) t) l tables
  /\ built_from (combine (map fst l) tables) d.
Proof.
  intros l post Hn HF. eexists. exists (map (fun c => dict_of (map skin_value (snd c))) l). split; [apply parses_run, skins_parse; assumption|]. split.
  - clear. induction l as [|c l IH]; cbn [map]; constructor; [|exact IH]. apply built_dict_of.
  - replace (combine (map fst l) (map (fun c => dict_of (map skin_value (snd c))) l)) with (map (fun c => (fst c, dict_of (map skin_value (snd c)))) l); [apply built_dict_of|].
    clear. induction l as [|c l IH]; cbn [map combine]; [reflexivity|]. f_equal. exact IH.
Qed.
Print Assumptions C48_skins.
Theorem C48_skins_magic : forall b, lenN (takeN 4 b) = 4 -> takeN 4 b <> bl "mahC" -> prun parse_championskininfo b = Err ValueError.
Proof. exact skins_magic. Qed.
Theorem C48_skins_version : forall v rest, v < 2 ^ 32 -> v <> 2 -> prun parse_championskininfo (bl "mahC" ++ leenc 4 v ++ rest) = Err ValueError.
Proof. exact skins_version. Qed.
Print Assumptions C48_skins_magic.
Print Assumptions C48_skins_version.

(** Two textures in two atlases; the area of the second one is given twice. *)
Local Definition tex {A} (n : A) (x i : N) : texture A := {| t_name := n; t_x0 := x; t_y0 := 1; t_x1 := 2; t_y1 := 3; t_atlas := i |}.
Example C48_names_ex : prun (parse_atlasinfo (fun s => s) []) (atlas_layout [lit "a/b.dds"; lit "c.x"] [tex (lit "t") 5 0; tex (lit "u") 6 0; tex (lit "u") 7 1]) =
  Ok [(lit "t", {| ae_atlas := lit "a/b.png"; ae_startx := 5; ae_starty := 1; ae_endx := 2; ae_endy := 3 |});
      (lit "u", {| ae_atlas := lit "c.x"; ae_startx := 7; ae_starty := 1; ae_endx := 2; ae_endy := 3 |})].
Proof. vm_compute. reflexivity. Qed.
Example C48_hashes_ex : prun (parse_atlasinfo (fun s => s) [(7, lit "a.tex"); (9, lit "t.tex")]) (imaa_layout [7; 8] [tex 9 5 0; tex 10 6 1]) =
  Ok [(lit "t.tex", {| ae_atlas := lit "a.png"; ae_startx := 5; ae_starty := 1; ae_endx := 2; ae_endy := 3 |});
      (lit "{000000000000000a}", {| ae_atlas := lit "{0000000000000008}"; ae_startx := 6; ae_starty := 1; ae_endx := 2; ae_endy := 3 |})]
  /\ imaa_ok [7; 8] [tex 9 5 0; tex 10 6 1].
Proof. split; [vm_compute; reflexivity|]. unfold imaa_ok, area_ok. split; [reflexivity|]. split; [repeat constructor|]. split; [reflexivity|]. repeat constructor. Qed.
Example C48_index_ex : prun (parse_atlasinfo (fun s => s) []) (imaa_layout [7; 8] [tex 9 5 1; tex 10 6 2]) = Err IndexError.
Proof. vm_compute. reflexivity. Qed.
Example C48_skins_ex : prun parse_championskininfo (skins_layout [(lit "Annie", [(1000, 0, lit "Annie"); (1001, 4, lit "Goth")]); (lit "Ashe", [])]) =
  Ok [(lit "Annie", [(1000, (lit "Annie", false)); (1001, (lit "Goth", true))]); (lit "Ashe", [])].
Proof. vm_compute. reflexivity. Qed.
Example C48_image_path_ex : convert_cdragon_path (fun s => s) (lit "x.d/a.dds.tex") = lit "x.d/a.dds.png" /\ convert_cdragon_path (fun s => s) (lit "x.tex/.dds") = lit "x.tex/.dds".
Proof. vm_compute. auto. Qed.
