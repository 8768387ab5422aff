(** * Lists of exported files: cdtb/export.py

    The [Exporter] lists and their filters, the choice of converters, the selection of files made by
    [CdragonRawPatchExporter] and the plan of its [process] method.  Reading and writing files is in
    other modules. *)

From Verif Require Import Base.Py Base.Text Base.Regex Model.Version Model.Wad Model.ExportTree.

(** [Wad] objects: [path], [files] and [subchunk_toc]. *)
Record ewad := { ew_src : str; ew_files : list wfile; ew_toc : option bytes }.
Definition with_files (w : ewad) (l : list wfile) : ewad := {| ew_src := ew_src w; ew_files := l; ew_toc := ew_toc w |}.

(** export.py:82-86, [output] and [converters] excepted: export paths give archives and source paths. *)
Record exporter := { ex_wads : list (str * ewad); ex_plain : list (str * str) }.

(** ** Converters (export.py:545-847): names of produced files *)

Inductive conv := ImageConv (exts : list str) | TexConv | AtlasConv (r : list (list ritem)) | BinConv (r : list (list ritem))
  | SknConv | RstConv (r : list (list ritem)) | SkinInfoConv | CopyConv.

(** [is_handled]: export.py:591, 609, 629, 714, 736, 762, 791, 836 *)
Definition is_handled (c : conv) (p : str) : bool :=
  match c with
  | ImageConv exts => mem (snd (splitext p)) exts
  | TexConv => endswith p (lit ".tex")
  | AtlasConv r | BinConv r | RstConv r => rsearch_any r p
  | SknConv => endswith p (lit ".skn")
  | SkinInfoConv => eqb p (lit "game/global/champions/championskins.info")
  | CopyConv => true
  end.
(** [converted_paths] *)
Definition converted_paths (c : conv) (p : str) : list str :=
  match c with
  | ImageConv _ | TexConv => [fst (splitext p) ++ lit ".png"]
  | AtlasConv _ | SkinInfoConv => [p ++ lit ".json"]
  | BinConv _ | RstConv _ => [p; p ++ lit ".json"]
  | SknConv => [p; fst (splitext p)]
  | CopyConv => [p]
  end.

(** export.py:262-267 [_get_converter] *)
Fixpoint get_converter (cs : list conv) (p : str) : conv :=
  match cs with [] => CopyConv | c :: r => if is_handled c p then c else get_converter r p end.

(** export.py:407-415, the converters of [_create_exporter]. *)
Definition atlas_regex : list (list ritem) :=
  [rlit (lit "game/") ++ [RStar] ++ rlit (lit ".cdtb") ++ [REnd];
   rlit (lit "game/assets/items/icons2d/autoatlas/") ++ [RStar] ++ rlit (lit "/atlas_info.bin") ++ [REnd]].
Definition bin_regex : list (list ritem) := [rlit (lit "game/") ++ [RStar] ++ rlit (lit ".bin") ++ [REnd]].
Definition rst_regex : list (list ritem) :=
  flat_map (fun ext =>
    [rlit (lit "game/data/menu/") ++ [RStar] ++ rlit ext ++ [REnd];
     rlit (lit "game/") ++ [RStar] ++ rlit (lit "/data/menu/") ++ [RStar] ++ rlit ext ++ [REnd]]) [lit ".txt"; lit ".stringtable"].
Definition raw_converters : list conv :=
  [ImageConv [lit ".dds"; lit ".tga"]; TexConv; AtlasConv atlas_regex; BinConv bin_regex; SknConv; RstConv rst_regex; SkinInfoConv].

Section Paths.
  Variable cs : list conv.

  (** export.py:105-108 [converted_exported_paths] *)
  Definition converted_exported_paths (p : str) : list str := converted_paths (get_converter cs p) p.
  (** export.py:89-93 [_exported_paths] *)
  Definition exported_paths (e : exporter) : list (option str) :=
    map (fun kv => Some (fst kv)) (ex_plain e) ++ flat_map (fun kw => map w_path (ew_files (snd kw))) (ex_wads e).
  (** export.py:100-103 [all_converted_exported_paths]: entries without a path are not supported. *)
  Definition all_converted (e : exporter) : result (list str) :=
    rmap (fun l => concat l) (rmapM (fun o => rmap converted_exported_paths (of_opt TypeError o)) (exported_paths e)).
End Paths.

(** export.py:95-98 [unknown_hashes] *)
Definition unknown_hashes (e : exporter) : list N :=
  flat_map (fun kw => map w_hash (filter (fun w => match truthy (w_path w) with None => true | _ => false end) (ew_files (snd kw)))) (ex_wads e).

(** ** Filters *)

(** export.py:163-176 [filter_export_paths] *)
Definition nonempty {A} (l : list A) : bool := match l with [] => false | _ => true end.
Definition filter_export_paths (pred : option str -> bool) (e : exporter) : exporter :=
  let wads := map (fun kw => (fst kw, with_files (snd kw) (filter (fun f => pred (w_path f)) (ew_files (snd kw))))) (ex_wads e) in
  {| ex_plain := filter (fun kv => pred (Some (fst kv))) (ex_plain e);
     ex_wads := fold_left (fun d k => ddel k d) (map fst (filter (fun kw => negb (nonempty (ew_files (snd kw)))) wads)) wads |}.

(** export.py:178-206 [filter_exporter] *)
Definition filter_plain1 (d : list (str * str)) (kv : str * str) : list (str * str) :=
  if eqb (dget (fst kv) d) (Some (snd kv)) then ddel (fst kv) d else d.
Definition filter_files1 (files other : list wfile) : list wfile :=
  let shas := dict_of (map (fun f => (w_hash f, w_sha f)) other) in
  filter (fun f => negb (eqb (w_sha f) (match dget (w_hash f) shas with Some s => s | None => None end))) files.
Definition filter_wad1 (d : list (str * ewad)) (ko : str * ewad) : list (str * ewad) :=
  let '(k, o) := ko in
  match dget k d with
  | None => d
  | Some w =>
    if eqb (ew_src w) (ew_src o) then ddel k d
    else
      let files := filter_files1 (ew_files w) (ew_files o) in
      if nonempty files then dset k (with_files w files) d else ddel k d
  end.
Definition filter_exporter (self other : exporter) : exporter :=
  {| ex_plain := fold_left filter_plain1 (ex_plain other) (ex_plain self);
     ex_wads := fold_left filter_wad1 (ex_wads other) (ex_wads self) |}.

(** ** Selection of the exported files *)

(** export.py:424-430.  Simplification: [re.I] and [\d] on ASCII characters. *)
Definition plugin_wad (base : str) : bool :=
  let b := lower base in
  let b := if endswith b [cNL] then removelast b else b in
  endswith b (lit ".wad") && endswith (rstrip is_digit (takeN (lenN b - 4) b)) (lit "assets").
Definition unknown_dir (path : str) : str :=
  match cut_last cSlash path with
  | Some (h, base) =>
    let name := dropN 12 h in
    if startswith (lower h) (lit "plugins/rcp-") && nonempty name && forallb (fun c => negb (c =? cNL)) name && plugin_wad base
    then lower h ++ lit "/unknown" else lit "unknown"
  | None => lit "unknown"
  end.

(** export.py:435 *)
Definition not_executable (p : option str) : bool :=
  match truthy p with Some s => negb (endswith s (lit ".exe")) && negb (endswith s (lit ".dll")) | None => false end.

(** export.py:450-458 [filter_path] *)
Definition kept_exts : list str := [lit ".png"; lit ".skn"; lit ".txt"; lit ".stringtable"; lit ".json"; lit ".ttf"; lit ".otf"].
Fixpoint filter_path_loop (l : list str) (keep : bool) : bool :=
  match l with
  | [] => keep
  | p :: r => let ext := snd (splitext p) in
              if eqb ext (lit ".bin") then negb (contains_str (lit "_skins_") p) else filter_path_loop r (keep || mem ext kept_exts)
  end.
Definition filter_path (cs : list conv) (p : str) : bool := filter_path_loop (converted_exported_paths cs p) false.

(** export.py:462-467, the directory of the files of a game archive. *)
Definition lang_regex : list ritem := [RChr cDot; RAny; RAny; RChr cUnder; RAny; RAny] ++ rlit (lit ".wad.client") ++ [REnd].
Definition by_lang (v : version) : result bool :=
  if v_eq_str v (lit "main") then Ok true
  else let! r := patch_version (ArgStr (lit "14.4")) in v_ge v r.
Definition game_subdir (v : version) (path : str) : result str :=
  let! l := by_lang v in
  Ok (if l then match rfind lang_regex path with Some s => lit "game/" ++ lower (sliceN s 1 6) | None => lit "game" end else lit "game").
Definition path_text (p : option str) : str := match p with Some s => s | None => lit "None" end.
Definition move_file (subdir : str) (f : wfile) : wfile := set_path f (Some (subdir ++ lit "/" ++ path_text (w_path f))).
Definition game_wad (cs : list conv) (v : version) (kw : str * ewad) : result (str * ewad) :=
  let '(k, w) := kw in
  if endswith k (lit ".wad.client") then
    let! subdir := game_subdir v k in
    Ok (k, with_files w (filter (fun f => filter_path cs (path_text (w_path f))) (map (move_file subdir) (ew_files w))))
  else Ok kw.

(** export.py:419-476 [_transform_exported_files] *)
Definition transform (cs : list conv) (v : version) (e : exporter) : result exporter :=
  let e := {| ex_plain := ex_plain e; ex_wads := map (fun kw => (fst kw, with_files (snd kw) (set_unknown_paths (unknown_dir (fst kw)) (ew_files (snd kw))))) (ex_wads e) |} in
  let e := filter_export_paths not_executable e in
  let plain := filter (fun kv => negb (endswith (fst kv) (lit "/description.json"))) (ex_plain e) in
  let! wads := rmapM (game_wad cs v) (ex_wads e) in
  Ok {| ex_plain := plain; ex_wads := fold_left (fun d k => ddel k d) (map fst (filter (fun kw => negb (nonempty (ew_files (snd kw)))) wads)) wads |}.

(** ** The plan of [process] (export.py:329-380), from the transformed exporters *)

Record plan := { pl_new : list str; pl_changed : list str; pl_links : list str; pl_exporter : exporter }.
(** With a previous patch and symlinks. *)
Definition plan_links (cs : list conv) (e prev : exporter) : result plan :=
  let! new := all_converted cs e in
  let! old := all_converted cs prev in
  let e' := filter_exporter e prev in
  let! changed := all_converted cs e' in
  let new := set_of new in
  let changed := set_of changed in
  let! links := reduce_common_paths (filter (fun p => negb (mem p changed)) new) (set_of old) changed in
  Ok {| pl_new := new; pl_changed := set_add (lit "cdragon") changed; pl_links := links; pl_exporter := e' |}.
(** With a previous patch but no symlinks, or without a previous patch.  [changed_paths] is the same set
    as [new_paths]. *)
Definition plan_plain (cs : list conv) (e : exporter) (prev : option exporter) : result plan :=
  let! new := all_converted cs e in
  let! e' := match prev with Some p => let! _ := all_converted cs p in Ok (filter_exporter e p) | None => Ok e end in
  let new := set_add (lit "cdragon") (set_of new) in
  Ok {| pl_new := new; pl_changed := new; pl_links := []; pl_exporter := e' |}.
