(** * Conversion and export of files: cdtb/export.py:208-219, 262-308, 545-847, cdtb/tools.py:40-52

    What parsers and serializers produce from the content of a file is given by functions.
    Simplifications: a source file is read in one call; a buffer is written in one call (which may
    be interrupted anywhere, see [fwrite]). *)

From Verif Require Import Base.Py Base.Text Base.Fs Base.FsTree Model.Files Model.Wad Model.Tex Model.Exporter.

(** How [im.save] ends. *)
Inductive img_end := ImgSaved | ImgNotImplemented | ImgRaises (e : exn).
(** Successive writes of [json_dump], then possibly an exception. *)
Definition dumped := (list bytes * option exn)%type.

(** Content-dependent results: [Image.open] and [im.save]; the JSON files, whose content has first to be
    parsed; the [.obj] texts of each entry of a skin file, by name. *)
Record codecs := {
  cd_image : bytes -> list bytes * img_end;
  cd_bin : bytes -> result dumped;
  cd_rst : bytes -> result dumped;
  cd_atlas : bytes -> result dumped;
  cd_skins : bytes -> result dumped;
  cd_skn : bytes -> result (list (str * result bytes)) }.

Section Convert.
  Variable cd : codecs.
  Variable cwd : path.

  (** tools.py:40-52 [write_dir_or_remove] *)
  Definition write_dir_or_remove (s : str) (body : prog unit) : prog unit :=
    catch (let~ _ := makedirs cwd s in body) (fun e => let~ _ := rmtree_ignore cwd s in Rai e).

  (** [with write_file_or_remove(s) as fout: shutil.copyfileobj(fin, fout)] *)
  Definition copy_to (fin : prog bytes) (s : str) : prog unit :=
    write_file_or_remove cwd s (fun h => let~ data := fin in fwrite h data).
  (** export.py:617-623, 638-643: an image saved as PNG. *)
  Definition save_image (fin : prog bytes) (s : str) : prog unit :=
    write_file_or_remove cwd s (fun h =>
      let~ r := catch
        (let~ data := fin in
         let '(pieces, e) := cd_image cd data in
         let~ _ := for_each pieces (fwrite h) in Ret e)
        (fun e => if is_oserror e then Ret ImgNotImplemented else Rai e) in
      match r with ImgSaved => Ret tt | ImgNotImplemented => Rai FileConversionError | ImgRaises e => if is_oserror e then Rai FileConversionError else Rai e end).
  Definition is_valueerror (e : exn) : bool := match e with ValueError | UnicodeDecodeError => true | _ => false end.
  (** export.py:725-730 *)
  Definition save_bin_json (source s : str) : prog unit :=
    write_file_or_remove cwd s (fun h =>
      let~ data := read_file cwd source in
      match cd_bin cd data with
      | Err e => if is_valueerror e then Rai FileConversionError else Rai e
      | Ok (pieces, e) => write_pieces pieces e h
      end).
  (** export.py:800-801, 845-846 *)
  Definition save_json (parse : bytes -> result dumped) (fin : prog bytes) (s : str) : prog unit :=
    write_file_or_remove cwd s (fun h => let~ data := fin in let~ (pieces, e) := lift (parse data) in write_pieces pieces e h).
  (** export.py:748-755 *)
  Definition obj_name (root name : str) : str := path_join root (name ++ lit ".obj").
  Definition save_objs (root : str) (objs : list (str * result bytes)) : prog unit :=
    for_each objs (fun no => let~ h := open_w cwd (obj_name root (fst no)) in with_close (let~ b := lift (snd no) in fwrite h b)).
  Definition save_skn (source root : str) : prog unit :=
    let~ _ := rmtree_ignore cwd root in
    write_dir_or_remove root (let~ data := read_file cwd source in let~ objs := lift (cd_skn cd data) in save_objs root objs).

  (** [FileConverter.convert]: export.py:597-600 (copy), 615-623 (images), 635-643 (TEX), 721-730 (bin), 743-755 (skn), 769-785 (rst),
      797-801 (atlases), 842-846 (champion skins). *)
  Definition png_name (output p : str) : str := path_join output (fst (splitext p) ++ lit ".png").
  Definition convert (c : conv) (fin : prog bytes) (output p : str) : prog unit :=
    let s := path_join output p in
    match c with
    | CopyConv => copy_to fin s
    | ImageConv _ => save_image fin (png_name output p)
    | TexConv => let~ data := fin in let~ dds := lift (tex_to_dds data) in save_image (Ret dds) (png_name output p)
    | BinConv _ => let~ _ := copy_to fin s in save_bin_json s (s ++ lit ".json")
    | SknConv => let~ _ := copy_to fin s in save_skn s (path_join output (fst (splitext p)))
    | RstConv _ => let~ _ := copy_to fin s in
                   let~ data := read_file cwd s in
                   let~ (pieces, e) := lift (cd_rst cd data) in
                   write_file_or_remove cwd (s ++ lit ".json") (write_pieces pieces e)
    | AtlasConv _ => save_json (cd_atlas cd) fin (s ++ lit ".json")
    | SkinInfoConv => save_json (cd_skins cd) fin (s ++ lit ".json")
    end.

  (** export.py:565-567 [converted_paths_exist] *)
  Fixpoint all_exist (output : str) (l : list str) : prog bool :=
    match l with
    | [] => Ret true
    | p :: t => let~ b := lexists cwd (path_join output p) in if b : bool then all_exist output t else Ret false
    end.

  Variable cs : list conv.
  Variable output : str.

  (** export.py:269-280 [_export_plain_file] *)
  Definition export_plain (overwrite : bool) (p source : str) : prog unit :=
    let c := get_converter cs p in
    let~ skip := (if overwrite then Ret false else all_exist output (converted_paths c p)) in
    if skip : bool then Ret tt
    else catch
      (let~ data := read_file cwd source in
       with_close (convert c (sys (fun f => Ok (data, f))) output p))
      (fun e => match e with FileConversionError => Ret tt | _ => Rai e end).

  Variable gunzip unzstd : bytes -> result bytes.
  Variable xxh3 : bytes -> N.

  (** export.py:287-308, one entry; wad.py:329-340 [read_file_data].  [wadf] is the content of the archive. *)
  Definition export_entry (overwrite : bool) (wadf : bytes) (toc : option bytes) (w : wfile) : prog unit :=
    match w_path w with
    | None => Ret tt
    | Some p =>
      let c := get_converter cs p in
      let~ skip := (if overwrite then Ret false else all_exist output (converted_paths c p)) in
      if skip : bool then Ret tt
      else
        let~ data :=
          catch (sys (fun f => rmap (fun d => (d, f)) (read_data gunzip unzstd xxh3 wadf w toc)))
            (fun e => match e with MalformedSubchunkError _ => Ret None | _ => Rai e end) in
        match data with
        | None => Ret tt
        | Some d =>
          catch (convert c (Ret d) output p)
            (fun e => match e with FileConversionError => Ret tt | OSError EINVAL | OSError ENAMETOOLONG => Ret tt | _ => Rai e end)
        end
    end.
  (** export.py:282-308 [_export_wad] *)
  Definition export_wad (overwrite : bool) (w : ewad) : prog unit :=
    let~ wadf := read_file cwd (ew_src w) in
    with_close (for_each (ew_files w) (export_entry overwrite wadf (ew_toc w))).
  (** export.py:208-219 [export] *)
  Definition export (overwrite : bool) (e : exporter) : prog unit :=
    let~ _ := for_each (ex_plain e) (fun kv => export_plain overwrite (fst kv) (snd kv)) in
    for_each (ex_wads e) (fun kw => export_wad overwrite (snd kw)).
End Convert.
