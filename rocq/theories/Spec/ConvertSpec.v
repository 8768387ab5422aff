(** * Specification of conversions *)

From Verif Require Import Base.Py Base.Text Base.Fs Spec.FsSpec Model.Wad Model.Tex Model.Exporter Model.Convert.

(** The first converter that handles a path. *)
Definition first_handling (cs : list conv) (p : str) (c : conv) : Prop :=
  exists l1 l2, cs = l1 ++ c :: l2 /\ is_handled c p = true /\ forall x, In x l1 -> is_handled x p = false.

Definition image_of (cd : codecs) (data b : bytes) : Prop := exists pieces, cd_image cd data = (pieces, ImgSaved) /\ b = concat pieces.
Definition json_of (parse : bytes -> result dumped) (data b : bytes) : Prop := exists pieces, parse data = Ok (pieces, None) /\ b = concat pieces.
Definition stem (p : str) : str := fst (splitext p).

(** Objects with a [read] method: [BytesIO(data)], or an open file whose content is [data]. *)
Definition source_of (fin : prog bytes) (data : bytes) : Prop := fin = Ret data \/ fin = sys (fun f => Ok (data, f)).

(** What a successful conversion of [data] leaves: [has] tells which files exist (by names relative to the output
    directory) with which content. *)
Definition converted_to (cd : codecs) (c : conv) (data : bytes) (p : str) (has : str -> bytes -> Prop) (isdir : str -> Prop) : Prop :=
  match c with
  | CopyConv => has p data
  | ImageConv _ => exists b, image_of cd data b /\ has (stem p ++ lit ".png") b
  | TexConv => exists dds b, tex_to_dds data = Ok dds /\ image_of cd dds b /\ has (stem p ++ lit ".png") b
  | BinConv _ => has p data /\ exists b, json_of (cd_bin cd) data b /\ has (p ++ lit ".json") b
  | RstConv _ => has p data /\ exists b, json_of (cd_rst cd) data b /\ has (p ++ lit ".json") b
  | AtlasConv _ => exists b, json_of (cd_atlas cd) data b /\ has (p ++ lit ".json") b
  | SkinInfoConv => exists b, json_of (cd_skins cd) data b /\ has (p ++ lit ".json") b
  | SknConv => has p data /\ isdir (stem p) /\ exists objs, cd_skn cd data = Ok objs
      /\ forall l1 n r l2, objs = l1 ++ (n, r) :: l2 -> ~ In n (map fst l2) -> exists b, r = Ok b /\ has (stem p ++ lit "/" ++ n ++ lit ".obj") b
  end.

(** Where a path of the output directory is. *)
Definition at_out (cwd : path) (output q : str) : path := target cwd (path_join output q).
Definition has_file (cwd : path) (output : str) (f : fs) (q : str) (b : bytes) : Prop := look f (at_out cwd output q) = Some (NFile b).
Definition has_dir (cwd : path) (output : str) (f : fs) (q : str) : Prop := look f (at_out cwd output q) = Some NDir.

(** Entries of skin files are named by single names. *)
Definition plain_names (cd : codecs) : Prop := forall data objs n r, cd_skn cd data = Ok objs -> In (n, r) objs -> ~ In cSlash n.

(** The paths [conv p] can be written without links or '..'; the directory of an exploded skin file contains no link either,
    does not contain the current directory, and is not the file itself. *)
Definition conv_ready (cwd : path) (output : str) (c : conv) (p : str) (f : fs) : Prop :=
  (forall q, In q (converted_paths c p) -> ready cwd (path_join output q) f)
  /\ (c = SknConv -> stem p <> p /\ ~ below cwd (at_out cwd output (stem p)) /\ forall q t, below q (at_out cwd output (stem p)) -> look f q <> Some (NLink t)).

(** Paths at which something may be written for [p]: its converted paths, and what is in a directory. *)
Definition conv_at (cwd : path) (output : str) (c : conv) (p : str) (t : path) : Prop :=
  exists q, In q (converted_paths c p) /\ (t = at_out cwd output q \/ c = SknConv /\ q = stem p /\ below t (at_out cwd output q)).

(** Errors of contents: what the conversion of [data] raises by itself. *)
Definition image_error (cd : codecs) (data : bytes) (e : exn) : Prop :=
  exists pieces x, cd_image cd data = (pieces, x)
    /\ (x = ImgNotImplemented /\ e = FileConversionError \/ exists e', x = ImgRaises e' /\ (is_oserror e' = true /\ e = FileConversionError \/ is_oserror e' = false /\ e = e')).
Definition json_error (parse : bytes -> result dumped) (data : bytes) (e : exn) : Prop := parse data = Err e \/ exists pieces, parse data = Ok (pieces, Some e).
Definition bin_error (cd : codecs) (data : bytes) (e : exn) : Prop :=
  (exists e', cd_bin cd data = Err e' /\ ((e' = ValueError \/ e' = UnicodeDecodeError) /\ e = FileConversionError \/ e' <> ValueError /\ e' <> UnicodeDecodeError /\ e = e'))
  \/ exists pieces, cd_bin cd data = Ok (pieces, Some e).
(** How a conversion fails because of the content: [absent] tells that no such file is left, [empty] that nothing is left
    of a directory. *)
Definition conversion_fails (cd : codecs) (c : conv) (data : bytes) (p : str) (e : exn) (has : str -> bytes -> Prop) (absent empty : str -> Prop) : Prop :=
  match c with
  | CopyConv => False
  | ImageConv _ => image_error cd data e /\ absent (stem p ++ lit ".png")
  | TexConv => tex_to_dds data = Err e \/ exists dds, tex_to_dds data = Ok dds /\ image_error cd dds e /\ absent (stem p ++ lit ".png")
  | BinConv _ => bin_error cd data e /\ has p data /\ absent (p ++ lit ".json")
  | RstConv _ => has p data /\ (cd_rst cd data = Err e \/ (exists pieces, cd_rst cd data = Ok (pieces, Some e)) /\ absent (p ++ lit ".json"))
  | AtlasConv _ => json_error (cd_atlas cd) data e /\ absent (p ++ lit ".json")
  | SkinInfoConv => json_error (cd_skins cd) data e /\ absent (p ++ lit ".json")
  | SknConv => (cd_skn cd data = Err e \/ exists objs n, cd_skn cd data = Ok objs /\ In (n, Err e) objs) /\ has p data /\ empty (stem p)
  end.
Definition no_file (cwd : path) (output : str) (f : fs) (q : str) : Prop := ~ is_file f (at_out cwd output q).
Definition no_tree (cwd : path) (output : str) (f : fs) (q : str) : Prop := forall t, below t (at_out cwd output q) -> look f t = None.
(** Errors of the filesystem itself: something is in the way, or is missing. *)
Definition path_error (e : exn) : Prop := exists n, e = OSError n /\ (n = ENOENT \/ n = ENOTDIR \/ n = ELOOP \/ n = EEXIST \/ n = EISDIR).

(** ** Exporters *)

Definition exports (e : exporter) (p : str) : Prop :=
  (exists src, In (p, src) (ex_plain e)) \/ exists k w x, In (k, w) (ex_wads e) /\ In x (ew_files w) /\ w_path x = Some p.
Definition chosen (cs : list conv) (p : str) (c : conv) : Prop := first_handling cs p c \/ c = CopyConv /\ forall x, In x cs -> is_handled x p = false.
(** Every path of every exported file can be written. *)
Definition export_ready (cwd : path) (output : str) (cs : list conv) (e : exporter) (f : fs) : Prop :=
  forall p c, exports e p -> chosen cs p c -> conv_ready cwd output c p f.
Definition export_at (cwd : path) (output : str) (cs : list conv) (e : exporter) (t : path) : Prop :=
  exists p c, exports e p /\ chosen cs p c /\ conv_at cwd output c p t.

(** The exported paths, in order. *)
Definition path_list (o : option str) : list str := match o with Some p => [p] | None => [] end.
Definition export_list (e : exporter) : list str := map fst (ex_plain e) ++ flat_map (fun kw => flat_map (fun x => path_list (w_path x)) (ew_files (snd kw))) (ex_wads e).
(** No two exported files produce the same file. *)
Definition no_clash (cwd : path) (output : str) (cs : list conv) (e : exporter) : Prop :=
  NoDup (export_list e) /\ forall p1 p2 c1 c2 t, exports e p1 -> exports e p2 -> chosen cs p1 c1 -> chosen cs p2 c2 -> conv_at cwd output c1 p1 t -> conv_at cwd output c2 p2 t -> p1 = p2.
(** [s] is a file with content [data], and is not among what is written. *)
Definition source_file (cwd : path) (output : str) (cs : list conv) (e : exporter) (f : fs) (s : str) (data : bytes) : Prop :=
  ready cwd s f /\ look f (target cwd s) = Some (NFile data) /\ forall t, export_at cwd output cs e t -> ~ below (target cwd s) t.
(** What becomes of an exported file whose content is [data]; errors that are only logged. *)
Definition exported_as (cd : codecs) (cwd : path) (output : str) (logged : exn -> Prop) (f : fs) (c : conv) (data : bytes) (p : str) : Prop :=
  converted_to cd c data p (has_file cwd output f) (has_dir cwd output f)
  \/ exists e, logged e /\ conversion_fails cd c data p e (has_file cwd output f) (no_file cwd output f) (no_tree cwd output f).
Definition plain_logged (e : exn) : Prop := e = FileConversionError.
Definition entry_logged (e : exn) : Prop := e = FileConversionError \/ e = OSError EINVAL \/ e = OSError ENAMETOOLONG.
