(** * Export of a patch: cdtb/export.py:322-386

    Creating the exporters from the files of the patches is in AddFiles.v; the export of TFT and Arena data at the end is in
    GameExport.v. *)

From Verif Require Import Base.Py Base.Text Base.Fs Base.FsTree Model.Version Model.Wad Model.Exporter Model.Convert Model.Clean Model.Symlinks.

Section Process.
  Variable cd : codecs.
  Variable cwd : path.
  Variable order set_order : list str -> list str.
  Variable gunzip unzstd : bytes -> result bytes.
  Variable xxh3 : bytes -> N.
  (** Encoding of text files. *)
  Variable enc : str -> result bytes.
  Variable cs : list conv.
  Variable output : str.

  (** export.py:366-369: [with open(s, 'w', newline='\n') as f: for x in lines: print(x, file=f)].
      Simplification: each line is written by one call. *)
  Definition print_lines (s : str) (lines : list str) : prog unit :=
    let~ h := open_w cwd s in
    with_close (for_each lines (fun l => let~ b := lift (enc (l ++ [cNL])) in fwrite h b)).

  Definition links_txt : str := lit "cdragon/files.links.txt".
  Definition unknown_txt : str := lit "cdragon/files.unknown.txt".
  Definition exported_txt : str := lit "cdragon/files.exported.txt".
  (** export.py:363-378 *)
  Definition write_lists (pl : plan) (unknown : list N) : prog unit :=
    let~ _ := makedirs cwd (path_join output (lit "cdragon")) in
    let~ _ := (if nonempty (pl_links pl) then print_lines (path_join output links_txt) (py_sorted str_lt (pl_links pl)) else Ret tt) in
    let~ _ := print_lines (path_join output unknown_txt) (map (hexl 16) unknown) in
    print_lines (path_join output exported_txt) (py_sorted str_lt (pl_new pl)).

  (** export.py:354-378: from the plan (see [plan_links] and [plan_plain]).  [prev] is the text of the previous version. *)
  Definition carry_out (overwrite : bool) (prev : str) (unknown : list N) (pl : plan) : prog unit :=
    let~ _ := clean_output_dir cwd order set_order output (pl_changed pl) (pl_links pl) in
    let~ _ := export cd cwd cs output gunzip unzstd xxh3 overwrite (pl_exporter pl) in
    let~ _ := (if nonempty (pl_links pl) then create_symlinks cwd output prev (pl_links pl) else Ret tt) in
    write_lists pl unknown.

  (** export.py:337-352: the plan. *)
  Definition planned (symlinks : bool) (e : exporter) (prev : option exporter) : result plan :=
    match prev with
    | Some p => if symlinks then plan_links cs e p else plan_plain cs e (Some p)
    | None => plan_plain cs e None
    end.
  (** export.py:322-378 [process].  [symlinks] is not used without a previous patch. *)
  Definition process (overwrite symlinks : bool) (v : version) (e : exporter) (prev : option (version * exporter)) : prog unit :=
    let unknown := py_sorted N.ltb (unknown_hashes e) in
    let~ e := lift (transform cs v e) in
    match prev with
    | None => let~ pl := lift (planned symlinks e None) in carry_out overwrite [] unknown pl
    | Some (pv, p) =>
      let~ p := lift (transform cs pv p) in
      let~ pl := lift (planned symlinks e (Some p)) in
      carry_out overwrite (v_s pv) unknown pl
    end.
End Process.
