(** * The command that extracts meshes: cdtb/__main__.py:305-316, cdtb/sknfile.py:6-7

    [show] renders floats and [enc] encodes the text written in a file (see Model/Skn.v); the source is read in one call. *)

From Verif Require Import Base.Py Base.Text Base.Bin Base.Fs Model.Files Model.Skn Model.Wad Model.Convert Model.Cli.

Section SknCli.
  Variable show : N -> str.
  Variable enc : str -> bytes.
  Variable cwd : path.

  (** __main__.py:310-311 *)
  Definition skn_output (s : str) (output : option str) : str := match output with Some o => o | None => fst (splitext s) end.
  (** __main__.py:313-316: the entries with their names and texts; a text is computed once its file is opened (see [save_objs]) *)
  Definition skn_objs (k : skn) : list (str * result bytes) := map (fun e => (e_name e, rmap enc (to_obj show e))) (k_entries k).
  (** __main__.py:305-316 [command_skn_extract] *)
  Definition command_skn_extract (s : str) (output : option str) : prog unit :=
    let~ isf := isfile cwd s in
    if negb isf then Rai SysExit else
    let~ data := read_file cwd s in
    let~ k := lift (prun parse_skn data) in
    let root := skn_output s output in
    let~ _ := makedirs cwd root in
    save_objs cwd root (skn_objs k).
End SknCli.
