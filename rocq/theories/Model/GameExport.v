(** * Files of TFT and Arena data: cdtb/tftdata.py:35-93, cdtb/arenadata.py:9-51, cdtb/export.py:388-404

    Parameters: those of Tft, Arena and Stringtables; [limit] is the recursion limit; [dump] gives the writes made by
    [json_dump], and the exception that stops it, if any.
    Simplification: the files of the input directory are read in the state in which the search or the template starts,
    except the string tables, which are read one by one. *)

From Verif Require Import Base.Py Base.Text Base.Bin Base.Fs Model.Version Model.Rst Model.Files Model.Stringtables.
From Verif Require Export Model.Tft Model.Arena.

(** The content of a file, in one state. *)
Definition f_read (cwd : path) (f : fs) (s : str) : result bytes :=
  let! p := locate cwd f true s in
  match look f p with
  | Some (NFile b) => Ok b
  | Some _ => Err (OSError EISDIR)
  | None => Err (OSError ENOENT)
  end.

Section Export.
  Variable order : list str -> list str.
  Variable cwd : path.

  (** [export]: tftdata.py:59-93, arenadata.py:25-51; the two differ by the name of the game, the template, the reading of
      string tables and what is translated. *)
  Section Langs.
    Context {T L I : Type}.
    Variable template : fs -> result T.
    Variable load : bytes -> result L.
    Variable instance : T -> L -> result I.
    Variable dump : I -> list bytes * option exn.

    Definition json_of (output lang : str) : str := path_join output (lang ++ lit ".json").
    Definition export_lang (tables : list (str * str)) (t : T) (output lang : str) : prog unit :=
      let~ p := lift (of_opt KeyError (dget lang tables)) in
      let~ data := read_file cwd p in
      let~ tr := lift (load data) in
      let~ i := lift (instance t tr) in
      let~ h := open_w cwd (json_of output lang) in
      with_close (write_pieces (fst (dump i)) (snd (dump i)) h).
    Definition export_langs (game input output : str) (langs : option (list str)) : prog unit :=
      let~ tables := sys (fun f => let! d := stringtable_paths order cwd f input game in Ok (d, f)) in
      let~ _ := makedirs cwd output in
      let~ t := sys (fun f => let! t := template f in Ok (t, f)) in
      for_each (match langs with None => dkeys tables | Some l => l end) (export_lang tables t output).
  End Langs.

  Variable limit : nat.
  Variable nm : names.
  Variable repr : pyres -> str.
  Variable plower : str -> str.
  Variable set_order : list N -> list N.
  Variable fdiv : N -> bval.
  Variable xxh3 xxh64 : str -> N.

  (** [BinFile(s)]: its entries *)
  Definition bin_entries (f : fs) (s : str) : result (list bentry) :=
    let! data := f_read cwd f s in
    rmap bf_entries (prun (read_binfile (reader_version None) limit) data).

  (** tftdata.py:40-57; [os.path.join] *)
  Definition tft_template (input : str) (f : fs) : result template :=
    let! es := bin_entries f (path_join (path_join (path_join (path_join (path_join input (lit "data")) (lit "maps")) (lit "shipping")) (lit "map22")) (lit "map22.bin")) in
    build_template nm repr plower set_order (fun s => f_exists cwd s f) (bin_entries f) fdiv input es.
  (** tftdata.py:59-93 [TftTransformer.export] *)
  Definition tft_export (dump : output -> list bytes * option exn) (version : N) (input out : str) (langs : option (list str)) : prog unit :=
    export_langs (tft_template input) (load_translations version) (fun t tr => rmap show (translate xxh3 xxh64 plower tr t)) dump (lit "tft") input out langs.

  (** arenadata.py:14-24 *)
  Definition arena_template (input : str) (f : fs) : result (list augment) :=
    let! es := bin_entries f (path_join (path_join (path_join (path_join (path_join input (lit "data")) (lit "maps")) (lit "shipping")) (lit "map30")) (lit "map30.bin")) in
    parse_augments nm repr plower es.
  (** arenadata.py:25-51 [ArenaTransformer.export] *)
  Definition arena_export (dump : list augment -> list bytes * option exn) (version : N) (input out : str) (langs : option (list str)) : prog unit :=
    export_langs (arena_template input) (prun (parse_rst version)) (fun l r => augments_in plower xxh3 xxh64 r l) dump (lit "lol") input out langs.

  (** export.py:388-395; the comparison raises for a version without numbers. *)
  Definition too_old (v : version) (oldest : str) : result bool :=
    if v_eq_str v (lit "main") then Ok false else let! o := patch_version (ArgStr oldest) in v_lt v o.
  Definition export_tft_data (dump : output -> list bytes * option exn) (v : version) (out : str) : prog unit :=
    let~ old := lift (too_old v (lit "9.14")) in
    if old : bool then Ret tt else
    let~ n := lift (as_int v) in
    tft_export dump (Z.to_N n) (path_join out (lit "game")) (path_join out (lit "cdragon/tft")) None.
  (** export.py:397-404 *)
  Definition export_arena_data (dump : list augment -> list bytes * option exn) (v : version) (out : str) : prog unit :=
    let~ old := lift (too_old v (lit "13.14")) in
    if old : bool then Ret tt else
    arena_export dump 1502 (path_join out (lit "game")) (path_join out (lit "cdragon/arena")) None.
End Export.
