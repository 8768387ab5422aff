(** * cdtb/tftdata.py:9-24 [load_translations]; the file is given by its content *)

From Verif Require Import Base.Py Base.Text Base.Bin Base.Utf8 Model.Rst.

(** [for line in f] on a binary file *)
Fixpoint byte_lines (b : bytes) : list bytes :=
  match b with
  | [] => []
  | c :: t =>
    if eqb c x0a then [c] :: byte_lines t
    else match byte_lines t with [] => [[c]] | l :: ls => (c :: l) :: ls end
  end.

Inductive translations := FromRst (r : rst) | FromText (d : list (str * str)).

Fixpoint load_lines (lines : list bytes) (d : list (str * str)) : result (list (str * str)) :=
  match lines with
  | [] => Ok d
  | line :: rest =>
    if startswith line (bl "tr """) then
      let! line := utf8_dec line in
      match cut_first 61 line with
      | None => Err ValueError
      | Some (key, val) => load_lines rest (dset (py_slice key 4 (-2)) (py_slice val 2 (-2)) d)
      end
    else load_lines rest d
  end.

(** Lines 14-24.  [f.read(3)] has moved the position: iteration starts after the first three bytes. *)
Definition load_translations (game_version : N) (data : bytes) : result translations :=
  if eqb (takeN 3 data) (bl "RST") then rmap FromRst (prun (parse_rst game_version) data)
  else rmap FromText (load_lines (byte_lines (dropN 3 data)) []).
