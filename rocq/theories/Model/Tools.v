(** * cdtb/tools.py:55-82 [BinaryParser.unpack_string] (the rest of [BinaryParser] is in Base.Bin) *)

From Verif Require Export Base.Bin Base.Utf8.

(** tools.py:80-82.  [read] may return fewer bytes at the end of the file: no length check. *)
Definition unpack_string : P str :=
  let* n := u32 in let* d := pread n in plift (utf8_dec d).
