(** * Vocabulary for the text dump of BIN files *)

From Verif Require Import Base.Py Base.Text Model.BinFile.

(** ** String literals, as Python reads them *)
Definition hex_number (w : N) (d : str) (n : N) : Prop := lenN d = w /\ Forall (fun c => is_digit c = true \/ 97 <= c <= 102) d /\ int16 d = Ok (Z.of_N n).
Inductive unescaped (q : N) : str -> str -> Prop :=
| un_nil : unescaped q [] []
| un_plain c t s : c <> q -> c <> 92 -> c <> 10 -> unescaped q t s -> unescaped q (c :: t) (c :: s)
| un_quote t s : unescaped q t s -> unescaped q (92 :: q :: t) (q :: s)
| un_backslash t s : unescaped q t s -> unescaped q (92 :: 92 :: t) (92 :: s)
| un_tab t s : unescaped q t s -> unescaped q (lit "\t" ++ t) (9 :: s)
| un_newline t s : unescaped q t s -> unescaped q (lit "\n" ++ t) (10 :: s)
| un_return t s : unescaped q t s -> unescaped q (lit "\r" ++ t) (13 :: s)
| un_hex2 d n t s : hex_number 2 d n -> unescaped q t s -> unescaped q (lit "\x" ++ d ++ t) (n :: s)
| un_hex4 d n t s : hex_number 4 d n -> unescaped q t s -> unescaped q (lit "\u" ++ d ++ t) (n :: s)
| un_hex8 d n t s : hex_number 8 d n -> unescaped q t s -> unescaped q (lit "\U" ++ d ++ t) (n :: s).
(** Text [t] is a literal of string [s]. *)
Definition literal (t s : str) : Prop := exists q body, (q = 39 \/ q = 34) /\ t = q :: body ++ [q] /\ unescaped q body s.
Definition code_points (s : str) : Prop := Forall (fun c => c < 0x110000) s.

(** ** Lines *)
Definition lines (s : str) : list str := split_ch cNL s.
Definition no_newline (s : str) : Prop := ~ In cNL s.
(** A text made of complete lines. *)
Definition complete_lines (ls : list str) (s : str) : Prop := Forall no_newline ls /\ s = concat (map (fun l => l ++ [cNL]) ls).
(** Lines preceded by two spaces. *)
Definition indented (ls : list str) : list str := map (fun l => 32 :: 32 :: l) ls.
Definition is_indented (l : str) : bool := startswith l (lit "  ").
(** A text before the first line, after the last line. *)
Definition leading (pre : str) (ls : list str) : list str := match ls with [] => [pre] | x :: t => (pre ++ x) :: t end.
Fixpoint ending (ls : list str) (post : str) : list str := match ls with [] => [post] | [x] => [x ++ post] | x :: t => x :: ending t post end.
(** A list of items, each on its own lines, indented. *)
Definition block (items : list (list str)) : list str :=
  match items with [] => [lit "[]"] | _ => [lit "["] ++ concat (map indented items) ++ [lit "]"] end.

(** ** What is shown for a hash *)
Definition hash_shown (w : N) (known : N -> option str) (h : N) (t : str) : Prop :=
  match known h with Some s => literal t s | None => t = lit "{" ++ hexl w h ++ lit "}" end.
(** First and last lines of what has items or not. *)
Definition marks {A} (head : str) (items : list A) : list str := match items with [] => [head ++ lit "[]>"] | _ => [head ++ lit "["; lit "]>"] end.
Definition linked_marks (l : list str) (ls : list str) : Prop := ls = marks (lit "<Linked: ") l.
Definition entry_marks (nm : names) (e : bentry) (ls : list str) : Prop :=
  exists p, hash_shown 8 (n_entry nm) (be_path e) p /\ ls = marks (lit "<BinEntry " ++ p ++ lit " " ++ hash_str 8 (n_type nm) (be_type e) ++ lit " ") (be_fields e).
Definition patch_marks (nm : names) (b : bpatch) (ls : list str) : Prop :=
  exists p, hash_shown 8 (n_entry nm) (fst b) p /\ ls = marks (lit "<BinPatchEntry " ++ p ++ lit " ") (snd b).
(** Known names come from lines of files. *)
Definition line_names (known : N -> option str) : Prop := forall h s, known h = Some s -> no_newline s /\ code_points s.

(** ** What is shown for simple values *)
Definition tuple_of (l : list str) : str := lit "(" ++ join (lit ", ") l ++ lit ")".
Inductive shown (show : N -> str) (nm : names) : bval -> str -> Prop :=
| sh_ints l : shown show nm (VInts l) (tuple_of (map dec l))
| sh_true : shown show nm (VBool true) (lit "True")
| sh_false : shown show nm (VBool false) (lit "False")
| sh_int z : shown show nm (VInt z) (decZ z)
| sh_float f : shown show nm (VFloat f) (show f)
| sh_vec l : shown show nm (VVec l) (tuple_of (map show l))
| sh_matrix l : shown show nm (VMatrix l) (tuple_of (map (fun r => tuple_of (map show r)) l))
| sh_str s t : literal t s -> shown show nm (VStr s) t
| sh_hash h t : hash_shown 8 (n_hash nm) h t -> shown show nm (VHash h) t
| sh_path h t : hash_shown 16 (n_path nm) h t -> shown show nm (VPath h) t
| sh_link h t : hash_shown 8 (n_entry nm) h t -> shown show nm (VLink h) t.
(** Keys of maps are shown without quotes. *)
Inductive key_shown (show : N -> str) (nm : names) : bval -> str -> Prop :=
| ks_str s : key_shown show nm (VStr s) s
| ks_hash h : key_shown show nm (VHash h) (hash_str 8 (n_hash nm) h)
| ks_path h : key_shown show nm (VPath h) (hash_str 16 (n_path nm) h)
| ks_link h : key_shown show nm (VLink h) (hash_str 8 (n_entry nm) h)
| ks_other v t : match v with VStr _ | VHash _ | VPath _ | VLink _ => False | _ => True end -> shown show nm v t -> key_shown show nm v t.
Definition text_points (v : bval) : Prop := match v with VStr s => code_points s | _ => True end.
Definition simple (v : bval) : Prop := match v with VList _ _ | VStruct _ _ | VEmbedded _ _ | VOption _ _ | VMap _ _ _ => False | _ => True end.
(** Names of the types. *)
Definition type_names : list (N * str) := combine [0; 1; 2; 3; 4; 5; 6; 7; 8; 9; 10; 11; 12; 13; 14; 15; 16; 17; 18; 0x80; 0x81; 0x82; 0x83; 0x84; 0x85; 0x86; 0x87]
  [lit "EMPTY"; lit "BOOL"; lit "S8"; lit "U8"; lit "S16"; lit "U16"; lit "S32"; lit "U32"; lit "S64"; lit "U64"; lit "FLOAT"; lit "VEC2_FLOAT"; lit "VEC3_FLOAT"; lit "VEC4_FLOAT"; lit "MATRIX4X4"; lit "RGBA"; lit "STRING"; lit "HASH"; lit "PATH";
    lit "LIST"; lit "LIST2"; lit "STRUCT"; lit "EMBEDDED"; lit "LINK"; lit "OPTION"; lit "MAP"; lit "FLAG"].

(** ** Version of the types of values, given to the command: the latest one, or major and minor numbers *)
Inductive asked_version : option str -> Z -> Prop :=
| av_none : asked_version None 9999
| av_empty : asked_version (Some []) 9999
| av_main : asked_version (Some (lit "main")) 9999
| av_patch s x y rest a b : s <> lit "main" -> split_ch cDot s = x :: y :: rest -> int10 x = Ok a -> int10 y = Ok b -> Forall (fun z => exists n, int10 z = Ok n) rest ->
    asked_version (Some s) (a * 100 + b).
