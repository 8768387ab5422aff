(** * C28, C29: BIN files *)

From Verif Require Import Base.TextFacts Base.BinFacts Spec.Utf8Spec Model.BinFile Spec.BinSpec Proofs.BinProofs Proofs.BinReadProofs.

(** C28: the bytes of a file yield exactly this file, at any nesting depth [n] allowed by the recursion limit. *)
Theorem C28_decode ver n f bs rest : file_layout true (era_of ver) n f bs -> prun (read_binfile ver n) (bs ++ rest) = Ok f.
Proof. exact (decoded ver n f bs rest). Qed.
Print Assumptions C28_decode.

Local Definition text (p : String.string) : bytes := leenc 2 (lenN (bl p)) ++ bl p.
Arguments text p%string_scope.
Local Definition sample_fields : bytes :=
  leenc 4 1 ++ map n2b [128; 16] ++ leenc 4 0 ++ leenc 4 2 ++ text "x" ++ text "yz" ++
  leenc 4 2 ++ map n2b [134; 17; 133] ++ leenc 4 77 ++ leenc 4 3 ++ leenc 4 7 ++ map n2b [3; 1; 200] ++ leenc 4 8 ++ map n2b [3; 0] ++ leenc 4 7 ++ map n2b [4; 1; 254; 255] ++
  leenc 4 3 ++ map n2b [130] ++ leenc 4 5 ++ leenc 4 9 ++ leenc 2 1 ++ leenc 4 6 ++ map n2b [1; 2] ++
  leenc 4 4 ++ map n2b [130] ++ leenc 4 0.
Local Definition sample_entry : bytes := leenc 4 (lenN sample_fields + 6) ++ leenc 4 0x22 ++ leenc 2 4 ++ sample_fields.
Local Definition sample_head : bytes := bl "PROP" ++ leenc 4 2 ++ leenc 4 1 ++ text "a/b" ++ leenc 4 1 ++ leenc 4 0x11.
Local Definition sample_file : binfile :=
  {| bf_patch := false; bf_version := 2; bf_linked := Some [lit "a/b"]; bf_patches := None;
     bf_entries := [{| be_path := 0x22; be_type := 0x11; be_fields := [
       (1, TList, VList TString [VStr (lit "x"); VStr (lit "yz")]);
       (2, TMap, VMap THash TOption [(VHash 7, VOption TS16 (Some (VInt (-2)))); (VHash 8, VOption TU8 None)]);
       (3, TStruct, VStruct 5 [(6, TBool, VBool true)]);
       (4, TStruct, VStruct 0 [])] |}] |}.
Example C28_decode_ex : file_layout true Era3 3 sample_file (sample_head ++ sample_entry).
Proof. apply (layout_of_run 1008 3 _ _ x00). vm_compute. reflexivity. Qed.
Local Definition patch_item (h : N) (p : bytes) (v : bytes) : bytes := leenc 4 h ++ leenc 4 0 ++ map n2b [16] ++ p ++ v.
Local Definition patch_head : bytes := bl "PTCH" ++ leenc 4 1 ++ leenc 4 0 ++ bl "PROP" ++ leenc 4 3 ++ leenc 4 0 ++ leenc 4 0.
Local Definition patch_file (s : str) : binfile :=
  {| bf_patch := true; bf_version := 3; bf_linked := Some []; bf_entries := [];
     bf_patches := Some [(5, [(lit "a.b", TString, VStr (lit "u")); (lit "c", TString, VStr s)]); (6, [(lit "c", TString, VStr (lit "v"))])] |}.
Example C28_decode_patch_ex : file_layout true Era2 1 (patch_file (lit "w"))
  (patch_head ++ leenc 4 3 ++ patch_item 5 (text "a.b") (text "u") ++ patch_item 6 (text "c") (text "v") ++ patch_item 5 (text "c") (text "w")).
Proof. apply (layout_of_run 923 1 _ _ x00). vm_compute. reflexivity. Qed.

(** Conversely every accepted content is such a file; only a text at the very end may lack bytes ([x = false]). *)
Theorem C28_accepted ver n b f : prun (read_binfile ver n) b = Ok f ->
  exists x bs rest, b = bs ++ rest /\ file_layout x (era_of ver) n f bs /\ (x = true \/ rest = []).
Proof. exact (accepted ver n b f). Qed.
Print Assumptions C28_accepted.
Example C28_accepted_ex : prun (read_binfile 1008 3) (sample_head ++ sample_entry ++ [xff; x07]) = Ok sample_file.
Proof. vm_compute. reflexivity. Qed.

(** C28: an entry whose declared length is not the length of its content is rejected. *)
Theorem C28_length ver n patch version linked types es bes h hs bh len path fs bf post :
  head_layout patch version linked types bh -> types = map be_type es ++ h :: hs ->
  Forall2 (entry_layout true (era_of ver) n) es bes ->
  len < 2 ^ 32 -> path < 2 ^ 32 -> lenN fs < 2 ^ 16 -> fields_layout (era_of ver) (val_layout true (era_of ver) n) fs bf ->
  len <> lenN bf + 6 ->
  prun (read_binfile ver n) (bh ++ concat bes ++ leenc 4 len ++ leenc 4 path ++ leenc 2 (lenN fs) ++ bf ++ post) = Err AssertionError.
Proof. exact (length_rejected ver n patch version linked types es bes h hs bh len path fs bf post). Qed.
Print Assumptions C28_length.
Example C28_length_ex : exists bh bes bf, head_layout false 2 (Some [lit "a/b"]) [0x11] bh /\ Forall2 (entry_layout true Era3 3) (bf_entries sample_file) bes /\
  concat bes = sample_entry /\ fields_layout Era3 (val_layout true Era3 3) (be_fields (hd {| be_path := 0; be_type := 0; be_fields := [] |} (bf_entries sample_file))) bf /\
  prun (read_binfile 1008 3) (sample_head ++ leenc 4 (lenN sample_fields + 7) ++ leenc 4 0x22 ++ leenc 2 4 ++ sample_fields) = Err AssertionError.
Proof.
  destruct C28_decode_ex as (bh & bes & bp & E & Hh & He & _ & ->). rewrite app_nil_r in E.
  assert (Hs : head_layout false 2 (Some [lit "a/b"]) [0x11] sample_head).
  { split; [reflexivity|]. split; [reflexivity|]. split; [repeat constructor|]. exists (leenc 4 1 ++ text "a/b"). split; [reflexivity|].
    split; [discriminate|]. split; [reflexivity|]. exists [text "a/b"]. split; [|reflexivity]. repeat constructor. exists 3.
    split; [reflexivity|]. split; [|split; reflexivity]. repeat constructor; unfold scalar; cbn; lia. }
  destruct (parses_det _ _ _ _ _ _ _ (front_parses _ _ _ _ _ Hs) (front_parses _ _ _ _ _ Hh) E) as (_ & _ & E2).
  inversion He as [|en be es bes' Hen Hes E3 E4]; subst. inversion Hes; subst. pose proof Hen as (bf & _ & _ & Hf & _).
  exists bh, [be], bf. split; [exact Hh|]. split; [exact He|]. split; [symmetry; exact E2|]. split; [exact Hf|]. vm_compute. reflexivity.
Qed.

(** A file cut anywhere is rejected, when it has no patch section. *)
Theorem C28_cut ver n f bs cut rem : file_layout true (era_of ver) n f bs -> bf_patches f = None -> bs = cut ++ rem -> rem <> [] ->
  exists er, prun (read_binfile ver n) cut = Err er.
Proof. exact (cut_rejected ver n f bs cut rem). Qed.
Print Assumptions C28_cut.
Example C28_cut_ex : bf_patches sample_file = None /\
  map (fun k => match prun (read_binfile 1008 3) (takeN k (sample_head ++ sample_entry)) with Ok _ => 0 | Err ValueError => 1 | Err StructError => 2 | Err _ => 3 end) [0; 4; 20; 34; 40; 70; 100] = [1; 2; 2; 2; 2; 2; 2].
Proof. split; [reflexivity | vm_compute; reflexivity]. Qed.
(** With patches, a file whose last text is cut is accepted, with a shorter text. *)
Theorem C28_cut_refuted : exists f bs cut rem f', file_layout true (era_of 1008) 1 f bs /\ bs = cut ++ rem /\ rem <> [] /\
  prun (read_binfile 1008 1) cut = Ok f' /\ f <> f'.
Proof.
  exists (patch_file (lit "wxyz")), (patch_head ++ leenc 4 3 ++ patch_item 5 (text "a.b") (text "u") ++ patch_item 6 (text "c") (text "v") ++ patch_item 5 (text "c") (text "wxyz")).
  exists (patch_head ++ leenc 4 3 ++ patch_item 5 (text "a.b") (text "u") ++ patch_item 6 (text "c") (text "v") ++ patch_item 5 (text "c") (leenc 2 4 ++ bl "wx")), (bl "yz"), (patch_file (lit "wx")).
  split; [apply (layout_of_run 1008 1 _ _ x00); vm_compute; reflexivity|]. split; [reflexivity|]. split; [discriminate|].
  split; [vm_compute; reflexivity|]. intros E. pose proof (f_equal (fun f => eqb (match bf_patches f with Some ((_, [_; (_, _, VStr s)]) :: _) => s | _ => [] end) (lit "wx")) E) as E1.
  vm_compute in E1. discriminate.
Qed.
Print Assumptions C28_cut_refuted.

(** Other files are rejected. *)
Theorem C28_magic ver n b : takeN 4 b <> bl "PROP" -> takeN 4 b <> bl "PTCH" -> prun (read_binfile ver n) b = Err ValueError.
Proof. exact (magic_rejected ver n b). Qed.
Print Assumptions C28_magic.
Theorem C28_patch_header ver n x y b : x < 2 ^ 32 -> y < 2 ^ 32 -> ~ (x = 1 /\ y = 0) ->
  prun (read_binfile ver n) (bl "PTCH" ++ leenc 4 x ++ leenc 4 y ++ b) = Err AssertionError.
Proof. exact (patch_header_rejected ver n x y b). Qed.
Print Assumptions C28_patch_header.
Example C28_magic_ex : takeN 4 (bl "RIFF....") <> bl "PROP" /\ takeN 4 (bl "RIFF....") <> bl "PTCH".
Proof. split; intros E; vm_compute in E; discriminate. Qed.

(** Nesting is bounded by the size of the file: no content is rejected for its depth when the limit is greater. *)
Theorem C28_depth ver n b : (N.to_nat (lenN b) < n)%nat -> prun (read_binfile ver n) b <> Err RuntimeError.
Proof. exact (no_recursion_error ver n b). Qed.
Print Assumptions C28_depth.
Example C28_depth_ex : prun (read_binfile 1008 2) (sample_head ++ sample_entry) = Err RuntimeError /\
  prun (read_binfile 1008 300) (sample_head ++ sample_entry) = Ok sample_file /\ (N.to_nat (lenN (sample_head ++ sample_entry)) < 300)%nat.
Proof. split; [vm_compute; reflexivity|]. split; [vm_compute; reflexivity|]. vm_compute. lia. Qed.

(** ** C29 *)

(** Each byte is a type exactly when the numbering of the era says so. *)
Theorem C29_numbering ver c t : c < 256 -> (parse_bintype ver c = Ok t <-> In (c, t) (type_codes (era_of ver))).
Proof. exact (parse_code ver c t). Qed.
Print Assumptions C29_numbering.
(** Other bytes are rejected. *)
Theorem C29_unknown ver c : c < 256 -> ~ In c (map fst (type_codes (era_of ver))) -> parse_bintype ver c = Err ValueError.
Proof.
  intros Hc Hn. destruct (parse_bintype ver c) as [t|er] eqn:E.
  - exfalso. apply Hn. apply parse_code in E; [|exact Hc]. apply in_map_iff. exists (c, t). auto.
  - apply parse_error in E. subst er. reflexivity.
Qed.
Print Assumptions C29_unknown.
(** Different bytes are different types. *)
Theorem C29_injective ver c c' t : c < 256 -> c' < 256 -> parse_bintype ver c = Ok t -> parse_bintype ver c' = Ok t -> c = c'.
Proof.
  intros Hc Hc' E E'. apply parse_code in E; [|exact Hc]. apply parse_code in E'; [|exact Hc']. revert E E'. unfold code.
  destruct (era_of ver); cbn [type_codes primitive_types app In]; intros E E';
    repeat (destruct E as [E|E]; [injection E as <- <-; repeat (destruct E' as [E'|E']; [congruence|]); destruct E'|]); destruct E.
Qed.
Print Assumptions C29_injective.
(** Where the eras begin; the newest numbering is used by default. *)
Theorem C29_eras ver : (era_of ver = Era1 <-> (ver < 923)%Z) /\ (era_of ver = Era2 <-> (923 <= ver < 1008)%Z) /\ (era_of ver = Era3 <-> (1008 <= ver)%Z) /\
  era_of (reader_version None) = Era3 /\ era_of (reader_version (Some 0%Z)) = Era3 /\ (ver <> 0%Z -> reader_version (Some ver) = ver).
Proof.
  unfold era_of. destruct (Z.ltb_spec ver 923), (Z.ltb_spec ver 1008).
  all: repeat (split; [split; [try discriminate; lia | try reflexivity; lia]|]); split; [reflexivity|]; split; [reflexivity|]; intros Hn; unfold reader_version;
    destruct (Z.eqb_spec ver 0); [contradiction | reflexivity].
Qed.
Print Assumptions C29_eras.
Example C29_ex : map (fun v => parse_bintype v 18) [922; 923; 1008]%Z = [Ok TList; Ok TPath; Ok TPath] /\
  map (fun v => parse_bintype v 129) [922; 923; 1008]%Z = [Err ValueError; Ok TStruct; Ok TList2] /\
  map (fun v => parse_bintype v 135) [922; 1007; 1008]%Z = [Err ValueError; Err ValueError; Ok TFlag] /\
  parse_bintype 922 24 = Ok TFlag /\ parse_bintype 922 25 = Err ValueError /\ parse_bintype 922 128 = Err ValueError.
Proof. repeat split; reflexivity. Qed.
