(** * C14, C15, C16, C17, C19: WAD archives *)

From Verif Require Import Base.TextFacts Base.BinFacts Model.Wad Spec.WadSpec Proofs.WadProofs Proofs.WadPathProofs.

(** C14: a file parses to a version and a list of entries iff it lays them out. [view f e] is the
    entry object with the fields of [e] that the format [f] stores. *)
Theorem C14_headers b major minor files :
  prun parse_headers b = Ok ((major, minor), files) <->
  exists f filler entries rest, layout_ok major minor f filler entries /\
    b = wad_layout major minor f filler entries rest /\ files = map (view f) entries.
Proof. exact (parse_headers_iff b major minor files). Qed.
Print Assumptions C14_headers.
Local Definition sample_entry : wentry :=
  {| we_hash := 2 ^ 63 + 5; we_off := 300; we_csize := 10; we_size := 20; we_type := 4; we_count := 3; we_high := 0;
     we_dup := 0; we_first := 70000; we_sum := 77 |}.
Example C14_headers_ex :
  layout_ok 3 4 WF34 (repeat x00 264) [sample_entry; sample_entry] /\
  rmap (fun r => map (fun w => (w_type w, w_count w, w_first w, w_sha w)) (snd r))
    (prun parse_headers (wad_layout 3 4 WF34 (repeat x00 264) [sample_entry; sample_entry] (bl "data")))
  = Ok [(4, 3, Some 70000, Some 77); (4, 3, Some 70000, Some 77)].
Proof.
  split; [|vm_compute; reflexivity].
  unfold layout_ok. repeat (split; [reflexivity|]). repeat constructor; cbn; lia.
Qed.

(** C14: the attributes of an entry object, per format. *)
Theorem C14_attributes f e :
  let w := view f e in
  (w_hash w, w_off w, w_csize w, w_size w, w_type w, w_count w) =
  (we_hash e, we_off e, we_csize e, we_size e, we_type e, we_count e) /\
  (w_dup w = true <-> f = WF2 /\ we_dup e <> 0) /\
  w_first w = (match f with WF1 => None | _ => Some (we_first e) end) /\
  w_sha w = (match f with WF1 => None | _ => Some (we_sum e) end).
Proof.
  cbn. split; [reflexivity|]. split; [|auto].
  destruct f; split; intros H; try discriminate; try (destruct H; discriminate).
  - split; [reflexivity | lia].
  - destruct H as [_ H]. lia.
Qed.
Print Assumptions C14_attributes.

(** C14: other magic numbers and versions are rejected. *)
Theorem C14_rejects_magic b : 4 <= lenN b -> takeN 2 b <> bl "RW" -> prun parse_headers b = Err ValueError.
Proof. exact (bad_magic b). Qed.
Print Assumptions C14_rejects_magic.
Theorem C14_rejects_version ma mi rest : ma < 256 -> mi < 256 -> ~ (1 <= ma <= 3) ->
  prun parse_headers (bl "RW" ++ leenc 1 ma ++ leenc 1 mi ++ rest) = Err ValueError.
Proof.
  intros Hma Hmi Hv. apply bad_version; try assumption. unfold format_of.
  destruct ma as [|[[?|?|]|[?|?|]|]]; try reflexivity; lia.
Qed.
Print Assumptions C14_rejects_version.
Example C14_rejects_version_ex : prun parse_headers (bl "RW" ++ leenc 1 4 ++ leenc 1 0 ++ repeat x00 300) = Err ValueError.
Proof. reflexivity. Qed.

(** C14: a truncated file is rejected, wherever it is cut. *)
Theorem C14_rejects_truncated major minor f filler es cut rem :
  layout_ok major minor f filler es -> cut ++ rem = wad_layout major minor f filler es [] -> rem <> [] ->
  exists e, prun parse_headers cut = Err e.
Proof. exact (truncated_err major minor f filler es cut rem). Qed.
Print Assumptions C14_rejects_truncated.

(** C15: types 0, 1, 3, and unsupported types; [data] are the bytes of the entry. *)
Theorem C15_plain gunzip unzstd xxh3 f w toc pre data post :
  f = pre ++ data ++ post -> lenN pre = w_off w -> lenN data = w_csize w ->
  (w_type w = 0 -> read_data gunzip unzstd xxh3 f w toc = Ok (Some data)) /\
  (w_type w = 1 -> read_data gunzip unzstd xxh3 f w toc = rmap Some (gunzip data)) /\
  (w_type w = 3 -> read_data gunzip unzstd xxh3 f w toc = rmap Some (unzstd data)) /\
  (5 <= w_type w -> read_data gunzip unzstd xxh3 f w toc = Err ValueError).
Proof. exact (read_data_plain gunzip unzstd xxh3 f w toc pre data post). Qed.
Print Assumptions C15_plain.

(** C15: redirections return no data. *)
Theorem C15_redirect gunzip unzstd xxh3 f w toc : w_type w = 2 ->
  match read_data gunzip unzstd xxh3 f w toc with Ok r => r = None | Err e => e = StructError \/ e = UnicodeDecodeError end.
Proof. exact (read_data_redirect gunzip unzstd xxh3 f w toc). Qed.
Print Assumptions C15_redirect.

(** C15: sub-chunked data is returned iff the sub-chunks are described by the table, lie in the
    entry, match their checksums and decompress; it is then their concatenation. *)
Theorem C15_subchunks gunzip unzstd xxh3 f w toc first out : w_type w = 4 -> w_first w = Some first ->
  read_data gunzip unzstd xxh3 f w (Some toc) = Ok out <->
  exists scs chunks ds, lenN scs = w_count w /\ toc_has toc first scs /\
    verified xxh3 (takeN (w_csize w) (dropN (w_off w) f)) scs chunks /\
    Forall2 (fun sc d => unchunk unzstd (fst sc) (snd sc) d) (combine scs chunks) ds /\ out = Some (concat ds).
Proof. exact (read_data_sub_ok gunzip unzstd xxh3 f w toc first out). Qed.
Print Assumptions C15_subchunks.
Local Definition toy_hash (b : bytes) : N := lenN b * 1000 + match b with x :: _ => b2n x | [] => 0 end.
Local Definition toy_unzstd (b : bytes) : result bytes := Ok (rev b).
Local Definition sub_file : wfile :=
  {| w_hash := 1; w_off := 2; w_csize := 7; w_size := 9; w_type := 4; w_count := 2; w_dup := false; w_first := Some 1;
     w_sha := Some 0; w_path := None; w_ext := None |}.
Local Definition sub_toc : bytes :=
  subchunk_bytes {| sc_csize := 9; sc_usize := 9; sc_hash := 9 |} ++
  subchunk_bytes {| sc_csize := 3; sc_usize := 3; sc_hash := 3097 |} ++
  subchunk_bytes {| sc_csize := 4; sc_usize := 6; sc_hash := 4100 |}.
Example C15_subchunks_ex :
  read_data toy_unzstd toy_unzstd toy_hash (bl "RWabcdefgtail") sub_file (Some sub_toc) = Ok (Some (bl "abcgfed")) /\
  read_data toy_unzstd toy_unzstd toy_hash (bl "RWabcDefgtail") sub_file (Some sub_toc) = Err (MalformedSubchunkError (bl "abcDefg")).
Proof. split; vm_compute; reflexivity. Qed.

(** C15: if some sub-chunk is outside the entry or does not match its checksum, the error is
    MalformedSubchunkError (here for a decompressor that does not fail; see C15_subchunk_errors). *)
Theorem C15_malformed gunzip unzstd xxh3 f w toc first scs : w_type w = 4 -> w_first w = Some first ->
  lenN scs = w_count w -> toc_has toc first scs ->
  (forall c, exists d, unzstd c = Ok d) ->
  let data := takeN (w_csize w) (dropN (w_off w) f) in
  (forall chunks, ~ verified xxh3 data scs chunks) ->
  read_data gunzip unzstd xxh3 f w (Some toc) = Err (MalformedSubchunkError data).
Proof. exact (read_data_sub_malformed gunzip unzstd xxh3 f w toc first scs). Qed.
Print Assumptions C15_malformed.

(** C15: every failure is either that, or the decompressor's error on a verified sub-chunk. *)
Theorem C15_subchunk_errors gunzip unzstd xxh3 f w toc first scs e : w_type w = 4 -> w_first w = Some first ->
  lenN scs = w_count w -> toc_has toc first scs ->
  read_data gunzip unzstd xxh3 f w (Some toc) = Err e ->
  let data := takeN (w_csize w) (dropN (w_off w) f) in
  (e = MalformedSubchunkError data /\ forall chunks, ~ verified xxh3 data scs chunks) \/
  (exists s c, In s scs /\ lenN c = sc_csize s /\ xxh3 c = sc_hash s /\ unzstd c = Err e).
Proof. exact (read_data_sub_err gunzip unzstd xxh3 f w toc first scs e). Qed.
Print Assumptions C15_subchunk_errors.

(** C15: without a table the whole entry is decompressed. *)
Theorem C15_no_toc gunzip unzstd xxh3 f w : w_type w = 4 ->
  let data := takeN (w_csize w) (dropN (w_off w) f) in
  read_data gunzip unzstd xxh3 f w None =
  match unzstd data with Ok d => Ok (Some d) | Err _ => Err (MalformedSubchunkError data) end.
Proof. exact (read_data_sub_notoc gunzip unzstd xxh3 f w). Qed.
Print Assumptions C15_no_toc.

(** C15: [Wad.read_file_data] only turns malformed sub-chunks into None. *)
Theorem C15_read_file_data gunzip unzstd xxh3 f toc w :
  match read_data gunzip unzstd xxh3 f w toc with
  | Err (MalformedSubchunkError _) => read_file_data gunzip unzstd xxh3 f toc w = Ok None
  | r => read_file_data gunzip unzstd xxh3 f toc w = r
  end.
Proof. exact (read_file_data_spec gunzip unzstd xxh3 f toc w). Qed.
Print Assumptions C15_read_file_data.

(** C16: [used_ext p g] is the extension of [p], or ".cdtb" followed by the guessed one. *)
Theorem C16_sanitize w p : w_path w = Some p -> p <> [] -> w_hash w < 2 ^ 64 ->
  match w_ext w with Some e => ~ In cSlash e | None => True end ->
  exists p', w_path (sanitize_path w) = Some p' /\ dirname p' = dirname p /\
    (forallb (N.eqb cDot) (basename p) = false -> snd (splitext p') <> []) /\
    (lenN (used_ext p (w_ext w)) <= 233 -> lenN (basename p') <= 250) /\
    (snd (splitext p) <> [] -> lenN (basename p) < 250 -> p' = p) /\
    (exists b, basename p' = b ++ used_ext p (w_ext w)).
Proof. exact (sanitize_spec w p). Qed.
Print Assumptions C16_sanitize.
Local Definition long_file (h : N) : wfile :=
  {| w_hash := h; w_off := 0; w_csize := 0; w_size := 0; w_type := 0; w_count := 0; w_dup := false; w_first := None; w_sha := None;
     w_path := Some (lit "assets/x/" ++ repeat 97 400 ++ lit ".bin"); w_ext := Some (lit "bin") |}.
Example C16_sanitize_ex :
  w_path (sanitize_path (long_file 255)) =
  Some (lit "assets/x/" ++ repeat 97 229 ++ lit ".00000000000000ff.bin").
Proof. vm_compute. reflexivity. Qed.

(** C16: what [used_ext] is. *)
Theorem C16_extension p g :
  (snd (splitext p) <> [] -> used_ext p g = snd (splitext p)) /\
  (snd (splitext p) = [] -> used_ext p g = lit ".cdtb" ++ match g with Some (c :: e) => lit "." ++ c :: e | _ => [] end).
Proof.
  unfold used_ext. split.
  - destruct (snd (splitext p)); [congruence | reflexivity].
  - intros ->. reflexivity.
Qed.
Print Assumptions C16_extension.

(** C16: truncation never merges two different hashes. *)
Theorem C16_no_collision w1 w2 p1 p2 q :
  w_path w1 = Some p1 -> w_path w2 = Some p2 -> p1 <> [] -> p2 <> [] ->
  w_hash w1 < 2 ^ 64 -> w_hash w2 < 2 ^ 64 ->
  match w_ext w1 with Some e => ~ In cSlash e | None => True end ->
  match w_ext w2 with Some e => ~ In cSlash e | None => True end ->
  short_pieces (w_ext w1) -> short_pieces (w_ext w2) ->
  ~ short p1 (w_ext w1) -> ~ short p2 (w_ext w2) ->
  w_path (sanitize_path w1) = Some q -> w_path (sanitize_path w2) = Some q -> w_hash w1 = w_hash w2.
Proof. exact (sanitize_no_collision w1 w2 p1 p2 q). Qed.
Print Assumptions C16_no_collision.
Example C16_no_collision_ex :
  short_pieces (Some (lit "template.html")) /\ ~ short (lit "assets/x/" ++ repeat 97 400 ++ lit ".bin") (Some (lit "bin")) /\
  w_path (sanitize_path (long_file 1)) <> w_path (sanitize_path (long_file 2)).
Proof.
  split; [vm_compute; repeat constructor|]. split; [intros H; vm_compute in H; discriminate|]. intros H. vm_compute in H. discriminate.
Qed.

(** C16: with an extension longer than 233 characters the name is not shortened enough. *)
Theorem C16_long_extension_refuted :
  exists w p', w_path (sanitize_path w) = Some p' /\ 250 < lenN (basename p').
Proof.
  exists {| w_hash := 1; w_off := 0; w_csize := 0; w_size := 0; w_type := 0; w_count := 0; w_dup := false; w_first := None; w_sha := None;
     w_path := Some (lit "a." ++ repeat 97 300); w_ext := None |}.
  eexists. split; [vm_compute; reflexivity | vm_compute; reflexivity].
Qed.
Print Assumptions C16_long_extension_refuted.
(** C16: a name made of dots only gets no extension in the sense of [os.path.splitext]. *)
Theorem C16_dots_refuted :
  exists w p', w_path w <> None /\ w_path (sanitize_path w) = Some p' /\ snd (splitext p') = [].
Proof.
  exists {| w_hash := 1; w_off := 0; w_csize := 0; w_size := 0; w_type := 0; w_count := 0; w_dup := false; w_first := None; w_sha := None;
     w_path := Some (lit "a/"); w_ext := None |}, (lit "a/.cdtb").
  split; [discriminate|]. split; vm_compute; reflexivity.
Qed.
Print Assumptions C16_dots_refuted.

(** C17: paths given to unknown files. *)
Theorem C17_unknown_path dir w :
  match w_path w with
  | Some (_ :: _) => set_unknown_path dir w = w
  | _ => w_path (set_unknown_path dir w) =
         Some (dir ++ lit "/" ++ hexl 16 (w_hash w) ++ match w_ext w with Some (c :: e) => lit "." ++ c :: e | _ => [] end)
  end.
Proof.
  pose proof (set_unknown_spec dir w) as H. destruct (w_path w) as [[|c p]|]; cbn [truthy] in H; try exact H;
  (rewrite H; destruct (w_ext w) as [[|]|]; reflexivity).
Qed.
Print Assumptions C17_unknown_path.
Theorem C17_distinct dir w1 w2 q :
  w_hash w1 < 2 ^ 64 -> w_hash w2 < 2 ^ 64 ->
  truthy (w_path w1) = None -> truthy (w_path w2) = None ->
  w_path (set_unknown_path dir w1) = Some q -> w_path (set_unknown_path dir w2) = Some q -> w_hash w1 = w_hash w2.
Proof. exact (set_unknown_inj dir w1 w2 q). Qed.
Print Assumptions C17_distinct.
(** C17: nothing else changes, and every file has a path afterwards. *)
Theorem C17_keeps dir w :
  let w' := set_unknown_path dir w in
  w_hash w' = w_hash w /\ w_off w' = w_off w /\ w_csize w' = w_csize w /\ w_size w' = w_size w /\ w_type w' = w_type w /\
  w_count w' = w_count w /\ w_dup w' = w_dup w /\ w_first w' = w_first w /\ w_sha w' = w_sha w /\ w_ext w' = w_ext w /\
  truthy (w_path w') <> None.
Proof. exact (set_unknown_keeps dir w). Qed.
Print Assumptions C17_keeps.
Theorem C17_all_files dir files :
  Forall2 (fun w w' => w' = set_unknown_path dir w) files (set_unknown_paths dir files).
Proof. induction files; cbn; constructor; auto. Qed.
Print Assumptions C17_all_files.
Example C17_ex :
  map w_path (set_unknown_paths (lit "unknown") [sub_file; set_ext sub_file (Some (lit "bin")); long_file 3]) =
  [Some (lit "unknown/0000000000000001"); Some (lit "unknown/0000000000000001.bin"); w_path (long_file 3)].
Proof. vm_compute. reflexivity. Qed.

(** C19: the extension is the one of the first published signature, else json iff the data is JSON. *)
Theorem C19_guess json_loads data :
  (forall ext, first_signature data ext -> guess_extension json_loads data = Ok (Some ext)) /\
  ((forall s e, In (s, e) signatures -> ~ has_signature s data) ->
   guess_extension json_loads data =
   match json_loads data with
   | Ok _ => Ok (Some (lit "json"))
   | Err ValueError | Err UnicodeDecodeError => Ok None
   | Err e => Err e
   end).
Proof. exact (guess_extension_spec json_loads data). Qed.
Print Assumptions C19_guess.
Example C19_guess_ex :
  guess_extension (fun _ => Err ValueError) (bl "r3d2skltxxxx") = Ok (Some (lit "skl")) /\
  guess_extension (fun _ => Ok tt) (bl "xxxxxxJFIF") = Ok (Some (lit "jpg")) /\
  guess_extension (fun _ => Ok tt) (bl "{}") = Ok (Some (lit "json")).
Proof. repeat split. Qed.

(** C19: known extensions are kept, cached ones are used, and cached ones are never changed. *)
Theorem C19_cache gunzip unzstd xxh3 json_loads f toc c files c' files' :
  guess_extensions gunzip unzstd xxh3 json_loads f toc c files = Ok (c', files') ->
  Forall2 (ext_result c c') files files' /\
  (forall h e, dget h c = Some (Some e) -> e <> [] -> dget h c' = Some (Some e)).
Proof. exact (guess_spec unzstd gunzip xxh3 json_loads f toc c files c' files'). Qed.
Print Assumptions C19_cache.
(** C19: the others get the guess made from their own data. *)
Theorem C19_new gunzip unzstd xxh3 json_loads f toc c files c' files' :
  guess_extensions gunzip unzstd xxh3 json_loads f toc c files = Ok (c', files') ->
  Forall2 (fun w w' => truthy (w_ext w) = None -> truthy (match dget (w_hash w) c with Some e => e | None => None end) = None ->
    exists r, read_file_data gunzip unzstd xxh3 f toc w = Ok r /\
    match r with
    | Some (b :: d) => guess_extension json_loads (b :: d) = Ok (w_ext w')
    | _ => truthy (w_ext w') = None
    end) files files'.
Proof. exact (guess_new unzstd gunzip xxh3 json_loads f toc c files c' files'). Qed.
Print Assumptions C19_new.
(** C19: over any sequence of archives, a hash with a known extension keeps it, and all its files
    without extension get it. *)
Theorem C19_archives gunzip unzstd xxh3 json_loads c l c'' :
  guess_run unzstd gunzip xxh3 json_loads c l c'' ->
  forall h e, dget h c = Some (Some e) -> e <> [] ->
  dget h c'' = Some (Some e) /\
  forall files files', In (files, files') l ->
    Forall2 (fun w w' => w_hash w = h -> w_ext w' = Some (match truthy (w_ext w) with Some x => x | None => e end)) files files'.
Proof. exact (guess_run_spec unzstd gunzip xxh3 json_loads c l c''). Qed.
Print Assumptions C19_archives.
Example C19_archives_ex :
  exists c' files', guess_extensions toy_unzstd toy_unzstd toy_hash (fun _ => Ok tt) (bl "RWabcdefgtail") (Some sub_toc) [] [sub_file]
    = Ok (c', files') /\ dget 1 c' = Some (Some (lit "json")).
Proof. do 2 eexists. split; vm_compute; reflexivity. Qed.
