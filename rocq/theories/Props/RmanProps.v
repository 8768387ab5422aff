(** * C34-C37: patcher manifests *)

From Verif Require Import Base.Py Base.Text Base.Bin Spec.DictSpec Model.Rman Spec.RmanSpec Proofs.RmanProofs.

(** ** C34: manifests are decoded exactly *)

(** The tables read are exactly those laid out in the body, whatever their order. *)
Theorem C34_tables (b : bytes) (t : tables) : prun parse_tables b = Ok t <-> body_at b t.
Proof. exact (body_iff b t). Qed.
Print Assumptions C34_tables.
(** [m] is the result of [parse_body] exactly when it is described by the tables laid out in the body. *)
Theorem C34_decode (b : bytes) (m : manifest) : (exists fuel, parse_body fuel b = Some (Ok m)) <-> exists t, body_at b t /\ describes t m.
Proof. exact (parse_body_iff b m). Qed.
Print Assumptions C34_decode.
(** The result does not depend on the bound on iterations. *)
Theorem C34_fuel (fuel fuel' : nat) (b : bytes) r : (fuel <= fuel')%nat -> parse_body fuel b = Some r -> parse_body fuel' b = Some r.
Proof. exact (parse_body_mono fuel fuel' b r). Qed.
Print Assumptions C34_fuel.
(** Same from the file, with its header and compressed body. *)
Theorem C34_file (zstd : bytes -> result bytes) (b : bytes) (m : manifest) :
  (exists fuel, parse_rman zstd fuel b = Some (Ok m)) <-> exists body t, rman_file zstd b body /\ body_at body t /\ describes t m.
Proof. exact (parse_rman_iff zstd b m). Qed.
Print Assumptions C34_file.
(** Chunks are keyed by their identifier and point to the bundle which holds them; files are keyed by their name and only have chunks of the manifest. *)
Theorem C34_chunks (fuel : nat) (b : bytes) (m : manifest) : parse_body fuel b = Some (Ok m) ->
  (forall k c, In (k, c) (m_chunks m) -> c_id c = k /\ exists bu, In bu (m_bundles m) /\ In c (b_chunks bu) /\ c_bundle c = b_id bu) /\
  (forall k f, In (k, f) (m_files m) -> f_name f = k /\ forall c, In c (f_chunks f) -> In (c_id c, c) (m_chunks m)).
Proof. exact (manifest_chunks fuel b m). Qed.
Print Assumptions C34_chunks.

(** A body whose tables are in reverse order, as are the entries of each table. *)
Definition ex_body : bytes := map n2b
  [2; 0; 0; 0; 1; 2; 88; 1; 0; 0; 30; 1; 0; 0; 103; 0; 0; 0; 12; 0; 0; 0; 208; 1; 0; 0; 208; 1; 0; 0; 2; 0; 0; 0; 59; 0; 0; 0; 14; 0; 0; 0; 10; 0; 0;
  0; 4; 0; 12; 0; 20; 0; 10; 0; 0; 0; 2; 0; 0; 0; 0; 0; 0; 0; 1; 0; 0; 0; 0; 0; 0; 0; 4; 0; 0; 0; 3; 0; 0; 0; 83; 117; 98; 10; 0; 0; 0; 4; 0; 0; 0;
  12; 0; 10; 0; 0; 0; 1; 0; 0; 0; 0; 0; 0; 0; 4; 0; 0; 0; 4; 0; 0; 0; 68; 65; 84; 65; 2; 0; 0; 0; 106; 0; 0; 0; 28; 0; 0; 0; 24; 0; 0; 0; 4; 0; 0; 0;
  12; 0; 16; 0; 0; 0; 0; 0; 0; 0; 20; 0; 0; 0; 24; 0; 24; 0; 0; 0; 7; 0; 0; 0; 0; 0; 0; 0; 9; 0; 0; 0; 12; 0; 0; 0; 13; 0; 0; 0; 21; 0; 0; 0; 1; 0; 0;
  0; 98; 1; 0; 0; 0; 12; 0; 0; 0; 0; 0; 0; 0; 1; 0; 0; 0; 97; 24; 0; 0; 0; 4; 0; 12; 0; 20; 0; 24; 0; 28; 0; 0; 0; 0; 0; 36; 0; 0; 0; 0; 0; 24; 0; 0;
  0; 7; 0; 0; 0; 0; 0; 0; 0; 2; 0; 0; 0; 0; 0; 0; 0; 29; 0; 0; 0; 16; 0; 0; 0; 1; 0; 0; 0; 0; 0; 0; 0; 13; 0; 0; 0; 5; 0; 0; 0; 97; 46; 116; 120; 116;
  2; 0; 0; 0; 11; 0; 0; 0; 0; 0; 0; 0; 12; 0; 0; 0; 0; 0; 0; 0; 2; 0; 0; 0; 29; 0; 0; 0; 4; 0; 0; 0; 0; 0; 0; 0; 0; 0; 0; 2; 4; 0; 0; 0; 5; 0; 0; 0;
  102; 114; 95; 70; 82; 0; 0; 0; 0; 0; 0; 0; 1; 4; 0; 0; 0; 5; 0; 0; 0; 101; 110; 95; 85; 83; 2; 0; 0; 0; 44; 0; 0; 0; 12; 0; 0; 0; 8; 0; 0; 0; 4; 0;
  12; 0; 8; 0; 0; 0; 178; 0; 0; 0; 0; 0; 0; 0; 4; 0; 0; 0; 0; 0; 0; 0; 8; 0; 0; 0; 4; 0; 12; 0; 8; 0; 0; 0; 177; 0; 0; 0; 0; 0; 0; 0; 4; 0; 0; 0; 2;
  0; 0; 0; 48; 0; 0; 0; 14; 0; 0; 0; 10; 0; 0; 0; 4; 0; 12; 0; 16; 0; 10; 0; 0; 0; 12; 0; 0; 0; 0; 0; 0; 0; 5; 0; 0; 0; 9; 0; 0; 0; 10; 0; 0; 0; 4; 0;
  12; 0; 16; 0; 10; 0; 0; 0; 11; 0; 0; 0; 0; 0; 0; 0; 10; 0; 0; 0; 20; 0; 0; 0; 0; 0; 0; 0; 0; 0; 0; 0].
Definition ex_chunk1 : chunk := {| c_id := Some 11; c_bundle := Some 177; c_offset := 0; c_size := Some 10; c_target := Some 20 |}.
Definition ex_chunk2 : chunk := {| c_id := Some 12; c_bundle := Some 177; c_offset := 10; c_size := Some 5; c_target := Some 9 |}.
Definition ex_manifest : manifest := {|
  m_bundles := [{| b_id := Some 177; b_chunks := [ex_chunk1; ex_chunk2] |}; {| b_id := Some 178; b_chunks := [] |}];
  m_chunks := [(Some 11, ex_chunk1); (Some 12, ex_chunk2)];
  m_flags := [(1, lit "en_US"); (2, lit "fr_FR")];
  m_files := [
    (Some (lit "DATA/Sub/a.txt"), {| f_name := Some (lit "DATA/Sub/a.txt"); f_size := Some 29; f_link := None; f_flags := Some [lit "en_US"]; f_chunks := [ex_chunk1; ex_chunk2] |});
    (Some (lit "b"), {| f_name := Some (lit "b"); f_size := Some 9; f_link := Some (lit "a"); f_flags := None; f_chunks := [ex_chunk2] |})] |}.
Example C34_ex : parse_body 2 ex_body = Some (Ok ex_manifest).
Proof. vm_compute. reflexivity. Qed.
Example C34_ex_layout : exists t, body_at ex_body t /\ describes t ex_manifest.
Proof. apply C34_decode. exists 2%nat. exact C34_ex. Qed.
Definition ex_file : bytes := bl "RMAN" ++ leenc 1 2 ++ leenc 1 1 ++ leenc 2 512 ++ leenc 4 28 ++ leenc 4 (lenN ex_body) ++ leenc 8 5 ++ leenc 4 0 ++ ex_body ++ bl "signature".
Example C34_file_ex : parse_rman Ok 2 ex_file = Some (Ok ex_manifest) /\ prun (read_rman Ok) (bl "RMAX" ++ skipn 4 ex_file) = Err ValueError.
Proof. vm_compute. auto. Qed.

(** ** C35: names of files *)

(** The name of a file is the path of its directory from the root, then its name. *)
Theorem C35_name (dirs : dir_table) (name : option str) (d : option N) (r : option str) :
  (exists fuel, full_name fuel (dict_of dirs) name d = Some (Ok r)) <-> exists l, dir_path dirs d l /\ r = path_name l name.
Proof. exact (name_iff dirs name d r). Qed.
Print Assumptions C35_name.
(** The only possible error is a [KeyError], exactly when a directory of the chain is missing. *)
Theorem C35_missing (dirs : dir_table) (name : option str) (d : option N) (e : exn) :
  (exists fuel, full_name fuel (dict_of dirs) name d = Some (Err e)) <-> e = KeyError /\ dangling dirs d.
Proof. exact (missing_iff dirs name d e). Qed.
Print Assumptions C35_missing.
(** The loop never ends exactly when the chain has a cycle. *)
Theorem C35_cycle (dirs : dir_table) (name : option str) (d : option N) :
  (forall fuel, full_name fuel (dict_of dirs) name d = None) <-> cyclic dirs d.
Proof. exact (cycle_iff dirs name d). Qed.
Print Assumptions C35_cycle.
(** There is no other case. *)
Theorem C35_cases (dirs : dir_table) (d : option N) : (exists l, dir_path dirs d l) \/ dangling dirs d \/ cyclic dirs d.
Proof. exact (trichotomy dirs d). Qed.
Print Assumptions C35_cases.
(** A file in a cycle makes the whole parsing endless; without such a file, it ends. *)
Theorem C35_endless (t : tables) (pre : list file_entry) (e : file_entry) (post : list file_entry) :
  t_files t = pre ++ e :: post -> (forall x, In x pre -> exists f, resolves t x f) -> cyclic (dir_pairs (t_dirs t)) (e_dir e) ->
  forall fuel, merge fuel t = None.
Proof. exact (merge_cyclic t pre e post). Qed.
Print Assumptions C35_endless.
Theorem C35_ends (t : tables) : (forall e, In e (t_files t) -> ~ cyclic (dir_pairs (t_dirs t)) (e_dir e)) -> exists fuel r, merge fuel t = Some r.
Proof. exact (merge_total t). Qed.
Print Assumptions C35_ends.

Definition ex_dirs : dir_table := [(Some 1, (Some (lit "DATA"), None)); (Some 2, (Some (lit "Sub"), Some 1)); (Some 3, (Some (lit "x"), Some 4)); (Some 4, (Some (lit "y"), Some 3)); (Some 5, (Some (lit "z"), Some 9))].
Example C35_ex : dir_path ex_dirs (Some 2) [Some (lit "DATA"); Some (lit "Sub")] /\ path_name [Some (lit "DATA"); Some (lit "Sub")] (Some (lit "f")) = Some (lit "DATA/Sub/f").
Proof.
  split; [|reflexivity]. apply (DP_step _ 2 _ (Some 1) [_]); [apply dget_last; reflexivity|]. apply (DP_step _ 1 _ None []); [apply dget_last; reflexivity | constructor].
Qed.
Example C35_cycle_ex : cyclic ex_dirs (Some 3).
Proof. apply (endless_cyclic ex_dirs (Some 3) None). vm_compute. reflexivity. Qed.
Example C35_missing_ex : dangling ex_dirs (Some 5).
Proof. apply (C35_missing ex_dirs None (Some 5) KeyError). exists 2%nat. vm_compute. reflexivity. Qed.
(** A complete body with a cycle. *)
Definition ex_cycle : bytes := map n2b
  [2; 0; 0; 0; 1; 2; 191; 0; 0; 0; 183; 0; 0; 0; 106; 0; 0; 0; 12; 0; 0; 0; 179; 0; 0; 0; 179; 0; 0; 0; 2; 0; 0; 0; 57; 0; 0; 0; 14; 0; 0; 0; 10; 0;
  0; 0; 4; 0; 12; 0; 20; 0; 10; 0; 0; 0; 2; 0; 0; 0; 0; 0; 0; 0; 1; 0; 0; 0; 0; 0; 0; 0; 4; 0; 0; 0; 1; 0; 0; 0; 121; 10; 0; 0; 0; 4; 0; 12; 0; 20; 0;
  10; 0; 0; 0; 1; 0; 0; 0; 0; 0; 0; 0; 2; 0; 0; 0; 0; 0; 0; 0; 4; 0; 0; 0; 1; 0; 0; 0; 120; 1; 0; 0; 0; 28; 0; 0; 0; 24; 0; 0; 0; 4; 0; 12; 0; 20; 0;
  24; 0; 0; 0; 0; 0; 0; 0; 28; 0; 0; 0; 0; 0; 24; 0; 0; 0; 7; 0; 0; 0; 0; 0; 0; 0; 1; 0; 0; 0; 0; 0; 0; 0; 0; 0; 0; 0; 8; 0; 0; 0; 9; 0; 0; 0; 1; 0;
  0; 0; 102; 0; 0; 0; 0; 0; 0; 0; 0; 0; 0; 0; 0; 0; 0; 0; 0; 0; 0; 0; 0].
Example C35_endless_ex : exists t, prun parse_tables ex_cycle = Ok t /\ forall fuel, merge fuel t = None.
Proof.
  destruct (prun parse_tables ex_cycle) as [t|e] eqn:E; [|vm_compute in E; discriminate]. exists t. split; [reflexivity|].
  vm_compute in E. injection E as <-. eapply (C35_endless _ [] _ []); [reflexivity | intros x []|].
  apply (endless_cyclic _ _ None). vm_compute. reflexivity.
Qed.
Definition ex_missing : bytes := map n2b
  [2; 0; 0; 0; 1; 2; 148; 0; 0; 0; 140; 0; 0; 0; 63; 0; 0; 0; 12; 0; 0; 0; 136; 0; 0; 0; 136; 0; 0; 0; 1; 0; 0; 0; 14; 0; 0; 0; 10; 0; 0; 0; 4; 0; 12;
  0; 20; 0; 10; 0; 0; 0; 2; 0; 0; 0; 0; 0; 0; 0; 1; 0; 0; 0; 0; 0; 0; 0; 4; 0; 0; 0; 1; 0; 0; 0; 121; 1; 0; 0; 0; 28; 0; 0; 0; 24; 0; 0; 0; 4; 0; 12;
  0; 20; 0; 24; 0; 0; 0; 0; 0; 0; 0; 28; 0; 0; 0; 0; 0; 24; 0; 0; 0; 7; 0; 0; 0; 0; 0; 0; 0; 1; 0; 0; 0; 0; 0; 0; 0; 0; 0; 0; 0; 8; 0; 0; 0; 9; 0; 0;
  0; 1; 0; 0; 0; 102; 0; 0; 0; 0; 0; 0; 0; 0; 0; 0; 0; 0; 0; 0; 0; 0; 0; 0; 0; 0].
Example C35_missing_ex2 : parse_body 5 ex_missing = Some (Err KeyError).
Proof. vm_compute. reflexivity. Qed.

(** ** C36: chunks of a bundle are contiguous *)

Theorem C36_add (b : bundle) (x : option N * option N * option N) (b' : bundle) : contiguous (b_chunks b) -> add_chunk b x = Ok b' ->
  contiguous (b_chunks b') /\ b_id b' = b_id b /\
  exists c, b_chunks b' = b_chunks b ++ [c] /\ (c_id c, c_size c, c_target c) = x /\ c_bundle c = b_id b.
Proof. exact (add_chunk_contiguous b x b'). Qed.
Print Assumptions C36_add.
Theorem C36_manifest (fuel : nat) (b : bytes) (m : manifest) : parse_body fuel b = Some (Ok m) -> forall bu, In bu (m_bundles m) ->
  contiguous (b_chunks bu) /\ forall c, In c (b_chunks bu) -> c_bundle c = b_id bu.
Proof. exact (manifest_bundles fuel b m). Qed.
Print Assumptions C36_manifest.
(** No gap between a chunk and the next one, no overlap between chunks. *)
Theorem C36_adjacent (cs : list chunk) (k : nat) (c c' : chunk) (n : N) : contiguous cs ->
  nth_error cs k = Some c -> nth_error cs (S k) = Some c' -> c_size c = Some n -> c_offset c' = c_offset c + n.
Proof. exact (contiguous_adjacent cs k c c' n). Qed.
Print Assumptions C36_adjacent.
Theorem C36_disjoint (cs : list chunk) (j k : nat) (c c' : chunk) : contiguous cs -> (j < k)%nat ->
  nth_error cs j = Some c -> nth_error cs k = Some c' -> exists n, c_size c = Some n /\ c_offset c + n <= c_offset c'.
Proof. exact (contiguous_disjoint cs j k c c'). Qed.
Print Assumptions C36_disjoint.
Example C36_ex : contiguous [ex_chunk1; ex_chunk2].
Proof.
  refine (proj1 (C36_manifest 2 ex_body ex_manifest C34_ex {| b_id := Some 177; b_chunks := [ex_chunk1; ex_chunk2] |} _)). left. reflexivity.
Qed.
Example C36_add_ex : exists b', add_chunk {| b_id := Some 177; b_chunks := [ex_chunk1; ex_chunk2] |} (Some 13, None, None) = Ok b' /\
  map c_offset (b_chunks b') = [0; 10; 15] /\ add_chunk b' (Some 14, Some 1, Some 1) = Err TypeError.
Proof. eexists. split; [reflexivity|]. split; reflexivity. Qed.

(** ** C37: language filtering; [lower] is [str.lower] *)

Theorem C37_all (lower : str -> str) (m : manifest) : filter_files lower m LTrue = Ok (map snd (m_files m)).
Proof. exact (langs_true lower m). Qed.
Print Assumptions C37_all.
Theorem C37_none (lower : str -> str) (m : manifest) : exists l, filter_files lower m LFalse = Ok l /\
  kept (fun f => forall fl, f_flags f = Some fl -> forall x, In x fl -> ~ is_locale x) (map snd (m_files m)) l.
Proof. exact (langs_false lower m). Qed.
Print Assumptions C37_none.
Theorem C37_one (lower : str -> str) (m : manifest) (lang : str) : exists l, filter_files lower m (LStr lang) = Ok l /\
  kept (fun f => exists fl x, f_flags f = Some fl /\ In x fl /\ lower x = lower lang) (map snd (m_files m)) l.
Proof. exact (langs_one lower m lang). Qed.
Print Assumptions C37_one.
Example C37_ex : rmap (map f_name) (filter_files lower ex_manifest LFalse) = Ok [Some (lit "b")] /\
  rmap (map f_name) (filter_files lower ex_manifest (LStr (lit "EN_us"))) = Ok [Some (lit "DATA/Sub/a.txt")] /\
  rmap (map f_name) (filter_files lower ex_manifest (LStr (lit "fr_fr"))) = Ok [] /\
  filter_files lower ex_manifest LOther = Err AttributeError.
Proof. vm_compute. auto. Qed.
