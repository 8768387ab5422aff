(** * C38, C42: manifest identifiers and extraction of files in the patcher storage *)

From Verif Require Import Base.Py Base.Text Base.PyFacts Base.TextFacts Base.Fs Spec.FsSpec Base.FsFacts Base.FsLinks Spec.FilesSpec Model.Files Model.Rman Model.Patcher Spec.PatcherSpec Proofs.PatcherUrlProofs Proofs.PatcherLinkProofs Proofs.PatcherExtractProofs.

(** ** C42: manifest URLs *)

(** Exactly the URLs of that form are accepted, with the identifier they hold. *)
Theorem C42_accepted (u : str) (n : Z) : manifest_id (MUrl u) = Ok n <-> exists h, hex16 h /\ manifest_url u h /\ n = Z.of_N (hex_value h).
Proof. exact (url_accepted u n). Qed.
Print Assumptions C42_accepted.
(** The others raise [ValueError]: nothing is downloaded. *)
Theorem C42_refused cwd base get (u : str) pl f r pl' f' : ~ (exists h, hex16 h /\ manifest_url u h) ->
  run (download_manifest cwd base get (MUrl u)) pl f = (r, pl', f') -> r = Raised ValueError /\ pl' = pl /\ f' = f.
Proof.
  intros H E. unfold download_manifest in E. destruct (manifest_id (MUrl u)) as [n|e] eqn:En; cbn [lift bind run] in E.
  - apply url_accepted in En as (h & H1 & H2 & _). exfalso. eauto.
  - apply url_refused in En as ->. injection E as <- <- <-. auto.
Qed.
Print Assumptions C42_refused.
(** A URL and its identifier are the same request, for a path that has the digits of the URL. *)
Theorem C42_same_path cwd base get (u h : str) : hex16 h -> manifest_url u h ->
  download_manifest cwd base get (MUrl u) = download_manifest cwd base get (MId (Z.of_N (hex_value h))) /\
  manifest_path (Z.of_N (hex_value h)) = lit "channels/public/releases/" ++ h ++ lit ".manifest".
Proof.
  intros Hh Hu. split; [|apply url_path; assumption]. unfold download_manifest.
  rewrite (proj2 (url_accepted u (Z.of_N (hex_value h)))); [reflexivity | eauto].
Qed.
Print Assumptions C42_same_path.
(** The path returned is that of the identifier, and different identifiers have different paths. *)
Theorem C42_returns cwd base get (a : manifest_ref) pl f p pl' f' :
  run (download_manifest cwd base get a) pl f = (Done p, pl', f') -> exists n, manifest_id a = Ok n /\ p = manifest_path n.
Proof. exact (manifest_returns cwd base get a pl f p pl' f'). Qed.
Print Assumptions C42_returns.
Theorem C42_distinct (a b : Z) : manifest_path a = manifest_path b -> a = b.
Proof. exact (manifest_path_inj a b). Qed.
Print Assumptions C42_distinct.

Example C42_url_ex : manifest_url (lit "https://lol.secure.dyn.riotcdn.net/channels/public/releases/00AF12BB34CC56DD.manifest") (lit "00AF12BB34CC56DD") /\ hex16 (lit "00AF12BB34CC56DD").
Proof.
  split.
  - exists (lit ".secure."), (lit "."), (lit "."), (lit "."), []. split; [|split; [left; reflexivity | reflexivity]].
    repeat (apply Forall_cons; [first [left; reflexivity | right; reflexivity]|]). apply Forall_nil.
  - split; [reflexivity|]. repeat (apply Forall_cons; [cbv; first [left; split; discriminate | right; split; discriminate]|]). apply Forall_nil.
Qed.
Example C42_ids_ex :
  manifest_id (MUrl (lit "https://lol.secure.dyn.riotcdn.net/channels/public/releases/00AF12BB34CC56DD.manifest")) = Ok 49278716178355933%Z /\
  manifest_id (MUrl (lit "https://lol.dyn.riotcdn.net/channels/public/releases/00AF12BB34CC56DD.manifest")) = Ok 49278716178355933%Z /\
  manifest_id (MUrl (lit "https://lol.dyn.riotcdn.net/channels/public/releases/00af12BB34CC56DD.manifest")) = Err ValueError /\
  manifest_id (MUrl (lit "https://lol.dyn.riotcdn.net/channels/public/bundles/00AF12BB34CC56DD.bundle")) = Err ValueError /\
  manifest_path 49278716178355933 = lit "channels/public/releases/00AF12BB34CC56DD.manifest".
Proof. vm_compute. repeat split. Qed.

(** ** C38: extraction of a file *)

Section Extract.
  Variable cwd : path.
  Variable base : str.
  Variable zstd : bytes -> result bytes.
  Variable sha1 : str -> str.
  (** A digest is a file name (forty hexadecimal digits). *)
  Hypothesis sha1_ok : forall s, valid_name (sha1 s).

  (** After an extraction without exception the output can be read.  Its data is that of the shared
      file, which either was there or is the concatenation of the chunks. *)
  Theorem C38_content (m : mfile) (o : str) pl f u pl' f' : storage_ready cwd base f -> out_ready cwd base o f ->
    run (extract_to cwd base zstd sha1 true m o) pl f = (Done u, pl', f') ->
    exists h data, digest sha1 m h /\ reads cwd o data f' /\ look f' (h :: store_dir cwd base) = Some (NFile data) /\
      (look f (h :: store_dir cwd base) = Some (NFile data) \/
       (~ is_file f (h :: store_dir cwd base) /\ file_data cwd base zstd f m data)).
  Proof.
    intros R Ho E. pose proof E as E'. apply extract_frame in E' as (_ & R' & Hout); [|assumption..].
    apply extract_done in E as (h & data & Hd & HL & H); [|assumption..]. exists h, data. split; [assumption|].
    split; [|split; [apply HL | assumption]].
    eapply linked_reads; [exact R' | apply Hout; [assumption | apply strictly_below_irrefl] | eapply digest_valid; [exact sha1_ok | exact Hd] | exact HL].
  Qed.
  (** With a correct shared directory, the output has the right content. *)
  Theorem C38_reads (D : str -> bytes) (m : mfile) (o : str) pl f u pl' f' data :
    storage_ready cwd base f -> out_ready cwd base o f -> store_ok cwd base D f -> named cwd base zstd sha1 D f m ->
    file_data cwd base zstd f m data ->
    run (extract_to cwd base zstd sha1 true m o) pl f = (Done u, pl', f') -> reads cwd o data f'.
  Proof.
    intros R Ho HS HN Hf E. eapply extract_reads in E as (h & Hd & HR & _); [|eassumption..].
    rewrite <- (HN h data Hd Hf). assumption.
  Qed.
  (** Whatever the outcome, except a crash or a failed removal, every file of the shared directory
      was there before or is complete. *)
  Theorem C38_no_partial (m : mfile) (o : str) pl f r pl' f' (h : str) (b : bytes) : storage_ready cwd base f -> out_ready cwd base o f ->
    run (extract_to cwd base zstd sha1 true m o) pl f = (r, pl', f') -> clean r pl pl' ->
    look f' (h :: store_dir cwd base) = Some (NFile b) ->
    look f (h :: store_dir cwd base) = Some (NFile b) \/ (digest sha1 m h /\ file_data cwd base zstd f m b).
  Proof. exact (extract_store cwd base zstd sha1 sha1_ok m o pl f r pl' f' h b). Qed.
  Theorem C38_store (D : str -> bytes) (m : mfile) (o : str) pl f r pl' f' :
    storage_ready cwd base f -> out_ready cwd base o f ->
    run (extract_to cwd base zstd sha1 true m o) pl f = (r, pl', f') -> clean r pl pl' ->
    store_ok cwd base D f -> named cwd base zstd sha1 D f m -> store_ok cwd base D f'.
  Proof. exact (extract_store_ok cwd base zstd sha1 sha1_ok D m o pl f r pl' f'). Qed.
  (** Whatever the outcome, even a crash, only the output and the shared file change, and the
      storage and the other outputs can still be used. *)
  Theorem C38_frame (m : mfile) (o : str) pl f r pl' f' : storage_ready cwd base f -> out_ready cwd base o f ->
    run (extract_to cwd base zstd sha1 true m o) pl f = (r, pl', f') ->
    only_files (fun q => q = target cwd o \/ exists h, digest sha1 m h /\ q = h :: store_dir cwd base) f f' /\
    storage_ready cwd base f' /\
    (forall o2, out_ready cwd base o2 f -> ~ strictly_below (target cwd o2) (target cwd o) -> out_ready cwd base o2 f').
  Proof. exact (extract_frame cwd base zstd sha1 sha1_ok m o pl f r pl' f'). Qed.
  (** After any sequence of extractions, with failures, to outputs none of which is inside another,
      all the files extracted without exception are right. *)
  Theorem C38_sequence (D : str -> bytes) (l : list (mfile * str * outcome unit)) f f' : extractions cwd base zstd sha1 true l f f' ->
    storage_ready cwd base f -> store_ok cwd base D f ->
    (forall m o r, In (m, o, r) l -> out_ready cwd base o f /\ named cwd base zstd sha1 D f m) ->
    (forall x y, In x l -> In y l -> ~ strictly_below (target cwd (snd (fst x))) (target cwd (snd (fst y)))) ->
    NoDup (map (fun x => target cwd (snd (fst x))) l) ->
    store_ok cwd base D f' /\ storage_ready cwd base f' /\
    forall m o, In (m, o, Done tt) l -> exists h, digest sha1 m h /\ reads cwd o (D h) f'.
  Proof.
    intros HX R HS HA HP HN. destruct (extractions_ok cwd base zstd sha1 sha1_ok D l f f' HX R HS HA HP HN) as (R' & HS' & _).
    split; [assumption|]. split; [assumption|]. intros m o Hin. exact (extractions_reads cwd base zstd sha1 sha1_ok D l f f' m o HX R HS HA HP HN Hin).
  Qed.

  (** Without symbolic links: the output is either the file that was there, or right. *)
  Theorem C38_direct (m : mfile) (o : str) pl f u pl' f' : storage_ready cwd base f -> out_ready cwd base o f -> (forall x, look f (target cwd o) <> Some (NLink x)) ->
    run (extract_to cwd base zstd sha1 false m o) pl f = (Done u, pl', f') ->
    exists data, reads cwd o data f' /\
      ((look f (target cwd o) = Some (NFile data) /\ f' = f) \/ (~ is_file f (target cwd o) /\ file_data cwd base zstd f m data)).
  Proof. exact (direct_done cwd base zstd sha1 m o pl f u pl' f'). Qed.
  Theorem C38_direct_frame (m : mfile) (o : str) pl f r pl' f' : storage_ready cwd base f -> out_ready cwd base o f -> (forall x, look f (target cwd o) <> Some (NLink x)) ->
    run (extract_to cwd base zstd sha1 false m o) pl f = (r, pl', f') -> only_file (target cwd o) f f' /\ storage_ready cwd base f'.
  Proof. exact (direct_frame cwd base zstd sha1 m o pl f r pl' f'). Qed.
  Theorem C38_direct_raised (m : mfile) (o : str) pl f e pl' f' : storage_ready cwd base f -> out_ready cwd base o f -> (forall x, look f (target cwd o) <> Some (NLink x)) ->
    run (extract_to cwd base zstd sha1 false m o) pl f = (Raised e, pl', f') -> clean (Raised e : outcome unit) pl pl' -> ~ is_file f' (target cwd o).
  Proof. exact (direct_raised cwd base zstd sha1 m o pl f e pl' f'). Qed.
End Extract.
Print Assumptions C38_content.
Print Assumptions C38_reads.
Print Assumptions C38_no_partial.
Print Assumptions C38_store.
Print Assumptions C38_frame.
Print Assumptions C38_sequence.
Print Assumptions C38_direct.
Print Assumptions C38_direct_frame.
Print Assumptions C38_direct_raised.

(** *** Examples *)

Local Notation d := lit.
(** The current directory is /w, the storage is /w/s; it has one bundle; "compressed" data is reversed. *)
Local Definition w : path := [d "w"].
Local Definition s_ : str := lit "s".
Local Definition fr : fs := [
  ([d "w"], NDir); ([d "s"; d "w"], NDir);
  ([d "channels"; d "s"; d "w"], NDir); ([d "public"; d "channels"; d "s"; d "w"], NDir);
  ([d "bundles"; d "public"; d "channels"; d "s"; d "w"], NDir);
  ([d "00000000000000B1.bundle"; d "bundles"; d "public"; d "channels"; d "s"; d "w"], NFile (bl "cba..fed"))].
Local Definition unz (b : bytes) : result bytes := Ok (rev b).
Local Definition sha (s : str) : str := hexl 16 (fold_left (fun a c => (a * 257 + c) mod 2 ^ 64) s 0).
Local Definition ck (id off size : N) : chunk := {| c_id := Some id; c_bundle := Some 177; c_offset := off; c_size := Some size; c_target := None |}.
Local Definition mf (name : String.string) (cs : list chunk) : mfile := {| f_name := Some (lit name); Rman.f_size := Some 6; f_link := None; f_flags := None; f_chunks := cs |}.
Arguments mf name%string_scope cs.
Local Definition m1 : mfile := mf "a" [ck 1 0 3; ck 2 5 3].
Local Definition out : str := lit "s/cdtb/channels/pbe/files/a".

Lemma sha_valid s : valid_name (sha s).
Proof.
  unfold sha. set (n := fold_left _ s 0). pose proof (hexl_value 16 n) as Hv.
  assert (Hd : forall c, is_digit c = false -> ~ 97 <= c <= 102 -> ~ In c (hexl 16 n)) by (intros c; apply hexl_not_in).
  split; [intros E; rewrite E in Hv; discriminate|]. split; [intros E|split; [intros E|]].
  - apply (Hd cDot); [reflexivity | unfold cDot, cSlash; lia | rewrite E; left; reflexivity].
  - apply (Hd cDot); [reflexivity | unfold cDot, cSlash; lia | rewrite E; left; reflexivity].
  - apply Hd; [reflexivity | unfold cDot, cSlash; lia].
Qed.
Example C38_ready_ex : storage_ready w s_ fr /\ out_ready w s_ out fr.
Proof.
  split.
  - split; [split; [discriminate | vm_compute; intuition discriminate] | | apply wf_check_ok; vm_compute; reflexivity | reflexivity | intros n; apply no_links_ok; reflexivity | intros n; apply no_links_ok; reflexivity].
    repeat constructor; try discriminate. vm_compute. intuition discriminate.
  - split; [split; [vm_compute; intuition discriminate | split; [discriminate | split; discriminate]]|]. split; [apply no_links_ok; reflexivity|].
    split; apply apart_check; vm_compute; reflexivity.
Qed.
Example C38_store_ex : store_ok w s_ (fun h => if eqb h (sha (d "00000000000000010000000000000002")) then bl "abcdef" else []) fr.
Proof. intros h b E. exfalso. apply (dget_some_In fr) in E. vm_compute in E. intuition discriminate. Qed.
Example C38_data_ex : digest sha m1 (sha (d "00000000000000010000000000000002")) /\ file_data w s_ unz fr m1 (bl "abcdef").
Proof.
  split.
  - exists [1; 2]. split; [repeat constructor | vm_compute; reflexivity].
  - exists [bl "abc"; bl "def"]. split; [|reflexivity].
    apply Forall2_cons; [|apply Forall2_cons; [|apply Forall2_nil]]; (eexists _, _; split; [reflexivity|]; split; vm_compute; reflexivity).
Qed.
(** A complete extraction; then another file that has the same chunks; failure while writing. *)
Local Definition look_out {A} (r : outcome A * plan * fs) (q : list path) := let '(o, _, f) := r in (o, map (look f) q).
Example C38_runs_ex :
  let sp := sha (d "00000000000000010000000000000002") :: store_dir w s_ in
  let n := repeat None 8 in
  look_out (run (extract_to w s_ unz sha true m1 out) [] fr) [sp; target w out] =
    (Done tt, [Some (NFile (bl "abcdef")); Some (NLink (d "../../../files/e1a3af7852d51603"))]) /\
  look_out (run (extract_to w s_ unz sha true m1 out) (n ++ [Some (FErr (OSError EIO) 1)]) fr) [sp; target w out] =
    (Raised (OSError EIO), [None; None]) /\
  look_out (run (extract_to w s_ unz sha false m1 out) [] fr) [sp; target w out] =
    (Done tt, [None; Some (NFile (bl "abcdef"))]).
Proof. vm_compute. repeat split. Qed.
(** An extraction that fails, then two that succeed; the second one finds the shared file. *)
Local Definition out2 : str := lit "s/cdtb/channels/pbe/files/b/c".
Example C38_sequence_ex : exists f',
  extractions w s_ unz sha true [(m1, out, Raised (OSError EIO)); (mf "x" [ck 1 0 3; ck 2 5 3], out2, Done tt)] fr f' /\
  out_ready w s_ out2 fr /\ ~ strictly_below (target w out2) (target w out) /\ ~ strictly_below (target w out) (target w out2).
Proof.
  eexists. split; [|split; [|split]].
  - eapply (ex_cons _ _ _ _ _ _ _ _ _ (repeat None 8 ++ [Some (FErr (OSError EIO) 1); None; None])); [vm_compute; reflexivity | |].
    + intros u x E. apply (f_equal (@rev _)) in E. rewrite (rev_app_distr u) in E. discriminate E.
    + eapply (ex_cons _ _ _ _ _ _ _ _ _ []); [vm_compute; reflexivity | exact I | apply ex_nil].
  - split; [split; [vm_compute; intuition discriminate | split; [discriminate | split; discriminate]]|]. split; [apply no_links_ok; reflexivity|].
    split; apply apart_check; vm_compute; reflexivity.
  - intros B. apply strictly_below_below, below_b_ok in B. vm_compute in B. discriminate.
  - intros B. apply strictly_below_below, below_b_ok in B. vm_compute in B. discriminate.
Qed.

(** A process killed while it writes the shared file makes later extractions wrong. *)
Theorem C38_crash_refuted : exists cwd base zstd sha1 m o f pl pl' f1 u f2 data,
  (forall s, valid_name (sha1 s)) /\ storage_ready cwd base f /\ out_ready cwd base o f /\ store_ok cwd base (fun _ => data) f /\
  run (extract_to cwd base zstd sha1 true m o) pl f = (Crashed, pl', f1) /\
  run (extract_to cwd base zstd sha1 true m o) [] f1 = (Done u, [], f2) /\
  file_data cwd base zstd f m data /\ ~ reads cwd o data f2.
Proof.
  exists w, s_, unz, sha, m1, out, fr, (repeat None 8 ++ [Some (FCrash 1)]). eexists _, _, _, _, _.
  split; [exact sha_valid|]. split; [apply C38_ready_ex|]. split; [apply C38_ready_ex|].
  split; [intros h b E; exfalso; apply (dget_some_In fr) in E; vm_compute in E; intuition discriminate|].
  split; [vm_compute; reflexivity|]. split; [vm_compute; reflexivity|].
  split; [apply C38_data_ex|]. vm_compute. discriminate.
Qed.
Print Assumptions C38_crash_refuted.

(** Without symbolic links, a file with a wrong size is never extracted again, even with [overwrite]. *)
Theorem C38_overwrite_refuted : exists cwd base zstd sha1 sdir m f u data,
  storage_ready cwd base f /\ out_ready cwd base (extract_path sdir m) f /\ Rman.f_size m = Some (lenN data) /\
  file_data cwd base zstd f m data /\
  run (extract_file cwd base zstd sha1 false sdir true m) [] f = (Done u, [], f) /\ ~ reads cwd (extract_path sdir m) data f.
Proof.
  exists w, s_, unz, sha, (lit "x"), m1, (fr ++ [([d "x"; d "w"], NDir); ([d "files"; d "x"; d "w"], NDir); ([d "a"; d "files"; d "x"; d "w"], NFile (bl "old"))]).
  eexists _, _. split; [|split; [|split; [|split; [|split]]]].
  - split; [split; [discriminate | vm_compute; intuition discriminate] | | apply wf_check_ok; vm_compute; reflexivity | reflexivity | intros n; apply no_links_ok; reflexivity | intros n; apply no_links_ok; reflexivity].
    repeat constructor; try discriminate. vm_compute. intuition discriminate.
  - split; [split; [vm_compute; intuition discriminate | split; [discriminate | split; discriminate]]|]. split; [apply no_links_ok; reflexivity|].
    split; apply apart_check; vm_compute; reflexivity.
  - instantiate (1 := bl "abcdef"). reflexivity.
  - exists [bl "abc"; bl "def"]. split; [|reflexivity].
    apply Forall2_cons; [|apply Forall2_cons; [|apply Forall2_nil]]; (eexists _, _; split; [reflexivity|]; split; vm_compute; reflexivity).
  - vm_compute. reflexivity.
  - vm_compute. discriminate.
Qed.
Print Assumptions C38_overwrite_refuted.
