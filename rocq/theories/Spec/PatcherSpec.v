(** * Vocabulary for the patcher storage *)

From Verif Require Import Base.Py Base.Text Base.Fs Spec.FsSpec Spec.FilesSpec Model.Rman Model.Patcher.

(** ** Manifest URLs *)

(** Sixteen upper-case hexadecimal digits, and the number they denote. *)
Definition hex16 (h : str) : Prop := length h = 16%nat /\ Forall (fun c => 48 <= c <= 57 \/ 65 <= c <= 70) h.
Definition hex_value (h : str) : N := fold_left (fun n c => 16 * n + (if c <=? 57 then c - 48 else c - 55)) h 0.

(** A dot, possibly followed by "secure." *)
Definition dot_or_secure (d : str) : Prop := d = lit "." \/ d = lit ".secure.".

(** The URLs of the manifest whose identifier is written [h]. *)
Definition manifest_url (u h : str) : Prop :=
  exists d1 d2 d3 d4 nl, Forall dot_or_secure [d1; d2; d3; d4] /\ (nl = [] \/ nl = [10]) /\
    u = lit "https://lol" ++ d1 ++ lit "dyn" ++ d2 ++ lit "riotcdn" ++ d3 ++
        lit "net/channels/public/releases/" ++ h ++ d4 ++ lit "manifest" ++ nl.

(** ** Layout of the storage *)

Section Layout.
  Variable cwd : path.
  Variable base : str.

  (** Directory of the extracted files, named after their digests, and directory of the bundles. *)
  Definition store_dir : path := lit "files" :: lit "cdtb" :: target cwd base.
  Definition bundle_dir : path := lit "bundles" :: lit "public" :: lit "channels" :: target cwd base.
  Definition bundle_file (id : N) : path := (hexu 16 id ++ lit ".bundle") :: bundle_dir.

  (** The filesystem is well-formed, the current directory exists, and there are no symbolic links
      to or directly in the two directories. *)
  Record storage_ready (f : fs) : Prop := {
    sr_base : base <> [] /\ ~ In dotdot (comps base);
    sr_names : Forall valid_name cwd;
    sr_wf : fs_wf f;
    sr_cwd : look f cwd = Some NDir;
    sr_store : forall n, nolink f (n :: store_dir);
    sr_bundle : forall n, nolink f (n :: bundle_dir) }.

  (** [o] is a place where a file can be extracted: there are no links among the directories leading
      to it, and it is not related to the two directories. *)
  Definition out_ready (o : str) (f : fs) : Prop :=
    plain_path o /\ nolink f (tl (target cwd o)) /\ apart (target cwd o) store_dir /\ apart (target cwd o) bundle_dir.

  (** ** Contents *)

  Variable zstd : bytes -> result bytes.
  Variable sha1 : str -> str.

  (** The decompressed data of a chunk, according to the bundles in [f]. *)
  Definition chunk_data (f : fs) (c : chunk) (d : bytes) : Prop :=
    exists id b, c_bundle c = Some id /\ look f (bundle_file id) = Some (NFile b) /\
      zstd (match c_size c with
            | Some n => firstn (N.to_nat n) (skipn (N.to_nat (c_offset c)) b)
            | None => skipn (N.to_nat (c_offset c)) b
            end) = Ok d.
  (** The content of a file: the data of its chunks, one after the other. *)
  Definition file_data (f : fs) (m : mfile) (data : bytes) : Prop :=
    exists ds, Forall2 (chunk_data f) (f_chunks m) ds /\ data = concat ds.
  (** The name of a file in the shared directory. *)
  Definition digest (m : mfile) (h : str) : Prop :=
    exists ids, Forall2 (fun c id => c_id c = Some id) (f_chunks m) ids /\ h = sha1 (concat (map (hexu 16) ids)).

  (** The shared directory only holds correct files: the one named [h] is [D h]. *)
  Definition store_ok (D : str -> bytes) (f : fs) : Prop :=
    forall h b, look f (h :: store_dir) = Some (NFile b) -> b = D h.
  (** [D] gives the right content to the file [m]. *)
  Definition named (D : str -> bytes) (f : fs) (m : mfile) : Prop :=
    forall h d, digest m h -> file_data f m d -> D h = d.
End Layout.

(** [open(o, 'rb').read()] gives [data]. *)
Definition reads (cwd : path) (o : str) (data : bytes) (f : fs) : Prop :=
  run (read_file cwd o) [] f = (Done data, [], f).

(** Successive executions of [extract_file], with their failures and outcomes.  None crashed or
    failed to remove an incomplete file. *)
Inductive extractions (cwd : path) (base : str) zstd sha1 (sym : bool) : list (mfile * str * outcome unit) -> fs -> fs -> Prop :=
| ex_nil f : extractions cwd base zstd sha1 sym [] f f
| ex_cons m o r l pl f pl' f1 f2 :
    run (extract_to cwd base zstd sha1 sym m o) pl f = (r, pl', f1) -> clean r pl pl' ->
    extractions cwd base zstd sha1 sym l f1 f2 -> extractions cwd base zstd sha1 sym ((m, o, r) :: l) f f2.

(** Bundle downloads one after the other: the filesystem at the end. *)
Fixpoint in_turn (l : list (prog unit)) (f : fs) : fs :=
  match l with
  | [] => f
  | p :: t => in_turn t (snd (run p [] f))
  end.
(** The job has ended, with or without exception. *)
Definition ended (p : prog unit) : Prop := match p with Act _ _ => False | _ => True end.
(** Nothing prevents the creation of the directory of the bundles. *)
Definition bundle_dir_free (cwd : path) (base : str) (f : fs) : Prop :=
  forall q, below (bundle_dir cwd base) q -> look f q = None \/ look f q = Some NDir.

(** ** Completeness of downloads *)

(** The file is in the release: it can be read, and has the right size. *)
Definition extracted (cwd : path) (sdir : str) (m : mfile) (f : fs) : Prop :=
  exists data, reads cwd (extract_path sdir m) data f /\ Rman.f_size m = Some (lenN data).
(** All its bundles are in the storage. *)
Definition has_bundles (cwd : path) (base : str) (m : mfile) (f : fs) : Prop :=
  forall c, In c (f_chunks m) -> exists id, c_bundle c = Some id /\ is_file f (bundle_file cwd base id).
(** The outputs [os] are suitable for extractions: their places are different, none is inside another,
    and those that are symbolic links are links made by extractions (which only exist with
    [use_extract_symlinks]). *)
Record outputs_ready (cwd : path) (base : str) (sym : bool) (os : list str) (f : fs) : Prop := {
  or_places : NoDup (map (target cwd) os);
  or_apart : forall o o', In o os -> In o' os -> ~ strictly_below (target cwd o) (target cwd o');
  or_ready : forall o, In o os -> out_ready cwd base o f;
  or_links : forall o x, In o os -> look f (target cwd o) = Some (NLink x) ->
    sym = true /\ exists h, valid_name h /\ x = relpath cwd (store_path base h) (dirname o) }.
