(** * Specification of the RADS manifests and of the extraction of packages *)

From Verif Require Import Base.Py Base.Text Base.LinesFacts Spec.VersionSpec Base.Fs Spec.FsSpec Model.Files Model.Rads.

(** ** Package manifests *)

Definition eol_ok (eol : str) : Prop := eol = [cNL] \/ eol = [cCR; cNL].
Record pkg_entry := { pe_path : str; pe_package : str; pe_offset : N; pe_size : N; pe_type : str }.
Definition field_ok (s : str) : Prop := ~ In cComma s /\ ~ In cNL s /\ ~ In cCR s.
Definition pkg_entry_ok (e : pkg_entry) : Prop :=
  field_ok (pe_path e) /\ field_ok (pe_package e) /\ field_ok (pe_type e).
Definition pkg_line (e : pkg_entry) : str :=
  cSlash :: pe_path e ++ [cComma] ++ pe_package e ++ [cComma] ++ dec (pe_offset e) ++ [cComma] ++ dec (pe_size e) ++
  [cComma] ++ pe_type e.

(** ** Solution manifests *)

Record sln_project := { sp_name : str; sp_version : str; sp_required : bool }.
Record solution := { sl_projects : list sln_project; sl_langs : list (str * list str) }.
Definition version_text (s : str) : Prop := exists t, length t = 4%nat /\ dotted_spell t s.
Definition solution_ok (langs : list str) (s : solution) : Prop :=
  NoDup (map sp_name (sl_projects s)) /\
  NoDup (map fst (sl_langs s)) /\
  Forall (fun p => no_break (sp_name p) /\ version_text (sp_version p)) (sl_projects s) /\
  Forall (fun l => In (fst l) langs /\ forall n, In n (snd l) -> In n (map sp_name (sl_projects s))) (sl_langs s).
Definition sln_lines (name version : str) (s : solution) : list str :=
  [lit "RADS Solution Manifest"; lit "1.0.0.0"; name; version; dec (lenN (sl_projects s))] ++
  concat (map (fun p => [sp_name p; sp_version p; if sp_required p then lit "0" else lit "10"; lit "0"]) (sl_projects s)) ++
  [dec (lenN (sl_langs s))] ++
  concat (map (fun l => fst l :: lit "0" :: dec (lenN (snd l)) :: snd l) (sl_langs s)).
Definition sln_text (eol name version : str) (s : solution) : str :=
  concat (map (fun l => l ++ eol) (sln_lines name version s)).

(** ** Extraction *)

(** The bytes an entry designates in its package. *)
Definition pkg_range (body : bytes) (pf : pkgfile) : option bytes :=
  if (k_offset pf + k_size pf <=? Z.of_nat (length body))%Z
  then Some (firstn (Z.to_nat (k_size pf)) (skipn (Z.to_nat (k_offset pf)) body)) else None.
Definition url_of (pvpath : str) (pf : pkgfile) : str := pvpath ++ lit "/packages/files/" ++ k_package pf.
Definition pkg_target (cwd : path) (base : str) (pf : pkgfile) : path := target cwd (path_join base (k_extract pf)).

(** Incremental decompression: the outputs of the calls and of the final flush. *)
Section Zlib.
  Variable zst : Type.
  Variable zinit : zst.
  Variable zstep : zst -> bytes -> result (zst * bytes).
  Variable zflush : zst -> result bytes.
  Fixpoint zfeed (z : zst) (ws : list bytes) : result (zst * bytes) :=
    match ws with
    | [] => Ok (z, [])
    | w :: t => let! (z1, o1) := zstep z w in let! (z2, o2) := zfeed z1 t in Ok (z2, o1 ++ o2)
    end.
  Definition zall (ws : list bytes) : result bytes :=
    let! (z, o) := zfeed zinit ws in let! l := zflush z in Ok (o ++ l).
  (** [inflate] is the one-shot decompression: feeding data in pieces gives the same bytes, or an
      error in both cases. *)
  Definition zlaw (inflate : bytes -> result bytes) : Prop :=
    forall ws, match zall ws, inflate (concat ws) with
               | Ok a, Ok b => a = b
               | Err _, Err _ => True
               | _, _ => False
               end.
End Zlib.

Section Content.
  Variable cwd : path.
  Variable base pvpath : str.
  Variable inflate : bytes -> result bytes.
  Variable net : str -> result (list bytes).

  (** [d] is the advertised content of the file. *)
  Definition advertised (pf : pkgfile) (d : bytes) : Prop :=
    exists chunks raw, net (url_of pvpath pf) = Ok chunks /\ pkg_range (concat chunks) pf = Some raw /\
      if k_compressed pf then inflate raw = Ok d else d = raw.
  Definition has_content (f : fs) (pf : pkgfile) : Prop :=
    exists d, advertised pf d /\ look f (pkg_target cwd base pf) = Some (NFile d).
End Content.

(** The requested files. *)
Definition requested (all : list (str * pkgfile)) (paths : option (list str)) (l : list pkgfile) : Prop :=
  match paths with
  | None => l = map snd all
  | Some ps => Forall2 (fun p pf => dget p all = Some pf) ps l
  end.
Definition pkg_ready (cwd : path) (base : str) (f : fs) (pf : pkgfile) : Prop :=
  (0 <= k_offset pf)%Z /\ (0 <= k_size pf)%Z /\ ready cwd (path_join base (k_extract pf)) f.
(** Different files are written at different places. *)
Definition distinct_targets (cwd : path) (base : str) (l : list pkgfile) : Prop :=
  forall a b, In a l -> In b l -> pkg_target cwd base a = pkg_target cwd base b -> a = b.
(** One of the two ranges starts and ends before the other. *)
Definition apart (a b : pkgfile) : Prop :=
  ((k_offset a < k_offset b /\ k_offset a + k_size a <= k_offset b) \/
   (k_offset b < k_offset a /\ k_offset b + k_size b <= k_offset a))%Z.
