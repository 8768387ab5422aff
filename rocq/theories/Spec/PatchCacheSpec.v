(** * Specification of the patch versions of elements *)

From Verif Require Import Base.Py Base.Text Base.Utf8 Base.Fs Spec.FsSpec Model.Version Model.Releases.

(** Ends of lines of a text file. *)
Inductive translated : str -> str -> Prop :=
| tr_nil : translated [] []
| tr_crlf s t : translated s t -> translated (13 :: 10 :: s) (10 :: t)
| tr_cr s t : (forall s', s <> 10 :: s') -> translated s t -> translated (13 :: s) (10 :: t)
| tr_other c s t : c <> 13 -> translated s t -> translated (c :: s) (c :: t).
(** The text of a file. *)
Definition file_text (data : bytes) (text : str) : Prop := exists s, utf8_dec data = Ok s /\ translated s text.

Definition quote (c : N) : Prop := c = 34 \/ c = 39.
Definition version_char (c : N) : Prop := 48 <= c <= 57 \/ c = 46.
Definition version_text (v : str) : Prop := v <> [] /\ Forall version_char v.
(** A line such as "  branch: 'Release/9.1'" *)
Definition branch_line (line v : str) : Prop :=
  exists spaces prefix name q final, line = spaces ++ prefix ++ lit "branch: " ++ name ++ q :: v ++ final /\
    Forall (eq 32) spaces /\ (prefix = [] \/ prefix = lit "game-") /\ (quote q \/ q = 47) /\ version_text v /\ (final = [] \/ exists c, quote c /\ final = [c]).
(** The version of the first such line. *)
Definition first_branch (text v : str) : Prop :=
  exists before l after, text = join [10] (before ++ l :: after) /\ Forall (fun x => ~ In 10 x) (before ++ l :: after) /\
    Forall (fun x => forall w, ~ branch_line x w) before /\ branch_line l v.

(** "9.1.234.567" has version "9.1". *)
Definition digits (s : str) : Prop := s <> [] /\ Forall (fun c => 48 <= c <= 57) s.
Definition metadata_text (s v : str) : Prop := exists a b rest, digits a /\ digits b /\ s = a ++ 46 :: b ++ 46 :: rest /\ v = a ++ 46 :: b.

(** The content of a file, with its place. *)
Definition content_at (cwd : path) (f : fs) (s : str) (p : path) (b : bytes) : Prop := locate cwd f true s = Ok p /\ look f p = Some (NFile b).
Definition has_content (cwd : path) (f : fs) (s : str) (b : bytes) : Prop := exists p, content_at cwd f s p b.
Definition no_file (cwd : path) (f : fs) (s : str) : Prop := forall b, ~ has_content cwd f s b.
(** The text of a cache file, without blanks at its ends. *)
Definition blank (c : N) : Prop := 9 <= c <= 13 \/ 28 <= c <= 32.
Definition stripped (text s : str) : Prop :=
  exists a b, text = a ++ s ++ b /\ Forall blank a /\ Forall blank b /\ (forall c t, s = c :: t -> ~ blank c) /\ (forall c t, s = t ++ [c] -> ~ blank c).
Definition cached_text (cwd : path) (f : fs) (cache s : str) : Prop := exists data text, has_content cwd f cache data /\ file_text data text /\ stripped text s.
(** What the text of a cache file stands for. *)
Inductive cached_result : str -> outcome (option version) -> Prop :=
| cr_none : cached_result [] (Done None)
| cr_some s v : s <> [] -> patch_version (ArgStr s) = Ok v -> cached_result s (Done (Some v))
| cr_error s e : s <> [] -> patch_version (ArgStr s) = Err e -> cached_result s (Raised e).
(** [f'] is [f] but for one file. *)
Definition but_file (p : path) (f f' : fs) : Prop := forall q, look f' q = look f q \/ q = p.

(** A version whose text has no blank and gives the same version. *)
Definition clean_version (v : version) : Prop := v_s v <> [] /\ Forall (fun c => 32 < c < 127) (v_s v) /\ patch_version (ArgStr (v_s v)) = Ok v.

(** The current directory exists. *)
Definition cwd_exists (cwd : path) (f : fs) : Prop := forall q, below cwd q -> look f q = Some NDir.

(** The file with the version of an element of a release, and the version it gives. *)
Inductive version_file : str -> str -> Prop :=
| vf_client : version_file (lit "client") (lit "system.yaml")
| vf_game : version_file (lit "game") (lit "content-metadata.json").
Inductive element_version (load : bytes -> result json) : str -> bytes -> version -> Prop :=
| ev_client data text s v : file_text data text -> first_branch text s -> patch_version (ArgStr s) = Ok v -> element_version load (lit "client") data v
| ev_game data d s t v : load data = Ok (JObj d) -> dget (lit "version") d = Some (JStr s) -> metadata_text s t -> patch_version (ArgStr t) = Ok v -> element_version load (lit "game") data v.

(** The same for RADS solutions. *)
Inductive solution_file : str -> str -> str -> Prop :=
| sf_client : solution_file (lit "league_client_sln") (lit "league_client") (lit "/system.yaml")
| sf_game : solution_file (lit "lol_game_client_sln") (lit "lol_game_client") (lit "/League of Legends.exe").
Inductive solution_version (exe : bytes -> result (option str)) : str -> bytes -> version -> Prop :=
| sv_client data text s v : file_text data text -> first_branch text s -> patch_version (ArgStr s) = Ok v -> solution_version exe (lit "league_client_sln") data v
| sv_game data s v : exe data = Ok (Some s) -> patch_version (ArgStr s) = Ok v -> solution_version exe (lit "lol_game_client_sln") data v.
(** The first element of a list with a property. *)
Definition first {A} (P : A -> Prop) (l : list A) (x : A) : Prop := exists before after, l = before ++ x :: after /\ Forall (fun y => ~ P y) before /\ P x.

(** Written texts are read again: ASCII characters. *)
Definition ascii_text (enc : str -> bytes) : Prop := forall s, Forall (fun c => c < 128) s -> utf8_dec (enc s) = Ok s.
