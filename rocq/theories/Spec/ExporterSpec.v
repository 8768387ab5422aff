(** * Vocabulary for lists of exported files *)

From Verif Require Import Base.Py Base.Text Model.Wad Model.Exporter Spec.ExportTreeSpec.

(** Mappings have unique keys. *)
Definition dicts (e : exporter) : Prop := NoDup (dkeys (ex_wads e)) /\ NoDup (dkeys (ex_plain e)).

(** An archive of another exporter provides an archive entry: it is the same file, or has the same entry. *)
Definition provides (src : str) (f : wfile) (o : ewad) : Prop :=
  ew_src o = src \/ exists g, In g (ew_files o) /\ w_hash g = w_hash f /\ w_sha g = w_sha f.
(** Checksums are known, hashes are not repeated. *)
Definition summed (e : exporter) : Prop := forall k w f, In (k, w) (ex_wads e) -> In f (ew_files w) -> w_sha f <> None.
Definition unique_hashes (e : exporter) : Prop := forall k w, In (k, w) (ex_wads e) -> NoDup (map w_hash (ew_files w)).

(** Path of a plain file or of an archive entry. *)
Definition exports (e : exporter) (p : str) : Prop :=
  (exists s, In (p, s) (ex_plain e)) \/ exists k w f, In (k, w) (ex_wads e) /\ In f (ew_files w) /\ w_path f = Some p.
(** All entries have a path. *)
Definition named (e : exporter) : Prop := forall k w f, In (k, w) (ex_wads e) -> In f (ew_files w) -> w_path f <> None.
(** Produced paths. *)
Definition produces (cs : list conv) (e : exporter) (x : str) : Prop := exists p, exports e p /\ In x (converted_paths (get_converter cs p) p).

(** Equal archives and equal archive entries have equal paths. *)
Definition same_paths (e prev : exporter) : Prop :=
  forall k w o, In (k, w) (ex_wads e) -> In (k, o) (ex_wads prev) ->
    (ew_src w = ew_src o -> map w_path (ew_files w) = map w_path (ew_files o)) /\
    (forall f g, In f (ew_files w) -> In g (ew_files o) -> w_hash g = w_hash f -> w_sha g = w_sha f -> w_path g = w_path f).

(** No path is also the directory of another one. *)
Definition no_nesting (P : str -> Prop) : Prop := forall p q, P p -> P q -> ~ strictly_inside p q.

(** The same, before names are given to unknown files: same resolved paths and guessed extensions. *)
Definition same_entries (e prev : exporter) : Prop :=
  forall k w o, In (k, w) (ex_wads e) -> In (k, o) (ex_wads prev) ->
    (ew_src w = ew_src o -> ew_files w = ew_files o) /\
    (forall f g, In f (ew_files w) -> In g (ew_files o) -> w_hash g = w_hash f -> w_sha g = w_sha f -> w_path g = w_path f /\ w_ext g = w_ext f).
