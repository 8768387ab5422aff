(** * Vocabulary for the files of a patch *)

From Verif Require Import Base.Py Base.Text Model.Wad Model.Exporter.

Definition archive_name (s : str) : Prop := exists p, s = p ++ lit ".wad" \/ s = p ++ lit ".wad.client".
(** The last source with this export path, among those of a kind. *)
Definition last_source (P : str -> Prop) (l : list (str * str)) (dst src : str) : Prop :=
  exists l1 l2, l = l1 ++ (src, dst) :: l2 /\ P src /\ forall s, In (s, dst) l2 -> ~ P s.

Section Vocabulary.
  Variable gunzip unzstd : bytes -> result bytes.
  Variable xxh3 : bytes -> N.
  Variable json_loads : bytes -> result unit.
  Variable content : str -> result bytes.
  Variable hashes : str -> result (list (N * str)).

  (** The content of an archive. *)
  Definition opened (src : str) (f : bytes) (wd : wad) : Prop := content src = Ok f /\ exists h, hashes src = Ok h /\ open_wad gunzip unzstd xxh3 h f = Ok wd.
  (** The extension given by the data of an entry (see C15, C19). *)
  Definition data_extension (f : bytes) (toc : option bytes) (w : wfile) (e : str) : Prop :=
    exists d, read_file_data gunzip unzstd xxh3 f toc w = Ok (Some d) /\ d <> [] /\ guess_extension json_loads d = Ok (Some e).
  (** An entry with hash [h] has such data in an archive of these sources. *)
  Definition seen_extension (l : list (str * str)) (h : N) (e : str) : Prop :=
    exists src dst f wd w, In (src, dst) l /\ archive_name src /\ opened src f wd /\ In w (wad_files wd) /\ w_type w <> 2 /\ w_hash w = h /\ data_extension f (wad_toc wd) w e.
  (** An entry of an archive whose path gives no extension. *)
  Definition bare (w : wfile) : Prop := w_ext w = None \/ w_ext w = Some [].

  (** What becomes of an entry: the extension of its path, or else one from the data of entries with the same hash, or else
      none, if its own data gives none. *)
  Definition added (l : list (str * str)) (f : bytes) (toc : option bytes) (x y : wfile) : Prop :=
    exists g, y = sanitize_path (set_ext x g) /\ match g with
    | Some e => e <> [] /\ (w_ext x = Some e \/ bare x /\ seen_extension l (w_hash x) e)
    | None => bare x /\ forall e, ~ data_extension f toc x e
    end.
  (** All entries with the same hash have data with the same extension, or no extension at all. *)
  Definition consistent (l : list (str * str)) : Prop :=
    forall src dst f wd w h e, In (src, dst) l -> archive_name src -> opened src f wd -> In w (wad_files wd) -> w_type w <> 2 -> bare w -> w_hash w = h -> seen_extension l h e -> data_extension f (wad_toc wd) w e.
End Vocabulary.
