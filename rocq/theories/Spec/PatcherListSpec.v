(** * Vocabulary for the elements of a patcher storage *)

From Verif Require Import Base.Py Base.Text Base.Fs Spec.FsSpec Model.Version Model.Releases Spec.ReleasesSpec Spec.PatchCacheSpec.

(** Values which stand for the absence of a URL. *)
Inductive falsy : json -> Prop :=
| fa_null : falsy JNull
| fa_false : falsy (JBool false)
| fa_zero : falsy (JInt 0)
| fa_text : falsy (JStr [])
| fa_list : falsy (JArr [])
| fa_dict : falsy (JObj []).
(** The key of its manifest. *)
Definition url_field (name : str) : str := name ++ lit "_patch_url".
(** The release described by [d] has an element [name], whose manifest has the URL [u]. *)
Definition has_element (d : json) (name : str) (u : json) : Prop :=
  exists m, d = JObj m /\ dget (url_field name) m = Some u /\ ~ falsy u.
Definition element_name (name : str) : Prop := name = lit "game" \/ name = lit "client".
(** The game is before the client. *)
Definition first_element (d : json) (name : str) (u : json) : Prop :=
  name = lit "game" /\ has_element d name u \/
  name = lit "client" /\ has_element d name u /\ forall g, ~ has_element d (lit "game") g.

Section Known.
  Variable cwd : path.
  Variable base patchline : str.
  (** The cache file with the version of an element. *)
  Definition cache_file (v : Z) (name : str) : str := release_base base patchline ++ cSlash :: decZ v ++ lit "/patch_version." ++ name.
  (** The version of an element is known without its files. *)
  Definition known (f : fs) (v : Z) (name : str) (ver : option version) : Prop :=
    patchline = lit "pbe" /\ ver = Some {| v_s := lit "main"; v_t := VMain |} \/
    patchline <> lit "pbe" /\ exists s, cached_text cwd f (cache_file v name) s /\ cached_result s (Done ver).
  (** There is a cache file for it. *)
  Definition cached (f : fs) (v : Z) (name : str) : Prop :=
    patchline = lit "pbe" \/ exists s, cached_text cwd f (cache_file v name) s.

  Variable load : bytes -> result json.
  Notation release_at := (release_at cwd base patchline load).
  (** The same for all elements of stored releases. *)
  Definition all_cached (f : fs) : Prop :=
    forall v d name u, release_at f v d -> element_name name -> has_element d name u -> cached f v name.
  Definition all_known (f : fs) : Prop :=
    forall v d name u, release_at f v d -> element_name name -> has_element d name u -> exists ver, known f v name ver.
End Known.

(** The order of elements: from the last release, the game first. *)
Definition listed_before (a b : Z * str) : Prop :=
  (fst b < fst a)%Z \/ fst a = fst b /\ snd a = lit "game" /\ snd b = lit "client".
