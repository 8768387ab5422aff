(** * Vocabulary for the commands on components *)

From Verif Require Import Base.Py Base.Text Model.Version Model.Storage Spec.ComponentSpec Spec.StorageSpec.

(** The version looked up for the version part of a component: none, or without its final dot. *)
Definition looked_up (v : str) (w : option str) : Prop :=
  (v = [] /\ w = None) \/ (exists x, v = x ++ [46] /\ w = Some x) \/ (v <> [] /\ (forall x, v <> x ++ [46]) /\ w = Some v).
Definition has_version (w : option str) (v : version) : Prop := match w with None => True | Some t => v_s v = t end.
(** The first item such that... *)
Definition first_with {A} (P : A -> Prop) (l : list A) (x : A) : Prop :=
  exists l1 l2, l = l1 ++ x :: l2 /\ P x /\ Forall (fun y => ~ P y) l1.

(** The first elements of each name in [g], other than the names [seen]. *)
Inductive first_ones : list str -> list element -> list element -> Prop :=
| fo_nil seen : first_ones seen [] []
| fo_skip seen e g r : In (e_name e) seen -> first_ones seen g r -> first_ones seen (e :: g) r
| fo_keep seen e g r : ~ In (e_name e) seen -> first_ones (seen ++ [e_name e]) g r -> first_ones seen (e :: g) (e :: r).
(** The elements of the first patch of version [w] of a listing: those of successive elements of that version. *)
Definition patch_elements (l : list element) (w : option str) (es : list element) : Prop :=
  exists gs g, version_groups l gs /\ first_with (Exists (fun e => has_version w (e_ver e))) gs g /\ first_ones [] g es.

(** The elements designated by a component: those of a patch available on the server, or one element, among stored
    ones if a version is given. *)
Definition designates (listing : bool -> list element) (c : str) (es : list element) : Prop :=
  exists name v w, component_text name v c /\ looked_up v w /\
    ((name = lit "patch" /\ patch_elements (listing false) w es)
     \/ (name <> lit "patch" /\ exists e, first_with (fun e => e_name e = name /\ has_version w (e_ver e)) (listing (match w with None => false | Some _ => true end)) e /\ es = [e])).

(** The elements of a version have that type. *)
Definition offers (type : str) (g : list element) : Prop := type = lit "patch" \/ exists e, In e g /\ e_name e = type.
