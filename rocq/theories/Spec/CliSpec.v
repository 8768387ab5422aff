(** * Specification of the choice of patches *)

From Coq Require Import Sorted.
From Verif Require Import Base.Py Base.Text Model.Version Model.Storage Model.Component Model.Cli Spec.VersionSpec Spec.StorageSpec.

Definition ptext (p : patch) : str := v_s (p_ver p).

(** A version directory exists for this version. *)
Definition wanted (entries : list (str * bool)) (t : str) : Prop :=
  exists path v, In (path, true) entries /\ patch_version (ArgStr path) = Ok v /\ v_s v = t.
(** Other directories are not taken for versions. *)
Definition no_short_name (entries : list (str * bool)) : Prop :=
  forall path e, In (path, true) entries -> patch_version (ArgStr path) = Err e -> e = ValueError \/ e = TypeError.

(** Patches older than the first one to export. *)
Definition older (first : option version) (p : patch) : Prop :=
  match first with
  | None => False
  | Some f => exists x y, v_t (p_ver p) = VNum x /\ v_t f = VNum y /\ comps_before x y
  end.
(** Listed from the newest one, with comparable versions. *)
Definition newest_first (first : option version) (ps : list patch) : Prop :=
  NoDup (map ptext ps) /\
  match first with
  | None => True
  | Some f => (exists y, v_t f = VNum y) /\ Forall (fun p => exists x, v_t (p_ver p) = VNum x) ps
              /\ StronglySorted (fun p q => forall x y, v_t (p_ver p) = VNum x -> v_t (p_ver q) = VNum y -> comps_before y x) ps
  end.

(** Exporters of patches, oldest first: each one is compared to the one before. *)
Inductive chained (output : str) (symlinks : option bool) : option patch -> list patch -> list raw_exporter -> Prop :=
| ch_nil prev : chained output symlinks prev [] []
| ch_cons prev p ps es : chained output symlinks (Some p) ps es ->
    chained output symlinks prev (p :: ps)
      ({| re_output := normpath (path_join output (ptext p)); re_patch := p; re_previous := prev;
          re_symlinks := match prev, symlinks with None, _ => false | Some _, None => true | Some _, Some s => s end |} :: es).

(** The first listed patch of this version. *)
Definition patch_of_text (ps : list patch) (t : str) (p : patch) : Prop :=
  exists pre post, ps = pre ++ p :: post /\ ptext p = t /\ forall q, In q pre -> ptext q <> t.
(** The patch to export: the latest one or the one of this version. *)
Definition asked (ps : list patch) (arg : str) (p : patch) : Prop :=
  (arg = lit "latest" /\ exists t, ps = p :: t) \/ (arg <> lit "latest" /\ patch_of_text ps arg p).
(** The stored patch just before this version. *)
Definition just_before (stored : list patch) (t : str) (q : patch) : Prop :=
  exists pre x post, stored = pre ++ x :: q :: post /\ ptext x = t /\ forall y, In y pre -> ptext y <> t.
(** What to compare with. *)
Inductive compared (stored : list patch) (p : patch) : option str -> option patch -> Prop :=
| cmp_none : compared stored p (Some (lit "none")) None
| cmp_given t q : t <> lit "none" -> t <> [] -> patch_of_text stored t q -> compared stored p (Some t) (Some q)
| cmp_guess a q : a = None \/ a = Some [] -> just_before stored (ptext p) q -> compared stored p a (Some q).

(** The storage path: the argument, else the environment. *)
Inductive storage_path : option str -> option str -> str -> Prop :=
| sp_arg env p : storage_path env (Some p) p
| sp_env p : storage_path (Some p) None p.
