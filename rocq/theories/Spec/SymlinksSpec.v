(** * Specification of the links to the files of the previous patch *)

From Verif Require Import Base.Py Base.Text Base.Fs Spec.FsSpec.

(** Where a link is created. *)
Definition link_at (cwd : path) (output l : str) : path := target cwd (path_join output l).
(** A well-formed filesystem, links to create at distinct places without '..' and without links on their way, none of
    them inside another one. *)
Definition links_ready (cwd : path) (output : str) (links : list str) (f : fs) : Prop :=
  fs_wf f /\ look f cwd = Some NDir /\ Forall valid_name cwd
  /\ (forall l, In l links -> plain_path (path_join output l) /\ nolink f (tl (link_at cwd output l)))
  /\ (forall l1 l2, In l1 links -> In l2 links -> ~ strictly_below (link_at cwd output l1) (link_at cwd output l2)
                                                 /\ (link_at cwd output l1 = link_at cwd output l2 -> l1 = l2)).
(** [f'] is [f] plus links at these places and directories that lead to them. *)
Definition links_added (cwd : path) (output : str) (links : list str) (f f' : fs) : Prop :=
  forall q, look f' q = look f q \/ look f q = None /\ exists l, In l links
    /\ (strictly_below (link_at cwd output l) q /\ look f' q = Some NDir \/ q = link_at cwd output l /\ exists t, look f' q = Some (NLink t)).
Definition is_link (f : fs) (p : path) : Prop := exists t, look f p = Some (NLink t).
(** A relative link that leads to [p], without another link. *)
Definition direct (f : fs) (a p : path) : Prop :=
  exists t, look f a = Some (NLink t) /\ is_abs t = false /\ forall k, resolve k f true (tl a) (comps t) = Ok p.
(** Something else than a link is in the way. *)
Definition occupied (cwd : path) (output l : str) (f : fs) : Prop := exists n, look f (link_at cwd output l) = Some n /\ forall t, n <> NLink t.
(** Only directories lead to the place of a link. *)
Definition reachable (cwd : path) (output l : str) (f : fs) : Prop :=
  forall q, strictly_below (link_at cwd output l) q -> look f q = None \/ look f q = Some NDir.
(** The system refused to create a link, because of its text. *)
Definition text_refused (pl : plan) : Prop :=
  exists e n, In (Some (FErr e n)) pl /\ (e = OSError EINVAL \/ e = OSError ENAMETOOLONG).
