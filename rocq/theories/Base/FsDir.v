(** * Listing directories *)

From Verif Require Import Base.Py Base.Text Base.PyFacts Base.Fs Spec.FsSpec Base.FsFacts.

(** The names in the directory [p], each once. *)
Definition names (p : path) (f : fs) : list str :=
  set_of (flat_map (fun kv => match fst kv with n :: q => if eqb q p then [n] else [] | [] => [] end) f).

(** [os.listdir(s)]: [order] gives the (arbitrary) order in which the names are returned. *)
Definition listdir (order : list str -> list str) (cwd : path) (s : str) : prog (list str) :=
  sys (fun f =>
    let! p := locate cwd f true s in
    match look f p with
    | Some NDir => Ok (order (names p f), f)
    | Some _ => Err (OSError ENOTDIR)
    | None => Err (OSError ENOENT)
    end).

Lemma dget_In_iff (f : fs) p : dget p f <> None <-> exists n, In (p, n) f.
Proof.
  induction f as [|[q m] f IH]; cbn [dget]; [split; [congruence | intros [n []]]|].
  destruct (eqbP p q) as [->|Hn].
  - split; [intros _; exists m; left; reflexivity | congruence].
  - rewrite IH. split; intros [n H]; exists n; [right; assumption|]. destruct H as [E|H]; [congruence | assumption].
Qed.
Lemma names_In p f n : In n (names p f) <-> look f (n :: p) <> None.
Proof.
  unfold names. rewrite set_of_In, in_flat_map. change (look f (n :: p)) with (dget (n :: p) f). rewrite dget_In_iff. split.
  - intros ([k v] & Hi & Hn). cbn [fst] in Hn. destruct k as [|x q]; [destruct Hn|]. destruct (eqbP q p) as [->|]; [|destruct Hn].
    destruct Hn as [->|[]]. exists v. assumption.
  - intros [v Hv]. exists (n :: p, v). split; [assumption|]. cbn [fst]. rewrite eqbR. left. reflexivity.
Qed.
Lemma names_NoDup p f : NoDup (names p f).
Proof. apply set_of_NoDup. Qed.
