(** * C23: Reduced symlink lists cover exactly the common files *)

From Verif Require Import Base.Py Base.Text Base.PyFacts Base.TextFacts Model.ExportTree Spec.ExportTreeSpec Proofs.ExportTreeProofs.

(** Paths of the first list are inside exactly one of the returned ones, which bring no other path of
    the second list, contain no excluded path and are not inside each other. *)
Theorem C23_cover p1 p2 ex : files_only p1 -> files_only p2 -> files_only ex -> incl p1 p2 ->
  exists ret, reduce_common_paths p1 p2 ex = Ok ret /\ NoDup ret /\
    (forall a, In a p1 -> exists r, In r ret /\ inside a r /\ forall r', In r' ret -> inside a r' -> r' = r) /\
    (forall r, In r ret -> exists a, In a p1 /\ inside a r) /\
    (forall r b, In r ret -> In b p2 -> inside b r -> In b p1) /\
    (forall r e, In r ret -> In e ex -> strictly_inside e r -> In r p1) /\
    (forall r1 r2, In r1 ret -> In r2 ret -> inside r1 r2 -> r1 = r2).
Proof.
  intros F1 F2 FX HI. destruct (reduce_paths p1 p2 ex F1 F2 FX HI) as (ret & H1 & H2 & H3 & H4 & H5 & H6 & H7 & _). exists ret. auto 10.
Qed.
Print Assumptions C23_cover.

(** They are exactly the largest files and directories that can be links. *)
Theorem C23_exact p1 p2 ex ret : files_only p1 -> files_only p2 -> files_only ex -> incl p1 p2 ->
  reduce_common_paths p1 p2 ex = Ok ret -> forall r, In r ret <-> outermost (linkable p1 p2 ex) r.
Proof. exact (reduce_paths_exact p1 p2 ex ret). Qed.
Print Assumptions C23_exact.

(** Excluded paths are neither inside nor above the returned ones. *)
Theorem C23_excluded p1 p2 ex ret : files_only (p1 ++ ex) -> files_only p2 -> incl p1 p2 -> (forall e, In e ex -> ~ In e p1) ->
  reduce_common_paths p1 p2 ex = Ok ret -> forall r e, In r ret -> In e ex -> ~ inside e r /\ ~ inside r e.
Proof. exact (reduce_paths_excluded p1 p2 ex ret). Qed.
Print Assumptions C23_excluded.

(** The arguments are sets: their order does not matter. *)
Theorem C23_order p1 p2 ex q1 q2 ey ret : files_only p1 -> files_only p2 -> files_only ex -> incl p1 p2 ->
  (forall x, In x p1 <-> In x q1) -> (forall x, In x p2 <-> In x q2) -> (forall x, In x ex <-> In x ey) ->
  reduce_common_paths p1 p2 ex = Ok ret -> exists ret', reduce_common_paths q1 q2 ey = Ok ret' /\ forall r, In r ret' <-> In r ret.
Proof. exact (reduce_paths_order p1 p2 ex q1 q2 ey ret). Qed.
Print Assumptions C23_order.

(** With identical lists and nothing excluded: the entries at the root. *)
Theorem C23_identical p ret : files_only p -> reduce_common_paths p p [] = Ok ret ->
  forall r, In r ret <-> ~ In cSlash r /\ exists a, In a p /\ inside a r.
Proof. exact (reduce_paths_same p ret). Qed.
Print Assumptions C23_identical.

(** ** Instances *)

Local Definition p1 := [lit "a/x/1"; lit "a/x/2"; lit "a/y"; lit "b/c/d"; lit "b/c/e"; lit "f"].
Local Definition p2 := [lit "b/c/e"; lit "b/c/d"; lit "a/z"; lit "a/y"; lit "f"; lit "a/x/2"; lit "a/x/1"; lit "g/h"].
Local Definition ex := [lit "b/new"; lit "a/z"].
(** Boolean check of [files_only]. *)
Local Fixpoint starts (a b : list str) : bool :=
  match a, b with [], _ => true | x :: a', y :: b' => eqb x y && starts a' b' | _ :: _, [] => false end.
Local Lemma starts_ok a b : starts a b = true <-> exists l, b = a ++ l.
Proof.
  revert b. induction a as [|x a IH]; intros b; cbn [starts]; [split; [intros _; exists b; reflexivity | reflexivity]|].
  destruct b as [|y b]; [split; [discriminate | intros [l E]; discriminate]|]. rewrite andb_true_iff, eqbT, IH. split.
  - intros [-> [l ->]]. exists l. reflexivity.
  - intros [l E]. cbn [app] in E. injection E as -> ->. split; [reflexivity | exists l; reflexivity].
Qed.
Local Definition only_check (l : list str) : bool := forallb (fun p => forallb (fun q => negb (starts (parts q) (parts p)) || eqb (parts p) (parts q)) l) l.
Local Lemma only_check_ok l : only_check l = true -> files_only l.
Proof.
  intros H p q Hp Hq (n & s & E). unfold only_check in H. rewrite forallb_forall in H. specialize (H p Hp). rewrite forallb_forall in H. specialize (H q Hq).
  apply orb_true_iff in H as [H|H].
  - assert (starts (parts q) (parts p) = true) by (apply starts_ok; exists (n :: s); exact E). rewrite H0 in H. discriminate.
  - destruct (eqbP (parts p) (parts q)) as [H'|]; [|discriminate]. rewrite H' in E. rewrite <- (app_nil_r (parts q)) in E at 1. apply app_inv_head in E. discriminate.
Qed.
Example C23_files : files_only p1 /\ files_only p2 /\ files_only ex /\ files_only (p1 ++ ex) /\ incl p1 p2 /\ forall e, In e ex -> ~ In e p1.
Proof.
  repeat apply conj; try (apply only_check_ok; vm_compute; reflexivity).
  - intros x Hx. apply mem_In. revert x Hx. apply Forall_forall. repeat constructor.
  - intros e He H. apply mem_In in H. revert H. cbn [ex In] in He. destruct He as [<- | [<- | []]]; vm_compute; discriminate.
Qed.
Example C23_ex : reduce_common_paths p1 p2 ex = Ok [lit "a/x"; lit "a/y"; lit "b/c"; lit "f"].
Proof. vm_compute. reflexivity. Qed.
Example C23_same_ex : reduce_common_paths p1 p1 [] = Ok [lit "a"; lit "b"; lit "f"].
Proof. vm_compute. reflexivity. Qed.

(** ** What the hypotheses exclude *)

(** Paths missing from the second list. *)
Theorem C23_missing_refuted : exists a b, files_only a /\ files_only b /\ reduce_common_paths a b [] = Err KeyError.
Proof.
  exists [lit "a/x"; lit "b"], [lit "a/x"]. split; [apply only_check_ok; vm_compute; reflexivity|]. split; [apply only_check_ok; vm_compute; reflexivity|]. vm_compute. reflexivity.
Qed.
Print Assumptions C23_missing_refuted.
(** A file with the name of a directory: the outcome depends on the order, paths may be lost. *)
Theorem C23_mixed_refuted : exists a b, reduce_common_paths [a; b] [a; b] [] = Err TypeError /\
  exists ret, reduce_common_paths [b; a] [b; a] [] = Ok ret /\ ret = [a] /\ strictly_inside b a.
Proof.
  exists (lit "a"), (lit "a/b"). split; [vm_compute; reflexivity|]. exists [lit "a"]. split; [vm_compute; reflexivity|]. split; [reflexivity|].
  exists (lit "b"), []. vm_compute. reflexivity.
Qed.
Print Assumptions C23_mixed_refuted.
(** An excluded file with the name of a directory: the directory is returned. *)
Theorem C23_excluded_refuted : exists p ex r, files_only p /\ files_only ex /\ reduce_common_paths p p ex = Ok [r] /\ In r ex.
Proof.
  exists [lit "a/b"], [lit "a"], (lit "a"). split; [apply only_check_ok; vm_compute; reflexivity|]. split; [apply only_check_ok; vm_compute; reflexivity|].
  split; [vm_compute; reflexivity | left; reflexivity].
Qed.
Print Assumptions C23_excluded_refuted.
