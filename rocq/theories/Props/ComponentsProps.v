(** * C74: commands on components *)

From Verif Require Import Base.Py Base.Text Base.PyFacts Base.TextFacts Base.Fs Base.FsFacts Model.Rman Model.Patcher Model.Version Model.Storage Model.Component Model.Cli Model.Components Spec.ComponentSpec Spec.StorageSpec Spec.ComponentsSpec Proofs.ComponentProofs Proofs.StorageProofs Proofs.ComponentsProofs.

Section Components.
  Variable listing : bool -> list element.

  (** The elements of a component are those it designates, in the order of the listing. *)
  Theorem C74_designates c es : parse_component_arg listing c = Ok es <-> designates listing c es.
  Proof. exact (arg_designates listing c es). Qed.
  (** It designates at most one list of elements, never an empty one. *)
  Theorem C74_unique c es es' : designates listing c es -> designates listing c es' -> es = es' /\ es <> [].
  Proof.
    intros H H'. split.
    - apply C74_designates in H. apply C74_designates in H'. congruence.
    - destruct H as (name & v & w & _ & _ & [[_ (gs & g & (_ & HF & _) & Hf & Ho)]|[_ (e & _ & ->)]]); [|discriminate].
      apply first_with_In in Hf as [Hg _]. rewrite Forall_forall in HF. destruct (HF g Hg) as [Hne _]. destruct g as [|e g]; [congruence|].
      inversion Ho; subst; [contradiction | discriminate].
  Qed.
  (** Otherwise the command exits with an error, except for one case: the latest patch of an empty server. *)
  Theorem C74_refused c e : parse_component_arg listing c = Err e <->
    (forall es, ~ designates listing c es) /\
    ((listing false = [] /\ (c = lit "patch=" \/ c = lit "patch=" ++ [10]) /\ e = StopIteration) \/
     (~ (listing false = [] /\ (c = lit "patch=" \/ c = lit "patch=" ++ [10])) /\ e = SysExit)).
  Proof.
    rewrite arg_refused. destruct (mem c [lit "patch="; lit "patch=" ++ [10]]) eqn:Em.
    - apply mem_In in Em. assert (Hc : c = lit "patch=" \/ c = lit "patch=" ++ [10]) by (destruct Em as [<-|[<-|[]]]; auto).
      destruct (listing false) as [|x l] eqn:El; cbn [andb].
      + change (eqb (lenN (@nil element)) 0) with true. cbn iota. intuition congruence.
      + destruct (eqbP (lenN (x :: l)) 0) as [E0|_]; [rewrite lenN_cons in E0; lia|]. intuition congruence.
    - cbn [andb]. assert (Hc : ~ (c = lit "patch=" \/ c = lit "patch=" ++ [10])).
      { intros H. assert (mem c [lit "patch="; lit "patch=" ++ [10]] = true); [apply mem_In; cbn [In]; intuition congruence | congruence]. }
      intuition congruence.
  Qed.
  (** "patch=" and "patch=V." are the same as the latest patch and "patch=V". *)
  Theorem C74_dot name v : component_text name (v ++ [46]) (name ++ lit "=" ++ v ++ [46]) ->
    forall es, designates listing (name ++ lit "=" ++ v ++ [46]) es <-> designates listing (name ++ lit "=" ++ v) es.
  Proof.
    intros Hc es. assert (Hd : dotted_version v).
    { destruct Hc as (_ & [E|[E|Hd]] & _); [destruct v; discriminate | apply (f_equal (fun l => last l 0)) in E; rewrite last_last in E; discriminate|].
      exact (proj1 (dotted_trailing _ v Hd eq_refl)). }
    assert (Hc' : component_text name v (name ++ lit "=" ++ v)) by (split; [apply Hc|]; split; [right; right; exact Hd | left; reflexivity]).
    assert (Hv : forall x, v <> x ++ [46]).
    { intros x ->. pose proof Hc as (_ & [E|[E|Hd2]] & _); [destruct x; discriminate | apply (f_equal (fun l => last l 0)) in E; rewrite last_last in E; discriminate|].
      destruct (dotted_trailing _ _ Hd2 eq_refl) as [_ E]. rewrite !rstrip_app_all in E by reflexivity. destruct (rstrip_spec (N.eqb cDot) x) as (t & Et & _). rewrite E in Et. apply (f_equal (@length N)) in Et. rewrite !app_length in Et. cbn [length] in Et. lia. }
    assert (Hne : v <> []) by (intros ->; apply ver_accept_iff in Hd; discriminate).
    split; intros (n' & v' & w & H1 & H2 & H3).
    - apply match_component_iff in H1. apply match_component_iff in Hc. rewrite Hc in H1. injection H1 as <- <-.
      exists name, v, w. split; [exact Hc'|]. split; [|exact H3]. apply looked_up_iff in H2. subst w. right. right. split; [exact Hne|]. split; [exact Hv|].
      rewrite last_last, removelast_last. destruct (v ++ [46]) eqn:E; [destruct v; discriminate | reflexivity].
    - apply match_component_iff in H1. apply match_component_iff in Hc'. rewrite Hc' in H1. injection H1 as <- <-.
      exists name, (v ++ [46]), w. split; [exact Hc|]. split; [|exact H3]. right. left. exists v. split; [reflexivity|].
      destruct H2 as [[E _]|[(x & E & _)|(_ & _ & E)]]; [contradiction | exfalso; exact (Hv x E) | exact E].
  Qed.

  (** All components are looked up before anything is done: the download is that of all elements in order, or nothing
      is done. *)
  Theorem C74_download dl cs pl f :
    (exists c e, In c cs /\ (forall es, ~ designates listing c es) /\ run (command_download listing dl cs) pl f = (Raised e, pl, f))
    \/ exists ess, Forall2 (designates listing) cs ess /\ run (command_download listing dl cs) pl f = run (for_each (concat ess) dl) pl f.
  Proof. exact (download_run listing dl cs pl f). Qed.

  (** Files: the lines of the elements in order, up to the first one that fails. *)
  Theorem C74_files rel abs relative c es : designates listing c es ->
    (forall os, Forall2 (fun e o => (if relative : bool then rel e else abs e) = (o, None)) es os -> command_files listing rel abs relative c = (concat os, None)) /\
    (forall l1 x l2 os o e, es = l1 ++ x :: l2 -> Forall2 (fun e o => (if relative : bool then rel e else abs e) = (o, None)) l1 os -> (if relative : bool then rel x else abs x) = (o, Some e) ->
      command_files listing rel abs relative c = (concat os ++ o, Some e)).
  Proof.
    intros H. apply C74_designates in H. unfold command_files. rewrite H. split.
    - intros os HF. apply print_all_ok. exact HF.
    - intros l1 x l2 os o e -> HF Hx. apply print_all_interrupted; assumption.
  Qed.
  Theorem C74_files_refused rel abs relative c : (forall es, ~ designates listing c es) -> exists e, command_files listing rel abs relative c = ([], Some e).
  Proof.
    intros H. unfold command_files. destruct (parse_component_arg listing c) as [es|e] eqn:E; [exfalso; apply (H es); apply C74_designates; exact E|]. eauto.
  Qed.
End Components.
Print Assumptions C74_designates.
Print Assumptions C74_unique.
Print Assumptions C74_refused.
Print Assumptions C74_dot.
Print Assumptions C74_download.
Print Assumptions C74_files.
Print Assumptions C74_files_refused.

(** Versions: one line by group of elements of the same version with an element of that type. *)
Theorem C74_versions l type : exists gs os, version_groups l gs /\
  Forall2 (fun g o => (offers type g /\ exists e, In e g /\ o = [v_s (e_ver e)]) \/ (~ offers type g /\ o = [])) gs os /\ command_versions l type = (concat os, None).
Proof. exact (versions_lines l type). Qed.
Print Assumptions C74_versions.

(** The files of an element: the names of its manifest in lower case, up to a file without name. *)
Theorem C74_relpaths lower manif langs l : filter_files lower manif langs = Ok l ->
  ((forall m, In m l -> f_name m <> None) -> exists ns, Forall2 (fun m n => f_name m = Some n) l ns /\ elem_relpaths lower manif langs = (map lower ns, None)) /\
  (forall l1 m l2, l = l1 ++ m :: l2 -> f_name m = None -> (forall x, In x l1 -> f_name x <> None) ->
    exists ns, Forall2 (fun m n => f_name m = Some n) l1 ns /\ elem_relpaths lower manif langs = (map lower ns, Some AttributeError)).
Proof. intros E. split; [exact (relpaths_lines lower manif langs l E) | intros l1 m l2 ->; exact (relpaths_interrupted lower manif langs l1 m l2 E)]. Qed.
Theorem C74_paths lower sdir manif langs ps : elem_paths lower sdir manif langs = Ok ps <->
  exists l, filter_files lower manif langs = Ok l /\ Forall2 (fun m p => exists n, f_name m = Some n /\ p = (extract_path sdir m, lower n)) l ps.
Proof. exact (paths_Ok lower sdir manif langs ps). Qed.
Print Assumptions C74_relpaths.
Print Assumptions C74_paths.

(** *** Examples *)

Local Definition mkv (s : String.string) : version := match patch_version (ArgStr (lit s)) with Ok v => v | Err _ => {| v_s := []; v_t := VMain |} end.
Arguments mkv s%string_scope.
Local Definition mke (n : String.string) (s : String.string) (i : N) : element := {| e_name := lit n; e_ver := mkv s; e_id := i |}.
Arguments mke (n s)%string_scope i.
(** Two patches on the server, the first one is not in the storage. *)
Local Definition server : list element := [mke "game" "9.2" 1; mke "client" "9.2" 2; mke "game" "9.2" 3; mke "client" "9.1" 4; mke "game" "9.1" 5].
Local Definition both (stored : bool) : list element := if stored then [mke "client" "9.1" 4; mke "game" "9.1" 5] else server.
Local Definition ids (r : result (list element)) : result (list N) := rmap (map e_id) r.
Example C74_ex :
  ids (parse_component_args both [lit "patch="; lit "game=9.1"; lit "patch=9.1."; lit "client="]) = Ok [1; 2; 5; 4; 5; 2] /\
  ids (parse_component_args both [lit "patch=9.2"; lit "game=9.3"]) = Err SysExit /\
  command_versions server (lit "game") = ([lit "9.2"; lit "9.1"], None) /\
  command_versions server (lit "other") = ([], None).
Proof. vm_compute. repeat split. Qed.
Example C74_files_ex :
  command_files both (fun e => ([e_name e; lit "x"], None)) (fun e => ([], if eqb (e_id e) 2 then Some (OSError ENOENT) else None)) true (lit "patch=9.2") = ([lit "game"; lit "x"; lit "client"; lit "x"], None) /\
  command_files both (fun e => ([e_name e; lit "x"], None)) (fun e => ([v_s (e_ver e)], if eqb (e_id e) 2 then Some (OSError ENOENT) else None)) false (lit "patch=9.2") = ([lit "9.2"; lit "9.2"], Some (OSError ENOENT)).
Proof. vm_compute. split; reflexivity. Qed.
Example C74_designates_ex : exists es, designates both (lit "patch=9.2") es /\ map e_id es = [1; 2].
Proof. eexists. split; [apply C74_designates; vm_compute; reflexivity | reflexivity]. Qed.
Example C74_dot_ex : component_text (lit "patch") (lit "9.1" ++ [46]) (lit "patch=9.1.").
Proof. apply match_component_iff. reflexivity. Qed.

(** An element of an available patch cannot be downloaded by its version: only stored elements are looked up.  The
    whole patch can, and contains that element. *)
Theorem C74_available_refuted : exists listing es e,
  (forall e, In e (listing true) -> In e (listing false)) /\
  parse_component_arg listing (lit "patch=9.2") = Ok es /\ In e es /\ e_name e = lit "game" /\ v_s (e_ver e) = lit "9.2" /\
  parse_component_arg listing (lit "game=9.2") = Err SysExit.
Proof.
  exists both, [mke "game" "9.2" 1; mke "client" "9.2" 2], (mke "game" "9.2" 1).
  split; [|split; [vm_compute; reflexivity|]; split; [left; reflexivity|]; repeat split].
  intros e [<-|[<-|[]]]; cbn [both server In]; tauto.
Qed.
(** The latest patch of an empty listing is not reported as a component that is not found. *)
Theorem C74_empty_refuted : exists listing, parse_component_arg listing (lit "patch=") = Err StopIteration /\ parse_component_arg listing (lit "game=") = Err SysExit.
Proof. exists (fun _ => []). split; reflexivity. Qed.
(** Files with names that differ in their case only have the same relative path. *)
Theorem C74_case_refuted : exists lower manif langs l n,
  filter_files lower manif langs = Ok l /\ NoDup (map Rman.f_name l) /\ elem_relpaths lower manif langs = ([n; n], None).
Proof.
  exists Text.lower, {| m_bundles := []; m_chunks := []; m_flags := []; m_files := map (fun n => (Some n, {| Rman.f_name := Some n; Rman.f_size := None; f_link := None; f_flags := None; f_chunks := [] |})) [lit "a.txt"; lit "A.txt"] |}, LTrue.
  eexists. exists (lit "a.txt"). split; [reflexivity|]. split; [|vm_compute; reflexivity].
  repeat constructor; vm_compute; intuition discriminate.
Qed.
Print Assumptions C74_available_refuted.
Print Assumptions C74_empty_refuted.
Print Assumptions C74_case_refuted.
