(** * C05, C06: patch listings *)

From Verif Require Import Base.TextFacts Model.Version Model.Storage Spec.VersionSpec Spec.StorageSpec
  Proofs.VersionProofs Proofs.StorageProofs.

Local Definition mkv (s : String.string) : version :=
  match patch_version (ArgStr (lit s)) with Ok v => v | Err _ => {| v_s := []; v_t := VMain |} end.
Local Definition mke (n : String.string) (s : String.string) (i : N) : element :=
  {| e_name := lit n; e_ver := mkv s; e_id := i |}.
Arguments mkv s%string_scope.
Arguments mke (n s)%string_scope i.
Local Definition sample : list element :=
  [mke "game" "9.2" 1; mke "client" "9.2" 2; mke "game" "9.2" 3; mke "client" "9.1" 4].

Local Ltac solve_sorted :=
  unfold sorted_newest; repeat
  match goal with
  | |- StronglySorted _ [] => constructor
  | |- StronglySorted _ _ => apply SSorted_cons
  | |- Forall _ [] => constructor
  | |- Forall _ _ => apply Forall_cons
  | |- not_newer _ _ => apply not_newer_lt; reflexivity
  end.

(** C05: [patches()] never fails and yields one patch per maximal run of equal versions, made of
    the first element of each name of the run. *)
Theorem C05_patches l :
  exists ps gs, patches l = Ok ps /\ version_groups l gs /\ Forall2 patch_of_group gs ps.
Proof. exact (patches_spec l). Qed.
Print Assumptions C05_patches.
Example C05_patches_ex :
  rmap (map (fun p => (v_s (p_ver p), map e_id (p_elems p)))) (patches sample) =
  Ok [(lit "9.2", [1; 2]); (lit "9.1", [4])].
Proof. reflexivity. Qed.

(** C05: [patch(v)] is the first patch of that version. *)
Theorem C05_patch l v ps :
  patches l = Ok ps ->
  match storage_patch (Some v) l with
  | Ok (Some p) => exists pre post, ps = pre ++ p :: post /\ v_s (p_ver p) = v /\ forall q, In q pre -> v_s (p_ver q) <> v
  | Ok None => forall q, In q ps -> v_s (p_ver q) <> v
  | Err _ => False
  end.
Proof. exact (storage_patch_spec l v ps). Qed.
Print Assumptions C05_patch.

(** C05: [patch()] is the latest patch; on an empty storage it raises StopIteration (the
    documentation says None). *)
Theorem C05_patch_latest l :
  storage_patch None [] = Err StopIteration /\
  (l <> [] -> exists p ps, patches l = Ok (p :: ps) /\ storage_patch None l = Ok (Some p)).
Proof. split; [reflexivity | exact (proj2 (storage_patch_latest l))]. Qed.
Print Assumptions C05_patch_latest.
Theorem C05_patch_none_on_empty_refuted :
  exists l, (forall ps, patches l = Ok ps -> ps = []) /\ storage_patch None l <> Ok None.
Proof. exists []. split; [intros ps E; injection E as <-; reflexivity | discriminate]. Qed.
Print Assumptions C05_patch_none_on_empty_refuted.

(** C05: [patch_element] is the first element with the name and version. *)
Theorem C05_patch_element name version l :
  let matches e := e_name e = name /\ match version with None => True | Some v => v_s (e_ver e) = v end in
  match patch_element name version l with
  | Some e => exists pre post, l = pre ++ e :: post /\ matches e /\ forall x, In x pre -> ~ matches x
  | None => forall x, In x l -> ~ matches x
  end.
Proof. exact (patch_element_spec name version l). Qed.
Print Assumptions C05_patch_element.

(** C05: [latest()] of a listed patch is itself. *)
Theorem C05_latest l ps p : patches l = Ok ps -> In p ps -> patch_latest p = Ok p.
Proof. exact (patches_latest l ps p). Qed.
Print Assumptions C05_latest.

(** C05: [latest()] of any patch keeps, in each run of elements of the same name, the first one
    with the greatest version. *)
Theorem C05_latest_greatest p q : patch_latest p = Ok q ->
  exists gs, name_groups (p_elems p) gs /\
    Forall2 (first_greatest (fun a b => exists x y, v_t (e_ver a) = VNum x /\ v_t (e_ver b) = VNum y /\ comps_before y x)) gs (p_elems q).
Proof. exact (patch_latest_spec p q). Qed.
Print Assumptions C05_latest_greatest.
Example C05_latest_greatest_ex :
  rmap (fun p => map e_id (p_elems p))
    (patch_latest {| p_ver := mkv "9.1"; p_elems := [mke "game" "9.1" 1; mke "game" "9.10" 2; mke "game" "9.2" 3; mke "game" "9.10" 4] |})
  = Ok [2].
Proof. reflexivity. Qed.

(** C05: a listing sorted from the latest gives strictly decreasing patch versions. *)
Theorem C05_sorted l ps :
  Forall (fun e => canonical (e_ver e)) l ->
  StronglySorted (fun a b => not_newer (e_ver a) (e_ver b)) l ->
  patches l = Ok ps ->
  StronglySorted (fun p q => comps_before (comps_of (p_ver q)) (comps_of (p_ver p))) ps.
Proof. exact (patches_sorted l ps). Qed.
Print Assumptions C05_sorted.
Example C05_sorted_ex :
  Forall (fun e => canonical (e_ver e)) sample /\
  StronglySorted (fun a b => not_newer (e_ver a) (e_ver b)) sample.
Proof.
  split.
  - repeat (constructor; [eexists; split; [reflexivity|]; apply dotted_spell_dotted; split; [discriminate | reflexivity]|]). constructor.
  - solve_sorted.
Qed.

(** C06: the merge is complete, keeps the order of each solution, is sorted when both are, and on
    equal versions lists the client elements first. *)
Theorem C06_merge client game :
  homogeneous (client ++ game) ->
  exists r, rads_patch_elements client game = Ok r /\ interleave client game r /\
    (sorted_newest client -> sorted_newest game ->
     sorted_newest r /\
     forall v, filter (fun e => eqb (comps_of (e_ver e)) v) r =
               filter (fun e => eqb (comps_of (e_ver e)) v) client ++ filter (fun e => eqb (comps_of (e_ver e)) v) game).
Proof. exact (fun H => merge_two _ client game H (Nat.le_refl _)). Qed.
Print Assumptions C06_merge.
Example C06_merge_ex :
  let client := [mke "client" "9.2" 1; mke "client" "9.1" 2] in
  let game := [mke "game" "9.3" 3; mke "game" "9.2" 4; mke "game" "8.24" 5] in
  homogeneous (client ++ game) /\ sorted_newest client /\ sorted_newest game /\
  rmap (map e_id) (rads_patch_elements client game) = Ok [3; 1; 4; 2; 5].
Proof.
  split; [|split; [|split]].
  - left. intros e He. cbn in He. repeat destruct He as [<-|He]; try contradiction; eexists; reflexivity.
  - solve_sorted.
  - solve_sorted.
  - reflexivity.
Qed.

(** C06: [versions()] lists all versions of the solution, newest first, stably. *)
Theorem C06_versions l :
  Forall is_rads l ->
  Permutation l (rads_versions l) /\ StronglySorted not_newer (rads_versions l) /\
  (forall t, filter (fun v => eqb (comps_of v) t) (rads_versions l) = filter (fun v => eqb (comps_of v) t) l).
Proof. exact (rads_versions_spec l). Qed.
Print Assumptions C06_versions.
Example C06_versions_ex :
  exists a b, rads_version (ArgStr (lit "0.0.0.9")) = Ok a /\ rads_version (ArgStr (lit "0.0.0.10")) = Ok b /\
              Forall is_rads [a; b] /\ rads_versions [a; b] = [b; a].
Proof. do 2 eexists. split; [reflexivity|]. split; [reflexivity|]. split; [repeat constructor; eexists; reflexivity | reflexivity]. Qed.

(** C06: the elements of a solution are its versions having a patch, in order; nothing else is dropped. *)
Theorem C06_solution_elements name pv svs id :
  subseq (map (fun e => e_ver e) (gen_solution_elements name pv svs id))
         (flat_map (fun v => match pv v with Some p => [p] | None => [] end) svs) /\
  map (fun e => e_ver e) (gen_solution_elements name pv svs id) =
  flat_map (fun v => match pv v with Some p => [p] | None => [] end) svs /\
  Forall (fun e => e_name e = name) (gen_solution_elements name pv svs id).
Proof. exact (gen_elements_spec name pv svs id). Qed.
Print Assumptions C06_solution_elements.

(** C06: under the documented assumption that patch versions never decrease, the listing of a
    solution is sorted from the latest. *)
Theorem C06_solution_sorted name pv svs id :
  (forall a b p q, pv a = Some p -> pv b = Some q -> not_newer a b -> not_newer p q) ->
  StronglySorted not_newer svs -> sorted_newest (gen_solution_elements name pv svs id).
Proof. exact (gen_elements_sorted name pv svs id). Qed.
Print Assumptions C06_solution_sorted.
