(** * C33: SKN meshes *)

From Verif Require Import Base.TextFacts Base.BinFacts Model.Skn Spec.SknSpec Proofs.SknProofs.

(** C33: a file parses to an object iff it lays out a mesh that the object describes (see [same_skn]:
    version, vertices with the numbers of the file, submeshes with their ranges of vertices and indices);
    data after the vertices is ignored. *)
Theorem C33_decode b r :
  prun parse_skn b = Ok r <-> exists x rest, mesh_ok x /\ b = mesh_bytes x ++ rest /\ same_skn r x.
Proof. exact (skn_iff b r). Qed.
Print Assumptions C33_decode.
(** Nothing is left unspecified by [same_skn]. *)
Theorem C33_decode_unique r1 r2 x : same_skn r1 x -> same_skn r2 x -> r1 = r2.
Proof. exact (same_skn_fun r1 r2 x). Qed.
Print Assumptions C33_decode_unique.
Local Definition sv (k : N) : svertex :=
  {| s_position := [k; 1; 2]; s_bones := [1; 2; 3; 4]; s_weight := [1; 2; 3; 4]; s_normal := [5; 6; 7]; s_uv := [8; 9];
     s_color := [255; 0; 0; 1]; s_tangent := [] |}.
Local Definition sub (name : String.string) (vs vc is_ ic : N) : submesh :=
  {| m_name := lit name; m_pad := repeat x00 (64 - length (lit name)); m_vstart := vs; m_vcount := vc; m_istart := is_; m_icount := ic |}.
Arguments sub name%string_scope vs vc is_ ic.
Local Definition sample : mesh :=
  {| x_major := 4; x_minor := 1; x_subs := [sub "body" 0 3 0 3; sub "head" 3 3 3 6]; x_extra := 0; x_vsize := 56; x_vtype := 1;
     x_box := repeat 0 10; x_indices := [0; 1; 2; 3; 4; 5; 3; 5; 4]; x_vertices := map sv [10; 11; 12; 13; 14; 15] |}.
Example C33_decode_ex :
  mesh_ok sample /\
  rmap (fun r => map (fun e => (e_name e, map v_position (e_vertices e), e_indices e)) (k_entries r)) (prun parse_skn (mesh_bytes sample)) =
  Ok [(lit "body", [(10, 1, 2); (11, 1, 2); (12, 1, 2)], [1; 2; 3]);
      (lit "head", [(13, 1, 2); (14, 1, 2); (15, 1, 2)], [1; 2; 3; 1; 3; 2])].
Proof.
  split; [|vm_compute; reflexivity].
  assert (Hsub : forall n vs vc is_ ic, n = lit "body" \/ n = lit "head" -> vs < 10 -> vc < 10 -> is_ < 10 -> ic < 10 ->
    submesh_ok {| m_name := n; m_pad := repeat x00 (64 - length n); m_vstart := vs; m_vcount := vc; m_istart := is_; m_icount := ic |}).
  { intros n vs vc is_ ic [->| ->]; (split; [repeat constructor; vm_compute; reflexivity|]; split; [vm_compute; intuition discriminate|];
    split; [reflexivity|]; split; [right; eexists; reflexivity | cbn; lia]). }
  split; [reflexivity|]. split; [reflexivity|]. split; [reflexivity|]. split; [reflexivity|].
  split; [repeat (apply Forall_cons; [reflexivity|]); apply Forall_nil|].
  split.
  { cbn [sample x_vertices map]. repeat (apply Forall_cons; [unfold svertex_ok, sized, sv; cbn; repeat split; repeat constructor|]). apply Forall_nil. }
  split; [intros _; split; [reflexivity|] | intros _; unfold sized; cbn; repeat split; repeat constructor].
  apply Forall_cons; [apply Hsub; auto; lia|]. apply Forall_cons; [apply Hsub; auto; lia|]. apply Forall_nil.
Qed.

(** C33: other files and truncated files are rejected. *)
Theorem C33_rejects_magic b : takeN 4 b <> magic_bytes -> prun parse_skn b = Err ValueError.
Proof. exact (skn_magic b). Qed.
Print Assumptions C33_rejects_magic.
Theorem C33_rejects_truncated x cut rem r :
  mesh_ok x -> cut ++ rem = mesh_bytes x -> rem <> [] -> prun parse_skn cut <> Ok r.
Proof. exact (skn_truncated x cut rem r). Qed.
Print Assumptions C33_rejects_truncated.

(** C33: when a submesh refers to its own vertices, its exported indices are between 1 and its number of
    vertices, and each refers to the vertex that the index of the file refers to. *)
Theorem C33_in_range x r rest m e k :
  mesh_ok x -> prun parse_skn (mesh_bytes x ++ rest) = Ok r -> x_major x <> 0 ->
  nth_error (x_subs x) k = Some m -> nth_error (k_entries r) k = Some e ->
  m_vstart m + m_vcount m <= lenN (x_vertices x) ->
  (forall i, In i (range (m_istart m) (m_icount m) (x_indices x)) -> m_vstart m <= i < m_vstart m + m_vcount m) ->
  lenN (e_vertices e) = m_vcount m /\
  length (e_indices e) = length (range (m_istart m) (m_icount m) (x_indices x)) /\
  forall j i, nth_error (range (m_istart m) (m_icount m) (x_indices x)) j = Some i ->
    exists i' v s, nth_error (e_indices e) j = Some i' /\ 1 <= i' <= m_vcount m /\
      nth_error (e_vertices e) (N.to_nat i' - 1) = Some v /\ nth_error (x_vertices x) (N.to_nat i) = Some s /\ same_vertex v s.
Proof. exact (skn_in_range x r rest m e k). Qed.
Print Assumptions C33_in_range.
Example C33_in_range_ex :
  nth_error (x_subs sample) 1 = Some (sub "head" 3 3 3 6) /\ range 3 6 (x_indices sample) = [3; 4; 5; 3; 5; 4].
Proof. split; reflexivity. Qed.

(** C33: an index just before the submesh becomes 0, which no OBJ file may contain. *)
Theorem C33_zero_index_refuted :
  exists x r e, mesh_ok x /\ prun parse_skn (mesh_bytes x) = Ok r /\ In e (k_entries r) /\ In 0 (e_indices e).
Proof.
  set (x := {| x_major := 2; x_minor := 1; x_extra := 0; x_vsize := 0; x_vtype := 0; x_box := [];
     x_subs := [sub "head" 3 3 0 3]; x_indices := [2; 3; 4];
     x_vertices := repeat {| s_position := [0; 0; 0]; s_bones := [0; 0; 0; 0]; s_weight := [0; 0; 0; 0]; s_normal := [0; 0; 0];
                             s_uv := [0; 0]; s_color := []; s_tangent := [] |} 6 |}).
  assert (Hx : mesh_ok x).
  { split; [reflexivity|]. split; [reflexivity|]. split; [reflexivity|]. split; [reflexivity|].
    split; [repeat (apply Forall_cons; [reflexivity|]); apply Forall_nil|].
    split; [cbn [x x_vertices repeat]; repeat (apply Forall_cons; [unfold svertex_ok, sized; cbn; repeat split; repeat constructor|]); apply Forall_nil|].
    split; [intros _; split; [reflexivity|] | discriminate]. apply Forall_cons; [|apply Forall_nil].
    split; [repeat constructor; vm_compute; reflexivity|]. split; [vm_compute; intuition discriminate|].
    split; [reflexivity|]. split; [right; eexists; reflexivity | cbn; lia]. }
  destruct (prun parse_skn (mesh_bytes x)) as [r|err] eqn:E; [|vm_compute in E; discriminate].
  vm_compute in E. injection E as <-. eexists x, _, _. split; [exact Hx|]. split; [vm_compute; reflexivity|].
  split; [left; reflexivity|]. left. reflexivity.
Qed.
Print Assumptions C33_zero_index_refuted.

(** C33: the OBJ text of an entry has three lines per vertex, then one line per triangle; indices that do not
    form triangles raise ValueError. *)
Theorem C33_obj show e fs : e_indices e = flat_map (fun f : N * N * N => [fst (fst f); snd (fst f); snd f]) fs ->
  to_obj show e = Ok (flat_map (obj_vertex show) (e_vertices e) ++ flat_map (fun f => obj_face (fst (fst f)) (snd (fst f)) (snd f)) fs).
Proof.
  intros E. unfold to_obj. rewrite fold_app. cbn [app].
  assert (E3 : flat_map (fun f : N * N * N => [fst (fst f); snd (fst f); snd f]) fs = flat_map l3 fs).
  { clear. induction fs as [|[[a b] c] fs IH]; [reflexivity|]. cbn [flat_map l3 fst snd]. rewrite IH. reflexivity. }
  rewrite E, E3, faces_ok. do 2 f_equal. clear. induction fs as [|[[a b] c] fs IH]; [reflexivity|]. cbn [flat_map fst snd]. rewrite IH. reflexivity.
Qed.
Print Assumptions C33_obj.
(** C33: word by word, with the coordinates of each vertex in order. *)
Definition obj_lines (ls : list (list str)) : str := concat (map (fun ws => join (lit " ") ws ++ [10]) ls).
Definition vertex_words (show : N -> str) (v : vertex) : list (list str) :=
  match v_position v, v_uv v, v_normal v with
  | (x, y, z), (s, t), (i, j, k) => [lit "v" :: map show [x; y; z]; lit "vt" :: map show [s; t]; lit "vn" :: map show [i; j; k]]
  end.
Definition face_words (a b c : N) : list str :=
  [lit "f"; join (lit "/") [dec a; dec a; dec a]; join (lit "/") [dec b; dec b; dec b; []]; join (lit "/") [dec c; dec c; dec c]].
Theorem C33_obj_words show e fs : e_indices e = flat_map (fun f : N * N * N => [fst (fst f); snd (fst f); snd f]) fs ->
  to_obj show e = Ok (obj_lines (flat_map (vertex_words show) (e_vertices e) ++ map (fun f => face_words (fst (fst f)) (snd (fst f)) (snd f)) fs)).
Proof.
  intros E. rewrite (C33_obj show e fs E). unfold obj_lines. rewrite map_app, concat_app. f_equal. f_equal; clear E.
  - induction (e_vertices e) as [|v l IH]; [reflexivity|]. cbn [flat_map]. rewrite map_app, concat_app, <- IH. f_equal.
    unfold obj_vertex, vertex_words. destruct (v_position v) as [[x y] z], (v_uv v) as [s t], (v_normal v) as [[i j] k].
    cbn [map concat join]. rewrite app_nil_r, <- !app_assoc. reflexivity.
  - induction fs as [|f l IH]; [reflexivity|]. cbn [flat_map map concat]. rewrite <- IH. f_equal.
    unfold obj_face, face_words. cbn [join]. rewrite <- !app_assoc. reflexivity.
Qed.
Print Assumptions C33_obj_words.
Example C33_obj_words_ex : obj_lines [lit "v" :: map dec [1; 2; 3]; face_words 4 5 6] = lit "v 1 2 3" ++ [10] ++ lit "f 4/4/4 5/5/5/ 6/6/6" ++ [10].
Proof. vm_compute. reflexivity. Qed.
Theorem C33_obj_triangles show e : lenN (e_indices e) mod 3 <> 0 <-> to_obj show e = Err ValueError.
Proof.
  unfold to_obj. destruct (faces_split (e_indices e)) as [(fs & E)|[H1 H2]].
  - rewrite E, faces_len, faces_ok. split; [congruence | discriminate].
  - rewrite H1. tauto.
Qed.
Print Assumptions C33_obj_triangles.
(** C33: the lines of triangles are not well formed: the second vertex has a trailing slash. *)
Theorem C33_obj_face_refuted :
  exists show e, to_obj show e <> Ok (lit "f 1/1/1 2/2/2 3/3/3" ++ [cNL]) /\ e_vertices e = [] /\ e_indices e = [1; 2; 3].
Proof.
  exists (fun _ => []), {| e_name := []; e_vertices := []; e_indices := [1; 2; 3] |}.
  split; [vm_compute; discriminate | split; reflexivity].
Qed.
Print Assumptions C33_obj_face_refuted.
