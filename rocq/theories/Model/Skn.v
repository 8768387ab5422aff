(** * cdtb/sknfile.py: skinned meshes

    A float is modelled by its 32-bit pattern; [show] (parameter of [to_obj]) is Python's rendering of it
    by [%s].  Not modelled: opening the file by name (sknfile.py:6-7). *)

From Verif Require Export Base.Text Base.Bin Base.Utf8.

Record vertex := {
  v_position : N * N * N; v_bones : N * N * N * N; v_weight : N * N * N * N; v_normal : N * N * N; v_uv : N * N;
  v_color : option (N * N * N * N); v_tangent : option (N * N * N * N)
}.
(** What [read_object] returns (sknfile.py:54-61). *)
Record sknobj := { o_name : str; o_start_vertex : N; o_vertex_count : N; o_start_index : N; o_index_count : N }.
(** An element of [self.entries] once parsed. *)
Record sknentry := { e_name : str; e_vertices : list vertex; e_indices : list N }.
Record skn := { k_major : N; k_minor : N; k_entries : list sknentry; k_vertex_type : option N }.

Definition two {A} (m : P A) : P (A * A) := let* a := m in let* b := m in pret (a, b).
Definition three {A} (m : P A) : P (A * A * A) := let* ab := two m in let* c := m in pret (ab, c).
Definition four {A} (m : P A) : P (A * A * A * A) := let* abc := three m in let* d := m in pret (abc, d).

(** sknfile.py:54-61 *)
Definition read_object : P sknobj :=
  let* raw := punpack 64 in
  let* name := plift (utf8_dec (match cut_first x00 raw with Some (a, _) => a | None => raw end)) in
  let* sv := u32 in let* vc := u32 in let* si := u32 in let* ic := u32 in
  pret {| o_name := name; o_start_vertex := sv; o_vertex_count := vc; o_start_index := si; o_index_count := ic |}.

(** sknfile.py:63-72; [vt] is [self.vertex_type], if set. *)
Definition read_vertex (vt : option N) : P vertex :=
  let* position := three u32 in
  let* bones := four u8 in
  let* weight := four u32 in
  let* normal := three u32 in
  let* uv := two u32 in
  let* color := (if match vt with Some t => 1 <=? t | None => false end then let* c := four u8 in pret (Some c) else pret None) in
  let* tangent := (if match vt with Some t => t =? 2 | None => false end then let* t := four u32 in pret (Some t) else pret None) in
  pret {| v_position := position; v_bones := bones; v_weight := weight; v_normal := normal; v_uv := uv;
          v_color := color; v_tangent := tangent |}.

(** sknfile.py:41-52 *)
Definition fill_entry (vertices : list vertex) (indices : list N) (o : sknobj) : sknentry :=
  {| e_name := o_name o;
     e_vertices := sliceN vertices (o_start_vertex o) (o_start_vertex o + o_vertex_count o);
     e_indices := map (fun x => x - (if x <? o_start_vertex o then 0 else o_start_vertex o))
                    (sliceN indices (o_start_index o) (o_start_index o + o_index_count o)) |}.

(** sknfile.py:5-52 *)
Definition parse_skn : P skn :=
  let* magic := pread 4 in
  if negb (eqb magic (map n2b [0x33; 0x22; 0x11; 0])) then praise ValueError else
  let* major := u16 in
  let* minor := u16 in
  if major =? 0 then
    let* index_count := u32 in
    let* vertex_count := u32 in
    let* indices := plist index_count (let* i := u16 in pret (i + 1)) in
    let* vertices := plist vertex_count (read_vertex None) in
    pret {| k_major := major; k_minor := minor; k_vertex_type := None;
            k_entries := [{| e_name := lit "Unknown"; e_vertices := vertices; e_indices := indices |}] |}
  else
    let* count := u32 in
    let* objs := plist count read_object in
    let* _ := (if major =? 4 then u32 else pret 0) in
    let* index_count := u32 in
    let* vertex_count := u32 in
    let* vt :=
      (if major =? 4 then
         let* size := u32 in
         let* t := u32 in
         let* bmin := three u32 in
         let* bmax := three u32 in
         let* sphere := three u32 in
         let* radius := u32 in
         pret (Some t)
       else pret None) in
    let* indices := plist index_count (let* i := u16 in pret (i + 1)) in
    let* vertices := plist vertex_count (read_vertex vt) in
    pret {| k_major := major; k_minor := minor; k_vertex_type := vt;
            k_entries := map (fill_entry vertices indices) objs |}.

(** sknfile.py:74-85 *)
Section Obj.
Variable show : N -> str.
Definition obj_vertex (v : vertex) : str :=
  let '(px, py, pz) := v_position v in
  let '(tu, tv) := v_uv v in
  let '(nx, ny, nz) := v_normal v in
  lit "v " ++ show px ++ lit " " ++ show py ++ lit " " ++ show pz ++ [cNL] ++
  lit "vt " ++ show tu ++ lit " " ++ show tv ++ [cNL] ++
  lit "vn " ++ show nx ++ lit " " ++ show ny ++ lit " " ++ show nz ++ [cNL].
Definition obj_face (a b c : N) : str :=
  lit "f " ++ dec a ++ lit "/" ++ dec a ++ lit "/" ++ dec a ++ lit " " ++
  dec b ++ lit "/" ++ dec b ++ lit "/" ++ dec b ++ lit "/ " ++
  dec c ++ lit "/" ++ dec c ++ lit "/" ++ dec c ++ [cNL].
Fixpoint obj_faces (l : list N) (content : str) : result str :=
  match l with
  | [] => Ok content
  | a :: b :: c :: t => obj_faces t (content ++ obj_face a b c)
  | _ => Err ValueError
  end.
Definition to_obj (e : sknentry) : result str :=
  obj_faces (e_indices e) (fold_left (fun s v => s ++ obj_vertex v) (e_vertices e) []).
End Obj.
