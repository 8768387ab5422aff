(** * Specification of the SKN layout *)

From Verif Require Import Base.Py Base.Text Base.Bin Spec.Utf8Spec.

(** A vertex: numbers of 32 bits and bytes; colour and tangent depend on the vertex type. *)
Record svertex := {
  s_position : list N; s_bones : list N; s_weight : list N; s_normal : list N; s_uv : list N;
  s_color : list N; s_tangent : list N
}.
Definition words (l : list N) : bytes := flat_map (leenc 4) l.
Definition octets (l : list N) : bytes := flat_map (leenc 1) l.
Definition svertex_bytes (v : svertex) : bytes :=
  words (s_position v) ++ octets (s_bones v) ++ words (s_weight v) ++ words (s_normal v) ++ words (s_uv v) ++
  octets (s_color v) ++ words (s_tangent v).
Definition sized (n : nat) (bound : N) (l : list N) : Prop := length l = n /\ Forall (fun x => x < bound) l.
(** Type 0: neither; type 1: colour; type 2: colour and tangent; others: colour. *)
Definition svertex_ok (vt : N) (v : svertex) : Prop :=
  sized 3 (2 ^ 32) (s_position v) /\ sized 4 256 (s_bones v) /\ sized 4 (2 ^ 32) (s_weight v) /\
  sized 3 (2 ^ 32) (s_normal v) /\ sized 2 (2 ^ 32) (s_uv v) /\
  sized (if vt =? 0 then 0 else 4) 256 (s_color v) /\
  sized (if vt =? 2 then 4 else 0) (2 ^ 32) (s_tangent v).

(** A submesh: its name (followed by a zero byte and anything, up to 64 bytes) and its ranges. *)
Record submesh := { m_name : str; m_pad : bytes; m_vstart : N; m_vcount : N; m_istart : N; m_icount : N }.
Definition submesh_bytes (m : submesh) : bytes :=
  utf8_enc (m_name m) ++ m_pad m ++ words [m_vstart m; m_vcount m; m_istart m; m_icount m].
Definition submesh_ok (m : submesh) : Prop :=
  Forall scalar (m_name m) /\ ~ In x00 (utf8_enc (m_name m)) /\ lenN (utf8_enc (m_name m) ++ m_pad m) = 64 /\
  (m_pad m = [] \/ exists r, m_pad m = x00 :: r) /\
  m_vstart m < 2 ^ 32 /\ m_vcount m < 2 ^ 32 /\ m_istart m < 2 ^ 32 /\ m_icount m < 2 ^ 32.

(** A file. [x_extra]: the word after the submeshes; [x_box]: vertex size, then (after the type) ten numbers; both only in version 4. *)
Record mesh := {
  x_major : N; x_minor : N; x_subs : list submesh; x_extra : N; x_vsize : N; x_vtype : N; x_box : list N;
  x_indices : list N; x_vertices : list svertex
}.
Definition magic_bytes : bytes := octets [0x33; 0x22; 0x11; 0].
Definition mesh_bytes (x : mesh) : bytes :=
  magic_bytes ++ leenc 2 (x_major x) ++ leenc 2 (x_minor x) ++
  (if x_major x =? 0 then [] else words [lenN (x_subs x)] ++ flat_map submesh_bytes (x_subs x)) ++
  (if x_major x =? 4 then words [x_extra x] else []) ++
  words [lenN (x_indices x); lenN (x_vertices x)] ++
  (if x_major x =? 4 then words (x_vsize x :: x_vtype x :: x_box x) else []) ++
  flat_map (leenc 2) (x_indices x) ++ flat_map svertex_bytes (x_vertices x).
Definition mesh_ok (x : mesh) : Prop :=
  x_major x < 2 ^ 16 /\ x_minor x < 2 ^ 16 /\ lenN (x_indices x) < 2 ^ 32 /\ lenN (x_vertices x) < 2 ^ 32 /\
  Forall (fun i => i < 2 ^ 16) (x_indices x) /\
  Forall (svertex_ok (if x_major x =? 4 then x_vtype x else 0)) (x_vertices x) /\
  (x_major x <> 0 -> lenN (x_subs x) < 2 ^ 32 /\ Forall submesh_ok (x_subs x)) /\
  (x_major x = 4 -> x_extra x < 2 ^ 32 /\ x_vsize x < 2 ^ 32 /\ x_vtype x < 2 ^ 32 /\ sized 10 (2 ^ 32) (x_box x)).

(** Elements [a], [a+1]... [a+n-1] of a list (as far as they exist). *)
Definition range {A} (a n : N) (l : list A) : list A := firstn (N.to_nat n) (skipn (N.to_nat a) l).

(** The index exported for index [i] of the file, for a submesh starting at vertex [s]: counted from 1, relative
    to the submesh when it is not before it. *)
Definition obj_index (s i : N) : N := if i + 1 <? s then i + 1 else i + 1 - s.
