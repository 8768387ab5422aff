(** * Specification of patcher manifests

    The body of a manifest is a random access format.  The relations below say what is found at a
    position of the body; they hold whatever the order of tables and entries, and objects may share
    or overlap their bytes. *)

From Coq Require Import Sorted.
From Verif Require Import Base.Py Base.Text Base.Bin Spec.Utf8Spec Spec.DictSpec Model.Rman.

(** The different elements of a list, by first occurrence. *)
Fixpoint nub {A} `{EqDec A} (l : list A) : list A :=
  match l with [] => [] | x :: t => x :: filter (fun y => negb (eqb x y)) (nub t) end.
(** [d] is the dictionary built from successive pairs. *)
Definition dict_is {A B} `{EqDec A} (d pairs : list (A * B)) : Prop :=
  map fst d = nub (map fst pairs) /\ forall k v, In (k, v) d -> last_value k pairs (Some v).

Section Body.
Variable b : bytes.

(** ** Values at a position *)

Definition bytes_at (p : N) (bs : bytes) : Prop := exists pre post, b = pre ++ bs ++ post /\ lenN pre = p.
Definition int_at (w : nat) (p v : N) : Prop := v < 256 ^ N.of_nat w /\ bytes_at p (leenc w v).
Definition sint_at (p : N) (z : Z) : Prop := (- 2 ^ 31 <= z < 2 ^ 31)%Z /\ bytes_at p (leenc 4 (of_signed 4 z)).
(** A relative offset: at [p] is the distance from [p] to [q]. *)
Definition ref_at (p q : N) : Prop := sint_at p (Z.of_N q - Z.of_N p).
(** A text prefixed by its length; the end of the body may cut it. *)
Definition text_at (p : N) (s : str) : Prop :=
  exists n, int_at 4 p n /\ Forall scalar s /\ bytes_at (p + 4) (utf8_enc s) /\
    (lenN (utf8_enc s) = n \/ (lenN (utf8_enc s) < n /\ p + 4 + lenN (utf8_enc s) = lenN b)).

(** ** Objects with optional fields *)

(** The field [i] of the object at [p] is at [q]; [None] when it is absent. *)
Definition slot (p : N) (i : nat) (q : option N) : Prop :=
  exists vt size offs, sint_at p (Z.of_N p - Z.of_N vt) /\
    int_at 2 vt size /\ 4 <= size /\ lenN offs = (size - 4) / 2 /\
    (forall k o, nth_error offs k = Some o -> int_at 2 (vt + 4 + 2 * N.of_nat k) o) /\
    q = match nth_error offs i with Some o => if o =? 0 then None else Some (p + o) | None => None end.
Definition field {A} (R : N -> A -> Prop) (p : N) (i : nat) (v : option A) : Prop :=
  match v with None => slot p i None | Some x => exists q, slot p i (Some q) /\ R q x end.
Definition str_at (p : N) (s : str) : Prop := exists q, ref_at p q /\ text_at q s.

(** A table: a number of entries, then a reference to each of them. *)
Definition table_at {A} (R : N -> A -> Prop) (p : N) (l : list A) : Prop :=
  exists n, sint_at p n /\ length l = Z.to_nat n /\
    forall k x, nth_error l k = Some x -> exists q, ref_at (p + 4 + 4 * N.of_nat k) q /\ R q x.

(** ** Entries *)

Definition chunk_at (p : N) (c : option N * option N * option N) : Prop :=
  let '(id, size, target) := c in
  field (int_at 8) p 0 id /\ field (int_at 4) p 1 size /\ field (int_at 4) p 2 target.
(** The chunks of a bundle tile it: each one starts at the total size of the previous ones. *)
Definition tiles (id : option N) (l : list (option N * option N * option N)) (cs : list chunk) : Prop :=
  length cs = length l /\
  forall k cid size target, nth_error l k = Some (cid, size, target) ->
    exists sizes, map Some sizes = map (fun c => snd (fst c)) (firstn k l) /\
      nth_error cs k = Some {| c_id := cid; c_bundle := id; c_offset := fold_right N.add 0 sizes; c_size := size; c_target := target |}.
Definition bundle_at (p : N) (bu : bundle) : Prop :=
  field (int_at 8) p 0 (b_id bu) /\
  exists s q l, slot p 1 (Some s) /\ ref_at s q /\ table_at chunk_at q l /\ tiles (b_id bu) l (b_chunks bu).
(** The reference to the text of a flag goes to the beginning of the body when it goes before it. *)
Definition flag_at (p : N) (f : N * str) : Prop :=
  exists pad z, lenN pad = 3 /\ bytes_at (p + 4) pad /\ int_at 1 (p + 7) (fst f) /\ sint_at (p + 8) z /\
    text_at (Z.to_N (Z.of_N (p + 8) + z)) (snd f).
(** Flags of a file, from its mask: bit [i] is for flag [i + 1]. *)
Definition mask_flags (mask : option N) (ids : option (list N)) : Prop :=
  match ids with
  | None => mask = None \/ mask = Some 0
  | Some l => exists m, mask = Some m /\ m <> 0 /\ StronglySorted N.lt l /\
      forall i, In i l <-> 1 <= i <= 64 /\ N.testbit m (i - 1) = true
  end.
Definition file_at (p : N) (e : file_entry) : Prop :=
  (exists id, field (int_at 8) p 0 id) /\
  field (int_at 8) p 1 (e_dir e) /\
  field (int_at 4) p 2 (e_size e) /\
  field str_at p 3 (e_name e) /\
  (exists mask, field (int_at 8) p 4 mask /\ mask_flags mask (e_flags e)) /\
  (exists s q, slot p 7 (Some s) /\ ref_at s q /\ int_at 4 q (lenN (e_chunks e)) /\
    forall k id, nth_error (e_chunks e) k = Some id -> int_at 8 (q + 4 + 8 * N.of_nat k) id) /\
  field str_at p 9 (e_link e).
Definition dir_at (p : N) (d : option str * option N * option N) : Prop :=
  let '(name, id, parent) := d in
  field (int_at 8) p 0 id /\ field (int_at 8) p 1 parent /\ field str_at p 2 name.

(** ** Body: a header to skip, references to six tables; the last two are not used. *)

Definition body_at (t : tables) : Prop :=
  exists n base p0 p1 p2 p3 z4 z5, sint_at 0 n /\ base = Z.to_N (4 + n) /\
    ref_at base p0 /\ ref_at (base + 4) p1 /\ ref_at (base + 8) p2 /\ ref_at (base + 12) p3 /\
    sint_at (base + 16) z4 /\ sint_at (base + 20) z5 /\
    table_at bundle_at p0 (t_bundles t) /\ table_at flag_at p1 (t_flags t) /\
    table_at file_at p2 (t_files t) /\ table_at dir_at p3 (t_dirs t).
End Body.

(** ** Directories *)

Definition dir_table := list (option N * (option str * option N)).
Definition dir_pairs (l : list (option str * option N * option N)) : dir_table :=
  map (fun d => (snd (fst d), (fst (fst d), snd d))) l.
(** Names of the directories from the root to [dir]. *)
Inductive dir_path (dirs : dir_table) : option N -> list (option str) -> Prop :=
| DP_root : dir_path dirs None []
| DP_step id name parent l : last_value (Some id) dirs (Some (name, parent)) -> dir_path dirs parent l ->
    dir_path dirs (Some id) (l ++ [name]).
(** [reaches d1 d2]: [d2] is [d1] or one of its parents. *)
Inductive reaches (dirs : dir_table) : option N -> option N -> Prop :=
| RE_refl d : reaches dirs d d
| RE_step id name parent d : last_value (Some id) dirs (Some (name, parent)) -> reaches dirs parent d -> reaches dirs (Some id) d.
(** Some parent directory is missing. *)
Definition dangling (dirs : dir_table) (d : option N) : Prop :=
  exists id, reaches dirs d (Some id) /\ last_value (Some id) dirs None.
(** Some parent directory is its own parent. *)
Definition cyclic (dirs : dir_table) (d : option N) : Prop :=
  exists id name parent, reaches dirs d (Some id) /\ last_value (Some id) dirs (Some (name, parent)) /\ reaches dirs parent (Some id).
(** A missing name is written [None] when it is in a path. *)
Definition path_text (l : list (option str)) : str :=
  join (lit "/") (map (fun o => match o with Some s => s | None => lit "None" end) l).
Definition path_name (dirs : list (option str)) (name : option str) : option str :=
  match dirs with [] => name | _ => Some (path_text (dirs ++ [name])) end.

(** ** Manifests *)

Definition chunk_pairs (l : list bundle) : list (option N * chunk) :=
  map (fun c => (c_id c, c)) (flat_map b_chunks l).
Definition resolves (t : tables) (e : file_entry) (f : mfile) : Prop :=
  (exists names, dir_path (dir_pairs (t_dirs t)) (e_dir e) names /\ f_name f = path_name names (e_name e)) /\
  f_size f = e_size e /\ f_link f = e_link e /\
  match e_flags e with
  | None => f_flags f = None
  | Some ids => exists l, f_flags f = Some l /\ Forall2 (fun i s => last_value i (t_flags t) (Some s)) ids l
  end /\
  Forall2 (fun i c => last_value (Some i) (chunk_pairs (t_bundles t)) (Some c)) (e_chunks e) (f_chunks f).
Definition describes (t : tables) (m : manifest) : Prop :=
  m_bundles m = t_bundles t /\
  dict_is (m_flags m) (t_flags t) /\
  dict_is (m_chunks m) (chunk_pairs (t_bundles t)) /\
  exists fs, Forall2 (resolves t) (t_files t) fs /\ dict_is (m_files m) (map (fun f => (f_name f, f)) fs).

(** The file: a header of 28 bytes, then the compressed body; what follows is ignored. *)
Definition rman_file (zstd : bytes -> result bytes) (file body : bytes) : Prop :=
  exists minor flags len id blen raw,
    bytes_at file 0 (bl "RMAN") /\ int_at file 1 4 2 /\ int_at file 1 5 minor /\ minor <= 1 /\
    int_at file 2 6 flags /\ N.testbit flags 9 = true /\ int_at file 4 8 28 /\ int_at file 4 12 len /\ int_at file 8 16 id /\ int_at file 4 24 blen /\
    bytes_at file 28 raw /\ (lenN raw = len \/ (lenN raw < len /\ 28 + lenN raw = lenN file)) /\ zstd raw = Ok body.

(** ** Chunks of a bundle, from their own fields: each one starts at the total size of the previous ones. *)
Definition contiguous (cs : list chunk) : Prop :=
  forall k c, nth_error cs k = Some c ->
    exists sizes, map Some sizes = map c_size (firstn k cs) /\ c_offset c = fold_right N.add 0 sizes.

(** ** Languages *)


(** A flag naming a locale: five characters, one of them an underscore. *)
Definition is_locale (f : str) : Prop := lenN f = 5 /\ In 95 f.
(** The elements of a list having a property, in order. *)
Inductive kept {A} (Q : A -> Prop) : list A -> list A -> Prop :=
| KE_nil : kept Q [] []
| KE_keep x l l' : Q x -> kept Q l l' -> kept Q (x :: l) (x :: l')
| KE_drop x l l' : ~ Q x -> kept Q l l' -> kept Q (x :: l) l'.
