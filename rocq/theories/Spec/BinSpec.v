(** * Specification of BIN files *)

From Verif Require Import Base.Py Base.Text Base.Bin Spec.Utf8Spec Model.BinFile.

(** ** Type numbering *)

(** The published numbering: until 9.22, from 9.23 to 10.7, from 10.8. *)
Inductive era := Era1 | Era2 | Era3.
Definition era_of (version : Z) : era :=
  if (version <? 923)%Z then Era1 else if (version <? 1008)%Z then Era2 else Era3.
Definition primitive_types : list (N * btype) := [
  (0, TEmpty); (1, TBool); (2, TS8); (3, TU8); (4, TS16); (5, TU16); (6, TS32); (7, TU32); (8, TS64); (9, TU64);
  (10, TFloat); (11, TVec2); (12, TVec3); (13, TVec4); (14, TMatrix); (15, TRgba); (16, TString); (17, THash) ].
Definition type_codes (e : era) : list (N * btype) :=
  primitive_types ++
  match e with
  | Era1 => [(18, TList); (19, TStruct); (20, TEmbedded); (21, TLink); (22, TOption); (23, TMap); (24, TFlag)]
  | Era2 => [(18, TPath); (128, TList); (129, TStruct); (130, TEmbedded); (131, TLink); (132, TOption); (133, TMap); (134, TFlag)]
  | Era3 => [(18, TPath); (128, TList); (129, TList2); (130, TStruct); (131, TEmbedded); (132, TLink); (133, TOption); (134, TMap); (135, TFlag)]
  end.

(** ** Maps *)

(** IEEE single precision numbers that compare equal: same bits and not a NaN, or both zero. *)
Definition same_float (a b : N) : Prop :=
  (a = b /\ a mod 2 ^ 31 <= 255 * 2 ^ 23) \/ (a mod 2 ^ 31 = 0 /\ b mod 2 ^ 31 = 0).
(** Keys that Python considers equal. *)
Inductive same_key : bval -> bval -> Prop :=
| SK_ints l : same_key (VInts l) (VInts l)
| SK_bool b : same_key (VBool b) (VBool b)
| SK_int z : same_key (VInt z) (VInt z)
| SK_str s : same_key (VStr s) (VStr s)
| SK_hash h : same_key (VHash h) (VHash h)
| SK_path h : same_key (VPath h) (VPath h)
| SK_link h : same_key (VLink h) (VLink h)
| SK_float a b : same_float a b -> same_key (VFloat a) (VFloat b)
| SK_vec a b : Forall2 same_float a b -> same_key (VVec a) (VVec b)
| SK_matrix a b : Forall2 (Forall2 same_float) a b -> same_key (VMatrix a) (VMatrix b).
(** The dictionary [d] built from successive pairs: a new key is appended, an existing one gets a new value. *)
Inductive builds : list (bval * bval) -> list (bval * bval) -> Prop :=
| B_nil : builds [] []
| B_new l d k v : builds l d -> (forall k' v', In (k', v') d -> ~ same_key k k') -> builds (l ++ [(k, v)]) (d ++ [(k, v)])
| B_old l d1 k' v' d2 k v : builds l (d1 ++ (k', v') :: d2) -> (forall k1 v1, In (k1, v1) d1 -> ~ same_key k k1) -> same_key k k' ->
    builds (l ++ [(k, v)]) (d1 ++ (k', v) :: d2).

(** ** Layout *)

(** A text preceded by its size.  [exact] tells that all the bytes are present; otherwise the end may be missing. *)
Definition text_layout (exact : bool) (s : str) (bs : bytes) : Prop :=
  exists n, n < 2 ^ 16 /\ Forall scalar s /\ bs = leenc 2 n ++ utf8_enc s /\
    if exact then lenN (utf8_enc s) = n else lenN (utf8_enc s) <= n.
Definition nums (w : nat) (l : list N) : bytes := flat_map (leenc w) l.
Definition nums_ok (w : nat) (n : nat) (l : list N) : Prop := length l = n /\ Forall (fun x => x < 256 ^ N.of_nat w) l.
(** Two's complement on [w] bytes. *)
Definition signed (w : nat) (z : Z) (bs : bytes) : Prop :=
  (- 2 ^ (8 * Z.of_nat w - 1) <= z < 2 ^ (8 * Z.of_nat w - 1))%Z /\
  bs = leenc w (if (z <? 0)%Z then Z.to_N (z + 2 ^ (8 * Z.of_nat w)) else Z.to_N z).
Definition unsigned (w : nat) (z : Z) (bs : bytes) : Prop :=
  exists n, n < 256 ^ N.of_nat w /\ z = Z.of_N n /\ bs = leenc w n.

Section Layout.
Variable exact : bool.
Variable e : era.
Definition code (c : N) (t : btype) : Prop := In (c, t) (type_codes e).

Definition field_layout (val : btype -> bval -> bytes -> Prop) (f : bfield) (bs : bytes) : Prop :=
  let '(h, t, v) := f in
  exists c bv, h < 2 ^ 32 /\ code c t /\ val t v bv /\ bs = leenc 4 h ++ leenc 1 c ++ bv.
Definition fields_layout (val : btype -> bval -> bytes -> Prop) (fs : list bfield) (bs : bytes) : Prop :=
  exists bss, Forall2 (field_layout val) fs bss /\ bs = concat bss.
Definition pair_layout (kt vt : btype) (val : btype -> bval -> bytes -> Prop) (kv : bval * bval) (bs : bytes) : Prop :=
  exists bk bv, val kt (fst kv) bk /\ val vt (snd kv) bv /\ bs = bk ++ bv.

(** The bytes of a value of type [t] nested at most [n] times.  Sizes stored in lists, maps and objects
    are arbitrary ([size]). *)
Fixpoint val_layout (n : nat) (t : btype) (v : bval) (bs : bytes) : Prop :=
  match n with
  | O => False
  | S n =>
    match t with
    | TEmpty => exists l, v = VInts l /\ nums_ok 2 3 l /\ bs = nums 2 l
    | TBool => exists c, c < 256 /\ v = VBool (negb (c =? 0)) /\ bs = leenc 1 c
    | TS8 => exists z, v = VInt z /\ signed 1 z bs
    | TU8 => exists z, v = VInt z /\ unsigned 1 z bs
    | TS16 => exists z, v = VInt z /\ signed 2 z bs
    | TU16 => exists z, v = VInt z /\ unsigned 2 z bs
    | TS32 => exists z, v = VInt z /\ signed 4 z bs
    | TU32 => exists z, v = VInt z /\ unsigned 4 z bs
    | TS64 => exists z, v = VInt z /\ signed 8 z bs
    | TU64 => exists z, v = VInt z /\ unsigned 8 z bs
    | TFlag => exists z, v = VInt z /\ unsigned 1 z bs
    | TFloat => exists f, v = VFloat f /\ f < 2 ^ 32 /\ bs = leenc 4 f
    | TVec2 => exists l, v = VVec l /\ nums_ok 4 2 l /\ bs = nums 4 l
    | TVec3 => exists l, v = VVec l /\ nums_ok 4 3 l /\ bs = nums 4 l
    | TVec4 => exists l, v = VVec l /\ nums_ok 4 4 l /\ bs = nums 4 l
    | TMatrix => exists l, v = VMatrix l /\ length l = 4%nat /\ Forall (nums_ok 4 4) l /\ bs = flat_map (nums 4) l
    | TRgba => exists l, v = VInts l /\ nums_ok 1 4 l /\ bs = nums 1 l
    | TString => exists s, v = VStr s /\ text_layout exact s bs
    | THash => exists h, v = VHash h /\ h < 2 ^ 32 /\ bs = leenc 4 h
    | TPath => exists h, v = VPath h /\ h < 2 ^ 64 /\ bs = leenc 8 h
    | TLink => exists h, v = VLink h /\ h < 2 ^ 32 /\ bs = leenc 4 h
    | TList | TList2 => exists c vt size vs bss, v = VList vt vs /\ code c vt /\ size < 2 ^ 32 /\ lenN vs < 2 ^ 32 /\
        Forall2 (val_layout n vt) vs bss /\
        bs = leenc 1 c ++ leenc 4 size ++ leenc 4 (lenN vs) ++ concat bss
    | TStruct => exists h fs, v = VStruct h fs /\ h < 2 ^ 32 /\
        ((h = 0 /\ fs = [] /\ bs = leenc 4 0) \/
         (h <> 0 /\ exists size bf, size < 2 ^ 32 /\ lenN fs < 2 ^ 16 /\ fields_layout (val_layout n) fs bf /\
          bs = leenc 4 h ++ leenc 4 size ++ leenc 2 (lenN fs) ++ bf))
    | TEmbedded => exists h fs size bf, v = VEmbedded h fs /\ h < 2 ^ 32 /\ size < 2 ^ 32 /\ lenN fs < 2 ^ 16 /\
        fields_layout (val_layout n) fs bf /\ bs = leenc 4 h ++ leenc 4 size ++ leenc 2 (lenN fs) ++ bf
    | TOption => exists c vt flag, code c vt /\ flag < 256 /\
        ((flag = 0 /\ v = VOption vt None /\ bs = leenc 1 c ++ leenc 1 flag) \/
         (flag <> 0 /\ exists x bx, v = VOption vt (Some x) /\ val_layout n vt x bx /\ bs = leenc 1 c ++ leenc 1 flag ++ bx))
    | TMap => exists ck kt cv vt size kvs d bss, v = VMap kt vt d /\ builds kvs d /\ code ck kt /\ code cv vt /\ size < 2 ^ 32 /\
        lenN kvs < 2 ^ 32 /\ Forall2 (pair_layout kt vt (val_layout n)) kvs bss /\
        bs = leenc 1 ck ++ leenc 1 cv ++ leenc 4 size ++ leenc 4 (lenN kvs) ++ concat bss
    end
  end.

(** An entry: the length counts everything that follows it. *)
Definition entry_layout (n : nat) (x : bentry) (bs : bytes) : Prop :=
  exists bf, be_path x < 2 ^ 32 /\ lenN (be_fields x) < 2 ^ 16 /\ fields_layout (val_layout n) (be_fields x) bf /\
    lenN bf + 6 < 2 ^ 32 /\
    bs = leenc 4 (lenN bf + 6) ++ leenc 4 (be_path x) ++ leenc 2 (lenN (be_fields x)) ++ bf.
(** A patch: path hash and field. *)
Definition patch_layout (n : nat) (p : N * pfield) (bs : bytes) : Prop :=
  let '(h, (path, t, v)) := p in
  exists size c bp bv, h < 2 ^ 32 /\ size < 2 ^ 32 /\ code c t /\ text_layout exact path bp /\ val_layout n t v bv /\
    bs = leenc 4 h ++ leenc 4 size ++ leenc 1 c ++ bp ++ bv.
End Layout.

(** First occurrences. *)
Fixpoint firsts (l : list N) : list N :=
  match l with [] => [] | x :: t => x :: filter (fun y => negb (y =? x)) (firsts t) end.
(** Patches grouped by path hash, in order of first appearance. *)
Definition grouped (ps : list (N * pfield)) (g : list bpatch) : Prop :=
  map fst g = firsts (map fst ps) /\
  forall h fs, In (h, fs) g -> fs = map snd (filter (fun p => fst p =? h) ps).

(** The start of a file, up to the number of entries and their types. *)
Definition head_layout (patch : bool) (version : N) (linked : option (list str)) (types : list N) (bs : bytes) : Prop :=
  version < 2 ^ 32 /\ lenN types < 2 ^ 32 /\ Forall (fun h => h < 2 ^ 32) types /\
  exists bl0, bs = (if patch then bl "PTCH" ++ leenc 4 1 ++ leenc 4 0 else []) ++ bl "PROP" ++ leenc 4 version ++ bl0 ++
    leenc 4 (lenN types) ++ nums 4 types /\
  match linked with
  | None => version < 2 /\ bl0 = []
  | Some l => 2 <= version /\ lenN l < 2 ^ 32 /\ exists bss, Forall2 (text_layout true) l bss /\ bl0 = leenc 4 (lenN l) ++ concat bss
  end.
(** A whole file. *)
Definition file_layout (exact : bool) (e : era) (n : nat) (f : binfile) (bs : bytes) : Prop :=
  exists bh bes bp, bs = bh ++ concat bes ++ bp /\
  head_layout (bf_patch f) (bf_version f) (bf_linked f) (map be_type (bf_entries f)) bh /\
  Forall2 (entry_layout exact e n) (bf_entries f) bes /\
  match bf_patches f with
  | None => (bf_patch f = false \/ bf_version f < 3) /\ bp = []
  | Some g => bf_patch f = true /\ 3 <= bf_version f /\ exists ps bps, grouped ps g /\ lenN ps < 2 ^ 32 /\
      Forall2 (patch_layout exact e n) ps bps /\ bp = leenc 4 (lenN ps) ++ concat bps
  end.
