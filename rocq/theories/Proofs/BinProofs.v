(** * Proofs about BIN files: decoding *)

From Verif Require Import Base.TextFacts Base.BinFacts Base.Utf8 Model.BinFile Spec.Utf8Spec Spec.BinSpec Proofs.Utf8Proofs Proofs.RstProofs.

Ltac Zify.zify_post_hook ::= Z.div_mod_to_equations.

(** ** Type numbering *)

Fixpoint lookup (c : N) (l : list (N * btype)) : option btype :=
  match l with [] => None | (c', t) :: r => if c =? c' then Some t else lookup c r end.
Lemma lookup_In c l t : NoDup (map fst l) -> lookup c l = Some t <-> In (c, t) l.
Proof.
  induction l as [|[c' t'] l IH]; cbn [lookup map fst In]; intros Hn; [split; [discriminate | tauto]|].
  apply NoDup_cons_iff in Hn as [Hn1 Hn2]. specialize (IH Hn2). destruct (N.eqb_spec c c') as [<-|Hc].
  - split; [intros E; left; congruence|]. intros [E|E]; [congruence|]. exfalso. apply Hn1.
    change c with (fst (c, t)). apply in_map. exact E.
  - rewrite IH. split; [auto|]. intros [E|E]; [congruence | exact E].
Qed.
Lemma codes_NoDup e : NoDup (map fst (type_codes e)).
Proof. destruct e; cbn; repeat (constructor; [cbn; intuition discriminate|]); constructor. Qed.
Lemma types_NoDup e : NoDup (map snd (type_codes e)).
Proof. destruct e; cbn; repeat (constructor; [cbn; intuition discriminate|]); constructor. Qed.

Definition all_bytes : list N := map N.of_nat (seq 0 256).
Lemma all_bytes_In c : c < 256 -> In c all_bytes.
Proof. intros H. unfold all_bytes. replace c with (N.of_nat (N.to_nat c)) by lia. apply in_map, in_seq. lia. Qed.
Lemma parse_lookup ver c : c < 256 ->
  parse_bintype ver c = match lookup c (type_codes (era_of ver)) with Some t => Ok t | None => Err ValueError end.
Proof.
  intros Hc.
  assert (Hall : forall b1 b2, (b1 = true -> b2 = true) ->
    forallb (fun c => match
      (let v := if b1 : bool then if c =? 18 then 0x80 else if 19 <=? c then 0x80 + c - 18 else c else c in
       let v := if b2 : bool then if 0x81 <=? v then v + 1 else v else v in bintype v),
      (match lookup c (type_codes (if b1 then Era1 else if b2 then Era2 else Era3)) with Some t => Ok t | None => Err ValueError end)
      with Ok t, Ok t' => eqb t t' | Err ValueError, Err ValueError => true | _, _ => false end) all_bytes = true).
  { intros [|] [|] Hb; try (specialize (Hb eq_refl); discriminate); vm_compute; reflexivity. }
  specialize (Hall (ver <? 923)%Z (ver <? 1008)%Z ltac:(lia)). rewrite forallb_forall in Hall.
  specialize (Hall c (all_bytes_In c Hc)). unfold parse_bintype, era_of. cbv beta zeta in Hall |- *.
  match type of Hall with match ?a with _ => _ end = true => destruct a as [t|[]] end; try discriminate Hall;
  match type of Hall with match ?a with _ => _ end = true => destruct a as [t'|[]] end; try discriminate Hall.
  - apply eqb_true in Hall. subst. reflexivity.
  - reflexivity.
Qed.
Lemma parse_code ver c t : c < 256 -> parse_bintype ver c = Ok t <-> code (era_of ver) c t.
Proof.
  intros Hc. rewrite parse_lookup by assumption. unfold code. rewrite <- (lookup_In c _ t (codes_NoDup _)).
  destruct (lookup c _); split; congruence.
Qed.
Lemma code_small e c t : code e c t -> c < 256.
Proof.
  unfold code. intros H. assert (Ha : forallb (fun p => fst p <? 256) (type_codes e) = true) by (destruct e; reflexivity).
  rewrite forallb_forall in Ha. specialize (Ha _ H). cbn [fst] in Ha. lia.
Qed.

(** ** Keys *)

Lemma land31 n : N.land n 0x7fffffff = n mod 2 ^ 31.
Proof. change 0x7fffffff with (N.ones 31). apply N.land_ones. Qed.
Lemma float_eq_spec a b : float_eq a b = true <-> same_float a b.
Proof.
  unfold float_eq, is_nan, same_float. rewrite !land31.
  assert (Hor : N.lor a b mod 2 ^ 31 = 0 <-> a mod 2 ^ 31 = 0 /\ b mod 2 ^ 31 = 0).
  { rewrite <- !land31, N.land_lor_distr_l. rewrite N.lor_eq_0_iff. reflexivity. }
  set (ma := a mod 2 ^ 31) in *. set (mb := b mod 2 ^ 31) in *. set (mo := N.lor a b mod 2 ^ 31) in *.
  rewrite !andb_true_iff, !negb_true_iff, !N.ltb_ge, orb_true_iff, !N.eqb_eq. change 0x7f800000 with (255 * 2 ^ 23).
  split.
  - intros [[Ha Hb] [E|E]]; [left; auto | right; apply Hor; exact E].
  - intros [[E Ha]|E].
    + assert (ma = mb) by (unfold ma, mb; rewrite E; reflexivity). split; [split; lia | left; exact E].
    + split; [lia|]. right. apply Hor. exact E.
Qed.
Lemma all2_spec {A} (p : A -> A -> bool) (R : A -> A -> Prop) a b :
  (forall x y, p x y = true <-> R x y) -> all2 p a b = true <-> Forall2 R a b.
Proof.
  intros Hp. revert b. induction a as [|x a IH]; intros [|y b]; cbn [all2]; split; intros H; try discriminate; try constructor;
  try (inversion H; fail).
  - apply andb_true_iff in H as [H1 _]. apply Hp. exact H1.
  - apply andb_true_iff in H as [_ H2]. apply IH. exact H2.
  - inversion H; subst. apply andb_true_iff. split; [apply Hp; assumption | apply IH; assumption].
Qed.
Lemma Forall2_eq {A} (a b : list A) : Forall2 eq a b <-> a = b.
Proof.
  split; [induction 1; congruence|]. intros <-. induction a; constructor; auto.
Qed.
Lemma key_eq_spec a b : key_eq a b = true <-> same_key a b.
Proof.
  destruct a, b; cbn [key_eq]; try (split; [discriminate | inversion 1]; fail).
  - rewrite (all2_spec N.eqb eq) by (intros; apply N.eqb_eq). rewrite Forall2_eq. split; [intros <-; constructor | inversion 1; reflexivity].
  - rewrite Bool.eqb_true_iff. split; [intros <-; constructor | inversion 1; reflexivity].
  - rewrite Z.eqb_eq. split; [intros <-; constructor | inversion 1; reflexivity].
  - rewrite float_eq_spec. split; [constructor; assumption | inversion 1; assumption].
  - rewrite (all2_spec float_eq same_float) by apply float_eq_spec. split; [constructor; assumption | inversion 1; assumption].
  - rewrite (all2_spec (all2 float_eq) (Forall2 same_float)) by (intros; apply all2_spec, float_eq_spec).
    split; [constructor; assumption | inversion 1; assumption].
  - rewrite eqbT. split; [intros <-; constructor | inversion 1; reflexivity].
  - rewrite N.eqb_eq. split; [intros <-; constructor | inversion 1; reflexivity].
  - rewrite N.eqb_eq. split; [intros <-; constructor | inversion 1; reflexivity].
  - rewrite N.eqb_eq. split; [intros <-; constructor | inversion 1; reflexivity].
Qed.
Lemma map_set_cases k v d :
  ((forall k' v', In (k', v') d -> ~ same_key k k') /\ map_set k v d = d ++ [(k, v)]) \/
  (exists d1 k' v' d2, d = d1 ++ (k', v') :: d2 /\ (forall k1 v1, In (k1, v1) d1 -> ~ same_key k k1) /\ same_key k k' /\
     map_set k v d = d1 ++ (k', v) :: d2).
Proof.
  induction d as [|[k' v'] d IH]; cbn [map_set].
  - left. split; [intros ? ? [] | reflexivity].
  - destruct (key_eq k k') eqn:E.
    + right. apply key_eq_spec in E. exists [], k', v', d. split; [reflexivity|]. split; [intros ? ? []|]. split; [exact E | reflexivity].
    + assert (Hk : ~ same_key k k') by (intros H; apply key_eq_spec in H; congruence).
      destruct IH as [[Hn ->]|(d1 & k1 & v1 & d2 & -> & Hn & Hk1 & ->)].
      * left. split; [|reflexivity]. intros k0 v0 [E0|E0]; [congruence | apply (Hn _ _ E0)].
      * right. exists ((k', v') :: d1), k1, v1, d2. split; [reflexivity|]. split; [|split; [exact Hk1 | reflexivity]].
        intros k0 v0 [E0|E0]; [congruence | apply (Hn _ _ E0)].
Qed.
Lemma map_of_snoc l kv : map_of (l ++ [kv]) = map_set (fst kv) (snd kv) (map_of l).
Proof. unfold map_of. rewrite fold_left_app. reflexivity. Qed.
Lemma map_of_builds l : builds l (map_of l).
Proof.
  induction l as [|[k v] l IH] using rev_ind; [constructor|]. rewrite map_of_snoc. cbn [fst snd].
  destruct (map_set_cases k v (map_of l)) as [[Hn ->]|(d1 & k' & v' & d2 & Ed & Hn & Hk & ->)].
  - apply B_new; assumption.
  - rewrite Ed in IH. eapply B_old; eassumption.
Qed.
Lemma set_unique k v d1 k' v' d2 : (forall k1 v1, In (k1, v1) d1 -> ~ same_key k k1) -> same_key k k' ->
  map_set k v (d1 ++ (k', v') :: d2) = d1 ++ (k', v) :: d2.
Proof.
  intros Hn Hk. induction d1 as [|[k1 v1] d1 IH]; cbn [app map_set].
  - apply key_eq_spec in Hk. rewrite Hk. reflexivity.
  - assert (E : key_eq k k1 = false).
    { destruct (key_eq k k1) eqn:E; [|reflexivity]. apply key_eq_spec in E. destruct (Hn k1 v1 (or_introl eq_refl) E). }
    rewrite E, IH; [reflexivity|]. intros k0 v0 H0. apply (Hn k0 v0). right. exact H0.
Qed.
Lemma builds_map_of l d : builds l d -> d = map_of l.
Proof.
  induction 1 as [|l d k v H IH Hn|l d1 k' v' d2 k v H IH Hn Hk]; [reflexivity| |]; rewrite map_of_snoc, <- IH; cbn [fst snd].
  - destruct (map_set_cases k v d) as [[_ ->]|(d1 & k' & v' & d2 & -> & _ & Hk & _)]; [reflexivity|].
    exfalso. apply (Hn k' v'); [apply in_or_app; right; left; reflexivity | exact Hk].
  - rewrite set_unique by assumption. reflexivity.
Qed.

(** ** Signed numbers *)

Lemma of_signed_spec w z : (- 2 ^ (8 * Z.of_nat w - 1) <= z < 2 ^ (8 * Z.of_nat w - 1))%Z ->
  of_signed (N.of_nat w) z = (if (z <? 0)%Z then Z.to_N (z + 2 ^ (8 * Z.of_nat w)) else Z.to_N z) \/ w = O.
Proof.
  intros Hz. destruct w as [|w]; [right; reflexivity|]. left. unfold of_signed. rewrite nat_N_Z. set (W := Z.of_nat (S w)) in *.
  assert (HW : (0 < W)%Z) by (unfold W; lia).
  assert (Hpow : (2 ^ (8 * W) = 2 * 2 ^ (8 * W - 1))%Z). { rewrite <- Z.pow_succ_r by lia. f_equal. lia. }
  rewrite Hpow. set (M := (2 ^ (8 * W - 1))%Z) in *. destruct (Z.ltb_spec z 0).
  - f_equal. symmetry. apply Z.mod_unique with (-1)%Z; lia.
  - f_equal. apply Z.mod_small. lia.
Qed.
Lemma signed_of w z bs : (0 < w)%nat -> signed w z bs ->
  (- 2 ^ (8 * Z.of_nat w - 1) <= z < 2 ^ (8 * Z.of_nat w - 1))%Z /\ bs = leenc w (of_signed (N.of_nat w) z).
Proof.
  intros Hw [Hz ->]. split; [exact Hz|]. destruct (of_signed_spec w z Hz) as [->|E]; [reflexivity | lia].
Qed.
Lemma signed_to w d : (0 < w)%nat -> lenN d = N.of_nat w -> signed w (to_signed (N.of_nat w) (ledec d)) d.
Proof.
  intros Hw Hd. destruct (ledec_leenc_reads w d Hd) as [Hb Ed]. unfold signed, to_signed. rewrite nat_N_Z.
  set (W := Z.of_nat w). assert (HW : (0 < W)%Z) by (unfold W; lia).
  assert (Hpow : (2 ^ (8 * W) = 2 * 2 ^ (8 * W - 1))%Z). { rewrite <- Z.pow_succ_r by lia. f_equal. lia. }
  assert (Hpos : (0 < 2 ^ (8 * W - 1))%Z) by (apply Z.pow_pos_nonneg; lia).
  assert (HN : Z.of_N (2 ^ (8 * N.of_nat w - 1)) = (2 ^ (8 * W - 1))%Z).
  { rewrite N2Z.inj_pow. f_equal. unfold W. lia. }
  assert (HN2 : Z.of_N (256 ^ N.of_nat w) = (2 ^ (8 * W))%Z).
  { rewrite N2Z.inj_pow. change (Z.of_N 256) with (2 ^ 8)%Z. rewrite <- Z.pow_mul_r by lia. f_equal. unfold W. lia. }
  rewrite Hpow in *. set (M := (2 ^ (8 * W - 1))%Z) in *. set (n := ledec d) in *.
  destruct (N.ltb_spec n (2 ^ (8 * N.of_nat w - 1))) as [E|E].
  - split; [lia|]. destruct (Z.ltb_spec (Z.of_N n) 0); [lia|]. rewrite N2Z.id. exact Ed.
  - split; [lia|]. destruct (Z.ltb_spec (Z.of_N n - 2 * M) 0); [|lia]. rewrite Ed at 1. f_equal. lia.
Qed.
Lemma parses_signed w (m : P Z) z bs : (0 < w)%nat ->
  (forall z, (- 2 ^ (8 * Z.of_nat w - 1) <= z < 2 ^ (8 * Z.of_nat w - 1))%Z -> parses m (leenc w (of_signed (N.of_nat w) z)) z) ->
  signed w z bs -> parses m bs z.
Proof. intros Hw Hm Hs. apply signed_of in Hs as [Hz ->]; [|exact Hw]. apply Hm. exact Hz. Qed.
Lemma reads_signed w n : (0 < w)%nat -> n = N.of_nat w ->
  reads (let* d := punpack n in pret (to_signed n (ledec d))) (fun bs z => signed w z bs).
Proof.
  intros Hw ->. eapply reads_bind; [apply reads_unpack|]. cbn beta. intros b1 a [Hl ->]. apply reads_ret.
  rewrite app_nil_r. apply signed_to; assumption.
Qed.

(** ** Encodings are decoded *)

Lemma parses_prep_rel {A} (m : P A) vs bss : Forall2 (fun v bs => parses m bs v) vs bss ->
  parses (prep (length vs) m) (concat bss) vs.
Proof.
  induction 1 as [|v bs vs bss Hv H IH]; cbn [length prep concat]; [apply parses_ret|].
  eapply parses_bind; [exact Hv|]. eapply parses_bind_last; [exact IH | apply parses_ret].
Qed.
Lemma parses_plist_rel {A} (m : P A) vs bss : Forall2 (fun v bs => parses m bs v) vs bss ->
  parses (plist (lenN vs) m) (concat bss) vs.
Proof. intros H. unfold plist. rewrite lenN_length, Nat2N.id. apply parses_prep_rel. exact H. Qed.
Lemma Forall2_weaken {A B} (R R' : A -> B -> Prop) l1 l2 : (forall a b, R a b -> R' a b) -> Forall2 R l1 l2 -> Forall2 R' l1 l2.
Proof. intros H. induction 1; constructor; auto. Qed.
Lemma parses_nums w (m : P N) n l : (forall x, x < 256 ^ N.of_nat w -> parses m (leenc w x) x) ->
  nums_ok w n l -> parses (prep n m) (nums w l) l.
Proof.
  intros Hm [<- HF]. unfold nums. apply parses_prep. intros v Hv. apply Hm. rewrite Forall_forall in HF. apply HF. exact Hv.
Qed.
Lemma parses_string s bs : text_layout true s bs -> parses read_string bs s.
Proof.
  intros (n & Hn & Hs & -> & Hl). unfold read_string. eapply parses_bind; [apply parses_u16; exact Hn|].
  eapply parses_bind_last; [apply parses_read; exact Hl|]. rewrite utf8_dec_enc by exact Hs. apply parses_ret.
Qed.
Lemma parses_type ver c t : code (era_of ver) c t -> parses (ptype ver c) [] t.
Proof.
  intros H. unfold ptype. rewrite (proj2 (parse_code ver c t (code_small _ _ _ H)) H). apply parses_ret.
Qed.
Ltac step := eapply parses_bind.
Ltac last_step := eapply parses_bind_last.

Section Forward.
Variable ver : Z.
Notation e := (era_of ver).
Lemma field_parses (rv : btype -> P bval) (val : btype -> bval -> bytes -> Prop) f bs :
  (forall t v bs, val t v bs -> parses (rv t) bs v) -> field_layout e val f bs -> parses (read_field_with ver rv) bs f.
Proof.
  intros Hv. destruct f as [[h t] v]. intros (c & bv & Hh & Hc & Hval & ->). unfold read_field_with.
  step; [apply parses_u32; exact Hh|]. step; [apply parses_u8; eapply code_small; exact Hc|].
  eapply parses_bind_nil; [apply parses_type; exact Hc|]. last_step; [apply Hv; exact Hval | apply parses_ret].
Qed.
Lemma fields_parses (rv : btype -> P bval) (val : btype -> bval -> bytes -> Prop) fs bs :
  (forall t v bs, val t v bs -> parses (rv t) bs v) -> fields_layout e val fs bs ->
  parses (plist (lenN fs) (read_field_with ver rv)) bs fs.
Proof.
  intros Hv (bss & HF & ->). apply parses_plist_rel. eapply Forall2_weaken; [|exact HF]. intros f b. apply field_parses. exact Hv.
Qed.
Lemma val_parses n : forall t v bs, val_layout true e n t v bs -> parses (read_bvalue ver n t) bs v.
Proof.
  induction n as [|n IH]; intros t v bs H; [destruct H|].
  assert (Hu : forall w (m : P N) z, (forall x, x < 256 ^ N.of_nat w -> parses m (leenc w x) x) -> unsigned w z bs ->
    parses (let* x := m in pret (VInt (Z.of_N x))) bs (VInt z)).
  { intros w m z Hm (x & Hx & -> & ->). last_step; [apply Hm; exact Hx | apply parses_ret]. }
  assert (Hi : forall w (m : P Z) z, (0 < w)%nat ->
    (forall z, (- 2 ^ (8 * Z.of_nat w - 1) <= z < 2 ^ (8 * Z.of_nat w - 1))%Z -> parses m (leenc w (of_signed (N.of_nat w) z)) z) ->
    signed w z bs -> parses (let* x := m in pret (VInt x)) bs (VInt z)).
  { intros w m z Hw Hm Hs. last_step; [eapply parses_signed; [exact Hw | exact Hm | exact Hs] | apply parses_ret]. }
  assert (Hlist : (exists c vt size vs bss, v = VList vt vs /\ code e c vt /\ size < 2 ^ 32 /\ lenN vs < 2 ^ 32 /\
        Forall2 (val_layout true e n vt) vs bss /\ bs = leenc 1 c ++ leenc 4 size ++ leenc 4 (lenN vs) ++ concat bss) ->
     parses (let* c := u8 in let* _ := u32 in let* count := u32 in let* vt := ptype ver c in
      let* vs := plist count (read_bvalue ver n vt) in pret (VList vt vs)) bs v).
  { intros (c & vt & size & vs & bss & -> & Hc & Hs & Hl & HF & ->).
    step; [apply parses_u8; eapply code_small; exact Hc|]. step; [apply parses_u32; exact Hs|]. step; [apply parses_u32; exact Hl|].
    eapply parses_bind_nil; [apply parses_type; exact Hc|].
    last_step; [apply parses_plist_rel; eapply Forall2_weaken; [|exact HF]; intros a b; apply IH | apply parses_ret]. }
  destruct t; cbn [val_layout] in H; cbn [read_bvalue]; try (apply Hlist; exact H).
  - destruct H as (l & -> & Hl & ->). last_step; [apply (parses_nums 2); [apply parses_u16 | exact Hl] | apply parses_ret].
  - destruct H as (c & Hc & -> & ->). unfold ubool. last_step; [|apply parses_ret].
    last_step; [apply parses_u8; exact Hc | apply parses_ret].
  - destruct H as (z & -> & H). apply (Hi 1%nat); [lia | apply parses_i8 | exact H].
  - destruct H as (z & -> & H). apply (Hu 1%nat); [apply parses_u8 | exact H].
  - destruct H as (z & -> & H). apply (Hi 2%nat); [lia | apply parses_i16 | exact H].
  - destruct H as (z & -> & H). apply (Hu 2%nat); [apply parses_u16 | exact H].
  - destruct H as (z & -> & H). apply (Hi 4%nat); [lia | apply parses_i32 | exact H].
  - destruct H as (z & -> & H). apply (Hu 4%nat); [apply parses_u32 | exact H].
  - destruct H as (z & -> & H). apply (Hi 8%nat); [lia | apply parses_i64 | exact H].
  - destruct H as (z & -> & H). apply (Hu 8%nat); [apply parses_u64 | exact H].
  - destruct H as (f & -> & Hf & ->). last_step; [apply parses_u32; exact Hf | apply parses_ret].
  - destruct H as (l & -> & Hl & ->). last_step; [apply (parses_nums 4); [apply parses_u32 | exact Hl] | apply parses_ret].
  - destruct H as (l & -> & Hl & ->). last_step; [apply (parses_nums 4); [apply parses_u32 | exact Hl] | apply parses_ret].
  - destruct H as (l & -> & Hl & ->). last_step; [apply (parses_nums 4); [apply parses_u32 | exact Hl] | apply parses_ret].
  - destruct H as (l & -> & Hl & HF & ->). last_step; [|apply parses_ret].
    replace (prep 4 (floats 4)) with (prep (length l) (floats 4)) by (rewrite Hl; reflexivity). apply parses_prep. intros r Hr. rewrite Forall_forall in HF. apply (parses_nums 4); [apply parses_u32 | apply HF; exact Hr].
  - destruct H as (l & -> & Hl & ->). last_step; [apply (parses_nums 1); [apply parses_u8 | exact Hl] | apply parses_ret].
  - destruct H as (s & -> & H). last_step; [apply parses_string; exact H | apply parses_ret].
  - destruct H as (f & -> & Hf & ->). last_step; [apply parses_u32; exact Hf | apply parses_ret].
  - destruct H as (f & -> & Hf & ->). last_step; [apply parses_u64; exact Hf | apply parses_ret].
  - destruct H as (h & fs & -> & Hh & [(-> & -> & ->)|(Hh0 & size & bf & Hs & Hl & Hf & ->)]).
    + last_step; [apply parses_u32; reflexivity|]. cbn [N.eqb]. eapply parses_bind_nil; [apply parses_ret|].
      last_step; [apply parses_ret | apply parses_ret].
    + step; [apply parses_u32; exact Hh|]. destruct (N.eqb_spec h 0); [contradiction|].
      rewrite app_assoc. step; [step; [apply parses_u32; exact Hs | apply parses_u16; exact Hl]|].
      last_step; [apply (fields_parses _ (val_layout true e n)); [exact IH | exact Hf] | apply parses_ret].
  - destruct H as (h & fs & size & bf & -> & Hh & Hs & Hl & Hf & ->).
    step; [apply parses_u32; exact Hh|]. step; [apply parses_u32; exact Hs|]. step; [apply parses_u16; exact Hl|].
    last_step; [apply (fields_parses _ (val_layout true e n)); [exact IH | exact Hf] | apply parses_ret].
  - destruct H as (f & -> & Hf & ->). last_step; [apply parses_u32; exact Hf | apply parses_ret].
  - destruct H as (c & vt & flag & Hc & Hf & H).
    assert (Hb : parses ubool (leenc 1 flag) (negb (flag =? 0))).
    { unfold ubool. last_step; [apply parses_u8; exact Hf | apply parses_ret]. }
    destruct H as [(-> & -> & ->)|(Hf0 & x & bx & -> & Hx & ->)].
    + step; [apply parses_u8; eapply code_small; exact Hc|]. last_step; [exact Hb|].
      eapply parses_bind_nil; [apply parses_type; exact Hc|]. cbn [N.eqb negb]. last_step; apply parses_ret.
    + step; [apply parses_u8; eapply code_small; exact Hc|]. step; [exact Hb|].
      eapply parses_bind_nil; [apply parses_type; exact Hc|]. destruct (N.eqb_spec flag 0); [contradiction|]. cbn [negb].
      last_step; [last_step; [apply IH; exact Hx | apply parses_ret] | apply parses_ret].
  - destruct H as (ck & kt & cv & vt & size & kvs & d & bss & -> & Hd & Hk & Hv & Hs & Hl & HF & ->).
    step; [apply parses_u8; eapply code_small; exact Hk|]. step; [apply parses_u8; eapply code_small; exact Hv|].
    step; [apply parses_u32; exact Hs|]. step; [apply parses_u32; exact Hl|].
    eapply parses_bind_nil; [apply parses_type; exact Hk|]. eapply parses_bind_nil; [apply parses_type; exact Hv|].
    rewrite (builds_map_of _ _ Hd). last_step; [|apply parses_ret].
    apply parses_plist_rel. eapply Forall2_weaken; [|exact HF]. intros [k v] b (bk & bv & Hbk & Hbv & ->). cbn [fst snd] in *.
    step; [apply IH; exact Hbk|]. last_step; [apply IH; exact Hbv | apply parses_ret].
  - destruct H as (z & -> & H). apply (Hu 1%nat); [apply parses_u8 | exact H].
Qed.

Lemma entry_parses n x bs : entry_layout true e n x bs -> parses (read_entry ver n (be_type x)) bs x.
Proof.
  intros (bf & Hp & Hl & Hf & Hlen & ->) pre post. unfold read_entry.
  unfold pbind at 1. unfold ptell at 1. cbn beta iota.
  assert (Hfs : parses (plist (lenN (be_fields x)) (read_field ver n)) bf (be_fields x)).
  { apply (fields_parses _ (val_layout true e n)); [apply val_parses | exact Hf]. }
  unfold pbind at 1. rewrite <- !app_assoc. rewrite (parses_u32 _ Hlen pre).
  rewrite (app_assoc pre). replace (lenN pre + lenN (leenc 4 (lenN bf + 6))) with (lenN (pre ++ leenc 4 (lenN bf + 6))) by apply lenN_app.
  set (pre1 := pre ++ leenc 4 (lenN bf + 6)). cbn beta iota.
  unfold pbind at 1. rewrite (parses_u32 _ Hp pre1). rewrite (app_assoc pre1).
  replace (lenN pre1 + lenN (leenc 4 (be_path x))) with (lenN (pre1 ++ leenc 4 (be_path x))) by apply lenN_app.
  set (pre2 := pre1 ++ leenc 4 (be_path x)). cbn beta iota.
  unfold pbind at 1. rewrite (parses_u16 _ Hl pre2). rewrite (app_assoc pre2).
  replace (lenN pre2 + lenN (leenc 2 (lenN (be_fields x)))) with (lenN (pre2 ++ leenc 2 (lenN (be_fields x)))) by apply lenN_app.
  set (pre3 := pre2 ++ leenc 2 (lenN (be_fields x))). cbn beta iota.
  unfold pbind at 1. rewrite (Hfs pre3). cbn beta iota. unfold pbind, ptell.
  assert (E3 : lenN pre3 = lenN pre + 10).
  { unfold pre3, pre2, pre1. rewrite !lenN_app, !leenc_len. lia. }
  rewrite E3. rewrite !lenN_app, !leenc_len.
  destruct (Z.eqb_spec (Z.of_N (lenN pre + 10 + lenN bf) - (Z.of_N (lenN pre) + 4)) (Z.of_N (lenN bf + 6))) as [_|Hne]; [|lia].
  unfold pret. f_equal. f_equal; [destruct x; reflexivity | lia].
Qed.
Lemma patch_parses n p bs : patch_layout true e n p bs -> parses (read_patch ver n) bs p.
Proof.
  destruct p as [h [[path t] v]]. intros (size & c & bp & bv & Hh & Hs & Hc & Hp & Hv & ->). unfold read_patch.
  step; [apply parses_u32; exact Hh|]. step; [apply parses_u32; exact Hs|]. step; [apply parses_u8; eapply code_small; exact Hc|].
  eapply parses_bind_nil; [apply parses_type; exact Hc|]. step; [apply parses_string; exact Hp|].
  last_step; [apply val_parses; exact Hv | apply parses_ret].
Qed.
End Forward.

(** ** Grouping of patches *)

Lemma firsts_In x l : In x (firsts l) <-> In x l.
Proof.
  induction l as [|y l IH]; cbn [firsts In]; [tauto|]. rewrite filter_In, IH.
  destruct (N.eqb_spec x y) as [->|Hne]; cbn [negb]; intuition congruence.
Qed.
Lemma firsts_snoc l x : firsts (l ++ [x]) = if existsb (N.eqb x) l then firsts l else firsts l ++ [x].
Proof.
  induction l as [|y l IH]; cbn [app firsts existsb]; [reflexivity|]. rewrite IH.
  destruct (N.eqb_spec x y) as [->|Hne]; cbn [orb].
  - destruct (existsb (N.eqb y) l); [reflexivity|]. rewrite filter_app. cbn [filter]. rewrite N.eqb_refl. cbn [negb]. rewrite app_nil_r. reflexivity.
  - destruct (existsb (N.eqb x) l); [reflexivity|]. rewrite filter_app. cbn [filter].
    destruct (N.eqb_spec x y); [contradiction|]. reflexivity.
Qed.
Lemma firsts_NoDup l : NoDup (firsts l).
Proof.
  induction l as [|x l IH]; cbn [firsts]; [constructor|]. constructor; [|apply NoDup_filter; exact IH].
  rewrite filter_In, N.eqb_refl. cbn. intros [_ H]. discriminate.
Qed.
Definition adds ps : list bpatch := fold_left patch_add ps [].
Lemma adds_snoc ps p : adds (ps ++ [p]) = patch_add (adds ps) p.
Proof. unfold adds. rewrite fold_left_app. reflexivity. Qed.
Lemma adds_grouped ps : grouped ps (adds ps).
Proof.
  induction ps as [|[h f] ps [IH1 IH2]] using rev_ind; [split; [reflexivity | intros ? ? []]|].
  rewrite adds_snoc. unfold patch_add. cbn [fst snd].
  assert (Hfst : map fst (adds ps) = dkeys (adds ps)) by reflexivity.
  assert (Hnd : NoDup (dkeys (adds ps))) by (rewrite <- Hfst, IH1; apply firsts_NoDup).
  split.
  - rewrite map_app. cbn [map fst]. rewrite firsts_snoc.
    match goal with |- map fst (dset h ?v ?d) = _ => change (dkeys (dset h v d) = (if existsb (N.eqb h) (map fst ps) then firsts (map fst ps) else firsts (map fst ps) ++ [h])) end.
    rewrite dkeys_dset. rewrite <- Hfst, IH1.
    destruct (existsb (N.eqb h) (map fst ps)) eqn:Ex.
    + assert (Hin : In h (map fst ps)). { apply existsb_exists in Ex as (x & Hx & E). apply N.eqb_eq in E. subst. exact Hx. }
      destruct (dget h (adds ps)) eqn:Eg; [unfold dhas; rewrite Eg; reflexivity|]. apply dget_None in Eg. exfalso. apply Eg.
      rewrite <- Hfst, IH1. apply firsts_In. exact Hin.
    + assert (Hin : ~ In h (map fst ps)).
      { intros Hin. assert (existsb (N.eqb h) (map fst ps) = true) by (apply existsb_exists; exists h; split; [exact Hin | apply N.eqb_refl]). congruence. }
      destruct (dget h (adds ps)) eqn:Eg; [|unfold dhas; rewrite Eg; reflexivity]. exfalso. apply Hin.
      apply dget_Some_In in Eg. apply (in_map fst) in Eg. rewrite IH1 in Eg. apply firsts_In. exact Eg.
  - intros h' fs Hin. rewrite filter_app, map_app. cbn [filter fst].
    assert (Hnd' : NoDup (dkeys (dset h (match dget h (adds ps) with Some l => l | None => [] end ++ [f]) (adds ps)))) by (apply dset_NoDup; exact Hnd).
    pose proof (dget_In_NoDup _ _ _ Hnd' Hin) as Hg. rewrite dget_dset in Hg. rewrite N.eqb_sym.
    destruct (eqbP h' h) as [->|Hne].
    + rewrite N.eqb_refl. cbn [map snd]. assert (E : fs = match dget h (adds ps) with Some l => l | None => [] end ++ [f]) by congruence.
      rewrite E. f_equal. destruct (dget h (adds ps)) as [l|] eqn:Eg.
      * apply IH2. apply dget_Some_In. exact Eg.
      * apply dget_None in Eg. rewrite <- Hfst, IH1, firsts_In in Eg.
        assert (Hno : filter (fun p => fst p =? h) ps = []).
        { destruct (filter (fun p => fst p =? h) ps) as [|p l] eqn:Ef; [reflexivity|]. exfalso. apply Eg.
          assert (Hp : In p (filter (fun p => fst p =? h) ps)) by (rewrite Ef; left; reflexivity).
          apply filter_In in Hp as [Hp E1]. apply N.eqb_eq in E1. rewrite <- E1. apply in_map. exact Hp. }
        rewrite Hno. reflexivity.
    + destruct (N.eqb_spec h' h); [contradiction|]. cbn [map]. rewrite app_nil_r. apply IH2. apply dget_Some_In. exact Hg.
Qed.
Lemma grouped_fun ps g1 g2 : grouped ps g1 -> grouped ps g2 -> g1 = g2.
Proof.
  intros [A1 B1] [A2 B2]. rewrite <- A2 in A1. clear A2. revert g2 A1 B2. induction g1 as [|[h fs] g1 IH]; intros [|[h2 fs2] g2] E B2; try discriminate.
  - reflexivity.
  - cbn [map fst] in E. injection E as <- E. f_equal.
    + f_equal. rewrite (B1 h fs (or_introl eq_refl)), (B2 h fs2 (or_introl eq_refl)). reflexivity.
    + apply IH; [intros; apply B1; right; assumption | exact E | intros; apply B2; right; assumption].
Qed.
