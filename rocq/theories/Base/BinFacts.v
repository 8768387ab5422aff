(** * Facts about binary parsing *)

From Verif Require Export Base.Bin Base.PyFacts.

Ltac Zify.zify_post_hook ::= Z.div_mod_to_equations.

Lemma dropN_app_n {A} (a b : list A) n : lenN a = n -> dropN n (a ++ b) = b.
Proof. intros <-. apply dropN_app_exact. Qed.
Lemma takeN_app_n {A} (a b : list A) n : lenN a = n -> takeN n (a ++ b) = a.
Proof. intros <-. apply takeN_app_exact. Qed.

Lemma leenc_len w n : lenN (leenc w n) = N.of_nat w.
Proof. revert n. induction w as [|w IH]; intros n; cbn [leenc]; [reflexivity|]. rewrite lenN_cons, IH. lia. Qed.

Lemma ledec_enc_mod w n : ledec (leenc w n) = n mod 256 ^ N.of_nat w.
Proof.
  revert n. induction w as [|w IH]; intros n; cbn [leenc ledec].
  - rewrite N.pow_0_r, N.mod_1_r. reflexivity.
  - rewrite IH, b2n_n2b, Nat2N.inj_succ, N.pow_succ_r'.
    rewrite N.mod_mul_r by (try apply N.pow_nonzero; lia). reflexivity.
Qed.
Lemma ledec_enc w n : n < 256 ^ N.of_nat w -> ledec (leenc w n) = n.
Proof. intros H. rewrite ledec_enc_mod. apply N.mod_small. assumption. Qed.

Lemma ledec_bound b : ledec b < 256 ^ lenN b.
Proof.
  induction b as [|x b IH]; cbn [ledec]; [reflexivity|].
  rewrite lenN_cons, N.pow_succ_r'. pose proof (b2n_lt x). lia.
Qed.
Lemma leenc_dec b : leenc (length b) (ledec b) = b.
Proof.
  induction b as [|x b IH]; cbn [ledec length leenc]; [reflexivity|].
  pose proof (b2n_lt x) as Hx.
  assert (E1 : (b2n x + 256 * ledec b) / 256 = ledec b).
  { rewrite N.mul_comm, N.div_add by lia. rewrite N.div_small by assumption. reflexivity. }
  rewrite E1, IH. f_equal. apply b2n_inj. rewrite b2n_n2b.
  rewrite N.mul_comm, N.mod_add by lia. apply N.mod_small. assumption.
Qed.
Lemma ledec_inj a b : lenN a = lenN b -> ledec a = ledec b -> a = b.
Proof.
  intros Hl He. rewrite <- (leenc_dec a), <- (leenc_dec b), He.
  rewrite !lenN_length in Hl. apply Nat2N.inj in Hl. rewrite Hl. reflexivity.
Qed.

Lemma to_of_signed w z : (0 < w) -> (- 2 ^ (8 * Z.of_N w - 1) <= z < 2 ^ (8 * Z.of_N w - 1))%Z ->
  to_signed w (of_signed w z) = z /\ of_signed w z < 256 ^ w.
Proof.
  intros Hw Hz. unfold to_signed, of_signed.
  assert (Hpow : (2 ^ (8 * Z.of_N w) = 2 * 2 ^ (8 * Z.of_N w - 1))%Z).
  { rewrite <- Z.pow_succ_r by lia. f_equal. lia. }
  assert (Hpos : (0 < 2 ^ (8 * Z.of_N w - 1))%Z) by (apply Z.pow_pos_nonneg; lia).
  assert (HN : Z.of_N (2 ^ (8 * w - 1)) = (2 ^ (8 * Z.of_N w - 1))%Z).
  { rewrite N2Z.inj_pow. f_equal. lia. }
  assert (HN2 : Z.of_N (256 ^ w) = (2 ^ (8 * Z.of_N w))%Z).
  { rewrite N2Z.inj_pow, Z.pow_mul_r by lia. reflexivity. }
  rewrite Hpow in *.
  set (M := (2 ^ (8 * Z.of_N w - 1))%Z) in *.
  assert (Hm : (z mod (2 * M) = if z <? 0 then z + 2 * M else z)%Z).
  { destruct (z <? 0)%Z eqn:E.
    - symmetry. apply Z.mod_unique with (-1)%Z; lia.
    - apply Z.mod_small. lia. }
  rewrite Hm. destruct (z <? 0)%Z eqn:E; split; try lia;
  destruct (_ <? 2 ^ (8 * w - 1)) eqn:E2; lia.
Qed.

(** ** Parser triples: [m] reads exactly the bytes [bs] wherever they are, and returns [v]. *)

Definition parses {A} (m : P A) (bs : bytes) (v : A) : Prop :=
  forall pre post, m (pre ++ bs ++ post) (lenN pre) = Ok (v, lenN pre + lenN bs).
(** [m] fails on every proper prefix of [bs] at the end of a file. *)
Definition cuts {A} (m : P A) (bs : bytes) : Prop :=
  forall pre cut rest, bs = cut ++ rest -> rest <> [] -> exists e, m (pre ++ cut) (lenN pre) = Err e.

Lemma pbind_Ok {A B} (m : P A) (k : A -> P B) b p r :
  pbind m k b p = Ok r <-> exists a p', m b p = Ok (a, p') /\ k a b p' = Ok r.
Proof.
  unfold pbind. destruct (m b p) as [[a p']|e]; split; intros H.
  - eauto.
  - destruct H as (? & ? & E & ?). injection E as <- <-. assumption.
  - discriminate.
  - destruct H as (? & ? & E & ?). discriminate.
Qed.

Lemma parses_ret {A} (v : A) : parses (pret v) [] v.
Proof. intros pre post. unfold pret. rewrite lenN_nil, N.add_0_r. reflexivity. Qed.
Lemma parses_bind {A B} (m : P A) (k : A -> P B) b1 b2 a v :
  parses m b1 a -> parses (k a) b2 v -> parses (pbind m k) (b1 ++ b2) v.
Proof.
  intros H1 H2 pre post. unfold pbind. rewrite <- app_assoc, (H1 pre (b2 ++ post)).
  specialize (H2 (pre ++ b1) post). rewrite lenN_app in H2. rewrite <- app_assoc in H2. rewrite H2.
  rewrite lenN_app, N.add_assoc. reflexivity.
Qed.
Lemma parses_bind_last {A B} (m : P A) (k : A -> P B) b1 a v :
  parses m b1 a -> parses (k a) [] v -> parses (pbind m k) b1 v.
Proof. intros H1 H2. rewrite <- (app_nil_r b1). eapply parses_bind; eassumption. Qed.
Lemma parses_bind_nil {A B} (m : P A) (k : A -> P B) b2 a v :
  parses m [] a -> parses (k a) b2 v -> parses (pbind m k) b2 v.
Proof. intros H1 H2. change b2 with ([] ++ b2). eapply parses_bind; eassumption. Qed.
Lemma parses_run {A} (m : P A) bs v post : parses m bs v -> prun m (bs ++ post) = Ok v.
Proof. intros H. unfold prun. specialize (H [] post). cbn [app] in H. rewrite lenN_nil in H. rewrite H. reflexivity. Qed.
Lemma parses_run_all {A} (m : P A) bs v : parses m bs v -> prun m bs = Ok v.
Proof. intros H. rewrite <- (app_nil_r bs). apply parses_run. assumption. Qed.

Lemma parses_read bs n : lenN bs = n -> parses (pread n) bs bs.
Proof. intros <- pre post. unfold pread. rewrite dropN_app_exact, takeN_app_exact. reflexivity. Qed.
Lemma parses_unpack bs n : lenN bs = n -> parses (punpack n) bs bs.
Proof.
  intros H. unfold punpack. eapply parses_bind_last; [apply parses_read; exact H|].
  rewrite H, N.eqb_refl. apply parses_ret.
Qed.
Lemma parses_u8 n : n < 256 -> parses u8 (leenc 1 n) n.
Proof.
  intros H. unfold u8. eapply parses_bind_last; [apply parses_unpack; reflexivity|].
  rewrite ledec_enc by (cbn; lia). apply parses_ret.
Qed.
Lemma parses_u16 n : n < 2 ^ 16 -> parses u16 (leenc 2 n) n.
Proof.
  intros H. unfold u16. eapply parses_bind_last; [apply parses_unpack; reflexivity|].
  rewrite ledec_enc by (exact H). apply parses_ret.
Qed.
Lemma parses_u32 n : n < 2 ^ 32 -> parses u32 (leenc 4 n) n.
Proof.
  intros H. unfold u32. eapply parses_bind_last; [apply parses_unpack; reflexivity|].
  rewrite ledec_enc by (exact H). apply parses_ret.
Qed.
Lemma parses_u64 n : n < 2 ^ 64 -> parses u64 (leenc 8 n) n.
Proof.
  intros H. unfold u64. eapply parses_bind_last; [apply parses_unpack; reflexivity|].
  rewrite ledec_enc by (exact H). apply parses_ret.
Qed.
Lemma parses_i8 z : (- 2 ^ 7 <= z < 2 ^ 7)%Z -> parses i8 (leenc 1 (of_signed 1 z)) z.
Proof.
  intros H. unfold i8. eapply parses_bind_last; [apply parses_unpack; reflexivity|].
  destruct (to_of_signed 1 z) as [E B]; [lia | exact H |]. rewrite ledec_enc by exact B. rewrite E. apply parses_ret.
Qed.
Lemma parses_i16 z : (- 2 ^ 15 <= z < 2 ^ 15)%Z -> parses i16 (leenc 2 (of_signed 2 z)) z.
Proof.
  intros H. unfold i16. eapply parses_bind_last; [apply parses_unpack; reflexivity|].
  destruct (to_of_signed 2 z) as [E B]; [lia | exact H |]. rewrite ledec_enc by exact B. rewrite E. apply parses_ret.
Qed.
Lemma parses_i32 z : (- 2 ^ 31 <= z < 2 ^ 31)%Z -> parses i32 (leenc 4 (of_signed 4 z)) z.
Proof.
  intros H. unfold i32. eapply parses_bind_last; [apply parses_unpack; reflexivity|].
  destruct (to_of_signed 4 z) as [E B]; [lia | exact H |]. rewrite ledec_enc by exact B. rewrite E. apply parses_ret.
Qed.
Lemma parses_i64 z : (- 2 ^ 63 <= z < 2 ^ 63)%Z -> parses i64 (leenc 8 (of_signed 8 z)) z.
Proof.
  intros H. unfold i64. eapply parses_bind_last; [apply parses_unpack; reflexivity|].
  destruct (to_of_signed 8 z) as [E B]; [lia | exact H |]. rewrite ledec_enc by exact B. rewrite E. apply parses_ret.
Qed.
Lemma parses_ubool (v : bool) : parses ubool (leenc 1 (if v then 1 else 0)) v.
Proof.
  unfold ubool. eapply parses_bind_last; [apply parses_u8; destruct v; lia|].
  destruct v; apply parses_ret.
Qed.

Lemma parses_prep {A} (m : P A) (enc : A -> bytes) vs :
  (forall v, In v vs -> parses m (enc v) v) -> parses (prep (length vs) m) (flat_map enc vs) vs.
Proof.
  induction vs as [|v vs IH]; intros H; cbn [length prep flat_map].
  - apply parses_ret.
  - eapply parses_bind; [apply H; left; reflexivity|].
    eapply parses_bind_last; [apply IH; intros; apply H; right; assumption | apply parses_ret].
Qed.
Lemma parses_plist {A} (m : P A) (enc : A -> bytes) vs n :
  lenN vs = n -> (forall v, In v vs -> parses m (enc v) v) -> parses (plist n m) (flat_map enc vs) vs.
Proof.
  intros <- H. unfold plist. rewrite lenN_length, Nat2N.id. apply parses_prep. assumption.
Qed.

(** ** Truncation *)

Lemma cuts_ret {A} (v : A) : cuts (pret v) [].
Proof. intros pre cut rest E Hr. symmetry in E. apply app_eq_nil in E as [_ ->]. congruence. Qed.
Lemma cuts_bind {A B} (m : P A) (k : A -> P B) b1 b2 a :
  parses m b1 a -> cuts m b1 -> cuts (k a) b2 -> cuts (pbind m k) (b1 ++ b2).
Proof.
  intros H1 C1 C2 pre cut rest E Hr. unfold pbind.
  assert (Hcase : (exists r, b1 = cut ++ r /\ r <> []) \/ (exists c2, cut = b1 ++ c2 /\ b2 = c2 ++ rest)).
  { apply app_eq_app in E as (l & [[Ea Eb]|[Ea Eb]]).
    - destruct l as [|x l].
      + right. exists []. rewrite app_nil_r in *. cbn [app] in Eb. subst. auto.
      + left. exists (x :: l). split; [assumption | discriminate].
    - right. exists l. auto. }
  destruct Hcase as [(r & E1 & Hr1) | (c2 & -> & E2)].
  - destruct (C1 pre cut r E1 Hr1) as [e ->]. eauto.
  - rewrite (H1 pre c2). specialize (C2 (pre ++ b1) c2 rest E2 Hr). rewrite lenN_app, <- app_assoc in C2.
    destruct C2 as [e ->]. eauto.
Qed.
Lemma cuts_bind_last {A B} (m : P A) (k : A -> P B) b1 a :
  parses m b1 a -> cuts m b1 -> cuts (k a) [] -> cuts (pbind m k) b1.
Proof. intros H1 C1 C2. rewrite <- (app_nil_r b1). eapply cuts_bind; eassumption. Qed.
Lemma cuts_unpack bs n : lenN bs = n -> cuts (punpack n) bs.
Proof.
  intros Hn pre cut rest E Hr. unfold punpack, pbind, pread. rewrite dropN_app_exact.
  assert (lenN cut < n).
  { subst. rewrite lenN_app. assert (lenN rest <> 0) by (rewrite lenN_0; assumption). lia. }
  rewrite takeN_all by lia. destruct (N.eqb_spec (lenN cut) n); [lia|]. eexists. reflexivity.
Qed.
Lemma cuts_map_unpack {A} (f : bytes -> A) bs n : lenN bs = n -> cuts (let* d := punpack n in pret (f d)) bs.
Proof.
  intros Hn. eapply cuts_bind_last; [apply parses_unpack; assumption | apply cuts_unpack; assumption | apply cuts_ret].
Qed.
Lemma cuts_u8 n : cuts u8 (leenc 1 n). Proof. apply cuts_map_unpack. reflexivity. Qed.
Lemma cuts_u16 n : cuts u16 (leenc 2 n). Proof. apply cuts_map_unpack. reflexivity. Qed.
Lemma cuts_u32 n : cuts u32 (leenc 4 n). Proof. apply cuts_map_unpack. reflexivity. Qed.
Lemma cuts_u64 n : cuts u64 (leenc 8 n). Proof. apply cuts_map_unpack. reflexivity. Qed.
Lemma cuts_ubool (v : bool) : cuts ubool (leenc 1 (if v then 1 else 0)).
Proof. unfold ubool. eapply cuts_bind_last; [apply parses_u8; destruct v; lia | apply cuts_u8 | apply cuts_ret]. Qed.
Lemma cuts_prep {A} (m : P A) (enc : A -> bytes) vs :
  (forall v, In v vs -> parses m (enc v) v /\ cuts m (enc v)) -> cuts (prep (length vs) m) (flat_map enc vs).
Proof.
  induction vs as [|v vs IH]; intros H; cbn [length prep flat_map].
  - apply cuts_ret.
  - eapply cuts_bind; [apply H; left; reflexivity | apply H; left; reflexivity |].
    eapply cuts_bind_last; [apply parses_prep; intros; apply H; right; assumption | apply IH; intros; apply H; right; assumption | apply cuts_ret].
Qed.
Lemma cuts_plist {A} (m : P A) (enc : A -> bytes) vs n :
  lenN vs = n -> (forall v, In v vs -> parses m (enc v) v /\ cuts m (enc v)) -> cuts (plist n m) (flat_map enc vs).
Proof. intros <- H. unfold plist. rewrite lenN_length, Nat2N.id. apply cuts_prep. assumption. Qed.

(** ** Inversion: what a successful run tells about the file *)

Definition reads {A} (m : P A) (R : bytes -> A -> Prop) : Prop :=
  forall b p v p', p <= lenN b -> m b p = Ok (v, p') ->
  exists bs, R bs v /\ p' = p + lenN bs /\ p' <= lenN b /\ takeN (lenN bs) (dropN p b) = bs.

Lemma reads_ret {A} (v : A) (R : bytes -> A -> Prop) : R [] v -> reads (pret v) R.
Proof.
  intros HR b p v' p' Hp E. injection E as <- <-. exists []. rewrite lenN_nil, takeN_0.
  split; [assumption|]. split; [lia|]. split; [lia | reflexivity].
Qed.
Lemma reads_bind {A B} (m : P A) (k : A -> P B) (R1 : bytes -> A -> Prop) (R : bytes -> B -> Prop) :
  reads m R1 -> (forall b1 a, R1 b1 a -> reads (k a) (fun b2 v => R (b1 ++ b2) v)) -> reads (pbind m k) R.
Proof.
  intros H1 H2 b p v p' Hp E. apply pbind_Ok in E as (a & p1 & E1 & E2).
  destruct (H1 b p a p1 Hp E1) as (b1 & HR1 & -> & Hp1 & T1).
  destruct (H2 b1 a HR1 b (p + lenN b1) v p' Hp1 E2) as (b2 & HR & -> & Hp2 & T2).
  exists (b1 ++ b2). split; [assumption|]. rewrite lenN_app. split; [lia|]. split; [lia|].
  rewrite takeN_add, T1, dropN_dropN, T2. reflexivity.
Qed.
Lemma reads_weaken {A} (m : P A) (R R' : bytes -> A -> Prop) :
  (forall bs v, R bs v -> R' bs v) -> reads m R -> reads m R'.
Proof. intros HR H b p v p' Hp E. destruct (H b p v p' Hp E) as (bs & ? & ?). exists bs. auto. Qed.
Lemma unpack_inv n b p d p' : punpack n b p = Ok (d, p') -> lenN d = n /\ p' = p + n /\ (0 < n -> p + n <= lenN b) /\ takeN n (dropN p b) = d.
Proof.
  unfold punpack, pbind, pread, pret, praise. destruct (N.eqb_spec (lenN (takeN n (dropN p b))) n) as [E|E]; [|discriminate].
  intros H. injection H as <- <-. rewrite E. split; [reflexivity|]. split; [reflexivity|]. split; [|reflexivity].
  rewrite lenN_takeN, lenN_dropN in E. lia.
Qed.
Lemma reads_unpack n : reads (punpack n) (fun bs v => lenN bs = n /\ v = bs).
Proof.
  intros b p v p' Hp E. apply unpack_inv in E as (El & -> & Hb & Et). exists v. rewrite El.
  split; [split; reflexivity|]. split; [reflexivity|]. split; [|assumption].
  destruct (N.eq_dec n 0); [lia | apply Hb; lia].
Qed.
Lemma ledec_leenc_reads w d : lenN d = N.of_nat w -> ledec d < 256 ^ N.of_nat w /\ d = leenc w (ledec d).
Proof.
  intros H. split; [rewrite <- H; apply ledec_bound|].
  replace w with (length d) by (rewrite lenN_length in H; lia). rewrite leenc_dec. reflexivity.
Qed.
Lemma reads_le w n (Hn : n = N.of_nat w) :
  reads (let* d := punpack n in pret (ledec d)) (fun bs v => v < 256 ^ n /\ bs = leenc w v).
Proof.
  subst n. eapply reads_bind; [apply reads_unpack|]. cbn beta. intros b1 a [Hl ->]. apply reads_ret.
  rewrite app_nil_r. apply ledec_leenc_reads. assumption.
Qed.
Lemma reads_u8 : reads u8 (fun bs v => v < 2 ^ 8 /\ bs = leenc 1 v). Proof. exact (reads_le 1 1 eq_refl). Qed.
Lemma reads_u16 : reads u16 (fun bs v => v < 2 ^ 16 /\ bs = leenc 2 v). Proof. exact (reads_le 2 2 eq_refl). Qed.
Lemma reads_u32 : reads u32 (fun bs v => v < 2 ^ 32 /\ bs = leenc 4 v). Proof. exact (reads_le 4 4 eq_refl). Qed.
Lemma reads_u64 : reads u64 (fun bs v => v < 2 ^ 64 /\ bs = leenc 8 v). Proof. exact (reads_le 8 8 eq_refl). Qed.
Lemma reads_prep {A} (m : P A) (R : bytes -> A -> Prop) n :
  reads m R -> reads (prep n m) (fun bs vs => length vs = n /\ exists bss, bs = concat bss /\ Forall2 R bss vs).
Proof.
  intros H. induction n as [|n IH]; cbn [prep].
  - apply reads_ret. split; [reflexivity|]. exists []. split; [reflexivity | constructor].
  - eapply reads_bind; [exact H|]. cbn beta. intros b1 a Ha.
    eapply reads_bind; [exact IH|]. cbn beta. intros b2 l (Hl & bss & -> & HF). apply reads_ret.
    split; [cbn; congruence|]. exists (b1 :: bss). rewrite app_nil_r. split; [reflexivity | constructor; assumption].
Qed.
Lemma reads_plist {A} (m : P A) (R : bytes -> A -> Prop) n :
  reads m R -> reads (plist n m) (fun bs vs => lenN vs = n /\ exists bss, bs = concat bss /\ Forall2 R bss vs).
Proof.
  intros H. unfold plist. eapply reads_weaken; [|apply reads_prep; exact H]. cbn beta.
  intros bs v (Hl & HR). split; [rewrite lenN_length; lia | assumption].
Qed.
