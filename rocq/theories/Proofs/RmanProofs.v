(** * Proofs about patcher manifests *)

From Coq Require Import Sorted.
From Verif Require Import Base.Py Base.PyFacts Base.Text Base.TextFacts Base.Bin Base.BinFacts Spec.Utf8Spec Proofs.Utf8Proofs Spec.DictSpec Proofs.DictProofs Proofs.RstProofs Model.Tools Model.Rman Spec.RmanSpec.

(** ** Reading at a position *)

Definition gives {A} (m : P A) (b : bytes) (p : N) (v : A) : Prop := exists p', m b p = Ok (v, p').

Lemma bytes_at_iff b p bs n : lenN bs = n -> 0 < n -> (bytes_at b p bs <-> p + n <= lenN b /\ takeN n (dropN p b) = bs).
Proof.
  intros Hn H0. split.
  - intros (pre & post & -> & <-). rewrite !lenN_app, Hn. split; [lia|].
    rewrite dropN_app_exact. apply takeN_app_n. exact Hn.
  - intros [Hl E]. exists (takeN p b), (dropN n (dropN p b)). rewrite <- E. split.
    + rewrite takeN_dropN, takeN_dropN. reflexivity.
    + rewrite lenN_takeN. lia.
Qed.
Lemma unpack_iff n b p d p' : 0 < n -> (punpack n b p = Ok (d, p') <-> lenN d = n /\ bytes_at b p d /\ p' = p + n).
Proof.
  intros H0. split.
  - intros H. destruct (unpack_inv _ _ _ _ _ H) as (Hl & Hp & Hle & E). split; [exact Hl|]. split; [|exact Hp].
    apply (bytes_at_iff b p d n Hl H0). auto.
  - intros (Hl & (pre & post & -> & <-) & ->). rewrite (parses_unpack d n Hl). rewrite Hl. reflexivity.
Qed.
Lemma u_iff w n b p v p' : n = N.of_nat w -> 0 < n ->
  ((let* d := punpack n in pret (ledec d)) b p = Ok (v, p') <-> int_at b w p v /\ p' = p + n).
Proof.
  intros Hn H0. rewrite pbind_Ok. split.
  - intros (d & q & H & E). apply (unpack_iff _ _ _ _ _ H0) in H. destruct H as (Hl & Ha & ->).
    injection E as <- <-. rewrite Hn in Hl. destruct (ledec_leenc_reads w d Hl) as [B E]. split; [|reflexivity].
    split; [exact B|]. rewrite <- E. exact Ha.
  - intros ((B & Ha) & ->). exists (leenc w v), (p + n). split.
    + apply unpack_iff; [exact H0|]. split; [rewrite leenc_len; lia|]. auto.
    + unfold pret. rewrite ledec_enc by exact B. reflexivity.
Qed.
Lemma u8_iff b p v p' : u8 b p = Ok (v, p') <-> int_at b 1 p v /\ p' = p + 1.
Proof. apply u_iff; reflexivity. Qed.
Lemma u16_iff b p v p' : u16 b p = Ok (v, p') <-> int_at b 2 p v /\ p' = p + 2.
Proof. apply u_iff; reflexivity. Qed.
Lemma u32_iff b p v p' : u32 b p = Ok (v, p') <-> int_at b 4 p v /\ p' = p + 4.
Proof. apply u_iff; reflexivity. Qed.
Lemma u64_iff b p v p' : u64 b p = Ok (v, p') <-> int_at b 8 p v /\ p' = p + 8.
Proof. apply u_iff; reflexivity. Qed.
Lemma i32_iff b p z p' : i32 b p = Ok (z, p') <-> sint_at b p z /\ p' = p + 4.
Proof.
  split.
  - unfold i32. rewrite pbind_Ok. intros (d & q & H & E). apply unpack_iff in H; [|reflexivity]. destruct H as (Hl & Ha & ->).
    injection E as <- <-. split; [|reflexivity]. destruct (ledec_leenc_reads 4 d Hl) as [B E].
    assert (Q : (- 2 ^ 31 <= to_signed 4 (ledec d) < 2 ^ 31)%Z /\ of_signed 4 (to_signed 4 (ledec d)) = ledec d).
    { change (256 ^ N.of_nat 4) with 4294967296 in B. unfold to_signed, of_signed. change (2 ^ (8 * 4 - 1)) with 2147483648.
      change (2 ^ (8 * Z.of_N 4))%Z with 4294967296%Z. change (2 ^ 31)%Z with 2147483648%Z.
      destruct (N.ltb_spec (ledec d) 2147483648) as [L|L]; (split; [lia|]).
      - rewrite Z.mod_small by lia. lia.
      - rewrite <- (Z.mod_unique (Z.of_N (ledec d) - 4294967296) 4294967296 (-1) (Z.of_N (ledec d))) by lia. lia. }
    destruct Q as [Q1 Q2]. split; [exact Q1|]. rewrite Q2, <- E. exact Ha.
  - intros ((B & pre & post & -> & <-) & ->). rewrite (parses_i32 z B). reflexivity.
Qed.

(** Parsers started by a jump do not depend on the position. *)
Definition free {A} (m : P A) : Prop := forall b p p' v, gives m b p v -> gives m b p' v.

Lemma gives_ret {A} (a v : A) b p : gives (pret a) b p v <-> a = v.
Proof. split; [intros [p' E]; injection E as -> _; reflexivity | intros ->; exists p; reflexivity]. Qed.
Lemma gives_lift {A} (r : result A) v b p : gives (plift r) b p v <-> r = Ok v.
Proof.
  destruct r; cbn [plift]; [rewrite gives_ret; split; congruence|].
  split; [intros [p' E]; discriminate | discriminate].
Qed.
Lemma gives_u32 {B} (k : N -> P B) b p v : gives (pbind u32 k) b p v <-> exists x, int_at b 4 p x /\ gives (k x) b (p + 4) v.
Proof.
  split.
  - intros [q H]. apply pbind_Ok in H. destruct H as (x & p' & H & K). apply u32_iff in H. destruct H as [H ->]. exists x. split; [exact H | exists q; exact K].
  - intros (x & H & q & K). exists q. apply pbind_Ok. exists x, (p + 4). split; [apply u32_iff; auto | exact K].
Qed.
Lemma gives_u16 {B} (k : N -> P B) b p v : gives (pbind u16 k) b p v <-> exists x, int_at b 2 p x /\ gives (k x) b (p + 2) v.
Proof.
  split.
  - intros [q H]. apply pbind_Ok in H. destruct H as (x & p' & H & K). apply u16_iff in H. destruct H as [H ->]. exists x. split; [exact H | exists q; exact K].
  - intros (x & H & q & K). exists q. apply pbind_Ok. exists x, (p + 2). split; [apply u16_iff; auto | exact K].
Qed.
Lemma gives_u8 {B} (k : N -> P B) b p v : gives (pbind u8 k) b p v <-> exists x, int_at b 1 p x /\ gives (k x) b (p + 1) v.
Proof.
  split.
  - intros [q H]. apply pbind_Ok in H. destruct H as (x & p' & H & K). apply u8_iff in H. destruct H as [H ->]. exists x. split; [exact H | exists q; exact K].
  - intros (x & H & q & K). exists q. apply pbind_Ok. exists x, (p + 1). split; [apply u8_iff; auto | exact K].
Qed.
Lemma gives_i32 {B} (k : Z -> P B) b p v : gives (pbind i32 k) b p v <-> exists x, sint_at b p x /\ gives (k x) b (p + 4) v.
Proof.
  split.
  - intros [q H]. apply pbind_Ok in H. destruct H as (x & p' & H & K). apply i32_iff in H. destruct H as [H ->]. exists x. split; [exact H | exists q; exact K].
  - intros (x & H & q & K). exists q. apply pbind_Ok. exists x, (p + 4). split; [apply i32_iff; auto | exact K].
Qed.
Lemma gives_unpack {B} n (k : bytes -> P B) b p v : 0 < n -> gives (pbind (punpack n) k) b p v <-> exists x, lenN x = n /\ bytes_at b p x /\ gives (k x) b (p + n) v.
Proof.
  intros H0. split.
  - intros [q H]. apply pbind_Ok in H. destruct H as (x & p' & H & K). apply unpack_iff in H; [|exact H0]. destruct H as (H1 & H2 & ->). exists x. split; [exact H1|]. split; [exact H2 | exists q; exact K].
  - intros (x & H1 & H2 & q & K). exists q. apply pbind_Ok. exists x, (p + n). split; [apply unpack_iff; auto | exact K].
Qed.
Lemma gives_tell {B} (k : N -> P B) b p v : gives (pbind ptell k) b p v <-> gives (k p) b p v.
Proof. reflexivity. Qed.
Lemma gives_skip {B} z (k : unit -> P B) b p v : gives (pbind (pskip z) k) b p v <-> gives (k tt) b (Z.to_N (Z.of_N p + z)) v.
Proof. unfold gives, pbind, pskip. replace (Z.to_N (Z.max 0 (Z.of_N p + z))) with (Z.to_N (Z.of_N p + z)) by lia. reflexivity. Qed.
Lemma gives_seek {B} z (k : unit -> P B) b p v : gives (pbind (pseek z) k) b p v <-> exists q, Z.of_N q = z /\ gives (k tt) b q v.
Proof.
  unfold gives, pbind, pseek. destruct (Z.ltb_spec z 0).
  - split; [intros [p' E]; discriminate | intros (q & E & _); lia].
  - split.
    + intros G. exists (Z.to_N z). split; [lia | exact G].
    + intros (q & <- & G). rewrite N2Z.id. exact G.
Qed.
Lemma gives_bind {A B} (m : P A) (k : A -> P B) b p v : (forall a, free (k a)) ->
  (gives (pbind m k) b p v <-> exists a, gives m b p a /\ forall q, gives (k a) b q v).
Proof.
  intros F. split.
  - intros [q H]. apply pbind_Ok in H. destruct H as (a & p' & H & K). exists a. split; [exists p'; exact H|].
    intros q'. apply (F a b p'). exists q. exact K.
  - intros (a & (p' & H) & K). destruct (K p') as [q K']. exists q. apply pbind_Ok. exists a, p'. auto.
Qed.
Lemma free_seek {B} z (k : unit -> P B) : free (pbind (pseek z) k).
Proof. intros b p p' v. rewrite !gives_seek. auto. Qed.
Lemma free_ret {A} (a : A) : free (pret a).
Proof. intros b p p' v. rewrite !gives_ret. auto. Qed.
Lemma free_bind {A B} (m : P A) (k : A -> P B) : free m -> (forall a, free (k a)) -> free (pbind m k).
Proof.
  intros Fm Fk b p p' v. rewrite !gives_bind by exact Fk. intros (a & H & K). exists a. split; [exact (Fm _ _ _ _ H) | exact K].
Qed.
Lemma free_lift {A} (r : result A) : free (plift r).
Proof. intros b p p' v. rewrite !gives_lift. auto. Qed.
Lemma free_liftbind {A B} (r : result A) (k : A -> P B) : (forall a, free (k a)) -> free (pbind (plift r) k).
Proof. intros F. apply free_bind; [apply free_lift | exact F]. Qed.

(** ** Tables *)

Fixpoint rfold {A S} (step : S -> A -> result S) (s : S) (l : list A) : result S :=
  match l with [] => Ok s | x :: t => let! s' := step s x in rfold step s' t end.
Lemma rfold_collect {A} (l acc : list A) : rfold collect acc l = Ok (acc ++ l).
Proof.
  revert acc. induction l as [|x t IH]; intros acc; cbn [rfold]; [rewrite app_nil_r; reflexivity|].
  unfold collect at 1. cbn [rbind]. rewrite IH, <- app_assoc. reflexivity.
Qed.
Lemma gives_loop {A S} (m : P A) (step : S -> A -> result S) n : forall b p s s',
  gives (table_loop n m step s) b p s' <->
  exists l, length l = n /\ rfold step s l = Ok s' /\
    forall k x, nth_error l k = Some x -> exists q, ref_at b (p + 4 * N.of_nat k) q /\ gives m b q x.
Proof.
  induction n as [|n IH]; intros b p s s'; cbn [table_loop].
  - rewrite gives_ret. split.
    + intros <-. exists []. split; [reflexivity|]. split; [reflexivity|]. intros [|k] x; discriminate.
    + intros ([|x l] & Hl & E & _); [|discriminate]. injection E as ->. reflexivity.
  - rewrite gives_tell, gives_i32.
    assert (F : forall z, gives (let* _ := pseek z in let* x := m in let* s' := plift (step s x) in let* _ := pseek (Z.of_N p + 4) in table_loop n m step s') b (p + 4) s' <->
      exists q x, Z.of_N q = z /\ gives m b q x /\ exists s1, step s x = Ok s1 /\ gives (table_loop n m step s1) b (p + 4) s').
    { intros z. rewrite gives_seek. split.
      - intros (q & Hq & G). rewrite gives_bind in G by (intros; apply free_liftbind; intros; apply free_seek).
        destruct G as (x & Gx & G). specialize (G 0). rewrite gives_bind in G by (intros; apply free_seek).
        destruct G as (s1 & G1 & G). apply gives_lift in G1. specialize (G 0). rewrite gives_seek in G. destruct G as (q' & Hq' & G).
        replace q' with (p + 4) in G by lia. exists q, x. split; [exact Hq|]. split; [exact Gx|]. exists s1. auto.
      - intros (q & x & Hq & Gx & s1 & E & G). exists q. split; [exact Hq|].
        rewrite gives_bind by (intros; apply free_liftbind; intros; apply free_seek). exists x. split; [exact Gx|]. intros q0.
        rewrite gives_bind by (intros; apply free_seek). exists s1. split; [apply gives_lift; exact E|]. intros q1.
        apply gives_seek. exists (p + 4). split; [lia | exact G]. }
    split.
    + intros (z & Hz & G). apply F in G. destruct G as (q & x & Hq & Gx & s1 & E & G).
      apply IH in G. destruct G as (l & Hl & E' & Hr). exists (x :: l). split; [cbn; congruence|]. split; [cbn; rewrite E; exact E'|].
      intros [|k] y Hy.
      * injection Hy as <-. exists q. split; [|exact Gx]. unfold ref_at. replace (Z.of_N q - _)%Z with z by lia.
        replace (p + 4 * N.of_nat 0) with p by lia. exact Hz.
      * destruct (Hr k y Hy) as (q' & H1 & H2). exists q'. split; [|exact H2].
        replace (p + 4 * N.of_nat (Datatypes.S k)) with (p + 4 + 4 * N.of_nat k) by lia. exact H1.
    + intros ([|x l] & Hl & E & Hr); [discriminate|]. cbn [rfold] in E. apply rbind_Ok in E. destruct E as (s1 & E1 & E2).
      destruct (Hr 0%nat x eq_refl) as (q & H1 & H2). replace (p + 4 * N.of_nat 0) with p in H1 by lia.
      exists (Z.of_N q - Z.of_N p)%Z. split; [exact H1|]. apply F. exists q, x. split; [lia|]. split; [exact H2|].
      exists s1. split; [exact E1|]. apply IH. exists l. split; [cbn in Hl; lia|]. split; [exact E2|].
      intros k y Hy. destruct (Hr (Datatypes.S k) y Hy) as (q' & H3 & H4). exists q'. split; [|exact H4].
      replace (p + 4 * N.of_nat (Datatypes.S k)) with (p + 4 + 4 * N.of_nat k) in H3 by lia. exact H3.
Qed.
Lemma table_at_iff {A} (R R' : N -> A -> Prop) b p l : (forall q x, R q x <-> R' q x) -> table_at b R p l <-> table_at b R' p l.
Proof.
  intros HR. split; intros (n & H1 & H2 & H3); exists n; (split; [exact H1|]); (split; [exact H2|]); intros k x Hk;
  destruct (H3 k x Hk) as (q & Hq & Hx); exists q; (split; [exact Hq|]); apply HR; exact Hx.
Qed.
Lemma gives_table {A S} (m : P A) (step : S -> A -> result S) b p s s' :
  gives (parse_table m step s) b p s' <-> exists l, table_at b (gives m b) p l /\ rfold step s l = Ok s'.
Proof.
  unfold parse_table. rewrite gives_i32. split.
  - intros (n & Hn & G). apply gives_loop in G. destruct G as (l & Hl & E & Hr). exists l. split; [|exact E].
    exists n. auto.
  - intros (l & (n & Hn & Hl & Hr) & E). exists n. split; [exact Hn|]. apply gives_loop. exists l. auto.
Qed.
Lemma gives_collect {A} (m : P A) (R : N -> A -> Prop) b p l : (forall q x, gives m b q x <-> R q x) ->
  (gives (parse_table m collect []) b p l <-> table_at b R p l).
Proof.
  intros HR. rewrite gives_table. rewrite <- (table_at_iff _ _ b p l HR). split.
  - intros (l' & H & E). rewrite rfold_collect in E. injection E as ->. exact H.
  - intros H. exists l. split; [exact H | apply rfold_collect].
Qed.

(** ** Field tables *)

Lemma prep_u16 n : forall b p l, gives (prep n u16) b p l <->
  length l = n /\ forall k o, nth_error l k = Some o -> int_at b 2 (p + 2 * N.of_nat k) o.
Proof.
  induction n as [|n IH]; intros b p l; cbn [prep].
  - rewrite gives_ret. split; [intros <-; split; [reflexivity | intros [|k] o; discriminate] | intros [H _]; destruct l; [reflexivity | discriminate]].
  - rewrite gives_u16. split.
    + intros (x & Hx & G). rewrite gives_bind in G by (intros; apply free_ret). destruct G as (t & Gt & G).
      specialize (G 0). apply gives_ret in G. subst l. apply IH in Gt. destruct Gt as [Hl Hr]. split; [cbn; congruence|].
      intros [|k] o Hk.
      * injection Hk as <-. replace (p + 2 * N.of_nat 0) with p by lia. exact Hx.
      * replace (p + 2 * N.of_nat (S k)) with (p + 2 + 2 * N.of_nat k) by lia. apply Hr. exact Hk.
    + intros [Hl Hr]. destruct l as [|x t]; [discriminate|]. exists x. split.
      * specialize (Hr 0%nat x eq_refl). replace (p + 2 * N.of_nat 0) with p in Hr by lia. exact Hr.
      * rewrite gives_bind by (intros; apply free_ret). exists t. split; [|intros q; apply gives_ret; reflexivity].
        apply IH. split; [cbn in Hl; lia|]. intros k o Hk. specialize (Hr (S k) o Hk).
        replace (p + 2 * N.of_nat (S k)) with (p + 2 + 2 * N.of_nat k) in Hr by lia. exact Hr.
Qed.
Lemma prep_u64 n : forall b p l, gives (prep n u64) b p l <->
  length l = n /\ forall k o, nth_error l k = Some o -> int_at b 8 (p + 8 * N.of_nat k) o.
Proof.
  induction n as [|n IH]; intros b p l; cbn [prep].
  - rewrite gives_ret. split; [intros <-; split; [reflexivity | intros [|k] o; discriminate] | intros [H _]; destruct l; [reflexivity | discriminate]].
  - split.
    + intros [q0 G]. apply pbind_Ok in G. destruct G as (x & p' & Hx & G). apply u64_iff in Hx. destruct Hx as [Hx ->].
      assert (G' : gives (let* l0 := prep n u64 in pret (x :: l0)) b (p + 8) l) by (exists q0; exact G). clear G. rename G' into G.
      rewrite gives_bind in G by (intros; apply free_ret). destruct G as (t & Gt & G).
      specialize (G 0). apply gives_ret in G. subst l. apply IH in Gt. destruct Gt as [Hl Hr]. split; [cbn; congruence|].
      intros [|k] o Hk.
      * injection Hk as <-. replace (p + 8 * N.of_nat 0) with p by lia. exact Hx.
      * replace (p + 8 * N.of_nat (S k)) with (p + 8 + 8 * N.of_nat k) by lia. apply Hr. exact Hk.
    + intros [Hl Hr]. destruct l as [|x t]; [discriminate|].
      assert (Hx : int_at b 8 p x). { specialize (Hr 0%nat x eq_refl). replace (p + 8 * N.of_nat 0) with p in Hr by lia. exact Hr. }
      assert (Gt : gives (prep n u64) b (p + 8) t).
      { apply IH. split; [cbn in Hl; lia|]. intros k o Hk. specialize (Hr (S k) o Hk).
        replace (p + 8 * N.of_nat (S k)) with (p + 8 + 8 * N.of_nat k) in Hr by lia. exact Hr. }
      destruct Gt as [q Gt]. exists q. apply pbind_Ok. exists x, (p + 8). split; [apply u64_iff; auto|].
      apply pbind_Ok. exists t, q. split; [exact Gt | reflexivity].
Qed.

Definition vtable_at (b : bytes) (p : N) (o : N * list N) : Prop :=
  fst o = p /\ exists vt size, sint_at b p (Z.of_N p - Z.of_N vt) /\ int_at b 2 vt size /\ 4 <= size /\ lenN (snd o) = (size - 4) / 2 /\
    forall k x, nth_error (snd o) k = Some x -> int_at b 2 (vt + 4 + 2 * N.of_nat k) x.
Ltac Zify.zify_post_hook ::= Z.div_mod_to_equations.
Lemma gives_vtable b p o : gives vtable b p o <-> vtable_at b p o.
Proof.
  destruct o as [p0 offs]. unfold vtable, vtable_at. cbn [fst snd]. rewrite gives_tell, gives_i32. split.
  - intros (z & Hz & G). rewrite gives_seek in G. destruct G as (vt & Hvt & G). rewrite gives_u16 in G. destruct G as (size & Hs & G).
    rewrite gives_skip in G. destruct (Z.ltb_spec ((Z.of_N size - 4) / 2) 0) as [L|L]; [destruct G as [q G]; discriminate|].
    rewrite gives_bind in G by (intros; apply free_ret). destruct G as (l & Gl & G). specialize (G 0). apply gives_ret in G.
    injection G as -> ->. split; [reflexivity|]. apply prep_u16 in Gl. destruct Gl as [Hl Hr].
    exists vt, size. split; [replace (Z.of_N p0 - Z.of_N vt)%Z with z by lia; exact Hz|]. split; [exact Hs|]. split; [lia|].
    split; [rewrite lenN_length, Hl; lia|]. intros k x Hk. specialize (Hr k x Hk).
    replace (Z.to_N (Z.of_N (vt + 2) + 2)) with (vt + 4) in Hr by lia. exact Hr.
  - intros (-> & vt & size & Hz & Hs & L & Hl & Hr). exists (Z.of_N p - Z.of_N vt)%Z. split; [exact Hz|].
    rewrite gives_seek. exists vt. split; [lia|]. rewrite gives_u16. exists size. split; [exact Hs|]. rewrite gives_skip.
    destruct (Z.ltb_spec ((Z.of_N size - 4) / 2) 0) as [L'|L']; [lia|].
    rewrite gives_bind by (intros; apply free_ret). exists offs. split; [|intros q; apply gives_ret; reflexivity].
    apply prep_u16. split; [rewrite lenN_length in Hl; lia|]. intros k x Hk. specialize (Hr k x Hk).
    replace (Z.to_N (Z.of_N (vt + 2) + 2)) with (vt + 4) by lia. exact Hr.
Qed.
Lemma int_at_det b w p x y : int_at b w p x -> int_at b w p y -> x = y.
Proof.
  intros (Bx & pre & post & E & L) (By & pre' & post' & E' & L'). rewrite E in E'.
  assert (Q : pre = pre' /\ leenc w x ++ post = leenc w y ++ post').
  { apply app_inv_len; [exact E' | congruence]. }
  destruct Q as [_ Q]. apply app_inv_len in Q; [|rewrite !leenc_len; reflexivity]. destruct Q as [Q _].
  rewrite <- (ledec_enc w x Bx), <- (ledec_enc w y By). congruence.
Qed.
Lemma sint_at_det b p x y : sint_at b p x -> sint_at b p y -> x = y.
Proof.
  intros Hx Hy. assert (Ex : i32 b p = Ok (x, p + 4)) by (apply i32_iff; auto).
  assert (Ey : i32 b p = Ok (y, p + 4)) by (apply i32_iff; auto). rewrite Ex in Ey. injection Ey as ->. reflexivity.
Qed.
Lemma nth_ext_det {A} (R : nat -> A -> Prop) (l l' : list A) : (forall k x y, R k x -> R k y -> x = y) -> length l = length l' ->
  (forall k x, nth_error l k = Some x -> R k x) -> (forall k x, nth_error l' k = Some x -> R k x) -> l = l'.
Proof.
  revert R l'. induction l as [|x t IH]; intros R [|y t'] D Hl H H'; try discriminate; [reflexivity|].
  f_equal; [apply (D 0%nat); [apply H | apply H']; reflexivity|].
  apply (IH (fun k => R (S k))); [intros k; apply D | cbn in Hl; lia | intros k a; apply (H (S k)) | intros k a; apply (H' (S k))].
Qed.
Lemma vtable_det b p o o' : vtable_at b p o -> vtable_at b p o' -> o = o'.
Proof.
  destruct o as [q offs], o' as [q' offs']. intros (E & vt & size & Hz & Hs & L & Hl & Hr) (E' & vt' & size' & Hz' & Hs' & L' & Hl' & Hr').
  cbn [fst snd] in *. subst q q'. pose proof (sint_at_det _ _ _ _ Hz Hz'). assert (vt' = vt) by lia. subst vt'.
  pose proof (int_at_det _ _ _ _ _ Hs Hs'). subst size'. f_equal.
  apply (nth_ext_det (fun k => int_at b 2 (vt + 4 + 2 * N.of_nat k))); [intros k; apply int_at_det | rewrite lenN_length in Hl, Hl'; lia | exact Hr | exact Hr'].
Qed.
Lemma slot_iff b p i q : slot b p i q <-> exists o, vtable_at b p o /\
  q = match nth_error (snd o) i with Some x => if x =? 0 then None else Some (p + x) | None => None end.
Proof.
  split.
  - intros (vt & size & offs & H1 & H2 & H3 & H4 & H5 & ->). exists (p, offs). split; [|reflexivity].
    split; [reflexivity|]. exists vt, size. auto.
  - intros ([q' offs] & (E & vt & size & H1 & H2 & H3 & H4 & H5) & ->). exists vt, size, offs. auto 10.
Qed.
Lemma slot_of b p o i q : vtable_at b p o ->
  (slot b p i q <-> q = match nth_error (snd o) i with Some x => if x =? 0 then None else Some (p + x) | None => None end).
Proof.
  intros V. rewrite slot_iff. split.
  - intros (o' & V' & ->). rewrite (vtable_det _ _ _ _ V V'). reflexivity.
  - intros ->. exists o. auto.
Qed.
Lemma gives_field {A} (fmt : N -> P A) (R : N -> A -> Prop) b p o i q v :
  vtable_at b p o -> (forall r x, gives (fmt r) b r x <-> R r x) ->
  (gives (get_field o i fmt) b q v <-> field b R p i v).
Proof.
  intros V HR. pose proof (slot_of b p o i) as Sl. unfold get_field. destruct V as (Ep & V). rewrite Ep.
  assert (V' : vtable_at b p o) by (split; auto).
  assert (N0 : slot b p i None -> (pret (A := option A) None = pret None)) by reflexivity.
  unfold field.
  destruct (nth_error (snd o) i) as [[|x]|] eqn:E.
  - rewrite gives_ret. split.
    + intros <-. apply (Sl _ V'). reflexivity.
    + destruct v as [x|]; [|reflexivity]. intros (r & Hr & _). apply (Sl _ V') in Hr. discriminate.
  - rewrite gives_seek. split.
    + intros (r & Er & G). rewrite gives_bind in G by (intros; apply free_ret). destruct G as (a & Ga & G). specialize (G 0).
      apply gives_ret in G. subst v. assert (r = p + N.pos x) by lia. subst r. exists (p + N.pos x). split; [apply (Sl _ V'); reflexivity|].
      apply HR. exact Ga.
    + destruct v as [a|].
      * intros (r & Hr & Ha). apply (Sl _ V') in Hr. change (N.pos x =? 0) with false in Hr. injection Hr as ->.
        exists (p + N.pos x). split; [lia|]. rewrite gives_bind by (intros; apply free_ret). exists a. split; [apply HR; exact Ha|].
        intros r. apply gives_ret. reflexivity.
      * intros H. apply (Sl _ V') in H. discriminate.
  - rewrite gives_ret. split.
    + intros <-. apply (Sl _ V'). reflexivity.
    + destruct v as [x|]; [|reflexivity]. intros (r & Hr & _). apply (Sl _ V') in Hr. discriminate.
Qed.
Lemma free_field {A} (fmt : N -> P A) o i : free (get_field o i fmt).
Proof. unfold get_field. destruct (nth_error (snd o) i) as [[|x]|]; [apply free_ret | apply free_seek | apply free_ret]. Qed.
Lemma free_field_bind {A B} (fmt : N -> P A) o i (k : option A -> P B) : (forall a, free (k a)) -> free (pbind (get_field o i fmt) k).
Proof. intros F. apply free_bind; [apply free_field | exact F]. Qed.

Lemma fQ_iff b r x : gives (fQ r) b r x <-> int_at b 8 r x.
Proof. unfold fQ. split; [intros [q H]; apply u64_iff in H; tauto | intros H; exists (r + 8); apply u64_iff; auto]. Qed.
Lemma fL_iff b r x : gives (fL r) b r x <-> int_at b 4 r x.
Proof. unfold fL. split; [intros [q H]; apply u32_iff in H; tauto | intros H; exists (r + 4); apply u32_iff; auto]. Qed.
Definition zref_at b (p : N) (z : Z) : Prop := sint_at b p (z - Z.of_N p).
Lemma fOffset_iff b r x : gives (fOffset r) b r x <-> zref_at b r x.
Proof.
  unfold fOffset, zref_at. rewrite gives_i32. split.
  - intros (z & Hz & G). apply gives_ret in G. subst x. replace (Z.of_N r + z - Z.of_N r)%Z with z by lia. exact Hz.
  - intros H. exists (x - Z.of_N r)%Z. split; [exact H|]. apply gives_ret. lia.
Qed.
Lemma text_iff b p s : gives unpack_string b p s <-> text_at b p s.
Proof.
  unfold unpack_string, text_at. rewrite gives_u32. split.
  - intros (n & Hn & G). exists n. split; [exact Hn|]. unfold gives, pbind, pread in G.
    assert (Hp : p + 4 <= lenN b). { destruct Hn as (_ & pre & post & -> & <-). rewrite !lenN_app, leenc_len. lia. }
    set (d := takeN n (dropN (p + 4) b)) in *.
    assert (Ed : utf8_dec d = Ok s). { destruct G as [p' G]. destruct (utf8_dec d); cbn in G; [|discriminate]. injection G as -> _. reflexivity. }
    apply utf8_dec_iff in Ed. destruct Ed as [HF Ed]. split; [exact HF|]. rewrite <- Ed. split.
    + exists (takeN (p + 4) b), (dropN n (dropN (p + 4) b)). split; [unfold d; rewrite !takeN_dropN; reflexivity | rewrite lenN_takeN; lia].
    + unfold d. rewrite lenN_takeN, lenN_dropN. lia.
  - intros (n & Hn & HF & (pre & post & Eb & Hp) & Hl). exists n. split; [exact Hn|]. 
    unfold gives, pbind, pread. assert (Ed : takeN n (dropN (p + 4) b) = utf8_enc s).
    { rewrite Eb, <- Hp, dropN_app_exact. destruct Hl as [Hl|[Hl He]]; [apply takeN_app_n; exact Hl|].
      assert (post = []). { rewrite Eb, !lenN_app in He. destruct post; [reflexivity|]. rewrite lenN_cons in He. lia. }
      subst post. rewrite app_nil_r. apply takeN_all. lia. }
    rewrite Ed, utf8_dec_enc by exact HF. eexists. reflexivity.
Qed.
Lemma fStr_iff b r x : gives (fStr r) b r x <-> str_at b r x.
Proof.
  unfold fStr, str_at. rewrite gives_i32. split.
  - intros (z & Hz & G). apply gives_seek in G. destruct G as (q & Hq & G). exists q. split; [|apply text_iff; exact G].
    unfold ref_at. replace (Z.of_N q - Z.of_N r)%Z with z by lia. exact Hz.
  - intros (q & Hq & Ht). exists (Z.of_N q - Z.of_N r)%Z. split; [exact Hq|]. apply gives_seek. exists q. split; [lia | apply text_iff; exact Ht].
Qed.

(** ** Entries *)

Ltac free_tac := repeat first [apply free_ret | apply free_field_bind; intros | apply free_seek].
Ltac fld_in G V H := rewrite gives_bind in G by (intros; free_tac); let v := fresh "v" in destruct G as (v & H & G); specialize (G 0);
  first [ rewrite (gives_field _ _ _ _ _ _ _ _ V (fQ_iff _)) in H | rewrite (gives_field _ _ _ _ _ _ _ _ V (fL_iff _)) in H
        | rewrite (gives_field _ _ _ _ _ _ _ _ V (fOffset_iff _)) in H | rewrite (gives_field _ _ _ _ _ _ _ _ V (fStr_iff _)) in H ].
Lemma field_vtable {A} b (R : N -> A -> Prop) p i v : field b R p i v -> exists o, vtable_at b p o.
Proof.
  destruct v; cbn [field].
  - intros (q & H & _). apply slot_iff in H. destruct H as (o & V & _). eauto.
  - intros H. apply slot_iff in H. destruct H as (o & V & _). eauto.
Qed.
Lemma gives_vt {B} (k : N * list N -> P B) b p v : (forall o, free (k o)) ->
  (gives (pbind vtable k) b p v <-> exists o, vtable_at b p o /\ forall q, gives (k o) b q v).
Proof.
  intros F. rewrite gives_bind by exact F. split; intros (o & V & G); exists o; (split; [apply gives_vtable; exact V | exact G]).
Qed.
Lemma chunk_iff b p c : gives parse_chunk b p c <-> chunk_at b p c.
Proof.
  destruct c as [[id size] target]. unfold parse_chunk, chunk_at. rewrite gives_vt by (intros; free_tac). split.
  - intros (o & V & G). specialize (G 0). fld_in G V H1. fld_in G V H2. fld_in G V H3. apply gives_ret in G. injection G as -> -> ->. auto.
  - intros (H1 & H2 & H3). destruct (field_vtable _ _ _ _ _ H1) as (o & V). exists o. split; [exact V|]. intros q.
    rewrite gives_bind by (intros; free_tac). exists id. split; [apply (gives_field _ _ _ _ _ _ _ _ V (fQ_iff _)); exact H1 | intros q1].
    rewrite gives_bind by (intros; free_tac). exists size. split; [apply (gives_field _ _ _ _ _ _ _ _ V (fL_iff _)); exact H2 | intros q2].
    rewrite gives_bind by (intros; free_tac). exists target. split; [apply (gives_field _ _ _ _ _ _ _ _ V (fL_iff _)); exact H3 | intros q3].
    apply gives_ret. reflexivity.
Qed.

(** ** Bundles *)

Notation centry := (option N * option N * option N)%type.
Definition csize (c : centry) : option N := snd (fst c).
Definition mk_chunk (id : option N) (x : centry) (off : N) : chunk :=
  {| c_id := fst (fst x); c_bundle := id; c_offset := off; c_size := csize x; c_target := snd x |}.
Definition sumN (l : list N) : N := fold_right N.add 0 l.
Lemma sumN_app a b : sumN (a ++ b) = sumN a + sumN b.
Proof. induction a as [|x t IH]; cbn; [reflexivity|]. fold (sumN (t ++ b)) (sumN t). rewrite IH. lia. Qed.
Lemma known_dec (l : list centry) : (exists sizes, map Some sizes = map csize l) \/ (forall sizes, map Some sizes <> map csize l).
Proof.
  induction l as [|[[i [n|]] t] l IH].
  - left. exists []. reflexivity.
  - destruct IH as [[sizes E]|H].
    + left. exists (n :: sizes). cbn. rewrite E. reflexivity.
    + right. intros [|x sizes] E; [discriminate|]. cbn in E. injection E as _ E. exact (H _ E).
  - right. intros [|x sizes] E; [discriminate|]. cbn in E. discriminate.
Qed.
Lemma map_Some_inj (a b : list N) : map Some a = map Some b -> a = b.
Proof. revert b. induction a as [|x t IH]; intros [|y u] E; cbn in E; try discriminate; [reflexivity|]. injection E as -> E. f_equal. auto. Qed.
Lemma tiles_alt id l cs : tiles id l cs <-> length cs = length l /\
  forall k x, nth_error l k = Some x -> exists sizes, map Some sizes = map csize (firstn k l) /\ nth_error cs k = Some (mk_chunk id x (sumN sizes)).
Proof.
  split; intros [Hl H]; (split; [exact Hl|]).
  - intros k [[i s] t] Hk. exact (H k i s t Hk).
  - intros k i s t Hk. exact (H k (i, s, t) Hk).
Qed.
Lemma tiles_det id l cs cs' : tiles id l cs -> tiles id l cs' -> cs = cs'.
Proof.
  rewrite !tiles_alt. intros [Hl H] [Hl' H'].
  apply (nth_ext_det (fun k c => exists x sizes, nth_error l k = Some x /\ map Some sizes = map csize (firstn k l) /\ c = mk_chunk id x (sumN sizes))).
  - intros k c c' (x & s & E1 & E2 & ->) (x' & s' & E1' & E2' & ->). rewrite E1 in E1'. injection E1' as <-.
    rewrite <- E2 in E2'. apply map_Some_inj in E2'. subst s'. reflexivity.
  - congruence.
  - intros k c Hk. assert (L : (k < length l)%nat) by (rewrite <- Hl; apply nth_error_Some; congruence).
    destruct (nth_error l k) as [x|] eqn:E; [|apply nth_error_None in E; lia]. destruct (H k x E) as (s & E1 & E2).
    exists x, s. split; [reflexivity|]. split; [exact E1 | congruence].
  - intros k c Hk. assert (L : (k < length l)%nat) by (rewrite <- Hl'; apply nth_error_Some; congruence).
    destruct (nth_error l k) as [x|] eqn:E; [|apply nth_error_None in E; lia]. destruct (H' k x E) as (s & E1 & E2).
    exists x, s. split; [reflexivity|]. split; [exact E1 | congruence].
Qed.
Lemma tiles_snoc id l cs x sizes : tiles id l cs -> map Some sizes = map csize l -> tiles id (l ++ [x]) (cs ++ [mk_chunk id x (sumN sizes)]).
Proof.
  rewrite !tiles_alt. intros [Hl H] E. split; [rewrite !app_length, Hl; reflexivity|]. intros k y Hk.
  destruct (Nat.lt_ge_cases k (length l)) as [L|L].
  - rewrite nth_error_app1 in Hk by exact L. destruct (H k y Hk) as (s & E1 & E2). exists s.
    rewrite firstn_app, nth_error_app1 by lia. replace (k - length l)%nat with 0%nat by lia. cbn [firstn]. rewrite app_nil_r. auto.
  - rewrite nth_error_app2 in Hk by exact L. assert (k = length l).
    { destruct (k - length l)%nat as [|[|]] eqn:D; [lia | discriminate | discriminate]. }
    subst k. rewrite Nat.sub_diag in Hk. injection Hk as <-. exists sizes.
    rewrite firstn_app, Nat.sub_diag, firstn_all, nth_error_app2, Hl, Nat.sub_diag by lia. cbn [firstn]. rewrite app_nil_r. auto.
Qed.
Lemma tiles_prefix id l l' cs : tiles id (l ++ l') cs -> tiles id l (firstn (length l) cs).
Proof.
  rewrite !tiles_alt. intros [Hl H]. rewrite app_length in Hl. split; [rewrite firstn_length; lia|]. intros k x Hk.
  assert (L : (k < length l)%nat) by (apply nth_error_Some; congruence).
  destruct (H k x) as (s & E1 & E2); [rewrite nth_error_app1 by exact L; exact Hk|]. exists s.
  rewrite firstn_app in E1. replace (k - length l)%nat with 0%nat in E1 by lia. cbn [firstn] in E1. rewrite app_nil_r in E1.
  split; [exact E1|]. rewrite <- E2. rewrite <- (firstn_skipn (length l) cs) at 2. symmetry. apply nth_error_app1. rewrite firstn_length. lia.
Qed.
Lemma add_chunk_known id l cs x sizes : tiles id l cs -> map Some sizes = map csize l ->
  add_chunk {| b_id := id; b_chunks := cs |} x = Ok {| b_id := id; b_chunks := cs ++ [mk_chunk id x (sumN sizes)] |}.
Proof.
  intros T E. apply tiles_alt in T. destruct T as [Hl H]. destruct x as [[i s] t]. unfold add_chunk. cbn [b_id b_chunks].
  destruct l as [|y l _] using rev_ind.
  - destruct cs; [|discriminate]. destruct sizes; [|discriminate]. reflexivity.
  - destruct (H (length l) y) as (s0 & E1 & E2); [rewrite nth_error_app2, Nat.sub_diag by lia; reflexivity|].
    rewrite firstn_app, Nat.sub_diag, firstn_all in E1. cbn [firstn] in E1. rewrite app_nil_r in E1.
    destruct cs as [|c cs _] using rev_ind; [rewrite app_length in Hl; cbn in Hl; lia|].
    rewrite !app_length in Hl. cbn in Hl. rewrite nth_error_app2 in E2 by lia. replace (length l - length cs)%nat with 0%nat in E2 by lia.
    injection E2 as ->. rewrite rev_unit. cbn [c_size mk_chunk c_offset].
    rewrite map_app in E. cbn [map] in E. rewrite <- E1 in E.
    destruct sizes as [|n sizes _] using rev_ind; [destruct s0; discriminate|]. rewrite map_app in E. cbn [map] in E.
    apply app_inj_tail in E. destruct E as [E En]. apply map_Some_inj in E. subst s0. rewrite <- En. cbn [rbind].
    rewrite sumN_app. cbn [sumN fold_right]. rewrite N.add_0_r. reflexivity.
Qed.
Lemma add_chunk_unknown id l cs x : tiles id l cs -> (forall sizes, map Some sizes <> map csize l) ->
  add_chunk {| b_id := id; b_chunks := cs |} x = Err TypeError.
Proof.
  intros T U. apply tiles_alt in T. destruct T as [Hl H]. destruct x as [[i s] t]. unfold add_chunk. cbn [b_id b_chunks].
  destruct l as [|y l _] using rev_ind; [destruct (U []); reflexivity|].
  destruct (H (length l) y) as (s0 & E1 & E2); [rewrite nth_error_app2, Nat.sub_diag by lia; reflexivity|].
  rewrite firstn_app, Nat.sub_diag, firstn_all in E1. cbn [firstn] in E1. rewrite app_nil_r in E1.
  destruct cs as [|c cs _] using rev_ind; [rewrite app_length in Hl; cbn in Hl; lia|].
  rewrite !app_length in Hl. cbn in Hl. rewrite nth_error_app2 in E2 by lia. replace (length l - length cs)%nat with 0%nat in E2 by lia.
  injection E2 as ->. rewrite rev_unit. cbn [c_size mk_chunk c_offset].
  destruct (csize y) as [n|] eqn:En; [|reflexivity]. destruct (U (s0 ++ [n])). rewrite !map_app, E1. cbn [map]. rewrite En. reflexivity.
Qed.
Lemma add_chunks_iff l : forall id l0 cs0 r, tiles id l0 cs0 ->
  (rfold add_chunk {| b_id := id; b_chunks := cs0 |} l = Ok r <-> b_id r = id /\ tiles id (l0 ++ l) (b_chunks r)).
Proof.
  induction l as [|x l IH]; intros id l0 cs0 r T; cbn [rfold].
  - rewrite app_nil_r. split.
    + intros E. injection E as <-. auto.
    + intros [E T']. destruct r as [i cs]. cbn in *. subst i. rewrite (tiles_det _ _ _ _ T T'). reflexivity.
  - destruct (known_dec l0) as [[sizes E]|U].
    + rewrite (add_chunk_known _ _ _ x _ T E). cbn [rbind]. rewrite (IH id (l0 ++ [x]) _ r (tiles_snoc _ _ _ x _ T E)), <- app_assoc. reflexivity.
    + rewrite (add_chunk_unknown _ _ _ x T U). cbn [rbind]. split; [discriminate|]. intros [_ T']. apply tiles_alt in T'. destruct T' as [_ T'].
      destruct (T' (length l0) x) as (s & E & _); [rewrite nth_error_app2, Nat.sub_diag by lia; reflexivity|].
      rewrite firstn_app, Nat.sub_diag, firstn_all in E. cbn [firstn] in E. rewrite app_nil_r in E. destruct (U _ E).
Qed.
Lemma tiles_nil id : tiles id [] [].
Proof. split; [reflexivity|]. intros [|k]; discriminate. Qed.
Lemma free_pseek_opt_bind {B} o (k : unit -> P B) : free (pbind (pseek_opt o) k).
Proof. destruct o; [apply free_seek | intros b p p' v [q E]; discriminate]. Qed.
Lemma gives_pseek_opt {B} o (k : unit -> P B) b p v : gives (pbind (pseek_opt o) k) b p v <-> exists q, o = Some (Z.of_N q) /\ gives (k tt) b q v.
Proof.
  destruct o as [z|]; cbn [pseek_opt].
  - rewrite gives_seek. split; intros (q & E & G); exists q; (split; [congruence | exact G]).
  - split; [intros [q E]; discriminate | intros (q & E & _); discriminate].
Qed.
Ltac free_tac ::= repeat first [apply free_ret | apply free_field_bind; intros | apply free_seek | apply free_pseek_opt_bind].
Lemma zref_slot b p i q : (exists s, slot b p i (Some s) /\ ref_at b s q) <-> field b (zref_at b) p i (Some (Z.of_N q)).
Proof. reflexivity. Qed.
Lemma bundle_iff b p bu : gives parse_bundle b p bu <-> bundle_at b p bu.
Proof.
  unfold parse_bundle, bundle_at. rewrite gives_vt by (intros; free_tac). split.
  - intros (o & V & G). specialize (G 0). fld_in G V H1. fld_in G V H2. rewrite gives_pseek_opt in G. destruct G as (q & -> & G).
    apply gives_table in G. destruct G as (l & Ht & E). apply (add_chunks_iff l v [] [] bu (tiles_nil v)) in E. cbn [app] in E. destruct E as [<- E].
    split; [exact H1|]. apply zref_slot in H2. destruct H2 as (s & H2 & H3). exists s, q, l. split; [exact H2|]. split; [exact H3|]. split; [|exact E].
    apply (table_at_iff _ _ _ _ _ (chunk_iff b)). exact Ht.
  - intros (H1 & s & q & l & H2 & H3 & Ht & E). destruct (field_vtable _ _ _ _ _ H1) as (o & V). exists o. split; [exact V|]. intros q0.
    rewrite gives_bind by (intros; free_tac). exists (b_id bu). split; [apply (gives_field _ _ _ _ _ _ _ _ V (fQ_iff _)); exact H1 | intros q1].
    rewrite gives_bind by (intros; free_tac). exists (Some (Z.of_N q)). split; [apply (gives_field _ _ _ _ _ _ _ _ V (fOffset_iff _)); exact (ex_intro _ s (conj H2 H3)) | intros q2].
    rewrite gives_pseek_opt. exists q. split; [reflexivity|]. apply gives_table. exists l. split; [apply (table_at_iff _ _ _ _ _ (chunk_iff b)); exact Ht|].
    apply (add_chunks_iff l (b_id bu) [] [] bu (tiles_nil _)). auto.
Qed.

(** ** Flags *)

Lemma flag_iff b p f : gives parse_flag b p f <-> flag_at b p f.
Proof.
  destruct f as [id s]. unfold parse_flag, flag_at. cbn [fst snd]. rewrite gives_skip. replace (Z.to_N (Z.of_N p + 4)) with (p + 4) by lia.
  rewrite gives_unpack by reflexivity.
  assert (F : forall z x, gives (let* _ := pskip (z - 4) in let* s0 := unpack_string in pret (x, s0)) b (p + 12) (id, s) <-> x = id /\ text_at b (Z.to_N (Z.of_N (p + 8) + z)) s).
  { intros z x. rewrite gives_skip. replace (Z.of_N (p + 12) + (z - 4))%Z with (Z.of_N (p + 8) + z)%Z by lia.
    rewrite gives_bind by (intros; free_tac). split.
    - intros (a & Ga & G). specialize (G 0). apply gives_ret in G. injection G as -> ->. split; [reflexivity | apply text_iff; exact Ga].
    - intros [-> T]. exists s. split; [apply text_iff; exact T | intros q; apply gives_ret; reflexivity]. }
  split.
  - intros (pad & Hl & Ha & G). rewrite gives_u8 in G. destruct G as (x & Hx & G). rewrite gives_i32 in G. destruct G as (z & Hz & G).
    replace (p + 4 + 3) with (p + 7) in * by lia. replace (p + 7 + 1) with (p + 8) in * by lia. replace (p + 8 + 4) with (p + 12) in G by lia.
    apply F in G. destruct G as [-> T]. exists pad, z. auto.
  - intros (pad & z & Hl & Ha & Hx & Hz & T). exists pad. split; [exact Hl|]. split; [exact Ha|]. rewrite gives_u8. exists id.
    replace (p + 4 + 3) with (p + 7) by lia. split; [exact Hx|]. rewrite gives_i32. exists z. replace (p + 7 + 1) with (p + 8) by lia.
    split; [exact Hz|]. replace (p + 8 + 4) with (p + 12) by lia. apply F. auto.
Qed.

(** ** File entries *)

Lemma sorted_seq (f : nat -> bool) n k : StronglySorted lt (filter f (seq k n)).
Proof.
  revert k. induction n as [|n IH]; intros k; cbn [seq filter]; [constructor|].
  destruct (f k); [|apply IH]. constructor; [apply IH|]. apply Forall_forall. intros x Hx. apply filter_In in Hx. destruct Hx as [Hx _].
  apply in_seq in Hx. lia.
Qed.
Lemma sorted_map (l : list nat) : StronglySorted lt l -> StronglySorted N.lt (map (fun i => N.of_nat i + 1) l).
Proof.
  induction 1 as [|x l H IH HF]; cbn [map]; constructor; [exact IH|]. apply Forall_map. eapply Forall_impl; [|exact HF]. cbn. intros; lia.
Qed.
Lemma sorted_det (l l' : list N) : StronglySorted N.lt l -> StronglySorted N.lt l' -> (forall i, In i l <-> In i l') -> l = l'.
Proof.
  revert l'. induction l as [|x l IH]; intros l' S S' E.
  - destruct l' as [|y l']; [reflexivity|]. destruct (proj2 (E y)). left. reflexivity.
  - destruct l' as [|y l']; [destruct (proj1 (E x)); left; reflexivity|].
    inversion S as [|? ? S1 F1]; subst. inversion S' as [|? ? S2 F2]; subst. rewrite Forall_forall in F1, F2.
    assert (x = y). { destruct (proj1 (E x) (or_introl eq_refl)) as [->|Hx]; [reflexivity|]. destruct (proj2 (E y) (or_introl eq_refl)) as [->|Hy]; [reflexivity|].
      apply F2 in Hx. apply F1 in Hy. lia. }
    subst y. f_equal. apply IH; [assumption | assumption|]. intros i. split; intros Hi.
    + destruct (proj1 (E i) (or_intror Hi)) as [->|H]; [apply F1 in Hi; lia | exact H].
    + destruct (proj2 (E i) (or_intror Hi)) as [->|H]; [apply F2 in Hi; lia | exact H].
Qed.
Lemma flag_ids_iff mask ids : flag_ids mask = ids <-> mask_flags mask ids.
Proof.
  assert (G : forall m, m <> 0 -> mask_flags (Some m) (flag_ids (Some m))).
  { intros m Hm. destruct m as [|m]; [congruence|]. cbn [flag_ids mask_flags]. exists (N.pos m). split; [reflexivity|]. split; [exact Hm|].
    split; [apply sorted_map, sorted_seq|]. intros i. rewrite in_map_iff. split.
    - intros (k & <- & Hk). apply filter_In in Hk. destruct Hk as [Hk Ht]. apply in_seq in Hk. split; [lia|].
      replace (N.of_nat k + 1 - 1) with (N.of_nat k) by lia. exact Ht.
    - intros [Hi Ht]. exists (N.to_nat (i - 1)). split; [lia|]. apply filter_In. split; [apply in_seq; lia|]. rewrite N2Nat.id. exact Ht. }
  split.
  - intros <-. destruct mask as [[|m]|]; [right; reflexivity | apply G; discriminate | left; reflexivity].
  - destruct ids as [l|]; cbn [mask_flags].
    + intros (m & -> & Hm & S & E). destruct m as [|m]; [congruence|]. destruct (G _ Hm) as (m' & Em & _ & S' & E'). injection Em as <-.
      cbn [flag_ids] in *. f_equal. apply sorted_det; [exact S' | exact S|]. intros i. rewrite E, E'. reflexivity.
    + intros [->| ->]; reflexivity.
Qed.
Lemma file_iff b p e : gives parse_file_entry b p e <-> file_at b p e.
Proof.
  unfold parse_file_entry, file_at. rewrite gives_vt by (intros; free_tac). split.
  - intros (o & V & G). specialize (G 0). fld_in G V H1. fld_in G V H2. fld_in G V H3. fld_in G V H4. fld_in G V H5. fld_in G V H6. fld_in G V H7.
    rewrite gives_pseek_opt in G. destruct G as (q & -> & G). rewrite gives_u32 in G. destruct G as (n & Hn & G).
    rewrite gives_bind in G by (intros; free_tac). destruct G as (l & Gl & G). specialize (G 0). apply gives_ret in G. subst e.
    cbn [e_name e_link e_flags e_dir e_size e_chunks]. unfold plist in Gl. apply prep_u64 in Gl. destruct Gl as [Hl Hr].
    split; [eauto|]. split; [exact H2|]. split; [exact H3|]. split; [exact H4|]. split; [exists v3; split; [exact H5 | apply flag_ids_iff; reflexivity]|].
    split; [|exact H7]. apply zref_slot in H6. destruct H6 as (s & H6 & H8). exists s, q. split; [exact H6|]. split; [exact H8|].
    replace (lenN l) with n by (rewrite lenN_length; lia). auto.
  - intros ((id & H1) & H2 & H3 & H4 & (mask & H5 & Hm) & (s & q & H6 & H8 & Hn & Hr) & H7).
    destruct (field_vtable _ _ _ _ _ H1) as (o & V). exists o. split; [exact V|]. intros q0.
    rewrite gives_bind by (intros; free_tac). exists id. split; [apply (gives_field _ _ _ _ _ _ _ _ V (fQ_iff _)); exact H1 | intros q1].
    rewrite gives_bind by (intros; free_tac). exists (e_dir e). split; [apply (gives_field _ _ _ _ _ _ _ _ V (fQ_iff _)); exact H2 | intros q2].
    rewrite gives_bind by (intros; free_tac). exists (e_size e). split; [apply (gives_field _ _ _ _ _ _ _ _ V (fL_iff _)); exact H3 | intros q3].
    rewrite gives_bind by (intros; free_tac). exists (e_name e). split; [apply (gives_field _ _ _ _ _ _ _ _ V (fStr_iff _)); exact H4 | intros q4].
    rewrite gives_bind by (intros; free_tac). exists mask. split; [apply (gives_field _ _ _ _ _ _ _ _ V (fQ_iff _)); exact H5 | intros q5].
    rewrite gives_bind by (intros; free_tac). exists (Some (Z.of_N q)). split; [apply (gives_field _ _ _ _ _ _ _ _ V (fOffset_iff _)); exact (ex_intro _ s (conj H6 H8)) | intros q6].
    rewrite gives_bind by (intros; free_tac). exists (e_link e). split; [apply (gives_field _ _ _ _ _ _ _ _ V (fStr_iff _)); exact H7 | intros q7].
    rewrite gives_pseek_opt. exists q. split; [reflexivity|]. rewrite gives_u32. exists (lenN (e_chunks e)). split; [exact Hn|].
    rewrite gives_bind by (intros; free_tac). exists (e_chunks e). split; [unfold plist; apply prep_u64; split; [rewrite lenN_length; lia | exact Hr]|].
    intros q8. apply gives_ret. destruct e. cbn in *. f_equal. apply flag_ids_iff. exact Hm.
Qed.
Lemma dir_iff b p d : gives parse_directory b p d <-> dir_at b p d.
Proof.
  destruct d as [[name id] parent]. unfold parse_directory, dir_at. rewrite gives_vt by (intros; free_tac). split.
  - intros (o & V & G). specialize (G 0). fld_in G V H1. fld_in G V H2. fld_in G V H3. apply gives_ret in G. injection G as -> -> ->. auto.
  - intros (H1 & H2 & H3). destruct (field_vtable _ _ _ _ _ H1) as (o & V). exists o. split; [exact V|]. intros q.
    rewrite gives_bind by (intros; free_tac). exists id. split; [apply (gives_field _ _ _ _ _ _ _ _ V (fQ_iff _)); exact H1 | intros q1].
    rewrite gives_bind by (intros; free_tac). exists parent. split; [apply (gives_field _ _ _ _ _ _ _ _ V (fQ_iff _)); exact H2 | intros q2].
    rewrite gives_bind by (intros; free_tac). exists name. split; [apply (gives_field _ _ _ _ _ _ _ _ V (fStr_iff _)); exact H3 | intros q3].
    apply gives_ret. reflexivity.
Qed.

(** ** Body *)

Lemma body_iff b t : prun parse_tables b = Ok t <-> body_at b t.
Proof.
  assert (R : prun parse_tables b = Ok t <-> gives parse_tables b 0 t).
  { unfold prun, gives. destruct (parse_tables b 0) as [[v p]|e]; cbn.
    - split; [intros E; injection E as ->; eauto | intros [q E]; injection E as -> _; reflexivity].
    - split; [discriminate | intros [q E]; discriminate]. }
  rewrite R. clear R. unfold parse_tables, body_at. rewrite gives_i32. split.
  - intros (n & Hn & G). rewrite gives_skip, gives_tell in G. change (Z.of_N (0 + 4)) with 4%Z in G. set (base := Z.to_N (4 + n)) in *.
    rewrite gives_i32 in G. destruct G as (v0 & H0 & G). rewrite gives_i32 in G. destruct G as (v1 & H1 & G).
    rewrite gives_i32 in G. destruct G as (v2 & H2 & G). rewrite gives_i32 in G. destruct G as (v3 & H3 & G).
    rewrite gives_i32 in G. destruct G as (v4 & H4 & G). rewrite gives_i32 in G. destruct G as (v5 & H5 & G).
    rewrite gives_seek in G. destruct G as (p0 & E0 & G). rewrite gives_bind in G by (intros; free_tac). destruct G as (bs & Gb & G). specialize (G 0).
    rewrite gives_seek in G. destruct G as (p1 & E1 & G). rewrite gives_bind in G by (intros; free_tac). destruct G as (fs & Gf & G). specialize (G 0).
    rewrite gives_seek in G. destruct G as (p2 & E2 & G). rewrite gives_bind in G by (intros; free_tac). destruct G as (es & Ge & G). specialize (G 0).
    rewrite gives_seek in G. destruct G as (p3 & E3 & G). rewrite gives_bind in G by (intros; free_tac). destruct G as (ds & Gd & G). specialize (G 0).
    apply gives_ret in G. subst t. cbn [t_bundles t_flags t_files t_dirs].
    apply (gives_collect _ _ _ _ _ (bundle_iff b)) in Gb. apply (gives_collect _ _ _ _ _ (flag_iff b)) in Gf.
    apply (gives_collect _ _ _ _ _ (file_iff b)) in Ge. apply (gives_collect _ _ _ _ _ (dir_iff b)) in Gd.
    replace (base + 4 + 4) with (base + 8) in * by lia. replace (base + 8 + 4) with (base + 12) in * by lia.
    replace (base + 12 + 4) with (base + 16) in * by lia. replace (base + 16 + 4) with (base + 20) in * by lia.
    exists n, base, p0, p1, p2, p3, v4, v5. unfold ref_at.
    replace (Z.of_N p0 - Z.of_N base)%Z with v0 by lia. replace (Z.of_N p1 - Z.of_N (base + 4))%Z with v1 by lia.
    replace (Z.of_N p2 - Z.of_N (base + 8))%Z with v2 by lia. replace (Z.of_N p3 - Z.of_N (base + 12))%Z with v3 by lia. auto 20.
  - intros (n & base & p0 & p1 & p2 & p3 & z4 & z5 & Hn & -> & H0 & H1 & H2 & H3 & H4 & H5 & Gb & Gf & Ge & Gd).
    exists n. split; [exact Hn|]. rewrite gives_skip, gives_tell. change (Z.of_N (0 + 4)) with 4%Z. set (base := Z.to_N (4 + n)) in *.
    replace (base + 20) with (base + 4 + 4 + 4 + 4 + 4) in * by lia. replace (base + 16) with (base + 4 + 4 + 4 + 4) in * by lia.
    replace (base + 12) with (base + 4 + 4 + 4) in * by lia. replace (base + 8) with (base + 4 + 4) in * by lia.
    rewrite gives_i32. eexists. split; [exact H0|]. rewrite gives_i32. eexists. split; [exact H1|]. rewrite gives_i32. eexists. split; [exact H2|].
    rewrite gives_i32. eexists. split; [exact H3|]. rewrite gives_i32. eexists. split; [exact H4|]. rewrite gives_i32. eexists. split; [exact H5|].
    rewrite gives_seek. exists p0. split; [lia|]. rewrite gives_bind by (intros; free_tac). exists (t_bundles t).
    split; [apply (gives_collect _ _ _ _ _ (bundle_iff b)); exact Gb | intros r0].
    rewrite gives_seek. exists p1. split; [lia|]. rewrite gives_bind by (intros; free_tac). exists (t_flags t).
    split; [apply (gives_collect _ _ _ _ _ (flag_iff b)); exact Gf | intros r1].
    rewrite gives_seek. exists p2. split; [lia|]. rewrite gives_bind by (intros; free_tac). exists (t_files t).
    split; [apply (gives_collect _ _ _ _ _ (file_iff b)); exact Ge | intros r2].
    rewrite gives_seek. exists p3. split; [lia|]. rewrite gives_bind by (intros; free_tac). exists (t_dirs t).
    split; [apply (gives_collect _ _ _ _ _ (dir_iff b)); exact Gd | intros r3]. apply gives_ret. destruct t. reflexivity.
Qed.

(** ** Dictionaries *)

Section Dicts.
Context {K V : Type} `{EqDec K}.
Lemma filter_filter {A} (f g : A -> bool) l : filter f (filter g l) = filter (fun x => f x && g x) l.
Proof.
  induction l as [|x t IH]; cbn [filter]; [reflexivity|]. destruct (g x); cbn [filter]; rewrite IH; [rewrite andb_true_r | rewrite andb_false_r]; reflexivity.
Qed.
Lemma filter_ext_in' {A} (f g : A -> bool) l : (forall x, f x = g x) -> filter f l = filter g l.
Proof. intros E. induction l as [|x t IH]; cbn [filter]; [reflexivity|]. rewrite E, IH. reflexivity. Qed.
Lemma dhas_dset (k k' : K) (v : V) d : dhas k (dset k' v d) = eqb k k' || dhas k d.
Proof. unfold dhas. rewrite dget_dset. destruct (eqb k k'); reflexivity. Qed.
Lemma fold_dset_keys (l : list (K * V)) d :
  dkeys (fold_left (fun d p => dset (fst p) (snd p) d) l d) = dkeys d ++ filter (fun k => negb (dhas k d)) (nub (map fst l)).
Proof.
  revert d. induction l as [|[k v] t IH]; intros d; cbn [fold_left map fst snd nub]; [rewrite app_nil_r; reflexivity|].
  rewrite IH, dkeys_dset. cbn [filter]. rewrite filter_filter.
  destruct (dhas k d) eqn:E; cbn [negb].
  - f_equal. apply filter_ext_in'. intros x. rewrite dhas_dset. destruct (eqbP x k) as [->|Hx]; cbn [orb].
    + rewrite eqbR, E. reflexivity.
    + destruct (eqbP k x); [congruence|]. rewrite andb_true_r. reflexivity.
  - rewrite <- app_assoc. cbn [app]. f_equal. f_equal. apply filter_ext_in'. intros x. rewrite dhas_dset.
    destruct (eqbP x k) as [->|Hx]; cbn [orb negb].
    + rewrite eqbR. rewrite andb_false_r. reflexivity.
    + destruct (eqbP k x); [congruence|]. rewrite andb_true_r. reflexivity.
Qed.
Lemma dict_of_nub (l : list (K * V)) : map fst (dict_of l) = nub (map fst l).
Proof.
  unfold dict_of. change (map fst ?d) with (dkeys d) at 1. rewrite fold_dset_keys. cbn [dkeys map app].
  rewrite (filter_ext_in' _ (fun _ => true)) by reflexivity. induction (nub (map fst l)) as [|x t IH]; cbn; [reflexivity | rewrite IH; reflexivity].
Qed.
Lemma dict_is_iff (d l : list (K * V)) : dict_is d l <-> d = dict_of l.
Proof.
  split.
  - intros [E Hd]. rewrite <- dict_of_nub in E.
    assert (G : forall k v, In (k, v) d -> dget k (dict_of l) = Some v).
    { intros k v Hk. apply (last_value_fun k l); [apply dict_of_last | apply Hd; exact Hk]. }
    pose proof (dict_of_NoDup l) as ND. revert E G ND. generalize (dict_of l). clear Hd. induction d as [|[k v] t IH]; intros [|[k' v'] t'] E G ND; try discriminate; [reflexivity|].
    cbn [map fst] in E. injection E as -> E. pose proof (G k' v (or_introl eq_refl)) as Gv. cbn [dget] in Gv. rewrite eqbR in Gv. injection Gv as ->.
    f_equal. cbn [dkeys map fst] in ND. inversion ND as [|? ? Hn ND']; subst. apply IH; [exact E | | exact ND'].
    intros x w Hx. specialize (G x w (or_intror Hx)). cbn [dget] in G. destruct (eqbP x k') as [->|Hk]; [|exact G].
    destruct Hn. unfold dkeys. rewrite <- E. apply in_map_iff. exists (k', w). auto.
  - intros ->. split; [apply dict_of_nub|]. intros k v Hk. rewrite <- (dget_In_NoDup k v _ (dict_of_NoDup l) Hk). apply dict_of_last.
Qed.
Lemma dget_last (k : K) (l : list (K * V)) o : dget k (dict_of l) = o <-> last_value k l o.
Proof. split; [intros <-; apply dict_of_last | intros Hl; apply (last_value_fun k l); [apply dict_of_last | exact Hl]]. Qed.
End Dicts.

(** ** Directories *)

Lemma join_snoc2 (sep : str) xs a b : join sep (xs ++ [a ++ sep ++ b]) = join sep (xs ++ [a; b]).
Proof.
  induction xs as [|x xs IH]; [reflexivity|]. cbn [app]. destruct xs as [|y xs]; [cbn; rewrite <- ?app_assoc; reflexivity|].
  change (join sep (x :: (y :: xs) ++ [a ++ sep ++ b])) with (x ++ sep ++ join sep ((y :: xs) ++ [a ++ sep ++ b])).
  change (join sep (x :: (y :: xs) ++ [a; b])) with (x ++ sep ++ join sep ((y :: xs) ++ [a; b])). rewrite IH. reflexivity.
Qed.
Lemma path_name_step l dname name : path_name l (Some (show dname ++ lit "/" ++ show name)) = path_name (l ++ [dname]) name.
Proof.
  assert (E : path_name (l ++ [dname]) name = Some (path_text ((l ++ [dname]) ++ [name]))) by (destruct l; reflexivity).
  rewrite E. unfold path_text. rewrite <- app_assoc. cbn [app]. rewrite map_app. cbn [map].
  change (match dname with Some s => s | None => lit "None" end) with (show dname).
  change (match name with Some s => s | None => lit "None" end) with (show name).
  destruct l as [|x l].
  - reflexivity.
  - unfold path_name, path_text. rewrite map_app. cbn [map]. f_equal. apply (join_snoc2 (lit "/") (_ :: map _ l)).
Qed.

Section Dirs.
Variable pairs : dir_table.
Notation dirs := (dict_of pairs).

Lemma full_name_mono fuel fuel' name d r : (fuel <= fuel')%nat -> full_name fuel dirs name d = Some r -> full_name fuel' dirs name d = Some r.
Proof.
  revert fuel' name d. induction fuel as [|k IH]; intros [|k'] name [id|] L E; cbn [full_name] in *; try discriminate; try exact E; try lia.
  destruct (dget (Some id) dirs) as [[dn parent]|]; [|exact E]. apply IH; [lia | exact E].
Qed.
Lemma dir_path_full d l : dir_path pairs d l -> forall fuel name, (length l <= fuel)%nat -> full_name fuel dirs name d = Some (Ok (path_name l name)).
Proof.
  induction 1 as [|id dn parent l Hv Hp IH]; intros fuel name L.
  - destruct fuel; reflexivity.
  - rewrite app_length in L. cbn in L. destruct fuel as [|k]; [lia|]. cbn [full_name]. apply dget_last in Hv. rewrite Hv.
    rewrite IH by lia. f_equal. f_equal. apply path_name_step.
Qed.
Lemma full_dir_path fuel : forall name d r, full_name fuel dirs name d = Some (Ok r) -> exists l, dir_path pairs d l /\ r = path_name l name.
Proof.
  induction fuel as [|k IH]; intros name [id|] r E; cbn [full_name] in E; try discriminate.
  - injection E as <-. exists []. split; [constructor | reflexivity].
  - destruct (dget (Some id) dirs) as [[dn parent]|] eqn:G; [|discriminate]. apply IH in E. destruct E as (l & Hl & ->).
    exists (l ++ [dn]). split; [|apply path_name_step]. apply DP_step with parent; [apply dget_last; exact G | exact Hl].
  - injection E as <-. exists []. split; [constructor | reflexivity].
Qed.
Lemma full_dangling fuel : forall name d e, full_name fuel dirs name d = Some (Err e) -> e = KeyError /\ dangling pairs d.
Proof.
  induction fuel as [|k IH]; intros name [id|] r E; cbn [full_name] in E; try discriminate.
  destruct (dget (Some id) dirs) as [[dn parent]|] eqn:G.
  - apply IH in E. destruct E as (-> & i & Hr & Hi). split; [reflexivity|]. exists i. split; [|exact Hi].
    apply RE_step with dn parent; [apply dget_last; exact G | exact Hr].
  - injection E as <-. split; [reflexivity|]. exists id. split; [constructor | apply dget_last; exact G].
Qed.
Lemma dangling_full d id : reaches pairs d (Some id) -> last_value (Some id) pairs None -> forall name, exists fuel, full_name fuel dirs name d = Some (Err KeyError).
Proof.
  intros Hr. remember (Some id) as t eqn:Et. revert Et. induction Hr as [d|i dn parent d Hv Hr IH]; intros Et Hn name; subst d.
  - exists 1%nat. cbn [full_name]. apply dget_last in Hn. rewrite Hn. reflexivity.
  - destruct (IH eq_refl Hn (Some (show dn ++ lit "/" ++ show name))) as [fuel E]. exists (S fuel). cbn [full_name]. apply dget_last in Hv. rewrite Hv. exact E.
Qed.
(** The number of links until the end of the chain. *)
Inductive ends : option N -> nat -> Prop :=
| EN_root : ends None 0
| EN_missing id : last_value (Some id) pairs None -> ends (Some id) 0
| EN_step id dn parent n : last_value (Some id) pairs (Some (dn, parent)) -> ends parent n -> ends (Some id) (S n).
Lemma ends_det d n m : ends d n -> ends d m -> n = m.
Proof.
  intros Hn. revert m. induction Hn as [|id Hv|id dn parent n Hv Hn IH]; intros m Hm.
  - inversion Hm; reflexivity.
  - inversion Hm as [|? Hv'|? dn' p' m' Hv' Hm']; subst; [reflexivity|]. pose proof (last_value_fun _ _ _ _ Hv Hv'). discriminate.
  - inversion Hm as [|? Hv'|? dn' p' m' Hv' Hm']; subst.
    + pose proof (last_value_fun _ _ _ _ Hv Hv'). discriminate.
    + pose proof (last_value_fun _ _ _ _ Hv Hv') as E. injection E as <- <-. f_equal. apply IH. exact Hm'.
Qed.
Lemma ends_reaches d t n : reaches pairs d t -> ends d n -> exists m, ends t m /\ (m <= n)%nat.
Proof.
  intros Hr. revert n. induction Hr as [d|i dn parent d Hv Hr IH]; intros n Hn; [eauto|].
  inversion Hn as [|? Hv'|? dn' p' m' Hv' Hm']; subst.
  - pose proof (last_value_fun _ _ _ _ Hv Hv'). discriminate.
  - pose proof (last_value_fun _ _ _ _ Hv Hv') as E. injection E as <- <-. destruct (IH _ Hm') as (m & Hm & L). exists m. split; [exact Hm | lia].
Qed.
Lemma cyclic_endless d n : cyclic pairs d -> ends d n -> False.
Proof.
  intros (id & dn & parent & Hr & Hv & Hr') Hn. destruct (ends_reaches _ _ _ Hr Hn) as (m & Hm & _).
  inversion Hm as [|? Hv'|? dn' p' m' Hv' Hm']; subst.
  - pose proof (last_value_fun _ _ _ _ Hv Hv'). discriminate.
  - pose proof (last_value_fun _ _ _ _ Hv Hv') as E. injection E as <- <-. destruct (ends_reaches _ _ _ Hr' Hm') as (m2 & Hm2 & L).
    pose proof (ends_det _ _ _ Hm Hm2). lia.
Qed.
Lemma full_ends fuel : forall name d r, full_name fuel dirs name d = Some r -> exists n, ends d n.
Proof.
  induction fuel as [|k IH]; intros name [id|] r E; cbn [full_name] in E; try discriminate; try (exists 0%nat; constructor; fail).
  destruct (dget (Some id) dirs) as [[dn parent]|] eqn:G.
  - apply IH in E. destruct E as (n & Hn). exists (S n). apply EN_step with dn parent; [apply dget_last; exact G | exact Hn].
  - exists 0%nat. apply EN_missing. apply dget_last. exact G.
Qed.
Lemma cyclic_full d : cyclic pairs d -> forall fuel name, full_name fuel dirs name d = None.
Proof.
  intros C fuel name. destruct (full_name fuel dirs name d) eqn:E; [|reflexivity]. destruct (full_ends _ _ _ _ E) as [n Hn]. destruct (cyclic_endless _ _ C Hn).
Qed.
Fixpoint trail (fuel : nat) (d : option N) : list (option N) :=
  match fuel, d with
  | S k, Some _ => match dget d dirs with Some (_, parent) => d :: trail k parent | None => [] end
  | _, _ => []
  end.
Lemma trail_len fuel : forall name d, full_name fuel dirs name d = None -> length (trail fuel d) = fuel.
Proof.
  induction fuel as [|k IH]; intros name [id|] E; cbn [full_name trail] in *; try discriminate; try reflexivity.
  destruct (dget (Some id) dirs) as [[dn parent]|]; [|discriminate]. cbn [length]. f_equal. exact (IH _ _ E).
Qed.
Lemma trail_keys fuel : forall d x, In x (trail fuel d) -> In x (dkeys dirs).
Proof.
  induction fuel as [|k IH]; intros [id|] x Hx; cbn [trail] in Hx; try contradiction.
  destruct (dget (Some id) dirs) as [[dn parent]|] eqn:G; [|contradiction]. destruct Hx as [<-|Hx]; [|exact (IH _ _ Hx)].
  apply dget_Some_In in G. unfold dkeys. apply in_map_iff. exists (Some id, (dn, parent)). auto.
Qed.
Lemma trail_reaches fuel : forall d l1 a l2, trail fuel d = l1 ++ a :: l2 ->
  reaches pairs d a /\ exists id dn parent k, a = Some id /\ last_value a pairs (Some (dn, parent)) /\ trail k parent = l2.
Proof.
  induction fuel as [|k IH]; intros [id|] l1 a l2 E; cbn [trail] in E; try (destruct l1; discriminate E).
  destruct (dget (Some id) dirs) as [[dn parent]|] eqn:G; [|destruct l1; discriminate E].
  destruct l1 as [|x l1]; cbn [app] in E.
  - injection E as <- <-. split; [constructor|]. exists id, dn, parent, k. split; [reflexivity|]. split; [apply dget_last; exact G | reflexivity].
  - injection E as _ E. destruct (IH _ _ _ _ E) as [Hr R]. split; [|exact R]. apply RE_step with dn parent; [apply dget_last; exact G | exact Hr].
Qed.
Lemma not_NoDup {A} `{EqDec A} (l : list A) : ~ NoDup l -> exists l1 a l2 l3, l = l1 ++ a :: l2 ++ a :: l3.
Proof.
  induction l as [|x t IH]; intros Hn; [destruct Hn; constructor|].
  destruct (in_dec (fun a b => match eqbP a b with ReflectT _ p => left p | ReflectF _ p => right p end) x t) as [Hi|Hi].
  - apply in_split in Hi. destruct Hi as (l2 & l3 & ->). exists [], x, l2, l3. reflexivity.
  - destruct IH as (l1 & a & l2 & l3 & ->); [intros ND; apply Hn; constructor; assumption|]. exists (x :: l1), a, l2, l3. reflexivity.
Qed.
Lemma endless_cyclic d name : full_name (S (length pairs)) dirs name d = None -> cyclic pairs d.
Proof.
  intros E. pose proof (trail_len _ _ _ E) as L.
  destruct (not_NoDup (trail (S (length pairs)) d)) as (l1 & a & l2 & l3 & Et).
  - intros ND. assert (L2 : (length (trail (S (length pairs)) d) <= length (map fst pairs))%nat).
    { apply NoDup_incl_length; [exact ND|]. intros x Hx. apply trail_keys in Hx. apply dict_of_keys. exact Hx. }
    rewrite map_length in L2. lia.
  - destruct (trail_reaches _ _ _ _ _ Et) as (Hr & id & dn & parent & k & -> & Hv & Ek).
    destruct (trail_reaches _ _ _ _ _ Ek) as (Hr' & _). exists id, dn, parent. auto.
Qed.
End Dirs.

(** ** Merging *)

Lemma chunk_pairs_eq l : flat_map (fun bu => map (fun c => (c_id c, c)) (b_chunks bu)) l = chunk_pairs l.
Proof. unfold chunk_pairs. induction l as [|x t IH]; cbn [flat_map]; [reflexivity|]. rewrite map_app, IH. reflexivity. Qed.
Lemma dir_pairs_eq l : map (fun d : option str * option N * option N => let '(name, id, parent) := d in (id, (name, parent))) l = dir_pairs l.
Proof. unfold dir_pairs. apply map_ext. intros [[n i] q]. reflexivity. Qed.

Section Merging.
Variable t : tables.
Notation dirs := (dict_of (dir_pairs (t_dirs t))).
Notation flags := (dict_of (t_flags t)).
Notation chunks := (dict_of (chunk_pairs (t_bundles t))).

Lemma merge_file_mono fuel fuel' e r : (fuel <= fuel')%nat -> merge_file fuel dirs flags chunks e = Some r -> merge_file fuel' dirs flags chunks e = Some r.
Proof.
  unfold merge_file. intros L E. destruct (full_name fuel dirs (e_name e) (e_dir e)) as [q|] eqn:F; [|discriminate].
  rewrite (full_name_mono _ _ _ _ _ _ L F). exact E.
Qed.
Lemma merge_files_mono fuel fuel' l acc r : (fuel <= fuel')%nat -> merge_files fuel dirs flags chunks l acc = Some r -> merge_files fuel' dirs flags chunks l acc = Some r.
Proof.
  intros L. revert acc. induction l as [|e l IH]; intros acc E; cbn [merge_files] in *; [exact E|].
  destruct (merge_file fuel dirs flags chunks e) as [q|] eqn:F; [|discriminate]. rewrite (merge_file_mono _ _ _ _ L F). destruct q; [apply IH|]; exact E.
Qed.
Lemma of_opt_Ok {A} e (o : option A) x : of_opt e o = Ok x <-> o = Some x.
Proof. destruct o; cbn; split; congruence. Qed.
Lemma Forall2_iff {A B} (R R' : A -> B -> Prop) l l' : (forall x y, R x y <-> R' x y) -> Forall2 R l l' <-> Forall2 R' l l'.
Proof. intros E. split; induction 1; constructor; try assumption; apply E; assumption. Qed.
Lemma lookups_iff {K V} `{EqDec K} {A} (g : A -> K) (pairs : list (K * V)) ids l :
  rmapM (fun i => of_opt KeyError (dget (g i) (dict_of pairs))) ids = Ok l <-> Forall2 (fun i v => last_value (g i) pairs (Some v)) ids l.
Proof. rewrite rmapM_Ok. apply Forall2_iff. intros x y. rewrite of_opt_Ok. apply dget_last. Qed.
Lemma merge_file_iff e f : (exists fuel, merge_file fuel dirs flags chunks e = Some (Ok f)) <-> resolves t e f.
Proof.
  unfold merge_file, resolves. split.
  - intros [fuel E]. destruct (full_name fuel dirs (e_name e) (e_dir e)) as [[name|er]|] eqn:F; [|discriminate|discriminate].
    apply full_dir_path in F. destruct F as (names & Hd & ->). injection E as E. apply rbind_Ok in E. destruct E as (fl & Ef & E).
    apply rbind_Ok in E. destruct E as (cs & Ec & E). injection E as <-. cbn [f_name f_size f_link f_flags f_chunks].
    split; [eauto|]. split; [reflexivity|]. split; [reflexivity|]. split.
    + destruct (e_flags e) as [ids|]; [|injection Ef as <-; reflexivity].
      destruct (rmapM _ ids) as [l|] eqn:El in Ef; [|discriminate]. injection Ef as <-. exists l. split; [reflexivity|]. apply (lookups_iff (fun i => i)) in El. exact El.
    + apply (lookups_iff Some) in Ec. exact Ec.
  - intros ((names & Hd & En) & Es & El & Ef & Ec). exists (length names). rewrite (dir_path_full _ _ _ Hd) by lia. f_equal.
    apply (lookups_iff Some) in Ec.
    assert (G : (match e_flags e with Some ids => rmap Some (rmapM (fun i => of_opt KeyError (dget i flags)) ids) | None => Ok None end) = Ok (f_flags f)).
    { destruct (e_flags e) as [ids|]; [|rewrite Ef; reflexivity]. destruct Ef as (l & -> & Ef). apply (lookups_iff (fun i => i)) in Ef. rewrite Ef. reflexivity. }
    rewrite G. cbn [rbind]. rewrite Ec. cbn [rbind]. destruct f. cbn in *. congruence.
Qed.
Lemma merge_files_iff l acc m : (exists fuel, merge_files fuel dirs flags chunks l acc = Some (Ok m)) <->
  exists fs, Forall2 (resolves t) l fs /\ m = fold_left (fun d p => dset (fst p) (snd p) d) (map (fun f => (f_name f, f)) fs) acc.
Proof.
  revert acc m. induction l as [|e l IH]; intros acc m; cbn [merge_files].
  - split.
    + intros [fuel E]. injection E as <-. exists []. split; [constructor | reflexivity].
    + intros (fs & F & ->). inversion F. exists 0%nat. reflexivity.
  - split.
    + intros [fuel E]. destruct (merge_file fuel dirs flags chunks e) as [[f|er]|] eqn:F; [|discriminate|discriminate].
      destruct (proj1 (IH (dset (f_name f) f acc) _) (ex_intro _ fuel E)) as (fs & Hf & ->). exists (f :: fs). split; [|reflexivity].
      constructor; [|exact Hf]. apply merge_file_iff. exists fuel. exact F.
    + intros (fs & F & ->). inversion F as [|? f ? fs' Hf F']; subst. apply merge_file_iff in Hf. destruct Hf as [n1 H1].
      destruct (proj2 (IH (dset (f_name f) f acc) (fold_left (fun d p => dset (fst p) (snd p) d) (map (fun f => (f_name f, f)) fs') (dset (f_name f) f acc)))) as [n2 H2].
      { exists fs'. auto. }
      exists (n1 + n2)%nat. rewrite (merge_file_mono n1 (n1 + n2) _ _ (Nat.le_add_r n1 n2) H1). cbn [map fold_left fst snd]. apply (merge_files_mono n2); [lia | exact H2].
Qed.
Lemma merge_mono fuel fuel' r : (fuel <= fuel')%nat -> merge fuel t = Some r -> merge fuel' t = Some r.
Proof.
  unfold merge. rewrite chunk_pairs_eq, dir_pairs_eq. intros L. destruct (merge_files fuel dirs flags chunks (t_files t) []) as [q|] eqn:F; [|discriminate].
  rewrite (merge_files_mono _ _ _ _ _ L F). auto.
Qed.
Lemma merge_iff m : (exists fuel, merge fuel t = Some (Ok m)) <-> describes t m.
Proof.
  unfold merge, describes. rewrite chunk_pairs_eq, dir_pairs_eq. split.
  - intros [fuel E]. destruct (merge_files fuel dirs flags chunks (t_files t) []) as [q|] eqn:F; [|discriminate].
    injection E as E. apply rbind_Ok in E. destruct E as (files & -> & E). injection E as <-. cbn [m_bundles m_flags m_chunks m_files].
    split; [reflexivity|]. split; [apply dict_is_iff; reflexivity|]. split; [apply dict_is_iff; reflexivity|].
    destruct (proj1 (merge_files_iff _ _ _) (ex_intro _ fuel F)) as (fs & Hf & ->). exists fs. split; [exact Hf|]. apply dict_is_iff. reflexivity.
  - intros (Eb & Ef & Ec & fs & Hf & Em). apply dict_is_iff in Ef, Ec, Em.
    destruct (proj2 (merge_files_iff (t_files t) [] (m_files m))) as [fuel F]; [exists fs; split; [exact Hf | exact Em]|].
    exists fuel. rewrite F. cbn [rbind]. destruct m. cbn in *. subst. reflexivity.
Qed.
End Merging.

Lemma parse_body_iff b m : (exists fuel, parse_body fuel b = Some (Ok m)) <-> exists t, body_at b t /\ describes t m.
Proof.
  unfold parse_body. split.
  - intros [fuel E]. destruct (prun parse_tables b) as [t|] eqn:P; [|discriminate]. exists t. split; [apply body_iff; exact P | apply merge_iff; eauto].
  - intros (t & Hb & Hd). apply body_iff in Hb. rewrite Hb. apply merge_iff. exact Hd.
Qed.
Lemma parse_body_mono fuel fuel' b r : (fuel <= fuel')%nat -> parse_body fuel b = Some r -> parse_body fuel' b = Some r.
Proof. unfold parse_body. destruct (prun parse_tables b); [apply merge_mono | auto]. Qed.

(** ** File header *)

Lemma gives_u64 {B} (k : N -> P B) b p v : gives (pbind u64 k) b p v <-> exists x, int_at b 8 p x /\ gives (k x) b (p + 8) v.
Proof.
  split.
  - intros [q H]. apply pbind_Ok in H. destruct H as (x & p' & H & K). apply u64_iff in H. destruct H as [H ->]. exists x. split; [exact H | exists q; exact K].
  - intros (x & H & q & K). exists q. apply pbind_Ok. exists x, (p + 8). split; [apply u64_iff; auto | exact K].
Qed.
Lemma read_at b p n raw : p <= lenN b -> (takeN n (dropN p b) = raw <-> bytes_at b p raw /\ (lenN raw = n \/ (lenN raw < n /\ p + lenN raw = lenN b))).
Proof.
  intros Hp. split.
  - intros <-. split.
    + exists (takeN p b), (dropN n (dropN p b)). split; [rewrite !takeN_dropN; reflexivity | rewrite lenN_takeN; lia].
    + rewrite lenN_takeN, lenN_dropN. lia.
  - intros [(pre & post & Eb & Ep) Hl]. rewrite Eb, <- Ep, dropN_app_exact. destruct Hl as [Hl|[Hl He]]; [apply takeN_app_n; exact Hl|].
    assert (post = []). { rewrite Eb, !lenN_app in He. destruct post; [reflexivity|]. rewrite lenN_cons in He. lia. }
    subst post. rewrite app_nil_r. apply takeN_all. lia.
Qed.
Lemma int_at_end b w p v : int_at b w p v -> p + N.of_nat w <= lenN b.
Proof. intros (_ & pre & post & -> & <-). rewrite !lenN_app, leenc_len. lia. Qed.
Lemma read_rman_iff zstd b body : prun (read_rman zstd) b = Ok body <-> rman_file zstd b body.
Proof.
  assert (R : prun (read_rman zstd) b = Ok body <-> gives (read_rman zstd) b 0 body).
  { unfold prun, gives. destruct (read_rman zstd b 0) as [[v p]|e]; cbn.
    - split; [intros E; injection E as ->; eauto | intros [q E]; injection E as -> _; reflexivity].
    - split; [discriminate | intros [q E]; discriminate]. }
  rewrite R. clear R. unfold read_rman, rman_file. rewrite gives_unpack by reflexivity. split.
  - intros (magic & _ & Hm & G). rewrite gives_u8 in G. destruct G as (major & Hj & G). rewrite gives_u8 in G. destruct G as (minor & Hi & G).
    match type of G with context [@eqb ?T ?D magic ?y] => destruct (@eqb T D magic y) eqn:E end; cbn [negb] in G; [|destruct G as [q G]; discriminate]. apply eqb_true in E. subst magic.
    destruct (major =? 2) eqn:Ej; cbn [andb negb] in G; [|destruct G as [q G]; discriminate]. apply N.eqb_eq in Ej. subst major.
    destruct ((minor =? 0) || (minor =? 1)) eqn:Em; cbn [negb] in G; [|destruct G as [q G]; discriminate].
    assert (Lm : minor <= 1). { apply orb_true_iff in Em. destruct Em as [Em|Em]; apply N.eqb_eq in Em; lia. }
    rewrite gives_u16 in G. destruct G as (flags & Hf & G). rewrite gives_u32 in G. destruct G as (off & Ho & G).
    rewrite gives_u32 in G. destruct G as (len & Hl & G). rewrite gives_u64 in G. destruct G as (id & Hid & G). rewrite gives_u32 in G. destruct G as (blen & Hb & G).
    destruct (N.testbit flags 9) eqn:E; cbn [negb] in G; [|destruct G as [q G]; discriminate]. rewrite gives_tell in G.
    change (0 + 4 + 1 + 1 + 2 + 4 + 4 + 8 + 4) with 28 in G. destruct (off =? 28) eqn:Eo; cbn [negb] in G; [|destruct G as [q G]; discriminate]. apply N.eqb_eq in Eo. subst off.
    assert (G' : zstd (takeN len (dropN 28 b)) = Ok body). { unfold gives, pbind, pread in G. apply (gives_lift _ _ b (28 + lenN (takeN len (dropN 28 b)))). exact G. }
    destruct (proj1 (read_at b 28 len _ ltac:(pose proof (int_at_end _ _ _ _ Hb) as Q; cbn in Q; lia)) eq_refl) as [Hr1 Hr2].
    exists minor, flags, len, id, blen, (takeN len (dropN 28 b)). cbn in *. auto 20.
  - intros (minor & flags & len & id & blen & raw & Hm & Hj & Hi & Lm & Hf & E & Ho & Hl & Hid & Hb & Hr1 & Hr2 & Hz).
    exists (bl "RMAN"). split; [reflexivity|]. split; [exact Hm|]. rewrite gives_u8. exists 2. split; [exact Hj|]. rewrite gives_u8. exists minor. split; [exact Hi|].
    rewrite eqbR. change (2 =? 2) with true. cbn [negb andb]. replace ((minor =? 0) || (minor =? 1)) with true.
    2:{ destruct (N.eqb_spec minor 0); [reflexivity|]. destruct (N.eqb_spec minor 1); [reflexivity | lia]. }
    cbn [negb]. rewrite gives_u16. exists flags. split; [exact Hf|]. rewrite gives_u32. exists 28. split; [exact Ho|].
    rewrite gives_u32. exists len. split; [exact Hl|]. rewrite gives_u64. exists id. split; [exact Hid|]. rewrite gives_u32. exists blen. split; [exact Hb|].
    rewrite E. cbn [negb]. rewrite gives_tell. change (0 + 4 + 1 + 1 + 2 + 4 + 4 + 8 + 4) with 28. rewrite N.eqb_refl. cbn [negb].
    assert (Er : takeN len (dropN 28 b) = raw). { apply read_at; [pose proof (int_at_end _ _ _ _ Hb) as Q; cbn in Q; lia | auto]. }
    unfold gives, pbind, pread. rewrite Er, Hz. eexists. reflexivity.
Qed.

(** ** Languages *)

Lemma kept_filter {A} (Q : A -> Prop) f (l : list A) : (forall x, f x = true <-> Q x) -> kept Q l (filter f l).
Proof.
  intros E. induction l as [|x t IH]; cbn [filter]; [constructor|]. destruct (f x) eqn:Ex.
  - constructor; [apply E; exact Ex | exact IH].
  - constructor; [rewrite <- E, Ex; discriminate | exact IH].
Qed.
Lemma locale_iff f : locale_flag f = true <-> is_locale f.
Proof.
  unfold locale_flag, is_locale. rewrite andb_true_iff, N.eqb_eq, existsb_exists. split.
  - intros [(c & Hc & E) L]. apply N.eqb_eq in E. subst c. auto.
  - intros [L H]. split; [exists 95; auto | exact L].
Qed.

(** ** Consequences *)

Lemma parse_rman_iff zstd b m : (exists fuel, parse_rman zstd fuel b = Some (Ok m)) <-> exists body t, rman_file zstd b body /\ body_at body t /\ describes t m.
Proof.
  unfold parse_rman. split.
  - intros [fuel E]. destruct (prun (read_rman zstd) b) as [body|] eqn:R; [|discriminate]. apply read_rman_iff in R.
    destruct (proj1 (parse_body_iff body m) (ex_intro _ fuel E)) as (t & Ht & Hd). exists body, t. auto.
  - intros (body & t & R & Ht & Hd). apply read_rman_iff in R. rewrite R. apply parse_body_iff. eauto.
Qed.
Lemma nth_firstn_lt {A} (l : list A) k n : (k < n)%nat -> nth_error (firstn n l) k = nth_error l k.
Proof.
  revert l n. induction k as [|k IH]; intros [|x l] [|n] L; try lia; try reflexivity. cbn. apply IH. lia.
Qed.
Lemma tiles_contiguous id l cs : tiles id l cs -> contiguous cs /\ map c_size cs = map csize l /\ (forall c, In c cs -> c_bundle c = id).
Proof.
  rewrite tiles_alt. intros [Hl H].
  assert (N : forall k c, nth_error cs k = Some c -> exists x sizes, nth_error l k = Some x /\ map Some sizes = map csize (firstn k l) /\ c = mk_chunk id x (sumN sizes)).
  { intros k c Hk. assert (L : (k < length l)%nat) by (rewrite <- Hl; apply nth_error_Some; congruence).
    destruct (nth_error l k) as [x|] eqn:E; [|apply nth_error_None in E; lia]. destruct (H k x E) as (s & E1 & E2). exists x, s.
    split; [reflexivity|]. split; [exact E1 | congruence]. }
  assert (S : map c_size cs = map csize l).
  { apply (nth_ext_det (fun k o => exists x, nth_error l k = Some x /\ o = csize x)).
    - intros k x y (a & E1 & ->) (a' & E1' & ->). congruence.
    - rewrite !map_length. exact Hl.
    - intros k o Hk. rewrite nth_error_map in Hk. destruct (nth_error cs k) as [c|] eqn:E; [|discriminate]. injection Hk as <-.
      destruct (N k c E) as (x & s & E1 & _ & ->). exists x. auto.
    - intros k o Hk. rewrite nth_error_map in Hk. destruct (nth_error l k) as [c|] eqn:E; [|discriminate]. injection Hk as <-. eauto. }
  split; [|split; [exact S|]].
  - intros k c Hk. destruct (N k c Hk) as (x & s & E1 & E2 & ->). exists s. split; [|reflexivity].
    rewrite E2, <- !firstn_map, S. reflexivity.
  - intros c Hc. apply In_nth_error in Hc. destruct Hc as [k Hk]. destruct (N k c Hk) as (x & s & _ & _ & ->). reflexivity.
Qed.
Lemma contiguous_adjacent cs k c c' n : contiguous cs -> nth_error cs k = Some c -> nth_error cs (S k) = Some c' -> c_size c = Some n -> c_offset c' = c_offset c + n.
Proof.
  intros C H H' Hn. destruct (C _ _ H) as (s & E & ->). destruct (C _ _ H') as (s' & E' & ->).
  assert (F : firstn (S k) cs = firstn k cs ++ [c]).
  { clear -H. revert k H. induction cs as [|x t IH]; intros [|k] H; try discriminate; cbn in *; [congruence|]. f_equal. apply IH. exact H. }
  rewrite F, map_app in E'. cbn [map] in E'. rewrite Hn, <- E in E'. change [Some n] with (map Some [n]) in E'. rewrite <- map_app in E'.
  apply map_Some_inj in E'. subst s'. fold (sumN (s ++ [n])) (sumN s). rewrite sumN_app. cbn. lia.
Qed.
Lemma contiguous_known cs k c : contiguous cs -> nth_error cs (S k) = Some c -> forall c0, nth_error cs k = Some c0 -> exists n, c_size c0 = Some n.
Proof.
  intros C H c0 H0. destruct (C _ _ H) as (s & E & _).
  assert (I : nth_error (map c_size (firstn (S k) cs)) k = Some (c_size c0)) by (rewrite nth_error_map, nth_firstn_lt, H0 by lia; reflexivity).
  rewrite <- E, nth_error_map in I. destruct (nth_error s k) as [n|]; [|discriminate]. injection I as <-. eauto.
Qed.
Lemma contiguous_disjoint cs j k c c' : contiguous cs -> (j < k)%nat -> nth_error cs j = Some c -> nth_error cs k = Some c' ->
  exists n, c_size c = Some n /\ c_offset c + n <= c_offset c'.
Proof.
  intros C L H. revert c'. induction L as [|k L IH]; intros c' H'.
  - destruct (contiguous_known _ _ _ C H' _ H) as [n Hn]. exists n. split; [exact Hn|]. rewrite (contiguous_adjacent _ _ _ _ _ C H H' Hn). lia.
  - destruct (nth_error cs k) as [c1|] eqn:E.
    2:{ apply nth_error_None in E. assert (nth_error cs (S k) = None) by (apply nth_error_None; lia). congruence. }
    destruct (IH c1 eq_refl) as (n & Hn & Le). exists n. split; [exact Hn|]. destruct (contiguous_known _ _ _ C H' _ E) as [n1 Hn1].
    rewrite (contiguous_adjacent _ _ _ _ _ C E H' Hn1). lia.
Qed.
Lemma add_chunk_contiguous b x b' : contiguous (b_chunks b) -> add_chunk b x = Ok b' ->
  contiguous (b_chunks b') /\ b_id b' = b_id b /\
  exists c, b_chunks b' = b_chunks b ++ [c] /\ (c_id c, c_size c, c_target c) = x /\ c_bundle c = b_id b.
Proof.
  intros C E.
  assert (T : tiles (b_id b) (map (fun c => (c_id c, c_size c, c_target c)) (b_chunks b))
                (map (fun c => {| c_id := c_id c; c_bundle := b_id b; c_offset := c_offset c; c_size := c_size c; c_target := c_target c |}) (b_chunks b))).
  { apply tiles_alt. split; [rewrite !map_length; reflexivity|]. intros k y Hk. rewrite nth_error_map in Hk.
    destruct (nth_error (b_chunks b) k) as [c|] eqn:Ec; [|discriminate]. injection Hk as <-. destruct (C _ _ Ec) as (s & E1 & E2). exists s.
    split; [rewrite E1, firstn_map, map_map; reflexivity|]. rewrite nth_error_map, Ec. cbn. rewrite E2. reflexivity. }
  destruct x as [[i sz] t]. unfold add_chunk in E. apply rbind_Ok in E. destruct E as (off & Eo & E). injection E as <-. cbn [b_chunks b_id].
  split; [|split; [reflexivity|]; eexists; split; [reflexivity|]; split; reflexivity].
  assert (K : exists sizes, map Some sizes = map c_size (b_chunks b) /\ off = sumN sizes).
  { destruct (b_chunks b) as [|c cs _] eqn:Eb using rev_ind; [injection Eo as <-; exists []; auto|]. rewrite rev_unit in Eo.
    destruct (c_size c) as [n|] eqn:En; [|discriminate]. injection Eo as <-.
    destruct (C (length cs) c) as (s & E1 & E2); [rewrite nth_error_app2, Nat.sub_diag by lia; reflexivity|].
    rewrite firstn_app, Nat.sub_diag, firstn_all in E1. cbn [firstn] in E1. rewrite app_nil_r in E1.
    exists (s ++ [n]). rewrite !map_app, E1. cbn [map]. rewrite En. split; [reflexivity|]. rewrite sumN_app, E2. unfold sumN. cbn. lia. }
  destruct K as (sizes & K1 & K2). intros k c Hk. destruct (Nat.lt_ge_cases k (length (b_chunks b))) as [L|L].
  - rewrite nth_error_app1 in Hk by exact L. rewrite firstn_app. replace (k - length (b_chunks b))%nat with 0%nat by lia. cbn [firstn]. rewrite app_nil_r. exact (C k c Hk).
  - rewrite nth_error_app2 in Hk by exact L. assert (k = length (b_chunks b)). { destruct (k - length (b_chunks b))%nat as [|[|]] eqn:D; [lia | discriminate | discriminate]. }
    subst k. rewrite Nat.sub_diag in Hk. injection Hk as <-. exists sizes. rewrite firstn_app, Nat.sub_diag, firstn_all. cbn [firstn]. rewrite app_nil_r. split; [exact K1 | exact K2].
Qed.
Lemma manifest_bundles fuel b m : parse_body fuel b = Some (Ok m) -> forall bu, In bu (m_bundles m) ->
  contiguous (b_chunks bu) /\ forall c, In c (b_chunks bu) -> c_bundle c = b_id bu.
Proof.
  intros E bu Hbu. destruct (proj1 (parse_body_iff b m) (ex_intro _ fuel E)) as (t & Ht & Hd & _). rewrite Hd in Hbu.
  destruct Ht as (n & base & p0 & p1 & p2 & p3 & z4 & z5 & _ & _ & _ & _ & _ & _ & _ & _ & (c & _ & _ & Hb) & _).
  apply In_nth_error in Hbu. destruct Hbu as [k Hk]. destruct (Hb k bu Hk) as (q & _ & _ & s & q' & l & _ & _ & _ & T).
  destruct (tiles_contiguous _ _ _ T) as (C & _ & B). auto.
Qed.
Lemma last_value_In {A B} (k : A) (l : list (A * B)) v : last_value k l (Some v) -> In (k, v) l.
Proof. intros H. inversion H; subst. apply in_or_app. right. left. reflexivity. Qed.
Lemma manifest_chunks fuel b m : parse_body fuel b = Some (Ok m) -> 
  (forall k c, In (k, c) (m_chunks m) -> c_id c = k /\ exists bu, In bu (m_bundles m) /\ In c (b_chunks bu) /\ c_bundle c = b_id bu) /\
  (forall k f, In (k, f) (m_files m) -> f_name f = k /\ forall c, In c (f_chunks f) -> In (c_id c, c) (m_chunks m)).
Proof.
  intros E. pose proof (manifest_bundles _ _ _ E) as MB. destruct (proj1 (parse_body_iff b m) (ex_intro _ fuel E)) as (t & Ht & Hd & _ & Hc & fs & HF & Hm). 
  assert (G : forall c, last_value (c_id c) (chunk_pairs (t_bundles t)) (Some c) -> In (c_id c, c) (m_chunks m)).
  { intros c Hl. apply dict_is_iff in Hc. rewrite Hc. apply dget_last in Hl. apply dget_Some_In. exact Hl. }
  split.
  - intros k c Hk. apply (proj2 Hc) in Hk. apply last_value_In in Hk. apply in_map_iff in Hk. destruct Hk as (c' & E1 & Hc'). injection E1 as E1 ->.
    split; [exact E1|]. apply in_flat_map in Hc'. destruct Hc' as (bu & Hbu & Hcb). exists bu. rewrite Hd. split; [exact Hbu|]. split; [exact Hcb|].
    apply MB; [rewrite Hd; exact Hbu | exact Hcb].
  - intros k f Hk. apply (proj2 Hm) in Hk. apply last_value_In in Hk. apply in_map_iff in Hk. destruct Hk as (f' & E1 & Hf). injection E1 as E1 ->.
    split; [exact E1|]. assert (R : exists e, resolves t e f). { clear -HF Hf. induction HF as [|e f' l fs R HF IH]; [contradiction|]. destruct Hf as [->|Hf]; [eauto | auto]. }
    destruct R as (e & _ & _ & _ & _ & R). intros c Hcc.
    assert (Q : exists i, last_value (Some i) (chunk_pairs (t_bundles t)) (Some c)).
    { clear -R Hcc. induction R as [|i c' l cs Q R IH]; [contradiction|]. destruct Hcc as [->|Hcc]; [eauto | auto]. }
    destruct Q as [i Q]. assert (c_id c = Some i). { apply last_value_In in Q. apply in_map_iff in Q. destruct Q as (c' & Q & _). injection Q as Q ->. exact Q. }
    apply G. rewrite H. exact Q.
Qed.
Lemma name_iff dirs name d r : (exists fuel, full_name fuel (dict_of dirs) name d = Some (Ok r)) <-> exists l, dir_path dirs d l /\ r = path_name l name.
Proof.
  split; [intros [fuel E]; exact (full_dir_path _ _ _ _ _ E)|]. intros (l & Hl & ->). exists (length l). apply dir_path_full; [exact Hl | lia].
Qed.
Lemma missing_iff dirs name d e : (exists fuel, full_name fuel (dict_of dirs) name d = Some (Err e)) <-> e = KeyError /\ dangling dirs d.
Proof.
  split; [intros [fuel E]; exact (full_dangling _ _ _ _ _ E)|]. intros (-> & id & Hr & Hn). exact (dangling_full _ _ _ Hr Hn name).
Qed.
Lemma cycle_iff dirs name d : (forall fuel, full_name fuel (dict_of dirs) name d = None) <-> cyclic dirs d.
Proof. split; [intros E; exact (endless_cyclic _ _ _ (E _)) | intros C fuel; apply cyclic_full; exact C]. Qed.
Lemma trichotomy dirs d : (exists l, dir_path dirs d l) \/ dangling dirs d \/ cyclic dirs d.
Proof.
  destruct (full_name (S (length dirs)) (dict_of dirs) None d) as [[r|e]|] eqn:E.
  - left. apply full_dir_path in E. destruct E as (l & Hl & _). eauto.
  - right. left. exact (proj2 (full_dangling _ _ _ _ _ E)).
  - right. right. exact (endless_cyclic _ _ _ E).
Qed.
Lemma merge_cyclic t pre e post : t_files t = pre ++ e :: post -> (forall x, In x pre -> exists f, resolves t x f) -> cyclic (dir_pairs (t_dirs t)) (e_dir e) ->
  forall fuel, merge fuel t = None.
Proof.
  intros Et Hp C fuel. unfold merge. rewrite Et, chunk_pairs_eq, dir_pairs_eq.
  assert (G : forall acc, merge_files fuel (dict_of (dir_pairs (t_dirs t))) (dict_of (t_flags t)) (dict_of (chunk_pairs (t_bundles t))) (pre ++ e :: post) acc = None).
  { clear Et. induction pre as [|x pre IH]; intros acc; cbn [app merge_files].
    - unfold merge_file. rewrite cyclic_full by exact C. reflexivity.
    - destruct (Hp x (or_introl eq_refl)) as (f & Hf). apply merge_file_iff in Hf. destruct Hf as [n Hf].
      destruct (merge_file fuel (dict_of (dir_pairs (t_dirs t))) (dict_of (t_flags t)) (dict_of (chunk_pairs (t_bundles t))) x) as [r|] eqn:Er; [|reflexivity].
      assert (r = Ok f). { pose proof (merge_file_mono t _ (fuel + n) _ _ (Nat.le_add_r fuel n) Er) as Q. rewrite (merge_file_mono t n (fuel + n) _ _ ltac:(lia) Hf) in Q. congruence. }
      subst r. apply IH. intros y Hy. apply Hp. right. exact Hy. }
  rewrite G. reflexivity.
Qed.
Lemma merge_total t : (forall e, In e (t_files t) -> ~ cyclic (dir_pairs (t_dirs t)) (e_dir e)) -> exists fuel r, merge fuel t = Some r.
Proof.
  intros H. unfold merge. rewrite chunk_pairs_eq, dir_pairs_eq. exists (S (length (dir_pairs (t_dirs t)))).
  assert (G : forall l acc, (forall e, In e l -> ~ cyclic (dir_pairs (t_dirs t)) (e_dir e)) ->
    exists r, merge_files (S (length (dir_pairs (t_dirs t)))) (dict_of (dir_pairs (t_dirs t))) (dict_of (t_flags t)) (dict_of (chunk_pairs (t_bundles t))) l acc = Some r).
  { induction l as [|e l IH]; intros acc Hl; cbn [merge_files]; [eauto|]. unfold merge_file at 1.
    destruct (full_name _ _ (e_name e) (e_dir e)) as [[name|er]|] eqn:F.
    - match goal with |- context [match ?m with Ok _ => _ | Err _ => _ end] => destruct m as [f|er] end; [|eauto]. apply IH. intros x Hx. apply Hl. right. exact Hx.
    - eauto.
    - destruct (Hl e (or_introl eq_refl)). exact (endless_cyclic _ _ _ F). }
  destruct (G (t_files t) [] H) as [r Hr]. rewrite Hr. eauto.
Qed.

Lemma langs_true lower m : filter_files lower m LTrue = Ok (map snd (m_files m)).
Proof. unfold filter_files. cbn. f_equal. induction (map snd (m_files m)) as [|x t IH]; cbn; [reflexivity | rewrite IH; reflexivity]. Qed.
Lemma langs_false lower m : exists l, filter_files lower m LFalse = Ok l /\
  kept (fun f => forall fl, f_flags f = Some fl -> forall x, In x fl -> ~ is_locale x) (map snd (m_files m)) l.
Proof.
  eexists. split; [reflexivity|]. apply kept_filter. intros f. destruct (f_flags f) as [fl|]; [|split; [discriminate | reflexivity]].
  rewrite negb_true_iff. split.
  - intros E l El x Hx Hl. injection El as <-. apply locale_iff in Hl. assert (existsb locale_flag fl = true) by (apply existsb_exists; eauto). congruence.
  - intros Hn. destruct (existsb locale_flag fl) eqn:E; [|reflexivity]. apply existsb_exists in E. destruct E as (x & Hx & E). destruct (Hn fl eq_refl x Hx). apply locale_iff. exact E.
Qed.
Lemma langs_one lower m lang : exists l, filter_files lower m (LStr lang) = Ok l /\
  kept (fun f => exists fl x, f_flags f = Some fl /\ In x fl /\ lower x = lower lang) (map snd (m_files m)) l.
Proof.
  eexists. split; [reflexivity|]. apply kept_filter. intros f. destruct (f_flags f) as [fl|]; [|split; [discriminate | intros (fl & x & E & _); discriminate]].
  rewrite existsb_exists. split.
  - intros (x & Hx & E). apply eqb_true in E. eauto 6.
  - intros (l & x & E & Hx & El). injection E as <-. exists x. split; [exact Hx|]. rewrite El. apply eqbR.
Qed.
