(** * Proofs about BIN files: what is accepted *)

From Verif Require Import Base.TextFacts Base.BinFacts Base.Utf8 Model.BinFile Spec.Utf8Spec Spec.BinSpec Proofs.Utf8Proofs Proofs.RstProofs Proofs.BinProofs.

Ltac Zify.zify_post_hook ::= Z.div_mod_to_equations.

(** ** Files are decoded *)

Lemma parses_pmapM {A B} (key : B -> A) (m : A -> P B) xs bss :
  Forall2 (fun x bs => parses (m (key x)) bs x) xs bss -> parses (pmapM m (map key xs)) (concat bss) xs.
Proof.
  induction 1 as [|x bs xs bss Hx H IH]; cbn [map pmapM concat]; [apply parses_ret|].
  eapply parses_bind; [exact Hx|]. eapply parses_bind_last; [exact IH | apply parses_ret].
Qed.
Lemma parses_magic (m : bytes) : parses (pread (lenN m)) m m.
Proof. apply parses_read. reflexivity. Qed.

(** The start of [read_binfile]. *)
Definition read_front : P (bool * (N * option (list str) * list N)) :=
  let* magic := pread 4 in
  let is_patch := eqb magic (bl "PTCH") in
  let* magic := (if is_patch then
      let* a := u32 in let* b := u32 in
      if (a =? 1) && (b =? 0) then pread 4 else praise AssertionError
    else pret magic) in
  if negb (eqb magic (bl "PROP")) then praise ValueError else
  let* h := read_header in pret (is_patch, h).
Definition read_rest (ver : Z) (limit : nat) (r : bool * (N * option (list str) * list N)) : P binfile :=
  let '(is_patch, (version, linked, types)) := r in
  let* entries := pmapM (read_entry ver limit) types in
  let* patches := (if is_patch && (3 <=? version) then let* l := read_patch_section ver limit in pret (Some l) else pret None) in
  pret {| bf_patch := is_patch; bf_version := version; bf_linked := linked; bf_entries := entries; bf_patches := patches |}.
Lemma front_rest ver limit b p : read_binfile ver limit b p = pbind read_front (read_rest ver limit) b p.
Proof.
  unfold read_binfile, read_front, pbind. destruct (pread 4 b p) as [[m0 p1]|er]; [|reflexivity]. cbv zeta.
  match goal with |- match ?x with _ => _ end = _ => destruct x as [[magic p2]|er] end; [|reflexivity].
  destruct (negb (eqb magic (bl "PROP"))); [reflexivity|].
  destruct (read_header b p2) as [[[[version linked] types] p3]|er]; reflexivity.
Qed.
Lemma header_parses version linked types bs : 
  version < 2 ^ 32 -> lenN types < 2 ^ 32 -> Forall (fun h => h < 2 ^ 32) types ->
  match linked with
  | None => version < 2 /\ bs = []
  | Some l => 2 <= version /\ lenN l < 2 ^ 32 /\ exists bss, Forall2 (text_layout true) l bss /\ bs = leenc 4 (lenN l) ++ concat bss
  end ->
  parses read_header (leenc 4 version ++ bs ++ leenc 4 (lenN types) ++ nums 4 types) (version, linked, types).
Proof.
  intros Hv Hl HF Hlk. unfold read_header. eapply parses_bind; [apply parses_u32; exact Hv|].
  eapply parses_bind with (a := linked).
  - destruct linked as [l|].
    + destruct Hlk as (H2 & Hll & bss & HF2 & ->). destruct (N.leb_spec 2 version); [|lia].
      eapply parses_bind; [apply parses_u32; exact Hll|]. eapply parses_bind_last; [|apply parses_ret].
      apply parses_plist_rel. eapply Forall2_weaken; [|exact HF2]. intros s b. apply parses_string.
    + destruct Hlk as (H2 & ->). destruct (N.leb_spec 2 version); [lia|]. apply parses_ret.
  - eapply parses_bind; [apply parses_u32; exact Hl|]. eapply parses_bind_last; [|apply parses_ret].
    unfold nums. apply parses_plist; [reflexivity|]. intros v Hv0. apply parses_u32. rewrite Forall_forall in HF. apply HF. exact Hv0.
Qed.
Lemma front_parses patch version linked types bs : head_layout patch version linked types bs ->
  parses read_front bs (patch, (version, linked, types)).
Proof.
  intros (Hv & Hl & HF & bs0 & -> & Hlk). pose proof (header_parses version linked types bs0 Hv Hl HF Hlk) as Hh. unfold read_front.
  destruct patch.
  - rewrite <- !app_assoc. eapply parses_bind; [apply (parses_magic (bl "PTCH"))|].
    replace (eqb (bl "PTCH") (bl "PTCH")) with true by reflexivity. cbv zeta iota.
    rewrite (app_assoc (leenc 4 0)), (app_assoc (leenc 4 1)).
    eapply parses_bind with (a := bl "PROP").
    + eapply parses_bind; [apply parses_u32; reflexivity|]. eapply parses_bind; [apply parses_u32; reflexivity|].
      cbn [N.eqb andb]. apply (parses_magic (bl "PROP")).
    + replace (negb (eqb (bl "PROP") (bl "PROP"))) with false by reflexivity. cbv iota.
      eapply parses_bind_last; [exact Hh | apply parses_ret].
  - cbn [app]. eapply parses_bind; [apply (parses_magic (bl "PROP"))|].
    replace (eqb (bl "PROP") (bl "PTCH")) with false by reflexivity. cbv zeta iota.
    eapply parses_bind_nil; [apply parses_ret|].
    replace (negb (eqb (bl "PROP") (bl "PROP"))) with false by reflexivity. cbv iota.
    eapply parses_bind_last; [exact Hh | apply parses_ret].
Qed.
Lemma parses_ext {A} (m m' : P A) bs v : (forall b p, m b p = m' b p) -> parses m' bs v -> parses m bs v.
Proof. intros E H pre post. rewrite E. apply H. Qed.
Lemma file_parses ver n f bs : file_layout true (era_of ver) n f bs -> parses (read_binfile ver n) bs f.
Proof.
  intros (bh & bes & bp & -> & Hh & He & Hp). apply (parses_ext _ _ _ _ (front_rest ver n)).
  eapply parses_bind; [apply front_parses; exact Hh|]. unfold read_rest.
  eapply parses_bind.
  { apply parses_pmapM. eapply Forall2_weaken; [|exact He]. intros x b. apply entry_parses. }
  eapply parses_bind_last with (a := bf_patches f); [|destruct f; apply parses_ret].
  destruct (bf_patches f) as [g|].
  - destruct Hp as (Hpt & H3 & ps & bps & Hg & Hl & HF & ->). rewrite Hpt. destruct (N.leb_spec 3 (bf_version f)); [|lia]. cbn [andb].
    unfold read_patch_section. eapply parses_bind_last; [|apply parses_ret].
    eapply parses_bind; [apply parses_u32; exact Hl|].
    eapply parses_bind_last; [apply parses_plist_rel; eapply Forall2_weaken; [|exact HF]; intros p b; apply patch_parses|].
    rewrite (grouped_fun _ _ _ Hg (adds_grouped ps)). apply parses_ret.
  - destruct Hp as [Hc ->]. assert (E : bf_patch f && (3 <=? bf_version f) = false).
    { destruct Hc as [->|H3]; [reflexivity|]. destruct (N.leb_spec 3 (bf_version f)); [lia|]. apply andb_false_r. }
    rewrite E. apply parses_ret.
Qed.

(** ** Positions only increase *)

Definition mono {A} (m : P A) : Prop := forall b p v p', p <= lenN b -> m b p = Ok (v, p') -> p <= p' <= lenN b.
Lemma mono_ret {A} (a : A) : mono (pret a).
Proof. intros b p v p' Hp E. injection E as <- <-. lia. Qed.
Lemma mono_raise {A} e : mono (@praise A e). Proof. intros b p v p' Hp E. discriminate. Qed.
Lemma mono_bind {A B} (m : P A) (k : A -> P B) : mono m -> (forall a, mono (k a)) -> mono (pbind m k).
Proof.
  intros Hm Hk b p v p' Hp E. apply pbind_Ok in E as (a & p1 & E1 & E2).
  pose proof (Hm b p a p1 Hp E1). pose proof (Hk a b p1 v p' ltac:(lia) E2). lia.
Qed.
Lemma mono_reads {A} (m : P A) R : reads m R -> mono m.
Proof. intros H b p v p' Hp E. destruct (H b p v p' Hp E) as (bs & _ & -> & Hb & _). lia. Qed.
Lemma mono_read n : mono (pread n).
Proof. intros b p v p' Hp E. injection E as <- <-. rewrite lenN_takeN, lenN_dropN. lia. Qed.
Lemma mono_lift {A} (r : result A) : mono (plift r).
Proof. destruct r; [apply mono_ret | apply mono_raise]. Qed.
Lemma mono_tell : mono ptell. Proof. intros b p v p' Hp E. injection E as <- <-. lia. Qed.
Lemma mono_if {A} (c : bool) (m1 m2 : P A) : mono m1 -> mono m2 -> mono (if c then m1 else m2).
Proof. destruct c; auto. Qed.
Lemma mono_prep {A} (m : P A) n : mono m -> mono (prep n m).
Proof. intros H. induction n; cbn [prep]; [apply mono_ret|]. apply mono_bind; [exact H|]. intros a. apply mono_bind; [exact IHn | intros; apply mono_ret]. Qed.
Lemma mono_plist {A} (m : P A) n : mono m -> mono (plist n m). Proof. apply mono_prep. Qed.
Lemma mono_pmapM {A B} (m : A -> P B) l : (forall a, mono (m a)) -> mono (pmapM m l).
Proof. intros H. induction l; cbn [pmapM]; [apply mono_ret|]. apply mono_bind; [apply H|]. intros b. apply mono_bind; [exact IHl | intros; apply mono_ret]. Qed.
Lemma mono_u8 : mono u8. Proof. eapply mono_reads. apply reads_u8. Qed.
Lemma mono_u16 : mono u16. Proof. eapply mono_reads. apply reads_u16. Qed.
Lemma mono_u32 : mono u32. Proof. eapply mono_reads. apply reads_u32. Qed.
Lemma mono_u64 : mono u64. Proof. eapply mono_reads. apply reads_u64. Qed.
Lemma mono_i8 : mono i8. Proof. eapply mono_reads. apply (reads_signed 1 1); [lia | reflexivity]. Qed.
Lemma mono_i16 : mono i16. Proof. eapply mono_reads. apply (reads_signed 2 2); [lia | reflexivity]. Qed.
Lemma mono_i32 : mono i32. Proof. eapply mono_reads. apply (reads_signed 4 4); [lia | reflexivity]. Qed.
Lemma mono_i64 : mono i64. Proof. eapply mono_reads. apply (reads_signed 8 8); [lia | reflexivity]. Qed.
Ltac mono_tac := repeat first
  [ apply mono_u8 | apply mono_u16 | apply mono_u32 | apply mono_u64 | apply mono_i8 | apply mono_i16 | apply mono_i32 | apply mono_i64
  | apply mono_ret | apply mono_raise | apply mono_read | apply mono_lift | apply mono_tell | assumption
  | apply mono_bind; [|intros ?] | apply mono_if | apply mono_prep | apply mono_plist | apply mono_pmapM; intros ? ].
Lemma mono_string : mono read_string. Proof. unfold read_string. mono_tac. Qed.
Lemma mono_val ver n : forall t, mono (read_bvalue ver n t).
Proof.
  induction n as [|n IH]; intros t; cbn [read_bvalue]; [apply mono_raise|].
  destruct t; unfold floats, ubool, ptype, read_field_with; mono_tac; try apply mono_string; try apply IH.
Qed.
Lemma mono_entry ver n h : mono (read_entry ver n h).
Proof. unfold read_entry, read_field, read_field_with, ptype. mono_tac. apply mono_val. Qed.
Lemma mono_patches ver n : mono (read_patch_section ver n).
Proof. unfold read_patch_section, read_patch, ptype. mono_tac; try apply mono_string; apply mono_val. Qed.

(** ** Readers and the bytes they consume

    [exact]: the end of the file is not reached. *)

Definition readsX {A} (x : bool) (m : P A) (R : bytes -> A -> Prop) : Prop :=
  forall b p v p', p <= lenN b -> m b p = Ok (v, p') -> (x = true -> p' < lenN b) ->
  exists bs, R bs v /\ p' = p + lenN bs /\ takeN (lenN bs) (dropN p b) = bs.
Lemma rX_reads {A} x (m : P A) R : reads m R -> readsX x m R.
Proof. intros H b p v p' Hp E _. destruct (H b p v p' Hp E) as (bs & HR & -> & _ & T). exists bs. auto. Qed.
Lemma rX_ret {A} x (v : A) (R : bytes -> A -> Prop) : R [] v -> readsX x (pret v) R.
Proof. intros H. apply rX_reads, reads_ret. exact H. Qed.
Lemma rX_raise {A} x e (R : bytes -> A -> Prop) : readsX x (praise e) R.
Proof. intros b p v p' Hp E. discriminate. Qed.
Lemma rX_bind {A B} x (m : P A) (k : A -> P B) (R1 : bytes -> A -> Prop) (R : bytes -> B -> Prop) :
  readsX x m R1 -> mono m -> (forall a, mono (k a)) ->
  (forall b1 a, R1 b1 a -> readsX x (k a) (fun b2 v => R (b1 ++ b2) v)) -> readsX x (pbind m k) R.
Proof.
  intros H1 Mm Mk H2 b p v p' Hp E Hx. apply pbind_Ok in E as (a & p1 & E1 & E2).
  pose proof (Mm b p a p1 Hp E1) as L1. pose proof (Mk a b p1 v p' ltac:(lia) E2) as L2.
  destruct (H1 b p a p1 Hp E1) as (b1 & HR1 & -> & T1); [intros X; specialize (Hx X); lia|].
  destruct (H2 b1 a HR1 b (p + lenN b1) v p' ltac:(lia) E2 Hx) as (b2 & HR & -> & T2).
  exists (b1 ++ b2). split; [exact HR|]. rewrite lenN_app. split; [lia|].
  rewrite takeN_add, T1, dropN_dropN, T2. reflexivity.
Qed.
Lemma rX_weaken {A} x (m : P A) (R R' : bytes -> A -> Prop) : (forall bs v, R bs v -> R' bs v) -> readsX x m R -> readsX x m R'.
Proof. intros HR H b p v p' Hp E Hx. destruct (H b p v p' Hp E Hx) as (bs & ? & ?). exists bs. auto. Qed.
Lemma rX_prep {A} x (m : P A) (R : A -> bytes -> Prop) n : mono m -> readsX x m (fun bs v => R v bs) ->
  readsX x (prep n m) (fun bs vs => length vs = n /\ exists bss, bs = concat bss /\ Forall2 R vs bss).
Proof.
  intros M H. induction n as [|n IH]; cbn [prep].
  - apply rX_ret. split; [reflexivity|]. exists []. split; [reflexivity | constructor].
  - eapply rX_bind; [exact H | exact M | intros a; mono_tac|]. cbn beta. intros b1 a Ha.
    eapply rX_bind; [exact IH | mono_tac | intros l; mono_tac|]. cbn beta. intros b2 l (Hl & bss & -> & HF). apply rX_ret.
    split; [cbn; congruence|]. exists (b1 :: bss). rewrite app_nil_r. split; [reflexivity | constructor; assumption].
Qed.
Lemma rX_plist {A} x (m : P A) (R : A -> bytes -> Prop) n : mono m -> readsX x m (fun bs v => R v bs) ->
  readsX x (plist n m) (fun bs vs => lenN vs = n /\ exists bss, bs = concat bss /\ Forall2 R vs bss).
Proof.
  intros M H. unfold plist. eapply rX_weaken; [|apply rX_prep; [exact M | exact H]]. cbn beta.
  intros bs v (Hl & HR). split; [rewrite lenN_length; lia | assumption].
Qed.
Lemma reads_nums w (m : P N) n : reads m (fun bs v => v < 256 ^ N.of_nat w /\ bs = leenc w v) ->
  reads (prep n m) (fun bs l => nums_ok w n l /\ bs = nums w l).
Proof.
  intros H. eapply reads_weaken; [|apply reads_prep; exact H]. cbn beta. intros bs l (Hl & bss & -> & HF).
  assert (Hx : Forall (fun x => x < 256 ^ N.of_nat w) l /\ concat bss = nums w l).
  { clear Hl. induction HF as [|b v bss l [Hv ->] HF [IH1 IH2]]; [split; [constructor | reflexivity]|].
    split; [constructor; assumption|]. cbn [concat nums flat_map]. rewrite IH2. reflexivity. }
  destruct Hx. split; [split|]; assumption.
Qed.
Lemma takeN_short n (l r : bytes) : takeN n l = r -> takeN (lenN r) l = r.
Proof.
  intros <-. rewrite lenN_takeN. destruct (N.le_ge_cases n (lenN l)) as [H|H].
  - rewrite N.min_l by exact H. reflexivity.
  - rewrite N.min_r by exact H. rewrite !takeN_all; [reflexivity | exact H | reflexivity].
Qed.
Lemma string_reads x : readsX x read_string (fun bs s => text_layout x s bs).
Proof.
  intros b p v p' Hp E Hx. unfold read_string in E. apply pbind_Ok in E as (n & p1 & E1 & E). apply pbind_Ok in E as (raw & p2 & E2 & E3).
  destruct (reads_u16 b p n p1 Hp E1) as (b1 & [Hn ->] & -> & Hb1 & T1).
  unfold pread in E2. injection E2 as E2 E2'. unfold plift in E3. destruct (utf8_dec raw) as [s|er] eqn:Es; [|discriminate].
  injection E3 as <- <-. apply utf8_dec_sound in Es as [Hs Eraw]. 
  exists (leenc 2 n ++ raw). rewrite lenN_app. rewrite E2 in E2'. split; [|split; [rewrite <- E2'; apply eq_sym, N.add_assoc|]].
  - exists n. split; [exact Hn|]. split; [exact Hs|]. rewrite <- Eraw. split; [reflexivity|].
    pose proof (f_equal lenN E2) as El. rewrite lenN_takeN, lenN_dropN in El. destruct x; [|lia]. specialize (Hx eq_refl). lia.
  - rewrite takeN_add, T1, dropN_dropN. f_equal. apply (takeN_short n). exact E2.
Qed.
Lemma type_reads x ver c : c < 256 -> readsX x (ptype ver c) (fun bs t => bs = [] /\ code (era_of ver) c t).
Proof.
  intros Hc. unfold ptype. destruct (parse_bintype ver c) as [t|er] eqn:E; cbn [plift]; [|apply rX_raise].
  apply rX_ret. split; [reflexivity|]. apply parse_code; assumption.
Qed.

Ltac rx := eapply rX_bind; [| | intros ?; mono_tac; try apply mono_string; try apply mono_val |].
Ltac rx_u a := eapply rX_bind; [apply rX_reads; first [apply reads_u8 | apply reads_u16 | apply reads_u32 | apply reads_u64] | mono_tac
  | intros ?; unfold ptype; mono_tac; try apply mono_string; try apply mono_val |]; cbn beta; intros ? a [? ->].
Ltac rx_t t := eapply rX_bind; [apply type_reads; assumption | unfold ptype; mono_tac
  | intros ?; unfold ptype; mono_tac; try apply mono_string; try apply mono_val |]; cbn beta; intros ? t [-> ?].
Ltac rx_ret := apply rX_ret; rewrite ?app_nil_r, <- ?app_assoc; cbn [app].

Section Backward.
Variable ver : Z.
Variable x : bool.
Notation e := (era_of ver).
Lemma field_reads (rv : btype -> P bval) (val : btype -> bval -> bytes -> Prop) :
  (forall t, mono (rv t)) -> (forall t, readsX x (rv t) (fun bs v => val t v bs)) ->
  readsX x (read_field_with ver rv) (fun bs f => field_layout e val f bs).
Proof.
  intros M H. unfold read_field_with. eapply rX_bind; [apply rX_reads, reads_u32 | mono_tac | intros ?; unfold ptype; mono_tac; apply M|].
  cbn beta. intros ? h [Hh ->].
  eapply rX_bind; [apply rX_reads, reads_u8 | mono_tac | intros ?; unfold ptype; mono_tac; apply M|]. cbn beta. intros ? c [Hc ->].
  eapply rX_bind; [apply type_reads; exact Hc | unfold ptype; mono_tac | intros ?; mono_tac; apply M|]. cbn beta. intros ? t [-> Ht].
  eapply rX_bind; [apply H | apply M | intros ?; mono_tac|]. cbn beta. intros bv v Hv. rx_ret.
  exists c, bv. auto.
Qed.
Lemma mono_field (rv : btype -> P bval) : (forall t, mono (rv t)) -> mono (read_field_with ver rv).
Proof. intros M. unfold read_field_with, ptype. mono_tac. apply M. Qed.
Lemma fields_reads (rv : btype -> P bval) (val : btype -> bval -> bytes -> Prop) n :
  (forall t, mono (rv t)) -> (forall t, readsX x (rv t) (fun bs v => val t v bs)) ->
  readsX x (plist n (read_field_with ver rv)) (fun bs fs => lenN fs = n /\ fields_layout e val fs bs).
Proof.
  intros M H. eapply rX_weaken; [|apply rX_plist; [apply mono_field; exact M | apply field_reads; [exact M | exact H]]].
  cbn beta. intros bs fs (Hl & bss & -> & HF). split; [exact Hl|]. exists bss. auto.
Qed.
Lemma ubool_reads : reads ubool (fun bs v => exists c, c < 256 /\ v = negb (c =? 0) /\ bs = leenc 1 c).
Proof.
  unfold ubool. eapply reads_bind; [apply reads_u8|]. cbn beta. intros ? c [Hc ->]. apply reads_ret. rewrite app_nil_r. exists c. auto.
Qed.
Lemma val_reads n : forall t, readsX x (read_bvalue ver n t) (fun bs v => val_layout x e n t v bs).
Proof.
  induction n as [|n IH]; intros t; [apply rX_raise|].
  assert (M := mono_val ver n).
  assert (Hu : forall w (m : P N), reads m (fun bs v => v < 256 ^ N.of_nat w /\ bs = leenc w v) ->
     readsX x (let* n := m in pret (VInt (Z.of_N n))) (fun bs v => exists z, v = VInt z /\ unsigned w z bs)).
  { intros w m Hm. apply rX_reads. eapply reads_bind; [exact Hm|]. cbn beta. intros ? k [Hk ->]. apply reads_ret. rewrite app_nil_r.
    exists (Z.of_N k). split; [reflexivity|]. exists k. auto. }
  assert (Hi : forall w k, (0 < w)%nat -> k = N.of_nat w ->
     readsX x (let* z := (let* d := punpack k in pret (to_signed k (ledec d))) in pret (VInt z)) (fun bs v => exists z, v = VInt z /\ signed w z bs)).
  { intros w k Hw Hk. apply rX_reads. eapply reads_bind; [apply reads_signed; [exact Hw | exact Hk]|]. cbn beta. intros ? z Hz. apply reads_ret.
    rewrite app_nil_r. exists z. auto. }
  assert (Hlist : readsX x (let* c := u8 in let* _ := u32 in let* count := u32 in let* vt := ptype ver c in
      let* vs := plist count (read_bvalue ver n vt) in pret (VList vt vs))
    (fun bs v => exists c vt size vs bss, v = VList vt vs /\ code e c vt /\ size < 2 ^ 32 /\ lenN vs < 2 ^ 32 /\
        Forall2 (val_layout x e n vt) vs bss /\ bs = leenc 1 c ++ leenc 4 size ++ leenc 4 (lenN vs) ++ concat bss)).
  { rx_u c. rx_u size. rx_u count. rx_t vt.
    eapply rX_bind; [apply (rX_plist x _ (val_layout x e n vt)); [apply M | apply IH] | mono_tac; apply M | intros ?; mono_tac|].
    cbn beta. intros ? vs (<- & bss & -> & HF). rx_ret. exists c, vt, size, vs, bss. split; [reflexivity|]. split; [assumption|]. split; [assumption|]. split; [assumption|]. split; [exact HF | reflexivity]. }
  destruct t; cbn [val_layout read_bvalue]; try exact Hlist.
  - apply rX_reads. eapply reads_bind; [apply (reads_nums 2), reads_u16|]. cbn beta. intros ? l [Hl ->]. apply reads_ret. rewrite app_nil_r. eauto.
  - apply rX_reads. eapply reads_bind; [apply ubool_reads|]. cbn beta. intros ? v (c & Hc & -> & ->). apply reads_ret. rewrite app_nil_r. eauto.
  - apply (Hi 1%nat); [lia | reflexivity].
  - apply (Hu 1%nat), reads_u8.
  - apply (Hi 2%nat); [lia | reflexivity].
  - apply (Hu 2%nat), reads_u16.
  - apply (Hi 4%nat); [lia | reflexivity].
  - apply (Hu 4%nat), reads_u32.
  - apply (Hi 8%nat); [lia | reflexivity].
  - apply (Hu 8%nat), reads_u64.
  - rx_u c. rx_ret. eauto.
  - apply rX_reads. eapply reads_bind; [apply (reads_nums 4), reads_u32|]. cbn beta. intros ? l [Hl ->]. apply reads_ret. rewrite app_nil_r. eauto.
  - apply rX_reads. eapply reads_bind; [apply (reads_nums 4), reads_u32|]. cbn beta. intros ? l [Hl ->]. apply reads_ret. rewrite app_nil_r. eauto.
  - apply rX_reads. eapply reads_bind; [apply (reads_nums 4), reads_u32|]. cbn beta. intros ? l [Hl ->]. apply reads_ret. rewrite app_nil_r. eauto.
  - apply rX_reads. eapply reads_bind; [apply reads_prep; apply (reads_nums 4), reads_u32|]. cbn beta. intros ? l (Hl & bss & -> & HF). apply reads_ret.
    rewrite app_nil_r. exists l. split; [reflexivity|]. split; [exact Hl|]. clear Hl.
    induction HF as [|b r bss l [Hr ->] HF [IH1 IH2]]; [split; [constructor | reflexivity]|].
    split; [constructor; assumption|]. cbn [concat flat_map]. rewrite IH2. reflexivity.
  - apply rX_reads. eapply reads_bind; [apply (reads_nums 1), reads_u8|]. cbn beta. intros ? l [Hl ->]. apply reads_ret. rewrite app_nil_r. eauto.
  - eapply rX_bind; [apply string_reads | apply mono_string | intros ?; mono_tac|]. cbn beta. intros ? s Hs. rx_ret. eauto.
  - rx_u c. rx_ret. eauto.
  - rx_u c. rx_ret. eauto.
  - eapply rX_bind; [apply rX_reads, reads_u32 | mono_tac | intros ?; unfold read_field_with, ptype; mono_tac; apply M|]. cbn beta. intros ? h [Hh ->].
    destruct (N.eqb_spec h 0) as [->|Hh0].
    + eapply rX_bind with (R1 := fun bs c => bs = [] /\ c = 0); [apply rX_ret; auto | mono_tac | intros ?; unfold read_field_with, ptype; mono_tac; apply M|].
      cbn beta. intros ? c [-> ->].
      eapply rX_bind; [apply fields_reads; [exact M | exact IH] | unfold read_field_with, ptype; mono_tac; apply M | intros ?; mono_tac|].
      cbn beta. intros bf fs (Hl & bss & HF & ->). apply lenN_0 in Hl. subst fs. inversion HF; subst. rx_ret.
      exists 0, []. split; [reflexivity|]. split; [exact Hh|]. left. auto.
    + eapply rX_bind with (R1 := fun bs c => exists size, size < 2 ^ 32 /\ c < 2 ^ 16 /\ bs = leenc 4 size ++ leenc 2 c);
        [|mono_tac | intros ?; unfold read_field_with, ptype; mono_tac; apply M|].
      { rx_u size. eapply rX_weaken; [|apply rX_reads, reads_u16]. cbn beta. intros bs c [Hc ->]. eauto. }
      cbn beta. intros ? c (size & Hs & Hc & ->).
      eapply rX_bind; [apply fields_reads; [exact M | exact IH] | unfold read_field_with, ptype; mono_tac; apply M | intros ?; mono_tac|].
      cbn beta. intros bf fs (<- & Hf). rx_ret.
      exists h, fs. split; [reflexivity|]. split; [exact Hh|]. right. split; [exact Hh0|]. exists size, bf. auto.
  - eapply rX_bind; [apply rX_reads, reads_u32 | mono_tac | intros ?; unfold read_field_with, ptype; mono_tac; apply M|]; cbn beta; intros ? h [? ->].
    eapply rX_bind; [apply rX_reads, reads_u32 | mono_tac | intros ?; unfold read_field_with, ptype; mono_tac; apply M|]; cbn beta; intros ? size [? ->].
    eapply rX_bind; [apply rX_reads, reads_u16 | mono_tac | intros ?; unfold read_field_with, ptype; mono_tac; apply M|]; cbn beta; intros ? count [? ->].
    eapply rX_bind; [apply fields_reads; [exact M | exact IH] | unfold read_field_with, ptype; mono_tac; apply M | intros ?; mono_tac|].
    cbn beta. intros bf fs (<- & Hf). rx_ret. exists h, fs, size, bf. split; [reflexivity|]. split; [assumption|]. split; [assumption|]. split; [assumption|]. split; [exact Hf | reflexivity].
  - rx_u c. rx_ret. eauto.
  - rx_u c. eapply rX_bind; [apply rX_reads, ubool_reads | unfold ubool; mono_tac | intros ?; unfold ptype; mono_tac; apply M|].
    cbn beta. intros ? has (flag & Hf & -> & ->). rx_t vt.
    destruct (N.eqb_spec flag 0) as [->|Hf0]; cbn [negb].
    + eapply rX_bind with (R1 := fun bs o => bs = [] /\ o = None); [apply rX_ret; auto | mono_tac | intros ?; mono_tac|].
      cbn beta. intros ? o [-> ->]. rx_ret. do 3 eexists. split; [eassumption|]. split; [exact Hf|]. left. auto.
    + eapply rX_bind with (R1 := fun bs o => exists v, o = Some v /\ val_layout x e n vt v bs); [| mono_tac; apply M | intros ?; mono_tac|].
      { eapply rX_bind; [apply IH | apply M | intros ?; mono_tac|]. cbn beta. intros ? v Hv. rx_ret. eauto. }
      cbn beta. intros ? o (v & -> & Hv). rx_ret. do 3 eexists. split; [eassumption|]. split; [exact Hf|]. right. split; [exact Hf0|]. eauto 10.
  - rx_u ck. rx_u cv. rx_u size. rx_u count. rx_t kt. rx_t vt.
    eapply rX_bind; [| mono_tac; apply M | intros ?; mono_tac|].
    { apply (rX_plist x _ (pair_layout kt vt (val_layout x e n))); [mono_tac; apply M|].
      eapply rX_bind; [apply IH | apply M | intros ?; mono_tac; apply M|]. cbn beta. intros bk k Hk.
      eapply rX_bind; [apply IH | apply M | intros ?; mono_tac|]. cbn beta. intros bv v Hv. rx_ret. exists bk, bv. auto. }
    cbn beta. intros ? kvs (<- & bss & -> & HF). rx_ret. exists ck, kt, cv, vt, size, kvs, (map_of kvs), bss. split; [reflexivity|]. split; [apply map_of_builds|].
    split; [assumption|]. split; [assumption|]. split; [assumption|]. split; [assumption|]. split; [exact HF | reflexivity].
  - apply (Hu 1%nat), reads_u8.
Qed.

Lemma entry_reads n h : readsX x (read_entry ver n h) (fun bs en => be_type en = h /\ entry_layout x e n en bs).
Proof.
  intros b p v p' Hp E Hx. unfold read_entry in E.
  apply pbind_Ok in E as (st & p0 & E0 & E). unfold ptell in E0. injection E0 as <- <-.
  apply pbind_Ok in E as (len & p1 & E1 & E). apply pbind_Ok in E as (hp & p2 & E2 & E).
  apply pbind_Ok in E as (count & p3 & E3 & E). apply pbind_Ok in E as (fs & p4 & E4 & E).
  apply pbind_Ok in E as (fin & p5 & E5 & E). unfold ptell in E5. injection E5 as <- <-.
  destruct (reads_u32 b p len p1 Hp E1) as (b1 & [H1 ->] & -> & L1 & T1).
  destruct (reads_u32 b _ hp p2 L1 E2) as (b2 & [H2 ->] & -> & L2 & T2).
  destruct (reads_u16 b _ count p3 L2 E3) as (b3 & [H3 ->] & -> & L3 & T3).
  destruct (Z.eqb_spec (Z.of_N p4 - (Z.of_N p + 4)) (Z.of_N len)) as [Elen|]; [|discriminate].
  injection E as <- <-.
  destruct (fields_reads (read_bvalue ver n) (val_layout x e n) count (mono_val ver n) (val_reads n) b _ fs p4 L3 E4 Hx) as (bf & [<- Hf] & -> & T4).
  rewrite !leenc_len in *.
  assert (El : len = lenN bf + 6) by lia. subst len.
  exists (leenc 4 (lenN bf + 6) ++ leenc 4 hp ++ leenc 2 (lenN fs) ++ bf). split; [|split].
  - split; [reflexivity|]. exists bf. cbn [be_path be_fields]. auto.
  - rewrite !lenN_app, !leenc_len. lia.
  - rewrite !lenN_app, !leenc_len. rewrite takeN_add, T1. f_equal. rewrite dropN_dropN, takeN_add, T2. f_equal.
    rewrite dropN_dropN, takeN_add, T3. f_equal. rewrite dropN_dropN, T4. reflexivity.
Qed.
Lemma patch_reads n : readsX x (read_patch ver n) (fun bs p => patch_layout x e n p bs).
Proof.
  unfold read_patch. rx_u h. rx_u size. rx_u c. rx_t vt.
  eapply rX_bind; [apply string_reads | apply mono_string | intros ?; mono_tac; apply mono_val|]. cbn beta. intros bp path Hpath.
  eapply rX_bind; [apply val_reads | apply mono_val | intros ?; mono_tac|]. cbn beta. intros bv v Hv. rx_ret.
  cbv beta iota. exists size, c, bp, bv. split; [assumption|]. split; [assumption|]. split; [assumption|]. split; [exact Hpath|]. split; [exact Hv | reflexivity].
Qed.
Lemma entries_reads n hs : readsX x (pmapM (read_entry ver n) hs)
  (fun bs es => map be_type es = hs /\ exists bss, bs = concat bss /\ Forall2 (entry_layout x e n) es bss).
Proof.
  induction hs as [|h hs IH]; cbn [pmapM].
  - apply rX_ret. split; [reflexivity|]. exists []. split; [reflexivity | constructor].
  - eapply rX_bind; [apply entry_reads | apply mono_entry | intros ?; mono_tac; first [apply mono_entry | apply mono_val]|]. cbn beta. intros b1 en [<- He].
    eapply rX_bind; [exact IH | mono_tac; first [apply mono_entry | apply mono_val] | intros ?; mono_tac|]. cbn beta. intros b2 es (<- & bss & -> & HF). rx_ret.
    split; [reflexivity|]. exists (b1 :: bss). split; [reflexivity | constructor; assumption].
Qed.
Lemma section_reads n : readsX x (read_patch_section ver n) (fun bs g => exists ps bps, grouped ps g /\ lenN ps < 2 ^ 32 /\
      Forall2 (patch_layout x e n) ps bps /\ bs = leenc 4 (lenN ps) ++ concat bps).
Proof.
  assert (M : mono (read_patch ver n)) by (unfold read_patch, ptype; mono_tac; try apply mono_string; apply mono_val).
  unfold read_patch_section. eapply rX_bind; [apply rX_reads, reads_u32 | mono_tac | intros ?; mono_tac|]. cbn beta. intros ? count [Hc ->].
  eapply rX_bind; [apply (rX_plist x _ (patch_layout x e n)); [exact M | apply patch_reads] | mono_tac | intros ?; mono_tac|].
  cbn beta. intros ? ps (<- & bss & -> & HF). rx_ret. exists ps, bss. split; [apply adds_grouped|]. auto.
Qed.
End Backward.

(** ** Files accepted *)

Lemma Ok_lt_u32 b p v p' : u32 b p = Ok (v, p') -> p < lenN b.
Proof.
  intros E. destruct (N.lt_ge_cases p (lenN b)) as [H|H]; [exact H|]. rewrite u32_end in E by exact H. discriminate.
Qed.
Lemma header_reads : readsX false read_header (fun bs r => let '(version, linked, types) := r in
  version < 2 ^ 32 /\ lenN types < 2 ^ 32 /\ Forall (fun h => h < 2 ^ 32) types /\
  exists bl0, bs = leenc 4 version ++ bl0 ++ leenc 4 (lenN types) ++ nums 4 types /\
  match linked with
  | None => version < 2 /\ bl0 = []
  | Some l => 2 <= version /\ lenN l < 2 ^ 32 /\ exists bss, Forall2 (text_layout true) l bss /\ bl0 = leenc 4 (lenN l) ++ concat bss
  end).
Proof.
  intros b p v p' Hp E _. unfold read_header in E.
  apply pbind_Ok in E as (version & p1 & E1 & E). apply pbind_Ok in E as (linked & p2 & E2 & E).
  apply pbind_Ok in E as (count & p3 & E3 & E). apply pbind_Ok in E as (types & p4 & E4 & E). injection E as <- <-.
  destruct (reads_u32 b p version p1 Hp E1) as (b1 & [H1 ->] & -> & L1 & T1).
  set (R := fun (bs : bytes) (linked : option (list str)) => match linked with
  | None => version < 2 /\ bs = []
  | Some l => 2 <= version /\ lenN l < 2 ^ 32 /\ exists bss, Forall2 (text_layout true) l bss /\ bs = leenc 4 (lenN l) ++ concat bss
  end).
  assert (RL : readsX true (if 2 <=? version then let* n := u32 in let* l := plist n read_string in pret (Some l) else pret None) R).
  { destruct (N.leb_spec 2 version) as [H2|H2]; [|apply rX_ret; split; [lia | reflexivity]].
    eapply rX_bind; [apply rX_reads, reads_u32 | mono_tac | intros ?; mono_tac; apply mono_string|]. cbn beta. intros ? n [Hn ->].
    eapply rX_bind; [apply (rX_plist true _ (text_layout true)); [apply mono_string | apply string_reads] | mono_tac; apply mono_string | intros ?; mono_tac|].
    cbn beta. intros ? l (<- & bss & -> & HF). rx_ret. cbn [R]. split; [lia|]. split; [exact Hn|]. exists bss. auto. }
  destruct (RL b _ linked p2 L1 E2) as (b2 & HR & -> & T2); [intros _; exact (Ok_lt_u32 _ _ _ _ E3)|].
  pose proof (Ok_lt_u32 _ _ _ _ E3) as L2.
  destruct (reads_u32 b _ count p3 (N.lt_le_incl _ _ L2) E3) as (b3 & [H3 ->] & -> & L3 & T3).
  destruct (reads_nums 4 u32 (N.to_nat count) reads_u32 b _ types p4 L3 E4) as (b4 & [[H4 H5] ->] & -> & L4 & T4).
  assert (Ec : count = lenN types) by (rewrite lenN_length; lia). subst count.
  exists (leenc 4 version ++ b2 ++ leenc 4 (lenN types) ++ nums 4 types). split; [|split].
  - split; [exact H1|]. split; [exact H3|]. split; [exact H5|]. exists b2. split; [reflexivity | exact HR].
  - rewrite !lenN_app. lia.
  - rewrite !lenN_app. rewrite takeN_add, T1. f_equal. rewrite dropN_dropN, takeN_add, T2. f_equal.
    rewrite dropN_dropN, takeN_add, T3. f_equal. rewrite dropN_dropN, T4. reflexivity.
Qed.
Lemma mono_header : mono read_header.
Proof. unfold read_header. mono_tac; apply mono_string. Qed.
Lemma read_reads n : reads (punpack n) (fun bs v => lenN bs = n /\ v = bs). Proof. apply reads_unpack. Qed.
Lemma pread_reads n : readsX false (pread n) (fun bs v => v = bs).
Proof.
  intros b p v p' Hp E _. unfold pread in E. injection E as E <-. exists v. rewrite E. split; [reflexivity|]. split; [reflexivity|].
  apply (takeN_short n). exact E.
Qed.
Lemma front_reads : readsX false read_front (fun bs r => let '(patch, (version, linked, types)) := r in head_layout patch version linked types bs).
Proof.
  unfold read_front. eapply rX_bind; [apply pread_reads | apply mono_read | intros ?; mono_tac; try apply mono_string; apply mono_header|].
  cbn beta. intros m0 ? ->. cbv zeta.
  eapply rX_bind with (R1 := fun bs magic => magic = bl "PROP" -> m0 ++ bs = (if eqb m0 (bl "PTCH") then bl "PTCH" ++ leenc 4 1 ++ leenc 4 0 else []) ++ bl "PROP").
  - destruct (eqbP m0 (bl "PTCH")) as [->|Hne].
    + eapply rX_bind; [apply rX_reads, reads_u32 | mono_tac | intros ?; mono_tac|]. cbn beta. intros ? x [_ ->].
      eapply rX_bind; [apply rX_reads, reads_u32 | mono_tac | intros ?; mono_tac|]. cbn beta. intros ? y [_ ->].
      destruct (N.eqb_spec x 1) as [->|]; [|apply rX_raise]. destruct (N.eqb_spec y 0) as [->|]; [|apply rX_raise]. cbn [andb].
      eapply rX_weaken; [|apply pread_reads]. cbn beta. intros bs v -> ->. rewrite <- !app_assoc. reflexivity.
    + apply rX_ret. intros ->. rewrite app_nil_r. reflexivity.
  - mono_tac.
  - intros ?. mono_tac; try apply mono_string; apply mono_header.
  - cbn beta. intros bs magic Hm. destruct (eqbP magic (bl "PROP")) as [->|]; [|apply rX_raise]. cbn [negb]. specialize (Hm eq_refl).
    eapply rX_bind; [apply header_reads | apply mono_header | intros ?; mono_tac|]. cbn beta. intros bs' [[version linked] types] (H1 & H2 & H3 & bl0 & -> & H4).
    apply rX_ret. split; [exact H1|]. split; [exact H2|]. split; [exact H3|]. exists bl0. split; [|exact H4].
    rewrite app_nil_r, app_assoc, Hm, <- app_assoc. destruct (eqb m0 (bl "PTCH")); reflexivity.
Qed.
Lemma mono_front : mono read_front.
Proof. unfold read_front. mono_tac; try apply mono_string; apply mono_header. Qed.
Lemma mono_rest ver n r : mono (read_rest ver n r).
Proof.
  destruct r as [patch [[version linked] types]]. unfold read_rest.
  apply mono_bind; [apply mono_pmapM, mono_entry|]. intros es. apply mono_bind; [|intros ?; apply mono_ret].
  destruct (patch && (3 <=? version)); [|apply mono_ret]. apply mono_bind; [apply mono_patches | intros ?; apply mono_ret].
Qed.
Lemma rX_false {A} x (m : P A) (R : bytes -> A -> Prop) : readsX false m R -> readsX x m R.
Proof. intros H b p v p' Hp E _. apply (H b p v p' Hp E). discriminate. Qed.
Lemma file_reads ver n x : readsX x (read_binfile ver n) (fun bs f => file_layout x (era_of ver) n f bs).
Proof.
  intros b p v p' Hp E. rewrite front_rest in E. revert b p v p' Hp E.
  change (readsX x (pbind read_front (read_rest ver n)) (fun bs f => file_layout x (era_of ver) n f bs)).
  eapply rX_bind; [apply rX_false, front_reads | apply mono_front | apply mono_rest|].
  cbn beta. intros bh [patch [[version linked] types]] Hh. unfold read_rest.
  eapply rX_bind; [apply entries_reads | apply mono_pmapM, mono_entry | |].
  { intros es. apply mono_bind; [|intros ?; apply mono_ret].
    destruct (patch && (3 <=? version)); [|apply mono_ret]. apply mono_bind; [apply mono_patches | intros ?; apply mono_ret]. }
  cbn beta. intros be es (<- & bes & -> & HF).
  eapply rX_bind with (R1 := fun bp patches => match patches with
  | None => (patch = false \/ version < 3) /\ bp = []
  | Some g => patch = true /\ 3 <= version /\ exists ps bps, grouped ps g /\ lenN ps < 2 ^ 32 /\
      Forall2 (patch_layout x (era_of ver) n) ps bps /\ bp = leenc 4 (lenN ps) ++ concat bps
  end).
  - destruct patch; cbn [andb]; [|apply rX_ret; auto]. destruct (N.leb_spec 3 version); [|apply rX_ret; auto].
    eapply rX_bind; [apply section_reads | apply mono_patches | intros ?; apply mono_ret|]. cbn beta. intros bs g Hg. apply rX_ret.
    rewrite app_nil_r. auto.
  - destruct (patch && (3 <=? version)); [|apply mono_ret]. apply mono_bind; [apply mono_patches | intros ?; apply mono_ret].
  - intros ?. apply mono_ret.
  - cbn beta. intros bp patches Hp. apply rX_ret. exists bh, bes, bp. rewrite app_nil_r. cbn [bf_patch bf_version bf_linked bf_entries bf_patches]. auto.
Qed.

(** Every accepted file has the layout; only the last string of the file can be cut. *)
Theorem accepted ver n b f : prun (read_binfile ver n) b = Ok f ->
  exists x bs rest, b = bs ++ rest /\ file_layout x (era_of ver) n f bs /\ (x = true \/ rest = []).
Proof.
  unfold prun. intros E. destruct (read_binfile ver n b 0) as [[v p]|er] eqn:E1; [|discriminate]. injection E as <-.
  assert (M : p <= lenN b).
  { pose proof E1 as E2. rewrite front_rest in E2.
    pose proof (mono_bind _ _ mono_front (mono_rest ver n) b 0 v p ltac:(lia) E2). lia. }
  destruct (N.lt_ge_cases p (lenN b)) as [H|H].
  - destruct (file_reads ver n true b 0 v p ltac:(lia) E1 (fun _ => H)) as (bs & HR & -> & T).
    exists true, bs, (dropN (lenN bs) b). split; [|auto]. rewrite <- T at 1. rewrite dropN_0. apply eq_sym, takeN_dropN.
  - destruct (file_reads ver n false b 0 v p ltac:(lia) E1 ltac:(discriminate)) as (bs & HR & -> & T).
    exists false, bs, []. split; [|auto]. rewrite app_nil_r. rewrite dropN_0 in T. rewrite takeN_all in T by lia. exact T.
Qed.
Theorem decoded ver n f bs rest : file_layout true (era_of ver) n f bs -> prun (read_binfile ver n) (bs ++ rest) = Ok f.
Proof. intros H. unfold prun. pose proof (file_parses ver n f bs H [] rest) as E. cbn [app] in E. change (lenN []) with 0 in E. rewrite E. reflexivity. Qed.

(** ** Cut files *)

Lemma parses_det {A} (m : P A) bs v bs' v' r r' : parses m bs v -> parses m bs' v' -> bs ++ r = bs' ++ r' -> v = v' /\ bs = bs' /\ r = r'.
Proof.
  intros H H' E. pose proof (H [] r) as E1. pose proof (H' [] r') as E2. cbn [app] in *. rewrite E in E1. rewrite E2 in E1. injection E1 as Ev El.
  assert (Hl : lenN bs = lenN bs') by (apply N.add_cancel_l in El; auto).
  destruct (app_inv_len _ _ _ _ E Hl). auto.
Qed.
Lemma entry_len x x' e n n' en en' be be' r r' : entry_layout x e n en be -> entry_layout x' e n' en' be' -> be ++ r = be' ++ r' ->
  r = r'.
Proof.
  intros (bf & _ & _ & _ & Hl & ->) (bf' & _ & _ & _ & Hl' & ->) E.
  assert (G : lenN (leenc 4 (lenN bf + 6) ++ leenc 4 (be_path en) ++ leenc 2 (lenN (be_fields en)) ++ bf) =
              lenN (leenc 4 (lenN bf' + 6) ++ leenc 4 (be_path en') ++ leenc 2 (lenN (be_fields en')) ++ bf')).
  { rewrite <- !app_assoc in E.
    destruct (parses_det u32 _ _ _ _ _ _ (parses_u32 _ Hl) (parses_u32 _ Hl') E) as (El & _ & _).
    rewrite !lenN_app, !leenc_len. assert (El' : lenN bf = lenN bf') by (apply N.add_cancel_r in El; exact El). rewrite El'. reflexivity. }
  apply (app_inv_len _ _ _ _ E G).
Qed.
Lemma entries_len x x' e n n' es : forall es' bes bes' r r', length es = length es' ->
  Forall2 (entry_layout x e n) es bes -> Forall2 (entry_layout x' e n') es' bes' -> concat bes ++ r = concat bes' ++ r' -> r = r'.
Proof.
  induction es as [|en es IH]; intros [|en' es'] bes bes' r r' Hl H H' E; try discriminate; inversion H; inversion H'; subst; [exact E|].
  cbn [concat] in E. rewrite <- !app_assoc in E.
  pose proof (entry_len _ _ _ _ _ _ _ _ _ _ _ H2 H7 E) as E'. eapply IH; [injection Hl as Hl; exact Hl | eassumption | eassumption | exact E'].
Qed.
Theorem cut_rejected ver n f bs cut rem : file_layout true (era_of ver) n f bs -> bf_patches f = None -> bs = cut ++ rem -> rem <> [] ->
  exists er, prun (read_binfile ver n) cut = Err er.
Proof.
  intros H Hnp E Hr. destruct (prun (read_binfile ver n) cut) as [f'|er] eqn:E1; [exfalso | eauto].
  apply accepted in E1 as (x & bs' & rest & -> & H' & Hx).
  assert (Hgen : rest ++ rem = []).
  { destruct H as (bh & bes & bp & -> & Hh & He & Hp). destruct H' as (bh' & bes' & bp' & -> & Hh' & He' & Hp').
    rewrite Hnp in Hp. destruct Hp as [Hc ->]. rewrite app_nil_r, <- !app_assoc in E.
    destruct (parses_det _ _ _ _ _ _ _ (front_parses _ _ _ _ _ Hh) (front_parses _ _ _ _ _ Hh') E) as (Ev & _ & Er).
    pose proof (f_equal fst Ev) as Ep. pose proof (f_equal snd Ev) as Es. cbn [fst snd] in Ep, Es. injection Es as Evs _ Et.
    assert (Hl : length (bf_entries f) = length (bf_entries f')) by (rewrite <- (map_length be_type), Et, map_length; reflexivity).
    rewrite <- (app_nil_r (concat bes)) in Er.
    pose proof (entries_len _ _ _ _ _ _ _ _ _ _ _ Hl He He' Er) as E0.
    symmetry in E0. apply app_eq_nil in E0 as [_ E0]. exact E0. }
  apply app_eq_nil in Hgen as [_ ->]. apply Hr. reflexivity.
Qed.

(** ** Entries with a wrong length *)

Theorem length_rejected ver n patch version linked types es bes h hs bh len path fs bf post :
  head_layout patch version linked types bh -> types = map be_type es ++ h :: hs ->
  Forall2 (entry_layout true (era_of ver) n) es bes ->
  len < 2 ^ 32 -> path < 2 ^ 32 -> lenN fs < 2 ^ 16 -> fields_layout (era_of ver) (val_layout true (era_of ver) n) fs bf ->
  len <> lenN bf + 6 ->
  prun (read_binfile ver n) (bh ++ concat bes ++ leenc 4 len ++ leenc 4 path ++ leenc 2 (lenN fs) ++ bf ++ post) = Err AssertionError.
Proof.
  intros Hh -> He Hlen Hpath Hfs Hf Hne. unfold prun. rewrite front_rest. unfold pbind at 1.
  pose proof (front_parses _ _ _ _ _ Hh []) as E. cbn [app] in E. change (lenN []) with 0 in E. rewrite E. clear E. cbn [N.add].
  set (post1 := leenc 4 len ++ leenc 4 path ++ leenc 2 (lenN fs) ++ bf ++ post). unfold read_rest. unfold pbind at 1.
  assert (G : forall pre, pmapM (read_entry ver n) (map be_type es ++ h :: hs) (pre ++ concat bes ++ post1) (lenN pre) = Err AssertionError).
  { clear Hh. induction He as [|en be es bes Hen He IH]; intros pre; cbn [map app concat pmapM].
    - unfold pbind at 1.
      assert (Ee : read_entry ver n h (pre ++ post1) (lenN pre) = Err AssertionError).
      { unfold read_entry. unfold pbind at 1. cbn [ptell]. unfold ptell at 1.
        unfold pbind at 1. unfold post1. rewrite (parses_u32 len Hlen pre). 
        unfold pbind at 1. rewrite app_assoc, <- lenN_app. rewrite (parses_u32 path Hpath (pre ++ leenc 4 len)).
        unfold pbind at 1. rewrite app_assoc, <- lenN_app. rewrite (parses_u16 _ Hfs ((pre ++ leenc 4 len) ++ leenc 4 path)).
        unfold pbind at 1. rewrite app_assoc, <- lenN_app.
        rewrite (fields_parses ver (read_bvalue ver n) (val_layout true (era_of ver) n) fs bf (val_parses ver n) Hf).
        unfold pbind, ptell. rewrite !lenN_app, !leenc_len.
        match goal with |- (if ?c then _ else _) _ _ = _ => destruct c eqn:Ec end; [exfalso|reflexivity].
        apply Z.eqb_eq in Ec. lia. }
      rewrite Ee. reflexivity.
    - unfold pbind at 1. rewrite <- app_assoc. rewrite (entry_parses ver n en be Hen pre). unfold pbind at 1.
      rewrite app_assoc, <- lenN_app. rewrite IH. reflexivity. }
  rewrite G. reflexivity.
Qed.

(** ** Depth of recursion *)

Definition deep {A} (d : N) (m : P A) : Prop := forall b p, p <= lenN b -> m b p = Err RuntimeError -> p + d <= lenN b.
Definition calm {A} (m : P A) : Prop := forall b p, m b p <> Err RuntimeError.
Lemma calm_deep {A} d (m : P A) : calm m -> deep d m.
Proof. intros H b p Hp E. destruct (H b p E). Qed.
Lemma calm_ret {A} (a : A) : calm (pret a). Proof. intros b p. discriminate. Qed.
Lemma calm_raise {A} e : e <> RuntimeError -> calm (@praise A e). Proof. intros H b p E. injection E as E. auto. Qed.
Lemma calm_read n : calm (pread n). Proof. intros b p. discriminate. Qed.
Lemma calm_bind {A B} (m : P A) (k : A -> P B) : calm m -> (forall a, calm (k a)) -> calm (pbind m k).
Proof. intros Hm Hk b p. unfold pbind. pose proof (Hm b p). destruct (m b p) as [[a p1]|er]; [apply Hk|]. congruence. Qed.
Lemma calm_unpack n : calm (punpack n).
Proof. apply calm_bind; [apply calm_read|]. intros d. destruct (lenN d =? n); [apply calm_ret | apply calm_raise; discriminate]. Qed.
Lemma calm_prep {A} (m : P A) n : calm m -> calm (prep n m).
Proof. intros H. induction n; cbn [prep]; [apply calm_ret|]. apply calm_bind; [exact H|]. intros a. apply calm_bind; [exact IHn | intros; apply calm_ret]. Qed.
Lemma calm_string : calm read_string.
Proof.
  apply calm_bind; [apply calm_bind; [apply calm_unpack | intros; apply calm_ret]|]. intros n. apply calm_bind; [apply calm_read|].
  intros raw b p E. unfold plift in E. destruct (utf8_dec raw) as [s|er] eqn:Es; [discriminate|]. apply utf8_dec_error in Es. subst er. discriminate.
Qed.
Lemma calm_u8 : calm u8. Proof. apply calm_bind; [apply calm_unpack | intros; apply calm_ret]. Qed.
Lemma calm_u16 : calm u16. Proof. apply calm_bind; [apply calm_unpack | intros; apply calm_ret]. Qed.
Lemma calm_u32 : calm u32. Proof. apply calm_bind; [apply calm_unpack | intros; apply calm_ret]. Qed.
Lemma calm_u64 : calm u64. Proof. apply calm_bind; [apply calm_unpack | intros; apply calm_ret]. Qed.
Lemma calm_i8 : calm i8. Proof. apply calm_bind; [apply calm_unpack | intros; apply calm_ret]. Qed.
Lemma calm_i16 : calm i16. Proof. apply calm_bind; [apply calm_unpack | intros; apply calm_ret]. Qed.
Lemma calm_i32 : calm i32. Proof. apply calm_bind; [apply calm_unpack | intros; apply calm_ret]. Qed.
Lemma calm_i64 : calm i64. Proof. apply calm_bind; [apply calm_unpack | intros; apply calm_ret]. Qed.
Lemma bintype_error v er : bintype v = Err er -> er = ValueError.
Proof.
  unfold bintype. destruct v as [|q]; [discriminate|].
  do 8 (try (destruct q as [q|q|]; try discriminate; try (intros E; injection E as <-; reflexivity))).
Qed.
Lemma parse_error ver c er : parse_bintype ver c = Err er -> er = ValueError.
Proof. apply bintype_error. Qed.
Lemma calm_type ver c : calm (ptype ver c).
Proof. intros b p E. unfold ptype, plift in E. destruct (parse_bintype ver c) as [t|er] eqn:Ep; [discriminate|]. injection E as ->.
  pose proof (parse_error ver c _ Ep). discriminate. Qed.
Lemma deep_bind {A B} d (m : P A) (k : A -> P B) : deep d m -> mono m -> (forall a, deep d (k a)) -> deep d (pbind m k).
Proof.
  intros Hm Mm Hk b p Hp. unfold pbind. destruct (m b p) as [[a p1]|er] eqn:E.
  - intros E2. pose proof (Mm b p a p1 Hp E). pose proof (Hk a b p1 ltac:(lia) E2). lia.
  - intros E2. injection E2 as ->. apply Hm; assumption.
Qed.
Lemma deep_prep {A} d (m : P A) n : mono m -> deep d m -> deep d (prep n m).
Proof.
  intros M H. induction n; cbn [prep]; [apply calm_deep, calm_ret|]. apply deep_bind; [exact H | exact M|]. intros a.
  apply deep_bind; [exact IHn | apply mono_prep; exact M | intros; apply calm_deep, calm_ret].
Qed.
Lemma deep_pmapM {A B} d (m : A -> P B) l : (forall a, mono (m a)) -> (forall a, deep d (m a)) -> deep d (pmapM m l).
Proof.
  intros M H. induction l; cbn [pmapM]; [apply calm_deep, calm_ret|]. apply deep_bind; [apply H | apply M|]. intros b.
  apply deep_bind; [exact IHl | apply mono_pmapM; exact M | intros; apply calm_deep, calm_ret].
Qed.
(** Reading at least one byte gives one more level. *)
Lemma deep_step {A B} d w (m : P A) (k : A -> P B) : 0 < w -> reads m (fun bs _ => lenN bs = w) -> calm m -> (forall a, deep d (k a)) -> deep (d + 1) (pbind m k).
Proof.
  intros Hw Hm Cm Hk b p Hp. unfold pbind. destruct (m b p) as [[a p1]|er] eqn:E.
  - intros E2. destruct (Hm b p a p1 Hp E) as (bs & Hl & -> & Hb & _). pose proof (Hk a b _ Hb E2). lia.
  - intros E2. injection E2 as ->. destruct (Cm b p E).
Qed.
Lemma deep_u8 {B} d (k : N -> P B) : (forall a, deep d (k a)) -> deep (d + 1) (pbind u8 k).
Proof. apply (deep_step d 1); [reflexivity | | apply calm_u8]. eapply reads_weaken; [|apply reads_u8]. intros bs v [_ ->]. apply leenc_len. Qed.
Lemma deep_u32 {B} d (k : N -> P B) : (forall a, deep d (k a)) -> deep (d + 1) (pbind u32 k).
Proof. apply (deep_step d 4); [reflexivity | | apply calm_u32]. eapply reads_weaken; [|apply reads_u32]. intros bs v [_ ->]. apply leenc_len. Qed.
Ltac calm_tac := repeat first
  [ apply calm_u8 | apply calm_u16 | apply calm_u32 | apply calm_u64 | apply calm_i8 | apply calm_i16 | apply calm_i32 | apply calm_i64
  | apply calm_ret | apply calm_read | apply calm_string | apply calm_type | (apply calm_raise; discriminate) | apply calm_prep | apply calm_bind; [|intros ?] ].
Ltac deep_c := apply deep_bind; [apply calm_deep; calm_tac | unfold ubool, ptype; mono_tac | intros ?].
Lemma deep_field d ver rv : (forall t, mono (rv t)) -> (forall t, deep d (rv t)) -> deep d (read_field_with ver rv).
Proof.
  intros M H. unfold read_field_with. deep_c. deep_c. deep_c. apply deep_bind; [apply H | apply M | intros ?; apply calm_deep, calm_ret].
Qed.
Lemma deep_val ver n : forall t, deep (N.of_nat n) (read_bvalue ver n t).
Proof.
  induction n as [|n IH]; intros t; [intros b p Hp _; lia|].
  assert (M := mono_val ver n).
  replace (N.of_nat (S n)) with (N.of_nat n + 1) by lia.
  assert (Hfs : forall k, deep (N.of_nat n) (plist k (read_field_with ver (read_bvalue ver n)))).
  { intros k. apply deep_prep; [apply mono_field; exact M | apply deep_field; [exact M | exact IH]]. }
  assert (Mfs : forall k, mono (plist k (read_field_with ver (read_bvalue ver n)))) by (intros k; apply mono_plist, mono_field; exact M).
  destruct t; cbn [read_bvalue]; try solve [apply calm_deep; unfold floats, ubool; calm_tac].
  - apply deep_u8. intros c. deep_c. deep_c. deep_c. apply deep_bind; [apply deep_prep; [apply M | apply IH] | apply mono_plist, M | intros ?; apply calm_deep, calm_ret].
  - apply deep_u8. intros c. deep_c. deep_c. deep_c. apply deep_bind; [apply deep_prep; [apply M | apply IH] | apply mono_plist, M | intros ?; apply calm_deep, calm_ret].
  - apply deep_u32. intros h. apply deep_bind; [apply calm_deep; destruct (h =? 0); calm_tac | mono_tac | intros c].
    apply deep_bind; [apply Hfs | apply Mfs | intros ?; apply calm_deep, calm_ret].
  - apply deep_u32. intros h. deep_c. deep_c. apply deep_bind; [apply Hfs | apply Mfs | intros ?; apply calm_deep, calm_ret].
  - apply deep_u8. intros c. apply deep_bind; [apply calm_deep; unfold ubool; calm_tac | unfold ubool; mono_tac | intros has]. deep_c.
    apply deep_bind; [| destruct has; mono_tac; apply M | intros ?; apply calm_deep, calm_ret].
    destruct has; [|apply calm_deep, calm_ret]. apply deep_bind; [apply IH | apply M | intros ?; apply calm_deep, calm_ret].
  - apply deep_u8. intros ck. deep_c. deep_c. deep_c. deep_c. deep_c.
    assert (Mp : mono (let* k := read_bvalue ver n a2 in let* v := read_bvalue ver n a3 in pret (k, v))) by (mono_tac; apply M).
    apply deep_bind; [apply deep_prep; [exact Mp|] | apply mono_plist; exact Mp | intros ?; apply calm_deep, calm_ret].
    apply deep_bind; [apply IH | apply M | intros ?]. apply deep_bind; [apply IH | apply M | intros ?; apply calm_deep, calm_ret].
Qed.
Lemma calm_front : calm read_front.
Proof.
  unfold read_front. apply calm_bind; [apply calm_read|]. intros m. apply calm_bind.
  - destruct (eqb m (bl "PTCH")); [|apply calm_ret]. apply calm_bind; [apply calm_u32|]. intros x. apply calm_bind; [apply calm_u32|]. intros y.
    destruct ((x =? 1) && (y =? 0)); [apply calm_read | apply calm_raise; discriminate].
  - intros m'. destruct (negb _); [apply calm_raise; discriminate|]. apply calm_bind; [|intros; apply calm_ret].
    unfold read_header. apply calm_bind; [apply calm_u32|]. intros v. apply calm_bind.
    + destruct (2 <=? v); calm_tac.
    + intros l. calm_tac.
Qed.
Theorem no_recursion_error ver n b : (N.to_nat (lenN b) < n)%nat -> prun (read_binfile ver n) b <> Err RuntimeError.
Proof.
  intros Hn E. unfold prun in E. rewrite front_rest in E.
  assert (D : deep (N.of_nat n) (pbind read_front (read_rest ver n))).
  { apply deep_bind; [apply calm_deep, calm_front | apply mono_front|]. intros [patch [[version linked] types]]. unfold read_rest.
    apply deep_bind; [apply deep_pmapM; [apply mono_entry|] | apply mono_pmapM, mono_entry|].
    { intros h. unfold read_entry. apply deep_bind; [apply calm_deep; intros b0 p0; discriminate | mono_tac | intros s]. deep_c. deep_c. deep_c.
      apply deep_bind; [apply deep_prep; [apply mono_field, mono_val | apply deep_field; [apply mono_val | apply deep_val]] | apply mono_plist, mono_field, mono_val|].
      intros fs. apply calm_deep, calm_bind; [intros b0 p0; discriminate|]. intros fin.
      match goal with |- calm (if ?c then _ else _) => destruct c end; [apply calm_ret | apply calm_raise; discriminate]. }
    intros es. apply deep_bind; [| | intros ?; apply calm_deep, calm_ret].
    - destruct (patch && (3 <=? version)); [|apply calm_deep, calm_ret].
      apply deep_bind; [| apply mono_patches | intros ?; apply calm_deep, calm_ret].
      unfold read_patch_section. deep_c. 
      assert (Mp : mono (read_patch ver n)) by (unfold read_patch, ptype; mono_tac; try apply mono_string; apply mono_val).
      apply deep_bind; [apply deep_prep; [exact Mp|] | apply mono_plist; exact Mp | intros ?; apply calm_deep, calm_ret].
      unfold read_patch. deep_c. deep_c. deep_c. deep_c. apply deep_bind; [apply calm_deep, calm_string | apply mono_string | intros ?].
      apply deep_bind; [apply deep_val | apply mono_val | intros ?; apply calm_deep, calm_ret].
    - destruct (patch && (3 <=? version)); [|apply mono_ret]. apply mono_bind; [apply mono_patches | intros ?; apply mono_ret]. }
  destruct (pbind read_front (read_rest ver n) b 0) as [[v p]|er] eqn:E1; [discriminate|]. injection E as ->.
  pose proof (D b 0 ltac:(lia) E1). lia.
Qed.

(** ** Others *)

Lemma layout_of_run ver n f (b : bytes) c : read_binfile ver n (b ++ [c]) 0 = Ok (f, lenN b) -> file_layout true (era_of ver) n f b.
Proof.
  intros E. destruct (file_reads ver n true (b ++ [c]) 0 f (lenN b)) as (bs & HR & El & T); [lia | exact E | |].
  - intros _. rewrite lenN_app, lenN_cons, lenN_nil. lia.
  - rewrite dropN_0 in T. assert (Hl : lenN bs = lenN b) by lia. rewrite Hl, takeN_app in T. 
    replace (lenN b - lenN b) with 0 in T by lia. rewrite takeN_all, takeN_0, app_nil_r in T by lia. subst bs. exact HR.
Qed.
Theorem magic_rejected ver n b : takeN 4 b <> bl "PROP" -> takeN 4 b <> bl "PTCH" -> prun (read_binfile ver n) b = Err ValueError.
Proof.
  intros H1 H2. unfold prun. rewrite front_rest. unfold read_front, pbind at 1 2, pread at 1. rewrite dropN_0. cbv zeta.
  match goal with |- context [@eqb ?T ?E ?x (bl "PTCH")] => destruct (@eqb T E x (bl "PTCH")) eqn:E2 end; [apply eqb_true in E2; contradiction|].
  unfold pbind at 1, pret at 1.
  match goal with |- context [@eqb ?T ?E ?x (bl "PROP")] => destruct (@eqb T E x (bl "PROP")) eqn:E1 end; [apply eqb_true in E1; contradiction|]. reflexivity.
Qed.
Theorem patch_header_rejected ver n x y b : x < 2 ^ 32 -> y < 2 ^ 32 -> ~ (x = 1 /\ y = 0) ->
  prun (read_binfile ver n) (bl "PTCH" ++ leenc 4 x ++ leenc 4 y ++ b) = Err AssertionError.
Proof.
  intros Hx Hy Hn. unfold prun. rewrite front_rest. unfold read_front, pbind at 1 2.
  pose proof (parses_magic (bl "PTCH") []) as E. cbn [app] in E. change (lenN []) with 0 in E. change (lenN (bl "PTCH")) with 4 in E. rewrite E. clear E. cbv zeta.
  replace (eqb (bl "PTCH") (bl "PTCH")) with true by reflexivity. unfold pbind at 1 2.
  change (0 + 4) with (lenN (bl "PTCH")). rewrite (parses_u32 x Hx (bl "PTCH")). unfold pbind at 1.
  rewrite app_assoc, <- lenN_app. rewrite (parses_u32 y Hy (bl "PTCH" ++ leenc 4 x)).
  destruct (N.eqb_spec x 1), (N.eqb_spec y 0); try reflexivity. exfalso. auto.
Qed.
