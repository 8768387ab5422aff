(** * Proofs about SKN meshes *)

From Verif Require Import Base.TextFacts Base.BinFacts Spec.Utf8Spec Proofs.Utf8Proofs Model.Skn Spec.SknSpec.

(** Tuples as lists. *)
Definition l2 (t : N * N) : list N := let '(a, b) := t in [a; b].
Definition l3 (t : N * N * N) : list N := let '(a, b, c) := t in [a; b; c].
Definition l4 (t : N * N * N * N) : list N := let '(a, b, c, d) := t in [a; b; c; d].
Definition lo (o : option (N * N * N * N)) : list N := match o with Some t => l4 t | None => [] end.
(** The parsed vertex holds the numbers of the file. *)
Definition same_vertex (v : vertex) (s : svertex) : Prop :=
  l3 (v_position v) = s_position s /\ l4 (v_bones v) = s_bones s /\ l4 (v_weight v) = s_weight s /\
  l3 (v_normal v) = s_normal s /\ l2 (v_uv v) = s_uv s /\ lo (v_color v) = s_color s /\ lo (v_tangent v) = s_tangent s.

Section Num.
Variable m : P N.
Variable enc : N -> bytes.
Variable bound : N.
Hypothesis Hp : forall n, n < bound -> parses m (enc n) n.
Hypothesis Hr : reads m (fun bs v => v < bound /\ bs = enc v).

Lemma parses_two l : sized 2 bound l -> exists t, l2 t = l /\ parses (two m) (flat_map enc l) t.
Proof.
  intros [Hl HF]. destruct l as [|a [|b [|]]]; try discriminate Hl. inversion HF as [|? ? H1 HF1]; inversion HF1 as [|? ? H2 _]; subst.
  exists (a, b). split; [reflexivity|]. cbn [flat_map]. unfold two.
  eapply parses_bind; [apply Hp; assumption|]. rewrite app_nil_r. eapply parses_bind_last; [apply Hp; assumption | apply parses_ret].
Qed.
Lemma parses_three l : sized 3 bound l -> exists t, l3 t = l /\ parses (three m) (flat_map enc l) t.
Proof.
  intros [Hl HF]. destruct l as [|a [|b [|c [|]]]]; try discriminate Hl.
  destruct (parses_two [a; b]) as ([a' b'] & E & H).
  { split; [reflexivity|]. inversion HF as [|? ? ? HF1]; inversion HF1; subst. auto. }
  injection E as -> ->. exists (a, b, c). split; [reflexivity|].
  change [a; b; c] with ([a; b] ++ [c]). rewrite flat_map_app. unfold three. eapply parses_bind; [exact H|].
  cbn [flat_map]. rewrite app_nil_r. eapply parses_bind_last; [apply Hp | apply parses_ret].
  rewrite Forall_forall in HF. apply HF. cbn. auto.
Qed.
Lemma parses_four l : sized 4 bound l -> exists t, l4 t = l /\ parses (four m) (flat_map enc l) t.
Proof.
  intros [Hl HF]. destruct l as [|a [|b [|c [|d [|]]]]]; try discriminate Hl.
  destruct (parses_three [a; b; c]) as ([[a' b'] c'] & E & H).
  { split; [reflexivity|]. rewrite Forall_forall in *. intros x Hx. apply HF. cbn in *. tauto. }
  injection E as -> -> ->. exists (a, b, c, d). split; [reflexivity|].
  change [a; b; c; d] with ([a; b; c] ++ [d]). rewrite flat_map_app. unfold four. eapply parses_bind; [exact H|].
  cbn [flat_map]. rewrite app_nil_r. eapply parses_bind_last; [apply Hp | apply parses_ret].
  rewrite Forall_forall in HF. apply HF. cbn. auto.
Qed.
Lemma reads_two : reads (two m) (fun bs t => sized 2 bound (l2 t) /\ bs = flat_map enc (l2 t)).
Proof.
  unfold two. eapply reads_bind; [exact Hr|]. cbn beta. intros b1 a [Ha ->].
  eapply reads_bind; [exact Hr|]. cbn beta. intros b2 b [Hb ->]. apply reads_ret. cbn [l2 flat_map].
  split; [|reflexivity]. split; [reflexivity|]. auto.
Qed.
Lemma reads_three : reads (three m) (fun bs t => sized 3 bound (l3 t) /\ bs = flat_map enc (l3 t)).
Proof.
  unfold three. eapply reads_bind; [exact reads_two|]. cbn beta. intros b1 [a b] [[_ Ha] ->].
  eapply reads_bind; [exact Hr|]. cbn beta. intros b2 c [Hc ->]. apply reads_ret. cbn [l2 l3 flat_map] in *.
  split; [|rewrite <- !app_assoc; reflexivity]. split; [reflexivity|]. inversion Ha as [|? ? H1 H2]; inversion H2; subst. auto.
Qed.
Lemma reads_four : reads (four m) (fun bs t => sized 4 bound (l4 t) /\ bs = flat_map enc (l4 t)).
Proof.
  unfold four. eapply reads_bind; [exact reads_three|]. cbn beta. intros b1 [[a b] c] [[_ Ha] ->].
  eapply reads_bind; [exact Hr|]. cbn beta. intros b2 d [Hc ->]. apply reads_ret. cbn [l3 l4 flat_map] in *.
  split; [|rewrite <- !app_assoc; reflexivity]. split; [reflexivity|].
  inversion Ha as [|? ? H1 H2]; inversion H2 as [|? ? H3 H4]; inversion H4; subst. auto.
Qed.
End Num.

Definition vt_num (vt : option N) : N := match vt with Some t => t | None => 0 end.

Lemma vertex_parses vt s : svertex_ok (vt_num vt) s ->
  exists v, same_vertex v s /\ parses (read_vertex vt) (svertex_bytes s) v.
Proof.
  intros (H1 & H2 & H3 & H4 & H5 & H6 & H7).
  pose proof (parses_three u32 (leenc 4) _ parses_u32) as P3. pose proof (parses_four u32 (leenc 4) _ parses_u32) as P4.
  pose proof (parses_four u8 (leenc 1) _ parses_u8) as B4. pose proof (parses_two u32 (leenc 4) _ parses_u32) as P2.
  destruct (P3 _ H1) as (t1 & E1 & R1). destruct (B4 _ H2) as (t2 & E2 & R2). destruct (P4 _ H3) as (t3 & E3 & R3).
  destruct (P3 _ H4) as (t4 & E4 & R4). destruct (P2 _ H5) as (t5 & E5 & R5).
  assert (H6' : exists t6, lo t6 = s_color s /\ parses (if match vt with Some t => 1 <=? t | None => false end
     then let* c := four u8 in pret (Some c) else pret None) (octets (s_color s)) t6).
  { replace (match vt with Some t => 1 <=? t | None => false end) with (negb (vt_num vt =? 0)) by (destruct vt as [t|]; cbn [vt_num]; lia).
    destruct (vt_num vt =? 0); cbn [negb].
    - destruct H6 as [Hl _]. exists None. destruct (s_color s); [|discriminate]. split; [reflexivity | apply parses_ret].
    - destruct (B4 _ H6) as (t6 & E6 & R6). exists (Some t6). split; [exact E6|].
      eapply parses_bind_last; [exact R6 | apply parses_ret]. }
  destruct H6' as (t6 & E6 & R6).
  assert (H7' : exists t7, lo t7 = s_tangent s /\ parses (if match vt with Some t => t =? 2 | None => false end
     then let* c := four u32 in pret (Some c) else pret None) (words (s_tangent s)) t7).
  { replace (match vt with Some t => t =? 2 | None => false end) with (vt_num vt =? 2) by (destruct vt as [t|]; cbn [vt_num]; lia).
    destruct (vt_num vt =? 2).
    - destruct (P4 _ H7) as (t7 & E7 & R7). exists (Some t7). split; [exact E7|].
      eapply parses_bind_last; [exact R7 | apply parses_ret].
    - destruct H7 as [Hl _]. exists None. destruct (s_tangent s); [|discriminate]. split; [reflexivity | apply parses_ret]. }
  destruct H7' as (t7 & E7 & R7).
  exists {| v_position := t1; v_bones := t2; v_weight := t3; v_normal := t4; v_uv := t5; v_color := t6; v_tangent := t7 |}.
  split; [unfold same_vertex; cbn; auto 8|]. unfold read_vertex, svertex_bytes.
  do 6 (eapply parses_bind; [eassumption|]). eapply parses_bind_last; [exact R7 | apply parses_ret].
Qed.

Lemma vertex_reads vt : reads (read_vertex vt) (fun bs v => exists s, svertex_ok (vt_num vt) s /\ same_vertex v s /\ bs = svertex_bytes s).
Proof.
  pose proof (reads_three u32 (leenc 4) _ reads_u32) as P3. pose proof (reads_four u32 (leenc 4) _ reads_u32) as P4.
  pose proof (reads_four u8 (leenc 1) _ reads_u8) as B4. pose proof (reads_two u32 (leenc 4) _ reads_u32) as P2.
  unfold read_vertex.
  eapply reads_bind; [exact P3|]. cbn beta. intros b1 t1 [H1 ->].
  eapply reads_bind; [exact B4|]. cbn beta. intros b2 t2 [H2 ->].
  eapply reads_bind; [exact P4|]. cbn beta. intros b3 t3 [H3 ->].
  eapply reads_bind; [exact P3|]. cbn beta. intros b4 t4 [H4 ->].
  eapply reads_bind; [exact P2|]. cbn beta. intros b5 t5 [H5 ->].
  eapply reads_bind with (R1 := fun bs t => sized (if vt_num vt =? 0 then 0 else 4) 256 (lo t) /\ bs = octets (lo t)).
  { replace (match vt with Some t => 1 <=? t | None => false end) with (negb (vt_num vt =? 0)) by (destruct vt as [t|]; cbn [vt_num]; lia).
    destruct (vt_num vt =? 0); cbn [negb].
    - apply reads_ret. split; [split; [reflexivity | constructor] | reflexivity].
    - eapply reads_bind; [exact B4|]. cbn beta. intros b6 t6 [H6 ->]. apply reads_ret. rewrite app_nil_r. auto. }
  cbn beta. intros b6 t6 [H6 ->].
  eapply reads_bind with (R1 := fun bs t => sized (if vt_num vt =? 2 then 4 else 0) (2 ^ 32) (lo t) /\ bs = words (lo t)).
  { replace (match vt with Some t => t =? 2 | None => false end) with (vt_num vt =? 2) by (destruct vt as [t|]; cbn [vt_num]; lia).
    destruct (vt_num vt =? 2).
    - eapply reads_bind; [exact P4|]. cbn beta. intros b7 t7 [H7 ->]. apply reads_ret. rewrite app_nil_r. auto.
    - apply reads_ret. split; [split; [reflexivity | constructor] | reflexivity]. }
  cbn beta. intros b7 t7 [H7 ->]. apply reads_ret.
  exists {| s_position := l3 t1; s_bones := l4 t2; s_weight := l4 t3; s_normal := l3 t4; s_uv := l2 t5; s_color := lo t6; s_tangent := lo t7 |}.
  split; [unfold svertex_ok; cbn; auto 8|]. split; [unfold same_vertex; cbn; auto 8|].
  unfold svertex_bytes. cbn [s_position s_bones s_weight s_normal s_uv s_color s_tangent]. rewrite app_nil_r. reflexivity.
Qed.

Definition same_obj (o : sknobj) (m : submesh) : Prop :=
  o_name o = m_name m /\ o_start_vertex o = m_vstart m /\ o_vertex_count o = m_vcount m /\
  o_start_index o = m_istart m /\ o_index_count o = m_icount m.

Lemma cut_first_app x (a b : bytes) : ~ In x a -> cut_first x (a ++ x :: b) = Some (a, b).
Proof.
  induction a as [|y a IH]; intros Hn; cbn [app cut_first].
  - rewrite eqbR. reflexivity.
  - destruct (eqbP y x) as [->|]; [exfalso; apply Hn; left; reflexivity|].
    rewrite IH by (intros Hi; apply Hn; right; assumption). reflexivity.
Qed.
Lemma cut_first_none x (a : bytes) : ~ In x a -> cut_first x a = None.
Proof.
  induction a as [|y a IH]; intros Hn; cbn [cut_first]; [reflexivity|].
  destruct (eqbP y x) as [->|]; [exfalso; apply Hn; left; reflexivity|].
  rewrite IH by (intros Hi; apply Hn; right; assumption). reflexivity.
Qed.
Lemma cut_first_inv x (l a b : bytes) : cut_first x l = Some (a, b) -> l = a ++ x :: b /\ ~ In x a.
Proof.
  revert a b. induction l as [|y l IH]; intros a b E; cbn [cut_first] in E; [discriminate|].
  destruct (eqbP y x) as [->|Hy].
  - injection E as <- <-. split; [reflexivity | intros []].
  - destruct (cut_first x l) as [[a' b']|] eqn:E'; [|discriminate].
    injection E as <- <-. destruct (IH _ _ eq_refl) as [-> Hn].
    split; [reflexivity|]. intros [H|H]; [congruence | contradiction].
Qed.
Lemma cut_first_None x (l : bytes) : cut_first x l = None -> ~ In x l.
Proof.
  induction l as [|y l IH]; intros E; cbn [cut_first] in E; [intros []|].
  destruct (eqbP y x) as [->|Hy]; [discriminate|].
  destruct (cut_first x l) as [[a' b']|] eqn:E'; [discriminate|].
  intros [H|H]; [congruence|]. exact (IH eq_refl H).
Qed.

Lemma obj_parses m : submesh_ok m -> exists o, same_obj o m /\ parses read_object (submesh_bytes m) o.
Proof.
  intros (Hs & Hz & Hl & Hpad & H1 & H2 & H3 & H4).
  exists {| o_name := m_name m; o_start_vertex := m_vstart m; o_vertex_count := m_vcount m; o_start_index := m_istart m; o_index_count := m_icount m |}.
  split; [unfold same_obj; cbn; auto|]. unfold submesh_bytes, read_object. rewrite app_assoc.
  eapply parses_bind; [apply parses_unpack; exact Hl|].
  replace (match cut_first x00 (utf8_enc (m_name m) ++ m_pad m) with Some (a, _) => a | None => utf8_enc (m_name m) ++ m_pad m end)
    with (utf8_enc (m_name m)).
  2: { destruct Hpad as [->|[r ->]]; [rewrite app_nil_r, cut_first_none by assumption | rewrite cut_first_app by assumption]; reflexivity. }
  rewrite utf8_dec_enc by assumption. cbn [plift]. eapply parses_bind_nil; [apply parses_ret|].
  unfold words. cbn [flat_map]. rewrite app_nil_r.
  do 3 (eapply parses_bind; [apply parses_u32; assumption|]).
  eapply parses_bind_last; [apply parses_u32; assumption | apply parses_ret].
Qed.
Lemma obj_reads : reads read_object (fun bs o => exists m, submesh_ok m /\ same_obj o m /\ bs = submesh_bytes m).
Proof.
  unfold read_object.
  eapply reads_bind; [apply reads_unpack|]. cbn beta. intros b1 raw [Hl ->].
  eapply reads_bind with (R1 := fun bs s => bs = [] /\ utf8_dec (match cut_first x00 b1 with Some (a, _) => a | None => b1 end) = Ok s).
  { destruct (utf8_dec _) as [s|e]; cbn [plift]; [apply reads_ret; auto | intros b p v p' _ E; discriminate]. }
  cbn beta. intros b2 s [-> Es]. apply utf8_dec_iff in Es as [Hs Es].
  eapply reads_bind; [apply reads_u32|]. cbn beta. intros b3 n1 [H1 ->].
  eapply reads_bind; [apply reads_u32|]. cbn beta. intros b4 n2 [H2 ->].
  eapply reads_bind; [apply reads_u32|]. cbn beta. intros b5 n3 [H3 ->].
  eapply reads_bind; [apply reads_u32|]. cbn beta. intros b6 n4 [H4 ->].
  apply reads_ret.
  assert (Hpad : exists pad, b1 = utf8_enc s ++ pad /\ ~ In x00 (utf8_enc s) /\ (pad = [] \/ exists r, pad = x00 :: r)).
  { destruct (cut_first x00 b1) as [[a b]|] eqn:E.
    - apply cut_first_inv in E as [-> Hn]. subst a. exists (x00 :: b). eauto.
    - apply cut_first_None in E. subst b1. exists []. rewrite app_nil_r. auto. }
  destruct Hpad as (pad & -> & Hn & Hpad).
  exists {| m_name := s; m_pad := pad; m_vstart := n1; m_vcount := n2; m_istart := n3; m_icount := n4 |}.
  split; [unfold submesh_ok; cbn; auto 8|]. split; [unfold same_obj; cbn; auto|].
  unfold submesh_bytes, words. cbn [m_name m_pad m_vstart m_vcount m_istart m_icount flat_map]. rewrite !app_nil_r, <- !app_assoc. reflexivity.
Qed.

(** ** The whole file *)

Lemma prep_ex {A B} (m : P A) (enc : B -> bytes) (R : A -> B -> Prop) (l : list B) :
  (forall b, In b l -> exists a, R a b /\ parses m (enc b) a) ->
  exists l', Forall2 R l' l /\ parses (prep (length l) m) (flat_map enc l) l'.
Proof.
  induction l as [|b l IH]; intros H; cbn [length prep flat_map].
  - exists []. split; [constructor | apply parses_ret].
  - destruct (H b (or_introl eq_refl)) as (a & Ha & Pa). destruct IH as (l' & Hl & Pl); [intros; apply H; right; assumption|].
    exists (a :: l'). split; [constructor; assumption|]. eapply parses_bind; [exact Pa|].
    eapply parses_bind_last; [exact Pl | apply parses_ret].
Qed.
Lemma plist_ex {A B} (m : P A) (enc : B -> bytes) (R : A -> B -> Prop) (l : list B) :
  (forall b, In b l -> exists a, R a b /\ parses m (enc b) a) ->
  exists l', Forall2 R l' l /\ parses (plist (lenN l) m) (flat_map enc l) l'.
Proof. unfold plist. rewrite lenN_length, Nat2N.id. apply prep_ex. Qed.
Lemma plist_reads {A B} (m : P A) (enc : B -> bytes) (R : A -> B -> Prop) (ok : B -> Prop) n :
  reads m (fun bs a => exists b, ok b /\ R a b /\ bs = enc b) ->
  reads (plist n m) (fun bs l => exists l', lenN l' = n /\ Forall ok l' /\ Forall2 R l l' /\ bs = flat_map enc l').
Proof.
  intros H. eapply reads_weaken; [|apply reads_plist; exact H]. cbn beta. intros bs vs (Hl & bss & -> & HF). subst n.
  induction HF as [|b v bss vs (x & Hx & HR & ->) HF (l' & Hl' & Hok & HF' & E)].
  - exists []. repeat split; constructor.
  - exists (x :: l'). rewrite !lenN_cons, Hl'. cbn [concat flat_map]. rewrite E. repeat split; constructor; assumption.
Qed.

(** How the result relates to the file. *)
Definition same_skn (r : skn) (x : mesh) : Prop :=
  k_major r = x_major x /\ k_minor r = x_minor x /\
  k_vertex_type r = (if x_major x =? 4 then Some (x_vtype x) else None) /\
  exists vs, Forall2 same_vertex vs (x_vertices x) /\
  if x_major x =? 0 then
    exists e, k_entries r = [e] /\ e_name e = lit "Unknown" /\ e_vertices e = vs /\ e_indices e = map N.succ (x_indices x)
  else
    Forall2 (fun e m => e_name e = m_name m /\ e_vertices e = range (m_vstart m) (m_vcount m) vs /\
                        e_indices e = map (obj_index (m_vstart m)) (range (m_istart m) (m_icount m) (x_indices x)))
      (k_entries r) (x_subs x).

Lemma sliceN_range {A} (l : list A) a n : sliceN l a (a + n) = range a n l.
Proof. unfold sliceN, range. rewrite takeN_firstn, dropN_skipn. do 2 f_equal. lia. Qed.
Lemma range_map {A B} (f : A -> B) a n l : range a n (map f l) = map f (range a n l).
Proof. unfold range. rewrite skipn_map, firstn_map. reflexivity. Qed.

Lemma fill_ok vs idx o m : same_obj o m ->
  let e := fill_entry vs (map (fun i => i + 1) idx) o in
  e_name e = m_name m /\ e_vertices e = range (m_vstart m) (m_vcount m) vs /\
  e_indices e = map (obj_index (m_vstart m)) (range (m_istart m) (m_icount m) idx).
Proof.
  intros (E1 & E2 & E3 & E4 & E5). cbn. rewrite E1, E2, E3, E4, E5, !sliceN_range.
  split; [reflexivity|]. split; [reflexivity|]. rewrite range_map, map_map. apply map_ext. intros i. unfold obj_index.
  destruct (i + 1 <? m_vstart m); lia.
Qed.

Lemma fill_all vs idx objs subs : Forall2 same_obj objs subs ->
  Forall2 (fun e m => e_name e = m_name m /\ e_vertices e = range (m_vstart m) (m_vcount m) vs /\
                      e_indices e = map (obj_index (m_vstart m)) (range (m_istart m) (m_icount m) idx))
    (map (fill_entry vs (map (fun i => i + 1) idx)) objs) subs.
Proof. induction 1 as [|o m objs subs H HF IH]; cbn [map]; constructor; [apply fill_ok; assumption | exact IH]. Qed.

Lemma parses_idx l : Forall (fun i => i < 2 ^ 16) l ->
  parses (plist (lenN l) (let* i := u16 in pret (i + 1))) (flat_map (leenc 2) l) (map (fun i => i + 1) l).
Proof.
  intros HF. destruct (plist_ex (let* i := u16 in pret (i + 1)) (leenc 2) (fun a b => a = b + 1) l) as (l' & H2 & Hp).
  - intros i Hi. rewrite Forall_forall in HF. exists (i + 1). split; [reflexivity|].
    eapply parses_bind_last; [apply parses_u16; apply HF; assumption | apply parses_ret].
  - replace (map (fun i => i + 1) l) with l'; [exact Hp|]. clear - H2. induction H2 as [|a b l' l -> H2 IH]; cbn [map]; congruence.
Qed.
Lemma reads_idx n : reads (plist n (let* i := u16 in pret (i + 1)))
  (fun bs v => exists l, lenN l = n /\ Forall (fun i => i < 2 ^ 16) l /\ v = map (fun i => i + 1) l /\ bs = flat_map (leenc 2) l).
Proof.
  eapply reads_weaken; [|apply (plist_reads _ (leenc 2) (fun a b => a = b + 1) (fun i => i < 2 ^ 16))].
  - cbn beta. intros bs v (l & Hl & Hok & HF & ->). exists l. repeat split; try assumption.
    clear - HF. induction HF as [|a b l' l -> H2 IH]; cbn [map]; congruence.
  - eapply reads_bind; [apply reads_u16|]. cbn beta. intros b1 i [Hi ->]. apply reads_ret. exists i. rewrite app_nil_r. auto.
Qed.

Definition box_parser : P (option N) :=
  let* size := u32 in let* t := u32 in let* bmin := three u32 in let* bmax := three u32 in
  let* sphere := three u32 in let* radius := u32 in pret (Some t).
Lemma box_parses size t l : size < 2 ^ 32 -> t < 2 ^ 32 -> sized 10 (2 ^ 32) l ->
  parses box_parser (words (size :: t :: l)) (Some t).
Proof.
  intros Hs Ht [Hl HF]. do 10 (destruct l as [|? l]; [discriminate Hl|]). destruct l; [|discriminate Hl].
  rewrite Forall_forall in HF. unfold words. cbn [flat_map]. unfold box_parser.
  pose proof (parses_three u32 (leenc 4) _ parses_u32) as P3.
  do 2 (eapply parses_bind; [apply parses_u32; assumption|]).
  destruct (P3 [n; n0; n1]) as (t1 & _ & R1); [split; [reflexivity|]; rewrite Forall_forall; intros; apply HF; cbn in *; tauto|].
  destruct (P3 [n2; n3; n4]) as (t2 & _ & R2); [split; [reflexivity|]; rewrite Forall_forall; intros; apply HF; cbn in *; tauto|].
  destruct (P3 [n5; n6; n7]) as (t3 & _ & R3); [split; [reflexivity|]; rewrite Forall_forall; intros; apply HF; cbn in *; tauto|].
  cbn [flat_map] in *. rewrite app_nil_r in *.
  rewrite (app_assoc (leenc 4 n0)), (app_assoc (leenc 4 n)).
  eapply parses_bind; [exact R1|]. rewrite (app_assoc (leenc 4 n3)), (app_assoc (leenc 4 n2)).
  eapply parses_bind; [exact R2|]. rewrite (app_assoc (leenc 4 n6)), (app_assoc (leenc 4 n5)).
  eapply parses_bind; [exact R3|]. eapply parses_bind_last; [apply parses_u32; apply HF; cbn; tauto | apply parses_ret].
Qed.
Lemma box_reads : reads box_parser (fun bs v => exists size t l, size < 2 ^ 32 /\ t < 2 ^ 32 /\ sized 10 (2 ^ 32) l /\
  bs = words (size :: t :: l) /\ v = Some t).
Proof.
  pose proof (reads_three u32 (leenc 4) _ reads_u32) as P3. unfold box_parser.
  eapply reads_bind; [apply reads_u32|]. cbn beta. intros b1 size [H1 ->].
  eapply reads_bind; [apply reads_u32|]. cbn beta. intros b2 t [H2 ->].
  eapply reads_bind; [exact P3|]. cbn beta. intros b3 [[x1 x2] x3] [[_ H3] ->].
  eapply reads_bind; [exact P3|]. cbn beta. intros b4 [[y1 y2] y3] [[_ H4] ->].
  eapply reads_bind; [exact P3|]. cbn beta. intros b5 [[z1 z2] z3] [[_ H5] ->].
  eapply reads_bind; [apply reads_u32|]. cbn beta. intros b6 r [H6 ->]. apply reads_ret.
  exists size, t, ([x1; x2; x3] ++ [y1; y2; y3] ++ [z1; z2; z3] ++ [r]).
  split; [assumption|]. split; [assumption|]. split.
  - split; [reflexivity|]. rewrite !Forall_app. auto.
  - split; [|reflexivity]. unfold words. cbn [flat_map l3 app]. rewrite <- !app_assoc. reflexivity.
Qed.

Lemma skn_parses x : mesh_ok x -> exists r, same_skn r x /\ parses parse_skn (mesh_bytes x) r.
Proof.
  intros (Hma & Hmi & Hni & Hnv & Hi & Hv & Hs & H4).
  destruct (plist_ex (read_vertex (if x_major x =? 4 then Some (x_vtype x) else None)) svertex_bytes same_vertex (x_vertices x)) as (vs & HV & PV).
  { intros s Hin. apply vertex_parses. rewrite Forall_forall in Hv.
    replace (vt_num (if x_major x =? 4 then Some (x_vtype x) else None)) with (if x_major x =? 4 then x_vtype x else 0)
      by (destruct (x_major x =? 4); reflexivity). apply Hv. assumption. }
  pose proof (parses_idx _ Hi) as PI. unfold mesh_bytes, parse_skn, same_skn.
  destruct (N.eqb_spec (x_major x) 0) as [E0|E0].
  - replace (x_major x =? 4) with false in * by lia.
    eexists. split; [split; [|split; [|split; [|exists vs; split; [exact HV|]]]]|].
    5: { eapply parses_bind; [apply parses_read; reflexivity|]. rewrite eqbR. cbn [negb].
         eapply parses_bind; [apply parses_u16; assumption|]. eapply parses_bind; [apply parses_u16; assumption|].
         rewrite E0, N.eqb_refl. cbn [app]. unfold words. cbn [flat_map]. rewrite app_nil_r, <- app_assoc.
         eapply parses_bind; [apply parses_u32; assumption|]. eapply parses_bind; [apply parses_u32; assumption|].
         cbn [app]. eapply parses_bind; [exact PI|]. eapply parses_bind_last; [exact PV|]. apply parses_ret. }
    + symmetry. exact E0.
    + reflexivity.
    + reflexivity.
    + eexists. split; [reflexivity|]. cbn [e_name e_vertices e_indices]. split; [reflexivity|]. split; [reflexivity|].
      apply map_ext. intros i. lia.
  - destruct (Hs E0) as [Hns HS].
    destruct (plist_ex read_object submesh_bytes same_obj (x_subs x)) as (objs & HO & PO).
    { intros m Hm. apply obj_parses. rewrite Forall_forall in HS. apply HS. assumption. }
    assert (P4 : parses (if x_major x =? 4 then u32 else pret 0) (if x_major x =? 4 then words [x_extra x] else [])
      (if x_major x =? 4 then x_extra x else 0)).
    { destruct (N.eqb_spec (x_major x) 4) as [E4|E4]; [|apply parses_ret]. unfold words. cbn [flat_map]. rewrite app_nil_r.
      apply parses_u32. apply H4. assumption. }
    assert (PB : parses (if x_major x =? 4 then box_parser else pret None)
      (if x_major x =? 4 then words (x_vsize x :: x_vtype x :: x_box x) else []) (if x_major x =? 4 then Some (x_vtype x) else None)).
    { destruct (N.eqb_spec (x_major x) 4) as [E4|E4]; [|apply parses_ret]. destruct (H4 E4) as (_ & ? & ? & ?).
      apply box_parses; assumption. }
    eexists. split; [split; [|split; [|split; [|exists vs; split; [exact HV|]]]]|].
    5: { eapply parses_bind; [apply parses_read; reflexivity|]. rewrite eqbR. cbn [negb].
         eapply parses_bind; [apply parses_u16; assumption|]. eapply parses_bind; [apply parses_u16; assumption|].
         replace (x_major x =? 0) with false by lia. unfold words at 1. cbn [flat_map]. rewrite app_nil_r, <- app_assoc.
         eapply parses_bind; [apply parses_u32; assumption|]. eapply parses_bind; [exact PO|].
         eapply parses_bind; [exact P4|]. unfold words at 1. cbn [flat_map]. rewrite app_nil_r, <- app_assoc.
         eapply parses_bind; [apply parses_u32; assumption|]. eapply parses_bind; [apply parses_u32; assumption|].
         eapply parses_bind; [exact PB|]. eapply parses_bind; [exact PI|]. eapply parses_bind_last; [exact PV|]. apply parses_ret. }
    + reflexivity.
    + reflexivity.
    + reflexivity.
    + cbn [k_entries]. apply fill_all. exact HO.
Qed.

Lemma skn_reads : reads parse_skn (fun bs r => exists x, mesh_ok x /\ same_skn r x /\ bs = mesh_bytes x).
Proof.
  unfold parse_skn.
  eapply reads_bind with (R1 := fun bs v => v = bs).
  { intros b p v p' Hp E. unfold pread in E. assert (Ev : takeN 4 (dropN p b) = v) by congruence.
    assert (Ep : p' = p + lenN v) by congruence. exists v. split; [reflexivity|]. split; [assumption|].
    split; [subst; rewrite lenN_takeN, lenN_dropN; lia|]. subst v. rewrite lenN_takeN, N.min_comm, takeN_min. reflexivity. }
  cbn beta. intros b1 magic ->.
  destruct (eqb b1 _) eqn:Em; cbn [negb]; [|intros b p v p' _ E; discriminate]. apply eqb_true in Em. subst b1.
  eapply reads_bind; [apply reads_u16|]. cbn beta. intros b2 major [Hma ->].
  eapply reads_bind; [apply reads_u16|]. cbn beta. intros b3 minor [Hmi ->].
  assert (HV : forall n vt, reads (plist n (read_vertex vt)) (fun bs l => exists l', lenN l' = n /\
    Forall (svertex_ok (vt_num vt)) l' /\ Forall2 same_vertex l l' /\ bs = flat_map svertex_bytes l')).
  { intros n vt. apply plist_reads. apply vertex_reads. }
  destruct (N.eqb_spec major 0) as [E0|E0].
  - eapply reads_bind; [apply reads_u32|]. cbn beta. intros b4 ni [Hni ->].
    eapply reads_bind; [apply reads_u32|]. cbn beta. intros b5 nv [Hnv ->].
    eapply reads_bind; [apply reads_idx|]. cbn beta. intros b6 v6 (idx & <- & HI & -> & ->).
    eapply reads_bind; [apply HV|]. cbn beta. intros b7 vs (svs & <- & Hok & HF & ->).
    apply reads_ret. subst major.
    exists {| x_major := 0; x_minor := minor; x_subs := []; x_extra := 0; x_vsize := 0; x_vtype := 0; x_box := [];
              x_indices := idx; x_vertices := svs |}.
    split; [|split].
    + unfold mesh_ok. cbn [x_major x_minor x_subs x_extra x_vsize x_vtype x_box x_indices x_vertices].
      repeat (split; [assumption|]). split; [congruence | discriminate].
    + unfold same_skn. cbn [x_major x_minor x_subs x_vtype x_indices x_vertices k_major k_minor k_vertex_type k_entries].
      repeat (split; [reflexivity|]). exists vs. split; [assumption|]. cbn [N.eqb]. eexists. split; [reflexivity|].
      cbn [e_name e_vertices e_indices]. repeat (split; [reflexivity|]). apply map_ext. intros i. lia.
    + unfold mesh_bytes. cbn [x_major x_minor x_subs x_extra x_vsize x_vtype x_box x_indices x_vertices N.eqb].
      unfold words. cbn [flat_map app]. rewrite !app_nil_r, <- !app_assoc. reflexivity.
  - eapply reads_bind; [apply reads_u32|]. cbn beta. intros b4 ns [Hns ->].
    eapply reads_bind; [apply (plist_reads _ submesh_bytes same_obj submesh_ok); apply obj_reads|].
    cbn beta. intros b5 objs (subs & <- & HS & HO & ->).
    eapply reads_bind with (R1 := fun bs v => v < 2 ^ 32 /\ bs = (if major =? 4 then words [v] else [])).
    { destruct (major =? 4).
      - eapply reads_weaken; [|apply reads_u32]. cbn beta. intros bs v [Hv ->]. split; [exact Hv|]. unfold words. cbn [flat_map]. rewrite app_nil_r. reflexivity.
      - apply reads_ret. split; reflexivity. }
    cbn beta. intros b6 extra [Hex ->].
    eapply reads_bind; [apply reads_u32|]. cbn beta. intros b7 ni [Hni ->].
    eapply reads_bind; [apply reads_u32|]. cbn beta. intros b8 nv [Hnv ->].
    eapply reads_bind with (R1 := fun bs v => exists size t l, size < 2 ^ 32 /\ t < 2 ^ 32 /\ sized 10 (2 ^ 32) l /\
      bs = (if major =? 4 then words (size :: t :: l) else []) /\ v = (if major =? 4 then Some t else None)).
    { destruct (major =? 4).
      - apply box_reads.
      - apply reads_ret. exists 0, 0, (repeat 0 10). split; [reflexivity|]. split; [reflexivity|].
        split; [split; [reflexivity | repeat constructor] | auto]. }
    cbn beta. intros b9 vt (size & t & box & Hsz & Ht & Hbox & -> & ->).
    eapply reads_bind; [apply reads_idx|]. cbn beta. intros b10 v6 (idx & <- & HI & -> & ->).
    eapply reads_bind; [apply HV|]. cbn beta. intros b11 vs (svs & <- & Hok & HF & ->).
    apply reads_ret.
    exists {| x_major := major; x_minor := minor; x_subs := subs; x_extra := extra; x_vsize := size; x_vtype := t; x_box := box;
              x_indices := idx; x_vertices := svs |}.
    split; [|split].
    + unfold mesh_ok. cbn [x_major x_minor x_subs x_extra x_vsize x_vtype x_box x_indices x_vertices].
      do 5 (split; [assumption|]). split; [destruct (major =? 4); exact Hok|]. auto.
    + unfold same_skn. cbn [x_major x_minor x_subs x_vtype x_indices x_vertices k_major k_minor k_vertex_type k_entries].
      repeat (split; [reflexivity|]). exists vs. split; [assumption|]. replace (major =? 0) with false by lia.
      apply fill_all. exact HO.
    + unfold mesh_bytes. cbn [x_major x_minor x_subs x_extra x_vsize x_vtype x_box x_indices x_vertices].
      replace (major =? 0) with false by lia. unfold words at 2 4. cbn [flat_map]. rewrite !app_nil_r, <- !app_assoc. reflexivity.
Qed.

Lemma l2_inj a b : l2 a = l2 b -> a = b.
Proof. destruct a as [? ?], b as [? ?]. cbn. congruence. Qed.
Lemma l3_inj a b : l3 a = l3 b -> a = b.
Proof. destruct a as [[? ?] ?], b as [[? ?] ?]. cbn. congruence. Qed.
Lemma l4_inj a b : l4 a = l4 b -> a = b.
Proof. destruct a as [[[? ?] ?] ?], b as [[[? ?] ?] ?]. cbn. congruence. Qed.
Lemma lo_inj a b : lo a = lo b -> a = b.
Proof.
  destruct a as [a|], b as [b|]; cbn [lo]; intros E.
  - f_equal. apply l4_inj. exact E.
  - destruct a as [[[? ?] ?] ?]. discriminate.
  - destruct b as [[[? ?] ?] ?]. discriminate.
  - reflexivity.
Qed.
Lemma same_vertex_fun v w s : same_vertex v s -> same_vertex w s -> v = w.
Proof.
  intros (A1 & A2 & A3 & A4 & A5 & A6 & A7) (B1 & B2 & B3 & B4 & B5 & B6 & B7).
  destruct v as [v1 v2 v3 v4 v5 v6 v7], w as [w1 w2 w3 w4 w5 w6 w7].
  cbn [v_position v_bones v_weight v_normal v_uv v_color v_tangent] in *. f_equal.
  - apply l3_inj. congruence.
  - apply l4_inj. congruence.
  - apply l4_inj. congruence.
  - apply l3_inj. congruence.
  - apply l2_inj. congruence.
  - apply lo_inj. congruence.
  - apply lo_inj. congruence.
Qed.
Lemma Forall2_fun {A B} (R : A -> B -> Prop) l1 l2 l :
  (forall a b c, R a c -> R b c -> a = b) -> Forall2 R l1 l -> Forall2 R l2 l -> l1 = l2.
Proof.
  intros HR H1. revert l2. induction H1 as [|a c l1 l Ha H1 IH]; intros l2 H2; inversion H2; subst; [reflexivity|].
  f_equal; eauto.
Qed.
Lemma same_skn_fun r1 r2 x : same_skn r1 x -> same_skn r2 x -> r1 = r2.
Proof.
  intros (A1 & A2 & A3 & vs & HV & HA) (B1 & B2 & B3 & ws & HW & HB).
  assert (vs = ws) by (eapply Forall2_fun; [exact same_vertex_fun | exact HV | exact HW]). subst ws.
  assert (k_entries r1 = k_entries r2).
  { destruct (x_major x =? 0).
    - destruct HA as (e & -> & E1 & E2 & E3), HB as (e' & -> & F1 & F2 & F3). f_equal. destruct e, e'. cbn in *. congruence.
    - eapply Forall2_fun; [|exact HA | exact HB]. cbn beta. intros a b c (? & ? & ?) (? & ? & ?). destruct a, b. cbn in *. congruence. }
  destruct r1, r2. cbn in *. congruence.
Qed.

Lemma skn_iff b r : prun parse_skn b = Ok r <-> exists x rest, mesh_ok x /\ b = mesh_bytes x ++ rest /\ same_skn r x.
Proof.
  split.
  - unfold prun. intros E. destruct (parse_skn b 0) as [[r' p]|e] eqn:E0; [|discriminate]. cbn [rmap fst] in E.
    assert (r' = r) by congruence. subst r'. destruct (skn_reads b 0 r p ltac:(lia) E0) as (bs & (x & Hx & Hs & ->) & Ep & Hp & Et).
    exists x, (dropN p b). split; [exact Hx|]. split; [|exact Hs]. rewrite dropN_0 in Et.
    rewrite <- (takeN_dropN p b) at 1. f_equal. rewrite Ep, N.add_0_l. exact Et.
  - intros (x & rest & Hx & -> & Hs). destruct (skn_parses x Hx) as (r' & Hs' & Hp).
    rewrite (parses_run _ _ _ rest Hp). f_equal. eapply same_skn_fun; eassumption.
Qed.

Lemma skn_truncated x cut rem r : mesh_ok x -> cut ++ rem = mesh_bytes x -> rem <> [] -> prun parse_skn cut <> Ok r.
Proof.
  intros Hx E Hr Ep. apply skn_iff in Ep as (x' & rest & Hx' & -> & _).
  destruct (skn_parses x Hx) as (r1 & _ & P1). destruct (skn_parses x' Hx') as (r2 & _ & P2).
  specialize (P1 [] []). specialize (P2 [] (rest ++ rem)). cbn [app] in P1, P2. rewrite app_nil_r in P1.
  rewrite app_assoc, E, P1 in P2. pose proof (f_equal (fun z => match z with Ok (_, p) => p | Err _ => 0 end) P2) as El. cbn beta iota in El.
  rewrite <- E, !lenN_app in El. destruct rem; [apply Hr; reflexivity|]. rewrite lenN_cons in El. lia.
Qed.

Lemma skn_magic b : takeN 4 b <> magic_bytes -> prun parse_skn b = Err ValueError.
Proof.
  intros H. unfold prun, parse_skn. unfold pbind at 1. unfold pread. rewrite dropN_0.
  match goal with |- context [negb ?c] => destruct c eqn:E end; [apply eqb_true in E; contradiction | reflexivity].
Qed.

Lemma obj_index_range s n i : s <= i < s + n -> 1 <= obj_index s i <= n /\ obj_index s i = i - s + 1.
Proof. intros H. unfold obj_index. destruct (N.ltb_spec (i + 1) s); lia. Qed.

(** ** OBJ text *)
Lemma faces_ok (fs : list (N * N * N)) s :
  obj_faces (flat_map l3 fs) s = Ok (s ++ flat_map (fun f => let '(a, b, c) := f in obj_face a b c) fs).
Proof.
  revert s. induction fs as [|[[a b] c] fs IH]; intros s; cbn [flat_map l3 app obj_faces]; [rewrite app_nil_r; reflexivity|].
  rewrite IH, <- app_assoc. reflexivity.
Qed.
Lemma fold_app {A} (f : A -> str) l s : fold_left (fun s v => s ++ f v) l s = s ++ flat_map f l.
Proof.
  revert s. induction l as [|v l IH]; intros s; cbn [fold_left flat_map]; [rewrite app_nil_r; reflexivity|].
  rewrite IH, <- app_assoc. reflexivity.
Qed.
Lemma faces_split l : (exists fs, l = flat_map l3 fs) \/ (forall s, obj_faces l s = Err ValueError) /\ lenN l mod 3 <> 0.
Proof.
  remember (length l) as n eqn:En. revert l En.
  induction n as [n IH] using (well_founded_induction lt_wf). intros l ->.
  destruct l as [|a [|b [|c t]]].
  - left. exists []. reflexivity.
  - right. split; [reflexivity | discriminate].
  - right. split; [reflexivity | discriminate].
  - destruct (IH (length t)) with (l := t) as [(fs & ->)|[H1 H2]]; [cbn; lia | reflexivity | |].
    + left. exists ((a, b, c) :: fs). reflexivity.
    + right. split; [intros s; cbn [obj_faces]; apply H1|]. rewrite !lenN_cons. intros E. apply H2.
      replace (N.succ (N.succ (N.succ (lenN t)))) with (lenN t + 1 * 3) in E by lia. rewrite N.mod_add in E by lia. exact E.
Qed.
Lemma faces_len (fs : list (N * N * N)) : lenN (flat_map l3 fs) mod 3 = 0.
Proof.
  induction fs as [|[[a b] c] fs IH]; [reflexivity|]. cbn [flat_map l3 app]. rewrite !lenN_cons.
  replace (N.succ (N.succ (N.succ (lenN (flat_map l3 fs))))) with (lenN (flat_map l3 fs) + 1 * 3) by lia.
  rewrite N.mod_add by lia. exact IH.
Qed.

Lemma Forall2_nth {A B} (R : A -> B -> Prop) l1 l2 k b : Forall2 R l1 l2 -> nth_error l2 k = Some b ->
  exists a, nth_error l1 k = Some a /\ R a b.
Proof.
  intros HF. revert k. induction HF as [|x y l1 l2 H HF IH]; intros k E; [destruct k; discriminate|].
  destruct k as [|k]; cbn [nth_error] in *; [|apply IH; exact E]. exists x. split; [reflexivity | congruence].
Qed.
Lemma nth_skipn {A} a (l : list A) k : nth_error (skipn a l) k = nth_error l (a + k).
Proof. revert l. induction a as [|a IH]; intros l; [reflexivity|]. destruct l as [|x l]; [destruct k; reflexivity|]. apply IH. Qed.
Lemma nth_firstn {A} n (l : list A) k : (k < n)%nat -> nth_error (firstn n l) k = nth_error l k.
Proof.
  revert l k. induction n as [|n IH]; intros l k Hk; [lia|].
  destruct l as [|x l]; [reflexivity|]. destruct k as [|k]; [reflexivity|]. cbn [firstn nth_error]. apply IH. lia.
Qed.
Lemma nth_range {A} a n (l : list A) k : (k < N.to_nat n)%nat -> nth_error (range a n l) k = nth_error l (N.to_nat a + k).
Proof. intros Hk. unfold range. rewrite nth_firstn by assumption. apply nth_skipn. Qed.

Lemma skn_in_range x r rest m e k :
  mesh_ok x -> prun parse_skn (mesh_bytes x ++ rest) = Ok r -> x_major x <> 0 ->
  nth_error (x_subs x) k = Some m -> nth_error (k_entries r) k = Some e ->
  m_vstart m + m_vcount m <= lenN (x_vertices x) ->
  (forall i, In i (range (m_istart m) (m_icount m) (x_indices x)) -> m_vstart m <= i < m_vstart m + m_vcount m) ->
  lenN (e_vertices e) = m_vcount m /\
  length (e_indices e) = length (range (m_istart m) (m_icount m) (x_indices x)) /\
  forall j i, nth_error (range (m_istart m) (m_icount m) (x_indices x)) j = Some i ->
    exists i' v s, nth_error (e_indices e) j = Some i' /\ 1 <= i' <= m_vcount m /\
      nth_error (e_vertices e) (N.to_nat i' - 1) = Some v /\ nth_error (x_vertices x) (N.to_nat i) = Some s /\ same_vertex v s.
Proof.
  intros Hx Ep H0 Hm He Hv Hi. destruct (skn_parses x Hx) as (r' & (_ & _ & _ & vs & HV & HE) & Pp).
  rewrite (parses_run _ _ _ rest Pp) in Ep. assert (r' = r) by congruence. subst r'.
  replace (x_major x =? 0) with false in HE by lia.
  destruct (Forall2_nth _ _ _ k m HE Hm) as (e' & He' & En & Ev & Ei).
  assert (e' = e) by congruence. subst e'. clear He'.
  assert (Hl : length vs = length (x_vertices x)) by (clear - HV; induction HV; cbn [length]; congruence). rewrite lenN_length in Hv.
  split.
  { rewrite Ev, lenN_length. unfold range. rewrite firstn_length, skipn_length. lia. }
  split; [rewrite Ei; apply map_length|].
  intros j i Hj. pose proof (nth_error_In _ _ Hj) as Hin. specialize (Hi i Hin).
  destruct (obj_index_range (m_vstart m) (m_vcount m) i Hi) as [Hr Eo].
  destruct (nth_error (x_vertices x) (N.to_nat i)) as [s|] eqn:Es.
  2: { apply nth_error_None in Es. lia. }
  destruct (Forall2_nth _ _ _ _ s HV Es) as (v & Hnv & Hsv).
  exists (obj_index (m_vstart m) i), v, s. split; [rewrite Ei; apply map_nth_error; exact Hj|]. split; [exact Hr|].
  split; [|auto]. rewrite Ev, nth_range by lia. rewrite <- Hnv. f_equal. lia.
Qed.
