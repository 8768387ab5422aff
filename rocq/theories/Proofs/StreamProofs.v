(** * Proofs about streaming reads *)

From Verif Require Import Base.PyFacts Model.Stream Spec.StreamSpec.

Definition rest_of (s : stream) : bytes := st_buf s ++ concat (st_it s).

Lemma copy_loop_ok w it buf n :
  (0 <= n <= Z.of_N (lenN (buf ++ concat it)))%Z ->
  exists ws it' buf', copy_loop w it buf n = (ws, (it', buf'), None) /\
    concat ws = (if w then takeN (Z.to_N n) (buf ++ concat it) else []) /\
    buf' ++ concat it' = dropN (Z.to_N n) (buf ++ concat it).
Proof.
  revert buf n. induction it as [|c it IH]; intros buf n Hn; cbn [copy_loop].
  - cbn [concat] in *. rewrite app_nil_r in *. destruct (Z.eqb_spec n 0) as [->|Hn0].
    + do 3 eexists. split; [reflexivity|]. cbn [concat]. change (Z.to_N 0) with 0. rewrite takeN_0, dropN_0, app_nil_r.
      split; [destruct w; reflexivity | reflexivity].
    + destruct (Z.leb_spec n (Z.of_N (lenN buf))) as [Hl|Hl]; [|lia].
      do 3 eexists. split; [reflexivity|]. cbn [concat]. rewrite app_nil_r, py_drop_pos, py_take_pos by lia.
      split; [|reflexivity]. destruct w; cbn [concat]; rewrite ?app_nil_r; reflexivity.
  - cbn [concat] in *. destruct (Z.eqb_spec n 0) as [->|Hn0].
    + do 3 eexists. split; [reflexivity|]. change (Z.to_N 0) with 0. rewrite takeN_0, dropN_0.
      split; [destruct w; reflexivity | reflexivity].
    + destruct (Z.leb_spec n (Z.of_N (lenN buf))) as [Hl|Hl].
      * do 3 eexists. split; [reflexivity|]. rewrite py_drop_pos, py_take_pos by lia. cbn [concat].
        rewrite takeN_app, dropN_app. replace (Z.to_N n - lenN buf) with 0 by lia. rewrite takeN_0, dropN_0, app_nil_r.
        split; [destruct w; cbn [concat]; rewrite ?app_nil_r; reflexivity | reflexivity].
      * destruct (IH c (n - Z.of_N (lenN buf))%Z) as (ws' & it' & buf' & E & Ew & Er).
        { rewrite lenN_app in Hn. lia. }
        rewrite E. do 3 eexists. split; [reflexivity|].
        rewrite concat_app, Ew, Er, (takeN_app _ buf), (dropN_app _ buf).
        replace (Z.to_N (n - Z.of_N (lenN buf))) with (Z.to_N n - lenN buf) by lia.
        rewrite (takeN_all (Z.to_N n) buf), (dropN_all (Z.to_N n) buf) by lia.
        split; [|reflexivity]. destruct w; [|reflexivity]. destruct buf as [|x buf]; [reflexivity|].
        cbn [concat]. rewrite app_nil_r. reflexivity.
Qed.

Lemma copy_loop_short w it buf n :
  (Z.of_N (lenN (buf ++ concat it)) < n)%Z ->
  exists ws st, copy_loop w it buf n = (ws, st, Some StopIteration) /\
    concat ws = (if w then buf ++ concat it else []).
Proof.
  revert buf n. induction it as [|c it IH]; intros buf n Hn; cbn [copy_loop].
  - cbn [concat] in *. rewrite app_nil_r in *. replace (n =? 0)%Z with false by lia.
    replace (n <=? Z.of_N (lenN buf))%Z with false by lia. do 2 eexists. split; [reflexivity|].
    destruct w; [|reflexivity]. destruct buf; cbn [concat]; rewrite ?app_nil_r; reflexivity.
  - cbn [concat] in *. replace (n =? 0)%Z with false by lia.
    rewrite lenN_app in Hn.
    replace (n <=? Z.of_N (lenN buf))%Z with false by lia.
    destruct (IH c (n - Z.of_N (lenN buf))%Z) as (ws' & st & E & Ew); [lia|].
    rewrite E. do 2 eexists. split; [reflexivity|]. rewrite concat_app, Ew.
    destruct w; [|reflexivity]. destruct buf; cbn [concat]; rewrite ?app_nil_r; reflexivity.
Qed.

Lemma stream_copy_ok w n s :
  (0 <= n <= Z.of_N (lenN (rest_of s)))%Z ->
  exists ws s', stream_copy w n s = (ws, s', None) /\
    concat ws = (if w then takeN (Z.to_N n) (rest_of s) else []) /\
    rest_of s' = dropN (Z.to_N n) (rest_of s) /\ st_pos s' = (st_pos s + n)%Z.
Proof.
  intros Hn. destruct (copy_loop_ok w (st_it s) (st_buf s) n Hn) as (ws & it' & buf' & E & Ew & Er).
  unfold stream_copy. rewrite E. do 2 eexists. split; [reflexivity|]. repeat split; assumption.
Qed.
Lemma stream_copy_short w n s :
  (Z.of_N (lenN (rest_of s)) < n)%Z ->
  exists ws s', stream_copy w n s = (ws, s', Some StopIteration) /\
    concat ws = (if w then rest_of s else []).
Proof.
  intros Hn. destruct (copy_loop_short w (st_it s) (st_buf s) n Hn) as (ws & [it buf] & E & Ew).
  unfold stream_copy. rewrite E. do 2 eexists. split; [reflexivity | assumption].
Qed.

Lemma run_sops_gen body ops s :
  Forall sop_ok ops ->
  (0 <= st_pos s)%Z -> rest_of s = dropN (Z.to_N (st_pos s)) body -> (st_pos s <= Z.of_N (lenN body))%Z ->
  exists wss s' e, run_sops ops s = (wss, s', e) /\
    (map (@concat byte) wss, e) = body_run body (Z.to_N (st_pos s)) ops.
Proof.
  intros HF. revert s. induction ops as [|o ops IH]; intros s Hp Hr Hb; cbn [run_sops body_run].
  { do 3 eexists. split; reflexivity. }
  inversion HF as [|? ? Ho HF']; subst. specialize (IH HF').
  assert (Hlr : Z.of_N (lenN (rest_of s)) = (Z.of_N (lenN body) - st_pos s)%Z) by (rewrite Hr, lenN_dropN; lia).
  assert (Hstep : forall w n, (0 <= n)%Z -> 
    if lenN body <? Z.to_N (st_pos s) + Z.to_N n
    then exists ws s', stream_copy w n s = (ws, s', Some StopIteration) /\ concat ws = (if w then rest_of s else [])
    else exists ws s', stream_copy w n s = (ws, s', None) /\
            concat ws = (if w then takeN (Z.to_N n) (rest_of s) else []) /\
            (exists wss s'' e, run_sops ops s' = (wss, s'', e) /\
               (map (@concat byte) wss, e) = body_run body (Z.to_N (st_pos s) + Z.to_N n) ops)).
  { intros w n Hn. destruct (N.ltb_spec (lenN body) (Z.to_N (st_pos s) + Z.to_N n)) as [Hl|Hl].
    - apply stream_copy_short. lia.
    - destruct (stream_copy_ok w n s) as (ws & s' & E & Ew & Er' & Ep); [lia|].
      exists ws, s'. split; [assumption|]. split; [assumption|].
      destruct (IH s') as (wss & s'' & e & E' & Em).
      + lia.
      + rewrite Er', Hr, dropN_dropN, Ep. f_equal. lia.
      + lia.
      + exists wss, s'', e. split; [assumption|]. rewrite Em, Ep. f_equal. lia. }
  destruct o as [n|n|p]; cbn [run_sop sop_ok] in *.
  - specialize (Hstep true n Ho). destruct (lenN body <? _).
    + destruct Hstep as (ws & s' & -> & Ew). do 3 eexists. split; [reflexivity|].
      cbn [map]. rewrite Ew, Hr, dropN_skipn. reflexivity.
    + destruct Hstep as (ws & s' & -> & Ew & wss & s'' & e & -> & Em). rewrite <- Em.
      do 3 eexists. split; [reflexivity|]. cbn [map]. rewrite Ew, Hr, takeN_firstn, dropN_skipn.
      do 3 f_equal. lia.
  - unfold stream_skip. specialize (Hstep false n Ho). destruct (lenN body <? _).
    + destruct Hstep as (ws & s' & -> & Ew). do 3 eexists. split; [reflexivity|].
      cbn [map]. rewrite Ew. reflexivity.
    + destruct Hstep as (ws & s' & -> & Ew & wss & s'' & e & -> & Em). rewrite <- Em.
      do 3 eexists. split; [reflexivity|]. cbn [map]. rewrite Ew. reflexivity.
  - unfold stream_skip_to, stream_skip. destruct (Z.leb_spec (st_pos s) p) as [Hle|Hle].
    + replace (p <? Z.of_N (Z.to_N (st_pos s)))%Z with false by lia.
      specialize (Hstep false (p - st_pos s)%Z ltac:(lia)).
      replace (Z.to_N (st_pos s) + Z.to_N (p - st_pos s)) with (Z.to_N p) in Hstep by lia.
      destruct (lenN body <? _).
      * destruct Hstep as (ws & s' & -> & Ew). do 3 eexists. split; [reflexivity|].
        cbn [map]. rewrite Ew. reflexivity.
      * destruct Hstep as (ws & s' & -> & Ew & wss & s'' & e & -> & Em). rewrite <- Em.
        do 3 eexists. split; [reflexivity|]. cbn [map]. rewrite Ew. reflexivity.
    + replace (p <? Z.of_N (Z.to_N (st_pos s)))%Z with true by lia.
      do 3 eexists. split; [reflexivity|]. reflexivity.
Qed.

Lemma run_sops_body chunks ops :
  Forall sop_ok ops ->
  exists wss s' e, run_sops ops (stream_open chunks) = (wss, s', e) /\
    (map (@concat byte) wss, e) = body_run (concat chunks) 0 ops.
Proof.
  intros HF. apply run_sops_gen; cbn; try assumption; try lia. rewrite dropN_0. reflexivity.
Qed.

Lemma run_sops_chunking chunks1 chunks2 ops :
  Forall sop_ok ops -> concat chunks1 = concat chunks2 ->
  let '(wss1, _, e1) := run_sops ops (stream_open chunks1) in
  let '(wss2, _, e2) := run_sops ops (stream_open chunks2) in
  map (@concat byte) wss1 = map (@concat byte) wss2 /\ e1 = e2.
Proof.
  intros HF Ec. destruct (run_sops_body chunks1 ops HF) as (w1 & s1 & e1 & -> & E1).
  destruct (run_sops_body chunks2 ops HF) as (w2 & s2 & e2 & -> & E2).
  rewrite Ec in E1. rewrite <- E2 in E1. injection E1 as -> ->. split; reflexivity.
Qed.

(** The position after a successful run is the position of the next unread byte. *)
Lemma run_sops_pos ops s wss s' :
  Forall sop_ok ops -> run_sops ops s = (wss, s', None) -> (0 <= st_pos s)%Z ->
  forall body, rest_of s = dropN (Z.to_N (st_pos s)) body -> (st_pos s <= Z.of_N (lenN body))%Z ->
  st_pos s' = fold_left (fun p o => match o with OCopy n | OSkip n => (p + n)%Z | OSkipTo q => q end) ops (st_pos s) /\
  rest_of s' = dropN (Z.to_N (st_pos s')) body.
Proof.
  intros HF. revert s wss. induction ops as [|o ops IH]; intros s wss E Hp body Hr Hb; cbn [run_sops fold_left] in *.
  { injection E as <- <-. split; [reflexivity | assumption]. }
  inversion HF as [|? ? Ho HF']; subst. specialize (IH HF').
  assert (Hstep : forall w n ws s1, (0 <= n)%Z -> stream_copy w n s = (ws, s1, None) ->
            st_pos s1 = (st_pos s + n)%Z /\ rest_of s1 = dropN (Z.to_N (st_pos s1)) body /\ (st_pos s1 <= Z.of_N (lenN body))%Z).
  { intros w n ws s1 Hn Es. destruct (Z.le_gt_cases n (Z.of_N (lenN (rest_of s)))) as [Hl|Hl].
    - destruct (stream_copy_ok w n s) as (ws' & s2 & E' & _ & Er & Ep); [lia|].
      rewrite E' in Es. injection Es as <- <-. split; [assumption|].
      split; [rewrite Er, Hr, dropN_dropN, Ep; f_equal; lia|]. rewrite Hr, lenN_dropN in Hl. lia.
    - destruct (stream_copy_short w n s Hl) as (ws' & s2 & E' & _). congruence. }
  destruct (run_sop o s) as [[ws s1] [e|]] eqn:Eo; [discriminate|].
  destruct (run_sops ops s1) as [[wss' s2] e'] eqn:Eops. injection E as <- <- ->.
  destruct o as [n|n|p]; cbn [run_sop sop_ok] in *.
  - destruct (Hstep true n ws s1 Ho Eo) as (Ep & Er & Hb'). 
    destruct (IH s1 wss' Eops ltac:(lia) body Er Hb') as [E1 E2]. rewrite Ep in E1. split; assumption.
  - destruct (Hstep false n ws s1 Ho Eo) as (Ep & Er & Hb'). 
    destruct (IH s1 wss' Eops ltac:(lia) body Er Hb') as [E1 E2]. rewrite Ep in E1. split; assumption.
  - unfold stream_skip_to in Eo. destruct (Z.leb_spec (st_pos s) p); [|discriminate].
    destruct (Hstep false (p - st_pos s)%Z ws s1 ltac:(lia) Eo) as (Ep & Er & Hb').
    destruct (IH s1 wss' Eops ltac:(lia) body Er Hb') as [E1 E2]. rewrite Ep in E1.
    replace (st_pos s + (p - st_pos s))%Z with p in E1 by lia. split; assumption.
Qed.
