(** * Proofs about the extraction of RADS packages *)

From Coq Require Import Permutation.
From Verif Require Import Base.TextFacts Base.PathFacts Base.Fs Spec.FsSpec Base.FsFacts Model.Files Spec.FilesSpec Proofs.FilesProofs
  Model.Stream Proofs.StreamProofs Model.Rads Spec.RadsSpec Proofs.WadExtractProofs.

Definition at_pos (body : bytes) (st : stream) : Prop :=
  (0 <= st_pos st <= Z.of_N (lenN body))%Z /\ rest_of st = dropN (Z.to_N (st_pos st)) body.
Lemma at_pos_open chunks : at_pos (concat chunks) (stream_open chunks).
Proof. split; [cbn; lia | symmetry; apply dropN_0]. Qed.
Lemma copy_at body st w n : at_pos body st -> (0 <= n)%Z -> exists ws st' e, stream_copy w n st = (ws, st', e) /\
  ((e = None /\ (st_pos st + n <= Z.of_N (lenN body))%Z /\ st_pos st' = (st_pos st + n)%Z /\ at_pos body st' /\
    concat ws = if w then takeN (Z.to_N n) (dropN (Z.to_N (st_pos st)) body) else []) \/
   (e = Some StopIteration /\ (Z.of_N (lenN body) < st_pos st + n)%Z)).
Proof.
  intros [Hp Hr] Hn. assert (Hl : Z.of_N (lenN (rest_of st)) = (Z.of_N (lenN body) - st_pos st)%Z) by (rewrite Hr, lenN_dropN; lia).
  destruct (Z.le_gt_cases (st_pos st + n) (Z.of_N (lenN body))).
  - destruct (stream_copy_ok w n st) as (ws & s' & E & Ew & Er & Ep); [lia|]. exists ws, s', None. split; [assumption|]. left.
    split; [reflexivity|]. split; [assumption|]. split; [assumption|]. split.
    + split; [lia|]. rewrite Er, Hr, dropN_dropN, Ep. f_equal. lia.
    + rewrite Ew, Hr. reflexivity.
  - destruct (stream_copy_short w n st) as (ws & s' & E & _); [lia|]. exists ws, s', (Some StopIteration). split; [assumption|]. right. split; [reflexivity | lia].
Qed.
Lemma skip_at body st p : at_pos body st -> exists ws st' e, stream_skip_to p st = (ws, st', e) /\
  ((e = None /\ (st_pos st <= p <= Z.of_N (lenN body))%Z /\ st_pos st' = p /\ at_pos body st') \/
   (e = Some StopIteration /\ (Z.of_N (lenN body) < p)%Z) \/ (e = Some AssertionError /\ (p < st_pos st)%Z)).
Proof.
  intros H. unfold stream_skip_to. destruct (Z.leb_spec (st_pos st) p).
  - destruct (copy_at body st false (p - st_pos st) H) as (ws & st' & e & E & D); [lia|]. exists ws, st', e. split; [exact E|].
    destruct D as [(-> & H1 & H2 & H3 & _)|(-> & H1)]; [left; split; [reflexivity|]; split; [lia|]; split; [lia | assumption] | right; left; split; [reflexivity | lia]].
  - do 3 eexists. split; [reflexivity|]. right. right. split; [reflexivity | assumption].
Qed.

Section P.
  Variable cwd : path.
  Variable base pvpath : str.
  Variable zst : Type.
  Variable zinit : zst.
  Variable zstep : zst -> bytes -> result (zst * bytes).
  Variable zflush : zst -> result bytes.
  Variable net : str -> result (list bytes).
  Variable inflate : bytes -> result bytes.
  Hypothesis Hz : zlaw zst zinit zstep zflush inflate.
  Notation tgt := (pkg_target cwd base).
  Notation zfeed := (zfeed zst zstep).
  Notation block := (pkg_block zst zinit zstep zflush).

  Lemma zwrite_safe s ws : plain_path s -> forall z (Q : zst -> Prop), (forall a, Q a) ->
    safe (winv cwd s) (fun f f' => only_file (target cwd s) f f') Q (zwrite zst zstep (target cwd s) z ws).
  Proof.
    intros Hs. induction ws as [|w ws IH]; intros z Q HQ; cbn [zwrite]; [apply HQ|].
    eapply (safe_bind _ _ (fun _ => True)); [apply safe_lift; auto|]. intros [z' out] _.
    eapply (safe_bind _ _ (fun _ => True)); [apply fwrite_safe; exact Hs|]. intros _ _. apply IH. assumption.
  Qed.
  Lemma block_safe s c ws st2 e2 : plain_path s -> forall Q : stream -> Prop, (forall a, Q a) ->
    safe (winv cwd s) (fun f f' => only_file (target cwd s) f f') Q (block c ws st2 e2 (target cwd s)).
  Proof.
    intros Hs Q HQ. unfold pkg_block. destruct c.
    - eapply (safe_bind _ _ (fun _ => True)); [apply zwrite_safe; auto|]. intros z _. destruct e2; [exact Logic.I|].
      eapply (safe_bind _ _ (fun _ => True)); [apply safe_lift; auto|]. intros l _.
      eapply (safe_bind _ _ (fun _ => True)); [apply fwrite_safe; exact Hs|]. intros _ _. apply HQ.
    - eapply (safe_bind _ _ (fun _ => True)); [apply safe_for_each; intros x _; apply fwrite_safe; exact Hs|].
      intros _ _. destruct e2; [exact Logic.I | apply HQ].
  Qed.
  Lemma run_lift {A} (r : result A) pl f : run (lift r) pl f = (match r with Ok a => Done a | Err e => Raised e end, pl, f).
  Proof. destruct r; reflexivity. Qed.
  Lemma append_look h d b f : h <> [] -> look f h = Some (NFile b) -> look (f_append h d f) h = Some (NFile (b ++ d)).
  Proof. intros Hh El. unfold f_append. rewrite El. apply look_put_same. assumption. Qed.
  Lemma zwrite_done h : h <> [] -> forall ws z b pl f z' pl' f', look f h = Some (NFile b) ->
    run (zwrite zst zstep h z ws) pl f = (Done z', pl', f') -> exists out, zfeed z ws = Ok (z', out) /\ look f' h = Some (NFile (b ++ out)).
  Proof.
    intros Hh. induction ws as [|w ws IH]; intros z b pl f z' pl' f' El; cbn [zwrite RadsSpec.zfeed].
    - cbn [run]. intros E. injection E as <- <- <-. exists []. rewrite app_nil_r. auto.
    - rewrite run_bind, run_lift. destruct (zstep z w) as [[z1 o1]|e]; [|discriminate]. rewrite run_bind.
      destruct (run (fwrite h o1) pl f) as [[[u1|e|] pl1] f1] eqn:E1; try discriminate. apply run_fwrite in E1. subst f1.
      intros E. eapply IH in E as (out & Ez & Eo); [|apply append_look; eassumption]. exists (o1 ++ out). cbn [rbind]. rewrite Ez. split; [reflexivity|].
      rewrite app_assoc. assumption.
  Qed.
  Lemma block_done c ws st2 e2 h pl f a pl' f' : h <> [] -> look f h = Some (NFile []) ->
    run (block c ws st2 e2 h) pl f = (Done a, pl', f') ->
    e2 = None /\ a = st2 /\ exists d, look f' h = Some (NFile d) /\ if c then inflate (concat ws) = Ok d else d = concat ws.
  Proof.
    intros Hh El. unfold pkg_block. destruct c; rewrite run_bind.
    - destruct (run (zwrite zst zstep h zinit ws) pl f) as [[[z|e|] pl1] f1] eqn:E1; try discriminate.
      eapply zwrite_done in E1 as (out & Ez & Eo); [|assumption | eassumption]. cbn [app] in Eo.
      destruct e2; [discriminate|]. rewrite run_bind, run_lift. destruct (zflush z) as [l|] eqn:Ef; [|discriminate].
      rewrite run_bind. destruct (run (fwrite h l) pl1 f1) as [[[u|e|] pl2] f2] eqn:E2; try discriminate. apply run_fwrite in E2. subst f2.
      cbn [run]. intros E. injection E as <- <- <-. split; [reflexivity|]. split; [reflexivity|].
      exists (out ++ l). split; [apply append_look; assumption|]. specialize (Hz ws). unfold zall in Hz. rewrite Ez in Hz. cbn [rbind] in Hz. rewrite Ef in Hz.
      cbn [rbind] in Hz. destruct (inflate (concat ws)); [congruence | contradiction].
    - destruct (run (for_each ws (fwrite h)) pl f) as [[[u|e|] pl1] f1] eqn:E1; try discriminate.
      eapply pieces_done in E1; [|assumption | eassumption]. destruct e2; [discriminate|]. cbn [run]. intros E. injection E as <- <- <-.
      split; [reflexivity|]. split; [reflexivity|]. exists (concat ws). split; [exact E1 | reflexivity].
  Qed.
  Lemma natural_zwrite {A} P h (k : zst -> prog A) : forall ws z z' out, zfeed z ws = Ok (z', out) -> natural P (k z') ->
    natural P (bind (zwrite zst zstep h z ws) k).
  Proof.
    induction ws as [|w ws IH]; intros z z' out; cbn [RadsSpec.zfeed zwrite].
    - intros E. injection E as <- <-. auto.
    - destruct (zstep z w) as [[z1 o1]|]; [|discriminate]. cbn [rbind]. intros E Hk. apply rbind_Ok in E as ([z2 o2] & E & E').
      injection E' as <- <-. cbn. intros f. eapply IH; eassumption.
  Qed.
  Lemma natural_block P c ws st2 h : (c = true -> exists d, inflate (concat ws) = Ok d) -> natural P (block c ws st2 None h).
  Proof.
    intros Hc. unfold pkg_block. destruct c.
    - destruct (Hc eq_refl) as [d Hd]. specialize (Hz ws). rewrite Hd in Hz. unfold zall in Hz.
      destruct (zfeed zinit ws) as [[z out]|] eqn:Ez; cbn [rbind] in Hz; [|contradiction].
      destruct (zflush z) as [l|] eqn:Ef; cbn [rbind] in Hz; [|contradiction].
      eapply natural_zwrite; [exact Ez|]. rewrite Ef. cbn. intros f. exact Logic.I.
    - apply natural_bind; [|intros _; exact Logic.I]. clear Hc. induction ws as [|w ws IH]; [exact Logic.I|].
      cbn [for_each]. apply natural_bind; [apply natural_fwrite | intros _; exact IH].
  Qed.

  Notation estep := (extract_pkgfile cwd base zst zinit zstep zflush).
  Lemma pkg_range_N body pf : (0 <= k_offset pf)%Z -> (0 <= k_size pf)%Z ->
    pkg_range body pf = if (k_offset pf + k_size pf <=? Z.of_N (lenN body))%Z
      then Some (takeN (Z.to_N (k_size pf)) (dropN (Z.to_N (k_offset pf)) body)) else None.
  Proof.
    intros H1 H2. unfold pkg_range. rewrite takeN_firstn, dropN_skipn, !Z_N_nat, lenN_length, nat_N_Z. reflexivity.
  Qed.

  Lemma pkg_step body st pf pl f o pl' f' : at_pos body st -> pkg_ready cwd base f pf ->
    run (estep st pf) pl f = (o, pl', f') ->
    only_file (tgt pf) f f' /\ ready cwd (path_join base (k_extract pf)) f' /\
    (forall st', o = Done st' -> at_pos body st' /\ st_pos st' = (k_offset pf + k_size pf)%Z /\
       exists raw d, pkg_range body pf = Some raw /\ (if k_compressed pf then inflate raw = Ok d else d = raw) /\ look f' (tgt pf) = Some (NFile d)) /\
    (clean o pl pl' -> is_file f' (tgt pf) -> f' = f \/ exists st', o = Done st') /\
    (failures pl = 0%nat -> (st_pos st <= k_offset pf)%Z -> (exists raw, pkg_range body pf = Some raw /\ (k_compressed pf = true -> exists d, inflate raw = Ok d)) ->
       forall e, o = Raised e -> lookup_error e).
  Proof.
    intros Hp (Ho & Hsz & Hr) E. unfold extract_pkgfile in E.
    destruct (skip_at body st (k_offset pf) Hp) as (ws0 & st1 & e & Es & D). rewrite Es in E.
    pose proof (pkg_range_N body pf Ho Hsz) as Erange.
    destruct D as [(-> & H1 & H2 & Hp1)|D].
    - destruct (copy_at body st1 true (k_size pf) Hp1 Hsz) as (ws & st2 & e2 & Ec & D).
      unfold fspath in E. set (s := path_join base (k_extract pf)) in *.
      apply ready_winv in Hr as [Hs Hi].
      assert (Hsafe : forall Q : stream -> Prop, (forall a, Q a) -> safe (winv cwd s) (fun f f' => only_file (target cwd s) f f') Q
        ((fun h => let '(ws, st2, e2) := stream_copy true (k_size pf) st1 in block (k_compressed pf) ws st2 e2 h) (target cwd s))).
      { intros Q HQ. cbn beta. rewrite Ec. apply block_safe; assumption. }
      pose proof E as E3. eapply (safe_run _ _ (only_file_refl _) (only_file_trans _)) in E3 as (H3 & I3 & _);
        [|apply (wfr_safe cwd s Hs (fun _ => True)); apply Hsafe; auto | exact Hi].
      split; [exact H3|]. split; [apply winv_ready; assumption|]. split; [|split].
      + intros st' ->. pose proof E as E4. apply (wfr_done cwd s Hs) in E4 as (pl3 & f3 & pl4 & El & _ & _ & E4); [|exact Hi | exact Hsafe].
        rewrite Ec in E4. apply block_done in E4 as (-> & -> & d & Hl & Hd); [|apply target_nonempty; assumption | exact El].
        destruct D as [(_ & D1 & D2 & D3 & D4)|(D & _)]; [|discriminate]. split; [assumption|]. split; [lia|].
        exists (concat ws), d. rewrite Erange. replace (k_offset pf + k_size pf <=? _)%Z with true by lia. rewrite H2 in D4. rewrite D4 in Hd |- *. split; [reflexivity|]. split; [exact Hd | exact Hl].
      + intros Hc Hf. destruct o as [a|e|]; [eauto | | destruct Hc]. exfalso.
        apply (wfr_raised cwd s Hs) in E as [H|(u & x & H)]; [exact (H Hf) | exact (Hc u x H) | exact Hi | exact Hsafe].
      + intros Hpl Hle (raw & Hraw & Hinf) e ->. rewrite Erange in Hraw.
        destruct (Z.leb_spec (k_offset pf + k_size pf) (Z.of_N (lenN body))); [|discriminate]. injection Hraw as <-.
        destruct D as [(-> & D1 & D2 & D3 & D4)|(_ & D)]; [|lia]. rewrite H2 in D4.
        eapply (natural_run lookup_error); [|exact Hpl | exact E]. apply natural_wfr; [auto|]. intros h. rewrite Ec. apply natural_block.
        rewrite D4. assumption.
    - assert (E' : exists x, o = Raised x /\ pl' = pl /\ f' = f).
      { destruct D as [(-> & _)|(-> & _)]; cbn [run] in E; injection E as <- <- <-; eauto. }
      destruct E' as (x & -> & -> & ->). split; [apply only_file_refl|]. split; [assumption|]. split; [discriminate|]. split; [auto|].
      intros _ Hle (raw & Hraw & _). rewrite Erange in Hraw. destruct (Z.leb_spec (k_offset pf + k_size pf) (Z.of_N (lenN body))); [|discriminate].
      destruct D as [(_ & D)|(_ & D)]; lia.
  Qed.

  (** ** Composition *)
  Notation content := (has_content cwd base pvpath inflate net).
  Definition T (l : list pkgfile) (t : path) : Prop := exists pf, In pf l /\ tgt pf = t.
  Definition good_run (l : list pkgfile) (f f' : fs) (done cl : Prop) : Prop :=
    only_files (T l) f f' /\ (forall s, ready cwd s f -> ready cwd s f') /\
    (done -> forall pf, In pf l -> content f' pf) /\
    (cl -> forall pf, In pf l -> is_file f' (tgt pf) -> content f' pf \/ look f' (tgt pf) = look f (tgt pf)).

  Lemma content_same f f' pf : look f' (tgt pf) = look f (tgt pf) -> content f pf -> content f' pf.
  Proof. intros H (d & Ha & Hl). exists d. split; [assumption | congruence]. Qed.
  Lemma content_file f pf : content f pf -> is_file f (tgt pf).
  Proof. intros (d & _ & Hl). exists d. assumption. Qed.
  Lemma content_kept l f f' pf : only_files (T l) f f' -> content f pf -> ~ T l (tgt pf) -> content f' pf.
  Proof.
    intros HF Hc HT. destruct (HF (tgt pf)) as [H|[H|(H & _)]]; [eapply content_same; eassumption | contradiction|].
    destruct Hc as (d & _ & Hd). congruence.
  Qed.
  Lemma T_dec l t : T l t \/ ~ T l t.
  Proof.
    induction l as [|pf l IH]; [right; intros (p & [] & _)|]. destruct (eqbP (tgt pf) t) as [E|E]; [left; exists pf; split; [left; reflexivity | assumption]|].
    destruct IH as [(p & H & H')|IH]; [left; exists p; split; [right; assumption | assumption]|].
    right. intros (p & [->|H] & H'); [contradiction | apply IH; exists p; auto].
  Qed.

  Lemma good_nil f (d c : Prop) : good_run [] f f d c.
  Proof. split; [intros q; auto|]. split; [auto|]. split; intros _ pf []. Qed.
  Lemma good_mem l l' f f' d c : (forall pf, In pf l <-> In pf l') -> good_run l f f' d c -> good_run l' f f' d c.
  Proof.
    intros H (H1 & H2 & H3 & H4). split; [eapply only_files_mono; [|exact H1]; intros t (pf & Hi & Ht); exists pf; split; [apply H; assumption | assumption]|].
    split; [assumption|]. split; intros Hx pf Hi; [apply H3; [assumption | apply H; assumption] | apply H4; [assumption | apply H; assumption]].
  Qed.
  Lemma good_app l1 l2 f f1 f' (d c : Prop) : distinct_targets cwd base (l1 ++ l2) ->
    good_run l1 f f1 True True -> good_run l2 f1 f' d c -> good_run (l1 ++ l2) f f' d c.
  Proof.
    intros HD (A1 & A2 & A3 & A4) (B1 & B2 & B3 & B4). specialize (A3 Logic.I). specialize (A4 Logic.I).
    split; [|split; [auto|split]].
    - eapply only_files_trans; [eapply only_files_mono; [|exact A1] | eapply only_files_mono; [|exact B1]];
        intros t (pf & Hi & Ht); exists pf; (split; [apply in_or_app; auto | assumption]).
    - intros Hd pf Hi. apply in_app_or in Hi as [Hi|Hi]; [|apply B3; assumption].
      destruct (T_dec l2 (tgt pf)) as [(p & Hp & Ht)|HT].
      + assert (p = pf) as -> by (apply HD; [apply in_or_app; auto | apply in_or_app; auto | assumption]). apply B3; assumption.
      + eapply content_kept; [exact B1 | apply A3; assumption | assumption].
    - intros Hc pf Hi Hf. destruct (T_dec l1 (tgt pf)) as [(p & Hp & Ht)|HT1].
      + assert (p = pf) as ->. { apply HD; [apply in_or_app; auto | assumption | assumption]. }
        pose proof (A3 pf Hp) as C1. destruct (T_dec l2 (tgt pf)) as [(p & Hp2 & Ht2)|HT].
        * assert (p = pf) as -> by (apply HD; [apply in_or_app; auto | apply in_or_app; auto | assumption]).
          destruct (B4 Hc pf Hp2 Hf) as [C|C]; [auto|]. left. eapply content_same; eassumption.
        * left. eapply content_kept; eassumption.
      + apply in_app_or in Hi as [Hi|Hi]; [exfalso; apply HT1; exists pf; auto|].
        destruct (B4 Hc pf Hi Hf) as [C|C]; [auto|]. destruct (A1 (tgt pf)) as [H|[H|(_ & H & _)]]; [right; congruence | contradiction|].
        destruct Hf as [b Hb]. congruence.
  Qed.
  Lemma good_more l l2 f f' (d c : Prop) : distinct_targets cwd base (l ++ l2) -> good_run l f f' d c -> good_run (l ++ l2) f f' False c.
  Proof.
    intros HD (A1 & A2 & A3 & A4). split; [eapply only_files_mono; [|exact A1]; intros t (pf & Hi & Ht); exists pf; split; [apply in_or_app; auto | assumption]|].
    split; [assumption|]. split; [intros []|]. intros Hc pf Hi Hf. destruct (T_dec l (tgt pf)) as [(p & Hp & Ht)|HT].
    - assert (p = pf) as -> by (apply HD; [apply in_or_app; auto | assumption | assumption]). apply A4; assumption.
    - destruct (A1 (tgt pf)) as [H|[H|(_ & H & _)]]; [auto | contradiction|]. destruct Hf as [b Hb]. congruence.
  Qed.
  Lemma good_weaken l f f' (d c d' c' : Prop) : (d' -> d) -> (c' -> c) -> good_run l f f' d c -> good_run l f f' d' c'.
  Proof. intros Hd Hc (A1 & A2 & A3 & A4). split; [assumption|]. split; [assumption|]. split; auto. Qed.
  Lemma ready_all_kept f f' s : ready cwd s f -> ready cwd s f' -> only_file (target cwd s) f f' -> forall s2, ready cwd s2 f -> ready cwd s2 f'.
  Proof. intros H1 H2 H3 s2 H. exact (ready_only cwd s s2 f f' H1 H2 H3 H). Qed.

  Lemma clean_suffix {A B} (o : outcome A) (p : prog B) pl f o1 pl1 f1 pl' : run p pl f = (o1, pl1, f1) -> clean o pl pl' -> clean o pl1 pl'.
  Proof.
    intros E H. destruct o; [exact Logic.I | | exact H]. intros u x Hx. apply run_consumes in E as [v ->]. apply (H (v ++ u) x). rewrite Hx, app_assoc. reflexivity.
  Qed.

  Notation estream := (extract_stream cwd base zst zinit zstep zflush).
  Lemma stream_good chunks : forall l st pl f o pl' f', at_pos (concat chunks) st ->
    Forall (fun pf => net (url_of pvpath pf) = Ok chunks /\ pkg_ready cwd base f pf) l -> distinct_targets cwd base l ->
    run (estream st l) pl f = (o, pl', f') -> good_run l f f' (o = Done tt) (clean o pl pl').
  Proof.
    induction l as [|pf l IH]; intros st pl f o pl' f' Hp HF HD; cbn [extract_stream].
    - cbn [run]. intros E. injection E as <- <- <-. apply good_nil.
    - inversion HF as [|? ? [Hn Hr] Hl]; subst. rewrite run_bind. destruct (run (estep st pf) pl f) as [[o1 pl1] f1] eqn:E1. pose proof E1 as E0.
      apply (pkg_step (concat chunks)) in E1 as (H1 & H2 & H3 & H4 & _); [|assumption | assumption].
      assert (Hk : forall s, ready cwd s f -> ready cwd s f1) by (apply (ready_all_kept _ _ (path_join base (k_extract pf))); [apply Hr | assumption | exact H1]).
      assert (HT : only_files (T [pf]) f f1) by (apply (only_file_files _ (tgt pf)); [exists pf; split; [left; reflexivity | reflexivity] | exact H1]).
      destruct o1 as [st'|e|]; intros E.
      + destruct (H3 st' eq_refl) as (Hp' & _ & raw & d & Hraw & Hd & Hlk).
        assert (HC : content f1 pf) by (exists d; split; [exists chunks, raw; auto | assumption]).
        change (pf :: l) with ([pf] ++ l). eapply (good_app [pf] l f f1); [exact HD | |].
        * split; [assumption|]. split; [assumption|]. split; [intros _ p [<-|[]]; exact HC | intros _ p [<-|[]] _; auto].
        * eapply good_weaken; [intros H; exact H | intros H; eapply clean_suffix; [exact E0 | exact H] |].
          eapply IH; [exact Hp' | | | exact E].
          -- eapply Forall_impl; [|exact Hl]. cbn beta. intros p (Q1 & Q2 & Q3 & Q4). split; [assumption|]. split; [assumption|]. split; auto.
          -- intros a b Ha Hb. apply HD; right; assumption.
      + injection E as <- <- <-. change (pf :: l) with ([pf] ++ l).
        eapply good_weaken; [intros H; exact H | intros H; exact H |]. eapply (good_weaken _ _ _ False (clean (@Raised unit e) pl pl1)); [discriminate | auto|].
        eapply (good_more [pf] l _ _ False); [exact HD|]. split; [assumption|]. split; [assumption|]. split; [intros []|].
        intros Hc p [<-|[]] Hf. destruct (H4 Hc Hf) as [->|[st' H]]; [auto | discriminate].
      + injection E as <- <- <-. change (pf :: l) with ([pf] ++ l).
        eapply (good_weaken _ _ _ False False); [discriminate | intros []|].
        eapply (good_more [pf] l _ _ False); [exact HD|]. split; [assumption|]. split; [assumption|]. split; intros [].
  Qed.

  Definition group_body (g : str * list pkgfile) : prog unit :=
    let~ chunks := lift (net (pvpath ++ lit "/packages/files/" ++ fst g)) in
    estream (stream_open chunks) (by_offset (snd g)).
  Lemma by_offset_In l pf : In pf (by_offset l) <-> In pf l.
  Proof. unfold by_offset. split; apply Permutation_in; [apply Permutation_sym|]; apply py_sorted_perm. Qed.
  Lemma group_good g pl f o pl' f' :
    Forall (fun pf => k_package pf = fst g /\ pkg_ready cwd base f pf) (snd g) -> distinct_targets cwd base (snd g) ->
    run (group_body g) pl f = (o, pl', f') -> good_run (snd g) f f' (o = Done tt) (clean o pl pl').
  Proof.
    intros HF HD. unfold group_body. rewrite run_bind, run_lift. destruct (net _) as [chunks|e] eqn:En.
    - intros E. apply (good_mem (by_offset (snd g))); [apply by_offset_In|].
      eapply stream_good; [apply at_pos_open | | | exact E].
      + apply Forall_forall. intros pf Hi. apply (proj1 (by_offset_In _ _)) in Hi. rewrite Forall_forall in HF. destruct (HF pf Hi) as [H1 H2].
        split; [unfold url_of; rewrite H1; exact En | assumption].
      + intros a b Ha Hb. apply HD; apply (proj1 (by_offset_In _ _)); assumption.
    - intros E. injection E as <- <- <-. split; [intros q; auto|]. split; [auto|]. split; [discriminate | auto].
  Qed.
  Lemma groups_good : forall gs pl f o pl' f',
    Forall (fun g => Forall (fun pf => k_package pf = fst g /\ pkg_ready cwd base f pf) (snd g)) gs ->
    distinct_targets cwd base (concat (map snd gs)) ->
    run (for_each gs group_body) pl f = (o, pl', f') -> good_run (concat (map snd gs)) f f' (o = Done tt) (clean o pl pl').
  Proof.
    induction gs as [|g gs IH]; intros pl f o pl' f' HF HD; cbn [for_each map concat].
    - cbn [run]. intros E. injection E as <- <- <-. apply good_nil.
    - cbn [map concat] in HD. inversion HF as [|? ? Hg Hgs]; subst. rewrite run_bind. destruct (run (group_body g) pl f) as [[o1 pl1] f1] eqn:E1. pose proof E1 as E0.
      apply group_good in E1; [|assumption | intros a b Ha Hb; apply HD; apply in_or_app; auto].
      destruct o1 as [[]|e|]; intros E.
      + eapply (good_app (snd g) _ f f1); [exact HD | eapply good_weaken; [| |exact E1]; [reflexivity | intros _; exact Logic.I]|].
        eapply good_weaken; [intros H; exact H | intros H; eapply clean_suffix; [exact E0 | exact H]|].
        destruct E1 as (_ & Hk & _). eapply IH; [|intros a b Ha Hb; apply HD; apply in_or_app; auto | exact E].
        eapply Forall_impl; [|exact Hgs]. intros g'. apply Forall_impl. intros p (Q1 & Q2 & Q3 & Q4). split; [assumption|]. split; [assumption|]. split; auto.
      + injection E as <- <- <-. eapply (good_weaken _ _ _ False (clean (@Raised unit e) pl pl1)); [discriminate | auto|]. eapply good_more; [exact HD | exact E1].
      + injection E as <- <- <-. eapply (good_weaken _ _ _ False (clean (@Crashed unit) pl pl1)); [discriminate | auto|]. eapply good_more; [exact HD | exact E1].
  Qed.

  (** Grouping *)
  Lemma group_perm l : forall d, Permutation (concat (map snd (fold_left group_add l d))) (concat (map snd d) ++ l).
  Proof.
    induction l as [|pf l IH]; intros d; cbn [fold_left]; [rewrite app_nil_r; apply Permutation_refl|].
    eapply Permutation_trans; [apply IH|]. replace (concat (map snd d) ++ pf :: l) with ((concat (map snd d) ++ [pf]) ++ l) by (rewrite <- app_assoc; reflexivity).
    apply Permutation_app_tail. unfold group_add. generalize (k_package pf) as k. intros k. clear.
    induction d as [|[k1 v1] d IH]; cbn [dget dset].
    - cbn. apply Permutation_refl.
    - destruct (eqbP k k1) as [->|].
      + cbn [map concat snd]. rewrite <- app_assoc, <- app_assoc. apply Permutation_app_head, Permutation_app_comm.
      + cbn [map concat snd]. rewrite <- app_assoc. apply Permutation_app_head. exact IH.
  Qed.
  Lemma by_package_perm l : Permutation (concat (map snd (by_package l))) l.
  Proof. apply (group_perm l []). Qed.
  Lemma group_pkg l : forall d, Forall (fun g => Forall (fun pf => k_package pf = fst g) (snd g)) d ->
    Forall (fun g => Forall (fun pf => k_package pf = fst g) (snd g)) (fold_left group_add l d).
  Proof.
    induction l as [|pf l IH]; intros d H; cbn [fold_left]; [assumption|]. apply IH. unfold group_add.
    induction d as [|[k1 v1] d IHd]; cbn [dget dset].
    - constructor; [constructor; [reflexivity | constructor] | constructor].
    - inversion H as [|? ? H1 H2]; subst. destruct (eqbP (k_package pf) k1) as [E|E].
      + constructor; [|assumption]. cbn [fst snd] in *. apply Forall_app. split; [assumption | constructor; [assumption | constructor]].
      + constructor; [assumption | apply IHd; assumption].
  Qed.

  (** Selection of the missing files *)
  Lemma filter_missing_run : forall l pl f o pl' f', Forall (fun pf => ready cwd (path_join base (k_extract pf)) f) l ->
    run (filter_missing cwd base l) pl f = (o, pl', f') -> f' = f /\
    (forall e, o <> Raised e) /\
    (forall r, o = Done r -> (forall pf, In pf r <-> In pf l /\ ~ is_file f (tgt pf)) /\ (NoDup l -> NoDup r)).
  Proof.
    induction l as [|pf l IH]; intros pl f o pl' f' HF; cbn [filter_missing].
    - cbn [run]. intros E. injection E as <- <- <-. split; [reflexivity|]. split; [discriminate|]. intros r Hr. injection Hr as <-.
      split; [cbn [In]; tauto | auto].
    - inversion HF as [|? ? Hr Hl]; subst. rewrite run_bind.
      destruct (run (isfile cwd (fspath base (k_extract pf))) pl f) as [[o1 pl1] f1] eqn:E1. unfold isfile in E1.
      apply run_query_fs in E1 as [-> [->| ->]].
      + rewrite run_bind. destruct (run (filter_missing cwd base l) pl1 f) as [[o2 pl2] f2] eqn:E2. apply IH in E2 as (-> & H2 & H3); [|assumption].
        destruct o2 as [r|e|]; intros E; cbn [run] in E; injection E as <- <- <-; (split; [reflexivity|]).
        * split; [discriminate|]. intros r' Hr'. injection Hr' as <-. destruct (H3 r eq_refl) as [Hm Hnd].
          pose proof (isfile_ready cwd _ f Hr) as Hif. unfold fspath. fold (tgt pf) in Hif.
          destruct (f_isfile cwd (path_join base (k_extract pf)) f); split.
          -- intros p. rewrite Hm. cbn [In]. split; [tauto|]. intros [[<-|H] Hn]; [exfalso; apply Hn, Hif; reflexivity | tauto].
          -- intros Hd. inversion Hd; subst. auto.
          -- intros p. cbn [In]. rewrite Hm. split; [|tauto]. intros [<-|H]; [|tauto]. split; [auto|]. intros H. apply Hif in H. discriminate.
          -- intros Hd. inversion Hd; subst. constructor; [rewrite Hm; tauto | auto].
        * exfalso. exact (H2 e eq_refl).
        * split; discriminate.
      + intros E. injection E as <- <- <-. split; [reflexivity|]. split; discriminate.
  Qed.

  Notation prog_of all paths := (rads_extract cwd base zst zinit zstep zflush net pvpath all paths).
  Definition missing (f : fs) (l : list pkgfile) (pf : pkgfile) : Prop := In pf l /\ ~ is_file f (tgt pf).

  Lemma requested_ok all paths l : requested all paths l ->
    match paths with None => Ok (dvals all) | Some ps => rmapM (fun p => of_opt KeyError (dget p all)) ps end = Ok l.
  Proof.
    destruct paths as [ps|]; cbn [requested]; [|intros ->; reflexivity]. intros H. apply rmapM_Ok.
    induction H as [|p pf ps l H _ IH]; constructor; [rewrite H; reflexivity | assumption].
  Qed.

  Lemma extract_good all paths l pl f o pl' f' : requested all paths l ->
    Forall (pkg_ready cwd base f) l -> distinct_targets cwd base l ->
    run (prog_of all paths) pl f = (o, pl', f') ->
    only_files (fun t => exists pf, missing f l pf /\ tgt pf = t) f f' /\ (forall s, ready cwd s f -> ready cwd s f') /\
    (o = Done tt -> forall pf, missing f l pf -> content f' pf) /\
    (clean o pl pl' -> forall pf, missing f l pf -> is_file f' (tgt pf) -> content f' pf).
  Proof.
    intros HR HF HD E. unfold rads_extract in E. rewrite run_bind, run_lift, (requested_ok _ _ _ HR), run_bind in E.
    destruct (run (filter_missing cwd base l) pl f) as [[o1 pl1] f1] eqn:E1. pose proof E1 as E0.
    apply filter_missing_run in E1 as (-> & H2 & H3); [|eapply Forall_impl; [|exact HF]; intros pf H; apply H].
    destruct o1 as [r|e|]; [|exfalso; exact (H2 e eq_refl)|].
    - destruct (H3 r eq_refl) as [Hm _].
      assert (Hmem : forall pf, In pf (concat (map snd (by_package r))) <-> missing f l pf).
      { intros pf. unfold missing; rewrite <- Hm. split; apply Permutation_in; [|apply Permutation_sym]; apply by_package_perm. }
      apply groups_good in E.
      + destruct E as (A1 & A2 & A3 & A4). split; [|split; [assumption|split]].
        * eapply only_files_mono; [|exact A1]. intros t (pf & Hi & Ht). exists pf. split; [apply Hmem; assumption | assumption].
        * intros Hd pf Hi. apply A3; [assumption | apply Hmem; assumption].
        * intros Hc pf Hi Hf. destruct (A4 (clean_suffix _ _ _ _ _ _ _ _ E0 Hc) pf) as [C|C]; [apply Hmem; assumption | assumption | assumption|].
          exfalso. apply (proj2 Hi). destruct Hf as [b Hb]. exists b. congruence.
      + pose proof (group_pkg r [] (Forall_nil _)) as HG. fold (by_package r) in HG.
        apply Forall_forall. intros g Hg. rewrite Forall_forall in HG. specialize (HG g Hg). apply Forall_forall. intros pf Hpf.
        rewrite Forall_forall in HG. split; [apply HG; assumption|].
        assert (Hx : missing f l pf) by (apply Hmem, in_concat; exists (snd g); split; [apply in_map; assumption | assumption]).
        rewrite Forall_forall in HF. apply HF, Hx.
      + intros a b Ha Hb. apply HD; apply Hmem; assumption.
    - injection E as <- <- <-. split; [intros q; auto|]. split; [auto|]. split; [discriminate | intros []].
  Qed.

  (** ** Nothing but the filesystem can make the extraction of a sound manifest fail *)
  Definition fine (body : bytes) (pf : pkgfile) : Prop :=
    exists raw, pkg_range body pf = Some raw /\ (k_compressed pf = true -> exists d, inflate raw = Ok d).
  Lemma stream_natural body : forall l st pl f e pl' f', at_pos body st ->
    Forall (fun pf => fine body pf /\ pkg_ready cwd base f pf /\ (st_pos st <= k_offset pf)%Z) l ->
    StronglySorted (fun a b => (k_offset a + k_size a <= k_offset b)%Z) l -> failures pl = 0%nat ->
    run (estream st l) pl f = (Raised e, pl', f') -> lookup_error e.
  Proof.
    induction l as [|pf l IH]; intros st pl f e pl' f' Hp HF HS Hpl; cbn [extract_stream]; [discriminate|].
    inversion HF as [|? ? (Hn & Hr & Hle) Hl]; subst. inversion HS as [|? ? HS' Hall]; subst.
    rewrite run_bind. destruct (run (estep st pf) pl f) as [[o1 pl1] f1] eqn:E1. pose proof E1 as E0.
    apply (pkg_step body) in E1 as (H1 & H2 & H3 & _ & H5); [|assumption | assumption].
    destruct o1 as [st'|x|]; [|intros E; injection E as <- <- <-; apply H5; auto | discriminate].
    intros E. destruct (H3 st' eq_refl) as (Hp' & Hpos & _). eapply IH; [exact Hp' | | exact HS' | eapply run_failures0; [exact E0 | exact Hpl] | exact E].
    apply Forall_forall. intros p Hi. rewrite Forall_forall in Hl, Hall. destruct (Hl p Hi) as (Q1 & (Q2 & Q3 & Q4) & Q5). split; [assumption|]. split.
    - split; [assumption|]. split; [assumption|]. exact (ready_all_kept f f1 _ (proj2 (proj2 Hr)) H2 H1 _ Q4).
    - rewrite Hpos. apply Hall. assumption.
  Qed.
  Lemma sorted_apart l : NoDup l -> (forall a b, In a l -> In b l -> a <> b -> apart a b) ->
    StronglySorted (fun a b => (k_offset a + k_size a <= k_offset b)%Z) (by_offset l).
  Proof.
    intros Hn Ha. assert (HS : StronglySorted (fun a b => (k_offset b <? k_offset a)%Z = false) (by_offset l)).
    { apply (py_sorted_sorted (fun a b => (k_offset a <? k_offset b)%Z)); intros; lia. }
    assert (Hn' : NoDup (by_offset l)) by (eapply Permutation_NoDup; [apply py_sorted_perm | assumption]).
    assert (Ha' : forall a b, In a (by_offset l) -> In b (by_offset l) -> a <> b -> apart a b) by (intros a b X Y; apply Ha; apply (proj1 (by_offset_In _ _)); assumption).
    clear Hn Ha. induction HS as [|a s HS IH Hall]; constructor.
    - apply IH; [inversion Hn'; assumption | intros x y X Y; apply Ha'; right; assumption].
    - apply Forall_forall. intros b Hb. rewrite Forall_forall in Hall. specialize (Hall b Hb).
      assert (a <> b) by (intros ->; inversion Hn'; contradiction).
      destruct (Ha' a b (or_introl eq_refl) (or_intror Hb)) as [[H1 H2]|[H1 H2]]; [assumption | assumption | lia].
  Qed.
  Lemma group_natural g pl f e pl' f' chunks :
    Forall (fun pf => k_package pf = fst g /\ pkg_ready cwd base f pf) (snd g) ->
    net (pvpath ++ lit "/packages/files/" ++ fst g) = Ok chunks -> Forall (fine (concat chunks)) (snd g) ->
    NoDup (snd g) -> (forall a b, In a (snd g) -> In b (snd g) -> a <> b -> apart a b) -> failures pl = 0%nat ->
    run (group_body g) pl f = (Raised e, pl', f') -> lookup_error e.
  Proof.
    intros HF En Hfi Hnd Hap Hpl. unfold group_body. rewrite run_bind, run_lift, En. apply (stream_natural (concat chunks)).
    - apply at_pos_open.
    - apply Forall_forall. intros pf Hi. apply (proj1 (by_offset_In _ _)) in Hi. rewrite Forall_forall in HF, Hfi. destruct (HF pf Hi) as [_ H2].
      split; [apply Hfi; assumption|]. split; [assumption|]. cbn. apply H2.
    - apply sorted_apart; assumption.
    - assumption.
  Qed.
  Lemma groups_natural : forall gs pl f e pl' f',
    Forall (fun g => Forall (fun pf => k_package pf = fst g /\ pkg_ready cwd base f pf) (snd g) /\ NoDup (snd g) /\
      (snd g = [] \/ exists chunks, net (pvpath ++ lit "/packages/files/" ++ fst g) = Ok chunks /\ Forall (fine (concat chunks)) (snd g)) /\
      (forall a b, In a (snd g) -> In b (snd g) -> a <> b -> apart a b) /\ snd g <> []) gs ->
    distinct_targets cwd base (concat (map snd gs)) -> failures pl = 0%nat ->
    run (for_each gs group_body) pl f = (Raised e, pl', f') -> lookup_error e.
  Proof.
    induction gs as [|g gs IH]; intros pl f e pl' f' HF HD Hpl; cbn [for_each]; [discriminate|].
    inversion HF as [|? ? (G1 & G2 & G3 & G4 & G5) Hgs]; subst. rewrite run_bind. cbn [map concat] in HD.
    destruct (run (group_body g) pl f) as [[o1 pl1] f1] eqn:E1. pose proof E1 as E0.
    destruct o1 as [[]|x|]; [| |discriminate].
    - apply group_good in E1 as (_ & Hk & _); [|assumption | intros a b Ha Hb; apply HD; apply in_or_app; auto].
      intros E. eapply IH; [|intros a b Ha Hb; apply HD; apply in_or_app; auto | eapply run_failures0; [exact E0 | exact Hpl] | exact E].
      eapply Forall_impl; [|exact Hgs]. intros g' (Q1 & Q2). split; [|assumption].
      eapply Forall_impl; [|exact Q1]. intros p (R1 & R2 & R3 & R4). split; [assumption|]. split; [assumption|]. split; auto.
    - intros E. injection E as <- <- <-. destruct G3 as [G3|(chunks & En & Hfi)]; [contradiction|]. eapply group_natural; eassumption.
  Qed.
  Lemma group_nonempty l : forall d, Forall (fun g : str * list pkgfile => snd g <> []) d -> Forall (fun g => snd g <> []) (fold_left group_add l d).
  Proof.
    induction l as [|pf l IH]; intros d H; cbn [fold_left]; [assumption|]. apply IH. unfold group_add.
    assert (G : forall v, Forall (fun g : str * list pkgfile => snd g <> []) (dset (k_package pf) (v ++ [pf]) d)).
    { intros v. clear IH. induction d as [|[k1 v1] d IHd]; cbn [dset].
      - constructor; [cbn [snd]; intros E; apply app_eq_nil in E as [_ E]; discriminate | constructor].
      - inversion H; subst. destruct (eqb (k_package pf) k1); constructor; try assumption; [|apply IHd; assumption].
        cbn [snd]. intros E. apply app_eq_nil in E as [_ E]. discriminate. }
    apply G.
  Qed.
  Lemma NoDup_concat_in {A} (ls : list (list A)) l : NoDup (concat ls) -> In l ls -> NoDup l.
  Proof.
    induction ls as [|x ls IH]; intros Hn Hi; [destruct Hi|]. cbn [concat] in Hn. destruct Hi as [->|Hi].
    - clear - Hn. induction l as [|a l IH]; constructor; cbn [app] in Hn; inversion Hn as [|? ? H1 H2]; subst; [intros H; apply H1, in_or_app; auto | auto].
    - apply IH; [|assumption]. clear - Hn. induction x as [|a x IH]; [assumption|]. cbn [app] in Hn. inversion Hn; auto.
  Qed.
  Lemma extract_natural all paths l pl f e pl' f' : requested all paths l ->
    Forall (pkg_ready cwd base f) l -> distinct_targets cwd base l -> NoDup l ->
    (forall pf, In pf l -> exists chunks, net (url_of pvpath pf) = Ok chunks /\ fine (concat chunks) pf) ->
    (forall a b, In a l -> In b l -> a <> b -> k_package a = k_package b -> apart a b) -> failures pl = 0%nat ->
    run (prog_of all paths) pl f = (Raised e, pl', f') -> lookup_error e.
  Proof.
    intros HR HF HD Hnd Hnet Hap Hpl E. unfold rads_extract in E. rewrite run_bind, run_lift, (requested_ok _ _ _ HR), run_bind in E.
    destruct (run (filter_missing cwd base l) pl f) as [[o1 pl1] f1] eqn:E1. pose proof E1 as E0.
    apply filter_missing_run in E1 as (-> & H2 & H3); [|eapply Forall_impl; [|exact HF]; intros pf H; apply H].
    destruct o1 as [r|x|]; [|exfalso; exact (H2 x eq_refl)|discriminate].
    destruct (H3 r eq_refl) as [Hm Hr]. specialize (Hr Hnd).
    assert (Hmem : forall pf, In pf (concat (map snd (by_package r))) -> In pf l).
    { intros pf Hi. apply Hm. revert Hi. apply Permutation_in. apply by_package_perm. }
    eapply groups_natural; [| |eapply run_failures0; [exact E0 | exact Hpl] | exact E].
    - pose proof (group_pkg r [] (Forall_nil _)) as HG. pose proof (group_nonempty r [] (Forall_nil _)) as HN. fold (by_package r) in HG, HN.
      apply Forall_forall. intros g Hg. rewrite Forall_forall in HG, HN. specialize (HG g Hg). specialize (HN g Hg). rewrite Forall_forall in HG.
      assert (Hin : forall pf, In pf (snd g) -> In pf l) by (intros pf Hi; apply Hmem, in_concat; exists (snd g); split; [apply in_map; assumption | assumption]).
      split; [|split; [|split; [|split]]].
      + apply Forall_forall. intros pf Hi. split; [apply HG; assumption|]. rewrite Forall_forall in HF. apply HF, Hin, Hi.
      + eapply NoDup_concat_in; [|apply in_map; exact Hg]. eapply Permutation_NoDup; [apply Permutation_sym, by_package_perm | exact Hr].
      + right. destruct (snd g) as [|p0 rest] eqn:Eg; [contradiction|]. assert (Hp0 : In p0 (p0 :: rest)) by (left; reflexivity).
        destruct (Hnet p0 (Hin p0 Hp0)) as (chunks & En & _). exists chunks. unfold url_of in En. rewrite (HG p0 Hp0) in En. split; [exact En|].
        apply Forall_forall. intros pf Hi. destruct (Hnet pf (Hin pf Hi)) as (chunks' & En' & Hf). unfold url_of in En'. rewrite (HG pf Hi) in En'. congruence.
      + intros a b Ha Hb Hab. apply Hap; auto. rewrite (HG a Ha), (HG b Hb). reflexivity.
      + assumption.
    - intros a b Ha Hb. apply HD; apply Hmem; assumption.
  Qed.
End P.
