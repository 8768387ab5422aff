(** * Proofs about the extraction of WAD archives *)

From Verif Require Import Base.TextFacts Base.PathFacts Base.Fs Spec.FsSpec Base.FsFacts Model.Files Proofs.FilesProofs
  Model.Wad Model.WadExtract Spec.WadExtractSpec.

Section P.
  Variable gunzip unzstd : bytes -> result bytes.
  Variable xxh3 : bytes -> N.
  Variable cwd : path.
  Variable wadf : bytes.
  Variable toc : option bytes.
  Notation rd w := (read_data gunzip unzstd xxh3 wadf w toc).

  Lemma read_step (w : wfile) pl f o pl' f' :
    run (catch (sys (fun f => rmap (fun d => (d, f)) (rd w)))
           (fun e => match e with MalformedSubchunkError _ => Ret None | _ => Rai e end)) pl f = (o, pl', f') ->
    f' = f /\ (forall d, o = Done (Some d) -> rd w = Ok (Some d)) /\
    (failures pl = 0%nat -> forall d, rd w = Ok (Some d) -> o = Done (Some d)).
  Proof.
    rewrite run_catch. intros E. unfold sys, sys_part in E. cbn [run] in E.
    destruct pl as [|[[e n|n]|] pl]; cbn [run] in E.
    - destruct (rd w) as [d|e]; cbn [rmap run] in E.
      + injection E as <- _ <-. split; [reflexivity|]. split; intros; congruence.
      + destruct e; cbn [run] in E; injection E as <- _ <-; (split; [reflexivity|]; split; intros; congruence).
    - destruct e; cbn [run] in E; injection E as <- _ <-; (split; [reflexivity|]; split; [intros; congruence | discriminate]).
    - injection E as <- _ <-. split; [reflexivity|]. split; [intros; congruence | discriminate].
    - destruct (rd w) as [d|e]; cbn [rmap run] in E.
      + injection E as <- _ <-. split; [reflexivity|]. split; intros; congruence.
      + destruct e; cbn [run] in E; injection E as <- _ <-; (split; [reflexivity|]; split; intros; congruence).
  Qed.

  Lemma entry_run w s pl f o pl' f' : ready cwd s f ->
    run (extract_entry gunzip unzstd xxh3 cwd wadf toc w s) pl f = (o, pl', f') ->
    (only_file (target cwd s) f f' /\ ready cwd s f') /\
    ((forall d, rd w <> Ok (Some d)) -> f' = f) /\
    (failures pl = 0%nat -> o = Done tt -> forall d, rd w = Ok (Some d) -> look f' (target cwd s) = Some (NFile d)).
  Proof.
    intros Hr E. unfold extract_entry in E. rewrite run_bind in E.
    match type of E with context [run ?p pl f] => destruct (run p pl f) as [[o1 pl1] f1] eqn:E1 end.
    pose proof E1 as E0. apply read_step in E1 as (-> & H1 & H2).
    destruct o1 as [[d|]|e|].
    - specialize (H1 d eq_refl). apply ready_winv in Hr as [Hs Hi]. rewrite run_catch in E.
      destruct (run (write_file_or_remove cwd s (fun h => fwrite h d)) pl1 f) as [[o2 pl2] f2] eqn:E2.
      assert (Hsafe : forall Q : unit -> Prop, (forall a, Q a) -> safe (winv cwd s) (fun f f' => only_file (target cwd s) f f') Q (fwrite (target cwd s) d)).
      { intros Q HQ. eapply (safe_weaken _ _ (fun _ => True)); [auto | apply fwrite_safe; exact Hs]. }
      pose proof E2 as E3. eapply (safe_run _ _ (only_file_refl _) (only_file_trans _)) in E3 as (H3 & I3 & _);
        [|apply (wfr_safe cwd s Hs (fun _ => True)); apply Hsafe; auto | exact Hi].
      assert (f' = f2 /\ (o = Done tt -> o2 = Done tt \/ exists n, o2 = Raised (OSError n) /\ (n = EINVAL \/ n = ENAMETOOLONG))) as [-> Ho].
      { destruct o2 as [[]|e|]; [injection E as <- <- <-; auto | | injection E as <- <- <-; split; [reflexivity | discriminate]].
        destruct e; cbn [run] in E; try (injection E as <- <- <-; split; [reflexivity | discriminate]).
        destruct e; cbn [run] in E; injection E as <- <- <-; (split; [reflexivity|]); try discriminate; intros _; right; eexists; (split; [reflexivity | auto]). }
      split; [split; [exact H3 | apply winv_ready; assumption]|]. split; [intros H; exfalso; exact (H d H1)|].
      intros Hp Hdone d' Hd. assert (d' = d) as -> by congruence. destruct (Ho Hdone) as [->|(n & -> & Hn)].
      + apply (wfr_done cwd s Hs) in E2 as (pl3 & f3 & pl4 & El & _ & _ & E2); [|exact Hi | exact Hsafe].
        apply run_fwrite in E2. subst f2. unfold f_append. rewrite El. apply look_put_same. apply target_nonempty. assumption.
      + exfalso. apply (natural_run lookup_error) in E2.
        * destruct Hn as [-> | ->]; exact E2.
        * apply natural_wfr; [auto|]. intros h. apply natural_fwrite.
        * eapply run_failures0; [exact E0 | exact Hp].
    - cbn [run] in E. injection E as <- <- <-. split; [split; [apply only_file_refl | assumption]|]. split; [reflexivity|].
      intros Hp _ d Hd. specialize (H2 Hp d Hd). discriminate.
    - cbn [run] in E. injection E as <- <- <-. split; [split; [apply only_file_refl | assumption]|]. split; [reflexivity | discriminate].
    - injection E as <- <- <-. split; [split; [apply only_file_refl | assumption]|]. split; [reflexivity | discriminate].
  Qed.

  Variable output : str.
  Notation dest := (dest cwd output).
  Notation good := (good cwd output).
  Definition has_data (w : wfile) : Prop := exists d, rd w = Ok (Some d).

  Lemma exists_ready s f : ready cwd s f -> f_exists cwd s f = true <-> look f (target cwd s) <> None.
  Proof.
    intros Hr. apply ready_winv in Hr as [Hs Hi]. unfold f_exists. split.
    - destruct (locate cwd f true s) as [p|] eqn:E; cbn [node_of]; [|discriminate].
      apply locate_t in E as [-> _]; [|assumption | apply Hi]. destruct (look f (target cwd s)); [discriminate|discriminate].
    - intros H. rewrite (locate_ok cwd s Hs f true Hi H). cbn [node_of]. destruct (look f (target cwd s)); [reflexivity | congruence].
  Qed.

  Lemma step_run ow w pl f o pl' f' : good f w ->
    run (extract_step gunzip unzstd xxh3 cwd wadf toc output ow w) pl f = (o, pl', f') ->
    only_file (dest w) f f' /\ good f' w /\ (forall w2, good f w2 -> good f' w2) /\ ((~ has_data w) -> f' = f) /\
    (ow = false -> look f (dest w) <> None -> f' = f) /\
    (failures pl = 0%nat -> o = Done tt -> (ow = true \/ look f (dest w) = None) -> forall d, rd w = Ok (Some d) -> look f' (dest w) = Some (NFile d)).
  Proof.
    intros (p & Hp & Hr) E. unfold extract_step in E. unfold WadExtractSpec.dest. rewrite Hp in E |- *.
    assert (Hself : forall f, (exists q, w_path w = Some q /\ ready cwd (path_join output q) f) <-> ready cwd (path_join output p) f).
    { intros g. split; [intros (q & Eq & H); congruence | intros H; exists p; auto]. }
    assert (Hun : f' = f -> only_file (target cwd (path_join output p)) f f' /\ good f' w /\ (forall w2, good f w2 -> good f' w2) /\ (~ has_data w -> f' = f)).
    { intros ->. split; [apply only_file_refl|]. split; [apply Hself; assumption|]. auto. }
    assert (Hgo : forall pl1, (failures pl = 0%nat -> failures pl1 = 0%nat) -> run (extract_entry gunzip unzstd xxh3 cwd wadf toc w (path_join output p)) pl1 f = (o, pl', f') ->
      only_file (target cwd (path_join output p)) f f' /\ good f' w /\ (forall w2, good f w2 -> good f' w2) /\ (~ has_data w -> f' = f) /\
      (failures pl = 0%nat -> o = Done tt -> forall d, rd w = Ok (Some d) -> look f' (target cwd (path_join output p)) = Some (NFile d))).
    { intros pl1 Hpl E1. apply entry_run in E1 as ((H1 & H2) & H3 & H4); [|assumption].
      split; [exact H1|]. split; [apply Hself; exact H2|]. split; [|split; [|intros Hp0; apply H4; auto]].
      - intros w2 (q & Hq & Hr2). exists q. split; [exact Hq|]. exact (ready_only _ _ _ _ _ Hr H2 H1 Hr2).
      - intros Hn. apply H3. intros d Hd. apply Hn. exists d. exact Hd. }
    destruct ow; rewrite ?run_bind in E; cbn [bind] in E.
    - apply Hgo in E as (H1 & H2 & H3 & H4 & H5); [|auto]. do 4 (split; [assumption|]). split; [discriminate|]. intros; eapply H5; eassumption.
    - destruct (run (exists_ cwd (path_join output p)) pl f) as [[o1 pl1] f1] eqn:E1. pose proof E1 as E0.
      unfold exists_ in E1. apply run_query_fs in E1 as [-> [->| ->]].
      + destruct (f_exists cwd (path_join output p) f) eqn:Ex.
        * apply exists_ready in Ex; [|assumption]. cbn [run] in E. injection E as <- <- <-. destruct (Hun eq_refl) as (H1 & H2 & H3 & H4).
          do 4 (split; [assumption|]). split; [reflexivity|]. intros _ _ [H|H]; [discriminate | contradiction].
        * apply Hgo in E as (H1 & H2 & H3 & H4 & H5); [|intros Hpl; eapply run_failures0; eassumption].
          do 4 (split; [assumption|]). split; [|intros; eapply H5; eassumption].
          intros _ Hx. apply exists_ready in Hx; [congruence | assumption].
      + injection E as <- <- <-. destruct (Hun eq_refl) as (H1 & H2 & H3 & H4). do 4 (split; [assumption|]). split; [reflexivity | discriminate].
  Qed.

  Notation go ow l := (for_each l (extract_step gunzip unzstd xxh3 cwd wadf toc output ow)).

  Lemma only_files_trans (T : path -> Prop) a b c : only_files T a b -> only_files T b c -> only_files T a c.
  Proof.
    intros H1 H2 q. destruct (H1 q) as [E1|[E1|(E1 & E1' & B1)]]; [|auto|].
    - destruct (H2 q) as [E2|[E2|(E2 & E2' & B2)]]; [left; congruence | auto | right; right; rewrite <- E1; auto].
    - destruct (H2 q) as [E2|[E2|(E2 & E2' & B2)]]; [right; right; rewrite E2; auto | auto | congruence].
  Qed.
  Lemma only_files_mono (T T' : path -> Prop) a b : (forall t, T t -> T' t) -> only_files T a b -> only_files T' a b.
  Proof.
    intros H H1 q. destruct (H1 q) as [E|[E|(E & E' & t & B1 & B2)]]; [auto | auto | right; right].
    split; [assumption|]. split; [assumption|]. exists t. auto.
  Qed.
  Lemma only_file_files (T : path -> Prop) t a b : T t -> only_file t a b -> only_files T a b.
  Proof. intros HT H q. destruct (H q) as [E|[->|(E & E' & B)]]; [auto | auto |]. right. right. eauto. Qed.

  Lemma loop_frame ow : forall l pl f o pl' f', Forall (good f) l -> run (go ow l) pl f = (o, pl', f') ->
    only_files (fun t => exists w, In w l /\ has_data w /\ t = dest w) f f' /\ (forall w, good f w -> good f' w).
  Proof.
    induction l as [|w l IH]; intros pl f o pl' f' Hg; cbn [for_each].
    - cbn [run]. intros E. injection E as <- <- <-. split; [intros q; auto | auto].
    - rewrite run_bind. destruct (run _ pl f) as [[o1 pl1] f1] eqn:E1. inversion Hg as [|? ? Hw Hl]; subst.
      apply step_run in E1 as (H1 & H2 & H3 & H4 & _); [|assumption].
      assert (HF : only_files (fun t => exists w0, In w0 (w :: l) /\ has_data w0 /\ t = dest w0) f f1).
      { destruct (rd w) as [[d|]|] eqn:Er;
          [|rewrite H4 by (intros [d Hd]; congruence); intros q; auto | rewrite H4 by (intros [d Hd]; congruence); intros q; auto].
        apply (only_file_files _ (dest w)); [|assumption]. exists w. split; [left; reflexivity|]. split; [exists d; assumption | reflexivity]. }
      destruct o1 as [u|e|]; intros E; [|injection E as <- <- <-; auto | injection E as <- <- <-; auto].
      apply IH in E as [H5 H6]; [|eapply Forall_impl; [exact H3 | exact Hl]]. split; [|auto].
      eapply only_files_trans; [exact HF|]. eapply only_files_mono; [|exact H5]. cbn beta.
      intros t (w' & Hi & Hd & Ht). exists w'. split; [right; assumption | auto].
  Qed.

  (** What exists is never turned into something else by a run without overwriting. *)
  Lemma loop_keeps : forall l pl f o pl' f' q, Forall (good f) l -> run (go false l) pl f = (o, pl', f') ->
    look f q <> None -> look f' q = look f q.
  Proof.
    induction l as [|w l IH]; intros pl f o pl' f' q Hg; cbn [for_each].
    - cbn [run]. intros E. injection E as <- <- <-. auto.
    - rewrite run_bind. destruct (run _ pl f) as [[o1 pl1] f1] eqn:E1. inversion Hg as [|? ? Hw Hl]; subst.
      apply step_run in E1 as (H1 & H2 & H3 & H4 & H5 & _); [|assumption]. intros E Hq.
      assert (Hq1 : look f1 q = look f q).
      { destruct (H1 q) as [H|[->|(H & _)]]; [assumption | | contradiction]. rewrite H5; auto. }
      destruct o1 as [u|e|]; [|injection E as <- <- <-; auto | injection E as <- <- <-; auto].
      eapply IH in E; [rewrite E; exact Hq1 | eapply Forall_impl; [exact H3 | exact Hl] | congruence].
  Qed.
  (** Files stay files of the same content where no later entry is written. *)
  Lemma loop_other ow : forall l pl f o pl' f' q d, Forall (good f) l -> run (go ow l) pl f = (o, pl', f') ->
    look f q = Some (NFile d) -> (forall w, In w l -> has_data w -> dest w <> q) -> look f' q = Some (NFile d).
  Proof.
    intros l pl f o pl' f' q d Hg E Hq Hn. apply loop_frame in E as [HF _]; [|assumption].
    destruct (HF q) as [H|[(w & Hi & Hd & Ht)|(H & _)]]; [congruence | exfalso; eapply Hn; eauto | congruence].
  Qed.
  Lemma loop_content : forall l1 w l2 pl f pl' f' d, Forall (good f) (l1 ++ w :: l2) -> failures pl = 0%nat ->
    run (go true (l1 ++ w :: l2)) pl f = (Done tt, pl', f') -> rd w = Ok (Some d) ->
    (forall w', In w' l2 -> has_data w' -> dest w' <> dest w) -> look f' (dest w) = Some (NFile d).
  Proof.
    induction l1 as [|w1 l1 IH]; intros w l2 pl f pl' f' d Hg Hp; cbn [app for_each]; rewrite run_bind;
      destruct (run _ pl f) as [[o1 pl1] f1] eqn:E1; cbn [app] in Hg; inversion Hg as [|? ? Hw Hl]; subst; intros E Hd Hn;
      (destruct o1 as [[]|e|]; try discriminate); pose proof E1 as E0; apply step_run in E1 as (H1 & H2 & H3 & H4 & _ & H5); try assumption.
    - eapply loop_other; [eapply Forall_impl; [exact H3 | exact Hl] | exact E | apply H5; auto | exact Hn].
    - eapply IH; [eapply Forall_impl; [exact H3 | exact Hl] | eapply run_failures0; [exact E0 | exact Hp] | exact E | exact Hd | exact Hn].
  Qed.
  Lemma loop_content_keep : forall l1 w l2 pl f pl' f' d, Forall (good f) (l1 ++ w :: l2) -> failures pl = 0%nat ->
    run (go false (l1 ++ w :: l2)) pl f = (Done tt, pl', f') -> rd w = Ok (Some d) -> look f (dest w) = None ->
    (forall w', In w' l1 -> has_data w' -> ~ below (dest w') (dest w)) -> look f' (dest w) = Some (NFile d).
  Proof.
    induction l1 as [|w1 l1 IH]; intros w l2 pl f pl' f' d Hg Hp; cbn [app for_each]; rewrite run_bind;
      destruct (run _ pl f) as [[o1 pl1] f1] eqn:E1; cbn [app] in Hg; inversion Hg as [|? ? Hw Hl]; subst; intros E Hd Hno Hn;
      (destruct o1 as [[]|e|]; try discriminate); pose proof E1 as E0; apply step_run in E1 as (H1 & H2 & H3 & H4 & _ & H5); try assumption.
    - specialize (H5 Hp eq_refl (or_intror Hno) d Hd).
      eapply loop_keeps in E; [rewrite E; exact H5 | eapply Forall_impl; [exact H3 | exact Hl] | congruence].
    - eapply IH; [eapply Forall_impl; [exact H3 | exact Hl] | eapply run_failures0; [exact E0 | exact Hp] | exact E | exact Hd | | intros; apply Hn; [right; assumption | assumption]].
      destruct (rd w1) as [[d1|]|] eqn:Er; [|rewrite H4 by (intros [x Hx]; congruence); assumption | rewrite H4 by (intros [x Hx]; congruence); assumption].
      assert (Hb : ~ below (dest w1) (dest w)) by (apply Hn; [left; reflexivity | exists d1; assumption]).
      destruct (H1 (dest w)) as [H|[H|(_ & _ & x & l & H)]]; [congruence | exfalso; apply Hb; rewrite H; apply below_refl | exfalso; apply Hb; exists (x :: l); exact H].
  Qed.
End P.
