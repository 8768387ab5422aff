(** * Proofs about the extraction of meshes *)

From Verif Require Import Base.Py Base.Text Base.Bin Base.PyFacts Base.TextFacts Base.PathFacts Base.Fs Spec.FsSpec Base.FsFacts Base.FsLinks Model.Files Proofs.FilesProofs Model.Skn Model.Convert Model.Cli Model.SknCli
  Spec.SknSpec Proofs.SknProofs Props.SknProps Spec.PatchCacheSpec Proofs.PatchCacheProofs Spec.SknCliSpec Proofs.ConvertProofs Proofs.SymlinksProofs Proofs.PatcherExtractProofs.

Section SknCli.
  Variable cwd : path.
  Variable rt : str.
  Notation R := (target cwd rt).
  Notation saved no := (let~ h := open_w cwd (obj_name rt (fst no)) in with_close (let~ b := lift (snd no) in fwrite h b)).
  Hypothesis Hrt : rt <> [].
  Hypothesis Hdd : ~ In dotdot (comps rt).

  Lemma obj_valid n : ~ In cSlash n -> valid_name (n ++ lit ".obj").
  Proof.
    intros Hn. split; [destruct n; discriminate|]. split; [intros E; apply (f_equal (@length _)) in E; rewrite app_length in E; cbn in E; lia|].
    split; [intros E; apply (f_equal (@length _)) in E; rewrite app_length in E; cbn in E; lia|]. rewrite in_app_iff. intros [H|H]; [contradiction | vm_compute in H; intuition discriminate].
  Qed.
  Lemma obj_plain n : ~ In cSlash n -> plain_path (obj_name rt n) /\ target cwd (obj_name rt n) = obj_at R n.
  Proof.
    intros Hn. destruct (obj_valid n Hn) as (N1 & N2 & N3 & N4). unfold obj_name, obj_at. set (x := n ++ lit ".obj") in *.
    assert (Ha : is_abs x = false) by (destruct x as [|c x']; [reflexivity|]; cbn [is_abs]; apply N.eqb_neq; intros ->; apply N4; left; reflexivity).
    assert (Ej : exists y, path_join rt x = y ++ cSlash :: x).
    { unfold path_join. replace (startswith x [cSlash]) with false.
      - replace (eqb rt []) with false by (symmetry; apply eqbF, Hrt). cbn [orb]. destruct (endswith rt [cSlash]) eqn:E; [|exists rt; reflexivity].
        apply endswith_iff in E as [r ->]. exists r. rewrite <- app_assoc. reflexivity.
      - destruct (startswith x [cSlash]) eqn:E0; [|reflexivity]. apply startswith_iff in E0 as [r E0]. rewrite E0 in Ha. discriminate Ha. }
    split; [|rewrite target_join by assumption; rewrite comps_one by assumption; reflexivity].
    split; [rewrite comps_join by exact Ha; rewrite (comps_one x) by assumption; rewrite in_app_iff; intros [H|[H|[]]]; [exact (Hdd H) | congruence]|].
    destruct Ej as [y ->]. rewrite basename_snoc by assumption. split; [apply dirname_snoc; assumption | auto].
  Qed.

  Variable names : list str.
  Hypothesis Hflat : flat_names names.
  Notation inv := (output_ready cwd rt names).
  Notation rel := (objs_only R names).
  Lemma rel_refl f : rel f f.
  Proof. intros q. left. reflexivity. Qed.
  Lemma rel_trans a b c : rel a b -> rel b c -> rel a c.
  Proof.
    intros H1 H2 q. destruct (H2 q) as [E2|[E2|(E2 & E2' & B2)]]; [|auto|].
    - destruct (H1 q) as [E1|[E1|(E1 & E1' & B1)]]; rewrite E2; auto.
    - destruct (H1 q) as [E1|[E1|(E1 & E1' & B1)]]; [right; right; rewrite <- E1; auto | auto | congruence].
  Qed.
  Lemma obj_above n : ~ below R (obj_at R n).
  Proof. intros [l E]. apply (f_equal (@length _)) in E. rewrite app_length in E. cbn [obj_at length] in E. lia. Qed.
  Lemma inv_winv n f : In n names -> inv f -> winv cwd (obj_name rt n) f.
  Proof.
    intros Hn Hi. split; [|split; [apply Hi | apply Hi]]. rewrite (proj2 (obj_plain n (Hflat n Hn))). intros q x [l E] Hl. destruct l as [|y l]; [cbn [app] in E; subst q; exact (or_files _ _ _ _ Hi n x Hn Hl)|].
    cbn [app] in E. injection E as _ E. apply (or_links _ _ _ _ Hi q x); [exists l; exact E | exact Hl].
  Qed.
  Lemma inv_step n f f' : In n names -> inv f -> winv cwd (obj_name rt n) f' -> only_file (obj_at R n) f f' -> rel f f' /\ inv f'.
  Proof.
    intros Hn Hi (W1 & W2 & W3) HO. rewrite (proj2 (obj_plain n (Hflat n Hn))) in W1. assert (HK : rel f f').
    { intros q. destruct (HO q) as [E|[->|(E1 & E2 & x & l & E3)]]; [auto | right; left; eauto|]. right. right. split; [exact E1|]. split; [exact E2|]. unfold obj_at in E3. injection E3 as _ E3. exists l. exact E3. }
    split; [exact HK|]. constructor; [exact W2 | exact W3 | exact Hdd | |].
    - intros q x Hq. apply W1. destruct Hq as [l E]. exists ((n ++ lit ".obj") :: l). unfold obj_at. cbn [app]. rewrite <- E. reflexivity.
    - intros m x Hm E. destruct (HO (obj_at R m)) as [E1|[E1|(_ & E1 & _)]]; [|rewrite E1 in E; exact (W1 _ x (below_refl _) E) | congruence]. rewrite E1 in E. exact (or_files _ _ _ _ Hi m x Hm E).
  Qed.
  Lemma saved_safe no : In (fst no) names -> safe inv rel (fun _ => True) (saved no).
  Proof.
    intros Hn. pose proof (Hflat _ Hn) as Hs. destruct (obj_plain (fst no) Hs) as [Hp Ht].
    apply (safe_refine (winv cwd (obj_name rt (fst no))) _ (fun f f' => only_file (target cwd (obj_name rt (fst no))) f f')).
    - intros f. apply inv_winv, Hn.
    - intros f f' Hi Hi' HO. rewrite Ht in HO. eapply inv_step; eassumption.
    - eapply safe_bind; [apply open_safe, Hp|]. intros h ->. apply with_close_safe. eapply (safe_bind _ _ (fun _ => True)); [apply safe_lift; auto|]. intros b _. apply fwrite_safe, Hp.
  Qed.
  Lemma all_saved_safe objs : incl (map fst objs) names -> safe inv rel (fun _ => True) (save_objs cwd rt objs).
  Proof. intros H. apply safe_for_each. intros no Hx. apply saved_safe, H, in_map, Hx. Qed.
  Lemma dirs_safe : safe inv rel (fun _ => True) (makedirs cwd rt).
  Proof.
    apply (safe_refine (dinv cwd R) _ (adds_dirs R)).
    - intros f Hi. split; [|split]; apply Hi.
    - intros f f' Hi (D1 & D2 & D3) HA. assert (HK : rel f f') by (intros q; destruct (HA q) as [E|(E1 & E2 & E3)]; auto). split; [exact HK|].
      constructor; [exact D2 | exact D3 | exact Hdd | exact D1|]. intros n x Hn E. destruct (HA (obj_at R n)) as [E1|(E1 & E2 & E3)]; [|congruence]. rewrite E1 in E. exact (or_files _ _ _ _ Hi n x Hn E).
    - apply makedirs_dinv, Hdd.
  Qed.

  (** ** Success *)
  Lemma saved_done n r pl f a pl' f' : In n names -> inv f -> run (saved (n, r)) pl f = (Done a, pl', f') ->
    exists b, r = Ok b /\ look f' (obj_at R n) = Some (NFile b) /\ forall q, q <> obj_at R n -> look f' q = look f q.
  Proof.
    intros Hn Hi. destruct (obj_plain n (Hflat n Hn)) as [Hp Ht]. pose proof (inv_winv n f Hn Hi) as Hwi. cbn [fst snd]. rewrite <- Ht. set (s := obj_name rt n) in *.
    rewrite run_bind. destruct (run (open_w cwd s) pl f) as [[[h|e|] pl1] f1] eqn:E1; try discriminate. apply run_sys_done in E1. unfold f_open_w in E1. apply rbind_Ok in E1 as (p & Ep & E1).
    apply (locate_t cwd s Hp) in Ep as [-> _]; [|apply Hwi]. assert (h = target cwd s /\ f1 = put (target cwd s) (NFile []) f) as [-> ->] by (destruct (look f (target cwd s)) as [[| |]|]; try discriminate; injection E1 as <- <-; auto).
    intros E. apply close_done in E as (pl2 & E). rewrite run_bind in E. destruct r as [b|e]; cbn [lift run] in E; [|discriminate]. exists b. split; [reflexivity|]. pose proof E as E2. apply write_done in E2; [|exact Hp | apply look_put_same, target_nonempty, Hp].
    split; [exact E2|]. intros q Hq. apply run_fwrite in E as ->. unfold f_append. rewrite look_put_same by (apply target_nonempty, Hp). rewrite !look_put_other by exact Hq. reflexivity.
  Qed.
  Lemma obj_at_neq n m : n <> m -> obj_at R n <> obj_at R m.
  Proof. intros H E. injection E as E. apply app_inv_tail in E. contradiction. Qed.
  Lemma all_saved_done : forall objs pl f a pl' f', incl (map fst objs) names -> inv f -> run (save_objs cwd rt objs) pl f = (Done a, pl', f') ->
    inv f' /\ (forall l1 n r l2, objs = l1 ++ (n, r) :: l2 -> ~ In n (map fst l2) -> exists b, r = Ok b /\ look f' (obj_at R n) = Some (NFile b))
    /\ (forall n r, In (n, r) objs -> exists b, r = Ok b)
    /\ forall q, (forall n, In n (map fst objs) -> q <> obj_at R n) -> look f' q = look f q.
  Proof.
    induction objs as [|[n r] objs IH]; intros pl f a pl' f' Hn Hi; unfold save_objs; cbn [for_each].
    - cbn [run]. intros E. injection E as _ _ <-. split; [exact Hi|]. split; [intros [|? ?]; discriminate|]. split; [intros n r [] | reflexivity].
    - rewrite run_bind. destruct (run (saved (n, r)) pl f) as [[[u|e|] pl1] f1] eqn:E1; try discriminate. pose proof E1 as E2.
      assert (Hn1 : In n names) by (apply Hn; left; reflexivity).
      eapply (safe_run _ _ rel_refl rel_trans) in E2 as (_ & Hi1 & _); [|apply saved_safe; exact Hn1 | exact Hi]. apply saved_done in E1 as (b & -> & H1 & H2); [|assumption..].
      intros E. apply IH in E as (G0 & G1 & G3 & G2); [|intros m Hm; apply Hn; right; exact Hm | exact Hi1]. split; [exact G0|]. split; [|split].
      + intros [|x l1] m r l2 Eo Hm.
        * cbn [app] in Eo. injection Eo as E1 E2 E3. subst m r l2. exists b. split; [reflexivity|]. rewrite G2; [exact H1|]. intros k Hk. apply obj_at_neq. intros ->. contradiction.
        * cbn [app] in Eo. injection Eo as _ Eo. exact (G1 l1 m r l2 Eo Hm).
      + intros m r [E0|Hm]; [injection E0 as _ <-; eauto | exact (G3 m r Hm)].
      + intros q Hq. cbn [map fst] in Hq. rewrite G2, H2; [reflexivity | apply Hq; left; reflexivity | intros k Hk; apply Hq; right; exact Hk].
  Qed.
  (** ** Without failures *)
  Definition free (f : fs) : Prop := look f R = Some NDir /\ forall n, In n names -> look f (obj_at R n) <> Some NDir.
  Lemma open_total n f : In n names -> inv f -> free f -> run (open_w cwd (obj_name rt n)) [] f = (Done (obj_at R n), [], put (obj_at R n) (NFile []) f).
  Proof.
    intros Hn Hi [H1 H2]. destruct (obj_plain n (Hflat n Hn)) as [Hp Ht]. pose proof (inv_winv n f Hn Hi) as (W1 & W2 & W3).
    assert (El : locate cwd f true (obj_name rt n) = Ok (obj_at R n)).
    { rewrite <- Ht. apply locate_plain; [apply plain_nonempty; assumption | apply Hp | exact W1|]. split; [reflexivity|].
      assert (Ec : comps (obj_name rt n) = comps rt ++ [n ++ lit ".obj"] /\ is_abs (obj_name rt n) = is_abs rt).
      { destruct (obj_valid n (Hflat n Hn)) as (N1 & N2 & N3 & N4). unfold obj_name. set (x := n ++ lit ".obj") in *.
        assert (Ha : is_abs x = false) by (destruct x as [|c x']; [reflexivity|]; cbn [is_abs]; apply N.eqb_neq; intros ->; apply N4; left; reflexivity).
        split; [rewrite comps_join by exact Ha; rewrite (comps_one x) by assumption; reflexivity|]. unfold path_join. destruct (startswith x [cSlash]) eqn:E0; [apply startswith_iff in E0 as [r E0]; rewrite E0 in Ha; discriminate Ha|].
        destruct rt as [|c r]; [congruence|]. destruct (_ || _); reflexivity. }
      destruct Ec as [-> ->]. apply dirs_to_snoc; [apply wf_dirs_to; [exact W2|]; intros E0; change (look f R = None) in E0; congruence | exact H1]. }
    assert (Eo : f_open_w cwd (obj_name rt n) f = Ok (obj_at R n, put (obj_at R n) (NFile []) f)); [|unfold open_w, sys, sys_part; cbn [run]; rewrite Eo; reflexivity]. unfold f_open_w. rewrite El. cbn [rbind]. specialize (H2 n Hn). destruct (look f (obj_at R n)) as [[| |]|]; try congruence; reflexivity.
  Qed.
  Lemma saved_total n r f : In n names -> inv f -> free f -> exists f', run (saved (n, r)) [] f = (match r with Ok _ => Done tt | Err e => Raised e end, [], f') /\ inv f' /\ free f' /\
    look f' (obj_at R n) = Some (NFile match r with Ok b => b | Err _ => [] end) /\ forall q, q <> obj_at R n -> look f' q = look f q.
  Proof.
    intros Hn Hi Hf. cbn [fst snd].
    assert (E : exists f', run (saved (n, r)) [] f = (match r with Ok _ => Done tt | Err e => Raised e end, [], f') /\ look f' (obj_at R n) = Some (NFile match r with Ok b => b | Err _ => [] end) /\ forall q, q <> obj_at R n -> look f' q = look f q).
    { cbn [fst snd]. rewrite run_bind, (open_total n f Hn Hi Hf). unfold with_close. rewrite run_bind, run_catch, run_bind. destruct r as [b|e]; cbn [lift run].
      - unfold fwrite, fclose, sys, sys_part. cbn [bind run]. eexists. split; [reflexivity|]. unfold f_append. rewrite look_put_same by discriminate. cbn [app]. split; [apply look_put_same; discriminate|]. intros q Hq. rewrite !look_put_other by exact Hq. reflexivity.
      - unfold fclose, sys, sys_part. cbn [bind run]. eexists. split; [reflexivity|]. split; [apply look_put_same; discriminate|]. intros q Hq. rewrite look_put_other by exact Hq. reflexivity. }
    destruct E as (f' & E & H1 & H2). exists f'. split; [exact E|].
    eapply (safe_run _ _ rel_refl rel_trans) in E as (_ & Hi1 & _); [|apply saved_safe; exact Hn | exact Hi]. split; [exact Hi1|]. split; [|auto]. destruct Hf as [F1 F2]. split.
    - rewrite H2; [exact F1|]. intros E. apply (obj_above n). rewrite <- E. apply below_refl.
    - intros m Hm. destruct (eqbP (obj_at R m) (obj_at R n)) as [E|E]; [rewrite E, H1; discriminate | rewrite H2; [apply F2, Hm | exact E]].
  Qed.
  Lemma all_saved_total : forall objs f, incl (map fst objs) names -> inv f -> free f -> (forall n r, In (n, r) objs -> exists b, r = Ok b) ->
    exists f', run (save_objs cwd rt objs) [] f = (Done tt, [], f') /\ inv f' /\ free f'.
  Proof.
    induction objs as [|[n r] objs IH]; intros f Hn Hi Hf Hok; unfold save_objs; cbn [for_each].
    - cbn [run]. eauto.
    - destruct (Hok n r (or_introl eq_refl)) as [b ->]. destruct (saved_total n (Ok b) f) as (f1 & E1 & Hi1 & Hf1 & _); [apply Hn; left; reflexivity | assumption..|].
      rewrite run_bind, E1. apply IH; [intros m Hm; apply Hn; right; exact Hm | assumption..|]. intros m r Hm. apply (Hok m r). right. exact Hm.
  Qed.
  Lemma all_saved_stops l1 n e l2 f : incl (map fst (l1 ++ (n, Err e) :: l2)) names -> inv f -> free f -> (forall m r, In (m, r) l1 -> exists b, r = Ok b) ->
    exists f1 f', run (save_objs cwd rt l1) [] f = (Done tt, [], f1) /\ run (save_objs cwd rt (l1 ++ (n, Err e) :: l2)) [] f = (Raised e, [], f') /\
      look f' (obj_at R n) = Some (NFile []) /\ forall q, q <> obj_at R n -> look f' q = look f1 q.
  Proof.
    intros Hn Hi Hf Hok. rewrite map_app in Hn. destruct (all_saved_total l1 f) as (f1 & E1 & Hi1 & Hf1); [intros m Hm; apply Hn, in_or_app; left; exact Hm | assumption..|].
    destruct (saved_total n (Err e) f1) as (f2 & E2 & _ & _ & H1 & H2); [apply Hn, in_or_app; right; left; reflexivity | assumption..|]. exists f1, f2. split; [exact E1|]. split; [|auto].
    clear -E1 E2. revert f E1. unfold save_objs. induction l1 as [|x l1 IH]; intros f E1.
    - cbn [for_each run app] in *. injection E1 as ->. rewrite run_bind, E2. reflexivity.
    - cbn [for_each app] in *. rewrite run_bind in *. destruct (run _ [] f) as [[[[]|e'|] pl1] f3] eqn:E3; try discriminate. destruct (run_nil_plan (saved x) f) as (o & f4 & E4). rewrite E4 in E3. injection E3 as -> <- ->. apply IH, E1.
  Qed.
End SknCli.

(** ** Texts *)
Lemma triangles_split e : (exists fs, triangles e fs) \/ lenN (e_indices e) mod 3 <> 0.
Proof.
  unfold triangles. destruct (faces_split (e_indices e)) as [(fs & E)|[_ H]]; [|auto]. left. exists fs. rewrite E. clear. induction fs as [|[[a b] c] fs IH]; [reflexivity|]. cbn [flat_map l3 fst snd]. rewrite IH. reflexivity.
Qed.
Lemma submesh_text_iff show e t : to_obj show e = Ok t <-> submesh_text show e t.
Proof.
  split.
  - intros E. destruct (triangles_split e) as [[fs H]|H]; [|apply (C33_obj_triangles show) in H; congruence]. exists fs. split; [exact H|]. rewrite (C33_obj_words show e fs H) in E. injection E as <-. reflexivity.
  - intros (fs & H & ->). apply C33_obj_words, H.
Qed.
Lemma mesh_at_iff cwd f s k : mesh_at cwd f s k <-> exists data, has_content cwd f s data /\ prun parse_skn data = Ok k.
Proof.
  split.
  - intros (data & x & rest & H1 & H2 & H3 & H4). exists data. split; [exact H1|]. apply skn_iff. eauto.
  - intros (data & H1 & H2). apply skn_iff in H2 as (x & rest & H2 & H3 & H4). exists data, x, rest. auto.
Qed.
