(** * Runs of conversions and exports *)

From Verif Require Import Base.Py Base.Text Base.PyFacts Base.TextFacts Base.PathFacts Base.Fs Base.FsDir Spec.FsSpec Base.FsFacts Model.Files Proofs.FilesProofs Base.FsLinks Base.FsTree Base.FsTreeFacts
  Model.Wad Model.Tex Model.Exporter Model.Convert Spec.ConvertSpec Proofs.WadPathProofs Proofs.WadExtractProofs Proofs.ReleasesProofs Proofs.ConvertProofs.

Section Run.
Variable cd : codecs.
Variable cwd : path.
Variable output : str.
Notation at_out := (at_out cwd output).

Lemma json_text p : path_join output (p ++ lit ".json") = path_join output p ++ lit ".json".
Proof. apply path_join_app. right. reflexivity. Qed.
Lemma json_apart p f : ready cwd (path_join output p) f -> ready cwd (path_join output (p ++ lit ".json")) f -> target cwd (path_join output p) <> target cwd (path_join output p ++ lit ".json").
Proof.
  intros [H1 _] [H2 _]. rewrite json_text in H2. apply not_eq_sym, apart_neq, target_suffix_apart; [exact H1 | exact H2 | vm_compute; intuition discriminate | discriminate].
Qed.
Lemma stem_text p : path_join output p = path_join output (stem p) ++ snd (splitext p).
Proof.
  rewrite (stem_ext p) at 1. apply path_join_app. right. destruct (snd (splitext p)) as [|c x] eqn:E; [reflexivity|]. cbn. rewrite Bool.andb_true_r. apply eqbF. intros ->. apply (ext_no_slash p). rewrite E. left. reflexivity.
Qed.
Lemma stem_apart p f : ready cwd (path_join output p) f -> ready cwd (path_join output (stem p)) f -> stem p <> p -> apart (target cwd (path_join output p)) (target cwd (path_join output (stem p))).
Proof.
  intros [H1 _] [H2 _] Hne. rewrite stem_text in H1 |- *. apply target_suffix_apart; [exact H2 | exact H1 | apply ext_no_slash|]. intros E. apply Hne. rewrite (stem_ext p) at 2. rewrite E, app_nil_r. reflexivity.
Qed.
Lemma stem_obj p n : plain_path (path_join output (stem p)) -> ~ In cSlash n -> at_out (stem p ++ lit "/" ++ n ++ lit ".obj") = (n ++ lit ".obj") :: target cwd (path_join output (stem p)).
Proof.
  intros Hp Hn. destruct (obj_text cwd (path_join output (stem p)) Hp n Hn) as [_ <-]. unfold obj_name, ConvertSpec.at_out. f_equal.
  assert (Hne : stem p <> []).
  { intros E. rewrite E in Hp. unfold path_join in Hp. cbn [startswith] in Hp. destruct Hp as (_ & H1 & H2 & _). destruct (eqb output []) eqn:E1; cbn [orb] in *.
    - apply (proj1 (eqbT output [])) in E1. apply H1. rewrite E1. reflexivity.
    - destruct (endswith output [cSlash]) eqn:E2; [apply endswith_iff in E2 as [r E2]; apply H2; rewrite E2, app_nil_r | apply H2; cbn [app]]; rewrite basename_cut, cut_last_app by (intros []); reflexivity. }
  rewrite (path_join_app output (stem p)) by (left; exact Hne). set (rt := path_join output (stem p)) in *. unfold path_join at 1.
  assert (E1 : startswith (n ++ lit ".obj") [cSlash] = false) by (destruct n as [|c n]; [reflexivity|]; cbn; rewrite Bool.andb_true_r; apply eqbF; intros ->; apply Hn; left; reflexivity). rewrite E1.
  assert (E2 : eqb rt [] = false) by (apply eqbF; intros E; destruct Hp as (_ & H & _); rewrite E in H; apply H; reflexivity). rewrite E2. cbn [orb].
  assert (E3 : endswith rt [cSlash] = false); [|rewrite E3; reflexivity].
  destruct (endswith rt [cSlash]) eqn:E0; [|reflexivity]. apply endswith_iff in E0 as [r E0]. exfalso. destruct Hp as (_ & _ & H & _). apply H. rewrite E0, basename_cut, cut_last_app by (intros []). reflexivity.
Qed.

(** ** Frame of one conversion *)

Lemma inv_conv T (W : str -> Prop) (B : path -> Prop) c p f : (forall q, In q (converted_paths c p) -> W (path_join output q)) -> (c = SknConv -> forall q, below q (at_out (stem p)) -> B q) -> conv_ready cwd output c p f ->
  forall f', inv cwd B W f' -> only_files T f f' -> conv_ready cwd output c p f'.
Proof.
  intros H1 H2 [_ H4] f' [I1 I2] _. split; [intros q Hq; apply I1, H1, Hq|]. intros Hc. destruct (H4 Hc) as (G1 & G2 & _). split; [exact G1|]. split; [exact G2|]. intros q t Hq. apply I2, (H2 Hc q Hq).
Qed.
Lemma convert_frame c p fin data pl f o pl' f' : conv_ready cwd output c p f -> (c = SknConv -> plain_names cd) -> source_of fin data -> run (convert cd cwd c fin output p) pl f = (o, pl', f') ->
  only_files (conv_at cwd output c p) f f' /\ conv_ready cwd output c p f'.
Proof.
  intros Hr Hn Hf E. pose proof Hr as [Hr1 Hr2].
  set (W := fun s => exists q, In q (converted_paths c p) /\ s = path_join output q). set (B := fun q : path => c = SknConv /\ below q (at_out (stem p))).
  assert (HT : forall s, W s -> conv_at cwd output c p (target cwd s)) by (intros s (q & Hq & ->); exists q; auto).
  assert (Hw : writes cd cwd (conv_at cwd output c p) B W output c p).
  { split; [intros q Hq; split; [exists q; auto | apply (Hr1 q Hq)]|]. intros Hc. destruct (Hr2 Hc) as (G1 & G2 & G3). split; [|auto]. intros q Hq. split; [|split; assumption]. exists (stem p). split; [rewrite Hc; right; left; reflexivity | auto]. }
  assert (Hi : inv cwd B W f) by (split; [intros s (q & Hq & ->); apply Hr1, Hq | intros q t [Hc Hq]; destruct (Hr2 Hc) as (_ & _ & G3); apply G3, Hq]).
  destruct (framed_convert cd cwd (conv_at cwd output c p) B W HT output c p fin data Hf Hw pl f o pl' f' Hi E) as [HO Hi']. split; [exact HO|].
  eapply (inv_conv (conv_at cwd output c p) W B); [intros q Hq; exists q; auto | intros Hc q Hq; split; assumption | exact Hr | exact Hi' | exact HO].
Qed.

(** ** Result of one conversion *)

Lemma ready_kinv p f : conv_ready cwd output SknConv p f -> kinv cwd (path_join output (stem p)) f.
Proof. intros [H1 H2]. split; [apply ready_winv, H1; right; left; reflexivity|]. destruct (H2 eq_refl) as (_ & _ & H3). exact H3. Qed.
Lemma copy_ready p fin data pl f o pl' f' : conv_ready cwd output SknConv p f -> source_of fin data -> run (copy_to cwd fin (path_join output p)) pl f = (o, pl', f') -> conv_ready cwd output SknConv p f'.
Proof.
  intros Hr Hf E. pose proof Hr as [H1 H2]. destruct (H2 eq_refl) as (G1 & G2 & G3). pose proof (H1 p (or_introl eq_refl)) as R1. pose proof (H1 (stem p) (or_intror (or_introl eq_refl))) as R2. apply (wfr_step cwd) in E as [HO R1']; [|exact R1 | exact (copy_body cwd _ fin data (proj1 R1) Hf)].
  split; [intros q Hq; apply (ready_only cwd (path_join output p) _ f f'); auto|]. intros _. split; [exact G1|]. split; [exact G2|]. intros q t Hq Ex.
  destruct (HO q) as [E0|[->|(_ & E0 & _)]]; [apply (G3 q t Hq); congruence | | congruence]. apply (proj1 (stem_apart p f R1 R2 G1)), Hq.
Qed.
Lemma convert_done c p fin data pl f a pl' f' : conv_ready cwd output c p f -> (c = SknConv -> plain_names cd) -> source_of fin data -> run (convert cd cwd c fin output p) pl f = (Done a, pl', f') ->
  converted_to cd c data p (has_file cwd output f') (has_dir cwd output f').
Proof.
  intros Hr Hn Hf. pose proof Hr as [Hr1 Hr2]. destruct c as [exts| |r|r| |r| |]; cbn [convert converted_paths converted_to In] in *.
  - intros E. apply (image_done cd cwd _ fin data) in E as (b & E & Hb); [exists b; auto | apply Hr1; auto | exact Hf].
  - rewrite run_bind. destruct (run fin pl f) as [[[d|x|] pl1] f1] eqn:E1; try discriminate. apply (source_run fin data _ _ _ _ _ Hf) in E1 as [-> ->]. rewrite run_bind. destruct (tex_to_dds data) as [dds|x]; cbn [lift run]; [|discriminate].
    intros E. apply (image_done cd cwd _ (Ret dds) dds) in E as (b & E & Hb); [exists dds, b; auto | apply Hr1; auto | left; reflexivity].
  - intros E. rewrite <- json_text in E. apply (json_done cwd _ _ fin data) in E as (b & E & Hb); [exists b; auto | apply Hr1; auto | exact Hf].
  - pose proof (Hr1 p (or_introl eq_refl)) as R1. pose proof (Hr1 _ (or_intror (or_introl eq_refl))) as R2. pose proof (json_apart p f R1 R2) as Hne. rewrite <- json_text in *.
    rewrite run_bind. destruct (run (copy_to cwd fin _) pl f) as [[[u|x|] pl1] f1] eqn:E1; try discriminate. pose proof E1 as E1'. apply (copy_done cwd _ fin data) in E1; [|assumption..].
    apply (wfr_step cwd) in E1' as [HO R1']; [|exact R1 | exact (copy_body cwd _ fin data (proj1 R1) Hf)]. pose proof (ready_only cwd _ _ f f1 R1 R1' HO R2) as R2'.
    intros E. pose proof E as E'. apply (bin_done cd cwd _ _ data) in E as (b & E & Hb); [|assumption..]. split; [|exists b; auto].
    apply (wfr_step cwd _ (bin_body cd cwd _)) in E' as [HO2 _]; [|exact R2' | exact (bin_ok cd cwd _ _ (proj1 R2))]. unfold has_file, ConvertSpec.at_out. rewrite (only_file_keeps _ _ _ _ HO2); [exact E1 | exact Hne | congruence].
  - pose proof (Hr1 p (or_introl eq_refl)) as R1. pose proof (Hr1 _ (or_intror (or_introl eq_refl))) as R2. destruct (Hr2 eq_refl) as (G1 & G2 & G3).
    rewrite run_bind. destruct (run (copy_to cwd fin _) pl f) as [[[u|x|] pl1] f1] eqn:E1; try discriminate. pose proof (copy_ready _ _ _ _ _ _ _ _ Hr Hf E1) as Hr'. apply (copy_done cwd _ fin data) in E1; [|assumption..].
    intros E. pose proof (proj1 Hr' p (or_introl eq_refl)) as R1'. pose proof (proj1 Hr' _ (or_intror (or_introl eq_refl))) as R2'.
    apply (skn_done cd cwd _ (proj1 R2) G2 (Hn eq_refl) _ data) in E as (E2 & E3 & objs & Eo & E4 & _); [|exact R1' | exact (stem_apart p f1 R1' R2' G1) | exact (ready_kinv p f1 Hr') | exact E1].
    split; [exact E2|]. split; [exact E3|]. exists objs. split; [exact Eo|]. intros l1 n r l2 El Hl. destruct (E4 l1 n r l2 El Hl) as (b & Hb & Hb2). exists b. split; [exact Hb|]. unfold has_file. rewrite stem_obj; [exact Hb2 | apply R2|].
    apply (Hn eq_refl data objs n r Eo). rewrite El. apply in_or_app. right. left. reflexivity.
  - pose proof (Hr1 p (or_introl eq_refl)) as R1. pose proof (Hr1 _ (or_intror (or_introl eq_refl))) as R2. pose proof (json_apart p f R1 R2) as Hne. rewrite <- json_text in *.
    rewrite run_bind. destruct (run (copy_to cwd fin _) pl f) as [[[u|x|] pl1] f1] eqn:E1; try discriminate. pose proof E1 as E1'. apply (copy_done cwd _ fin data) in E1; [|assumption..].
    apply (wfr_step cwd) in E1' as [HO R1']; [|exact R1 | exact (copy_body cwd _ fin data (proj1 R1) Hf)]. pose proof (ready_only cwd _ _ f f1 R1 R1' HO R2) as R2'.
    rewrite run_bind. destruct (run (read_file cwd _) pl1 f1) as [[[d|x|] pl2] f2] eqn:E2; try discriminate. apply (read_done cwd _ pl1 f1 data) in E2 as [-> ->]; [|apply R1 | apply (ready_winv _ _ _ R1') | exact E1].
    rewrite run_bind. destruct (cd_rst cd data) as [[pieces e]|x] eqn:Ep; cbn [lift run]; [|discriminate]. intros E. pose proof E as E'. apply (pieces_file cwd) in E as [-> E]; [|exact R2']. split; [|exists (concat pieces); split; [exists pieces; auto | exact E]].
    apply (wfr_step cwd) in E' as [HO2 _]; [|exact R2' | exact (pieces_ok cwd _ _ _ (proj1 R2))]. unfold has_file, ConvertSpec.at_out. rewrite (only_file_keeps _ _ _ _ HO2); [exact E1 | exact Hne | congruence].
  - intros E. rewrite <- json_text in E. apply (json_done cwd _ _ fin data) in E as (b & E & Hb); [exists b; auto | apply Hr1; auto | exact Hf].
  - intros E. apply (copy_done cwd _ fin data) in E; [exact E | apply Hr1; auto | exact Hf].
Qed.
(** Without failures, only the files of a skin are in its directory. *)
Lemma skn_exact p fin data pl f a pl' f' : conv_ready cwd output SknConv p f -> plain_names cd -> source_of fin data -> failures pl = 0%nat -> run (convert cd cwd SknConv fin output p) pl f = (Done a, pl', f') ->
  exists objs, cd_skn cd data = Ok objs /\ forall t, strictly_below t (at_out (stem p)) -> look f' t <> None -> exists n, In n (map fst objs) /\ t = at_out (stem p ++ lit "/" ++ n ++ lit ".obj").
Proof.
  intros Hr Hn Hf Hpl. pose proof Hr as [Hr1 Hr2]. cbn [convert converted_paths In] in *. pose proof (Hr1 p (or_introl eq_refl)) as R1. pose proof (Hr1 _ (or_intror (or_introl eq_refl))) as R2. destruct (Hr2 eq_refl) as (G1 & G2 & G3).
  rewrite run_bind. destruct (run (copy_to cwd fin _) pl f) as [[[u|x|] pl1] f1] eqn:E1; try discriminate. pose proof (copy_ready _ _ _ _ _ _ _ _ Hr Hf E1) as Hr'. pose proof (run_failures0 _ _ _ _ _ _ E1 Hpl) as Hp1. apply (copy_done cwd _ fin data) in E1; [|assumption..].
  intros E. pose proof (proj1 Hr' p (or_introl eq_refl)) as R1'. pose proof (proj1 Hr' _ (or_intror (or_introl eq_refl))) as R2'.
  apply (skn_done cd cwd _ (proj1 R2) G2 Hn _ data) in E as (_ & _ & objs & Eo & _ & E5); [|exact R1' | exact (stem_apart p f1 R1' R2' G1) | exact (ready_kinv p f1 Hr') | exact E1].
  exists objs. split; [exact Eo|]. intros t Ht Hl. destruct (E5 Hp1 t Ht Hl) as (n & Hin & ->). exists n. split; [exact Hin|]. symmetry. apply stem_obj; [apply R2|].
  apply in_map_iff in Hin as ([n' r] & En & Hin). cbn [fst] in En. subst n'. exact (Hn data objs n r Eo Hin).
Qed.
Lemma convert_fails c p fin data pl f e pl' f' : conv_ready cwd output c p f -> (c = SknConv -> plain_names cd) -> source_of fin data -> failures pl = 0%nat -> run (convert cd cwd c fin output p) pl f = (Raised e, pl', f') ->
  path_error e \/ conversion_fails cd c data p e (has_file cwd output f') (no_file cwd output f') (no_tree cwd output f').
Proof.
  intros Hr Hn Hf Hpl. pose proof Hr as [Hr1 Hr2]. destruct c as [exts| |r|r| |r| |]; cbn [convert converted_paths conversion_fails In] in *.
  - intros E. apply (image_fails cd cwd _ fin data) in E; [exact E | apply Hr1; auto | exact Hf | exact Hpl].
  - rewrite run_bind. destruct (run fin pl f) as [[[d|x|] pl1] f1] eqn:E1; [|intros _; exfalso; eapply source_fails; eassumption | discriminate]. pose proof (run_failures0 _ _ _ _ _ _ E1 Hpl) as Hp1. apply (source_run fin data _ _ _ _ _ Hf) in E1 as [-> ->].
    rewrite run_bind. destruct (tex_to_dds data) as [dds|x]; cbn [lift run]; [|intros E; injection E as <- _ _; auto].
    intros E. apply (image_fails cd cwd _ (Ret dds) dds) in E as [E|E]; [auto | right; right; exists dds; auto | apply Hr1; auto | left; reflexivity | exact Hp1].
  - intros E. rewrite <- json_text in E. apply (json_fails cwd _ _ fin data) in E; [exact E | apply Hr1; auto | exact Hf | exact Hpl].
  - pose proof (Hr1 p (or_introl eq_refl)) as R1. pose proof (Hr1 _ (or_intror (or_introl eq_refl))) as R2. pose proof (json_apart p f R1 R2) as Hne. rewrite <- json_text in *.
    rewrite run_bind. destruct (run (copy_to cwd fin _) pl f) as [[[u|x|] pl1] f1] eqn:E1; [| |discriminate]. 2: { intros E. injection E as <- _ _. left. exact (copy_fails cwd _ fin data _ _ _ _ _ R1 Hf Hpl E1). }
    pose proof (run_failures0 _ _ _ _ _ _ E1 Hpl) as Hp1. pose proof E1 as E1'. apply (copy_done cwd _ fin data) in E1; [|assumption..].
    apply (wfr_step cwd) in E1' as [HO R1']; [|exact R1 | exact (copy_body cwd _ fin data (proj1 R1) Hf)]. pose proof (ready_only cwd _ _ f f1 R1 R1' HO R2) as R2'.
    intros E. pose proof E as E'. apply (bin_fails cd cwd _ _ data) in E as [E|[E E3]]; [auto | | assumption..]. right. split; [exact E|]. split; [|exact E3].
    apply (wfr_step cwd _ (bin_body cd cwd _)) in E' as [HO2 _]; [|exact R2' | exact (bin_ok cd cwd _ _ (proj1 R2))]. unfold has_file, ConvertSpec.at_out. rewrite (only_file_keeps _ _ _ _ HO2); [exact E1 | exact Hne | congruence].
  - pose proof (Hr1 p (or_introl eq_refl)) as R1. pose proof (Hr1 _ (or_intror (or_introl eq_refl))) as R2. destruct (Hr2 eq_refl) as (G1 & G2 & G3).
    rewrite run_bind. destruct (run (copy_to cwd fin _) pl f) as [[[u|x|] pl1] f1] eqn:E1; [| |discriminate]. 2: { intros E. injection E as <- _ _. left. exact (copy_fails cwd _ fin data _ _ _ _ _ R1 Hf Hpl E1). }
    pose proof (run_failures0 _ _ _ _ _ _ E1 Hpl) as Hp1. pose proof (copy_ready _ _ _ _ _ _ _ _ Hr Hf E1) as Hr'. apply (copy_done cwd _ fin data) in E1; [|assumption..].
    intros E. pose proof (proj1 Hr' p (or_introl eq_refl)) as R1'. pose proof (proj1 Hr' _ (or_intror (or_introl eq_refl))) as R2'.
    apply (skn_fails cd cwd _ (proj1 R2) G2 (Hn eq_refl) _ data) in E; [exact E | exact R1' | exact (stem_apart p f1 R1' R2' G1) | exact (ready_kinv p f1 Hr') | exact E1 | exact Hp1].
  - pose proof (Hr1 p (or_introl eq_refl)) as R1. pose proof (Hr1 _ (or_intror (or_introl eq_refl))) as R2. pose proof (json_apart p f R1 R2) as Hne. rewrite <- json_text in *.
    rewrite run_bind. destruct (run (copy_to cwd fin _) pl f) as [[[u|x|] pl1] f1] eqn:E1; [| |discriminate]. 2: { intros E. injection E as <- _ _. left. exact (copy_fails cwd _ fin data _ _ _ _ _ R1 Hf Hpl E1). }
    pose proof (run_failures0 _ _ _ _ _ _ E1 Hpl) as Hp1. pose proof E1 as E1'. apply (copy_done cwd _ fin data) in E1; [|assumption..].
    apply (wfr_step cwd) in E1' as [HO R1']; [|exact R1 | exact (copy_body cwd _ fin data (proj1 R1) Hf)]. pose proof (ready_only cwd _ _ f f1 R1 R1' HO R2) as R2'. pose proof (proj2 (ready_winv _ _ _ R1')) as I1'.
    rewrite run_bind. destruct (run (read_file cwd _) pl1 f1) as [[[d|x|] pl2] f2] eqn:E2; [|intros _; exfalso; exact (read_fails cwd _ pl1 f1 data x pl2 f2 (proj1 R1) I1' E1 Hp1 E2) | discriminate].
    pose proof (run_failures0 _ _ _ _ _ _ E2 Hp1) as Hp2. apply (read_done cwd _ pl1 f1 data) in E2 as [-> ->]; [|apply R1 | exact I1' | exact E1].
    rewrite run_bind. destruct (cd_rst cd data) as [[pieces e']|x] eqn:Ep; cbn [lift run]. 2: { intros E. injection E as <- _ <-. right. split; [exact E1 | left; reflexivity]. }
    intros E. pose proof E as E'. apply (pieces_file_fails cwd) in E as [E|[-> E]]; [auto | | exact R2' | exact Hp2]. right. split; [|right; split; [eauto | exact E]].
    apply (wfr_step cwd) in E' as [HO2 _]; [|exact R2' | exact (pieces_ok cwd _ _ _ (proj1 R2))]. unfold has_file, ConvertSpec.at_out. rewrite (only_file_keeps _ _ _ _ HO2); [exact E1 | exact Hne | congruence].
  - intros E. rewrite <- json_text in E. apply (json_fails cwd _ _ fin data) in E; [exact E | apply Hr1; auto | exact Hf | exact Hpl].
  - intros E. left. apply (copy_fails cwd _ fin data) in E; [exact E | apply Hr1; auto | exact Hf | exact Hpl].
Qed.
End Run.
