(** * Exports of all files *)

From Verif Require Import Base.Py Base.Text Base.PyFacts Base.TextFacts Base.PathFacts Base.Fs Base.FsDir Spec.FsSpec Base.FsFacts Model.Files Proofs.FilesProofs Base.FsLinks Base.FsTree Base.FsTreeFacts
  Model.Wad Model.Tex Model.Exporter Model.Convert Spec.ConvertSpec Proofs.WadPathProofs Proofs.WadExtractProofs Proofs.ReleasesProofs Proofs.ConvertProofs Proofs.ConvertRunProofs.

Lemma chosen_get cs p : chosen cs p (get_converter cs p).
Proof. apply get_converter_spec. Qed.
Lemma chosen_unique cs p c : chosen cs p c -> c = get_converter cs p.
Proof.
  intros [(l1 & l2 & -> & H1 & H2)|[-> H]].
  - induction l1 as [|x l1 IH]; cbn [app get_converter]; [rewrite H1; reflexivity|]. rewrite (H2 x) by (left; reflexivity). apply IH. intros y Hy. apply H2. right. exact Hy.
  - induction cs as [|x cs IH]; cbn [get_converter]; [reflexivity|]. rewrite (H x) by (left; reflexivity). apply IH. intros y Hy. apply H. right. exact Hy.
Qed.
Lemma export_list_iff e p : In p (export_list e) <-> exports e p.
Proof.
  unfold export_list, exports. rewrite in_app_iff. split; (intros [H|H]; [left | right]).
  - apply in_map_iff in H as ([p' s] & E & H). cbn [fst] in E. subst p'. eauto.
  - apply in_flat_map in H as ([k w] & H1 & H2). apply in_flat_map in H2 as (x & H2 & H3). exists k, w, x. split; [exact H1|]. split; [exact H2|]. destruct (w_path x) as [q|]; cbn [path_list In] in H3; [destruct H3 as [->|[]]; reflexivity | contradiction].
  - destruct H as [s H]. apply in_map_iff. exists (p, s). auto.
  - destruct H as (k & w & x & H1 & H2 & H3). apply in_flat_map. exists (k, w). split; [exact H1|]. apply in_flat_map. exists x. split; [exact H2|]. rewrite H3. left. reflexivity.
Qed.
Lemma for_each_split {A} (body : A -> prog unit) : forall l1 x l2 pl f a pl' f', run (for_each (l1 ++ x :: l2) body) pl f = (Done a, pl', f') ->
  exists pl1 f1 pl2 f2, run (for_each l1 body) pl f = (Done tt, pl1, f1) /\ run (body x) pl1 f1 = (Done tt, pl2, f2) /\ run (for_each l2 body) pl2 f2 = (Done a, pl', f').
Proof.
  induction l1 as [|y l1 IH]; intros x l2 pl f a pl' f'; cbn [app for_each]; rewrite run_bind.
  - destruct (run (body x) pl f) as [[[[]|e|] pl1] f1] eqn:E1; try discriminate. intros E. exists pl, f, pl1, f1. auto.
  - destruct (run (body y) pl f) as [[[[]|e|] pl1] f1] eqn:E1; try discriminate. intros E. apply IH in E as (pl2 & f2 & pl3 & f3 & H1 & H2 & H3). exists pl2, f2, pl3, f3. rewrite run_bind, E1. auto.
Qed.

Section All.
Variable cd : codecs.
Variable cwd : path.
Variable cs : list conv.
Variable output : str.
Variable gunzip unzstd : bytes -> result bytes.
Variable xxh3 : bytes -> N.
Notation at_out := (at_out cwd output).
Notation gc := (get_converter cs).

(** ** Existing files *)

Lemma lexists_ready s f : ready cwd s f -> f_lexists cwd s f = true <-> look f (target cwd s) <> None.
Proof.
  intros Hr. apply ready_winv in Hr as [Hs Hi]. unfold f_lexists. split.
  - destruct (locate cwd f false s) as [p|] eqn:E; cbn [node_of]; [|discriminate]. apply (locate_t cwd s Hs) in E as [-> _]; [|apply Hi]. destruct (look f (target cwd s)); [discriminate | discriminate].
  - intros Hl. rewrite (locate_ok cwd s Hs f false Hi) by exact Hl. cbn [node_of]. destruct (look f (target cwd s)); [reflexivity | congruence].
Qed.
Lemma reading_all_exist l : reading (all_exist cwd output l).
Proof. induction l as [|p l IH]; cbn [all_exist]; [apply reading_ret|]. apply reading_bind; [apply reading_query|]. intros [|]; [exact IH | apply reading_ret]. Qed.
Lemma all_exist_run f : forall l, (forall q, In q l -> ready cwd (path_join output q) f) -> forall pl b pl' f', run (all_exist cwd output l) pl f = (Done b, pl', f') ->
  b = true <-> forall q, In q l -> look f (at_out q) <> None.
Proof.
  induction l as [|p l IH]; intros Hr pl b pl' f'; cbn [all_exist].
  - cbn [run]. intros E. injection E as <- _ _. split; [intros _ q [] | reflexivity].
  - rewrite run_bind. destruct (run (lexists cwd _) pl f) as [[[x|e|] pl1] f1] eqn:E1; try discriminate. unfold lexists in E1. apply run_query_fs in E1 as [-> [E1|E1]]; [|discriminate]. injection E1 as ->.
    pose proof (lexists_ready _ f (Hr p (or_introl eq_refl))) as Hp. destruct (f_lexists cwd (path_join output p) f).
    + intros E. apply IH in E; [|intros q Hq; apply Hr; right; exact Hq]. rewrite E. split; [intros H q [<-|Hq]; [apply Hp; reflexivity | apply H, Hq] | intros H q Hq; apply H; right; exact Hq].
    + cbn [run]. intros E. injection E as <- _ _. split; [discriminate|]. intros H. apply Hp, H. left. reflexivity.
Qed.
Lemma natural_all_exist P l : natural P (all_exist cwd output l).
Proof. induction l as [|p l IH]; cbn [all_exist]; [exact Logic.I|]. apply natural_bind; [apply natural_query|]. intros [|]; [exact IH | exact Logic.I]. Qed.

Lemma plain_skip p source pl f o pl' f' : conv_ready cwd output (gc p) p f -> (forall q, In q (converted_paths (gc p) p) -> look f (at_out q) <> None) ->
  run (export_plain cd cwd cs output false p source) pl f = (o, pl', f') -> f' = f /\ (o = Done tt \/ o = Crashed).
Proof.
  intros [Hr _] He. unfold export_plain. rewrite run_bind. destruct (run (all_exist cwd output _) pl f) as [[[b|e|] pl1] f1] eqn:E1.
  - pose proof E1 as E1'. apply all_exist_run in E1 as [_ E1]; [|exact Hr]. rewrite (E1 He) in *. apply reading_all_exist in E1' as [-> _]. cbn [run]. intros E. injection E as <- _ <-. auto.
  - exfalso. clear -E1. revert pl f e pl1 f1 E1. induction (converted_paths (gc p) p) as [|q l IH]; cbn [all_exist]; [discriminate|]. intros pl f e pl1 f1. rewrite run_bind. destruct (run (lexists cwd _) pl f) as [[[x|e'|] pl2] f2] eqn:E2; [| |discriminate].
    + destruct x; [apply IH | discriminate].
    + unfold lexists in E2. apply run_query_fs in E2 as [_ [E2|E2]]; discriminate.
  - apply reading_all_exist in E1 as [-> _]. intros E. injection E as <- _ <-. auto.
Qed.
Lemma entry_skip p w wadf toc pl f o pl' f' : w_path w = Some p -> conv_ready cwd output (gc p) p f -> (forall q, In q (converted_paths (gc p) p) -> look f (at_out q) <> None) ->
  run (export_entry cd cwd cs output gunzip unzstd xxh3 false wadf toc w) pl f = (o, pl', f') -> f' = f /\ (o = Done tt \/ o = Crashed).
Proof.
  intros Hp [Hr _] He. unfold export_entry. rewrite Hp, run_bind. destruct (run (all_exist cwd output _) pl f) as [[[b|e|] pl1] f1] eqn:E1.
  - pose proof E1 as E1'. apply all_exist_run in E1 as [_ E1]; [|exact Hr]. rewrite (E1 He) in *. apply reading_all_exist in E1' as [-> _]. cbn [run]. intros E. injection E as <- _ <-. auto.
  - exfalso. clear -E1. revert pl f e pl1 f1 E1. induction (converted_paths (gc p) p) as [|q l IH]; cbn [all_exist]; [discriminate|]. intros pl f e pl1 f1. rewrite run_bind. destruct (run (lexists cwd _) pl f) as [[[x|e'|] pl2] f2] eqn:E2; [| |discriminate].
    + destruct x; [apply IH | discriminate].
    + unfold lexists in E2. apply run_query_fs in E2 as [_ [E2|E2]]; discriminate.
  - apply reading_all_exist in E1 as [-> _]. intros E. injection E as <- _ <-. auto.
Qed.

Hypothesis Hnames : plain_names cd.
Lemma source_sys data : source_of (sys (fun f => Ok (data, f))) data.
Proof. right. reflexivity. Qed.
Lemma path_not_conv e : path_error e -> e <> FileConversionError.
Proof. intros (n & -> & _). discriminate. Qed.
(** A plain file that is not skipped. *)
Lemma plain_done ow p source data pl f a pl' f' : failures pl = 0%nat -> conv_ready cwd output (gc p) p f -> ready cwd source f -> look f (target cwd source) = Some (NFile data) ->
  (ow = true \/ exists q, In q (converted_paths (gc p) p) /\ look f (at_out q) = None) ->
  run (export_plain cd cwd cs output ow p source) pl f = (Done a, pl', f') -> exported_as cd cwd output plain_logged f' (gc p) data p.
Proof.
  intros Hpl Hr Hs El Hno. unfold export_plain. rewrite run_bind. destruct (run (if ow then Ret false else _) pl f) as [[[b|e|] pl1] f1] eqn:E1; try discriminate.
  assert (b = false /\ f1 = f /\ failures pl1 = 0%nat) as (-> & -> & Hp1).
  { pose proof (run_failures0 _ _ _ _ _ _ E1 Hpl) as Hp. destruct ow; [cbn [run] in E1; injection E1 as <- _ <-; auto|]. pose proof E1 as E1'. apply reading_all_exist in E1' as [-> _]. split; [|auto]. destruct Hno as [Hno|(q & Hq & Hno)]; [discriminate|].
    apply all_exist_run in E1; [|apply Hr]. destruct b; [|reflexivity]. exfalso. exact (proj1 E1 eq_refl q Hq Hno). }
  rewrite run_catch, run_bind. destruct (run (read_file cwd source) pl1 f) as [[[d|e|] pl2] f2] eqn:E2; [| |discriminate].
  - pose proof (run_failures0 _ _ _ _ _ _ E2 Hp1) as Hp2. apply (read_done cwd source pl1 f data) in E2 as [-> ->]; [|apply Hs | apply (ready_winv _ _ _ Hs) | exact El].
    destruct (run (with_close _) pl2 f) as [[[u|e|] pl3] f3] eqn:E3; [| |discriminate].
    + intros E. injection E as _ _ <-. apply close_done in E3 as (pl4 & E3). left. eapply convert_done; [exact Hr | auto | apply source_sys | exact E3].
    + apply close_raised in E3 as (pl4 & E3); [|exact Hp2]. apply (convert_fails cd cwd output (gc p) p _ data) in E3 as [E3|E3]; [| |exact Hr | auto | apply source_sys | exact Hp2].
      * apply path_not_conv in E3. destruct e; try discriminate. congruence.
      * destruct e; cbn [run]; try discriminate. intros E. injection E as _ _ <-. right. exists FileConversionError. split; [reflexivity | exact E3].
  - exfalso. exact (read_fails cwd source pl1 f data e pl2 f2 (proj1 Hs) (proj2 (ready_winv _ _ _ Hs)) El Hp1 E2).
Qed.
Lemma entry_done ow p w wadf toc data pl f a pl' f' : failures pl = 0%nat -> w_path w = Some p -> conv_ready cwd output (gc p) p f -> read_data gunzip unzstd xxh3 wadf w toc = Ok (Some data) ->
  (ow = true \/ exists q, In q (converted_paths (gc p) p) /\ look f (at_out q) = None) ->
  run (export_entry cd cwd cs output gunzip unzstd xxh3 ow wadf toc w) pl f = (Done a, pl', f') -> exported_as cd cwd output entry_logged f' (gc p) data p.
Proof.
  intros Hpl Hp Hr Hd Hno. unfold export_entry. rewrite Hp, run_bind. destruct (run (if ow then Ret false else _) pl f) as [[[b|e|] pl1] f1] eqn:E1; try discriminate.
  assert (b = false /\ f1 = f /\ failures pl1 = 0%nat) as (-> & -> & Hp1).
  { pose proof (run_failures0 _ _ _ _ _ _ E1 Hpl) as Hp0. destruct ow; [cbn [run] in E1; injection E1 as <- _ <-; auto|]. pose proof E1 as E1'. apply reading_all_exist in E1' as [-> _]. split; [|auto]. destruct Hno as [Hno|(q & Hq & Hno)]; [discriminate|].
    apply all_exist_run in E1; [|apply Hr]. destruct b; [|reflexivity]. exfalso. exact (proj1 E1 eq_refl q Hq Hno). }
  rewrite run_bind, run_catch. rewrite Hd. cbn [rmap]. destruct (run (sys _) pl1 f) as [[[d|e|] pl2] f2] eqn:E2; [| |discriminate].
  - pose proof (run_failures0 _ _ _ _ _ _ E2 Hp1) as Hp2. apply run_sys_done in E2. injection E2 as <- <-. rewrite run_catch.
    destruct (run (convert cd cwd (gc p) (Ret data) output p) pl2 f) as [[[u|e|] pl3] f3] eqn:E3; [| |discriminate].
    + intros E. injection E as _ _ <-. left. eapply convert_done; [exact Hr | auto | left; reflexivity | exact E3].
    + apply (convert_fails cd cwd output (gc p) p _ data) in E3 as [(n & -> & Hn)|E3]; [| |exact Hr | auto | left; reflexivity | exact Hp2].
      * destruct Hn as [->|[->|[->|[->| ->]]]]; discriminate.
      * intros E. assert (f3 = f' /\ entry_logged e) as [-> He]; [|right; exists e; split; [exact He | exact E3]].
        destruct e as [| | | | | | | | | | | |n| | | |]; cbn [run] in E; try discriminate; [|injection E as _ _ <-; split; [reflexivity | left; reflexivity]].
        destruct n; cbn [run] in E; try discriminate; injection E as _ _ <-; (split; [reflexivity | unfold entry_logged; auto]).
  - exfalso. apply (natural_run (fun _ => False)) in E2; [exact E2 | apply natural_sys_part; discriminate | exact Hp1].
Qed.

(** ** Frames *)

Section Frame.
Variable e : exporter.
Hypothesis Hstatic : forall p, exports e p -> gc p = SknConv -> stem p <> p /\ ~ below cwd (at_out (stem p)).
Definition WE (s : str) : Prop := exists p q, exports e p /\ In q (converted_paths (gc p) p) /\ s = path_join output q.
Definition BE (t : path) : Prop := exists p, exports e p /\ gc p = SknConv /\ below t (at_out (stem p)).
Definition outs (P : str -> Prop) (t : path) : Prop := exists p, P p /\ conv_at cwd output (gc p) p t.
Notation einv := (inv cwd BE WE).
Notation fr P := (framed cwd (outs P) BE WE).
Lemma einv_ready p f : exports e p -> einv f -> conv_ready cwd output (gc p) p f.
Proof.
  intros He [H1 H2]. split; [intros q Hq; apply H1; exists p, q; auto|]. intros Hc. destruct (Hstatic p He Hc) as [G1 G2]. split; [exact G1|]. split; [exact G2|]. intros q t Hq. apply H2. exists p. auto.
Qed.
Lemma fr_mono {A} (P P' : str -> Prop) (x : prog A) : (forall p, P p -> P' p) -> fr P x -> fr P' x.
Proof.
  intros H Hx pl f o pl' f' Hi E. destruct (Hx pl f o pl' f' Hi E) as [H1 H2]. split; [|exact H2]. eapply only_files_mono; [|exact H1]. intros t (p & Hp & Ht). exists p. auto.
Qed.
Lemma fr_convert p fin data : exports e p -> source_of fin data -> fr (eq p) (convert cd cwd (gc p) fin output p).
Proof.
  intros He Hf pl f o pl' f' Hi E. pose proof (einv_ready p f He Hi) as Hr. split.
  - destruct (convert_frame cd cwd output (gc p) p fin data pl f o pl' f' Hr (fun _ => Hnames) Hf E) as [HO _]. eapply only_files_mono; [|exact HO]. intros t Ht. exists p. auto.
  - assert (HT : forall s, WE s -> outs (exports e) (target cwd s)) by (intros s (p' & q & H1 & H2 & ->); exists p'; split; [exact H1|]; exists q; auto).
    assert (Hw : writes cd cwd (outs (exports e)) BE WE output (gc p) p).
    { split; [intros q Hq; split; [exists p, q; auto | apply (proj1 Hr q Hq)]|]. intros Hc. destruct (Hstatic p He Hc) as [G1 G2]. split; [|auto]. intros q Hq. split; [|exists p; auto]. exists p. split; [exact He|]. exists (stem p). split; [rewrite Hc; right; left; reflexivity | auto]. }
    exact (proj2 (framed_convert cd cwd (outs (exports e)) BE WE HT output (gc p) p fin data Hf Hw pl f o pl' f' Hi E)).
Qed.
Lemma fr_plain ow p source : exports e p -> fr (eq p) (export_plain cd cwd cs output ow p source).
Proof.
  intros He. unfold export_plain. apply framed_bind; [destruct ow; [apply framed_ret | apply framed_reading, reading_all_exist]|]. intros [|]; [apply framed_ret|].
  apply framed_catch; [|intros x; destruct x; first [apply framed_ret | apply framed_rai]]. apply framed_bind; [apply framed_reading, reading_read|]. intros d. apply framed_close, (fr_convert p _ d He), source_sys.
Qed.
Lemma fr_entry ow wadf toc w : (forall p, w_path w = Some p -> exports e p) -> fr (fun p => w_path w = Some p) (export_entry cd cwd cs output gunzip unzstd xxh3 ow wadf toc w).
Proof.
  intros He. unfold export_entry. destruct (w_path w) as [p|] eqn:Ep; [|apply framed_ret]. specialize (He p eq_refl).
  apply framed_bind; [destruct ow; [apply framed_ret | apply framed_reading, reading_all_exist]|]. intros [|]; [apply framed_ret|].
  apply framed_bind.
  - apply framed_catch; [|intros x; destruct x; first [apply framed_ret | apply framed_rai]]. apply framed_reading, reading_sys. intros f a f' E. destruct (read_data gunzip unzstd xxh3 wadf w toc); cbn [rmap] in E; [injection E as _ <-; reflexivity | discriminate].
  - intros [d|]; [|apply framed_ret]. apply framed_catch; [|intros x; destruct x as [| | | | | | | | | | | |n| | | |]; try apply framed_rai; [destruct n; first [apply framed_ret | apply framed_rai] | apply framed_ret]].
    apply (fr_mono (eq p)); [intros q <-; reflexivity|]. apply (fr_convert p _ d He). left. reflexivity.
Qed.
Lemma fr_plains ow l : (forall p s, In (p, s) l -> exports e p) -> fr (fun p => In p (map fst l)) (for_each l (fun kv => export_plain cd cwd cs output ow (fst kv) (snd kv))).
Proof.
  intros H. apply framed_for_each. intros [p s] Hx. apply (fr_mono (eq p)); [intros q <-; apply (in_map fst) in Hx; exact Hx|]. apply fr_plain. exact (H p s Hx).
Qed.
Definition entries (l : list wfile) : list str := flat_map (fun x => path_list (w_path x)) l.
Lemma entries_In l x p : In x l -> w_path x = Some p -> In p (entries l).
Proof. intros H1 H2. apply in_flat_map. exists x. split; [exact H1|]. rewrite H2. left. reflexivity. Qed.
Lemma fr_entries ow wadf toc l : (forall x p, In x l -> w_path x = Some p -> exports e p) -> fr (fun p => In p (entries l)) (for_each l (export_entry cd cwd cs output gunzip unzstd xxh3 ow wadf toc)).
Proof.
  intros H. apply framed_for_each. intros x Hx. apply (fr_mono (fun p => w_path x = Some p)); [intros p Hp; exact (entries_In l x p Hx Hp)|]. apply fr_entry. intros p. exact (H x p Hx).
Qed.
Lemma fr_wad ow w : (forall x p, In x (ew_files w) -> w_path x = Some p -> exports e p) -> fr (fun p => In p (entries (ew_files w))) (export_wad cd cwd cs output gunzip unzstd xxh3 ow w).
Proof. intros H. unfold export_wad. apply framed_bind; [apply framed_reading, reading_read|]. intros d. apply framed_close, fr_entries, H. Qed.
Definition wad_entries (l : list (str * ewad)) : list str := flat_map (fun kw => entries (ew_files (snd kw))) l.
Lemma fr_wads ow l : (forall k w x p, In (k, w) l -> In x (ew_files w) -> w_path x = Some p -> exports e p) -> fr (fun p => In p (wad_entries l)) (for_each l (fun kw => export_wad cd cwd cs output gunzip unzstd xxh3 ow (snd kw))).
Proof.
  intros H. apply framed_for_each. intros [k w] Hx. apply (fr_mono (fun p => In p (entries (ew_files w)))); [intros p Hp; apply in_flat_map; exists (k, w); auto|]. apply fr_wad. intros x p. exact (H k w x p Hx).
Qed.
Lemma wads_exported l : incl l (ex_wads e) -> forall k w x p, In (k, w) l -> In x (ew_files w) -> w_path x = Some p -> exports e p.
Proof. intros Hl k w x p H1 H2 H3. right. exists k, w, x. auto. Qed.
Lemma fr_export ow : fr (exports e) (export cd cwd cs output gunzip unzstd xxh3 ow e).
Proof.
  unfold export. apply framed_bind.
  - apply (fr_mono (fun p => In p (map fst (ex_plain e)))); [intros p Hp; apply export_list_iff, in_or_app; left; exact Hp|]. apply fr_plains. intros p s H. left. eauto.
  - intros _. apply (fr_mono (fun p => In p (wad_entries (ex_wads e)))); [intros p Hp; apply export_list_iff, in_or_app; right; exact Hp|]. apply fr_wads, wads_exported, incl_refl.
Qed.

(** ** Results *)

Hypothesis Hclash : forall p1 p2 t, exports e p1 -> exports e p2 -> conv_at cwd output (gc p1) p1 t -> conv_at cwd output (gc p2) p2 t -> p1 = p2.
Lemma conv_at_in p q : In q (converted_paths (gc p) p) -> conv_at cwd output (gc p) p (at_out q).
Proof. intros H. exists q. auto. Qed.
Lemma exported_keep (P : str -> Prop) logged p data f f' : exports e p -> (forall q, P q -> exports e q /\ q <> p) -> conv_ready cwd output (gc p) p f -> only_files (outs P) f f' ->
  exported_as cd cwd output logged f (gc p) data p -> exported_as cd cwd output logged f' (gc p) data p.
Proof.
  intros He HP Hr HO H.
  assert (Hno : forall t, conv_at cwd output (gc p) p t -> ~ outs P t) by (intros t Ht (q & Hq & Ht2); destruct (HP q Hq) as [Hq1 Hq2]; apply Hq2; exact (Hclash q p t Hq1 He Ht2 Ht)).
  assert (Hk : forall t n, conv_at cwd output (gc p) p t -> look f t = Some n -> look f' t = Some n) by (intros t n Ht Hl; destruct (HO t) as [E|[E|(E & _)]]; [congruence | exfalso; exact (Hno t Ht E) | congruence]).
  assert (Hf : forall q b, In q (converted_paths (gc p) p) -> has_file cwd output f q b -> has_file cwd output f' q b) by (intros q b Hq; apply Hk, conv_at_in, Hq).
  assert (Ha : forall q, In q (converted_paths (gc p) p) -> no_file cwd output f q -> no_file cwd output f' q).
  { intros q Hq Hn [b Hb]. destruct (HO (at_out q)) as [E|[E|(_ & E & _)]]; [apply Hn; exists b; congruence | exact (Hno _ (conv_at_in p q Hq) E) | congruence]. }
  destruct H as [H|(x & Hx & H)]; [left | right; exists x; split; [exact Hx|]]; (destruct (gc p) as [exts| |r|r| |r| |] eqn:Ec; cbn [converted_to conversion_fails converted_paths In] in *; fold (stem p) in * ).
  - destruct H as (b & H1 & H2). exists b. split; [exact H1|]. apply Hf; [left; reflexivity | exact H2].
  - destruct H as (dds & b & H1 & H2 & H3). exists dds, b. split; [exact H1|]. split; [exact H2|]. apply Hf; [left; reflexivity | exact H3].
  - destruct H as (b & H1 & H2). exists b. split; [exact H1|]. apply Hf; [left; reflexivity | exact H2].
  - destruct H as (H1 & b & H2 & H3). split; [apply Hf; [left; reflexivity | exact H1]|]. exists b. split; [exact H2|]. apply Hf; [right; left; reflexivity | exact H3].
  - destruct H as (H1 & H2 & objs & H3 & H4). split; [auto|]. split; [revert H2; apply Hk; exists (stem p); split; [right; left; reflexivity | left; reflexivity]|]. exists objs. split; [exact H3|].
    intros l1 n r l2 E1 E2. destruct (H4 l1 n r l2 E1 E2) as (b & E3 & E4). exists b. split; [exact E3|]. revert E4. apply Hk. exists (stem p). split; [right; left; reflexivity|]. right. split; [reflexivity|]. split; [reflexivity|].
    rewrite stem_obj; [exists [n ++ lit ".obj"]; reflexivity | apply (proj1 Hr); right; left; reflexivity|]. apply (Hnames data objs n r H3). rewrite E1. apply in_or_app. right. left. reflexivity.
  - destruct H as (H1 & b & H2 & H3). split; [apply Hf; [left; reflexivity | exact H1]|]. exists b. split; [exact H2|]. apply Hf; [right; left; reflexivity | exact H3].
  - destruct H as (b & H1 & H2). exists b. split; [exact H1|]. apply Hf; [left; reflexivity | exact H2].
  - apply Hf; [left; reflexivity | exact H].
  - destruct H as (H1 & H2). split; [exact H1|]. apply Ha; [left; reflexivity | exact H2].
  - destruct H as [H|(dds & H1 & H2 & H3)]; [auto|]. right. exists dds. split; [exact H1|]. split; [exact H2|]. apply Ha; [left; reflexivity | exact H3].
  - destruct H as (H1 & H2). split; [exact H1|]. apply Ha; [left; reflexivity | exact H2].
  - destruct H as (H1 & H2 & H3). split; [exact H1|]. split; [apply Hf; [left; reflexivity | exact H2] | apply Ha; [right; left; reflexivity | exact H3]].
  - destruct H as (H1 & H2 & H3). split; [exact H1|]. split; [auto|]. intros t Ht. specialize (H3 t Ht). assert (Hct : forall t', below t' (at_out (stem p)) -> conv_at cwd output SknConv p t') by (intros t' Ht'; exists (stem p); split; [right; left; reflexivity | right; auto]).
    destruct (HO t) as [E|[E|(_ & _ & t' & E1 & y & l & E2)]]; [congruence | exfalso; exact (Hno t (Hct t Ht) E)|]. exfalso. apply (Hno t'); [|exact E1]. apply Hct. destruct Ht as [l' ->]. exists ((y :: l) ++ l'). rewrite E2. cbn [app]. rewrite app_assoc. reflexivity.
  - destruct H as (H1 & H2). split; [apply Hf; [left; reflexivity | exact H1]|]. destruct H2 as [H2|[H2 H3]]; [auto|]. right. split; [exact H2|]. apply Ha; [right; left; reflexivity | exact H3].
  - destruct H as (H1 & H2). split; [exact H1|]. apply Ha; [left; reflexivity | exact H2].
  - exact H.
Qed.
Lemma source_keep (P : str -> Prop) f f' s data : (forall q, P q -> exports e q) -> einv f' -> (exists p, exports e p) -> only_files (outs P) f f' -> source_file cwd output cs e f s data -> source_file cwd output cs e f' s data.
Proof.
  intros HP Hi [p He] HO ((H1 & H2 & H3 & H4) & H5 & H6).
  assert (Hno : forall q, below (target cwd s) q -> ~ outs P q) by (intros q Hq (p' & Hp' & Ht); apply (H6 q); [exists p', (gc p'); split; [apply HP, Hp' | split; [apply chosen_get | exact Ht]] | exact Hq]).
  pose proof (einv_ready p f' He Hi) as [Hr _]. assert (exists q, In q (converted_paths (gc p) p)) as [q Hq] by (destruct (gc p); cbn [converted_paths In]; eauto). specialize (Hr q Hq).
  split; [split; [exact H1|]; split; [|split; apply Hr]|split; [|exact H6]].
  - intros t x Ht Ex. destruct (HO t) as [E|[E|(_ & E & _)]]; [apply (H2 t x Ht); congruence | exact (Hno t Ht E) | congruence].
  - destruct (HO (target cwd s)) as [E|[E|(E & _)]]; [congruence | exfalso; exact (Hno _ (below_refl _) E) | congruence].
Qed.
Hypothesis Hnodup : NoDup (export_list e).
Lemma NoDup_app3 {A} (l1 : list A) x l2 : NoDup (l1 ++ x :: l2) -> ~ In x l1 /\ ~ In x l2.
Proof. intros H. apply NoDup_remove_2 in H. rewrite in_app_iff in H. tauto. Qed.
Lemma export_plain_done p src data pl f pl' f' : einv f -> failures pl = 0%nat -> In (p, src) (ex_plain e) -> source_file cwd output cs e f src data ->
  run (export cd cwd cs output gunzip unzstd xxh3 true e) pl f = (Done tt, pl', f') -> exported_as cd cwd output plain_logged f' (gc p) data p.
Proof.
  intros Hi Hpl Hin Hs E. assert (He : exports e p) by (left; eauto). unfold export in E. rewrite run_bind in E. destruct (run (for_each (ex_plain e) _) pl f) as [[[u|x|] pl1] f1] eqn:E1; try discriminate.
  pose proof Hnodup as Hnd. unfold export_list in Hnd. destruct (in_split _ _ Hin) as (l1 & l2 & El). rewrite El in E1, Hnd. rewrite map_app in Hnd. cbn [map fst] in Hnd. rewrite <- app_assoc in Hnd. cbn [app] in Hnd. apply NoDup_app3 in Hnd as [_ Hnd]. rewrite in_app_iff in Hnd.
  assert (Hpl1 : forall q s, In (q, s) l1 -> exports e q) by (intros q s Hq; left; exists s; rewrite El; apply in_or_app; auto).
  assert (Hpl2 : forall q s, In (q, s) l2 -> exports e q) by (intros q s Hq; left; exists s; rewrite El; apply in_or_app; right; right; exact Hq).
  apply for_each_split in E1 as (pl2 & f2 & pl3 & f3 & F1 & F2 & F3). cbn [fst snd] in F2.
  assert (Hp2 : failures pl2 = 0%nat) by (eapply run_failures0; eassumption).
  destruct (fr_plains true l1 Hpl1 _ _ _ _ _ Hi F1) as [O1 I1].
  assert (Hs2 : source_file cwd output cs e f2 src data).
  { eapply source_keep; [|exact I1 | exists p; exact He | exact O1 | exact Hs]. intros q Hq. apply in_map_iff in Hq as ([q' s] & Eq & Hq). cbn [fst] in Eq. subst q'. exact (Hpl1 q s Hq). }
  pose proof (fr_plain true p src He _ _ _ _ _ I1 F2) as [_ I2]. destruct Hs2 as (G1 & G2 & _). pose proof (plain_done true p src data pl2 f2 tt pl3 f3 Hp2 (einv_ready p f2 He I1) G1 G2 (or_introl eq_refl) F2) as Hdone.
  destruct (fr_plains true l2 Hpl2 _ _ _ _ _ I2 F3) as [O3 I3].
  apply (exported_keep (fun q => In q (map fst l2)) plain_logged p data f3 f1) in Hdone; [|exact He | | exact (einv_ready p f3 He I2) | exact O3].
  2: { intros q Hq. split; [apply in_map_iff in Hq as ([q' s] & Eq & Hq); cbn [fst] in Eq; subst q'; exact (Hpl2 q s Hq) | intros ->; apply Hnd; left; exact Hq]. }
  destruct (fr_wads true (ex_wads e) (wads_exported _ (incl_refl _)) _ _ _ _ _ I3 E) as [O4 _].
  eapply (exported_keep (fun q => In q (wad_entries (ex_wads e)))); [exact He | | exact (einv_ready p f1 He I3) | exact O4 | exact Hdone].
  intros q Hq. split; [apply export_list_iff, in_or_app; right; exact Hq | intros ->; apply Hnd; right; exact Hq].
Qed.
Lemma entries_app a b : entries (a ++ b) = entries a ++ entries b.
Proof. apply flat_map_app. Qed.
Lemma export_entry_done p k w x wadf data pl f pl' f' : einv f -> failures pl = 0%nat -> In (k, w) (ex_wads e) -> In x (ew_files w) -> w_path x = Some p -> source_file cwd output cs e f (ew_src w) wadf ->
  read_data gunzip unzstd xxh3 wadf x (ew_toc w) = Ok (Some data) ->
  run (export cd cwd cs output gunzip unzstd xxh3 true e) pl f = (Done tt, pl', f') -> exported_as cd cwd output entry_logged f' (gc p) data p.
Proof.
  intros Hi Hpl Hin Hix Hp Hs Hd E. assert (He : exports e p) by (right; exists k, w, x; auto). unfold export in E. rewrite run_bind in E. destruct (run (for_each (ex_plain e) _) pl f) as [[[u|y|] pl1] f1] eqn:E1; try discriminate.
  assert (Hp1 : failures pl1 = 0%nat) by (eapply run_failures0; eassumption).
  assert (Hplx : forall q s, In (q, s) (ex_plain e) -> exports e q) by (intros q s Hq; left; eauto).
  destruct (fr_plains true _ Hplx _ _ _ _ _ Hi E1) as [O1 I1].
  assert (Hs1 : source_file cwd output cs e f1 (ew_src w) wadf).
  { eapply source_keep; [|exact I1 | exists p; exact He | exact O1 | exact Hs]. intros q Hq. apply in_map_iff in Hq as ([q' s] & Eq & Hq). cbn [fst] in Eq. subst q'. exact (Hplx q s Hq). }
  pose proof Hnodup as Hnd. unfold export_list in Hnd. change (flat_map _ (ex_wads e)) with (wad_entries (ex_wads e)) in Hnd.
  destruct (in_split _ _ Hin) as (k1 & k2 & Ek). destruct (in_split _ _ Hix) as (x1 & x2 & Ex). pose proof (wads_exported _ (incl_refl (ex_wads e))) as Hall. rewrite Ek in E, Hnd.
  assert (Hk1 : incl k1 (ex_wads e)) by (intros y Hy; rewrite Ek; apply in_or_app; auto). assert (Hk2 : incl k2 (ex_wads e)) by (intros y Hy; rewrite Ek; apply in_or_app; right; right; exact Hy).
  unfold wad_entries in Hnd. rewrite flat_map_app in Hnd. cbn [flat_map snd] in Hnd. fold (wad_entries k1) in Hnd. fold (wad_entries k2) in Hnd. rewrite Ex, entries_app in Hnd. unfold entries at 2 in Hnd. cbn [flat_map] in Hnd. rewrite Hp in Hnd. cbn [path_list app] in Hnd. fold (entries x2) in Hnd.
  rewrite <- !app_assoc in Hnd. cbn [app] in Hnd. rewrite !app_assoc in Hnd. apply NoDup_app3 in Hnd as [_ Hnd]. rewrite in_app_iff in Hnd.
  apply for_each_split in E as (pl2 & f2 & pl3 & f3 & F1 & F2 & F3). cbn [snd] in F2. assert (Hp2 : failures pl2 = 0%nat) by (eapply run_failures0; eassumption).
  destruct (fr_wads true k1 (wads_exported _ Hk1) _ _ _ _ _ I1 F1) as [O2 I2].
  assert (HinE : forall l, incl l (ex_wads e) -> forall q, In q (wad_entries l) -> exports e q).
  { intros l Hl q Hq. apply in_flat_map in Hq as ([k' w'] & H1 & H2). apply in_flat_map in H2 as (y & H2 & H3). destruct (w_path y) as [q'|] eqn:Ey; cbn [path_list In] in H3; [destruct H3 as [->|[]]|contradiction]. exact (wads_exported l Hl k' w' y q H1 H2 Ey). }
  assert (Hs2 : source_file cwd output cs e f2 (ew_src w) wadf) by (eapply source_keep; [apply (HinE k1 Hk1) | exact I2 | exists p; exact He | exact O2 | exact Hs1]).
  destruct Hs2 as (G1 & G2 & _). unfold export_wad in F2. rewrite run_bind in F2. destruct (run (read_file cwd (ew_src w)) pl2 f2) as [[[d|y|] pl4] f4] eqn:E4; try discriminate.
  assert (Hp4 : failures pl4 = 0%nat) by (eapply run_failures0; eassumption). apply (read_done cwd _ pl2 f2 wadf) in E4 as [-> ->]; [|apply G1 | apply (ready_winv _ _ _ G1) | exact G2].
  apply close_done in F2 as (pl5 & F2). rewrite Ex in F2. apply for_each_split in F2 as (pl6 & f6 & pl7 & f7 & F4 & F5 & F6). assert (Hp6 : failures pl6 = 0%nat) by (eapply run_failures0; eassumption).
  assert (Hx1 : forall y q, In y x1 -> w_path y = Some q -> exports e q) by (intros y q Hy Hq; right; exists k, w, y; split; [exact Hin|]; split; [rewrite Ex; apply in_or_app; auto | exact Hq]).
  assert (Hx2 : forall y q, In y x2 -> w_path y = Some q -> exports e q) by (intros y q Hy Hq; right; exists k, w, y; split; [exact Hin|]; split; [rewrite Ex; apply in_or_app; right; right; exact Hy | exact Hq]).
  destruct (fr_entries true wadf (ew_toc w) x1 Hx1 _ _ _ _ _ I2 F4) as [_ I6].
  assert (Hx : forall q, w_path x = Some q -> exports e q) by (intros q Hq; right; exists k, w, x; auto).
  destruct (fr_entry true wadf (ew_toc w) x Hx _ _ _ _ _ I6 F5) as [_ I7].
  pose proof (entry_done true p x wadf (ew_toc w) data pl6 f6 tt pl7 f7 Hp6 Hp (einv_ready p f6 He I6) Hd (or_introl eq_refl) F5) as Hdone.
  destruct (fr_entries true wadf (ew_toc w) x2 Hx2 _ _ _ _ _ I7 F6) as [O7 I3].
  apply (exported_keep (fun q => In q (entries x2)) entry_logged p data f7 f3) in Hdone; [|exact He | | exact (einv_ready p f7 He I7) | exact O7].
  2: { intros q Hq. split; [|intros ->; apply Hnd; left; exact Hq]. apply in_flat_map in Hq as (y & H2 & H3). destruct (w_path y) as [q'|] eqn:Ey; cbn [path_list In] in H3; [destruct H3 as [->|[]]|contradiction]. exact (Hx2 y q H2 Ey). }
  destruct (fr_wads true k2 (wads_exported _ Hk2) _ _ _ _ _ I3 F3) as [O4 _].
  eapply (exported_keep (fun q => In q (wad_entries k2))); [exact He | | exact (einv_ready p f3 He I3) | exact O4 | exact Hdone].
  intros q Hq. split; [apply (HinE k2 Hk2), Hq | intros ->; apply Hnd; right; exact Hq].
Qed.
End Frame.
End All.
