(** * Proofs about conversions and exports *)

From Verif Require Import Base.Py Base.Text Base.PyFacts Base.TextFacts Base.PathFacts Base.Fs Base.FsDir Spec.FsSpec Base.FsFacts Model.Files Proofs.FilesProofs Base.FsLinks Base.FsTree Base.FsTreeFacts
  Model.Wad Model.Tex Model.Exporter Model.Convert Spec.ConvertSpec Proofs.WadPathProofs Proofs.WadExtractProofs Proofs.ReleasesProofs.

(** ** Choice of converters *)

Lemma get_converter_spec p : forall cs, first_handling cs p (get_converter cs p) \/ get_converter cs p = CopyConv /\ forall x, In x cs -> is_handled x p = false.
Proof.
  induction cs as [|c cs IH]; cbn [get_converter]; [right; split; [reflexivity | intros x []]|]. destruct (is_handled c p) eqn:Eh.
  - left. exists [], cs. split; [reflexivity|]. split; [exact Eh | intros x []].
  - destruct IH as [(l1 & l2 & E & H1 & H2)|[E H]]; [left | right].
    + exists (c :: l1), l2. split; [rewrite E at 1; reflexivity|]. split; [exact H1|]. intros x [<-|Hx]; auto.
    + split; [exact E|]. intros x [<-|Hx]; auto.
Qed.

(** ** Texts *)

Lemma path_join_app a p x : p <> [] \/ startswith x [cSlash] = false -> path_join a (p ++ x) = path_join a p ++ x.
Proof.
  intros H. unfold path_join. assert (E : startswith (p ++ x) [cSlash] = startswith p [cSlash]) by (destruct p as [|c p]; [destruct H; [congruence | exact H] | reflexivity]). rewrite E.
  destruct (startswith p [cSlash]); [reflexivity|]. destruct (eqb a [] || endswith a [cSlash]); rewrite <- ?app_assoc; reflexivity.
Qed.
Lemma ext_no_slash p : ~ In cSlash (snd (splitext p)).
Proof.
  rewrite splitext_snd_base. intros H. apply (basename_no_slash p). rewrite <- (splitext_concat (basename p)). apply in_or_app. right. exact H.
Qed.
Lemma stem_ext p : p = stem p ++ snd (splitext p).
Proof. symmetry. apply splitext_concat. Qed.
Lemma target_suffix cwd s x : plain_path s -> plain_path (s ++ x) -> ~ In cSlash x -> x <> [] ->
  target cwd s = basename s :: target cwd (dirname s) /\ target cwd (s ++ x) = (basename s ++ x) :: target cwd (dirname s).
Proof.
  intros Hs Hx Hn Hne. split; [apply target_dirname, Hs|]. rewrite target_dirname by exact Hx. destruct (basename_app s x Hn) as [-> ->]. reflexivity.
Qed.
Lemma target_suffix_apart cwd s x : plain_path s -> plain_path (s ++ x) -> ~ In cSlash x -> x <> [] -> apart (target cwd (s ++ x)) (target cwd s).
Proof.
  intros Hs Hx Hn Hne. destruct (target_suffix cwd s x Hs Hx Hn Hne) as [-> ->].
  assert (Hd : basename s ++ x <> basename s) by (intros E; apply Hne; apply (app_inv_head (basename s)); rewrite app_nil_r; exact E).
  split; intros [l E]; (destruct l as [|y l]; [cbn [app] in E; injection E as E; congruence | apply (f_equal (@length _)) in E; rewrite app_length in E; cbn [length] in E; lia]).
Qed.
Lemma apart_neq p q : apart p q -> p <> q.
Proof. intros [H _] ->. apply H, below_refl. Qed.

Section Conv.
Variable cd : codecs.
Variable cwd : path.

(** ** Frames *)

Lemma source_run fin data pl f a pl' f' : source_of fin data -> run fin pl f = (Done a, pl', f') -> a = data /\ f' = f.
Proof.
  intros [-> | ->] E; [cbn in E; injection E as <- <- <-; auto|]. apply run_sys_done in E. injection E as <- <-. auto.
Qed.
Lemma source_safe fin data (I : fs -> Prop) (R : fs -> fs -> Prop) : source_of fin data -> (forall f, R f f) -> safe I R (eq data) fin.
Proof. intros [-> | ->] HR; [reflexivity|]. apply safe_sys; [exact HR|]. intros f a f' Hi E. injection E as <- <-. auto. Qed.
Lemma source_reading fin data : source_of fin data -> reading fin.
Proof. intros [-> | ->]; [apply reading_ret|]. apply reading_sys. intros f a f' E. injection E as _ <-. reflexivity. Qed.

(** A body that only changes the file it is given. *)
Definition body_ok {A} (s : str) (body : path -> prog A) : Prop :=
  forall Q : A -> Prop, (forall a, Q a) -> safe (winv cwd s) (fun f f' => only_file (target cwd s) f f') Q (body (target cwd s)).

(** ** Skin files *)

Section Skn.
Variable rt : str.
Notation R := (target cwd rt).
Hypothesis Hcwd : ~ below cwd R.
Definition kinv (f : fs) : Prop := winv cwd rt f /\ forall q x, below q R -> look f q <> Some (NLink x).
Definition krel (f f' : fs) : Prop := forall q, look f' q = look f q \/ (below q R /\ forall x, look f' q <> Some (NLink x)) \/ (look f q = None /\ look f' q = Some NDir /\ strictly_below R q).
Lemma krel_refl f : krel f f.
Proof. intros q. left. reflexivity. Qed.
Lemma krel_trans a b c : krel a b -> krel b c -> krel a c.
Proof.
  intros H1 H2 q. destruct (H2 q) as [E2|[E2|(E2 & E2' & B2)]]; [|auto|].
  - destruct (H1 q) as [E1|[[B1 E1]|(E1 & E1' & B1)]]; rewrite E2; auto.
  - destruct (H1 q) as [E1|[[B1 E1]|(E1 & E1' & B1)]]; [right; right; rewrite <- E1; auto | right; left; split; [exact B1 | intros x; congruence] | congruence].
Qed.
Lemma krel_kinv f f' : kinv f -> fs_wf f' -> krel f f' -> kinv f'.
Proof.
  intros [(H1 & H2 & H3) H4] Hw HK. split; [split; [|split; [exact Hw|]]|].
  - intros q x Hq E. destruct (HK q) as [E1|[[B1 E1]|(_ & E1 & _)]]; [apply (H1 q x Hq); congruence | exact (E1 x E) | congruence].
  - destruct (HK cwd) as [E|[[E _]|(E & E' & _)]]; [congruence | contradiction | exact E'].
  - intros q x Hq E. destruct (HK q) as [E1|[[B1 E1]|(_ & E1 & _)]]; [apply (H4 q x Hq); congruence | exact (E1 x E) | congruence].
Qed.
Lemma krel_cut f f' : cut_below R f f' -> krel f f'.
Proof. intros H q. destruct (H q) as [E|[E1 E2]]; [auto|]. right. left. split; [exact E1|]. intros x. congruence. Qed.

Hypothesis Hplain : plain_path rt.
Lemma rmtree_safe : safe kinv krel (fun _ => True) (rmtree_ignore cwd rt).
Proof.
  eapply safe_conseq; [intros f f' _ H; apply krel_cut, H|]. apply (safe_keep (winv cwd rt)); [|apply rmtree_cut; assumption].
  intros f f' _ HJ _ HK q x Hq E. destruct (HK q) as [E1|[_ E1]]; [apply (HJ q x Hq); congruence | congruence].
Qed.
Lemma makedirs_ksafe : safe kinv krel (fun _ => True) (makedirs cwd rt).
Proof.
  assert (Hdd : ~ In dotdot (comps rt)) by apply Hplain. apply (safe_conseq kinv (adds_dirs R)).
  - intros f f' _ H q. destruct (H q) as [E|(E1 & E2 & [l E3])]; [auto|]. destruct l as [|y l]; [right; left; split; [exists []; symmetry; exact E3 | intros x; congruence]|]. right. right. split; [exact E1|]. split; [exact E2|]. exists y, l. exact E3.
  - apply (safe_keep (dinv cwd R)); [|apply makedirs_dinv, Hdd]. intros f f' _ HJ _ HK q x Hq E. destruct (HK q) as [E1|(_ & E1 & _)]; [apply (HJ q x Hq); congruence | congruence].
Qed.
Lemma read_safe source : safe kinv krel (fun _ => True) (read_file cwd source).
Proof.
  apply safe_sys; [apply krel_refl|]. intros f a f' Hi E. apply rbind_Ok in E as (p & _ & E). destruct (look f p) as [[| |]|]; try discriminate. injection E as _ <-. auto using krel_refl.
Qed.
Lemma obj_text n : ~ In cSlash n -> plain_path (obj_name rt n) /\ target cwd (obj_name rt n) = (n ++ lit ".obj") :: R.
Proof.
  intros Hn. set (x := n ++ lit ".obj"). assert (Hx : ~ In cSlash x) by (unfold x; rewrite in_app_iff; intros [H|H]; [contradiction | vm_compute in H; intuition discriminate]).
  assert (Hx0 : x <> []) by (unfold x; destruct n; discriminate). assert (Hx1 : x <> [cDot]) by (unfold x; intros E; apply (f_equal (@length _)) in E; rewrite app_length in E; cbn in E; lia).
  assert (Hx2 : x <> dotdot) by (unfold x; intros E; apply (f_equal (@length _)) in E; rewrite app_length in E; cbn in E; lia).
  assert (Ha : is_abs x = false) by (destruct x as [|c x']; [reflexivity|]; cbn [is_abs]; apply N.eqb_neq; intros ->; apply Hx; left; reflexivity).
  assert (Hne : rt <> []) by (intros E; destruct Hplain as (_ & H & _); rewrite E in H; apply H; reflexivity).
  unfold obj_name. fold x. split; [|rewrite target_join by assumption; rewrite comps_one by assumption; reflexivity].
  assert (Es : exists h c, rt = h ++ [c] /\ c <> cSlash).
  { destruct (exists_last Hne) as (h & c & E). exists h, c. split; [exact E|]. intros ->. destruct Hplain as (_ & _ & H & _). apply H. rewrite E, basename_cut, cut_last_app by (intros []). reflexivity. }
  destruct Es as (h & c & Es & Hc).
  assert (Ej : path_join rt x = rt ++ cSlash :: x).
  { unfold path_join. assert (E1 : startswith x [cSlash] = false) by (destruct (startswith x [cSlash]) eqn:E0; [|reflexivity]; apply startswith_iff in E0 as [r E0]; rewrite E0 in Ha; discriminate Ha). rewrite E1.
    assert (E2 : eqb rt [] = false) by (apply eqbF, Hne). rewrite E2. cbn [orb]. assert (E3 : endswith rt [cSlash] = false); [|rewrite E3; reflexivity].
    destruct (endswith rt [cSlash]) eqn:E0; [|reflexivity]. apply endswith_iff in E0 as [r E0]. rewrite Es in E0. apply app_inj_tail in E0 as [_ E0]. congruence. }
  assert (Ep : path_split (path_join rt x) = (rt, x)).
  { rewrite Ej. unfold path_split. rewrite cut_last_app by exact Hx. rewrite Es, !forallb_app. cbn [forallb]. replace (cSlash =? c) with false by lia. rewrite !andb_false_r. cbn [andb]. rewrite rstrip_app_all by reflexivity. rewrite rstrip_snoc_false by lia. reflexivity. }
  split; [rewrite comps_join by exact Ha; rewrite (comps_one x) by assumption; rewrite in_app_iff; intros [H|[H|[]]]; [exact (proj1 Hplain H) | congruence]|].
  unfold dirname, basename. rewrite Ep. cbn [fst snd]. auto.
Qed.
Lemma kinv_obj f n : kinv f -> nolink f ((n ++ lit ".obj") :: R).
Proof.
  intros [(H1 & _) H2] q x [l E] Hl. destruct l as [|y l]; [cbn [app] in E; apply (H2 q x); [exists [n ++ lit ".obj"]; symmetry; exact E | exact Hl]|]. cbn [app] in E. injection E as _ E. apply (H1 q x); [exists l; exact E | exact Hl].
Qed.
Lemma safe_refine {A} (I I' : fs -> Prop) (R R' : fs -> fs -> Prop) (Q : A -> Prop) (p : prog A) :
  (forall f, I' f -> I f) -> (forall f f', I' f -> I f' -> R f f' -> R' f f' /\ I' f') -> safe I R Q p -> safe I' R' Q p.
Proof.
  intros H1 H2. induction p as [a|e|eff c IH]; cbn [safe]; [auto | auto|]. intros H f Hf. destruct (H f (H1 f Hf)) as [Ha Hb]. split; [|intros o; apply IH, Hb].
  intros o. destruct (Ha o) as [G1 G2]. apply (H2 f); assumption.
Qed.
Lemma kinv_winv n f : ~ In cSlash n -> kinv f -> winv cwd (obj_name rt n) f.
Proof. intros Hn Hi. split; [rewrite (proj2 (obj_text n Hn)); apply kinv_obj, Hi | apply Hi]. Qed.
Definition save_obj (no : str * result bytes) : prog unit := let~ h := open_w cwd (obj_name rt (fst no)) in with_close (let~ b := lift (snd no) in fwrite h b).
Lemma obj_safe no : ~ In cSlash (fst no) -> safe kinv krel (fun _ => True) (save_obj no).
Proof.
  destruct no as [n r]. cbn [fst]. intros Hn. destruct (obj_text n Hn) as [Hp Ht]. apply (safe_refine (winv cwd (obj_name rt n)) _ (fun f f' => only_file (target cwd (obj_name rt n)) f f')).
  - intros f. apply kinv_winv, Hn.
  - intros f f' Hi Hi' HO. assert (HK : krel f f').
    { intros q. destruct (HO q) as [E|[->|(E1 & E2 & x & l & E3)]]; [auto | |].
      - right. left. split; [rewrite Ht; exists [n ++ lit ".obj"]; reflexivity|]. intros x E. exact (proj1 Hi' _ x (below_refl _) E).
      - rewrite Ht in E3. injection E3 as _ E3. destruct l as [|y l]; [right; left; split; [exists []; symmetry; exact E3 | intros x'; congruence]|]. right. right. split; [exact E1|]. split; [exact E2|]. exists y, l. exact E3. }
    split; [exact HK|]. apply (krel_kinv f); [exact Hi | apply Hi' | exact HK].
  - unfold save_obj. cbn [fst snd]. eapply safe_bind; [apply open_safe, Hp|]. intros h ->. apply with_close_safe. eapply (safe_bind _ _ (fun _ => True)); [apply safe_lift; auto|]. intros b _. apply fwrite_safe, Hp.
Qed.
Hypothesis Hnames : plain_names cd.
Lemma objs_safe objs : (forall n r, In (n, r) objs -> ~ In cSlash n) -> safe kinv krel (fun _ => True) (save_objs cwd rt objs).
Proof. intros H. apply safe_for_each. intros [n r] Hx. apply obj_safe. exact (H n r Hx). Qed.
Lemma skn_safe source : safe kinv krel (fun _ => True) (save_skn cd cwd source rt).
Proof.
  unfold save_skn. eapply safe_bind; [apply rmtree_safe|]. intros _ _. unfold write_dir_or_remove. apply safe_catch.
  - eapply safe_bind; [apply makedirs_ksafe|]. intros _ _. eapply safe_bind; [apply read_safe|]. intros data _.
    eapply (safe_bind _ _ (fun objs => cd_skn cd data = Ok objs)); [apply safe_lift; auto|]. intros objs Ho. apply objs_safe. intros n r Hi. exact (Hnames data objs n r Ho Hi).
  - intros e. eapply safe_bind; [apply rmtree_safe|]. intros _ _. exact Logic.I.
Qed.
End Skn.

(** ** Bodies *)

Lemma copy_body s fin data : plain_path s -> source_of fin data -> body_ok s (fun h => let~ d := fin in fwrite h d).
Proof.
  intros Hs Hf Q HQ. eapply safe_bind; [apply (source_safe fin data _ _ Hf), only_file_refl|]. intros d _. eapply safe_weaken; [|apply fwrite_safe, Hs]. auto.
Qed.
Definition image_body (fin : prog bytes) (h : path) : prog unit :=
  let~ r := catch
    (let~ data := fin in
     let '(pieces, e) := cd_image cd data in
     let~ _ := for_each pieces (fwrite h) in Ret e)
    (fun e => if is_oserror e then Ret ImgNotImplemented else Rai e) in
  match r with ImgSaved => Ret tt | ImgNotImplemented => Rai FileConversionError | ImgRaises e => if is_oserror e then Rai FileConversionError else Rai e end.
Lemma image_ok s fin data : plain_path s -> source_of fin data -> body_ok s (image_body fin).
Proof.
  intros Hs Hf Q HQ. unfold image_body. eapply (safe_bind _ _ (fun _ => True)).
  - apply safe_catch; [|intros e; destruct (is_oserror e); exact Logic.I]. eapply safe_bind; [apply (source_safe fin data _ _ Hf), only_file_refl|]. intros d _. destruct (cd_image cd d) as [pieces e].
    eapply safe_bind; [apply safe_for_each; intros x _; apply fwrite_safe, Hs|]. intros _ _. exact Logic.I.
  - intros [| |e] _; [apply HQ | exact Logic.I|]. destruct (is_oserror e); exact Logic.I.
Qed.
Lemma read_wsafe s source : safe (winv cwd s) (fun f f' => only_file (target cwd s) f f') (fun _ => True) (read_file cwd source).
Proof.
  apply safe_sys; [apply only_file_refl|]. intros f a f' Hi E. apply rbind_Ok in E as (p & _ & E). destruct (look f p) as [[| |]|]; try discriminate. injection E as _ <-. auto using only_file_refl.
Qed.
Definition bin_body (source : str) (h : path) : prog unit :=
  let~ data := read_file cwd source in
  match cd_bin cd data with
  | Err e => if is_valueerror e then Rai FileConversionError else Rai e
  | Ok (pieces, e) => write_pieces pieces e h
  end.
Lemma bin_ok s source : plain_path s -> body_ok s (bin_body source).
Proof.
  intros Hs Q HQ. unfold bin_body. eapply safe_bind; [apply read_wsafe|]. intros d _. destruct (cd_bin cd d) as [[pieces e]|e]; [apply pieces_safe; assumption | destruct (is_valueerror e); exact Logic.I].
Qed.
Definition json_body (parse : bytes -> result dumped) (fin : prog bytes) (h : path) : prog unit := let~ data := fin in let~ (pieces, e) := lift (parse data) in write_pieces pieces e h.
Lemma json_ok s parse fin data : plain_path s -> source_of fin data -> body_ok s (json_body parse fin).
Proof.
  intros Hs Hf Q HQ. unfold json_body. eapply safe_bind; [apply (source_safe fin data _ _ Hf), only_file_refl|]. intros d _. eapply (safe_bind _ _ (fun _ => True)); [apply safe_lift; auto|]. intros [pieces e] _. apply pieces_safe; assumption.
Qed.
Lemma pieces_ok s pieces e : plain_path s -> body_ok s (write_pieces pieces e).
Proof. intros Hs Q HQ. apply pieces_safe; assumption. Qed.
Lemma reading_read source : reading (read_file cwd source).
Proof. apply reading_sys. intros f a f' E. apply rbind_Ok in E as (p & _ & E). destruct (look f p) as [[| |]|]; congruence. Qed.

Section Inv.
Variables T B : path -> Prop.
Variable W : str -> Prop.
Hypothesis HT : forall s, W s -> T (target cwd s).
Definition inv (f : fs) : Prop := (forall s, W s -> ready cwd s f) /\ forall q t, B q -> look f q <> Some (NLink t).
Definition framed {A} (p : prog A) : Prop := forall pl f o pl' f', inv f -> run p pl f = (o, pl', f') -> only_files T f f' /\ inv f'.

Lemma only_files_refl f : only_files T f f.
Proof. intros q. left. reflexivity. Qed.
Lemma framed_reading {A} (p : prog A) : reading p -> framed p.
Proof. intros H pl f o pl' f' Hi E. apply H in E as [-> _]. split; [apply only_files_refl | exact Hi]. Qed.
Lemma framed_bind {A C} (p : prog A) (k : A -> prog C) : framed p -> (forall a, framed (k a)) -> framed (bind p k).
Proof.
  intros Hp Hk pl f o pl' f' Hi E. rewrite run_bind in E. destruct (run p pl f) as [[o1 pl1] f1] eqn:E1. destruct (Hp _ _ _ _ _ Hi E1) as [H1 I1].
  destruct o1 as [a|e|]; [|injection E as <- <- <-; auto..]. destruct (Hk a _ _ _ _ _ I1 E) as [H2 I2]. split; [|exact I2]. eapply only_files_trans; eassumption.
Qed.
Lemma framed_catch {A} (p : prog A) (h : exn -> prog A) : framed p -> (forall e, framed (h e)) -> framed (catch p h).
Proof.
  intros Hp Hh pl f o pl' f' Hi E. rewrite run_catch in E. destruct (run p pl f) as [[o1 pl1] f1] eqn:E1. destruct (Hp _ _ _ _ _ Hi E1) as [H1 I1].
  destruct o1 as [a|e|]; [injection E as <- <- <-; auto | | injection E as <- <- <-; auto]. destruct (Hh e _ _ _ _ _ I1 E) as [H2 I2]. split; [|exact I2]. eapply only_files_trans; eassumption.
Qed.
Lemma framed_ret {A} (a : A) : framed (Ret a).
Proof. apply framed_reading, reading_ret. Qed.
Lemma framed_rai {A} (e : exn) : framed (Rai (A := A) e).
Proof. exact (framed_reading _ (reading_lift (Err e))). Qed.
Lemma framed_for_each {A} (l : list A) body : (forall x, In x l -> framed (body x)) -> framed (for_each l body).
Proof.
  induction l as [|x l IH]; intros H; cbn [for_each]; [apply framed_ret|]. apply framed_bind; [apply H; left; reflexivity|]. intros _. apply IH. intros y Hy. apply H. right. exact Hy.
Qed.
Lemma reading_close : reading fclose.
Proof. apply reading_sys. intros f a f' E. congruence. Qed.
Lemma framed_close {A} (p : prog A) : framed p -> framed (with_close p).
Proof.
  intros H. unfold with_close. apply framed_bind; [|intros a; apply framed_bind; [apply framed_reading, reading_close | intros _; apply framed_ret]].
  apply framed_catch; [exact H|]. intros e. apply framed_bind; [apply framed_reading, reading_close | intros _; apply framed_rai].
Qed.
Lemma wfr_step {A} s (body : path -> prog A) pl f o pl' f' : ready cwd s f -> body_ok s body -> run (write_file_or_remove cwd s body) pl f = (o, pl', f') ->
  only_file (target cwd s) f f' /\ ready cwd s f'.
Proof.
  intros Hr Hb E. apply ready_winv in Hr as [Hs Hi].
  eapply (safe_run _ _ (only_file_refl _) (only_file_trans _)) in E as (H & I' & _); [|apply (wfr_safe cwd s Hs (fun _ => True)); apply Hb; auto | exact Hi].
  split; [exact H | apply winv_ready; assumption].
Qed.
Lemma inv_only s f f' : W s -> inv f -> only_file (target cwd s) f f' -> ready cwd s f' -> inv f'.
Proof.
  intros Hs [H1 H2] HO Hr. split; [intros s2 Hs2; apply (ready_only cwd s s2 f f'); auto|].
  intros q t Hq E. destruct (HO q) as [E1|[->|(_ & E1 & _)]]; [apply (H2 q t Hq); congruence | | congruence]. destruct Hr as (_ & Hn & _). exact (Hn _ t (below_refl _) E).
Qed.
Lemma framed_wfr {A} s (body : path -> prog A) : W s -> body_ok s body -> framed (write_file_or_remove cwd s body).
Proof.
  intros Hs Hb pl f o pl' f' Hi E. destruct (wfr_step s body pl f o pl' f' (proj1 Hi s Hs) Hb E) as [HO Hr].
  split; [eapply only_file_files; [apply HT, Hs | exact HO] | eapply inv_only; eassumption].
Qed.

Section SknFrame.
Variable rt : str.
Hypothesis Hrt : W rt.
Notation R := (target cwd rt).
Hypothesis HR : forall q, below q R -> T q /\ B q.
Hypothesis Hcwd : ~ below cwd R.
Hypothesis Hplain : plain_path rt.
Hypothesis Hnames : plain_names cd.
Lemma krel_inv f f' : inv f -> fs_wf f' -> krel rt f f' -> only_files T f f' /\ inv f'.
Proof.
  intros [H1 H2] Hw HK. split; [|split].
  - intros q. destruct (HK q) as [E|[[E _]|(E1 & E2 & E3)]]; [auto | right; left; apply HR, E|]. right. right. split; [exact E1|]. split; [exact E2|]. exists R. split; [apply HR, below_refl | exact E3].
  - intros s Hs. destruct (H1 s Hs) as (G1 & G2 & G3 & G4). split; [exact G1|]. split; [|split; [exact Hw|]].
    + intros q x Hq E. destruct (HK q) as [E1|[[_ E1]|(_ & E1 & _)]]; [apply (G2 q x Hq); congruence | exact (E1 x E) | congruence].
    + destruct (HK cwd) as [E|[[E _]|(E & E' & _)]]; [congruence | contradiction | exact E'].
  - intros q x Hq E. destruct (HK q) as [E1|[[_ E1]|(_ & E1 & _)]]; [apply (H2 q x Hq); congruence | exact (E1 x E) | congruence].
Qed.
Lemma inv_kinv f : inv f -> kinv rt f.
Proof. intros [H1 H2]. split; [apply ready_winv, H1, Hrt|]. intros q x Hq. apply H2, HR, Hq. Qed.
Lemma framed_skn source : framed (save_skn cd cwd source rt).
Proof.
  intros pl f o pl' f' Hi E. eapply (safe_run _ _ (krel_refl rt) (krel_trans rt)) in E as (HK & Hi' & _); [|apply skn_safe; assumption | apply inv_kinv, Hi].
  apply krel_inv; [exact Hi | apply Hi' | exact HK].
Qed.
End SknFrame.

Variable output : str.
(** The texts that a conversion writes. *)
Definition writes (c : conv) (p : str) : Prop :=
  (forall q, In q (converted_paths c p) -> W (path_join output q) /\ plain_path (path_join output q))
  /\ (c = SknConv -> (forall q, below q (at_out cwd output (stem p)) -> T q /\ B q) /\ ~ below cwd (at_out cwd output (stem p)) /\ plain_names cd).
Lemma framed_convert c p fin data : source_of fin data -> writes c p -> framed (convert cd cwd c fin output p).
Proof.
  intros Hf [Hw Hk].
  assert (Ejson : path_join output (p ++ lit ".json") = path_join output p ++ lit ".json") by (apply path_join_app; right; reflexivity).
  destruct c as [exts| |r|r| |r| |]; cbn [convert converted_paths In] in *.
  - destruct (Hw _ (or_introl eq_refl)) as [H1 H2]. apply framed_wfr; [exact H1 | exact (image_ok _ fin data H2 Hf)].
  - destruct (Hw _ (or_introl eq_refl)) as [H1 H2]. apply framed_bind; [apply framed_reading, (source_reading fin data Hf)|]. intros d. apply framed_bind; [apply framed_reading, reading_lift|]. intros dds.
    apply framed_wfr; [exact H1 | apply (image_ok _ (Ret dds) dds H2); left; reflexivity].
  - destruct (Hw _ (or_introl eq_refl)) as [H1 H2]. rewrite Ejson in *. apply framed_wfr; [exact H1 | exact (json_ok _ _ fin data H2 Hf)].
  - destruct (Hw _ (or_introl eq_refl)) as [H1 H2], (Hw _ (or_intror (or_introl eq_refl))) as [H3 H4]. rewrite Ejson in *.
    apply framed_bind; [apply framed_wfr; [exact H1 | exact (copy_body _ fin data H2 Hf)]|]. intros _. apply framed_wfr; [exact H3 | exact (bin_ok _ _ H4)].
  - destruct (Hw _ (or_introl eq_refl)) as [H1 H2], (Hw _ (or_intror (or_introl eq_refl))) as [H3 H4]. destruct (Hk eq_refl) as (K1 & K2 & K3).
    apply framed_bind; [apply framed_wfr; [exact H1 | exact (copy_body _ fin data H2 Hf)]|]. intros _. apply framed_skn; assumption.
  - destruct (Hw _ (or_introl eq_refl)) as [H1 H2], (Hw _ (or_intror (or_introl eq_refl))) as [H3 H4]. rewrite Ejson in *.
    apply framed_bind; [apply framed_wfr; [exact H1 | exact (copy_body _ fin data H2 Hf)]|]. intros _. apply framed_bind; [apply framed_reading, reading_read|]. intros d. apply framed_bind; [apply framed_reading, reading_lift|].
    intros [pieces e]. apply framed_wfr; [exact H3 | apply pieces_ok, H4].
  - destruct (Hw _ (or_introl eq_refl)) as [H1 H2]. rewrite Ejson in *. apply framed_wfr; [exact H1 | exact (json_ok _ _ fin data H2 Hf)].
  - destruct (Hw _ (or_introl eq_refl)) as [H1 H2]. apply framed_wfr; [exact H1 | exact (copy_body _ fin data H2 Hf)].
Qed.
End Inv.

(** ** Results *)

Lemma wfr_file {A} s (body : path -> prog A) (P : bytes -> Prop) pl f a pl' f' : ready cwd s f -> body_ok s body ->
  (forall pl1 f1 a1 pl2 f2, look f1 (target cwd s) = Some (NFile []) -> winv cwd s f1 -> only_file (target cwd s) f f1 -> run (body (target cwd s)) pl1 f1 = (Done a1, pl2, f2) -> exists b, look f2 (target cwd s) = Some (NFile b) /\ P b) ->
  run (write_file_or_remove cwd s body) pl f = (Done a, pl', f') -> exists b, look f' (target cwd s) = Some (NFile b) /\ P b.
Proof.
  intros Hr Hb HP E. apply ready_winv in Hr as [Hs Hi]. apply (wfr_done cwd s Hs) in E as (pl1 & f1 & pl2 & H1 & H2 & H3 & H4); [|assumption..]. eauto.
Qed.
Lemma read_done s pl f d a pl' f' : plain_path s -> winv cwd s f -> look f (target cwd s) = Some (NFile d) -> run (read_file cwd s) pl f = (Done a, pl', f') -> a = d /\ f' = f.
Proof.
  intros Hs Hi El E. apply run_sys_done in E. rewrite (locate_ok cwd s Hs f true Hi) in E by congruence. cbn [rbind] in E. rewrite El in E. injection E as -> ->. auto.
Qed.
Lemma write_done s data pl f a pl' f' : plain_path s -> look f (target cwd s) = Some (NFile []) -> run (fwrite (target cwd s) data) pl f = (Done a, pl', f') -> look f' (target cwd s) = Some (NFile data).
Proof.
  intros Hs El E. apply run_fwrite in E as ->. unfold f_append. rewrite El. cbn [app]. apply look_put_same, target_nonempty, Hs.
Qed.
Lemma write_pieces_done s pieces e pl f a pl' f' : plain_path s -> look f (target cwd s) = Some (NFile []) -> run (write_pieces pieces e (target cwd s)) pl f = (Done a, pl', f') ->
  e = None /\ look f' (target cwd s) = Some (NFile (concat pieces)).
Proof.
  intros Hs El. unfold write_pieces. rewrite run_bind. destruct (run _ pl f) as [[[u|x|] pl1] f1] eqn:E1; try discriminate. apply (pieces_done _ (target_nonempty cwd s Hs) _ _ _ _ [] _ _ El) in E1.
  destruct e; [discriminate|]. cbn [run]. intros E. injection E as _ _ <-. auto.
Qed.
Lemma copy_done s fin data pl f a pl' f' : ready cwd s f -> source_of fin data -> run (copy_to cwd fin s) pl f = (Done a, pl', f') -> look f' (target cwd s) = Some (NFile data).
Proof.
  intros Hr Hf E. pose proof Hr as [Hs _]. apply (wfr_file s _ (eq data)) in E as (b & E & <-); [exact E | exact Hr | exact (copy_body s fin data Hs Hf)|].
  intros pl1 f1 a1 pl2 f2 H1 _ _ E1. rewrite run_bind in E1. destruct (run fin pl1 f1) as [[[d|x|] pl3] f3] eqn:E3; try discriminate. apply (source_run fin data _ _ _ _ _ Hf) in E3 as [-> ->].
  exists data. split; [|reflexivity]. eapply write_done; eassumption.
Qed.
Lemma image_done s fin data pl f a pl' f' : ready cwd s f -> source_of fin data -> run (save_image cd cwd fin s) pl f = (Done a, pl', f') -> exists b, look f' (target cwd s) = Some (NFile b) /\ image_of cd data b.
Proof.
  intros Hr Hf. pose proof Hr as [Hs _]. apply (wfr_file s (image_body fin) (image_of cd data)); [exact Hr | exact (image_ok s fin data Hs Hf)|].
  intros pl1 f1 a1 pl2 f2 H1 _ _. unfold image_body. rewrite run_bind, run_catch, run_bind. destruct (run fin pl1 f1) as [[[d|x|] pl3] f3] eqn:E3.
  - apply (source_run fin data _ _ _ _ _ Hf) in E3 as [-> ->]. destruct (cd_image cd data) as [pieces e] eqn:Ei. rewrite run_bind. destruct (run (for_each pieces _) pl3 f1) as [[[u|x|] pl4] f4] eqn:E4.
    + apply (pieces_done _ (target_nonempty cwd s Hs) _ _ _ _ [] _ _ H1) in E4. cbn [run]. destruct e as [| |x]; cbn [run]; [|discriminate | destruct (is_oserror x); discriminate]. intros E. injection E as _ _ <-. exists (concat pieces). split; [exact E4|]. exists pieces. auto.
    + destruct (is_oserror x); cbn [run]; discriminate.
    + discriminate.
  - destruct (is_oserror x); cbn [run]; discriminate.
  - discriminate.
Qed.
Lemma json_done s parse fin data pl f a pl' f' : ready cwd s f -> source_of fin data -> run (save_json cwd parse fin s) pl f = (Done a, pl', f') -> exists b, look f' (target cwd s) = Some (NFile b) /\ json_of parse data b.
Proof.
  intros Hr Hf. pose proof Hr as [Hs _]. apply (wfr_file s (json_body parse fin) (json_of parse data)); [exact Hr | exact (json_ok s parse fin data Hs Hf)|].
  intros pl1 f1 a1 pl2 f2 H1 _ _. unfold json_body. rewrite run_bind. destruct (run fin pl1 f1) as [[[d|x|] pl3] f3] eqn:E3; try discriminate. apply (source_run fin data _ _ _ _ _ Hf) in E3 as [-> ->].
  rewrite run_bind. destruct (parse data) as [[pieces e]|x] eqn:Ep; cbn [lift run]; [|discriminate]. intros E. apply write_pieces_done in E as [-> E]; [|assumption..]. exists (concat pieces). split; [exact E|]. exists pieces. auto.
Qed.
Lemma pieces_file s pieces e pl f a pl' f' : ready cwd s f -> run (write_file_or_remove cwd s (write_pieces pieces e)) pl f = (Done a, pl', f') -> e = None /\ look f' (target cwd s) = Some (NFile (concat pieces)).
Proof.
  intros Hr E. pose proof Hr as [Hs _]. apply (wfr_file s _ (fun b => e = None /\ b = concat pieces)) in E as (b & E & -> & ->); [auto | exact Hr | exact (pieces_ok s pieces e Hs)|].
  intros pl1 f1 a1 pl2 f2 H1 _ _ E1. apply write_pieces_done in E1 as [-> E1]; [|assumption..]. eauto.
Qed.
Lemma only_file_keeps t q f f' : only_file t f f' -> q <> t -> look f q <> None -> look f' q = look f q.
Proof. intros H Hq Hl. destruct (H q) as [E|[E|(E & _)]]; [exact E | contradiction | congruence]. Qed.
Lemma bin_done source s data pl f a pl' f' : ready cwd s f -> ready cwd source f -> target cwd source <> target cwd s -> look f (target cwd source) = Some (NFile data) ->
  run (save_bin_json cd cwd source s) pl f = (Done a, pl', f') -> exists b, look f' (target cwd s) = Some (NFile b) /\ json_of (cd_bin cd) data b.
Proof.
  intros Hr Hr2 Hne El. pose proof Hr as [Hs _]. pose proof Hr2 as [Hs2 _]. apply (wfr_file s (bin_body source) (json_of (cd_bin cd) data)); [exact Hr | exact (bin_ok s source Hs)|].
  intros pl1 f1 a1 pl2 f2 H1 Hi1 HO. unfold bin_body. rewrite run_bind. destruct (run _ pl1 f1) as [[[d|x|] pl3] f3] eqn:E3; try discriminate.
  assert (Hr3 : ready cwd source f1) by (apply (ready_only cwd s source f f1); [exact Hr | apply winv_ready; assumption | exact HO | exact Hr2]).
  apply (read_done source pl1 f1 data) in E3 as [-> ->]; [|exact Hs2 | apply (ready_winv cwd source f1 Hr3) | rewrite (only_file_keeps _ _ _ _ HO); congruence].
  destruct (cd_bin cd data) as [[pieces e]|x] eqn:Ep; [|destruct (is_valueerror x); discriminate]. intros E. apply write_pieces_done in E as [-> E]; [|assumption..]. exists (concat pieces). split; [exact E|]. exists pieces. auto.
Qed.


Lemma close_done {A} (p : prog A) pl f a pl' f' : run (with_close p) pl f = (Done a, pl', f') -> exists pl1, run p pl f = (Done a, pl1, f').
Proof.
  unfold with_close. rewrite run_bind, run_catch. destruct (run p pl f) as [[[b|e|] pl1] f1]; [|rewrite run_bind; destruct (run fclose pl1 f1) as [[[?|?|] ?] ?]; cbn [run]; discriminate | discriminate].
  rewrite run_bind. destruct (run fclose pl1 f1) as [[[u|e|] pl2] f2] eqn:E2; try discriminate. apply run_fclose in E2 as ->. cbn [run]. intros E. injection E as <- <- <-. eauto.
Qed.
Lemma wdr_done s body pl f a pl' f' : run (write_dir_or_remove cwd s body) pl f = (Done a, pl', f') ->
  exists pl1 f1, run (makedirs cwd s) pl f = (Done tt, pl1, f1) /\ run body pl1 f1 = (Done a, pl', f').
Proof.
  unfold write_dir_or_remove. rewrite run_catch, run_bind. destruct (run (makedirs cwd s) pl f) as [[[[]|e|] pl1] f1] eqn:E1.
  - destruct (run body pl1 f1) as [[[b|e|] pl2] f2] eqn:E2; [|rewrite run_bind; destruct (run (rmtree_ignore cwd s) pl2 f2) as [[[?|?|] ?] ?]; cbn [run]; discriminate | discriminate].
    intros E. injection E as <- <- <-. exists pl1, f1. auto.
  - rewrite run_bind. destruct (run (rmtree_ignore cwd s) pl1 f1) as [[[?|?|] ?] ?]; cbn [run]; discriminate.
  - discriminate.
Qed.

Section SknDone.
Variable rt : str.
Notation R := (target cwd rt).
Hypothesis Hplain : plain_path rt.
Hypothesis Hcwd : ~ below cwd R.
Lemma obj_done n r pl f a pl' f' : ~ In cSlash n -> kinv rt f -> run (save_obj rt (n, r)) pl f = (Done a, pl', f') ->
  exists b, r = Ok b /\ look f' ((n ++ lit ".obj") :: R) = Some (NFile b) /\ forall q, q <> (n ++ lit ".obj") :: R -> look f' q = look f q.
Proof.
  intros Hn Hi. destruct (obj_text rt Hplain n Hn) as [Hp Ht]. pose proof (kinv_winv rt Hplain n f Hn Hi) as Hwi. rewrite <- Ht. set (s := obj_name rt n) in *.
  unfold save_obj. cbn [fst snd]. fold s. rewrite run_bind. destruct (run (open_w cwd s) pl f) as [[[h|e|] pl1] f1] eqn:E1; try discriminate. apply run_sys_done in E1. unfold f_open_w in E1. apply rbind_Ok in E1 as (p & Ep & E1).
  apply (locate_t cwd s Hp) in Ep as [-> _]; [|apply Hwi]. assert (h = target cwd s /\ f1 = put (target cwd s) (NFile []) f) as [-> ->] by (destruct (look f (target cwd s)) as [[| |]|]; try discriminate; injection E1 as <- <-; auto).
  intros E. apply close_done in E as (pl2 & E). rewrite run_bind in E. destruct r as [b|e]; cbn [lift run] in E; [|discriminate]. exists b. split; [reflexivity|]. pose proof E as E2. apply write_done in E2; [|exact Hp | apply look_put_same, target_nonempty, Hp].
  split; [exact E2|]. intros q Hq. apply run_fwrite in E as ->. unfold f_append. rewrite look_put_same by (apply target_nonempty, Hp). rewrite !look_put_other by exact Hq. reflexivity.
Qed.
Lemma obj_neq n m : n <> m -> (n ++ lit ".obj") :: R <> (m ++ lit ".obj") :: R.
Proof. intros H E. injection E as E. apply app_inv_tail in E. contradiction. Qed.
Lemma objs_done : forall objs pl f a pl' f', (forall n r, In (n, r) objs -> ~ In cSlash n) -> kinv rt f -> run (save_objs cwd rt objs) pl f = (Done a, pl', f') ->
  (forall l1 n r l2, objs = l1 ++ (n, r) :: l2 -> ~ In n (map fst l2) -> exists b, r = Ok b /\ look f' ((n ++ lit ".obj") :: R) = Some (NFile b))
  /\ forall q, (forall n, In n (map fst objs) -> q <> (n ++ lit ".obj") :: R) -> look f' q = look f q.
Proof.
  induction objs as [|[n r] objs IH]; intros pl f a pl' f' Hn Hi; unfold save_objs; cbn [for_each].
  - cbn [run]. intros E. injection E as _ _ <-. split; [intros [|? ?]; discriminate | reflexivity].
  - rewrite run_bind. destruct (run _ pl f) as [[[u|e|] pl1] f1] eqn:E1; try discriminate. change (run (save_obj rt (n, r)) pl f = (Done u, pl1, f1)) in E1. pose proof E1 as E2.
    assert (Hn1 : ~ In cSlash n) by (apply (Hn n r); left; reflexivity).
    eapply (safe_run _ _ (krel_refl rt) (krel_trans rt)) in E2 as (_ & Hi1 & _); [|apply obj_safe; assumption | exact Hi]. apply obj_done in E1 as (b & -> & H1 & H2); [|assumption..].
    intros E. apply IH in E as [G1 G2]; [|intros m r Hm; apply (Hn m r); right; exact Hm | exact Hi1]. split.
    + intros [|x l1] m r l2 Eo Hm.
      * cbn [app] in Eo. injection Eo as E1 E2 E3. subst m r l2. exists b. split; [reflexivity|]. rewrite G2; [exact H1|]. intros k Hk. apply obj_neq. intros ->. contradiction.
      * cbn [app] in Eo. injection Eo as _ Eo. exact (G1 l1 m r l2 Eo Hm).
    + intros q Hq. cbn [map fst] in Hq. rewrite G2, H2; [reflexivity | apply Hq; left; reflexivity | intros k Hk; apply Hq; right; exact Hk].
Qed.
Lemma tree_gone pl f a pl' f' : failures pl = 0%nat -> kinv rt f -> run (rmtree_ignore cwd rt) pl f = (Done a, pl', f') -> forall q, strictly_below q R -> look f' q = None.
Proof.
  intros Hpl Hi E q Hq. destruct Hq as (x & l & ->). assert (HB : below (x :: l ++ R) R) by (exists (x :: l); reflexivity).
  assert (HD : look f R = Some NDir \/ look f R <> Some NDir) by (destruct (look f R) as [[| |]|]; auto; right; discriminate). destruct HD as [HD|HD].
  - destruct (rmtree_all cwd rt f Hplain (proj1 Hi) HD) as (f2 & E2 & _ & H2 & _). destruct (run_no_failure (rmtree_ignore cwd rt) pl f Hpl) as (pl2 & _ & E3). rewrite E2 in E3. cbn [fst snd] in E3. rewrite E3 in E. injection E as _ _ <-. apply H2, HB.
  - eapply (safe_run _ _ (cut_refl R) (cut_trans R)) in E as (HC & _); [|apply rmtree_cut; assumption | apply Hi]. destruct (HC (x :: l ++ R)) as [E|[_ E]]; [|exact E]. rewrite E. destruct (look f (x :: l ++ R)) eqn:El; [|reflexivity].
    exfalso. apply HD. apply (wf_parents f (x :: l)); [apply Hi | cbn [app]; congruence | discriminate].
Qed.
Lemma krel_keeps f f' q : krel rt f f' -> ~ below q R -> look f q <> None -> look f' q = look f q.
Proof. intros H Hq Hl. destruct (H q) as [E|[[E _]|(E & _)]]; [exact E | contradiction | congruence]. Qed.
Hypothesis Hnames : plain_names cd.
Lemma skn_done source data pl f a pl' f' : ready cwd source f -> apart (target cwd source) R -> kinv rt f -> look f (target cwd source) = Some (NFile data) -> run (save_skn cd cwd source rt) pl f = (Done a, pl', f') ->
  look f' (target cwd source) = Some (NFile data) /\ look f' R = Some NDir
  /\ exists objs, cd_skn cd data = Ok objs
    /\ (forall l1 n r l2, objs = l1 ++ (n, r) :: l2 -> ~ In n (map fst l2) -> exists b, r = Ok b /\ look f' ((n ++ lit ".obj") :: R) = Some (NFile b))
    /\ (failures pl = 0%nat -> forall q, strictly_below q R -> look f' q <> None -> exists n, In n (map fst objs) /\ q = (n ++ lit ".obj") :: R).
Proof.
  intros Hr [Ha _] Hi El. unfold save_skn. rewrite run_bind. destruct (run (rmtree_ignore cwd rt) pl f) as [[[u|e|] pl1] f1] eqn:E1; try discriminate.
  pose proof E1 as E1'. eapply (safe_run _ _ (krel_refl rt) (krel_trans rt)) in E1' as (K1 & Hi1 & _); [|apply rmtree_safe; assumption | exact Hi].
  intros E. apply wdr_done in E as (pl2 & f2 & E2 & E). pose proof E2 as E2'. eapply (safe_run _ _ (krel_refl rt) (krel_trans rt)) in E2' as (K2 & Hi2 & _); [|apply makedirs_ksafe; assumption | exact Hi1].
  pose proof E2 as E2d. apply makedirs_text_done in E2d as [_ Hd]; [|apply Hi1 | apply Hplain].
  assert (Hk : forall q, ~ below q R -> look f q <> None -> look f2 q = look f q) by (intros q Hq Hl; rewrite <- (krel_keeps f f1 q K1 Hq Hl); apply krel_keeps; [assumption.. | rewrite (krel_keeps f f1 q K1 Hq Hl); exact Hl]).
  assert (Hs2 : look f2 (target cwd source) = Some (NFile data)) by (rewrite Hk; [exact El | exact Ha | congruence]).
  assert (Hr2 : winv cwd source f2).
  { split; [|split; apply Hi2]. intros q x Hq Ex. destruct (krel_trans rt _ _ _ K1 K2 q) as [E0|[[B0 _]|(_ & E0 & _)]]; [|apply Ha; destruct Hq as [l1 ->], B0 as [l2 ->]; exists (l1 ++ l2); rewrite app_assoc; reflexivity | congruence].
    rewrite E0 in Ex. destruct Hr as (_ & Hn & _). exact (Hn q x Hq Ex). }
  rewrite run_bind in E. destruct (run (read_file cwd source) pl2 f2) as [[[d|e|] pl3] f3] eqn:E3; try discriminate. apply (read_done source pl2 f2 data) in E3 as [-> ->]; [|apply Hr | exact Hr2 | exact Hs2].
  rewrite run_bind in E. destruct (cd_skn cd data) as [objs|e] eqn:Eo; cbn [lift run] in E; [|discriminate]. apply objs_done in E as [G1 G2]; [|intros n r Hn; exact (Hnames data objs n r Eo Hn) | exact Hi2].
  split; [rewrite G2; [exact Hs2 | intros n _ E; apply Ha; exists [n ++ lit ".obj"]; rewrite E; reflexivity]|].
  split; [rewrite G2; [exact Hd | intros n _ E; apply (f_equal (@length _)) in E; cbn [length] in E; lia]|]. exists objs. split; [reflexivity|]. split; [exact G1|].
  intros Hpl q Hq Hl. pose proof (tree_gone pl f u pl1 f1 Hpl Hi E1 q Hq) as Hg.
  assert (Hg2 : look f2 q = None).
  { eapply (safe_run _ _ (adds_dirs_refl R) (adds_dirs_trans R)) in E2 as (H2 & _); [|apply makedirs_dinv, Hplain | apply Hi1]. destruct (H2 q) as [E|(_ & _ & [l E])]; [congruence|].
    exfalso. destruct Hq as (x & l' & ->). apply (f_equal (@length _)) in E. rewrite app_length in E. cbn [length] in E. rewrite app_length in E. lia. }
  assert (HD : (exists n, In n (map fst objs) /\ q = (n ++ lit ".obj") :: R) \/ forall n, In n (map fst objs) -> q <> (n ++ lit ".obj") :: R).
  { clear -q. induction (map fst objs) as [|n l IH]; [right; intros n []|]. destruct (eqb q ((n ++ lit ".obj") :: R)) eqn:E; [left; exists n; split; [left; reflexivity | apply eqbT, E]|].
    destruct IH as [(m & H1 & H2)|IH]; [left; exists m; split; [right; exact H1 | exact H2]|]. right. intros m [<-|Hm]; [apply eqbF, E | apply IH, Hm]. }
  destruct HD as [HD|HD]; [exact HD|]. exfalso. apply Hl. rewrite G2 by exact HD. exact Hg2.
Qed.
End SknDone.


(** ** Failures *)

Lemma lookup_path e : lookup_error e -> path_error e.
Proof. destruct e as [| | | | | | | | | | | |n| | | |]; try contradiction. intros H. exists n. split; [reflexivity|]. destruct n; try contradiction; auto 6. Qed.
Lemma close_raised {A} (p : prog A) pl f e pl' f' : failures pl = 0%nat -> run (with_close p) pl f = (Raised e, pl', f') -> exists pl1, run p pl f = (Raised e, pl1, f').
Proof.
  intros Hpl. unfold with_close. rewrite run_bind, run_catch. destruct (run p pl f) as [[[b|x|] pl1] f1] eqn:E1; [| |discriminate].
  - rewrite run_bind. destruct (run fclose pl1 f1) as [[[u|x|] pl2] f2] eqn:E2; try discriminate. exfalso. apply (natural_run (fun _ => False)) in E2; [exact E2 | apply natural_fclose | eapply run_failures0; eassumption].
  - rewrite run_bind. destruct (run fclose pl1 f1) as [[[u|y|] pl2] f2] eqn:E2; [| |discriminate].
    + apply run_fclose in E2 as ->. cbn [run]. intros E. injection E as <- <- <-. eauto.
    + exfalso. apply (natural_run (fun _ => False)) in E2; [exact E2 | apply natural_fclose | eapply run_failures0; eassumption].
Qed.
Lemma wfr_fails {A} s (body : path -> prog A) pl f e pl' f' : ready cwd s f -> body_ok s body -> failures pl = 0%nat -> run (write_file_or_remove cwd s body) pl f = (Raised e, pl', f') ->
  ~ is_file f' (target cwd s) /\ (path_error e \/ exists pl1 f1 pl2 f2, look f1 (target cwd s) = Some (NFile []) /\ winv cwd s f1 /\ only_file (target cwd s) f f1 /\ failures pl1 = 0%nat /\ run (body (target cwd s)) pl1 f1 = (Raised e, pl2, f2)).
Proof.
  intros Hr Hb Hpl E. apply ready_winv in Hr as [Hs Hi]. split.
  { apply (wfr_raised cwd s Hs) in E as [H|(u & x & ->)]; [exact H | rewrite failures_app in Hpl; cbn [failures] in Hpl; lia | assumption..]. }
  unfold write_file_or_remove in E. rewrite run_catch in E. match type of E with context [run ?p pl f] => destruct (run p pl f) as [[[a|x|] pl1] f1] eqn:E1 end; [discriminate | | discriminate].
  assert (x = e) as ->.
  { rewrite run_bind in E. destruct (run _ pl1 f1) as [[[u|y|] pl2] f2] eqn:E2; cbn [run] in E; [congruence | | discriminate]. exfalso. apply (natural_run (fun _ => False)) in E2; [exact E2 | | eapply run_failures0; eassumption].
    eapply (natural_catch _ (fun x => is_oserror x = true)); [apply natural_sys_part; intros g z; apply f_remove_err | intros z ->; exact Logic.I]. }
  clear E. rewrite run_bind in E1. destruct (run (makedirs cwd (dirname s)) pl f) as [[[[]|x|] pl2] f2] eqn:E2; [| |discriminate].
  2: { left. apply lookup_path. injection E1 as <- _ _. eapply natural_run; [apply natural_makedirs | exact Hpl | exact E2]. }
  pose proof (run_failures0 _ _ _ _ _ _ E2 Hpl) as Hp2. eapply (safe_run _ _ (only_file_refl _) (only_file_trans _)) in E2 as (H2 & I2 & _); [|apply (makedirs_dir_safe cwd s Hs) | assumption].
  rewrite run_bind in E1. destruct (run (open_w cwd s) pl2 f2) as [[[h|x|] pl3] f3] eqn:E3; [| |discriminate].
  2: { left. apply lookup_path. injection E1 as <- _ _. eapply natural_run; [apply natural_open_w | exact Hp2 | exact E3]. }
  right. pose proof (run_failures0 _ _ _ _ _ _ E3 Hp2) as Hp3. pose proof E3 as E3'. eapply (safe_run _ _ (only_file_refl _) (only_file_trans _)) in E3' as (H3 & I3 & Hh); [|apply (open_safe cwd s Hs) | assumption]. cbn beta iota in Hh. subst h.
  apply run_sys_done in E3. unfold f_open_w in E3. apply rbind_Ok in E3 as (p & Ep & E3).
  assert (look f3 (target cwd s) = Some (NFile [])) as El.
  { apply (locate_t cwd s Hs) in Ep as [-> _]; [|apply I2]. destruct (look f2 (target cwd s)) as [[]|]; try discriminate;
      pose proof (f_equal (fun x => match x with Ok (_, y) => y | Err _ => f3 end) E3) as E4; cbn in E4; subst f3; apply look_put_same, target_nonempty, Hs. }
  apply close_raised in E1 as (pl4 & E1); [|exact Hp3]. exists pl3, f3, pl4, f1. split; [exact El|]. split; [exact I3|]. split; [eapply only_file_trans; eassumption|]. auto.
Qed.
Lemma source_fails fin data pl f e pl' f' : source_of fin data -> failures pl = 0%nat -> run fin pl f = (Raised e, pl', f') -> False.
Proof. intros [-> | ->] Hpl E; [discriminate|]. eapply (natural_run (fun _ => False)); [|exact Hpl | exact E]. apply natural_sys_part. discriminate. Qed.
Lemma pieces_fail h pieces pl f e pl' f' : failures pl = 0%nat -> run (for_each pieces (fwrite h)) pl f = (Raised e, pl', f') -> False.
Proof.
  intros Hpl E. eapply (natural_run (fun _ => False)); [|exact Hpl | exact E]. clear. induction pieces as [|x pieces IH]; cbn [for_each]; [exact Logic.I|]. apply natural_bind; [apply natural_fwrite | intros _; exact IH].
Qed.
Lemma write_pieces_fails h pieces x pl f e pl' f' : failures pl = 0%nat -> run (write_pieces pieces x h) pl f = (Raised e, pl', f') -> x = Some e.
Proof.
  intros Hpl. unfold write_pieces. rewrite run_bind. destruct (run _ pl f) as [[[u|y|] pl1] f1] eqn:E1; [|exfalso; eapply pieces_fail; eassumption | discriminate]. destruct x; cbn [run]; [|discriminate]. intros E. injection E as <- _ _. reflexivity.
Qed.
Lemma copy_fails s fin data pl f e pl' f' : ready cwd s f -> source_of fin data -> failures pl = 0%nat -> run (copy_to cwd fin s) pl f = (Raised e, pl', f') -> path_error e.
Proof.
  intros Hr Hf Hpl E. apply wfr_fails in E as (_ & [E|(pl1 & f1 & pl2 & f2 & _ & _ & _ & Hp1 & E)]); [exact E | | exact Hr | exact (copy_body s fin data (proj1 Hr) Hf) | exact Hpl].
  exfalso. rewrite run_bind in E. destruct (run fin pl1 f1) as [[[d|x|] pl3] f3] eqn:E3; [|eapply source_fails; eassumption | discriminate].
  apply (natural_run (fun _ => False)) in E; [exact E | apply natural_fwrite | eapply run_failures0; eassumption].
Qed.
Lemma image_fails s fin data pl f e pl' f' : ready cwd s f -> source_of fin data -> failures pl = 0%nat -> run (save_image cd cwd fin s) pl f = (Raised e, pl', f') ->
  path_error e \/ image_error cd data e /\ ~ is_file f' (target cwd s).
Proof.
  intros Hr Hf Hpl E. apply (wfr_fails s (image_body fin)) in E as (Hn & [E|(pl1 & f1 & pl2 & f2 & _ & _ & _ & Hp1 & E)]); [left; exact E | | exact Hr | exact (image_ok s fin data (proj1 Hr) Hf) | exact Hpl].
  right. split; [|exact Hn]. unfold image_body in E. rewrite run_bind, run_catch, run_bind in E. destruct (run fin pl1 f1) as [[[d|x|] pl3] f3] eqn:E3; [|exfalso; eapply source_fails; eassumption | discriminate].
  pose proof (run_failures0 _ _ _ _ _ _ E3 Hp1) as Hp3. apply (source_run fin data _ _ _ _ _ Hf) in E3 as [-> ->]. destruct (cd_image cd data) as [pieces x] eqn:Ei. rewrite run_bind in E.
  destruct (run (for_each pieces _) pl3 f1) as [[[u|y|] pl4] f4] eqn:E4; [|exfalso; eapply pieces_fail; eassumption | discriminate]. cbn [run] in E. exists pieces, x. split; [exact Ei|].
  destruct x as [| |x]; cbn [run] in E; [discriminate | left; injection E as <- _ _; auto|]. right. exists x. split; [reflexivity|]. destruct (is_oserror x) eqn:Ex; cbn [run] in E; injection E as <- _ _; auto.
Qed.
Lemma json_fails s parse fin data pl f e pl' f' : ready cwd s f -> source_of fin data -> failures pl = 0%nat -> run (save_json cwd parse fin s) pl f = (Raised e, pl', f') ->
  path_error e \/ json_error parse data e /\ ~ is_file f' (target cwd s).
Proof.
  intros Hr Hf Hpl E. apply (wfr_fails s (json_body parse fin)) in E as (Hn & [E|(pl1 & f1 & pl2 & f2 & _ & _ & _ & Hp1 & E)]); [left; exact E | | exact Hr | exact (json_ok s parse fin data (proj1 Hr) Hf) | exact Hpl].
  right. split; [|exact Hn]. unfold json_body in E. rewrite run_bind in E. destruct (run fin pl1 f1) as [[[d|x|] pl3] f3] eqn:E3; [|exfalso; eapply source_fails; eassumption | discriminate].
  pose proof (run_failures0 _ _ _ _ _ _ E3 Hp1) as Hp3. apply (source_run fin data _ _ _ _ _ Hf) in E3 as [-> ->]. rewrite run_bind in E. destruct (parse data) as [[pieces x]|x] eqn:Ep; cbn [lift run] in E.
  - apply write_pieces_fails in E as ->; [|exact Hp3]. right. eauto.
  - injection E as <- _ _. left. exact Ep.
Qed.
Lemma read_fails s pl f d e pl' f' : plain_path s -> winv cwd s f -> look f (target cwd s) = Some (NFile d) -> failures pl = 0%nat -> run (read_file cwd s) pl f = (Raised e, pl', f') -> False.
Proof.
  intros Hs Hi El Hpl E. assert (E0 : run (read_file cwd s) [] f = (Done d, [], f)) by (unfold read_file, sys, sys_part; cbn [run]; rewrite (locate_ok cwd s Hs f true Hi) by congruence; cbn [rbind]; rewrite El; reflexivity).
  destruct (run_no_failure (read_file cwd s) pl f Hpl) as (pl2 & _ & E2). rewrite E0 in E2. rewrite E2 in E. discriminate.
Qed.
Lemma valueerror_iff e : if is_valueerror e then e = ValueError \/ e = UnicodeDecodeError else e <> ValueError /\ e <> UnicodeDecodeError.
Proof. destruct e; cbn; auto; split; discriminate. Qed.
Lemma bin_fails source s data pl f e pl' f' : ready cwd s f -> ready cwd source f -> target cwd source <> target cwd s -> look f (target cwd source) = Some (NFile data) -> failures pl = 0%nat ->
  run (save_bin_json cd cwd source s) pl f = (Raised e, pl', f') -> path_error e \/ bin_error cd data e /\ ~ is_file f' (target cwd s).
Proof.
  intros Hr Hr2 Hne El Hpl E. pose proof Hr as [Hs _]. pose proof Hr2 as [Hs2 _].
  apply (wfr_fails s (bin_body source)) in E as (Hn & [E|(pl1 & f1 & pl2 & f2 & _ & Hi1 & HO & Hp1 & E)]); [left; exact E | | exact Hr | exact (bin_ok s source Hs) | exact Hpl].
  right. split; [|exact Hn]. unfold bin_body in E. rewrite run_bind in E.
  assert (Hr3 : ready cwd source f1) by (apply (ready_only cwd s source f f1); [exact Hr | apply winv_ready; assumption | exact HO | exact Hr2]).
  assert (El1 : look f1 (target cwd source) = Some (NFile data)) by (rewrite (only_file_keeps _ _ _ _ HO); congruence).
  pose proof (proj2 (ready_winv cwd source f1 Hr3)) as Hi3. destruct (run (read_file cwd source) pl1 f1) as [[[d|x|] pl3] f3] eqn:E3; [|exfalso; exact (read_fails source pl1 f1 data x pl3 f3 Hs2 Hi3 El1 Hp1 E3) | discriminate].
  pose proof (run_failures0 _ _ _ _ _ _ E3 Hp1) as Hp3. apply (read_done source pl1 f1 data) in E3 as [-> ->]; [|assumption..].
  destruct (cd_bin cd data) as [[pieces x]|x] eqn:Ep.
  - apply write_pieces_fails in E as ->; [|exact Hp3]. right. eauto.
  - left. exists x. split; [exact Ep|]. pose proof (valueerror_iff x) as Hx. destruct (is_valueerror x); cbn [run] in E; injection E as <- _ _; [left; auto | right; destruct Hx; auto].
Qed.
Lemma pieces_file_fails s pieces x pl f e pl' f' : ready cwd s f -> failures pl = 0%nat -> run (write_file_or_remove cwd s (write_pieces pieces x)) pl f = (Raised e, pl', f') ->
  path_error e \/ x = Some e /\ ~ is_file f' (target cwd s).
Proof.
  intros Hr Hpl E. apply (wfr_fails s) in E as (Hn & [E|(pl1 & f1 & pl2 & f2 & _ & Hi1 & HO & Hp1 & E)]); [left; exact E | | exact Hr | exact (pieces_ok s pieces x (proj1 Hr)) | exact Hpl].
  right. split; [|exact Hn]. apply write_pieces_fails in E; [exact E | exact Hp1].
Qed.
Section SknFails.
Variable rt : str.
Notation R := (target cwd rt).
Hypothesis Hplain : plain_path rt.
Hypothesis Hcwd : ~ below cwd R.
Hypothesis Hnames : plain_names cd.
Lemma objs_fail : forall objs pl f e pl' f', failures pl = 0%nat -> run (save_objs cwd rt objs) pl f = (Raised e, pl', f') -> path_error e \/ exists n, In (n, Err e) objs.
Proof.
  induction objs as [|[n r] objs IH]; intros pl f e pl' f' Hpl; unfold save_objs; cbn [for_each]; [discriminate|].
  rewrite run_bind. destruct (run _ pl f) as [[[u|x|] pl1] f1] eqn:E1; [| |discriminate].
  - intros E. apply IH in E as [E|[m E]]; [auto | right; exists m; right; exact E | eapply run_failures0; eassumption].
  - intros E. injection E as <- _ _. rewrite run_bind in E1. destruct (run (open_w cwd _) pl f) as [[[h|y|] pl2] f2] eqn:E2; [| |discriminate].
    + apply close_raised in E1 as (pl3 & E1); [|eapply run_failures0; eassumption]. rewrite run_bind in E1. cbn [snd] in E1. destruct r as [b|y]; cbn [lift run] in E1.
      * exfalso. apply (natural_run (fun _ => False)) in E1; [exact E1 | apply natural_fwrite | eapply run_failures0; eassumption].
      * injection E1 as <- _ _. right. exists n. left. reflexivity.
    + injection E1 as <- _ _. left. apply lookup_path. eapply natural_run; [apply natural_open_w | exact Hpl | exact E2].
Qed.
Lemma rmtree_nofail pl f e pl' f' : failures pl = 0%nat -> run (rmtree_ignore cwd rt) pl f = (Raised e, pl', f') -> False.
Proof.
  intros Hpl E. eapply (natural_run (fun _ => False)); [|exact Hpl | exact E]. unfold rmtree_ignore. apply natural_bind.
  - unfold ignore_os. eapply (natural_catch _ (fun x => is_oserror x = true)); [|intros x ->; exact Logic.I]. apply natural_sys_part. intros g x Ex. unfold f_tree in Ex. destruct (locate cwd g false rt) as [q|y] eqn:El; cbn [rbind] in Ex.
    + destruct (look g q) as [[| |]|]; try discriminate; injection Ex as <-; reflexivity.
    + injection Ex as <-. apply locate_err in El. destruct y; try contradiction. reflexivity.
  - intros l. induction l as [|q l IH]; cbn [for_each]; [exact Logic.I|]. apply natural_bind; [|intros _; exact IH]. unfold ignore_os. eapply (natural_catch _ (fun x => is_oserror x = true)); [|intros x ->; exact Logic.I].
    apply natural_sys_part. intros g x Ex. unfold f_unlink in Ex. destruct q as [|y q]; [|destruct (look g (y :: q)) as [[| |]|]; [| |discriminate|]].
    all: repeat match type of Ex with context [if ?b then _ else _] => destruct b | context [match ?b with _ => _ end] => destruct b end; try discriminate; injection Ex as <-; reflexivity.
Qed.
Lemma skn_fails source data pl f e pl' f' : ready cwd source f -> apart (target cwd source) R -> kinv rt f -> look f (target cwd source) = Some (NFile data) -> failures pl = 0%nat ->
  run (save_skn cd cwd source rt) pl f = (Raised e, pl', f') -> path_error e \/
  (cd_skn cd data = Err e \/ exists objs n, cd_skn cd data = Ok objs /\ In (n, Err e) objs) /\ look f' (target cwd source) = Some (NFile data) /\ forall q, below q R -> look f' q = None.
Proof.
  intros Hr [Ha _] Hi El Hpl E. pose proof E as Eall. unfold save_skn in E. rewrite run_bind in E. destruct (run (rmtree_ignore cwd rt) pl f) as [[[u|x|] pl1] f1] eqn:E1; [|exfalso; eapply rmtree_nofail; eassumption | discriminate].
  pose proof (run_failures0 _ _ _ _ _ _ E1 Hpl) as Hp1. eapply (safe_run _ _ (krel_refl rt) (krel_trans rt)) in E1 as (K1 & Hi1 & _); [|apply rmtree_safe; assumption | exact Hi].
  unfold write_dir_or_remove in E. rewrite run_catch, run_bind in E. destruct (run (makedirs cwd rt) pl1 f1) as [[[[]|x|] pl2] f2] eqn:E2; [| |discriminate].
  2: { left. apply lookup_path. pose proof (run_failures0 _ _ _ _ _ _ E2 Hp1) as Hp2. apply (natural_run lookup_error) in E2; [|apply natural_makedirs | exact Hp1]. rewrite run_bind in E. destruct (run (rmtree_ignore cwd rt) pl2 f2) as [[[v|y|] pl3] f3] eqn:E3; [cbn [run] in E; injection E as <- _ _; exact E2 | | discriminate].
       exfalso. exact (rmtree_nofail _ _ _ _ _ Hp2 E3). }
  pose proof (run_failures0 _ _ _ _ _ _ E2 Hp1) as Hp2. pose proof E2 as E2'. eapply (safe_run _ _ (krel_refl rt) (krel_trans rt)) in E2' as (K2 & Hi2 & _); [|apply makedirs_ksafe; assumption | exact Hi1].
  pose proof E2 as E2d. apply makedirs_text_done in E2d as [_ Hd]; [|apply Hi1 | apply Hplain].
  assert (Hk : forall q, ~ below q R -> look f q <> None -> look f2 q = look f q) by (intros q Hq Hl; rewrite <- (krel_keeps rt f f1 q K1 Hq Hl); apply (krel_keeps rt); [assumption.. | rewrite (krel_keeps rt f f1 q K1 Hq Hl); exact Hl]).
  assert (Hs2 : look f2 (target cwd source) = Some (NFile data)) by (rewrite Hk; [exact El | exact Ha | congruence]).
  assert (Hr2 : winv cwd source f2).
  { split; [|split; apply Hi2]. intros q x Hq Ex. destruct (krel_trans rt _ _ _ K1 K2 q) as [E0|[[B0 _]|(_ & E0 & _)]]; [|apply Ha; destruct Hq as [l1 ->], B0 as [l2 ->]; exists (l1 ++ l2); rewrite app_assoc; reflexivity | congruence].
    rewrite E0 in Ex. destruct Hr as (_ & Hn & _). exact (Hn q x Hq Ex). }
  match type of E with context [run ?p pl2 f2] => destruct (run p pl2 f2) as [[[v|x|] pl3] f3] eqn:E3 end; [discriminate | | discriminate].
  pose proof (run_failures0 _ _ _ _ _ _ E3 Hp2) as Hp3.
  assert (HC : safe (kinv rt) (krel rt) (fun _ => True) (let~ data := read_file cwd source in let~ objs := lift (cd_skn cd data) in save_objs cwd rt objs)).
  { eapply safe_bind; [apply read_safe|]. intros d _. eapply (safe_bind _ _ (fun objs => cd_skn cd d = Ok objs)); [apply safe_lift; auto|]. intros objs Ho. apply objs_safe; [assumption..|]. intros n r Hx. exact (Hnames d objs n r Ho Hx). }
  pose proof E3 as E3'. eapply (safe_run _ _ (krel_refl rt) (krel_trans rt)) in E3' as (K3 & Hi3 & _); [|exact HC | exact Hi2].
  assert (Hd3 : look f3 R = Some NDir).
  { destruct (K3 R) as [E0|[[_ E0]|(_ & E0 & _)]]; [congruence | | exact E0]. rewrite run_bind in E3. destruct (run (read_file cwd source) pl2 f2) as [[[d|y|] pl4] f4] eqn:E4; [| |discriminate].
    - apply (read_done source pl2 f2 data) in E4 as [-> ->]; [|apply Hr | exact Hr2 | exact Hs2]. rewrite run_bind in E3. destruct (cd_skn cd data) as [objs|y] eqn:Eo; cbn [lift run] in E3; [|injection E3 as _ _ <-; exact Hd].
      assert (HN : forall n r, In (n, r) objs -> ~ In cSlash n) by (intros n r Hn; exact (Hnames data objs n r Eo Hn)).
      assert (HS : forall l, (forall n r, In (n, r) l -> ~ In cSlash n) -> safe (fun g => kinv rt g /\ look g R = Some NDir) (fun _ _ => True) (fun _ => True) (save_objs cwd rt l)).
      { intros l HNl. unfold save_objs. apply safe_for_each; auto. intros [n r] Hx. specialize (HNl n r Hx). destruct (obj_text rt Hplain n HNl) as [Hp Ht].
        apply (safe_refine (winv cwd (obj_name rt n)) _ (fun f f' => only_file (target cwd (obj_name rt n)) f f')).
        - intros g [Hg _]. apply kinv_winv; assumption.
        - intros g g' [Hg Hg2] Hi' HO. split; [exact Logic.I|]. assert (HK : krel rt g g').
          { intros q. destruct (HO q) as [F|[->|(F1 & F2 & y & l' & F3)]]; [auto | |].
            - right. left. split; [rewrite Ht; exists [n ++ lit ".obj"]; reflexivity|]. intros y F. exact (proj1 Hi' _ y (below_refl _) F).
            - rewrite Ht in F3. injection F3 as _ F3. destruct l' as [|z l']; [right; left; split; [exists []; symmetry; exact F3 | intros x'; congruence]|]. right. right. split; [exact F1|]. split; [exact F2|]. exists z, l'. exact F3. }
          split; [apply (krel_kinv rt Hcwd g); [exact Hg | apply Hi' | exact HK]|]. destruct (HO R) as [F|[F|(F & _)]]; [congruence | | congruence]. rewrite Ht in F. apply (f_equal (@length _)) in F. cbn [length] in F. lia.
        - cbn [fst snd]. eapply safe_bind; [apply open_safe, Hp|]. intros h ->. apply with_close_safe. eapply (safe_bind _ _ (fun _ => True)); [apply safe_lift; auto|]. intros b _. apply fwrite_safe, Hp. }
      eapply (safe_run (fun g => kinv rt g /\ look g R = Some NDir) (fun _ _ : fs => True) (fun _ => Logic.I) (fun _ _ _ _ _ => Logic.I)) in E3 as (_ & [_ E3] & _); [exact E3 | apply HS, HN | auto].
    - exfalso. exact (read_fails source pl2 f2 data y pl4 f4 (proj1 Hr) Hr2 Hs2 Hp2 E4). }
  rewrite run_bind in E. destruct (run (rmtree_ignore cwd rt) pl3 f3) as [[[v|y|] pl4] f4] eqn:E4; [|exfalso; eapply rmtree_nofail; eassumption | discriminate]. cbn [run] in E. injection E as -> _ ->.
  destruct (rmtree_all cwd rt f3 Hplain (proj1 Hi3) Hd3) as (f5 & E5 & _ & G1 & G2). destruct (run_no_failure (rmtree_ignore cwd rt) pl3 f3 Hp3) as (pl5 & _ & E6). rewrite E5 in E6. cbn [fst snd] in E6. rewrite E6 in E4. injection E4 as _ _ ->.
  assert (Hkeep : look f' (target cwd source) = Some (NFile data)) by (rewrite G2 by exact Ha; rewrite (krel_keeps rt f2 f3); [exact Hs2 | exact K3 | exact Ha | congruence]).
  rewrite run_bind in E3. destruct (run (read_file cwd source) pl2 f2) as [[[d|y|] pl6] f6] eqn:E7; [| |discriminate].
  - pose proof (run_failures0 _ _ _ _ _ _ E7 Hp2) as Hp6. apply (read_done source pl2 f2 data) in E7 as [-> ->]; [|apply Hr | exact Hr2 | exact Hs2]. rewrite run_bind in E3. destruct (cd_skn cd data) as [objs|y] eqn:Eo; cbn [lift run] in E3.
    + apply objs_fail in E3 as [E3|[n E3]]; [left; exact E3 | | exact Hp6]. right. split; [right; exists objs, n; auto | auto].
    + injection E3 as <- _ _. right. auto.
  - exfalso. exact (read_fails source pl2 f2 data y pl6 f6 (proj1 Hr) Hr2 Hs2 Hp2 E7).
Qed.
End SknFails.

End Conv.
