(** * Proofs about the files of TFT and Arena data *)

From Verif Require Import Base.Py Base.Text Base.PyFacts Base.TextFacts Base.PathFacts Base.Fs Spec.FsSpec Base.FsFacts Base.FsLinks Base.FsRealFacts Model.Files Proofs.FilesProofs Proofs.ConvertProofs
  Proofs.SymlinksProofs Proofs.ProcessProofs Model.Stringtables Model.GameExport Spec.GameExportSpec.

(** A file in a directory. *)
Lemma dirname_join output n : output <> [] -> ~ In cSlash n -> n <> [] -> dirname (path_join output n) <> [] /\ basename (path_join output n) = n.
Proof.
  intros Ho Hn Hne. assert (Ef : exists h, path_join output n = h ++ cSlash :: n).
  { unfold path_join. assert (Es : startswith n [cSlash] = false) by (destruct n as [|c n]; [congruence|]; cbn [startswith]; destruct (eqbP c cSlash) as [->|]; [exfalso; apply Hn; left; reflexivity | reflexivity]).
    rewrite Es. match goal with |- context [if ?c then _ else _] => destruct c eqn:Ee end.
    - apply orb_true_iff in Ee as [Ee|Ee]; [apply eqb_true in Ee; contradiction|]. apply endswith_iff in Ee as (r & ->). exists r. rewrite <- app_assoc. reflexivity.
    - exists output. reflexivity. }
  destruct Ef as [h ->]. split; [apply dirname_slash; exact Hn|]. unfold basename, path_split. rewrite cut_last_app by exact Hn. destruct (forallb _ _); reflexivity.
Qed.

Section Langs.
  Context {T L I : Type}.
  Variable cwd : path.
  Variable load : bytes -> result L.
  Variable instance : T -> L -> result I.
  Variable dump : I -> list bytes * option exn.
  Variable output : str.
  Variable langs : list str.
  Hypothesis Ho : output <> [].
  Hypothesis Hdd : ~ In dotdot (comps output).
  Hypothesis Hnames : forall l, In l langs -> ~ In cSlash l.
  Notation d := (target cwd output).
  Notation at_ l := (lang_file cwd output l).

  Definition ginv (g : fs) : Prop := fs_wf g /\ look g cwd = Some NDir /\ nolink g d /\ forall l, In l langs -> forall t, look g (at_ l) <> Some (NLink t).

  Lemma json_name l : In l langs -> ~ In cSlash (l ++ lit ".json") /\ l ++ lit ".json" <> [] /\ l ++ lit ".json" <> [cDot] /\ l ++ lit ".json" <> dotdot.
  Proof.
    intros Hl. split; [intros Hi; apply in_app_iff in Hi as [Hi|Hi]; [exact (Hnames l Hl Hi) | revert Hi; vm_compute; intuition discriminate]|].
    split; [destruct l; discriminate|]. split; intros E; apply (f_equal (@length _)) in E; rewrite app_length in E; change (length (lit ".json")) with 5%nat in E; cbn [length dotdot] in E; lia.
  Qed.
  Lemma json_plain l : In l langs -> plain_path (json_of output l) /\ target cwd (json_of output l) = at_ l.
  Proof.
    intros Hl. destruct (json_name l Hl) as (H1 & H2 & H3 & H4). destruct (dirname_join output _ Ho H1 H2) as [E1 E2]. unfold json_of.
    assert (Ha : is_abs (l ++ lit ".json") = false) by (destruct (l ++ lit ".json") as [|c r] eqn:E; [reflexivity|]; cbn [is_abs]; destruct (N.eqb_spec c cSlash) as [->|]; [exfalso; apply H1; left; reflexivity | reflexivity]).
    assert (Hc : comps (l ++ lit ".json") = [l ++ lit ".json"]) by (apply comps_one; assumption).
    split; [|rewrite target_join by assumption; rewrite Hc; reflexivity]. split; [|split; [exact E1|]; rewrite E2; auto].
    rewrite comps_join, Hc by exact Ha. intros Hi. apply in_app_iff in Hi as [Hi|[Hi|[]]]; [exact (Hdd Hi) | exact (H4 Hi)].
  Qed.
  Lemma below_lang l q : below (at_ l) q -> q = at_ l \/ below d q.
  Proof. intros H. apply below_cases in H as [H|(x & m & E)]; [auto|]. right. unfold lang_file in E. injection E as _ E. exists m. exact E. Qed.
  Lemma strict_lang l q : strictly_below (at_ l) q -> below d q.
  Proof. intros (x & m & E). unfold lang_file in E. injection E as _ E. exists m. exact E. Qed.
  Lemma ginv_winv l g : In l langs -> ginv g -> winv cwd (json_of output l) g.
  Proof.
    intros Hl (H1 & H2 & H3 & H4). split; [|split; assumption]. rewrite (proj2 (json_plain l Hl)). intros q t Hq. apply below_lang in Hq as [->|Hq]; [exact (H4 l Hl t) | exact (H3 q t Hq)].
  Qed.
  Lemma ginv_next l g g' : In l langs -> ginv g -> winv cwd (json_of output l) g' -> only_file (at_ l) g g' -> ginv g'.
  Proof.
    intros Hl (H1 & H2 & H3 & H4) (W1 & W2 & W3) HO. rewrite (proj2 (json_plain l Hl)) in W1. split; [exact W2|]. split; [exact W3|]. split.
    - intros q t Hq. apply (W1 q t). eapply below_trans; [apply below_cons | exact Hq].
    - intros l' Hl' t E. destruct (HO (at_ l')) as [G|[G|(_ & G & _)]]; [rewrite G in E; exact (H4 l' Hl' t E) | rewrite G in E; exact (W1 _ t (below_refl _) E) | congruence].
  Qed.

  Variable tables : list (str * str).
  Variable t : T.
  Notation lang_prog l := (export_lang cwd load instance dump tables t output l).

  Lemma read_ro s : safe (fun _ => True) (fun a b => b = a) (fun _ => True) (read_file cwd s).
  Proof.
    unfold read_file. apply safe_sys; [reflexivity|]. intros g a g' _ E. split; [|auto].
    apply rbind_Ok in E as (p & _ & E). destruct (look g p) as [[b| |]|]; try discriminate. injection E as _ <-. reflexivity.
  Qed.
  Lemma lift_ro {A} (r : result A) I0 (R : fs -> fs -> Prop) : safe I0 R (fun _ => True) (lift r).
  Proof. apply safe_lift. auto. Qed.
  Lemma lang_safe l : In l langs -> safe (winv cwd (json_of output l)) (only_file (at_ l)) (fun _ => True) (lang_prog l).
  Proof.
    intros Hl. destruct (json_plain l Hl) as [Hp Ht]. unfold export_lang. rewrite <- Ht.
    eapply (safe_bind _ _ (fun _ => True)); [apply lift_ro|]. intros p _.
    eapply (safe_bind _ _ (fun _ => True)).
    { unfold read_file. apply safe_sys; [intros; apply only_file_refl|]. intros g a g' Hg E. apply rbind_Ok in E as (q & _ & E).
      destruct (look g q) as [[b| |]|]; try discriminate. injection E as _ <-. split; [apply only_file_refl|]. auto. }
    intros data _. eapply (safe_bind _ _ (fun _ => True)); [apply lift_ro|]. intros tr _. eapply (safe_bind _ _ (fun _ => True)); [apply lift_ro|]. intros i _.
    eapply safe_bind; [apply open_safe, Hp|]. intros h ->. apply with_close_safe. apply pieces_safe; [exact Hp | auto].
  Qed.
  Lemma lang_frame l pl g o pl' g' : In l langs -> ginv g -> run (lang_prog l) pl g = (o, pl', g') -> ginv g' /\ only_file (at_ l) g g'.
  Proof.
    intros Hl Hg E. eapply (safe_run _ _ (only_file_refl _) (only_file_trans _)) in E as (HO & HW & _); [|apply lang_safe, Hl | apply ginv_winv; assumption].
    split; [eapply ginv_next; eassumption | exact HO].
  Qed.
  (** The file of one language. *)
  Lemma lang_done l pl g pl' g' : In l langs -> ginv g -> run (lang_prog l) pl g = (Done tt, pl', g') ->
    look g (at_ l) <> Some NDir /\ exists p b tr i, dget l tables = Some p /\ content cwd g p b /\ load b = Ok tr /\ instance t tr = Ok i /\ snd (dump i) = None /\
      look g' (at_ l) = Some (NFile (concat (fst (dump i)))).
  Proof.
    intros Hl Hg E. destruct (json_plain l Hl) as [Hp Ht]. pose proof (ginv_winv l g Hl Hg) as (Hn & _). unfold export_lang in E.
    apply done_bind in E as (p & pl0 & g0 & E0 & E). destruct (dget l tables) as [p0|] eqn:Ed; cbn [of_opt lift run] in E0; [|discriminate]. injection E0 as <- <- <-.
    apply done_bind in E as (b & pl1 & g1 & E1 & E). apply run_sys_done in E1. apply rbind_Ok in E1 as (q & Eq & E1). destruct (look g q) as [[b0| |]|] eqn:El; try discriminate. injection E1 as -> <-.
    apply done_bind in E as (tr & pl2 & g2 & E2 & E). destruct (load b) as [tr0|] eqn:Etr; cbn [lift run] in E2; [|discriminate]. injection E2 as <- <- <-.
    apply done_bind in E as (i & pl3 & g3 & E3 & E). destruct (instance t tr0) as [i0|] eqn:Ei; cbn [lift run] in E3; [|discriminate]. injection E3 as <- <- <-.
    apply done_bind in E as (h & pl4 & g4 & E4 & E). apply run_sys_done in E4. unfold f_open_w in E4. apply rbind_Ok in E4 as (p & Ep & E4). apply locate_t in Ep as [-> _]; [|exact Hp | exact Hn].
    assert (Hne : target cwd (json_of output l) <> []) by (apply target_nonempty; exact Hp).
    assert (H1 : h = target cwd (json_of output l) /\ look g4 h = Some (NFile [])).
    { destruct (look g (target cwd (json_of output l))) as [[y| |z]|]; try discriminate E4; injection E4 as <- <-; (split; [reflexivity | apply look_put_same; exact Hne]). }
    assert (Hnd : look g (at_ l) <> Some NDir) by (rewrite Ht in E4; intros G; rewrite G in E4; discriminate). split; [exact Hnd|].
    destruct H1 as [-> H1]. apply close_done in E as [pl5 E]. unfold write_pieces in E. apply done_bind in E as (u & pl6 & g6 & E6 & E).
    apply (pieces_done _ Hne _ _ _ _ _ _ _ H1) in E6. cbn [app] in E6. rewrite Ht in E6.
    destruct (snd (dump i0)) eqn:Es; cbn [run] in E; [discriminate|]. injection E as _ <-. exists p0, b, tr0, i0. split; [reflexivity|]. split; [exists q; auto|]. auto 6.
  Qed.

  Variable f : fs.
  Hypothesis Htables : readable cwd f output langs tables.
  Definition since (g : fs) : Prop := ginv g /\ only_langs cwd output langs f g /\ alike f g.
  Lemma only_langs_trans ls a b c : only_langs cwd output ls a b -> only_langs cwd output ls b c -> only_langs cwd output ls a c.
  Proof.
    intros H1 H2 q. destruct (H2 q) as [G|[G|(G1 & G2 & G3)]]; [|auto|].
    - destruct (H1 q) as [G'|[G'|(A1 & A2 & A3)]]; [left; congruence | auto | right; right; split; [exact A1|]; split; [congruence | exact A3]].
    - destruct (H1 q) as [G'|[G'|(A1 & A2 & A3)]]; [right; right; split; [congruence|]; split; assumption | auto | congruence].
  Qed.
  Lemma only_langs_incl ls ls' a b : incl ls ls' -> only_langs cwd output ls a b -> only_langs cwd output ls' a b.
  Proof. intros H HO q. destruct (HO q) as [G|[(l & Hl & ->)|G]]; [auto | right; left; exists l; auto | auto]. Qed.
  Lemma only_file_langs l a b : only_file (at_ l) a b -> only_langs cwd output [l] a b.
  Proof. intros HO q. destruct (HO q) as [G|[->|(G1 & G2 & G3)]]; [auto | right; left; exists l; cbn [In]; auto | right; right; split; [exact G1|]; split; [exact G2 | eapply strict_lang; exact G3]]. Qed.
  Lemma since_content g l p b : since g -> In (l, p) tables -> content cwd g p b <-> content cwd f p b.
  Proof.
    intros (_ & HO & HA) Hi. destruct (Htables l p Hi) as (q & b0 & Eq & El & Hq).
    assert (Eg : locate cwd g true p = Ok q).
    { unfold locate in *. destruct p; [discriminate|]. unfold at_loc in *. eapply resolve_alike; [exact HA | exact Eq | congruence]. }
    assert (Lg : look g q = Some (NFile b0)) by (destruct (HO q) as [G|[(l' & Hl' & ->)|(G & _)]]; [congruence | destruct (Hq l' Hl' eq_refl) | congruence]).
    split; intros (q' & E1 & E2); exists q'.
    - rewrite Eg in E1. injection E1 as <-. split; [exact Eq | congruence].
    - rewrite Eq in E1. injection E1 as <-. split; [exact Eg | congruence].
  Qed.
  Definition written (l : str) (g : fs) : Prop := exists text, data_in load instance dump cwd f tables t l text /\ look g (at_ l) = Some (NFile text).
  Lemma since_step l pl g pl' g' : In l langs -> since g -> run (lang_prog l) pl g = (Done tt, pl', g') -> since g' /\ written l g' /\ only_file (at_ l) g g'.
  Proof.
    intros Hl Hs E. pose proof (lang_frame _ _ _ _ _ _ Hl (proj1 Hs) E) as [Hg' HO]. apply (lang_done _ _ _ _ _ Hl (proj1 Hs)) in E as (Hnd & p & b & tr & i & E1 & E2 & E3 & E4 & E5 & E6).
    split; [|split; [|exact HO]].
    - split; [exact Hg'|]. split; [eapply only_langs_trans; [apply (proj1 (proj2 Hs))|]; eapply only_langs_incl; [|apply only_file_langs; exact HO]; intros x [<-|[]]; exact Hl|].
      eapply alike_trans; [apply (proj2 (proj2 Hs))|]. intros q. destruct (HO q) as [G|[->|(G1 & G2 & _)]]; [auto | right; right | auto].
      split; [|eexists; exact E6]. destruct (look g (at_ l)) as [[y| |z]|] eqn:El; [right; exists y; exact El | congruence | destruct (proj2 (proj2 (proj2 (proj1 Hs))) l Hl z El) | left; reflexivity].
    - apply dget_Some_In in E1. exists (concat (fst (dump i))). split; [|exact E6]. exists p, b, tr, i. split; [exact E1|]. split; [apply (since_content g l p b Hs E1); exact E2|]. auto 6.
  Qed.
  Lemma lang_file_inj l l' : at_ l = at_ l' -> l = l'.
  Proof. unfold lang_file. intros E. injection E as E. apply app_inv_tail in E. exact E. Qed.
  Lemma loop_done : forall ls pl g pl' g', incl ls langs -> since g -> run (for_each ls (fun l => lang_prog l)) pl g = (Done tt, pl', g') ->
    since g' /\ (forall l, In l ls -> written l g') /\ only_langs cwd output ls g g'.
  Proof.
    induction ls as [|l ls IH]; intros pl g pl' g' Hi Hs E.
    - cbn [for_each run] in E. injection E as _ <-. split; [exact Hs|]. split; [intros l []|]. intros q. auto.
    - cbn [for_each] in E. apply done_bind in E as ([] & pl1 & g1 & E1 & E). apply (since_step _ _ _ _ _ (Hi l (or_introl eq_refl)) Hs) in E1 as (Hs1 & Hw1 & HO1).
      apply IH in E as (Hs' & Hw' & HO'); [|intros x Hx; apply Hi; right; exact Hx | exact Hs1]. split; [exact Hs'|]. split.
      + intros l' [<-|Hl']; [|apply Hw'; exact Hl']. destruct (in_dec (fun a b : str => eq_dec a b) l ls) as [Hin|Hin]; [apply Hw'; exact Hin|].
        destruct Hw1 as (text & H1 & H2). exists text. split; [exact H1|]. destruct (HO' (at_ l)) as [G|[(l' & Hl' & G)|(G & _)]]; [congruence | apply lang_file_inj in G; subst l'; contradiction | congruence].
      + eapply only_langs_trans; [eapply only_langs_incl; [|apply only_file_langs; exact HO1] | eapply only_langs_incl; [|exact HO']]; [intros x [<-|[]]; left; reflexivity | intros x Hx; right; exact Hx].
  Qed.
  Lemma loop_frame : forall ls pl g o pl' g', incl ls langs -> ginv g -> run (for_each ls (fun l => lang_prog l)) pl g = (o, pl', g') -> ginv g' /\ only_langs cwd output ls g g'.
  Proof.
    induction ls as [|l ls IH]; intros pl g o pl' g' Hi Hs E.
    - cbn [for_each run] in E. injection E as _ _ <-. split; [exact Hs|]. intros q. auto.
    - cbn [for_each] in E. rewrite run_bind in E. destruct (run (lang_prog l) pl g) as [[o1 pl1] g1] eqn:E1. apply (lang_frame _ _ _ _ _ _ (Hi l (or_introl eq_refl)) Hs) in E1 as [Hs1 HO1].
      assert (H1 : only_langs cwd output (l :: ls) g g1) by (eapply only_langs_incl; [|apply only_file_langs; exact HO1]; intros x [<-|[]]; left; reflexivity).
      destruct o1 as [u|e|]; [|injection E as _ _ <-; auto..].
      apply IH in E as [Hs' HO']; [|intros x Hx; apply Hi; right; exact Hx | exact Hs1]. split; [exact Hs'|]. eapply only_langs_trans; [exact H1|]. eapply only_langs_incl; [|exact HO']. intros x Hx; right; exact Hx.
  Qed.
End Langs.

Section Top.
  Context {T L I : Type}.
  Variable order : list str -> list str.
  Variable cwd : path.
  Variable template : fs -> result T.
  Variable load : bytes -> result L.
  Variable instance : T -> L -> result I.
  Variable dump : I -> list bytes * option exn.
  Variable game input output : str.
  Variable langs : option (list str).
  Variable f : fs.
  Variable tables : list (str * str).
  Hypothesis Hst : stringtable_paths order cwd f input game = Ok tables.
  Notation ls := (langs_of langs tables).
  Hypothesis Hex : exportable cwd f output ls.
  Notation prog0 := (export_langs order cwd template load instance dump game input output langs).
  Notation d := (target cwd output).

  Lemma ex_names l : In l ls -> ~ In cSlash l.
  Proof. intros Hl. apply Hex, Hl. Qed.
  Lemma ex_ginv : ginv cwd output ls f.
  Proof. destruct Hex as (_ & _ & H1 & H2 & H3 & H4). split; [exact H1|]. split; [exact H2|]. split; [exact H3|]. intros l Hl. apply H4, Hl. Qed.
  Lemma dirs_langs g : adds_dirs d f g -> only_langs cwd output ls f g.
  Proof. intros HA q. destruct (HA q) as [G|G]; auto. Qed.
  Lemma dirs_alike g : adds_dirs d f g -> alike f g.
  Proof. intros HA q. destruct (HA q) as [G|(G1 & G2 & _)]; auto. Qed.
  Lemma dirs_ginv pl o pl' g : run (makedirs cwd output) pl f = (o, pl', g) -> adds_dirs d f g /\ ginv cwd output ls g.
  Proof.
    intros E. destruct ex_ginv as (H1 & H2 & H3 & H4). eapply (safe_run _ _ (adds_dirs_refl _) (adds_dirs_trans _)) in E as (HA & HD & _); [|apply makedirs_dinv, Hex | split; [exact H3 | split; assumption]]. destruct HD as (D1 & D2 & D3).
    split; [exact HA|]. split; [exact D2|]. split; [exact D3|]. split; [exact D1|]. intros l Hl t E. destruct (HA (lang_file cwd output l)) as [G|(_ & G & _)]; [rewrite G in E; exact (H4 l Hl t E) | congruence].
  Qed.
  Lemma search_run pl : exists o pl', run (sys (fun f => let! d := stringtable_paths order cwd f input game in Ok (d, f))) pl f = (o, pl', f) /\ forall a, o = Done a -> a = tables.
  Proof.
    unfold sys, sys_part. destruct pl as [|[[e n|n]|] pl]; cbn [run]; rewrite ?Hst; cbn [rbind run]; eexists _, _; (split; [reflexivity|]); intros a E; congruence.
  Qed.
  Lemma template_run pl g : exists o pl', run (sys (fun f => let! t := template f in Ok (t, f))) pl g = (o, pl', g) /\ forall a, o = Done a -> template g = Ok a.
  Proof.
    unfold sys, sys_part. destruct (template g) as [t|e0] eqn:Et; (destruct pl as [|[[e n|n]|] pl]; cbn [run]; rewrite ?Et; cbn [rbind run]; eexists _, _; (split; [reflexivity|]); intros a E; congruence).
  Qed.
  Lemma langs_eq : match langs with None => dkeys tables | Some l => l end = ls.
  Proof. destruct langs; reflexivity. Qed.

  Lemma exports_frame pl o pl' f' : run prog0 pl f = (o, pl', f') -> only_langs cwd output ls f f'.
  Proof.
    unfold export_langs. intros E. rewrite run_bind in E. destruct (search_run pl) as (o1 & pl1 & E1 & H1). rewrite E1 in E.
    destruct o1 as [d0|e|]; [|injection E as _ _ <-; intros q; auto..]. rewrite (H1 _ eq_refl) in E. rewrite run_bind in E.
    destruct (run (makedirs cwd output) pl1 f) as [[o2 pl2] g] eqn:E2. apply dirs_ginv in E2 as [HA HG]. destruct o2 as [u|e|]; [|injection E as _ _ <-; apply dirs_langs, HA..].
    rewrite run_bind in E. destruct (template_run pl2 g) as (o3 & pl3 & E3 & _). rewrite E3 in E. destruct o3 as [t|e|]; [|injection E as _ _ <-; apply dirs_langs, HA..].
    rewrite langs_eq in E. apply (loop_frame cwd load instance dump output ls) in E as [_ HO]; [|apply Hex | apply Hex | exact ex_names | apply incl_refl | exact HG].
    eapply only_langs_trans; [apply dirs_langs; exact HA | exact HO].
  Qed.
  Hypothesis Hread : readable cwd f output ls tables.
  Lemma dirs_since pl o pl' g : run (makedirs cwd output) pl f = (o, pl', g) -> adds_dirs d f g /\ since cwd output ls f g.
  Proof. intros E. apply dirs_ginv in E as [HA HG]. split; [exact HA|]. split; [exact HG|]. split; [apply dirs_langs | apply dirs_alike]; exact HA. Qed.
  Lemma exports_done pl pl' f' : run prog0 pl f = (Done tt, pl', f') ->
    exists g t, more_dirs d f g /\ template g = Ok t /\ forall l, In l ls -> exists text, data_in load instance dump cwd f tables t l text /\ look f' (lang_file cwd output l) = Some (NFile text).
  Proof.
    unfold export_langs. intros E. apply done_bind in E as (d0 & pl1 & g1 & E1 & E). destruct (search_run pl) as (o1 & pl1' & E1' & H1). rewrite E1 in E1'. injection E1' as <- <- ->. rewrite (H1 _ eq_refl) in E.
    apply done_bind in E as (u & pl2 & g & E2 & E). apply dirs_since in E2 as [HA HS].
    apply done_bind in E as (t & pl3 & g3 & E3 & E). destruct (template_run pl2 g) as (o3 & pl3' & E3' & H3). rewrite E3 in E3'. injection E3' as <- <- ->. specialize (H3 _ eq_refl).
    rewrite langs_eq in E. eapply (loop_done cwd load instance dump output ls) in E as (_ & HW & _); [|apply Hex | apply Hex | exact ex_names | exact Hread | apply incl_refl | exact HS].
    exists g, t. split; [exact HA|]. split; [exact H3 | exact HW].
  Qed.

  (** Without failures. *)
  Hypothesis Hfree : unobstructed cwd f output ls.
  Hypothesis Hd : NoDup (map fst tables).
  Lemma lang_total t l g : In l ls -> since cwd output ls f g -> look g d = Some NDir -> look g (lang_file cwd output l) <> Some NDir ->
    (exists text, data_in load instance dump cwd f tables t l text) ->
    exists g', run (export_lang cwd load instance dump tables t output l) [] g = (Done tt, [], g').
  Proof.
    intros Hl HS Hdir Hnd (text & p & b & tr & i & H1 & H2 & H3 & H4 & H5 & H6). destruct Hex as (Ho & Hdd & _).
    destruct (json_plain cwd output ls Ho Hdd ex_names l Hl) as [Hp Ht]. pose proof (ginv_winv cwd output ls Ho Hdd ex_names l g Hl (proj1 HS)) as Hwi.
    unfold export_lang. assert (Edg : dget l tables = Some p) by (apply dget_In_NoDup; assumption). rewrite Edg. cbn [of_opt lift]. rewrite (run_bind0 (Ret p) _ g p g) by reflexivity.
    apply (since_content cwd output ls tables f Hread g l p b HS H1) in H2 as (q & Eq & El).
    rewrite (run_bind0 (read_file cwd p) _ g b g) by (unfold read_file, sys, sys_part; cbn [run]; rewrite Eq; cbn [rbind]; rewrite El; reflexivity).
    rewrite H3. cbn [lift]. rewrite (run_bind0 (Ret tr) _ g tr g) by reflexivity. rewrite H4. cbn [lift]. rewrite (run_bind0 (Ret i) _ g i g) by reflexivity.
    assert (Ep : locate cwd g true (json_of output l) = Ok (target cwd (json_of output l))).
    { apply locate_plain; [apply plain_nonempty, Hp | apply Hp | apply Hwi|]. split; [reflexivity|]. rewrite (plain_path_comps _ Hp).
      destruct (json_name ls ex_names l Hl) as (N1 & N2 & N3 & N4). destruct (dirname_join output _ Ho N1 N2) as [D1 D2].
      assert (Hd2 : look g (rev (comps (dirname (json_of output l))) ++ (if is_abs (json_of output l) then [] else cwd)) = Some NDir).
      { rewrite (target_dirname _ _ Hp) in Ht. unfold lang_file in Ht. injection Ht as _ Ht. rewrite <- Hdir, <- Ht. unfold target. rewrite (is_abs_dirname (json_of output l) D1). reflexivity. }
      apply dirs_to_snoc; [|exact Hd2]. apply wf_dirs_to; [apply Hwi|]. intros EE. assert (X : Some NDir = None) by (etransitivity; [symmetry; exact Hd2 | exact EE]). discriminate. }
    rewrite Ht in Ep.
    rewrite (run_bind0 (open_w cwd (json_of output l)) _ g (lang_file cwd output l) (put (lang_file cwd output l) (NFile []) g)).
    2:{ unfold open_w, sys, sys_part. cbn [run]. unfold f_open_w. rewrite Ep. cbn [rbind]. destruct (look g (lang_file cwd output l)) as [[y| |z]|]; [reflexivity | congruence | reflexivity | reflexivity]. }
    rewrite H5. assert (G : forall h pieces g0, exists g', run (for_each pieces (fwrite h)) [] g0 = (Done tt, [], g')).
    { intros h. induction pieces as [|x pieces IH]; intros g0; cbn [for_each]; [exists g0; reflexivity|]. rewrite (run_bind0 (fwrite h x) _ g0 tt (f_append h x g0)) by reflexivity. apply IH. }
    destruct (G (lang_file cwd output l) (fst (dump i)) (put (lang_file cwd output l) (NFile []) g)) as [g' Eg].
    exists g'. unfold with_close, write_pieces. rewrite (run_bind0 _ _ _ tt g'); [reflexivity|]. rewrite run_catch, (run_bind0 _ _ _ tt g' Eg). reflexivity.
  Qed.
  Definition clear_way (g : fs) : Prop := since cwd output ls f g /\ look g d = Some NDir /\ forall l, In l ls -> look g (lang_file cwd output l) <> Some NDir.
  Lemma length_at l : length (lang_file cwd output l) = S (length d).
  Proof. reflexivity. Qed.
  Lemma loop_total t : forall ls0 g, incl ls0 ls -> clear_way g -> (forall l, In l ls0 -> exists text, data_in load instance dump cwd f tables t l text) ->
    exists g', run (for_each ls0 (fun l => export_lang cwd load instance dump tables t output l)) [] g = (Done tt, [], g') /\ clear_way g'.
  Proof.
    induction ls0 as [|l ls0 IH]; intros g Hi (HS & Hdir & Hnd) HD; [exists g; split; [reflexivity | split; auto]|].
    assert (Hl : In l ls) by (apply Hi; left; reflexivity).
    destruct (lang_total t l g Hl HS Hdir (Hnd l Hl) (HD l (or_introl eq_refl))) as [g1 E1]. pose proof E1 as E1'.
    eapply (since_step cwd load instance dump output ls) in E1 as (HS1 & (text & _ & Hw) & HO1); [|apply Hex | apply Hex | exact ex_names | exact Hread | exact Hl | exact HS].
    destruct (IH g1) as (g' & E & HC); [intros x Hx; apply Hi; right; exact Hx | | intros x Hx; apply HD; right; exact Hx |].
    - split; [exact HS1|]. split.
      + destruct (HO1 d) as [G|[G|(_ & G & _)]]; [congruence | apply (f_equal (@length _)) in G; rewrite length_at in G; lia | exact G].
      + intros l' Hl'. destruct (HO1 (lang_file cwd output l')) as [G|[G|(_ & _ & x & m & G)]]; [rewrite G; apply Hnd, Hl' | rewrite G, Hw; discriminate|].
        apply (f_equal (@length _)) in G. cbn [length] in G. rewrite app_length, !length_at in G. lia.
    - exists g'. split; [|exact HC]. cbn [for_each]. rewrite (run_bind0 _ _ _ _ _ E1'). exact E.
  Qed.
  Lemma start_total t : (forall g, more_dirs d f g -> template g = Ok t) ->
    exists g, clear_way g /\ run prog0 [] f = run (for_each ls (fun l => export_lang cwd load instance dump tables t output l)) [] g /\ more_dirs d f g.
  Proof.
    intros Ht. destruct Hex as (Ho & Hdd & Hw & Hc & Hn & _). destruct Hfree as [F1 F2].
    destruct (makedirs_total cwd output f Ho Hc Hw Hn Hdd F1) as [g Eg]. pose proof Eg as Eg'. apply dirs_since in Eg' as [HA HS].
    pose proof Eg as Eg'. apply makedirs_text_done in Eg' as [_ Hdir]; [|exact Hn | exact Hdd].
    exists g. split; [|split; [|exact HA]].
    - split; [exact HS|]. split; [exact Hdir|]. intros l Hl. destruct (HA (lang_file cwd output l)) as [G|(_ & _ & m & G)]; [rewrite G; apply F2, Hl|].
      apply (f_equal (@length _)) in G. rewrite app_length, length_at in G. lia.
    - unfold export_langs. rewrite (run_bind0 _ _ f tables f) by (unfold sys, sys_part; cbn [run]; rewrite Hst; reflexivity).
      rewrite (run_bind0 _ _ f tt g Eg). rewrite (run_bind0 _ _ g t g) by (unfold sys, sys_part; cbn [run]; rewrite (Ht g HA); reflexivity).
      rewrite langs_eq. reflexivity.
  Qed.
  Lemma exports_total t : (forall g, more_dirs d f g -> template g = Ok t) -> (forall l, In l ls -> exists text, data_in load instance dump cwd f tables t l text) ->
    exists f', run prog0 [] f = (Done tt, [], f').
  Proof.
    intros Ht HD. destruct (start_total t Ht) as (g & HC & E & _). destruct (loop_total t ls g (incl_refl _) HC HD) as (g' & E' & _). exists g'. congruence.
  Qed.
  Lemma run_for_each_app {A} (body : A -> prog unit) b : forall a g g', run (for_each a body) [] g = (Done tt, [], g') -> run (for_each (a ++ b) body) [] g = run (for_each b body) [] g'.
  Proof.
    induction a as [|x a IH]; intros g g' E; cbn [for_each app] in *; [cbn [run] in E; congruence|].
    apply done_bind in E as ([] & pl1 & g1 & E1 & E). pose proof E1 as E2. apply run_consumes in E2 as [u Eu]. symmetry in Eu. apply app_eq_nil in Eu as [_ ->].
    rewrite (run_bind0 _ _ _ _ _ E1). apply IH. exact E.
  Qed.
  Lemma exports_missing t a l b : (forall g, more_dirs d f g -> template g = Ok t) -> langs = Some (a ++ l :: b) -> (forall x, In x a -> exists text, data_in load instance dump cwd f tables t x text) ->
    ~ In l (map fst tables) -> exists f', run prog0 [] f = (Raised KeyError, [], f') /\ only_langs cwd output a f f' /\
      forall x, In x a -> exists text, data_in load instance dump cwd f tables t x text /\ look f' (lang_file cwd output x) = Some (NFile text).
  Proof.
    intros Ht El HD Hl. destruct (start_total t Ht) as (g & HC & E & HA). assert (Els : ls = a ++ l :: b) by (rewrite El; reflexivity).
    assert (Hi : incl a ls) by (rewrite Els; intros x Hx; apply in_or_app; left; exact Hx).
    destruct (loop_total t a g Hi HC HD) as (g' & E' & _). exists g'. rewrite E, Els. rewrite (run_for_each_app _ _ _ _ _ E'). split.
    - cbn [for_each]. rewrite run_bind. unfold export_lang. rewrite run_bind. replace (dget l tables) with (@None str); [reflexivity|]. symmetry. apply dget_None. exact Hl.
    - eapply (loop_done cwd load instance dump output ls) in E' as (_ & HW & HO); [|apply Hex | apply Hex | exact ex_names | exact Hread | exact Hi | apply HC].
      split; [|exact HW]. eapply only_langs_trans; [|exact HO]. intros q. destruct (HA q); auto.
  Qed.
End Top.
