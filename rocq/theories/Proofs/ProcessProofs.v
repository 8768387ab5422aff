(** * Proofs about the export of a patch *)

From Coq Require Import Permutation.
From Verif Require Import Base.Py Base.Text Base.PyFacts Base.TextFacts Base.PathFacts Base.Fs Spec.FsSpec Base.FsFacts Base.FsLinks Base.FsTree Base.FsReal Base.FsRealFacts
  Model.Files Proofs.FilesProofs Proofs.PatcherLinkProofs Model.Wad Model.Exporter Spec.ExportTreeSpec Proofs.ExportTreeProofs Spec.ExporterSpec Model.Convert Spec.ConvertSpec
  Proofs.ConvertProofs Proofs.ConvertRunProofs Proofs.ExportAllProofs
  Model.Clean Spec.CleanSpec Proofs.CleanProofs Model.Symlinks Spec.SymlinksSpec Proofs.SymlinksProofs Model.Process Spec.ProcessSpec.
From Verif Require Proofs.PatcherBundleProofs Props.CleanProps Props.ConvertProps Props.SymlinksProps.

(** ** Paths below a directory *)

Lemma below_dec (p q : path) : below p q \/ ~ below p q.
Proof. destruct (below_b p q) eqn:E; [left; apply below_b_ok, E | right; intros H; apply below_b_ok in H; congruence]. Qed.
Lemma below_app_tail (a b d : path) : below (a ++ d) (b ++ d) <-> below a b.
Proof.
  split; intros [l E].
  - rewrite app_assoc in E. apply app_inv_tail in E. exists l. exact E.
  - exists l. rewrite E, app_assoc. reflexivity.
Qed.
Lemma strictly_app_tail (a b d : path) : strictly_below (a ++ d) (b ++ d) <-> strictly_below a b.
Proof.
  split; intros (x & l & E); exists x, l.
  - rewrite app_assoc, app_comm_cons in E. apply app_inv_tail in E. exact E.
  - rewrite E. cbn [app]. rewrite app_assoc. reflexivity.
Qed.
Lemma below_parts (x y : str) : below (rev (parts x)) (rev (parts y)) <-> inside x y.
Proof.
  split; intros [l E].
  - exists (rev l). rewrite <- (rev_involutive (parts x)), E, rev_app_distr, rev_involutive. reflexivity.
  - exists (rev l). rewrite E, rev_app_distr. reflexivity.
Qed.
Lemma strictly_parts (x y : str) : strictly_below (rev (parts x)) (rev (parts y)) <-> strictly_inside x y.
Proof.
  split.
  - intros (n & l & E). apply (f_equal (@rev _)) in E. rewrite rev_involutive, app_comm_cons, rev_app_distr, rev_involutive in E.
    destruct (rev (n :: l)) as [|m k] eqn:Er; [apply (f_equal (@length _)) in Er; rewrite rev_length in Er; discriminate|]. exists m, k. exact E.
  - intros (n & l & E). apply (f_equal (@rev _)) in E. rewrite rev_app_distr in E.
    destruct (rev (n :: l)) as [|m k] eqn:Er; [apply (f_equal (@length _)) in Er; rewrite rev_length in Er; discriminate|]. exists m, k. exact E.
Qed.
Lemma strictly_inside_inside x y : strictly_inside x y -> inside x y.
Proof. intros (n & l & E). exists (n :: l). exact E. Qed.
Lemma parts_nonempty x : parts x <> [].
Proof. apply split_ch_nonempty. Qed.
Lemma rev_parts_nonempty x : rev (parts x) <> [].
Proof. intros E. apply (parts_nonempty x). apply (f_equal (@rev _)) in E. rewrite rev_involutive in E. exact E. Qed.
Lemma rel_parts x : rel (rev (parts x)) = x.
Proof. unfold rel. rewrite rev_involutive. apply join_split. Qed.
Lemma parts_rel q : q <> [] -> Forall valid_name q -> parts (rel q) = rev q.
Proof.
  intros Hne Hv. apply split_join; [intros E; apply Hne; apply (f_equal (@rev _)) in E; rewrite rev_involutive in E; exact E|].
  apply Forall_rev. eapply Forall_impl; [|exact Hv]. intros a (_ & _ & _ & H). exact H.
Qed.

(** Changes below a directory change nothing outside, when its parent exists. *)
Lemma frame_outside (T : path -> Prop) d f f' : d <> [] -> fs_wf f -> look f (tl d) = Some NDir -> (forall t, T t -> below t d) -> only_files T f f' ->
  forall q, ~ below q d -> look f' q = look f q.
Proof.
  intros Hd Hw Ht HT HO q Hq. destruct (HO q) as [E|[E|(E & _ & t & Htt & Hs)]]; [exact E | destruct (Hq (HT q E))|].
  exfalso. destruct (PatcherBundleProofs.below_comparable t d q (HT t Htt) (strictly_below_below _ _ Hs)) as [H|H]; [|exact (Hq H)].
  destruct H as [[|x l] El]; [cbn [app] in El; apply Hq; rewrite El; apply below_refl|].
  rewrite El in Ht. cbn [tl app] in Ht. destruct l as [|y l]; [cbn [app] in Ht; congruence|].
  assert (look f q = Some NDir) by (apply (wf_parents f (y :: l)); [exact Hw | congruence | discriminate]). congruence.
Qed.
Lemma only_files_mono (T T' : path -> Prop) f f' : (forall t, T t -> T' t) -> only_files T f f' -> only_files T' f f'.
Proof. intros H HO q. destruct (HO q) as [E|[E|(E1 & E2 & t & Ht & Hs)]]; [auto | auto | right; right; eauto 6]. Qed.
Lemma added_only cwd output ls f f' : links_added cwd output ls f f' -> only_files (fun t => exists l, In l ls /\ t = link_at cwd output l) f f'.
Proof.
  intros H q. destruct (H q) as [E|(E & l & Hl & [[Hs E']|[-> _]])]; [auto | | right; left; eauto]. right. right. split; [exact E|]. split; [exact E'|]. eauto.
Qed.
Lemma visible_dec kept : forall q, visible kept q \/ exists r, strictly_below q r /\ r <> [] /\ In (rel r) kept.
Proof.
  induction q as [|n q IH]; [left; intros r (x & l & E); destruct l; discriminate|].
  destruct IH as [IH|(r & H1 & H2 & H3)]; [|right; exists r; split; [eapply strictly_below_trans; [apply below_cons | exact H1] | auto]].
  destruct (mem (rel q) kept) eqn:Em; [|].
  - destruct q as [|m q]; [left; intros r (x & [|y l] & E) Hr; [injection E as _ <-; congruence | discriminate]|].
    right. exists (m :: q). split; [exists n, []; reflexivity|]. split; [discriminate | apply mem_In; exact Em].
  - left. intros r (x & l & E) Hr Hi. injection E as <- E. destruct l as [|y l].
    + cbn [app] in E. subst r. apply mem_In in Hi. congruence.
    + apply (IH r); [exists y, l; exact E | exact Hr | exact Hi].
Qed.

(** ** Lines of text *)

Section Lines.
  Variable cwd : path.
  Variable enc : str -> result bytes.
  Lemma lines_safe s lines : plain_path s -> safe (winv cwd s) (fun f f' => only_file (target cwd s) f f') (fun _ => True) (print_lines cwd enc s lines).
  Proof.
    intros Hs. unfold print_lines. eapply safe_bind; [apply open_safe, Hs|]. intros h ->. apply with_close_safe. apply safe_for_each. intros l _.
    eapply (safe_bind _ _ (fun _ => True)); [apply safe_lift; auto|]. intros b _. apply fwrite_safe, Hs.
  Qed.
  Lemma winv_ready s f : plain_path s -> winv cwd s f <-> ready cwd s f.
  Proof. intros Hs. unfold winv, ready. tauto. Qed.
  Lemma lines_frame s lines pl f o pl' f' : ready cwd s f -> run (print_lines cwd enc s lines) pl f = (o, pl', f') -> only_file (target cwd s) f f' /\ ready cwd s f'.
  Proof.
    intros Hr E. assert (Hs : plain_path s) by apply Hr. eapply (safe_run _ _ (only_file_refl _) (only_file_trans _)) in E as (H1 & H2 & _); [|apply lines_safe, Hs | apply winv_ready; assumption].
    split; [exact H1 | apply winv_ready; assumption].
  Qed.
  Lemma lines_append h : forall lines pl f u pl' f' b, h <> [] -> look f h = Some (NFile b) ->
    run (for_each lines (fun l => let~ x := lift (enc (l ++ [cNL])) in fwrite h x)) pl f = (Done u, pl', f') ->
    exists bs, Forall2 (fun l x => enc (l ++ [cNL]) = Ok x) lines bs /\ look f' h = Some (NFile (b ++ concat bs)).
  Proof.
    induction lines as [|l lines IH]; intros pl f u pl' f' b Hh Hl E.
    - cbn [for_each run] in E. injection E as _ _ <-. exists []. split; [constructor|]. cbn [concat]. rewrite app_nil_r. exact Hl.
    - cbn [for_each] in E. rewrite run_bind, run_bind in E. destruct (enc (l ++ [cNL])) as [x|e] eqn:Ee; cbn [lift run] in E; [|discriminate].
      destruct (run (fwrite h x) pl f) as [[[u1|e|] pl1] f1] eqn:E1; try discriminate. apply run_fwrite in E1. subst f1.
      apply (IH _ _ _ _ _ (b ++ x)) in E as (bs & H1 & H2); [|exact Hh | unfold f_append; rewrite Hl; apply look_put_same; exact Hh].
      exists (x :: bs). split; [constructor; assumption|]. cbn [concat]. rewrite H2, app_assoc. reflexivity.
  Qed.
  Lemma lines_done s lines pl f a pl' f' : ready cwd s f -> run (print_lines cwd enc s lines) pl f = (Done a, pl', f') -> text_file enc f' (target cwd s) lines.
  Proof.
    intros (Hs & Hn & Hw & Hc) E. unfold print_lines in E. rewrite run_bind in E. destruct (run (open_w cwd s) pl f) as [[[h|e|] pl1] f1] eqn:E1; try discriminate.
    apply run_sys_done in E1. unfold f_open_w in E1. apply rbind_Ok in E1 as (p & Ep & E1). apply locate_t in Ep as [-> _]; [|exact Hs | exact Hn].
    assert (Ht : target cwd s <> []) by (apply target_nonempty; exact Hs).
    assert (H1 : h = target cwd s /\ look f1 h = Some (NFile [])).
    { destruct (look f (target cwd s)) as [[b| |t]|]; try discriminate E1; injection E1 as <- <-; (split; [reflexivity | apply look_put_same; exact Ht]). }
    destruct H1 as [-> H1]. apply close_done in E as [pl2 E]. apply (lines_append _ _ _ _ _ _ _ []) in E as (bs & H2 & H3); [|exact Ht | exact H1]. exists bs. split; [exact H2 | exact H3].
  Qed.
End Lines.

Lemma dirname_slash h n : ~ In cSlash n -> dirname (h ++ cSlash :: n) <> [].
Proof.
  intros Hn. unfold dirname, path_split. rewrite cut_last_app by exact Hn. destruct (forallb (N.eqb cSlash) (h ++ [cSlash])) eqn:E; cbn [fst].
  - destruct h; discriminate.
  - intros Er. destruct (rstrip_spec (N.eqb cSlash) (h ++ [cSlash])) as (p & E1 & Hp & _). rewrite Er in E1. cbn [app] in E1. rewrite <- E1 in Hp. congruence.
Qed.

Section Plan.
  Variable cd : codecs.
  Variable cwd : path.
  Variable order set_order : list str -> list str.
  Variable gunzip unzstd : bytes -> result bytes.
  Variable xxh3 : bytes -> N.
  Variable enc : str -> result bytes.
  Variable cs : list conv.
  Variable output : str.
  Hypothesis Horder : forall l, Permutation (order l) l.
  Hypothesis Hset : forall l, Permutation (set_order l) l.
  Hypothesis Hcd : plain_names cd.
  Variables (kept links : list str) (e : exporter) (K : str -> Prop) (f : fs).
  Notation d := (target cwd output).
  Notation at_out := (ConvertSpec.at_out cwd output).
  Notation cdr := (lit "cdragon").
  Hypothesis Hready : process_ready cwd output cs K e f.
  Hypothesis Hkept : forall x, In x kept <-> x = cdr \/ K x.
  Hypothesis Hprod : forall x, produces cs e x -> K x.
  Hypothesis Hlinks : forall l, In l links -> regular l.
  Hypothesis Hmeet : forall x l, K x -> In l links -> ~ inside x l /\ ~ inside l x.
  Hypothesis Hanti : forall l1 l2, In l1 links -> In l2 links -> inside l1 l2 -> l1 = l2.

  Lemma Hclean : clean_ready cwd output f.
  Proof. apply Hready. Qed.
  Lemma Hcwd : look f cwd = Some NDir.
  Proof. apply Hready. Qed.
  Lemma Hcwd_out : ~ below cwd d.
  Proof. apply Hready. Qed.
  Lemma Hwf : fs_wf f.
  Proof. apply Hclean. Qed.
  Lemma Hd : d <> [].
  Proof. intros E. apply Hcwd_out. rewrite E. exists cwd. rewrite app_nil_r. reflexivity. Qed.
  Lemma Hparent : look f (tl d) = Some NDir.
  Proof.
    destruct Hready as (_ & _ & _ & (q & [b Hq] & (x & l & Ex) & _) & _). apply (wf_parents f (x :: l)); [apply Hwf | cbn [app]; rewrite <- Ex; congruence | discriminate].
  Qed.
  Lemma Hvalid_f p : look f p <> None -> Forall valid_name p.
  Proof. apply wf_valid; [apply Hwf | apply Hclean]. Qed.
  Lemma Hvalid_cwd : Forall valid_name cwd.
  Proof. apply Hvalid_f. rewrite Hcwd. discriminate. Qed.

  (** Texts. *)
  Lemma text_ok x : Forall valid_name (parts x) -> is_abs x = false /\ comps x = parts x /\ at_out x = rev (parts x) ++ d /\ plain_path (path_join output x).
  Proof.
    intros Hv. assert (Hr : Forall valid_name (rev (parts x))) by (apply Forall_rev; exact Hv). destruct Hclean as (Ho & Hdd & Hn & _).
    pose proof (full_text output Ho Hdd _ Hr) as Ht. pose proof (text_dotdot output Hdd _ _ Hr Ht) as Hdot.
    pose proof (is_abs_rel _ Hr) as Ha. pose proof (comps_rel _ Hr) as Hc. unfold full in *. rewrite rel_parts in *. rewrite rev_involutive in Hc.
    split; [exact Ha|]. split; [exact Hc|]. split; [exact (text_target cwd output _ _ Ht)|].
    split; [exact Hdot|]. destruct (rev (parts x)) as [|n q] eqn:Er; [destruct (rev_parts_nonempty x Er)|].
    inversion Hr as [|? ? (H1 & H2 & H3 & H4) _]; subst.
    assert (Eb : basename (path_join output x) = n) by (rewrite <- (rel_parts x), Er; apply (full_cons cwd output Ho Hdd f); [apply Hclean | exact Hr]).
    rewrite Eb. split; [|auto]. assert (Ef : exists h, path_join output x = h ++ cSlash :: n).
    { rewrite basename_cut in Eb. destruct (cut_last cSlash (path_join output x)) as [[h t]|] eqn:Ec; [exists h; apply cut_last_Some in Ec as [-> _]; congruence|].
      exfalso. unfold path_join in Ec. destruct (startswith x [cSlash]) eqn:Es; [apply startswith_iff in Es as (r & ->); discriminate Ha|].
      apply cut_last_None in Ec. destruct (eqb output [] || endswith output [cSlash]) eqn:Ee.
      - apply orb_true_iff in Ee as [Ee|Ee]; [apply eqb_true in Ee; contradiction|]. apply endswith_iff in Ee as (r & ->). apply Ec. rewrite <- app_assoc. apply in_or_app. right. left. reflexivity.
      - apply Ec. apply in_or_app. right. left. reflexivity. }
    destruct Ef as [h ->]. apply dirname_slash. exact H4.
  Qed.
  Lemma reg_at x : regular x -> at_out x = rev (parts x) ++ d.
  Proof. intros [H _]. apply text_ok. exact H. Qed.
  Lemma reg_K x : K x -> regular x.
  Proof. apply Hready. Qed.
  Lemma at_below x : Forall valid_name (parts x) -> strictly_below (at_out x) d.
  Proof.
    intros H. destruct (text_ok x H) as (_ & _ & -> & _). destruct (rev (parts x)) as [|n q] eqn:Er; [destruct (rev_parts_nonempty x Er)|]. exists n, q. reflexivity.
  Qed.
  Lemma at_inside x y : regular x -> regular y -> below (at_out x) (at_out y) <-> inside x y.
  Proof. intros Hx Hy. rewrite (reg_at x Hx), (reg_at y Hy), below_app_tail. apply below_parts. Qed.
  (** A path at or above that of a text. *)
  Lemma above_text x r : Forall valid_name (parts x) -> below (at_out x) (r ++ d) -> r <> [] -> Forall valid_name r /\ parts (rel r) = rev r /\ inside x (rel r).
  Proof.
    intros Hx Hb Hr. destruct (text_ok x Hx) as (_ & _ & E & _). rewrite E, below_app_tail in Hb.
    assert (Hv : Forall valid_name r) by (destruct Hb as [l El]; assert (G : Forall valid_name (rev (parts x))) by (apply Forall_rev; exact Hx); rewrite El in G; apply Forall_app in G; apply G).
    split; [exact Hv|]. pose proof (parts_rel r Hr Hv) as Ep. split; [exact Ep|]. apply below_parts. rewrite Ep, rev_involutive. exact Hb.
  Qed.
  Lemma hd_inside x y : inside x y -> hd [] (parts x) = hd [] (parts y).
  Proof. intros [l E]. rewrite E. pose proof (parts_nonempty y). destruct (parts y); [congruence | reflexivity]. Qed.
  Lemma hd_cdr : hd [] (parts cdr) = cdr.
  Proof. reflexivity. Qed.
  Lemma export_place t : export_at cwd output cs e t -> exists x, produces cs e x /\ below t (at_out x).
  Proof.
    intros (p & c & He & Hc & q & Hq & Ht). apply chosen_unique in Hc. subst c. exists q. split; [exists p; split; [exact He | exact Hq]|].
    destruct Ht as [->|(_ & _ & Ht)]; [apply below_refl | exact Ht].
  Qed.
  Lemma export_below t : export_at cwd output cs e t -> strictly_below t d.
  Proof. intros H. apply export_place in H as (x & Hx & Ht). eapply strictly_below_trans; [exact Ht|]. apply at_below. apply (reg_K x (Hprod x Hx)). Qed.
  Lemma export_not_cdr t s : export_at cwd output cs e t -> Forall valid_name (parts s) -> hd [] (parts s) = cdr -> ~ below t (at_out s) /\ ~ below (at_out s) t.
  Proof.
    intros H Hs Eh. apply export_place in H as (x & Hx & Ht). pose proof (reg_K x (Hprod x Hx)) as [Rx Rh]. split; intros Hb.
    - destruct (PatcherBundleProofs.below_comparable t _ _ Ht Hb) as [G|G].
      + destruct (text_ok s Hs) as (_ & _ & E & _). rewrite E in G. apply above_text in G as (_ & _ & G); [|exact Rx | apply rev_parts_nonempty]. rewrite rel_parts in G. apply hd_inside in G. congruence.
      + destruct (text_ok x Rx) as (_ & _ & E & _). rewrite E in G. apply above_text in G as (_ & _ & G); [|exact Hs | apply rev_parts_nonempty]. rewrite rel_parts in G. apply hd_inside in G. congruence.
    - assert (G : below (at_out s) (at_out x)) by (eapply below_trans; [exact Hb | exact Ht]).
      destruct (text_ok x Rx) as (_ & _ & E & _). rewrite E in G. apply above_text in G as (_ & _ & G); [|exact Hs | apply rev_parts_nonempty]. rewrite rel_parts in G. apply hd_inside in G. congruence.
  Qed.

  (** Stage 1: the output directory is cleaned. *)
  Lemma below_d_cases p q : below p q -> below p d -> below q d \/ strictly_below d q.
  Proof.
    intros H1 H2. destruct (PatcherBundleProofs.below_comparable p q d H1 H2) as [H|[[|x l] E]]; [left; exact H | left; cbn [app] in E; rewrite E; apply below_refl | right; exists x, l; exact E].
  Qed.
  Lemma sd_tl q : strictly_below d q -> below (tl d) q.
  Proof. intros (x & l & E). exists l. rewrite E. reflexivity. Qed.
  Definition clean : prog unit := clean_output_dir cwd order set_order output kept links.
  Definition stays (g : fs) : Prop := fs_wf g /\ (forall q, look g q = look f q \/ look g q = None) /\ forall q, ~ below q d -> look g q = look f q.
  Lemma clean_stays pl o pl' g : run clean pl f = (o, pl', g) -> stays g /\ (o = Done tt -> forall p, extra kept links d f p -> look g p = None).
  Proof.
    intros E. destruct Hclean as (H1 & H2 & H3 & H4 & H5 & H6). pose proof (clean_any cwd output H1 H2 order Horder f H4 H5 H3 kept links set_order Hset H6 pl o pl' g E) as [[Hw Hi] Hd0]. split; [|exact Hd0].
    split; [exact Hw|]. split; [intros q; destruct (Hi q) as [G|[G _]]; auto|]. intros q Hq. destruct (Hi q) as [G|(_ & [(r & -> & _)|(Ed & t & (r & -> & Hr & _) & Hs)])]; [exact G | destruct Hq; exists r; reflexivity|].
    destruct Hready as (_ & _ & _ & (s & [b Hb] & Hss & Hsn) & _).
    assert (Gs : look g s = Some (NFile b)).
    { destruct (Hi s) as [G|(_ & [(r' & -> & _)|(G & _)])]; [congruence | destruct Hsn; exists r'; reflexivity | congruence]. }
    destruct (below_d_cases (r ++ d) q) as [H|H]; [apply strictly_below_below; exact Hs | exists r; reflexivity | contradiction|].
    rewrite Ed. apply sd_tl in H as [l El]. destruct Hss as (y & l' & Es). apply (wf_parents g (y :: l' ++ l)); [exact Hw | | discriminate].
    cbn [app]. rewrite <- app_assoc, <- El, <- Es. congruence.
  Qed.
  Lemma stays_cwd g : stays g -> look g cwd = Some NDir.
  Proof. intros (_ & _ & H). rewrite H by apply Hcwd_out. apply Hcwd. Qed.
  Lemma tl_out : ~ below (tl d) d.
  Proof. pose proof Hd as H. intros [l E]. destruct d as [|x d0]; [congruence|]. cbn [tl] in E. apply (f_equal (@length _)) in E. rewrite app_length in E. cbn [length] in E. lia. Qed.
  Lemma stays_parent g : stays g -> look g (tl d) = Some NDir.
  Proof. intros (_ & _ & H). rewrite H by apply tl_out. apply Hparent. Qed.
  Lemma K_at r : r <> [] -> Forall valid_name r -> at_out (rel r) = r ++ d.
  Proof. intros Hr Hv. assert (Hp : Forall valid_name (parts (rel r))) by (rewrite parts_rel by assumption; apply Forall_rev; exact Hv). destruct (text_ok _ Hp) as (_ & _ & -> & _). rewrite parts_rel, rev_involutive by assumption. reflexivity. Qed.

  (** The files and links that are left. *)
  Definition left_over (g : fs) : Prop := forall q n, strictly_below q d -> look g q = Some n -> n <> NDir ->
    (exists x, In x kept /\ strictly_below q (at_out x))
    \/ (exists x b, In x kept /\ q = at_out x /\ n = NFile b)
    \/ (exists l t, In l links /\ q = at_out l /\ n = NLink t).
  Lemma clean_left pl pl' g : run clean pl f = (Done tt, pl', g) -> stays g /\ left_over g.
  Proof.
    intros E. apply clean_stays in E as [Hs He]. split; [exact Hs|]. specialize (He eq_refl). intros q n (y & r0 & Eq) En Hn.
    set (r := y :: r0). assert (Er : q = r ++ d) by exact Eq. clear Eq. assert (Hr : r <> []) by discriminate. clearbody r. clear y r0.
    destruct Hs as (Hw & Hi & _). assert (Ef : look f q = Some n) by (destruct (Hi q); congruence).
    assert (Hv : Forall valid_name r) by (assert (G : Forall valid_name q) by (apply Hvalid_f; congruence); rewrite Er in G; apply Forall_app in G; apply G).
    destruct (visible_dec kept r) as [V|(r' & H1 & H2 & H3)].
    - right. destruct n as [b| |t]; [left | congruence | right].
      + destruct (mem (rel r) kept) eqn:Em; [apply mem_In in Em; exists (rel r), b; split; [exact Em|]; split; [rewrite K_at; assumption | reflexivity]|].
        exfalso. assert (G : look g q = None); [|congruence]. apply He. exists r. split; [exact Er|]. split; [exact Hr|]. split; [exact V|]. right. split; [exists b; exact Ef|]. intros Hin. apply mem_In in Hin. congruence.
      + destruct (mem (rel r) links) eqn:Em; [apply mem_In in Em; exists (rel r), t; split; [exact Em|]; split; [rewrite K_at; assumption | reflexivity]|].
        exfalso. assert (G : look g q = None); [|congruence]. apply He. exists r. split; [exact Er|]. split; [exact Hr|]. split; [exact V|]. left. split; [exists t; exact Ef|]. intros Hin. apply mem_In in Hin. congruence.
    - left. exists (rel r'). split; [exact H3|]. rewrite K_at; [|exact H2|].
      + rewrite Er. apply strictly_app_tail. exact H1.
      + destruct H1 as (z & l & El). rewrite El in Hv. apply Forall_inv_tail in Hv. apply Forall_app in Hv. apply Hv.
  Qed.

  (** Stage 2: files are written. *)
  Lemma prod_in p q : ConvertSpec.exports e p -> In q (converted_paths (get_converter cs p) p) -> produces cs e q.
  Proof. intros H1 H2. exists p. split; [exact H1 | exact H2]. Qed.
  Lemma cdr_valid : Forall valid_name (parts cdr).
  Proof. repeat constructor; apply valid_name_b_ok; reflexivity. Qed.
  Lemma kept_valid x : In x kept -> Forall valid_name (parts x).
  Proof. intros H. apply Hkept in H as [->|H]; [exact cdr_valid | apply reg_K, H]. Qed.
  Lemma at_inside' x y : Forall valid_name (parts x) -> Forall valid_name (parts y) -> below (at_out x) (at_out y) <-> inside x y.
  Proof. intros Hx Hy. destruct (text_ok x Hx) as (_ & _ & -> & _). destruct (text_ok y Hy) as (_ & _ & -> & _). rewrite below_app_tail. apply below_parts. Qed.
  Lemma at_strictly x y : Forall valid_name (parts x) -> Forall valid_name (parts y) -> strictly_below (at_out x) (at_out y) <-> strictly_inside x y.
  Proof. intros Hx Hy. destruct (text_ok x Hx) as (_ & _ & -> & _). destruct (text_ok y Hy) as (_ & _ & -> & _). rewrite strictly_app_tail. apply strictly_parts. Qed.
  Lemma below_strictly (a b c : path) : below a b -> strictly_below b c -> strictly_below a c.
  Proof. intros H1 H2. eapply strictly_below_trans; eassumption. Qed.
  (** No link leads to a place of [K] once cleaned. *)
  Lemma no_kept_above x q y : K x -> below (at_out x) q -> In y kept -> strictly_below q (at_out y) -> False.
  Proof.
    intros Hx Hb Hy Hs. assert (Hxy : strictly_inside x y) by (apply at_strictly; [apply reg_K, Hx | apply kept_valid, Hy | eapply below_strictly; eassumption]).
    apply Hkept in Hy as [->|Hy]; [|destruct Hready as (_ & _ & _ & _ & _ & Hnn & _); exact (Hnn x y Hx Hy Hxy)].
    apply strictly_inside_inside, hd_inside in Hxy. apply reg_K in Hx as [_ Hx]. apply Hx. rewrite Hxy. apply hd_cdr.
  Qed.
  Lemma K_nolink g x : stays g -> left_over g -> K x -> nolink g (at_out x).
  Proof.
    intros Hs HL Hx q t Hq Et. pose proof (at_below x (proj1 (reg_K x Hx))) as Hd1. assert (Ef : look f q = Some (NLink t)) by (destruct (proj1 (proj2 Hs) q); congruence).
    destruct (below_d_cases (at_out x) q Hq (strictly_below_below _ _ Hd1)) as [[[|y l] El]|H].
    - cbn [app] in El. destruct Hclean as (_ & _ & Hn & _). apply (Hn q t); [rewrite El; apply below_refl | exact Ef].
    - destruct (HL q (NLink t)) as [(z & Hz & Hz')|[(z & b & _ & _ & Hz)|(z & t' & Hz & Ez & _)]]; [exists y, l; exact El | exact Et | discriminate | exact (no_kept_above x q z Hx Hq Hz Hz') | discriminate|].
      apply (proj1 (Hmeet x z Hx Hz)). apply at_inside; [apply reg_K, Hx | apply Hlinks, Hz|]. rewrite <- Ez. exact Hq.
    - destruct Hclean as (_ & _ & Hn & _). apply (Hn q t); [apply strictly_below_below; exact H | exact Ef].
  Qed.
  Lemma g_export_ready g : stays g -> left_over g -> export_ready cwd output cs e g.
  Proof.
    intros Hs HL p c He Hc. pose proof (chosen_unique _ _ _ Hc) as Ec. split.
    - intros q Hq. subst c. assert (Hx : K q) by (apply Hprod; exact (prod_in p q He Hq)). split; [apply (text_ok q), reg_K, Hx|]. split; [exact (K_nolink g q Hs HL Hx)|]. split; [apply Hs | apply stays_cwd, Hs].
    - intros ->. destruct Hready as (_ & _ & _ & _ & _ & _ & Hskn & _). destruct (Hskn p He Hc) as [H1 H2]. split; [exact H1|].
      assert (Hx : K (stem p)) by (apply Hprod; apply (prod_in p); [exact He | rewrite <- Ec; right; left; reflexivity]). split.
      + intros Hb. apply Hcwd_out. eapply below_trans; [exact Hb|]. apply strictly_below_below, at_below, reg_K, Hx.
      + intros q t [[|y l] El] Et.
        * cbn [app] in El. apply (K_nolink g _ Hs HL Hx q t); [rewrite El; apply below_refl | exact Et].
        * apply (H2 q t); [exists y, l; exact El|]. destruct (proj1 (proj2 Hs) q); congruence.
  Qed.
  Lemma in_links l : In l links -> Forall valid_name (parts l).
  Proof. intros H. apply Hlinks, H. Qed.
  Definition exporting (ow : bool) : prog unit := export cd cwd cs output gunzip unzstd xxh3 ow e.
  (** What is there after it, even interrupted. *)
  Definition after_export (g h : fs) : Prop := fs_wf h /\ only_files (export_at cwd output cs e) g h.
  Lemma export_stage ow pl g o pl' h : stays g -> left_over g -> run (exporting ow) pl g = (o, pl', h) -> after_export g h.
  Proof.
    intros Hs HL E. apply (ConvertProps.C46_export_frame cd cwd output cs gunzip unzstd xxh3 e g (g_export_ready g Hs HL) Hcd) in E as [HO HR]. split; [|exact HO].
    destruct (export_list e) as [|p l] eqn:El.
    - assert (Hn : forall t, ~ export_at cwd output cs e t) by (intros t (p & c & He & _); apply export_list_iff in He; rewrite El in He; contradiction).
      assert (Hsame : forall q, look h q = look g q) by (intros q; destruct (HO q) as [G|[G|(_ & _ & t & G & _)]]; [exact G | destruct (Hn _ G) | destruct (Hn _ G)]).
      intros x q. rewrite !Hsame. apply Hs.
    - assert (He : ConvertSpec.exports e p) by (apply export_list_iff; rewrite El; left; reflexivity). destruct (HR p _ He (chosen_get cs p)) as [Hr _].
      assert (exists q, In q (converted_paths (get_converter cs p) p)) as [q Hq] by (destruct (get_converter cs p); cbn [converted_paths In]; eauto). apply (Hr q Hq).
  Qed.
  Lemma export_below' t : export_at cwd output cs e t -> below t d.
  Proof. intros H. apply strictly_below_below, export_below, H. Qed.
  Lemma export_outside g h : stays g -> after_export g h -> forall q, ~ below q d -> look h q = look f q.
  Proof.
    intros Hs [_ HO] q Hq. rewrite <- (proj2 (proj2 Hs) q Hq). apply (frame_outside (export_at cwd output cs e) d g h); [apply Hd | apply Hs | apply stays_parent, Hs | apply export_below' | exact HO | exact Hq].
  Qed.
  Lemma h_cwd g h : stays g -> after_export g h -> look h cwd = Some NDir.
  Proof. intros H1 H2. rewrite (export_outside g h H1 H2) by apply Hcwd_out. apply Hcwd. Qed.
  Lemma h_parent g h : stays g -> after_export g h -> look h (tl d) = Some NDir.
  Proof. intros H1 H2. rewrite (export_outside g h H1 H2) by apply tl_out. apply Hparent. Qed.
  (** Files and links then. *)
  Lemma h_leaf g h q n : left_over g -> after_export g h -> strictly_below q d -> look h q = Some n -> n <> NDir ->
    (look g q = Some n /\ ((exists x, In x kept /\ strictly_below q (at_out x)) \/ (exists x b, In x kept /\ q = at_out x /\ n = NFile b) \/ (exists l t, In l links /\ q = at_out l /\ n = NLink t)))
    \/ exists x, K x /\ below q (at_out x).
  Proof.
    intros HL [_ HO] Hq En Hn. destruct (HO q) as [G|[G|(_ & G & _)]]; [|right; apply export_place in G as (x & Hx & Hb); exists x; auto | congruence].
    left. split; [congruence|]. apply (HL q n); [exact Hq | congruence | exact Hn].
  Qed.
  (** A link of the way to a path outside [K] or [links]. *)
  Lemma above_out x q : Forall valid_name (parts x) -> below (at_out x) q -> strictly_below q d \/ below d q.
  Proof.
    intros Hx Hq. destruct (below_d_cases (at_out x) q Hq (strictly_below_below _ _ (at_below x Hx))) as [[[|y l] El]|H]; [right; cbn [app] in El; rewrite El; apply below_refl | left; exists y, l; exact El | right; apply strictly_below_below; exact H].
  Qed.
  Lemma above_same g h q : stays g -> after_export g h -> below d q -> forall t, look h q <> Some (NLink t).
  Proof.
    intros Hs Ha [[|y l] El] t Et.
    - cbn [app] in El. destruct Hclean as (Ho & Hdd & Hn & Hw & _ & Hf). assert (Hq : q = d) by congruence. rewrite Hq in Et. clear q El Hq.
      destruct (proj2 Ha d) as [G|[G|(_ & G & _)]]; [| |congruence].
      + apply (Hn d t (below_refl d)). destruct (proj1 (proj2 Hs) d); congruence.
      + apply export_below in G as (x & l & El). apply (f_equal (@length _)) in El. cbn [length] in El. rewrite app_length in El. lia.
    - assert (Hq : ~ below q d) by (intros [l' El']; rewrite El' in El; apply (f_equal (@length _)) in El; cbn [length app] in El; rewrite !app_length in El; lia).
      rewrite (export_outside g h Hs Ha q Hq) in Et. destruct Hclean as (_ & _ & Hn & _). apply (Hn q t); [exists (y :: l); exact El | exact Et].
  Qed.
  Lemma meets x l : K x -> In l links -> ~ below (at_out x) (at_out l) /\ ~ below (at_out l) (at_out x).
  Proof. intros Hx Hl. rewrite !at_inside by (apply reg_K, Hx || apply Hlinks, Hl). apply Hmeet; assumption. Qed.
  Lemma cdr_not x : regular x -> ~ inside x cdr.
  Proof. intros [_ H] Hi. apply hd_inside in Hi. apply H. rewrite Hi. apply hd_cdr. Qed.
  Lemma link_free l y : In l links -> In y kept -> ~ below (at_out l) (at_out y).
  Proof.
    intros Hl Hy. apply Hkept in Hy as [->|Hy]; [|apply meets; assumption].
    rewrite at_inside' by (apply in_links, Hl || exact cdr_valid). apply cdr_not, Hlinks, Hl.
  Qed.
  Lemma strictly_irrefl (p : path) : ~ strictly_below p p.
  Proof. intros (x & l & E). apply (f_equal (@length _)) in E. cbn [length] in E. rewrite app_length in E. lia. Qed.
  Lemma at_nonempty x : Forall valid_name (parts x) -> at_out x <> [].
  Proof. intros H E. apply at_below in H as (y & l & El). rewrite E in El. discriminate. Qed.
  Lemma tl_strictly (p q : path) : p <> [] -> below (tl p) q -> strictly_below p q.
  Proof. intros Hp [l E]. destruct p as [|x p]; [congruence|]. cbn [tl] in E. exists x, l. rewrite E. reflexivity. Qed.

  (** Stage 3: links are created. *)
  Lemma h_links_ready g h : stays g -> left_over g -> after_export g h -> links_ready cwd output links h.
  Proof.
    intros Hs HL Ha. split; [apply Ha|]. split; [apply (h_cwd g h Hs Ha)|]. split; [apply Hvalid_cwd|]. split.
    - intros l Hl. split; [apply (text_ok l), in_links, Hl|]. intros q t Hq Et. change (link_at cwd output l) with (at_out l) in Hq.
      apply tl_strictly in Hq; [|apply at_nonempty, in_links, Hl]. pose proof (strictly_below_below _ _ Hq) as Hb.
      destruct (above_out l q (in_links l Hl) Hb) as [Hd1|Hd1]; [|exact (above_same g h q Hs Ha Hd1 t Et)].
      destruct (h_leaf g h q (NLink t) HL Ha Hd1 Et) as [(_ & [(x & Hx & Hx')|[(x & b & _ & _ & Hx)|(l' & t' & Hl' & El & _)]])|(x & Hx & Hx')]; [discriminate | | discriminate | |].
      + apply (link_free l x Hl Hx). eapply below_trans; [exact Hb | apply strictly_below_below; exact Hx'].
      + assert (G : inside l l') by (apply at_inside; [apply Hlinks, Hl | apply Hlinks, Hl' | rewrite <- El; exact Hb]). apply (Hanti l l' Hl Hl') in G. subst l'. rewrite El in Hq. exact (strictly_irrefl _ Hq).
      + apply (proj2 (meets x l Hx Hl)). eapply below_trans; [exact Hb | exact Hx'].
    - intros l1 l2 H1 H2. change (link_at cwd output l1) with (at_out l1). change (link_at cwd output l2) with (at_out l2). split.
      + intros H. assert (G : inside l1 l2) by (apply at_inside; [apply Hlinks, H1 | apply Hlinks, H2 | apply strictly_below_below; exact H]). apply (Hanti l1 l2 H1 H2) in G. rewrite G in H. exact (strictly_irrefl _ H).
      + intros H. apply (Hanti l1 l2 H1 H2). apply at_inside; [apply Hlinks, H1 | apply Hlinks, H2 | rewrite H; apply below_refl].
  Qed.
  Definition linking (prev : str) : prog unit := if nonempty links then create_symlinks cwd output prev links else Ret tt.
  Definition after_links (h k : fs) : Prop := fs_wf k /\ links_added cwd output links h k.
  Lemma links_stage prev pl g h o pl' k : stays g -> left_over g -> after_export g h -> run (linking prev) pl h = (o, pl', k) -> after_links h k.
  Proof.
    intros Hs HL Ha E. unfold linking in E. destruct (nonempty links).
    - pose proof (h_links_ready g h Hs HL Ha) as Hr. split; [|exact (SymlinksProps.C54_added cwd output prev links h Hr pl o pl' k E)].
      apply (SymlinksProps.ready_after cwd output prev links h Hr pl o pl' k E).
    - cbn [run] in E. injection E as _ _ <-. split; [apply Ha|]. intros q. left. reflexivity.
  Qed.
  Lemma links_outside g h k : stays g -> after_export g h -> after_links h k -> forall q, ~ below q d -> look k q = look f q.
  Proof.
    intros Hs Ha [_ HA] q Hq. rewrite <- (export_outside g h Hs Ha q Hq).
    apply (frame_outside (fun t => exists l, In l links /\ t = link_at cwd output l) d h k); [apply Hd | apply Ha | apply (h_parent g h Hs Ha) | | apply added_only; exact HA | exact Hq].
    intros t (l & Hl & ->). apply strictly_below_below. apply (at_below l), in_links, Hl.
  Qed.

  (** Stage 4: lists. *)
  Definition list_texts : list str := [links_txt; unknown_txt; exported_txt].
  Lemma list_valid s : In s list_texts -> Forall valid_name (parts s) /\ hd [] (parts s) = cdr /\ strictly_inside s cdr.
  Proof.
    intros [<-|[<-|[<-|[]]]]; (split; [apply Forall_forall; intros c Hc; apply valid_name_b_ok; revert c Hc; apply forallb_forall; reflexivity|]; split; [reflexivity|]; eexists _, []; reflexivity).
  Qed.
  Definition T (t : path) : Prop := exists s, In s list_texts /\ t = at_out s.
  Definition listable (k : fs) : Prop := fs_wf k /\ look k cwd = Some NDir /\ forall s, In s list_texts -> nolink k (at_out s).
  Lemma k_listable g h k : stays g -> after_export g h -> after_links h k -> listable k.
  Proof.
    intros Hs Ha Hk. split; [apply Hk|]. split; [rewrite (links_outside g h k Hs Ha Hk) by apply Hcwd_out; apply Hcwd|].
    intros s Hin q t Hq Et. destruct (list_valid s Hin) as (Hv & Hh & _). destruct (proj2 Hk q) as [G|(_ & l & Hl & [[_ G]|[-> _]])]; [|congruence|].
    - destruct (proj2 Ha q) as [G2|[G2|(_ & G2 & _)]]; [| exact (proj2 (export_not_cdr q s G2 Hv Hh) Hq) | congruence].
      destruct Hready as (_ & _ & _ & _ & _ & _ & _ & Hn). apply (Hn s Hin q t Hq). destruct (proj1 (proj2 Hs) q); congruence.
    - assert (Hi : inside s l) by (apply at_inside'; [exact Hv | apply in_links, Hl | exact Hq]). apply hd_inside in Hi. apply (proj2 (Hlinks l Hl)). congruence.
  Qed.
  Lemma list_ready s k : In s list_texts -> listable k -> ready cwd (path_join output s) k.
  Proof. intros Hs (H1 & H2 & H3). split; [apply (text_ok s), (list_valid s Hs)|]. split; [exact (H3 s Hs)|]. split; assumption. Qed.
  Lemma list_step s lines pl k o pl' k' : In s list_texts -> listable k -> run (print_lines cwd enc (path_join output s) lines) pl k = (o, pl', k') ->
    listable k' /\ only_file (at_out s) k k' /\ (o = Done tt -> text_file enc k' (at_out s) lines /\ look k (at_out s) <> Some NDir).
  Proof.
    intros Hs Hk E. pose proof (list_ready s k Hs Hk) as Hr. pose proof (lines_frame cwd enc _ _ _ _ _ _ _ Hr E) as [HO (_ & Hn & Hw & Hc)]. split; [|split; [exact HO|]].
    - split; [exact Hw|]. split; [exact Hc|]. intros s' Hs' q t Hq Et. destruct (HO q) as [G|[->|(_ & G & _)]]; [apply (proj2 (proj2 Hk) s' Hs' q t Hq); congruence | apply (Hn _ t (below_refl _) Et) | congruence].
    - intros ->. split; [exact (lines_done cwd enc _ _ _ _ _ _ _ Hr E)|]. intros Ed. unfold print_lines in E. rewrite run_bind in E.
      destruct (run (open_w cwd (path_join output s)) pl k) as [[[h|x|] pl1] f1] eqn:E1; try discriminate. apply run_sys_done in E1. unfold f_open_w in E1. apply rbind_Ok in E1 as (q & Ep & E1).
      apply locate_t in Ep as [-> _]; [|apply Hr | apply Hr]. change (target cwd (path_join output s)) with (at_out s) in E1. rewrite Ed in E1. discriminate.
  Qed.
  Lemma only_file_T s k k' : In s list_texts -> only_file (at_out s) k k' -> only_files T k k'.
  Proof.
    intros Hs H q. destruct (H q) as [G|[->|(G1 & G2 & G3)]]; [auto | right; left; exists s; auto | right; right]. split; [exact G1|]. split; [exact G2|]. exists (at_out s). split; [exists s; auto | exact G3].
  Qed.
  Lemma only_T_trans a b c : only_files T a b -> only_files T b c -> only_files T a c.
  Proof.
    intros H1 H2 q. destruct (H2 q) as [G|[G|(G1 & G2 & G3)]]; [|auto|].
    - destruct (H1 q) as [G'|[G'|(G1 & G2 & G3)]]; [left; congruence | auto | right; right; split; [exact G1|]; split; [congruence | exact G3]].
    - destruct (H1 q) as [G'|[G'|(G1' & G2' & G3')]]; [right; right; split; [congruence|]; split; assumption | auto | congruence].
  Qed.
  (** Files may have appeared or have another content, directories may have appeared. *)
  Definition alike (a b : fs) : Prop := forall q, look b q = look a q \/ look a q = None /\ look b q = Some NDir \/ (look a q = None \/ is_file a q) /\ is_file b q.
  Lemma alike_trans a b c : alike a b -> alike b c -> alike a c.
  Proof.
    intros H1 H2 q. destruct (H2 q) as [G|[[G1 G2]|[G1 [y G2]]]].
    - rewrite G. unfold is_file in *. rewrite !G. apply H1.
    - destruct (H1 q) as [G|[[_ G]|[_ [x G]]]]; [right; left; split; congruence | congruence | congruence].
    - destruct (H1 q) as [G|[[_ G]|[G _]]]; [|destruct G1 as [G1|[x G1]]; congruence | right; right; split; [exact G | exists y; exact G2]].
      right. right. split; [|exists y; exact G2]. destruct G1 as [G1|[x G1]]; [left; congruence | right; exists x; congruence].
  Qed.
  Lemma resolve_alike a b fo : alike a b -> forall k c cur p, resolve k a fo cur c = Ok p -> look a p <> None -> resolve k b fo cur c = Ok p.
  Proof.
    intros HK. induction k as [|k IHk]; (induction c as [|n c IH]; intros cur p; [rewrite !resolve_nil; auto|]);
      rewrite !resolve_cons; (destruct (eqb n dotdot); [apply IH|]); intros E Hp.
    all: destruct (HK (n :: cur)) as [G|[[G _]|[[G|[x G]] [y G']]]]; [rewrite G | rewrite G in E; destruct c; [injection E as <-; congruence | discriminate] | rewrite G in E; destruct c; [injection E as <-; congruence | discriminate] | rewrite G in E; rewrite G'; exact E].
    all: destruct (look a (n :: cur)) as [[z| |t]|] eqn:El; [exact E | apply IH; assumption | | exact E].
    - exact E.
    - destruct c, fo; try exact E; apply IHk; assumption.
  Qed.
  Lemma lists_dirs pl k o pl' k' : listable k -> run (makedirs cwd (path_join output cdr)) pl k = (o, pl', k') -> listable k' /\ only_files T k k' /\ alike k k'.
  Proof.
    intros (Hw & Hc & Hn) E. destruct (text_ok cdr cdr_valid) as (_ & _ & Ec & (Hdd & _)).
    assert (Hu : In unknown_txt list_texts) by (right; left; reflexivity). destruct (list_valid _ Hu) as (Hv & _ & Hi). apply (at_strictly _ _ Hv cdr_valid) in Hi.
    eapply (safe_run _ _ (adds_dirs_refl _) (adds_dirs_trans _)) in E as (HA & HD & _); [|apply makedirs_dinv; exact Hdd|].
    - destruct HD as (Hn' & Hw' & Hc'). split; [|split].
      + split; [exact Hw'|]. split; [exact Hc'|]. intros s Hs q t Hq Et. destruct (HA q) as [G|(_ & G & _)]; [apply (Hn s Hs q t Hq); congruence | congruence].
      + intros q. destruct (HA q) as [G|(G1 & G2 & G3)]; [auto|]. right. right. split; [exact G1|]. split; [exact G2|]. exists (at_out unknown_txt). split; [exists unknown_txt; auto|].
        destruct Hi as (x & l & El). destruct G3 as [l' El']. exists x, (l ++ l'). rewrite El. change (at_out cdr) with (target cwd (path_join output cdr)). rewrite El', app_assoc. reflexivity.
      + intros q. destruct (HA q) as [G|(G1 & G2 & _)]; auto.
    - split; [|split; assumption]. intros q t Hq. apply (Hn _ Hu q t). eapply below_trans; [apply strictly_below_below; exact Hi | exact Hq].
  Qed.
  Lemma step_alike s lines k k' : only_file (at_out s) k k' -> listable k -> In s list_texts -> text_file enc k' (at_out s) lines -> look k (at_out s) <> Some NDir -> alike k k'.
  Proof.
    intros HO Hk Hs (bs & _ & Hb) Hnd q. destruct (HO q) as [G|[->|(G1 & G2 & _)]]; [auto | right; right | auto].
    split; [|exists (concat bs); exact Hb]. destruct (look k (at_out s)) as [[b| |t]|] eqn:El; [right; exists b; exact El | congruence | destruct (proj2 (proj2 Hk) s Hs _ t (below_refl _) El) | left; reflexivity].
  Qed.
  Lemma text_keep s s' lines k k' : In s list_texts -> In s' list_texts -> s <> s' -> only_file (at_out s') k k' -> text_file enc k (at_out s) lines -> text_file enc k' (at_out s) lines.
  Proof.
    intros Hs Hs' Hne HO (bs & H1 & H2). exists bs. split; [exact H1|]. destruct (HO (at_out s)) as [G|[G|(G & _)]]; [congruence | | congruence].
    exfalso. apply Hne. assert (parts s = parts s'); [|rewrite <- (join_split cSlash s), <- (join_split cSlash s'); unfold parts in *; congruence].
    destruct (text_ok s (proj1 (list_valid s Hs))) as (_ & _ & E1 & _). destruct (text_ok s' (proj1 (list_valid s' Hs'))) as (_ & _ & E2 & _). rewrite E1, E2 in G. apply app_inv_tail in G. apply (f_equal (@rev _)) in G. rewrite !rev_involutive in G. exact G.
  Qed.
  Variable p : plan.
  Hypothesis Hp1 : pl_changed p = kept.
  Hypothesis Hp2 : pl_links p = links.
  Hypothesis Hp3 : pl_exporter p = e.
  Definition listed (unknown : list N) (k : fs) : Prop :=
    (links <> [] -> text_file enc k (at_out links_txt) (py_sorted str_lt links)) /\ text_file enc k (at_out unknown_txt) (map (hexl 16) unknown)
    /\ text_file enc k (at_out exported_txt) (py_sorted str_lt (pl_new p)).
  Lemma lists_stage unknown pl k o pl' k' : listable k -> run (write_lists cwd enc output p unknown) pl k = (o, pl', k') ->
    listable k' /\ only_files T k k' /\ (o = Done tt -> listed unknown k' /\ alike k k').
  Proof.
    intros Hk E. unfold write_lists in E. rewrite Hp2 in E. rewrite run_bind in E. destruct (run (makedirs cwd (path_join output cdr)) pl k) as [[[u|x|] pl1] k1] eqn:E1; [|injection E as <- _ <-; apply (lists_dirs _ _ _ _ _ Hk) in E1 as (H1 & H2 & _); split; [exact H1|]; split; [exact H2 | discriminate]..].
    apply (lists_dirs _ _ _ _ _ Hk) in E1 as (Hk1 & HO1 & HA1). rewrite run_bind in E.
    assert (Hl : In links_txt list_texts) by (left; reflexivity). assert (Hu : In unknown_txt list_texts) by (right; left; reflexivity). assert (Hx : In exported_txt list_texts) by (right; right; left; reflexivity).
    assert (Hlu : links_txt <> unknown_txt) by discriminate. assert (Hlx : links_txt <> exported_txt) by discriminate. assert (Hux : unknown_txt <> exported_txt) by discriminate.
    assert (S2 : forall o2 pl2 k2, run (if nonempty links then print_lines cwd enc (path_join output links_txt) (py_sorted str_lt links) else Ret tt) pl1 k1 = (o2, pl2, k2) ->
      listable k2 /\ only_files T k k2 /\ (o2 = Done tt -> (links <> [] -> text_file enc k2 (at_out links_txt) (py_sorted str_lt links)) /\ alike k k2)).
    { intros o2 pl2 k2 E2. destruct (nonempty links) eqn:En.
      - apply (list_step _ _ _ _ _ _ _ Hl Hk1) in E2 as (H1 & H2 & H3). split; [exact H1|]. split; [eapply only_T_trans; [exact HO1 | eapply only_file_T; [exact Hl | exact H2]]|]. intros Eo. destruct (H3 Eo) as [H4 H5]. split; [intros _; exact H4|].
        eapply alike_trans; [exact HA1 | exact (step_alike _ _ _ _ H2 Hk1 Hl H4 H5)].
      - cbn [run] in E2. injection E2 as _ _ <-. split; [exact Hk1|]. split; [exact HO1|]. intros _. split; [|exact HA1]. intros Hne. destruct links; [congruence | discriminate]. }
    destruct (run (if nonempty links then print_lines cwd enc (path_join output links_txt) (py_sorted str_lt links) else Ret tt) pl1 k1) as [[[u2|x|] pl2] k2] eqn:E2;
      [|injection E as <- _ <-; destruct (S2 _ _ _ eq_refl) as (H1 & H2 & _); split; [exact H1|]; split; [exact H2 | discriminate]..].
    destruct u2. destruct (S2 _ _ _ eq_refl) as (Hk2 & HO2 & H2). destruct (H2 eq_refl) as [HL2 HA2]. clear S2 H2. rewrite run_bind in E.
    destruct (run (print_lines cwd enc (path_join output unknown_txt) (map (hexl 16) unknown)) pl2 k2) as [[[u3|x|] pl3] k3] eqn:E3; apply (list_step _ _ _ _ _ _ _ Hu Hk2) in E3 as (Hk3 & HO3 & H3);
      [|injection E as <- _ <-; split; [exact Hk3|]; split; [eapply only_T_trans; [exact HO2 | eapply only_file_T; [exact Hu | exact HO3]] | discriminate]..].
    destruct u3. destruct (H3 eq_refl) as [HT3 HN3]. clear H3. assert (HA3 : alike k k3) by (eapply alike_trans; [exact HA2 | exact (step_alike _ _ _ _ HO3 Hk2 Hu HT3 HN3)]).
    assert (HO3' : only_files T k k3) by (eapply only_T_trans; [exact HO2 | eapply only_file_T; [exact Hu | exact HO3]]).
    apply (list_step _ _ _ _ _ _ _ Hx Hk3) in E as (Hk4 & HO4 & H4). split; [exact Hk4|]. split; [eapply only_T_trans; [exact HO3' | eapply only_file_T; [exact Hx | exact HO4]]|].
    intros Eo. destruct (H4 Eo) as [HT4 HN4]. split; [|eapply alike_trans; [exact HA3 | exact (step_alike _ _ _ _ HO4 Hk3 Hx HT4 HN4)]].
    split; [|split; [|exact HT4]].
    - intros Hne. eapply text_keep; [exact Hl | exact Hx | exact Hlx | exact HO4|]. eapply text_keep; [exact Hl | exact Hu | exact Hlu | exact HO3|]. apply HL2, Hne.
    - eapply text_keep; [exact Hu | exact Hx | exact Hux | exact HO4 | exact HT3].
  Qed.

  (** All of it. *)
  Definition carried (ow : bool) (prev : str) (unknown : list N) : prog unit := carry_out cd cwd order set_order gunzip unzstd xxh3 enc cs output ow prev unknown p.
  Lemma carried_cases ow prev unknown pl o pl' f' : run (carried ow prev unknown) pl f = (o, pl', f') ->
    stays f'
    \/ (exists g, stays g /\ left_over g /\ after_export g f')
    \/ (exists g h, stays g /\ left_over g /\ after_export g h /\ after_links h f')
    \/ exists g h k, stays g /\ left_over g /\ after_export g h /\ after_links h k /\ only_files T k f' /\ listable k.
  Proof.
    intros E. unfold carried, carry_out in E. rewrite Hp1, Hp2, Hp3 in E. rewrite run_bind in E. fold clean in E.
    destruct (run clean pl f) as [[[u|x|] pl1] g] eqn:E1; [|injection E as <- _ <-; left; exact (proj1 (clean_stays _ _ _ _ E1))..].
    destruct u. apply clean_left in E1 as [Hs HL]. rewrite run_bind in E. fold (exporting ow) in E.
    destruct (run (exporting ow) pl1 g) as [[[u|x|] pl2] h] eqn:E2; apply (export_stage ow _ _ _ _ _ Hs HL) in E2; [|injection E as <- _ <-; right; left; exists g; auto..].
    rewrite run_bind in E. fold (linking prev) in E. destruct (run (linking prev) pl2 h) as [[[u3|x|] pl3] k] eqn:E3; apply (links_stage prev _ g h _ _ _ Hs HL E2) in E3; [|injection E as <- _ <-; right; right; left; exists g, h; auto..].
    pose proof (k_listable g h k Hs E2 E3) as Hk. apply (lists_stage _ _ _ _ _ _ Hk) in E as (_ & HO & _). right. right. right. exists g, h, k. auto 8.
  Qed.
  Lemma carried_done ow prev unknown pl pl' f' : run (carried ow prev unknown) pl f = (Done tt, pl', f') ->
    exists g h k pl1 pl2 pl3, run clean pl f = (Done tt, pl1, g) /\ run (exporting ow) pl1 g = (Done tt, pl2, h) /\ run (linking prev) pl2 h = (Done tt, pl3, k)
    /\ stays g /\ left_over g /\ after_export g h /\ after_links h k /\ listable k /\ only_files T k f' /\ alike k f' /\ listed unknown f' /\ listable f'.
  Proof.
    intros E. unfold carried, carry_out in E. rewrite Hp1, Hp2, Hp3 in E. rewrite run_bind in E. fold clean in E.
    destruct (run clean pl f) as [[[[]|x|] pl1] g] eqn:E1; [|discriminate..].
    pose proof (clean_left _ _ _ E1) as [Hs HL]. rewrite run_bind in E. fold (exporting ow) in E.
    destruct (run (exporting ow) pl1 g) as [[[[]|x|] pl2] h] eqn:E2; [|discriminate..]. pose proof (export_stage ow _ _ _ _ _ Hs HL E2) as Ha.
    rewrite run_bind in E. fold (linking prev) in E. destruct (run (linking prev) pl2 h) as [[[[]|x|] pl3] k] eqn:E3; [|discriminate..]. pose proof (links_stage prev _ g h _ _ _ Hs HL Ha E3) as Hl.
    pose proof (k_listable g h k Hs Ha Hl) as Hk. apply (lists_stage _ _ _ _ _ _ Hk) in E as (Hk' & HO & HD). destruct (HD eq_refl) as [H1 H2]. exists g, h, k, pl1, pl2, pl3. auto 20.
  Qed.
  Lemma T_below t : T t -> strictly_below t d /\ below t (at_out cdr).
  Proof.
    intros (s & Hs & ->). destruct (list_valid s Hs) as (Hv & _ & Hi). split; [apply at_below, Hv|]. apply strictly_below_below, at_strictly; [exact Hv | exact cdr_valid | exact Hi].
  Qed.
  Lemma lists_outside g h k f' : stays g -> after_export g h -> after_links h k -> only_files T k f' -> forall q, ~ below q d -> look f' q = look f q.
  Proof.
    intros Hs Ha Hk HO q Hq. rewrite <- (links_outside g h k Hs Ha Hk q Hq). apply (frame_outside T d k f'); [apply Hd | apply Hk | | | exact HO | exact Hq].
    - rewrite (links_outside g h k Hs Ha Hk) by apply tl_out. apply Hparent.
    - intros t Ht. apply strictly_below_below, T_below, Ht.
  Qed.
  Lemma final_frame ow prev unknown pl o pl' f' : run (carried ow prev unknown) pl f = (o, pl', f') -> forall q, ~ below q d -> look f' q = look f q.
  Proof.
    intros E. apply carried_cases in E as [Hs|[(g & Hs & _ & Ha)|[(g & h & Hs & _ & Ha & Hl)|(g & h & k & Hs & _ & Ha & Hl & HO & _)]]].
    - apply Hs.
    - apply (export_outside g f' Hs Ha).
    - apply (links_outside g h f' Hs Ha Hl).
    - apply (lists_outside g h k f' Hs Ha Hl HO).
  Qed.
  Lemma final_leaves ow prev unknown pl pl' f' : run (carried ow prev unknown) pl f = (Done tt, pl', f') ->
    forall q, is_leaf f' q -> strictly_below q d -> below q (at_out cdr) \/ (exists x, K x /\ below q (at_out x)) \/ exists l, In l links /\ q = at_out l /\ is_link f' q.
  Proof.
    intros E q (n & En & Hn) Hq. apply carried_done in E as (g & h & k & _ & _ & _ & _ & _ & _ & Hs & HL & Ha & Hl & Hk & HO & _).
    destruct (HO q) as [G|[G|(_ & G & _)]]; [|left; apply T_below, G | congruence]. rewrite En in G. symmetry in G.
    destruct (proj2 Hl q) as [G2|(_ & l & Hin & [[_ G2]|[G2 [t G3]]])]; [|congruence | right; right; exists l; split; [exact Hin|]; split; [exact G2 | exists t; congruence]].
    rewrite G in G2. symmetry in G2. destruct (h_leaf g h q n HL Ha Hq G2 Hn) as [(_ & [(x & Hx & Hx')|[(x & b & Hx & Hx' & _)|(l & t & Hx & Hx' & ->)]])|(x & Hx & Hx')].
    - apply Hkept in Hx as [->|Hx]; [left; apply strictly_below_below; exact Hx' | right; left; exists x; split; [exact Hx | apply strictly_below_below; exact Hx']].
    - apply Hkept in Hx as [->|Hx]; [left; rewrite Hx'; apply below_refl | right; left; exists x; split; [exact Hx | rewrite Hx'; apply below_refl]].
    - right. right. exists l. split; [exact Hx|]. split; [exact Hx' | exists t; exact En].
    - right. left. exists x. auto.
  Qed.
  (** Written files stay. *)
  Lemma export_stays h k f' : after_links h k -> only_files T k f' -> forall t, export_at cwd output cs e t -> look f' t = look h t.
  Proof.
    intros Hl HO t Ht. assert (Ek : look k t = look h t).
    { destruct (proj2 Hl t) as [G|(_ & l & Hin & Hc)]; [exact G|]. exfalso. apply export_place in Ht as (x & Hx & Hb). apply (proj2 (meets x l (Hprod x Hx) Hin)). destruct Hc as [[Hc _]|[-> _]]; [eapply below_trans; [apply strictly_below_below; exact Hc | exact Hb] | exact Hb]. }
    rewrite <- Ek. destruct (HO t) as [G|[(s & Hs & ->)|(_ & _ & t' & (s & Hs & ->) & Hb)]]; [exact G | |]; exfalso; destruct (list_valid s Hs) as (Hv & Hh & _); apply (export_not_cdr _ s Ht Hv Hh); [apply below_refl | apply strictly_below_below; exact Hb].
  Qed.
  Lemma exported_same logged c data x a b : ConvertSpec.exports e x -> c = get_converter cs x -> (forall t, export_at cwd output cs e t -> look b t = look a t) ->
    exported_as cd cwd output logged a c data x -> exported_as cd cwd output logged b c data x.
  Proof.
    intros He Hc HS H. assert (Hch : chosen cs x c) by (rewrite Hc; apply chosen_get).
    assert (Hk : forall t, conv_at cwd output c x t -> look b t = look a t) by (intros t Ht; apply HS; exists x, c; auto).
    assert (Hk' : forall q, In q (converted_paths c x) -> look b (at_out q) = look a (at_out q)) by (intros q Hq; apply Hk; exists q; auto).
    assert (Hpp : forall q, In q (converted_paths c x) -> plain_path (path_join output q)) by (intros q Hq; apply (text_ok q), reg_K, Hprod, (prod_in x); [exact He | rewrite <- Hc; exact Hq]).
    clear Hc. unfold exported_as, has_file, has_dir, no_file, no_tree, is_file in *.
    destruct H as [H|(y & Hy & H)]; [left | right; exists y; split; [exact Hy|]]; (destruct c as [exts| |r|r| |r| |] eqn:Ec; cbn [converted_to conversion_fails converted_paths In] in *; fold (stem x) in * ).
    all: repeat match goal with |- context [look _ (at_out ?q)] => rewrite (Hk' q) by auto end.
    all: try exact H.
    - destruct H as (H1 & H2 & objs & H3 & H4). split; [exact H1|]. split; [exact H2|]. exists objs. split; [exact H3|]. intros l1 n r l2 E1 E2. destruct (H4 l1 n r l2 E1 E2) as (z & E3 & E4). exists z. split; [exact E3|].
      rewrite Hk; [exact E4|]. exists (stem x). split; [right; left; reflexivity|]. right. split; [reflexivity|]. split; [reflexivity|].
      rewrite stem_obj; [exists [n ++ lit ".obj"]; reflexivity | apply Hpp; right; left; reflexivity|]. apply (Hcd data objs n r H3). rewrite E1. apply in_or_app. right. left. reflexivity.
    - destruct H as (H1 & H2 & H3). split; [exact H1|]. split; [exact H2|]. intros t Ht. rewrite Hk; [apply H3; exact Ht|]. exists (stem x). split; [right; left; reflexivity|]. right. auto.
  Qed.
  Lemma source_after g src data : stays g -> source_file cwd output cs e f src data -> ~ below (target cwd src) d -> source_file cwd output cs e g src data.
  Proof.
    intros Hs ((H1 & H2 & H3 & H4) & H5 & H6) Hb. split; [split; [exact H1|]; split; [|split; [apply Hs | apply stays_cwd, Hs]]|split; [|exact H6]].
    - intros q t Hq Et. apply (H2 q t Hq). destruct (proj1 (proj2 Hs) q); congruence.
    - rewrite (proj2 (proj2 Hs)) by exact Hb. exact H5.
  Qed.
  Lemma final_plain prev unknown x src data c pl pl' f' : failures pl = 0%nat -> no_clash cwd output cs e -> In (x, src) (ex_plain e) -> chosen cs x c -> source_file cwd output cs e f src data -> ~ below (target cwd src) d ->
    run (carried true prev unknown) pl f = (Done tt, pl', f') -> exported_as cd cwd output plain_logged f' c data x.
  Proof.
    intros Hpl Hno Hin Hc Hsrc Hb E. apply carried_done in E as (g & h & k & pl1 & pl2 & pl3 & E1 & E2 & _ & Hs & HL & _ & Hl & _ & HO & _).
    assert (Hpl1 : failures pl1 = 0%nat) by (destruct (run_no_failure clean pl f Hpl) as (pl4 & G & E4); rewrite E4 in E1; injection E1 as _ <- _; exact G).
    apply (exported_same plain_logged c data x h f'); [left; exists src; exact Hin | apply chosen_unique; exact Hc | apply (export_stays h k f' Hl HO)|].
    apply (ConvertProps.C46_export_plain cd cwd output cs gunzip unzstd xxh3 e g (g_export_ready g Hs HL) Hcd Hno x src data c pl1 pl2 h Hpl1 Hin Hc (source_after g src data Hs Hsrc Hb) E2).
  Qed.
  Lemma final_entry prev unknown x n w y wadf data c pl pl' f' : failures pl = 0%nat -> no_clash cwd output cs e -> In (n, w) (ex_wads e) -> In y (ew_files w) -> w_path y = Some x -> chosen cs x c ->
    source_file cwd output cs e f (ew_src w) wadf -> ~ below (target cwd (ew_src w)) d -> read_data gunzip unzstd xxh3 wadf y (ew_toc w) = Ok (Some data) ->
    run (carried true prev unknown) pl f = (Done tt, pl', f') -> exported_as cd cwd output entry_logged f' c data x.
  Proof.
    intros Hpl Hno Hin Hy Hx Hc Hsrc Hb Hrd E. apply carried_done in E as (g & h & k & pl1 & pl2 & pl3 & E1 & E2 & _ & Hs & HL & _ & Hl & _ & HO & _).
    assert (Hpl1 : failures pl1 = 0%nat) by (destruct (run_no_failure clean pl f Hpl) as (pl4 & G & E4); rewrite E4 in E1; injection E1 as _ <- _; exact G).
    apply (exported_same entry_logged c data x h f'); [right; exists n, w, y; auto | apply chosen_unique; exact Hc | apply (export_stays h k f' Hl HO)|].
    apply (ConvertProps.C46_export_entries cd cwd output cs gunzip unzstd xxh3 e g (g_export_ready g Hs HL) Hcd Hno x n w y wadf data c pl1 pl2 h Hpl1 Hin Hy Hx Hc (source_after g _ wadf Hs Hsrc Hb) Hrd E2).
  Qed.

  (** Links. *)
  Lemma comps_inside s x l : Forall valid_name (parts x) -> inside x l ->
    Forall valid_name (parts l) /\ exists r, Forall valid_name r /\ comps (path_join s x) = comps (path_join s l) ++ r /\ is_abs (path_join s x) = is_abs (path_join s l).
  Proof.
    intros Hx [r Er]. assert (Hlr : Forall valid_name (parts l) /\ Forall valid_name r) by (rewrite Er in Hx; apply Forall_app in Hx; exact Hx). destruct Hlr as [Hl Hr]. split; [exact Hl|].
    destruct (text_ok x Hx) as (Ax & Cx & _). destruct (text_ok l Hl) as (Al & Cl & _). exists r. split; [exact Hr|]. rewrite !comps_join, Cx, Cl, Er, app_assoc by assumption. split; [reflexivity|].
    destruct s as [|c s]; [|rewrite !is_abs_join by (assumption || discriminate); reflexivity].
    assert (J : forall y, is_abs y = false -> path_join [] y = y) by (intros y Ha; unfold path_join; destruct (startswith y [cSlash]) eqn:E; [reflexivity | reflexivity]).
    rewrite !J by assumption. congruence.
  Qed.
  Definition start_of (s : str) : path := if is_abs s then [] else cwd.
  Lemma path_join_nonempty s x : Forall valid_name (parts x) -> path_join s x <> [].
  Proof.
    intros Hx E. destruct (text_ok x Hx) as (Ax & Cx & _). pose proof (comps_join s x Ax) as C. rewrite E, Cx in C. change (comps []) with (@nil str) in C. symmetry in C. apply app_eq_nil in C as [_ C]. exact (parts_nonempty x C).
  Qed.
  Lemma free_then g h k l : stays g -> after_export g h -> after_links h k -> In l links -> is_link k (at_out l) -> ~ is_link f (at_out l) -> look h (at_out l) = None.
  Proof.
    intros Hs [_ HO] [_ HA] Hl [t Hk] Hn. destruct (look h (at_out l)) as [n|] eqn:Eh; [exfalso|reflexivity].
    assert (Ek : look h (at_out l) = Some (NLink t)) by (destruct (HA (at_out l)) as [G|(G & _)]; congruence). clear n Eh.
    assert (Eg : look g (at_out l) = Some (NLink t)).
    { destruct (HO (at_out l)) as [G|[G|(_ & G & _)]]; [congruence | exfalso | congruence]. apply export_place in G as (x & Hx & Hx'). exact (proj2 (meets x l (Hprod x Hx) Hl) Hx'). }
    apply Hn. exists t. destruct (proj1 (proj2 Hs) (at_out l)); congruence.
  Qed.
  Lemma final_link ow prev unknown pl pl' f' l : failures pl = 0%nat -> In l links -> run (carried ow prev unknown) pl f = (Done tt, pl', f') -> is_link f' (at_out l).
  Proof.
    intros Hpl Hl E. apply carried_done in E as (g & h & k & pl1 & pl2 & pl3 & E1 & E2 & E3 & Hs & HL & Ha & Hk & _ & HO & _).
    assert (Hpl1 : failures pl1 = 0%nat) by (destruct (run_no_failure clean pl f Hpl) as (pl4 & G & E4); rewrite E4 in E1; injection E1 as _ <- _; exact G).
    assert (Hpl2 : failures pl2 = 0%nat) by (destruct (run_no_failure (exporting ow) pl1 g Hpl1) as (pl4 & G & E4); rewrite E4 in E2; injection E2 as _ <- _; exact G).
    unfold linking in E3. destruct (nonempty links) eqn:En; [|destruct links; [contradiction | discriminate]].
    destruct (SymlinksProps.C54_leads cwd output prev links h (h_links_ready g h Hs HL Ha) pl2 pl3 k l Hpl2 E3 Hl) as [[t Ht] _]. change (link_at cwd output l) with (at_out l) in Ht.
    exists t. destruct (HO (at_out l)) as [G|[G|(G & _)]]; [congruence | | congruence].
    apply T_below in G as [_ G]. apply at_inside' in G; [|apply in_links, Hl | exact cdr_valid]. destruct (cdr_not l (Hlinks l Hl) G).
  Qed.
  Lemma final_linked ow prev unknown pl pl' f' l x f0 q : failures pl = 0%nat -> In l links -> Forall valid_name (parts x) -> inside x l -> ~ is_link f (at_out l) ->
    part_outside d f f0 -> reaches 39 cwd f0 (path_join (path_join (dirname output) prev) x) q ->
    run (carried ow prev unknown) pl f = (Done tt, pl', f') -> reaches 40 cwd f' (path_join output x) q /\ look f' q = look f0 q.
  Proof.
    intros Hpl Hl Hx Hi Hfree [Hw0 Hf0] (_ & Hres & Hq) E. apply carried_done in E as (g & h & k & pl1 & pl2 & pl3 & E1 & E2 & E3 & Hs & HL & Ha & Hk & _ & HO & HAl & _).
    assert (Hpl1 : failures pl1 = 0%nat) by (destruct (run_no_failure clean pl f Hpl) as (pl4 & G & E4); rewrite E4 in E1; injection E1 as _ <- _; exact G).
    assert (Hpl2 : failures pl2 = 0%nat) by (destruct (run_no_failure (exporting ow) pl1 g Hpl1) as (pl4 & G & E4); rewrite E4 in E2; injection E2 as _ <- _; exact G).
    set (s := path_join (dirname output) prev) in *. destruct (comps_inside s x l Hx Hi) as (Hvl & r & Hr & Ec & Ea). rewrite Ec, Ea in Hres.
    apply resolve_split in Hres as (k' & q1 & Hk' & R1 & R2).
    assert (Hq1 : look f0 q1 <> None /\ (r <> [] -> look f0 q1 = Some NDir)).
    { destruct r as [|c r]; [rewrite resolve_nil in R2; injection R2 as ->; split; [exact Hq | congruence]|]. assert (G : look f0 q1 = Some NDir); [|split; [congruence | auto]].
      apply (Hw0 c). intros En. rewrite resolve_cons in R2. inversion Hr as [|? ? (_ & _ & Hc & _) _]; subst. destruct (eqbP c dotdot); [contradiction|]. rewrite En in R2. destruct r; [injection R2 as <-; contradiction | discriminate]. }
    destruct Hq1 as [Hq1 Hq1d].
    assert (K0h : keeps f0 h) by (intros z Hz; destruct (Hf0 z Hz) as [E4 Hz']; rewrite (export_outside g h Hs Ha z Hz'); congruence).
    assert (K0k : keeps f0 k) by (intros z Hz; destruct (Hf0 z Hz) as [E4 Hz']; rewrite (links_outside g h k Hs Ha Hk z Hz'); congruence).
    unfold linking in E3. destruct (nonempty links) eqn:En; [|destruct links; [contradiction | discriminate]].
    pose proof (h_links_ready g h Hs HL Ha) as Hrd. pose proof (SymlinksProps.ready_after cwd output prev links h Hrd _ _ _ _ E3) as Hrk.
    destruct (SymlinksProps.C54_leads cwd output prev links h Hrd pl2 pl3 k l Hpl2 E3 Hl) as [Hil HD]. fold s in HD.
    destruct (HD (free_then g h k l Hs Ha Hk Hl Hil Hfree) q1) as [HD1 _].
    { pose proof (path_join_nonempty s l Hvl) as Hne. unfold locate. destruct (path_join s l) as [|c0 s0] eqn:Es; [congruence|]. rewrite <- Es. unfold at_loc, loc_of. cbn [fst snd]. change max_links with 40%nat.
      eapply resolve_mono; [|apply (Nat.le_succ_diag_r 39)]. eapply resolve_keeps; [exact K0h | rewrite Es in *; exact R1 | exact Hq1]. }
    { rewrite K0h by exact Hq1. exact Hq1. }
    { apply Hvalid_f. destruct (Hf0 q1 Hq1) as [<- _]. exact Hq1. }
    destruct (direct_resolve cwd output links l Hl k' k q1 r Hrk HD1) as (t & Ht & Er).
    destruct (comps_inside output x l Hx Hi) as (_ & r' & _ & Ec' & Ea').
    assert (r' = r) as ->.
    { rewrite !comps_join in Ec by (apply text_ok; assumption). rewrite !comps_join in Ec' by (apply text_ok; assumption).
      rewrite <- app_assoc in Ec, Ec'. apply app_inv_head in Ec, Ec'. rewrite Ec in Ec'. apply app_inv_head in Ec'. congruence. }
    assert (R3 : resolve (S k') k true (start_of (path_join output x)) (comps (path_join output x)) = Ok q).
    { unfold start_of. rewrite Ec', Ea'. etransitivity; [exact Er|]. destruct r as [|c r].
      - rewrite app_nil_r. rewrite resolve_nil in R2. injection R2 as <-. apply Ht.
      - apply (resolve_join k 0 (comps t) (c :: r) _ q1 k'); [apply Ht | rewrite K0k by exact Hq1; apply Hq1d; discriminate|]. eapply resolve_keeps; [exact K0k | exact R2 | exact Hq]. }
    assert (Hqo : ~ below q d) by apply (proj2 (Hf0 q Hq)). assert (Ef : look f' q = look f0 q) by (rewrite (lists_outside g h k f' Hs Ha Hk HO q Hqo); symmetry; apply (Hf0 q Hq)).
    split; [|exact Ef]. split; [apply path_join_nonempty, Hx|]. split; [|rewrite Ef; exact Hq].
    eapply resolve_mono; [eapply resolve_alike; [exact HAl | exact R3 | rewrite K0k by exact Hq; exact Hq]|]. lia.
  Qed.
  Lemma final_listed ow prev unknown pl pl' f' : run (carried ow prev unknown) pl f = (Done tt, pl', f') -> listed unknown f'.
  Proof. intros E. apply carried_done in E as (g & h & k & pl1 & pl2 & pl3 & H). apply H. Qed.
End Plan.
