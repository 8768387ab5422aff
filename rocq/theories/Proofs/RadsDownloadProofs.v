(** * Proofs about the download of solutions *)

From Coq Require Import Permutation.
From Verif Require Import Base.PyFacts Base.Text Base.TextFacts Base.Utf8 Base.PathFacts Base.Fs Spec.FsSpec Base.FsFacts Model.Files Spec.FilesSpec Proofs.FilesProofs
  Model.Rads Spec.RadsSpec Proofs.WadExtractProofs Proofs.RadsExtractProofs Model.RadsDownload Spec.RadsDownloadSpec.
From Verif Require Proofs.PatchCacheProofs Proofs.ConvertProofs Proofs.PatcherExtractProofs Proofs.GameDataProofs.

Lemma file_dec f q : is_file f q \/ ~ is_file f q.
Proof. unfold is_file. destruct (look f q) as [[b| |t]|]; [left; eauto | right; intros [b' H]; discriminate..]. Qed.
Lemma not_slash (n : str) : mem cSlash n = false -> ~ In cSlash n.
Proof. apply mem_false. Qed.

(** What steps do. *)
Definition tr (cwd : path) (T : path -> Prop) (W : path -> bytes -> Prop) (c : Prop) (f f' : fs) : Prop :=
  only_files T f f' /\ (forall s, ready cwd s f -> ready cwd s f') /\ keeps f f' /\
  (c -> forall q b, look f' q = Some (NFile b) -> look f q = Some (NFile b) \/ W q b).
Lemma tr_refl cwd T W c f : tr cwd T W c f f.
Proof. split; [intros q; auto|]. split; [auto|]. split; [intros q b H; exact H | auto]. Qed.
Lemma tr_trans cwd T W c f f1 f' : tr cwd T W True f f1 -> tr cwd T W c f1 f' -> tr cwd T W c f f'.
Proof.
  intros (A1 & A2 & A3 & A4) (B1 & B2 & B3 & B4). split; [eapply only_files_trans; eassumption|]. split; [auto|]. split; [intros q b H; apply B3, A3, H|].
  intros Hc q b H. destruct (B4 Hc q b H) as [H'|H']; [apply A4; auto | auto].
Qed.
Lemma tr_mono cwd (T T' : path -> Prop) (W W' : path -> bytes -> Prop) (c c' : Prop) f f' : (forall q, T q -> T' q) -> (forall q b, W q b -> W' q b) -> (c' -> c) ->
  tr cwd T W c f f' -> tr cwd T' W' c' f f'.
Proof.
  intros H1 H2 H3 (A1 & A2 & A3 & A4). split; [eapply only_files_mono; eassumption|]. split; [assumption|]. split; [assumption|].
  intros Hc q b H. destruct (A4 (H3 Hc) q b H) as [H'|H']; auto.
Qed.

Section P.
  Variable cwd : path.
  Variable base : str.
  Variable zst : Type.
  Variable zinit : zst.
  Variable zstep : zst -> bytes -> result (zst * bytes).
  Variable zflush : zst -> result bytes.
  Variable inflate : bytes -> result bytes.
  Hypothesis Hz : zlaw zst zinit zstep zflush inflate.
  Notation tgt := (pkg_target cwd base).
  Notation at_ := (at_ cwd base).
  Notation rdy m f := (ready cwd (path_join base m) f).

  (** ** One download *)
  Lemma dl_step m resp pl f o pl' f' : rdy m f -> run (download cwd base m false resp) pl f = (o, pl', f') ->
    tr cwd (fun q => q = at_ m) (fun q b => q = at_ m /\ resp = Ok b) (clean o pl pl') f f' /\
    (o = Done tt -> exists data, look f' (at_ m) = Some (NFile data) /\ (look f (at_ m) = Some (NFile data) \/ ~ is_file f (at_ m) /\ resp = Ok data)).
  Proof.
    intros Hr E. pose proof E as E1. apply download_frame in E1 as [HO HR]; [|exact Hr].
    assert (HD : o = Done tt -> exists data, look f' (at_ m) = Some (NFile data) /\ (look f (at_ m) = Some (NFile data) \/ ~ is_file f (at_ m) /\ resp = Ok data)).
    { intros ->. destruct (file_dec f (at_ m)) as [Hf|Hf].
      - pose proof E as E2. apply download_existing in E2 as [-> _]; [|exact Hr | exact Hf]. destruct Hf as [b Hb]. exists b. auto.
      - pose proof E as E2. apply download_success in E2 as (b & Hb & Hl); [|exact Hr | right; exact Hf]. exists b. auto. }
    split; [|exact HD]. split; [apply (only_file_files _ (at_ m)); [reflexivity | exact HO]|].
    split; [intros s Hs; exact (ready_only cwd (path_join base m) s f f' Hr HR HO Hs)|].
    split; [intros q b Hq; exact (download_preserves cwd base m resp pl f o pl' f' q b Hr E Hq)|].
    intros Hc q b Hq. destruct (HO q) as [H|[->|(_ & H & _)]]; [left; congruence | | congruence].
    change (target cwd (fspath base m)) with (at_ m) in *. destruct o as [[]|e|]; [| |destruct Hc].
    - destruct (HD eq_refl) as (d & Hd & [H|[_ H]]); [left; congruence|]. right. split; [reflexivity|]. rewrite Hq in Hd. injection Hd as ->. exact H.
    - exfalso. apply download_failure in E as [_ [H|(u & x & H)]]; [apply H; exists b; exact Hq | exact (Hc u x H) | exact Hr].
  Qed.
  Lemma read_at m pl f o pl' f' : rdy m f -> run (read_file cwd (fspath base m)) pl f = (o, pl', f') -> f' = f /\ forall b, o = Done b -> look f (at_ m) = Some (NFile b).
  Proof.
    intros Hr E. split; [eapply PatchCacheProofs.read_fs; exact E|]. intros b ->. apply PatchCacheProofs.read_done in E as [_ (p & E1 & E2)].
    apply ready_winv in Hr as [Hs Hi]. apply locate_t in E1 as [-> _]; [exact E2 | exact Hs | apply Hi].
  Qed.
  Lemma read_nil m f b : rdy m f -> look f (at_ m) = Some (NFile b) -> run (read_file cwd (fspath base m)) [] f = (Done b, [], f).
  Proof.
    intros Hr Hb. apply PatchCacheProofs.read_content. exists (at_ m). split; [|exact Hb]. apply ready_winv in Hr as [Hs Hi]. apply locate_ok; [exact Hs | exact Hi | intros Hn; change (look f (at_ m) = None) in Hn; congruence].
  Qed.

  (** A name which is neither that of the file nor that of a directory leading to it. *)
  Lemma at_tail d n f : rdy (d ++ cSlash :: n) f -> ~ In cSlash n -> exists t, at_ (d ++ cSlash :: n) = n :: t.
  Proof.
    intros (Hp & _) Hn. unfold RadsDownloadSpec.at_. rewrite (target_dirname cwd _ Hp). eexists. f_equal.
    unfold path_join. destruct (startswith _ _); [apply PatcherExtractProofs.basename_snoc, Hn|].
    destruct base as [|c b']; [apply PatcherExtractProofs.basename_snoc, Hn|]. destruct (endswith _ _);
    repeat match goal with |- context [?a ++ (?x ++ cSlash :: n)] => rewrite (app_assoc a x) end; try apply PatcherExtractProofs.basename_snoc, Hn.
  Qed.
  Lemma path_eq p : pv_path p = dir_of p.
  Proof. reflexivity. Qed.
  Lemma release_tail p f : rdy (release_file p) f -> exists t, at_ (release_file p) = lit "releasemanifest" :: t.
  Proof. intros H. apply (at_tail _ (lit "releasemanifest") f); [exact H | apply not_slash; reflexivity]. Qed.
  Lemma package_tail p f : rdy (package_list p) f -> exists t, at_ (package_list p) = lit "packagemanifest" :: t.
  Proof. intros H. apply (at_tail _ (lit "packagemanifest") f); [exact H | apply not_slash; reflexivity]. Qed.
  Lemma solution_eq name version : sv_path name version ++ lit "/solutionmanifest" = solution_file name version.
  Proof. unfold sv_path, solution_file. rewrite <- !app_assoc. reflexivity. Qed.
  Lemma solution_tail name version f : rdy (solution_file name version) f -> exists t, at_ (solution_file name version) = lit "solutionmanifest" :: t.
  Proof.
    rewrite <- solution_eq. intros H. apply (at_tail _ (lit "solutionmanifest") f); [exact H | apply not_slash; reflexivity].
  Qed.
  Lemma release_package p p' f : rdy (release_file p) f -> rdy (package_list p') f -> at_ (package_list p') <> at_ (release_file p).
  Proof. intros H H' E. apply release_tail in H as [t E1]. apply package_tail in H' as [t' E2]. rewrite E1, E2 in E. apply (f_equal (hd [])) in E. cbn [hd] in E. discriminate. Qed.
  Lemma solution_package name version p' f : rdy (solution_file name version) f -> rdy (package_list p') f -> at_ (package_list p') <> at_ (solution_file name version).
  Proof. intros H H' E. apply solution_tail in H as [t E1]. apply package_tail in H' as [t' E2]. rewrite E1, E2 in E. apply (f_equal (hd [])) in E. cbn [hd] in E. discriminate. Qed.

  Variable get : str -> result bytes.
  Notation served := (served cwd base get).
  Notation packaged := (packaged cwd base get).
  Lemma served_fun f s url d d' : served f s url d -> served f s url d' -> d = d'.
  Proof.
    intros [H|[H G]] [H'|[H' G']]; [rewrite H in H'; injection H' as ->; reflexivity | destruct H'; exists d; exact H | destruct H; exists d'; exact H' | congruence].
  Qed.
  Lemma listed_fun d l l' : listed d l -> listed d l' -> l = l'.
  Proof. intros (t & pfs & H1 & H2 & ->) (t' & pfs' & H1' & H2' & ->). congruence. Qed.
  Lemma packaged_fun f p l l' : packaged f p l -> packaged f p l' -> l = l'.
  Proof. intros (d & H & H1) (d' & H' & H1'). assert (d = d') as <- by (eapply served_fun; eassumption). eapply listed_fun; eassumption. Qed.
  (** Nothing happened at a manifest. *)
  Lemma served_back T f f' s url d : only_files T f f' -> ~ T (at_ s) -> served f' s url d -> served f s url d.
  Proof.
    intros HO HT H. destruct (HO (at_ s)) as [E|[E|(E & E' & _)]]; [|contradiction|].
    - destruct H as [H|[H G]]; [left; congruence|]. right. split; [|exact G]. intros [b Hb]. apply H. exists b. congruence.
    - destruct H as [H|[H G]]; [congruence|]. right. split; [|exact G]. intros [b Hb]. congruence.
  Qed.

  (** ** Package manifests *)
  Notation gpf := (get_package_files cwd base get).
  Lemma keys_extract pfs : dkeys (package_files pfs) = map k_extract (map snd (package_files pfs)).
  Proof.
    unfold dkeys. rewrite map_map. apply map_ext_in. intros [k pf] Hi. cbn [fst snd].
    unfold package_files in Hi. apply dget_In_NoDup in Hi; [|apply dict_of_NoDup]. rewrite dict_of_get in Hi. apply dget_Some_In, in_rev in Hi.
    apply in_map_iff in Hi as (x & E & _). congruence.
  Qed.
  Lemma gpf_step p pl f o pl' f' : rdy (package_list p) f -> run (gpf p) pl f = (o, pl', f') ->
    tr cwd (fun q => q = at_ (package_list p)) (fun q b => q = at_ (package_list p) /\ get (package_url p) = Ok b) (clean o pl pl') f f' /\
    forall all, o = Done all -> packaged f p (map snd all) /\ dkeys all = map k_extract (map snd all) /\
      exists data, look f' (at_ (package_list p)) = Some (NFile data) /\ served f (package_list p) (package_url p) data /\ listed data (map snd all).
  Proof.
    intros Hr. unfold get_package_files. cbv zeta. change (pv_path p ++ lit "/packagemanifest") with (package_list p). change (pv_path p ++ lit "/packages/files/packagemanifest") with (package_url p).
    rewrite run_bind. destruct (run (download cwd base (package_list p) false (get (package_url p))) pl f) as [[o1 pl1] f1] eqn:E1. apply dl_step in E1 as [HT HD]; [|exact Hr].
    destruct o1 as [[]|e|].
    2:{ intros E. injection E as <- <- <-. split; [exact HT | discriminate]. }
    2:{ intros E. injection E as <- <- <-. split; [exact HT | discriminate]. }
    destruct (HD eq_refl) as (data & Hd & Hs). clear HD. pose proof HT as (_ & HR & _).
    rewrite run_bind. destruct (run (read_file cwd (fspath base (package_list p))) pl1 f1) as [[o2 pl2] f2] eqn:E2. apply read_at in E2 as [-> HD]; [|apply HR, Hr].
    assert (HX : tr cwd (fun q => q = at_ (package_list p)) (fun q b => q = at_ (package_list p) /\ get (package_url p) = Ok b) (clean o pl pl') f f1)
      by (eapply tr_mono; [| | |exact HT]; cbn [clean]; auto).
    destruct o2 as [b|e|].
    2:{ intros E. injection E as <- <- <-. split; [exact HX | discriminate]. }
    2:{ intros E. injection E as <- <- <-. split; [exact HX | discriminate]. }
    assert (b = data) as -> by (specialize (HD b eq_refl); rewrite Hd in HD; injection HD as ->; reflexivity).
    rewrite run_bind, run_lift. destruct (utf8_dec data) as [text|e] eqn:Et; [|intros E; injection E as <- <- <-; split; [exact HX | discriminate]].
    rewrite run_bind, run_lift. destruct (from_package_manifest text) as [pfs|e] eqn:Ef; [|intros E; injection E as <- <- <-; split; [exact HX | discriminate]].
    cbn [run]. intros E. injection E as <- <- <-. split; [exact HX|]. intros all Ha. injection Ha as <-.
    assert (HL : listed data (map snd (package_files pfs))) by (exists text, pfs; auto).
    split; [exists data; auto|]. split; [apply keys_extract|]. exists data. auto.
  Qed.

  Variable net : str -> result (list bytes).
  (** ** Project versions *)
  Notation pvd := (pv_download cwd base zst zinit zstep zflush get net).
  Lemma extract_tr pvpath all pl f o pl' f' : Forall (pkg_ready cwd base f) (map snd all) -> distinct_targets cwd base (map snd all) ->
    run (rads_extract cwd base zst zinit zstep zflush net pvpath all None) pl f = (o, pl', f') ->
    tr cwd (fun q => exists pf, In pf (map snd all) /\ q = tgt pf) (fun q b => exists pf, In pf (map snd all) /\ q = tgt pf /\ advertised pvpath inflate net pf b) (clean o pl pl') f f' /\
    (o = Done tt -> forall pf, In pf (map snd all) -> is_file f' (tgt pf)).
  Proof.
    intros HF HD E. eapply (extract_good cwd base pvpath zst zinit zstep zflush net inflate Hz all None) in E as (H1 & H2 & H3 & H4); [|reflexivity | exact HF | exact HD].
    assert (HK : keeps f f').
    { intros q b Hq. destruct (H1 q) as [H|[(pf & (_ & Hm) & <-)|(H & _)]]; [congruence | exfalso; apply Hm; exists b; exact Hq | congruence]. }
    split; [split; [|split; [exact H2|split; [exact HK|]]]|].
    - eapply only_files_mono; [|exact H1]. intros t (pf & (Hi & _) & <-). eauto.
    - intros Hc q b Hq. destruct (H1 q) as [H|[(pf & Hm & <-)|(_ & H & _)]]; [left; congruence | right | congruence].
      destruct (H4 Hc pf Hm) as (d & Ha & Hl); [exists b; exact Hq|]. exists pf. split; [apply Hm|]. split; [reflexivity|]. rewrite Hq in Hl. injection Hl as ->. exact Ha.
    - intros Ho pf Hi. destruct (file_dec f (tgt pf)) as [[b Hb]|Hn]; [exists b; apply HK, Hb|]. destruct (H3 Ho pf (conj Hi Hn)) as (d & _ & Hd). exists d. exact Hd.
  Qed.
  Definition T1 (f : fs) (p : pv) (q : path) : Prop := q = at_ (release_file p) \/ q = at_ (package_list p) \/ exists l pf, packaged f p l /\ In pf l /\ q = tgt pf.
  Definition W1 (f : fs) (p : pv) (q : path) (b : bytes) : Prop :=
    (q = at_ (release_file p) /\ get (release_file p) = Ok b) \/ (q = at_ (package_list p) /\ get (package_url p) = Ok b) \/
    exists l pf, packaged f p l /\ In pf l /\ q = tgt pf /\ advertised (dir_of p) inflate net pf b.
  Lemma pv_step p pl f o pl' f' : rdy (release_file p) f -> rdy (package_list p) f ->
    (forall l, packaged f p l -> Forall (pkg_ready cwd base f) l /\ distinct_targets cwd base l) ->
    run (pvd p) pl f = (o, pl', f') ->
    tr cwd (T1 f p) (W1 f p) (clean o pl pl') f f' /\
    (o = Done tt -> is_file f' (at_ (release_file p)) /\ exists data l, served f (package_list p) (package_url p) data /\ listed data l /\
       look f' (at_ (package_list p)) = Some (NFile data) /\ forall pf, In pf l -> is_file f' (tgt pf)).
  Proof.
    intros HR HP HS. unfold pv_download. cbv zeta. change (pv_path p ++ lit "/releasemanifest") with (release_file p). rewrite run_bind.
    destruct (run (download cwd base (release_file p) false (get (release_file p))) pl f) as [[o1 pl1] f1] eqn:E1. pose proof E1 as E1'. apply dl_step in E1 as [HT HD]; [|exact HR].
    assert (HX : tr cwd (T1 f p) (W1 f p) (clean o1 pl pl1) f f1).
    { eapply tr_mono; [| | |exact HT]; [intros q ->; left; reflexivity | intros q b [-> H]; left; auto | auto]. }
    destruct o1 as [[]|e|].
    2:{ intros E. injection E as <- <- <-. split; [exact HX | discriminate]. }
    2:{ intros E. injection E as <- <- <-. split; [exact HX | discriminate]. }
    destruct (HD eq_refl) as (dr & Hdr & _). clear HD. pose proof HT as (HO & HRk & _).
    assert (HB : forall d, served f1 (package_list p) (package_url p) d -> served f (package_list p) (package_url p) d).
    { intros d. eapply served_back; [exact HO|]. eapply release_package; eassumption. }
    rewrite run_bind. destruct (run (gpf p) pl1 f1) as [[o2 pl2] f2] eqn:E2. pose proof E2 as E2'. apply gpf_step in E2 as [HT2 HD2]; [|apply HRk, HP].
    assert (HX2 : forall c : Prop, (c -> clean o2 pl1 pl2) -> tr cwd (T1 f p) (W1 f p) c f f2).
    { intros c Hc. eapply tr_trans; [exact HX|]. eapply tr_mono; [| | |exact HT2]; [intros q ->; right; left; reflexivity | intros q b [-> H]; right; left; auto | exact Hc]. }
    destruct o2 as [all|e|].
    2:{ intros E. injection E as <- <- <-. split; [|discriminate]. apply HX2. intros Hc. exact (clean_suffix (@Raised unit e) _ _ _ _ _ _ _ E1' Hc). }
    2:{ intros E. injection E as <- <- <-. split; [|discriminate]. apply HX2. intros []. }
    destruct (HD2 all eq_refl) as (Hp & Hk & data & Hd & Hs & Hl). clear HD2.
    assert (Hp0 : packaged f p (map snd all)) by (exists data; split; [apply HB, Hs | exact Hl]).
    destruct (HS _ Hp0) as [HF HDT]. pose proof HT2 as (_ & HRk2 & _).
    intros E. pose proof E as E3. eapply (extract_tr (pv_path p)) in E as [HT3 HD3]; [| |exact HDT].
    2:{ eapply Forall_impl; [|exact HF]. intros pf (G1 & G2 & G3). split; [exact G1|]. split; [exact G2|]. apply HRk2, HRk, G3. }
    split.
    - eapply tr_trans; [apply HX2; cbn [clean]; auto|]. eapply tr_mono; [| | |exact HT3].
      + intros q (pf & Hi & ->). right. right. eauto.
      + intros q b (pf & Hi & -> & Ha). right. right. exists (map snd all), pf. auto.
      + intros Hc. eapply clean_suffix; [exact E2'|]. eapply clean_suffix; [exact E1' | exact Hc].
    - intros ->. destruct HT3 as (_ & _ & HK & _). pose proof HT2 as (_ & _ & HK2 & _). split; [exists dr; apply HK, HK2, Hdr|]. exists data, (map snd all).
      split; [apply HB, Hs|]. split; [exact Hl|]. split; [apply HK, Hd|]. apply HD3. reflexivity.
  Qed.

  Section Loop.
    Variable f0 : fs.
    Variable ps : list pv.
    Hypothesis HS : site cwd base get f0 ps.
    Definition TL (q : path) : Prop := exists p, In p ps /\ T1 f0 p q.
    Definition WL (q : path) (b : bytes) : Prop := exists p, In p ps /\ W1 f0 p q b.
    Definition back (f : fs) : Prop := forall p d, In p ps -> served f (package_list p) (package_url p) d -> served f0 (package_list p) (package_url p) d.
    Lemma pvs_step : forall ps' pl f o pl' f', incl ps' ps -> (forall s, ready cwd s f0 -> ready cwd s f) -> back f ->
      run (for_each ps' pvd) pl f = (o, pl', f') -> tr cwd TL WL (clean o pl pl') f f' /\
      (o = Done tt -> forall p, In p ps' -> is_file f' (at_ (release_file p)) /\ exists data l, served f0 (package_list p) (package_url p) data /\ listed data l /\
         look f' (at_ (package_list p)) = Some (NFile data) /\ forall pf, In pf l -> is_file f' (tgt pf)).
    Proof.
      destruct HS as (S1 & S2 & S3). induction ps' as [|p ps' IH]; intros pl f o pl' f' Hi Hk Hb; cbn [for_each].
      - cbn [run]. intros E. injection E as <- <- <-. split; [apply tr_refl | intros _ p []].
      - assert (Hp : In p ps) by (apply Hi; left; reflexivity). rewrite run_bind. destruct (run (pvd p) pl f) as [[o1 pl1] f1] eqn:E1. pose proof E1 as E1'.
        destruct (S1 p Hp) as [R1 R2].
        assert (HPB : forall l, packaged f p l -> packaged f0 p l) by (intros l (d & H1 & H2); exists d; split; [apply Hb; assumption | exact H2]).
        apply pv_step in E1 as [HT HD]; [|apply Hk, R1 | apply Hk, R2|].
        2:{ intros l Hl. destruct (S3 p l Hp (HPB l Hl)) as (G1 & G2 & _). split; [|exact G2]. eapply Forall_impl; [|exact G1]. intros pf (A1 & A2 & A3). split; [exact A1|]. split; [exact A2 | apply Hk, A3]. }
        assert (HX : tr cwd TL WL (clean o1 pl pl1) f f1).
        { eapply tr_mono; [| | |exact HT]; [| |auto].
          - intros q Hq. exists p. split; [exact Hp|]. destruct Hq as [H|[H|(l & pf & H & H')]]; [left; exact H | right; left; exact H | right; right; exists l, pf; split; [apply HPB, H | exact H']].
          - intros q b Hq. exists p. split; [exact Hp|]. destruct Hq as [H|[H|(l & pf & H & H')]]; [left; exact H | right; left; exact H | right; right; exists l, pf; split; [apply HPB, H | exact H']]. }
        destruct o1 as [[]|e|].
        2:{ intros E. injection E as <- <- <-. split; [exact HX | discriminate]. }
        2:{ intros E. injection E as <- <- <-. split; [exact HX | discriminate]. }
        destruct (HD eq_refl) as (Hrel & data & l & D1 & D2 & D3 & D4). clear HD.
        assert (Hb1 : back f1).
        { intros p' d Hp' Hd. destruct (eqbP p' p) as [->|Hne].
          - apply Hb; [exact Hp|]. destruct Hd as [Hd|[Hd _]]; [rewrite D3 in Hd; injection Hd as <-; exact D1 | destruct Hd; exists data; exact D3].
          - apply Hb; [exact Hp'|]. destruct HT as (HO & _). eapply served_back; [exact HO | | exact Hd].
            destruct (S1 p' Hp') as [_ R2']. intros [H|[H|(l' & pf & Hl & Hpf & H)]]; [revert H; eapply release_package; eassumption | apply Hne, S2; assumption|].
            destruct (S3 p l' Hp (HPB l' Hl)) as (_ & _ & G). exact (G pf p' Hpf Hp' (eq_sym H)). }
        intros E. apply IH in E as [HT2 HD2]; [|intros x Hx; apply Hi; right; exact Hx | intros s Hs; apply HT, Hk, Hs | exact Hb1].
        split.
        + eapply tr_trans; [exact HX|]. eapply tr_mono; [| | |exact HT2]; [auto | auto|]. eapply clean_suffix. exact E1'.
        + intros Ho p' [<-|Hp']; [|apply HD2; assumption]. destruct HT2 as (_ & _ & HK & _). destruct Hrel as [br Hbr]. split; [exists br; apply HK, Hbr|]. exists data, l.
          split; [apply Hb; assumption|]. split; [exact D2|]. split; [apply HK, D3|]. intros pf Hpf. destruct (D4 pf Hpf) as [b Hb']. exists b. apply HK, Hb'.
    Qed.
  End Loop.

  (** ** Solutions *)
  Variable order : list pv -> list pv.
  Hypothesis Ho : forall l, Permutation l (order l).
  Section Sol.
    Variables name version : str.
    Variable langs : langs_arg.
    Notation sol := (solution_file name version).
    Notation selected := (selected cwd base get).
    Lemma selected_fun f ps ps' : selected f name version langs ps -> selected f name version langs ps' -> ps = ps'.
    Proof.
      intros (d & t & ds & H1 & H2 & H3 & H4) (d' & t' & ds' & H1' & H2' & H3' & H4'). assert (d = d') as <- by (eapply served_fun; eassumption). congruence.
    Qed.
    (** The solution is complete. *)
    Definition kept (f : fs) (ps : list pv) (ls : pv -> list pkgfile -> Prop) : Prop :=
      (exists d t ds, look f (at_ sol) = Some (NFile d) /\ utf8_dec d = Ok t /\ dependencies name version t = Ok ds /\ projects langs ds = Ok ps) /\ rdy sol f /\
      forall p, In p ps -> rdy (release_file p) f /\ rdy (package_list p) f /\ is_file f (at_ (release_file p)) /\
        exists d l, ls p l /\ look f (at_ (package_list p)) = Some (NFile d) /\ listed d l /\ Forall (fun pf => rdy (k_extract pf) f /\ is_file f (tgt pf)) l.

    Lemma projects_step pl f o pl' f' : rdy sol f -> run (sv_projects cwd base get order name version langs) pl f = (o, pl', f') ->
      tr cwd (fun q => q = at_ sol) (fun q b => q = at_ sol /\ get sol = Ok b) (clean o pl pl') f f' /\
      forall ps', o = Done ps' -> exists ps, ps' = order ps /\ selected f name version langs ps /\
        exists d t ds, look f' (at_ sol) = Some (NFile d) /\ utf8_dec d = Ok t /\ dependencies name version t = Ok ds /\ projects langs ds = Ok ps.
    Proof.
      intros Hr. unfold sv_projects. cbv zeta. rewrite solution_eq, run_bind.
      destruct (run (download cwd base sol false (get sol)) pl f) as [[o1 pl1] f1] eqn:E1. apply dl_step in E1 as [HT HD]; [|exact Hr].
      destruct o1 as [[]|e|].
      2:{ intros E. injection E as <- <- <-. split; [exact HT | discriminate]. }
      2:{ intros E. injection E as <- <- <-. split; [exact HT | discriminate]. }
      destruct (HD eq_refl) as (data & Hd & Hs). clear HD. pose proof HT as (_ & HR & _).
      rewrite run_bind. destruct (run (read_file cwd (fspath base sol)) pl1 f1) as [[o2 pl2] f2] eqn:E2. apply read_at in E2 as [-> HD]; [|apply HR, Hr].
      assert (HX : tr cwd (fun q => q = at_ sol) (fun q b => q = at_ sol /\ get sol = Ok b) (clean o pl pl') f f1)
        by (eapply tr_mono; [| | |exact HT]; cbn [clean]; auto).
      destruct o2 as [b|e|].
      2:{ intros E. injection E as <- <- <-. split; [exact HX | discriminate]. }
      2:{ intros E. injection E as <- <- <-. split; [exact HX | discriminate]. }
      assert (b = data) as -> by (specialize (HD b eq_refl); rewrite Hd in HD; injection HD as ->; reflexivity).
      rewrite run_bind, run_lift. destruct (utf8_dec data) as [text|e] eqn:Et; [|intros E; injection E as <- <- <-; split; [exact HX | discriminate]].
      rewrite run_bind, run_lift. destruct (dependencies name version text) as [ds|e] eqn:Ed; [|intros E; injection E as <- <- <-; split; [exact HX | discriminate]].
      rewrite run_bind, run_lift. destruct (projects langs ds) as [ps|e] eqn:Ep; [|intros E; injection E as <- <- <-; split; [exact HX | discriminate]].
      cbn [run]. intros E. injection E as <- <- <-. split; [exact HX|]. intros ps' E. injection E as <-. exists ps. split; [reflexivity|].
      split; [exists data, text, ds; auto|]. exists data, text, ds. auto.
    Qed.

    Notation svd := (sv_download cwd base zst zinit zstep zflush get net order name version langs).
    Lemma sv_step pl f o pl' f' : rdy sol f -> (forall ps, selected f name version langs ps -> site cwd base get f ps) ->
      run svd pl f = (o, pl', f') ->
      tr cwd (touched cwd base get f name version langs) (downloaded cwd base get inflate net f name version langs) (clean o pl pl') f f' /\
      (o = Done tt -> exists ps, selected f name version langs ps /\ kept f' ps (packaged f)).
    Proof.
      intros Hr HS. unfold sv_download. rewrite run_bind.
      destruct (run (sv_projects cwd base get order name version langs) pl f) as [[o1 pl1] f1] eqn:E1. pose proof E1 as E1'. apply projects_step in E1 as [HT HD]; [|exact Hr].
      assert (HX : tr cwd (touched cwd base get f name version langs) (downloaded cwd base get inflate net f name version langs) (clean o1 pl pl1) f f1).
      { eapply tr_mono; [| | |exact HT]; [intros q ->; left; reflexivity | intros q b [-> H]; left; auto | auto]. }
      destruct o1 as [ps'|e|].
      2:{ intros E. injection E as <- <- <-. split; [exact HX | discriminate]. }
      2:{ intros E. injection E as <- <- <-. split; [exact HX | discriminate]. }
      destruct (HD ps' eq_refl) as (ps & -> & Hsel & Hsol). clear HD. specialize (HS ps Hsel). pose proof HT as (HO & HRk & _).
      assert (Hin : forall p, In p (order ps) <-> In p ps) by (intros p; split; apply Permutation_in; [apply Permutation_sym|]; apply Ho).
      intros E. apply (pvs_step f ps HS) in E as [HT2 HD2]; [|intros p; apply Hin | exact HRk|].
      2:{ intros p d Hp. destruct HS as (S1 & _). destruct (S1 p Hp) as [_ R2]. eapply served_back; [exact HO|]. eapply solution_package; eassumption. }
      split.
      - eapply tr_trans; [exact HX|]. eapply tr_mono; [| | |exact HT2].
        + intros q (p & Hp & Hq). right. exists ps, p. auto.
        + intros q b (p & Hp & Hq). right. exists ps, p. auto.
        + eapply clean_suffix. exact E1'.
      - intros Hd. exists ps. split; [exact Hsel|]. destruct HS as (S1 & _ & S3). destruct HT2 as (_ & HRk2 & HK & _).
        split; [destruct Hsol as (d & t & ds & H1 & H2); exists d, t, ds; split; [apply HK, H1 | exact H2]|]. split; [apply HRk2, HRk, Hr|].
        intros p Hp. destruct (S1 p Hp) as [R1 R2]. split; [apply HRk2, HRk, R1|]. split; [apply HRk2, HRk, R2|].
        destruct (HD2 Hd p (proj2 (Hin p) Hp)) as (Hrel & data & l & D1 & D2 & D3 & D4). split; [exact Hrel|].
        assert (HPl : packaged f p l) by (exists data; auto). exists data, l. split; [exact HPl|]. split; [exact D3|]. split; [exact D2|].
        destruct (S3 p l Hp HPl) as (G & _). rewrite Forall_forall in G |- *. intros pf Hpf. split; [apply HRk2, HRk, (G pf Hpf) | apply D4, Hpf].
    Qed.
  End Sol.
End P.

(** ** A complete solution is not changed *)
Section Q.
  Variable cwd : path.
  Variable base : str.
  Variable zst : Type.
  Variable zinit : zst.
  Variable zstep : zst -> bytes -> result (zst * bytes).
  Variable zflush : zst -> result bytes.
  Variable get : str -> result bytes.
  Variable net : str -> result (list bytes).
  Variable order : list pv -> list pv.
  Hypothesis Ho : forall l, Permutation l (order l).
  Notation tgt := (pkg_target cwd base).
  Notation at_ := (at_ cwd base).
  Notation rdy m f := (ready cwd (path_join base m) f).
  Notation dl m resp := (download cwd base m false resp).

  Lemma dl_fs m resp pl f o pl' f' : rdy m f -> is_file f (at_ m) -> run (dl m resp) pl f = (o, pl', f') -> f' = f.
  Proof. intros Hr Hf E. apply download_existing in E as [-> _]; [reflexivity | exact Hr | exact Hf]. Qed.
  Lemma dl_nil m resp f : rdy m f -> is_file f (at_ m) -> run (dl m resp) [] f = (Done tt, [], f).
  Proof.
    intros Hr Hf. destruct (run_nil_plan (dl m resp) f) as (o & f' & E). rewrite E. pose proof E as E1. apply download_existing in E1 as [-> [->| ->]]; [reflexivity | | exact Hr | exact Hf].
    exfalso. eapply run_nil_nocrash. exact E.
  Qed.
  Lemma gpf_fs p pl f o pl' f' : rdy (package_list p) f -> is_file f (at_ (package_list p)) ->
    run (get_package_files cwd base get p) pl f = (o, pl', f') -> f' = f /\
    forall all d l, o = Done all -> look f (at_ (package_list p)) = Some (NFile d) -> listed d l -> map snd all = l.
  Proof.
    intros Hr Hf. unfold get_package_files. cbv zeta. change (pv_path p ++ lit "/packagemanifest") with (package_list p). rewrite run_bind.
    destruct (run (dl (package_list p) _) pl f) as [[o1 pl1] f1] eqn:E1. apply dl_fs in E1; [|exact Hr | exact Hf]. subst f1.
    destruct o1 as [[]|e|].
    2:{ intros E. injection E as <- <- <-. split; [reflexivity | discriminate]. }
    2:{ intros E. injection E as <- <- <-. split; [reflexivity | discriminate]. }
    rewrite run_bind. destruct (run (read_file cwd (fspath base (package_list p))) pl1 f) as [[o2 pl2] f2] eqn:E2. apply read_at in E2 as [-> HD]; [|exact Hr].
    destruct o2 as [b|e|].
    2:{ intros E. injection E as <- <- <-. split; [reflexivity | discriminate]. }
    2:{ intros E. injection E as <- <- <-. split; [reflexivity | discriminate]. }
    specialize (HD b eq_refl). rewrite run_bind, run_lift. destruct (utf8_dec b) as [text|e] eqn:Et; [|intros E; injection E as <- <- <-; split; [reflexivity | discriminate]].
    rewrite run_bind, run_lift. destruct (from_package_manifest text) as [pfs|e] eqn:Ef; [|intros E; injection E as <- <- <-; split; [reflexivity | discriminate]].
    cbn [run]. intros E. injection E as <- <- <-. split; [reflexivity|]. intros all d l Ha Hd Hl. injection Ha as <-. rewrite HD in Hd. injection Hd as <-.
    eapply listed_fun; [|exact Hl]. exists text, pfs. auto.
  Qed.
  Lemma gpf_nil p f d l : rdy (package_list p) f -> look f (at_ (package_list p)) = Some (NFile d) -> listed d l ->
    exists all, run (get_package_files cwd base get p) [] f = (Done all, [], f) /\ map snd all = l /\ dkeys all = map k_extract l.
  Proof.
    intros Hr Hd (text & pfs & H1 & H2 & ->). exists (package_files pfs). split; [|split; [reflexivity | apply keys_extract]].
    unfold get_package_files. cbv zeta. change (pv_path p ++ lit "/packagemanifest") with (package_list p).
    rewrite run_bind, dl_nil, run_bind, (read_nil _ _ _ _ _ Hr Hd), run_bind, run_lift, H1, run_bind, run_lift, H2; [reflexivity | exact Hr | exists d; exact Hd].
  Qed.
  Notation ext := (rads_extract cwd base zst zinit zstep zflush net).
  Lemma ext_again pvpath all pl f o pl' f' : Forall (fun pf => rdy (k_extract pf) f /\ is_file f (tgt pf)) (map snd all) -> run (ext pvpath all None) pl f = (o, pl', f') ->
    f' = f /\ (o = Done tt \/ o = Crashed).
  Proof.
    intros HF. unfold rads_extract. rewrite run_bind, run_lift, run_bind. change (dvals all) with (map snd all).
    destruct (run (filter_missing cwd base (map snd all)) pl f) as [[o1 pl1] f1] eqn:E1.
    eapply (filter_missing_run cwd base net) in E1 as (-> & H2 & H3); [|(eapply Forall_impl; [|exact HF]; intros pf [H _]; exact H)].
    destruct o1 as [r|e|]; [|destruct (H2 e eq_refl) | intros E; injection E as <- <- <-; auto].
    destruct (H3 r eq_refl) as [H _]. destruct r as [|pf r]; [cbn; intros E; injection E as <- <- <-; auto|].
    destruct (proj1 (H pf) (or_introl eq_refl)) as [Hi Hn]. rewrite Forall_forall in HF. destruct (HF pf Hi) as [_ Hf]. contradiction.
  Qed.
  Section Sol.
    Variables name version : str.
    Variable langs : langs_arg.
    Variable f : fs.
    Variable ps : list pv.
    Variable ls : pv -> list pkgfile -> Prop.
    Hypothesis HK : kept cwd base name version langs f ps ls.
    Notation pvd := (pv_download cwd base zst zinit zstep zflush get net).
    Lemma pv_again p : In p ps -> run (pvd p) [] f = (Done tt, [], f) /\ forall pl o pl' f', run (pvd p) pl f = (o, pl', f') -> f' = f.
    Proof.
      intros Hp. destruct HK as (_ & _ & H). destruct (H p Hp) as (R1 & R2 & F1 & d & l & _ & Hd & Hl & HF). unfold pv_download. cbv zeta.
      change (pv_path p ++ lit "/releasemanifest") with (release_file p). split.
      - rewrite run_bind, dl_nil, run_bind by assumption. destruct (gpf_nil p f d l R2 Hd Hl) as (all & E & El & _). rewrite E. subst l.
        destruct (run_nil_plan (ext (pv_path p) all None) f) as (o & f' & E1). rewrite E1. pose proof E1 as E2. apply ext_again in E2 as [-> [->| ->]]; [reflexivity | | exact HF].
        exfalso. eapply run_nil_nocrash. exact E1.
      - intros pl o pl' f'. rewrite run_bind. destruct (run (dl (release_file p) _) pl f) as [[o1 pl1] f1] eqn:E1. apply dl_fs in E1; [|assumption..]. subst f1.
        destruct o1 as [[]|e|]; [|intros E; congruence..]. rewrite run_bind. destruct (run (get_package_files cwd base get p) pl1 f) as [[o2 pl2] f2] eqn:E2.
        apply gpf_fs in E2 as [-> HL]; [|exact R2 | exists d; exact Hd]. destruct o2 as [all|e|]; [|intros E; congruence..]. specialize (HL all d l eq_refl Hd Hl). subst l.
        intros E. apply ext_again in E as [-> _]; [reflexivity | exact HF].
    Qed.
    Lemma loop_again : forall ps', incl ps' ps -> run (for_each ps' pvd) [] f = (Done tt, [], f) /\ forall pl o pl' f', run (for_each ps' pvd) pl f = (o, pl', f') -> f' = f.
    Proof.
      induction ps' as [|p ps' IH]; intros Hi; cbn [for_each]; [split; [reflexivity | intros pl o pl' f' E; cbn in E; congruence]|].
      destruct (pv_again p (Hi p (or_introl eq_refl))) as [A1 A2]. destruct IH as [B1 B2]; [intros x Hx; apply Hi; right; exact Hx|]. split.
      - rewrite run_bind, A1. exact B1.
      - intros pl o pl' f'. rewrite run_bind. destruct (run (pvd p) pl f) as [[o1 pl1] f1] eqn:E1. apply A2 in E1. subst f1. destruct o1 as [[]|e|]; [apply B2 | intros E; congruence..].
    Qed.
    Lemma projects_again : run (sv_projects cwd base get order name version langs) [] f = (Done (order ps), [], f) /\
      forall pl o pl' f', run (sv_projects cwd base get order name version langs) pl f = (o, pl', f') -> f' = f /\ forall ps', o = Done ps' -> ps' = order ps.
    Proof.
      destruct HK as ((d & t & ds & H1 & H2 & H3 & H4) & Hr & _). unfold sv_projects. cbv zeta. rewrite solution_eq. assert (Hf : is_file f (at_ (solution_file name version))) by (exists d; exact H1). split.
      - rewrite run_bind, dl_nil, run_bind, (read_nil _ _ _ _ _ Hr H1), run_bind, run_lift, H2, run_bind, run_lift, H3, run_bind, run_lift, H4 by assumption. reflexivity.
      - intros pl o pl' f'. rewrite run_bind. destruct (run (dl (solution_file name version) _) pl f) as [[o1 pl1] f1] eqn:E1. apply dl_fs in E1; [|assumption..]. subst f1.
        destruct o1 as [[]|e|].
        2:{ intros E. injection E as <- <- <-. split; [reflexivity | discriminate]. }
        2:{ intros E. injection E as <- <- <-. split; [reflexivity | discriminate]. }
        rewrite run_bind. destruct (run (read_file cwd _) pl1 f) as [[o2 pl2] f2] eqn:E2. apply read_at in E2 as [-> HD]; [|exact Hr].
        destruct o2 as [b|e|].
        2:{ intros E. injection E as <- <- <-. split; [reflexivity | discriminate]. }
        2:{ intros E. injection E as <- <- <-. split; [reflexivity | discriminate]. }
        specialize (HD b eq_refl). rewrite H1 in HD. injection HD as <-. rewrite run_bind, run_lift, H2, run_bind, run_lift, H3, run_bind, run_lift, H4. cbn [run].
        intros E. injection E as <- <- <-. split; [reflexivity|]. intros ps' E. congruence.
    Qed.
    Lemma sv_again : run (sv_download cwd base zst zinit zstep zflush get net order name version langs) [] f = (Done tt, [], f) /\
      forall pl o pl' f', run (sv_download cwd base zst zinit zstep zflush get net order name version langs) pl f = (o, pl', f') -> f' = f.
    Proof.
      destruct projects_again as [A1 A2]. assert (Hi : incl (order ps) ps) by (intros p; apply Permutation_in, Permutation_sym, Ho). destruct (loop_again _ Hi) as [B1 B2]. unfold sv_download. split.
      - rewrite run_bind, A1. exact B1.
      - intros pl o pl' f'. rewrite run_bind. destruct (run _ pl f) as [[o1 pl1] f1] eqn:E1. apply A2 in E1 as [-> HD]. destruct o1 as [ps'|e|]; [|intros E; congruence..]. rewrite (HD ps' eq_refl). apply B2.
    Qed.

    (** Listing. *)
    Lemma rmapM_app {A B} (h : A -> result B) a b : rmapM h (a ++ b) = let! x := rmapM h a in let! y := rmapM h b in Ok (x ++ y).
    Proof.
      induction a as [|x a IH]; cbn [rmapM app rbind]; [destruct (rmapM h b); reflexivity|]. destruct (h x); cbn [rbind]; [|reflexivity]. rewrite IH.
      destruct (rmapM h a); cbn [rbind]; [|reflexivity]. destruct (rmapM h b); reflexivity.
    Qed.
    Lemma each_run : forall ps', incl ps' ps -> exists xs, Forall2 (fun p x => exists l, ls p l /\ Forall (fun pf => is_file f (tgt pf)) l /\ x = map k_extract l) ps' xs /\
      forall A (h : str -> result A), run (each_path cwd base get h ps') [] f = (match rmapM h (concat xs) with Ok r => Done r | Err e => Raised e end, [], f).
    Proof.
      induction ps' as [|p ps' IH]; intros Hi; [exists []; split; [constructor | reflexivity]|].
      destruct IH as (xs & HX & E); [intros x Hx; apply Hi; right; exact Hx|]. destruct HK as (_ & _ & H). destruct (H p (Hi p (or_introl eq_refl))) as (R1 & R2 & F1 & d & l & Hl & Hd & Hli & HF).
      exists (map k_extract l :: xs). split; [constructor; [exists l; split; [exact Hl|]; split; [eapply Forall_impl; [|exact HF]; intros pf [_ G]; exact G | reflexivity] | exact HX]|].
      intros A h. destruct (gpf_nil p f d l R2 Hd Hli) as (all & E1 & El & Ek). cbn [each_path]. rewrite run_bind, E1, run_bind, run_lift, Ek. cbn [concat]. rewrite rmapM_app.
      destruct (rmapM h (map k_extract l)) as [r|e]; cbn [rbind]; [|reflexivity]. rewrite run_bind, E. destruct (rmapM h (concat xs)); reflexivity.
    Qed.
    Hypothesis Hls : forall p l l', ls p l -> ls p l' -> l = l'.
    Lemma paths_run : exists xs, (forall x, In x xs <-> exists p l pf, In p ps /\ ls p l /\ In pf l /\ is_file f (tgt pf) /\ x = k_extract pf) /\
      forall A (h : str -> result A), run (sv_paths cwd base get order h name version langs) [] f = (match rmapM h xs with Ok r => Done r | Err e => Raised e end, [], f).
    Proof.
      assert (Hi : incl (order ps) ps) by (intros p; apply Permutation_in, Permutation_sym, Ho). destruct (each_run _ Hi) as (xs & HX & E). exists (concat xs).
      split; [|intros A h; unfold sv_paths; rewrite run_bind, (proj1 projects_again); apply E].
      assert (Hin : forall p, In p ps -> In p (order ps)) by (intros p; apply Permutation_in, Ho).
      intros x. split.
      - intros Hx. apply in_concat in Hx as (y & Hy & Hx). clear Hin E. induction HX as [|p y' ps' xs (l & Hl & HF & ->) _ IH]; [destruct Hy|]. destruct Hy as [<-|Hy].
        + apply in_map_iff in Hx as (pf & <- & Hpf). exists p, l, pf. rewrite Forall_forall in HF. repeat split; auto. apply Hi. left. reflexivity.
        + apply IH; [intros z Hz; apply Hi; right; exact Hz | exact Hy].
      - intros (p & l & pf & Hp & Hl & Hpf & _ & ->). apply Hin in Hp. clear Hin Hi E. apply in_concat. induction HX as [|p' y' ps' xs (l' & Hl' & HF & ->) _ IH]; [destruct Hp|]. destruct Hp as [->|Hp].
        + exists (map k_extract l'). split; [left; reflexivity|]. rewrite (Hls p l' l Hl' Hl). apply in_map, Hpf.
        + destruct (IH Hp) as (y & Hy & Hx). exists y. split; [right; exact Hy | exact Hx].
    Qed.
  End Sol.
End Q.

(** ** Relative paths *)
Lemma after_ok : forall n p r, after_slashes n p = Ok r <-> exists l, length l = n /\ Forall (fun x => ~ In cSlash x) l /\ p = join (lit "/") (l ++ [r]).
Proof.
  induction n as [|n IH]; intros p r; cbn [after_slashes].
  - split; [intros E; injection E as ->; exists []; split; [reflexivity|]; split; [constructor | reflexivity]|]. intros ([|] & E & _ & ->); [reflexivity | discriminate].
  - destruct (cut_first cSlash p) as [[a q]|] eqn:Ec.
    + apply cut_first_Some in Ec as [-> Ha]. rewrite IH. split.
      * intros (l & <- & HF & ->). exists (a :: l). split; [reflexivity|]. split; [constructor; assumption|]. destruct l; reflexivity.
      * intros ([|x l] & E & HF & Ej); [discriminate|]. injection E as <-. inversion HF as [|? ? Hx Hl]; subst. exists l. split; [reflexivity|]. split; [exact Hl|].
        assert (Ej' : a ++ cSlash :: q = x ++ cSlash :: join (lit "/") (l ++ [r])) by (rewrite Ej; destruct l; reflexivity).
        apply (f_equal (cut_first cSlash)) in Ej'. rewrite !cut_first_app in Ej' by assumption. injection Ej' as _ ->. reflexivity.
    + split; [discriminate|]. intros ([|x l] & E & HF & ->); [discriminate|]. apply cut_first_None in Ec. exfalso. apply Ec. destruct l; (apply in_or_app; right; left; reflexivity).
Qed.
Lemma relpath_ok p r : relpath p = Ok r <-> rel_of p r.
Proof.
  unfold relpath. rewrite GameDataProofs.rmap_Ok. split.
  - intros (t & E & ->). apply after_ok in E as (l & El & HF & ->). do 6 (destruct l as [|? l]; try discriminate).
    repeat match goal with H : Forall _ (_ :: _) |- _ => inversion_clear H end. do 6 eexists. split; [reflexivity|]. auto 10.
  - intros (a & b & c & d & e & t & -> & H1 & H2 & H3 & H4 & H5 & ->). exists t. split; [|reflexivity]. apply after_ok. exists [a; b; c; d; e]. split; [reflexivity|]. split; [repeat constructor; assumption | reflexivity].
Qed.
Lemma relpath_err p e : relpath p = Err e -> e = IndexError.
Proof.
  unfold relpath. generalize 5%nat as n. intros n. revert p. induction n as [|n IH]; intros p; cbn [after_slashes]; [discriminate|]. destruct (cut_first cSlash p) as [[a q]|]; [apply IH | cbn; congruence].
Qed.

Lemma rmapM_Err {A B} (h : A -> result B) l e : rmapM h l = Err e -> exists x, In x l /\ h x = Err e.
Proof.
  induction l as [|x l IH]; cbn [rmapM]; [discriminate|]. destruct (h x) as [y|e'] eqn:E; cbn [rbind].
  - destruct (rmapM h l) as [ys|e']; [discriminate|]. cbn [rbind]. intros E'. destruct IH as (z & Hz & Ez); [congruence|]. exists z. split; [right; exact Hz | exact Ez].
  - intros E'. exists x. split; [left; reflexivity | congruence].
Qed.
Lemma relpaths_cases base xs :
  (exists l, rmapM (fun p => let! r := relpath p in Ok (fspath base p, r)) xs = Ok l /\ rmapM relpath xs = Ok (map snd l) /\ rmapM (fun p => Ok (fspath base p)) xs = Ok (map fst l) /\
     forall x r, In (x, r) l <-> exists y, In y xs /\ x = path_join base y /\ rel_of y r) \/
  (exists y, In y xs /\ forall r, ~ rel_of y r) /\ rmapM (fun p => let! r := relpath p in Ok (fspath base p, r)) xs = Err IndexError /\ rmapM relpath xs = Err IndexError.
Proof.
  induction xs as [|y xs IH]; cbn [rmapM].
  - left. exists []. repeat split; try reflexivity; [intros [] | intros (z & [] & _)].
  - destruct (relpath y) as [r|e] eqn:Er; cbn [rbind].
    + destruct IH as [(l & -> & -> & -> & H)|((z & Hz & Hn) & -> & ->)].
      * left. exists ((fspath base y, r) :: l). repeat split; try reflexivity.
        -- intros [E|Hi]; [injection E as <- <-; exists y; split; [left; reflexivity|]; split; [reflexivity | apply relpath_ok, Er]|].
           apply H in Hi as (z & Hz & H'). exists z. split; [right; exact Hz | exact H'].
        -- intros (z & [<-|Hz] & -> & Hr); [left; apply relpath_ok in Hr; rewrite Er in Hr; injection Hr as ->; reflexivity | right; apply H; eauto].
      * right. split; [exists z; split; [right; exact Hz | exact Hn]|]. split; reflexivity.
    + right. split; [exists y; split; [left; reflexivity|]; intros r Hr; apply relpath_ok in Hr; congruence|]. rewrite (relpath_err _ _ Er). split; reflexivity.
Qed.
