(** * Proofs about the update of hash files *)

From Coq Require Import QArith_base.
From Verif Require Import Base.PyFacts Base.Text Base.TextFacts Base.PathFacts Base.Fs Spec.FsSpec Base.FsFacts Model.Files Spec.FilesSpec Proofs.FilesProofs
  Model.Hashes Model.Cli Model.FetchHashes Spec.FetchHashesSpec Proofs.WadExtractProofs Proofs.RadsExtractProofs.
From Verif Require Proofs.RadsDownloadProofs.
Local Open Scope N_scope.

(** ** Paths *)
Lemma comps_joined l : Forall valid_name l -> comps (join [cSlash] l) = l.
Proof.
  induction l as [|x l IH]; intros F; [reflexivity|]. apply Forall_cons_iff in F as [(H1 & H2 & H3 & H4) F]. destruct l as [|y l].
  - cbn [join]. apply comps_one; assumption.
  - change (join [cSlash] (x :: y :: l)) with (x ++ [cSlash] ++ join [cSlash] (y :: l)). cbn [app]. rewrite comps_app, (IH F), comps_one by assumption. reflexivity.
Qed.
Lemma join_snoc (n : str) l : l <> [] -> join [cSlash] (l ++ [n]) = join [cSlash] l ++ cSlash :: n.
Proof.
  induction l as [|x l IH]; [congruence|]. intros _. destruct l as [|y l]; [reflexivity|].
  change (join [cSlash] ((x :: y :: l) ++ [n])) with (x ++ [cSlash] ++ join [cSlash] ((y :: l) ++ [n])). rewrite IH by discriminate.
  change (join [cSlash] (x :: y :: l)) with (x ++ [cSlash] ++ join [cSlash] (y :: l)). rewrite <- !app_assoc. reflexivity.
Qed.
Lemma names_ok n : In n hash_files -> valid_name n /\ mkpath n = {| pp_root := []; pp_parts := [n] |}.
Proof.
  intros H. unfold hash_files in H. cbn [In] in H.
  repeat (destruct H as [<-|H]; [split; [|reflexivity]; split; [discriminate|]; split; [discriminate|]; split; [discriminate|]; apply RadsDownloadProofs.not_slash; reflexivity|]). destruct H.
Qed.

Section Fetch.
  Variable cwd : path.
  Variable dir : ppath.
  Hypothesis Hdir : good_dir dir.
  Notation hp := (hash_path dir).
  Notation at_ := (place cwd dir).
  Notation start := (if is_absolute dir then [] else cwd).

  Lemma start_eq : start = match pp_root dir with [] => cwd | _ => [] end.
  Proof. unfold is_absolute. destruct (pp_root dir); reflexivity. Qed.
  Lemma hp_text n : In n hash_files -> hp n = pp_root dir ++ join [cSlash] (pp_parts dir ++ [n]).
  Proof.
    intros Hn. destruct (names_ok n Hn) as [_ Hm]. unfold hash_path, pdiv. rewrite Hm. cbn [is_absolute pp_root pp_parts negb]. unfold ptext. cbn [is_absolute pp_root pp_parts]. change (negb (eqb [] [])) with false. cbn match.
    cbn [pp_root pp_parts]. change (lit "/") with [cSlash]. destruct (_ ++ _) eqn:E; [|reflexivity]. exfalso. apply app_eq_nil in E as [_ E]. apply (f_equal comps) in E.
    rewrite comps_joined in E; [destruct (pp_parts dir); discriminate|]. apply Forall_app. split; [apply Hdir|]. constructor; [apply names_ok, Hn | constructor].
  Qed.
  Lemma hp_comps n : In n hash_files -> comps (hp n) = pp_parts dir ++ [n] /\ is_abs (hp n) = negb (eqb (pp_root dir) []).
  Proof.
    intros Hn. rewrite (hp_text n Hn). destruct Hdir as (Hr & Hp & _). assert (F : Forall valid_name (pp_parts dir ++ [n])) by (apply Forall_app; split; [exact Hp|]; constructor; [apply names_ok, Hn | constructor]).
    cbn [In] in Hr. destruct Hr as [E|[E|[E|[]]]]; rewrite <- E.
    - split; [apply comps_joined, F|]. cbn [app]. change (negb (eqb [] [])) with false. destruct (pp_parts dir ++ [n]) as [|x l] eqn:El; [reflexivity|].
      apply Forall_cons_iff in F as [(H1 & _ & _ & H4) _]. destruct x as [|c x]; [congruence|]. assert (c <> cSlash) by (intros ->; apply H4; left; reflexivity).
      destruct l; cbn [join app is_abs]; apply N.eqb_neq; assumption.
    - split; [|reflexivity]. change (lit "/" ++ ?x) with ([] ++ cSlash :: x). rewrite comps_app. apply comps_joined, F.
    - split; [|reflexivity]. change (lit "//" ++ ?x) with ([cSlash] ++ cSlash :: x). rewrite comps_app. apply comps_joined, F.
  Qed.
  Lemma hp_target n : In n hash_files -> target cwd (hp n) = at_ n.
  Proof.
    intros Hn. destruct (hp_comps n Hn) as [E1 E2]. unfold target. rewrite E1, E2, rev_app_distr. unfold place, dir_place. cbn [rev app]. f_equal. f_equal.
    rewrite <- start_eq. reflexivity.
  Qed.
  Lemma hp_plain n : In n hash_files -> plain_path (hp n).
  Proof.
    intros Hn. destruct (hp_comps n Hn) as [E1 E2]. destruct (names_ok n Hn) as [(H1 & H2 & H3 & H4) _]. pose proof Hdir as (Hr & Hp & Hne). split; [|].
    - rewrite E1. intros Hi. apply in_app_iff in Hi as [Hi|[Hi|[]]]; [|congruence]. rewrite Forall_forall in Hp. apply Hp in Hi as (_ & _ & H & _). congruence.
    - assert (E : exists d, hp n = d ++ cSlash :: n).
      { rewrite (hp_text n Hn). destruct (pp_parts dir) as [|x l] eqn:El.
        - cbn [app join]. cbn [In] in Hr. destruct Hr as [E|[E|[E|[]]]]; rewrite <- E in *; [destruct Hne as [Hx|Hx]; congruence | exists []; reflexivity | exists [cSlash]; reflexivity].
        - rewrite join_snoc by discriminate. exists (pp_root dir ++ join [cSlash] (x :: l)). rewrite <- app_assoc. reflexivity. }
      destruct E as [d E]. rewrite E. rewrite PatcherExtractProofs.basename_snoc by exact H4. split; [|split; assumption].
      unfold dirname, path_split. assert (C : cut_last cSlash (d ++ cSlash :: n) = Some (d, n)) by (apply cut_last_app; exact H4). rewrite C. cbn [fst].
      destruct (forallb _ _) eqn:Ef; [intros X; apply app_eq_nil in X as [_ X]; discriminate|].
      cbn [fst]. intros X. assert (Y : forallb (N.eqb cSlash) (d ++ [cSlash]) = true); [|congruence].
      destruct (rstrip_spec (N.eqb cSlash) (d ++ [cSlash])) as (p & Ep & Hpp & _). rewrite X in Ep. rewrite Ep. exact Hpp.
  Qed.
  Lemma usable_ready f n : usable cwd dir f -> In n hash_files -> ready cwd (hp n) f.
  Proof. intros (Hw & Hc & Hl) Hn. split; [apply hp_plain, Hn|]. rewrite hp_target by exact Hn. split; [apply Hl, Hn|]. split; assumption. Qed.

  (** ** The directory *)
  Notation D := (dir_place cwd dir).
  Definition minv (f : fs) : Prop := nolink f D /\ fs_wf f /\ look f cwd = Some NDir.
  Lemma mkdir_safe r : below D (r ++ start) -> ~ In dotdot r -> safe minv (adds_dirs D) (fun _ => True) (mkdir_at start r).
  Proof.
    intros Hb Hd. unfold mkdir_at. apply safe_sys; [intros; apply adds_dirs_refl|]. intros f a f' Hi E. pose proof Hi as (Hn & Hw & Hc).
    unfold create_at in E. apply rbind_Ok in E as (p & Ep & E). unfold at_loc in Ep. cbn [fst snd] in Ep. pose proof Ep as Ep'.
    apply resolve_plain in Ep as [-> _]; [|rewrite rev_involutive; eapply nolink_anc; eassumption | rewrite <- in_rev; assumption].
    rewrite rev_involutive in E, Ep'. match type of E with context [look f ?p] => change p with (r ++ start) in *; destruct (look f (r ++ start)) as [nd|] eqn:El end; [discriminate E|].
    apply (f_equal (fun x => match x with Ok (_, y) => y | Err _ => f' end)) in E. cbn in E. subst f'.
    apply (resolve_parent f false Hw) in Ep' as [Hne Hp]; [| destruct (is_absolute dir); [reflexivity | exact Hc] | assumption].
    assert (HO : adds_dirs D f (put (r ++ start) NDir f)) by (apply put_dir_adds; assumption).
    split; [exact HO|]. split; [|exact Logic.I]. split; [eapply adds_dirs_nolink; eassumption|].
    split; [apply wf_put; [assumption | assumption | assumption | congruence] | eapply adds_dirs_dir; eassumption].
  Qed.
  Lemma exists_safe r e : safe minv (adds_dirs D) (fun _ => True) (dir_exists_ok start r e).
  Proof.
    unfold dir_exists_ok. destruct (is_oserror e); [|exact Logic.I]. eapply (safe_bind _ _ (fun _ => True)); [apply safe_query; [intros; apply adds_dirs_refl | auto]|].
    intros [|] _; exact Logic.I.
  Qed.
  Lemma path_mkdir_safe r : below D (r ++ start) -> ~ In dotdot r -> safe minv (adds_dirs D) (fun _ => True) (path_mkdir start r).
  Proof.
    induction r as [|x r IH]; intros Hb Hd; cbn [path_mkdir].
    - apply safe_catch; [apply mkdir_safe; assumption|]. intros e. destruct e as [| | | | | | | | | | | |[]| | | |]; try apply exists_safe; exact Logic.I.
    - assert (Hb' : below D (r ++ start)) by (eapply below_trans; [exact Hb | exists [x]; reflexivity]).
      assert (Hd' : ~ In dotdot r) by (intros Hi; apply Hd; right; assumption).
      assert (K : safe minv (adds_dirs D) (fun _ => True) (let~ _ := path_mkdir start r in
        catch (mkdir_at start (x :: r)) (fun e => match e with OSError ENOENT => Rai e | _ => dir_exists_ok start (x :: r) e end))).
      { eapply (safe_bind _ _ (fun _ => True)); [apply IH; assumption|]. intros _ _. apply safe_catch; [apply mkdir_safe; assumption|].
        intros e. destruct e as [| | | | | | | | | | | |[]| | | |]; try apply exists_safe; exact Logic.I. }
      apply safe_catch; [apply mkdir_safe; assumption|]. intros e. destruct e as [| | | | | | | | | | | |[]| | | |]; try apply exists_safe; exact K.
  Qed.
  Lemma some_file : exists n, In n hash_files.
  Proof. eexists. left. reflexivity. Qed.
  Lemma usable_minv f : usable cwd dir f -> minv f.
  Proof. intros (Hw & Hc & Hl). split; [|split; assumption]. destruct some_file as [n Hn]. eapply nolink_anc; [apply Hl, Hn | exists [n]; reflexivity]. Qed.
  Lemma dir_dots : ~ In dotdot (rev (pp_parts dir)).
  Proof. rewrite <- in_rev. intros Hi. destruct Hdir as (_ & Hp & _). rewrite Forall_forall in Hp. apply Hp in Hi as (_ & _ & H & _). congruence. Qed.
  Lemma dir_step pl f o pl' f' : usable cwd dir f -> run (path_mkdir start (rev (pp_parts dir))) pl f = (o, pl', f') -> adds_dirs D f f' /\ usable cwd dir f'.
  Proof.
    intros Hu E. eapply (safe_run _ _ (adds_dirs_refl _) (adds_dirs_trans _)) in E as (H & HI & _);
      [|apply path_mkdir_safe; [unfold dir_place; rewrite <- start_eq; exists []; reflexivity | apply dir_dots] | apply usable_minv, Hu].
    destruct HI as (_ & Hw & Hc). split; [exact H|]. split; [exact Hw|]. split; [exact Hc|]. intros n Hn. eapply adds_dirs_nolink; [exact H | apply Hu, Hn].
  Qed.
  Lemma adds_place f f' n : adds_dirs D f f' -> look f' (at_ n) = look f (at_ n).
  Proof.
    intros H. destruct (H (at_ n)) as [E|(_ & _ & [l E])]; [exact E|]. exfalso. apply (f_equal (@length _)) in E. unfold place in E. rewrite app_length in E. cbn [length] in E. lia.
  Qed.
  Lemma only_place f f' n m : only_file (at_ n) f f' -> m <> n -> look f' (at_ m) = look f (at_ m).
  Proof.
    intros H Hm. destruct (H (at_ m)) as [E|[E|(_ & _ & (x & l & E))]]; [exact E | injection E as E; congruence|].
    exfalso. apply (f_equal (@length _)) in E. unfold place in E. cbn [length] in E. rewrite app_length in E. cbn [length] in E. lia.
  Qed.

  (** ** One file *)
  Variable mtime : str -> Q.
  Variable head : str -> result str.
  Variable get : str -> result bytes.
  Notation upd := (update_hashfile cwd dir mtime head get).
  Notation cur := (current http_date mtime head).
  Notation updated := (updated http_date mtime head get cwd dir).
  Definition ask (n : str) : prog bool :=
    catch (let~ _ := stat cwd (hp n) in let~ h := lift (head (hash_url n)) in let~ t := lift (http_date h) in Ret (Qle_bool (inject_Z t) (mtime n)))
      (fun e => match e with OSError ENOENT => Ret false | _ => Rai e end).
  Lemma upd_eq n : upd n = let~ b := ask n in if b : bool then Ret tt else get_and_write cwd (hp n) (get (hash_url n)).
  Proof. reflexivity. Qed.
  Lemma stat_run n pl f o pl' f' : In n hash_files -> usable cwd dir f -> run (stat cwd (hp n)) pl f = (o, pl', f') -> f' = f /\ (o = Done tt -> look f (at_ n) <> None).
  Proof.
    intros Hn Hu E. assert (Ef : f' = f).
    { unfold stat, sys in E. destruct pl as [|[[e k|k]|] pl]; cbn in E; try (injection E as <- <- <-; reflexivity);
      match type of E with context [rbind ?r ?k] => destruct (rbind r k) as [[u g]|x] eqn:Er; cbn in E; injection E as <- <- <-; [|reflexivity] end;
      apply rbind_Ok in Er as (p & _ & Er); destruct (look f p); [injection Er as _ <-; reflexivity | discriminate | injection Er as _ <-; reflexivity | discriminate]. }
    split; [exact Ef|]. intros ->. subst f'. apply run_sys_done in E. apply rbind_Ok in E as (p & Ep & E).
    pose proof (usable_ready f n Hu Hn) as Hr. apply ready_winv in Hr as [Hs Hi]. apply locate_t in Ep as [-> _]; [|exact Hs | apply Hi]. rewrite hp_target in E by exact Hn.
    destruct (look f (at_ n)); [discriminate | discriminate E].
  Qed.
  Lemma ask_run n pl f o pl' f' : In n hash_files -> usable cwd dir f -> run (ask n) pl f = (o, pl', f') -> f' = f /\ (o = Done true -> look f (at_ n) <> None /\ cur n).
  Proof.
    intros Hn Hu. unfold ask. rewrite run_catch. match goal with |- context [run ?p pl f] => destruct (run p pl f) as [[o1 pl1] f1] eqn:E1 end.
    assert (K : f1 = f /\ (o1 = Done true -> look f (at_ n) <> None /\ cur n)).
    { rewrite run_bind in E1. destruct (run (stat cwd (hp n)) pl f) as [[o2 pl2] f2] eqn:E2. apply stat_run in E2 as [-> H2]; [|exact Hn | exact Hu].
      destruct o2 as [[]|e|]; [|injection E1 as <- <- <-; split; [reflexivity | discriminate] | injection E1 as <- <- <-; split; [reflexivity | discriminate]].
      rewrite run_bind, run_lift in E1. destruct (head (hash_url n)) as [h|e] eqn:Eh; [|injection E1 as <- <- <-; split; [reflexivity | discriminate]].
      rewrite run_bind, run_lift in E1. destruct (http_date h) as [t|e] eqn:Et; [|injection E1 as <- <- <-; split; [reflexivity | discriminate]].
      cbn [run] in E1. injection E1 as <- <- <-. split; [reflexivity|]. intros Eb. injection Eb as Eb. split; [apply H2; reflexivity|]. exists h, t. split; [exact Eh|]. split; [exact Et|]. apply Qle_bool_iff, Eb. }
    destruct K as [-> K]. destruct o1 as [b|e|]; [|destruct e as [| | | | | | | | | | | |[]| | | |]|]; cbn [run]; intros E; injection E as <- <- <-; split; try reflexivity; try discriminate. exact K.
  Qed.
  Lemma path_join_nil s : path_join [] s = s.
  Proof. unfold path_join. destruct (startswith s _); reflexivity. Qed.
  Lemma upd_step n pl f o pl' f' : In n hash_files -> usable cwd dir f -> run (upd n) pl f = (o, pl', f') ->
    only_file (at_ n) f f' /\ usable cwd dir f' /\ (o = Done tt -> updated f f' n) /\
    (o <> Done tt -> clean o pl pl' -> look f' (at_ n) = look f (at_ n) \/ ~ is_file f' (at_ n)) /\
    ((forall b, get (url_of n) <> Ok b) -> f' = f).
  Proof.
    intros Hn Hu. rewrite upd_eq, run_bind. destruct (run (ask n) pl f) as [[o1 pl1] f1] eqn:E1. pose proof E1 as E1'. apply ask_run in E1 as [-> H1]; [|exact Hn | exact Hu].
    assert (Triv : forall e : Prop, only_file (at_ n) f f /\ usable cwd dir f /\ (o <> Done tt -> clean o pl pl' -> look f (at_ n) = look f (at_ n) \/ ~ is_file f (at_ n)) /\ ((forall b, get (url_of n) <> Ok b) -> f = f)).
    { intros _. split; [apply only_file_refl|]. split; [exact Hu|]. split; auto. }
    specialize (Triv True). destruct Triv as (T1 & T2 & T3 & T4).
    destruct o1 as [[|]|e|].
    - cbn [run]. intros E. injection E as <- <- <-. split; [exact T1|]. split; [exact T2|]. split; [|auto]. intros _. left. destruct (H1 eq_refl). auto.
    - intros E. pose proof (usable_ready f n Hu Hn) as Hr.
      assert (Ed : run (download cwd [] (hp n) true (get (hash_url n))) pl1 f = (o, pl', f')) by (unfold download, fspath; rewrite path_join_nil; exact E).
      assert (Hr' : ready cwd (fspath [] (hp n)) f) by (unfold fspath; rewrite path_join_nil; exact Hr).
      pose proof Ed as E2. apply download_frame in E2 as [HO HR]; [|exact Hr']. unfold fspath in HO, HR. rewrite path_join_nil in HO, HR. rewrite hp_target in HO by exact Hn.
      split; [exact HO|]. split.
      { destruct Hu as (Hw & Hc & Hl). split; [apply HR|]. split; [apply HR|]. intros m Hm. assert (Hrm : ready cwd (hp m) f) by (apply usable_ready; [repeat split; assumption | exact Hm]).
        rewrite <- hp_target by exact Hm. rewrite <- (hp_target n Hn) in HO. exact (proj1 (proj2 (ready_only cwd (hp n) (hp m) f f' Hr HR HO Hrm))). }
      split.
      { intros ->. right. apply download_success in Ed as (b & Hb & Hl); [|exact Hr' | left; reflexivity]. exists b. split; [exact Hb|]. unfold fspath in Hl. rewrite path_join_nil, hp_target in Hl by exact Hn. exact Hl. }
      split.
      { intros Ho Hc. destruct o as [[]|e|]; [congruence | | destruct Hc]. assert (Hc' : clean (@Raised unit e) pl1 pl') by (exact (clean_suffix (@Raised unit e) (ask n) pl f _ pl1 f pl' E1' Hc)).
        rewrite <- (path_join_nil (hp n)) in E. apply (get_cases cwd [] (hp n)) in E as [(e' & _ & _ & ->)|(data & _ & E)]; [auto|]. right. unfold fspath in E. rewrite path_join_nil in E.
        apply ready_winv in Hr as [Hs Hi]. rewrite <- hp_target by exact Hn.
        apply (wfr_raised cwd (hp n) Hs) in E as [E|(v & x & E)]; [exact E | destruct (Hc' v x E) | exact Hi | intros Q HQ; eapply (safe_weaken _ _ (fun _ => True)); [auto | apply fwrite_safe; exact Hs]]. }
      intros Hg. rewrite <- (path_join_nil (hp n)) in E. apply (get_cases cwd [] (hp n)) in E as [(e' & _ & _ & ->)|(data & Hd & _)]; [reflexivity | destruct (Hg data Hd)].
    - intros E. injection E as <- <- <-. split; [exact T1|]. split; [exact T2|]. split; [discriminate|]. auto.
    - intros E. injection E as <- <- <-. split; [exact T1|]. split; [exact T2|]. split; [discriminate|]. auto.
  Qed.

  (** ** All files *)
  Lemma loop_step : forall l pl f o pl' f', NoDup l -> incl l hash_files -> usable cwd dir f -> run (for_each l upd) pl f = (o, pl', f') ->
    only_files (fun q => exists n, In n l /\ q = at_ n) f f' /\ usable cwd dir f' /\
    (o = Done tt -> forall n, In n l -> updated f f' n) /\
    (o <> Done tt -> exists pre n post, l = pre ++ n :: post /\ (forall m, In m pre -> updated f f' m) /\ (forall m, In m post -> look f' (at_ m) = look f (at_ m)) /\
      (clean o pl pl' -> look f' (at_ n) = look f (at_ n) \/ ~ is_file f' (at_ n))) /\
    ((forall n b, In n l -> get (url_of n) <> Ok b) -> f' = f).
  Proof.
    induction l as [|n l IH]; intros pl f o pl' f' Hnd Hi Hu; cbn [for_each].
    - cbn [run]. intros E. injection E as <- <- <-. split; [intros q; auto|]. split; [exact Hu|]. split; [intros _ n []|]. split; [congruence | auto].
    - rewrite run_bind. destruct (run (upd n) pl f) as [[o1 pl1] f1] eqn:E1. pose proof E1 as E1'. apply NoDup_cons_iff in Hnd as [Hn Hnd].
      assert (Hin : In n hash_files) by (apply Hi; left; reflexivity).
      apply upd_step in E1 as (A1 & A2 & A3 & A4 & A5); [|exact Hin | exact Hu].
      assert (Stop : o1 <> Done tt -> (match o1 with Done a => run (for_each l upd) pl1 f1 | Raised e => (Raised e, pl1, f1) | Crashed => (Crashed, pl1, f1) end) = (o, pl', f') -> o1 = o /\ pl1 = pl' /\ f1 = f').
      { intros Ho E. destruct o1 as [[]|e|]; [congruence | injection E as <- <- <-; auto | injection E as <- <- <-; auto]. }
      intros E. destruct o1 as [[]|e|].
      + apply IH in E as (B1 & B2 & B3 & B4 & B5); [|exact Hnd | intros m Hm; apply Hi; right; exact Hm | exact A2].
        assert (Keep : look f' (at_ n) = look f1 (at_ n)).
        { destruct (B1 (at_ n)) as [K|[(m & Hm & K)|(_ & _ & t & (m & Hm & ->) & (x & k & K))]]; [exact K | injection K as K; subst m; contradiction|].
          exfalso. apply (f_equal (@length _)) in K. unfold place in K. cbn [length] in K. rewrite app_length in K. cbn [length] in K. lia. }
        assert (Un : updated f f' n).
        { destruct (A3 eq_refl) as [(K1 & K2 & K3)|(b & K1 & K2)]; [left; repeat split; [exact K1 | exact K2 | congruence] | right; exists b; split; [exact K1 | congruence]]. }
        assert (Before : forall m, In m l -> look f1 (at_ m) = look f (at_ m)) by (intros m Hm; eapply only_place; [exact A1 | intros ->; contradiction]).
        assert (Um : forall m, In m l -> updated f1 f' m -> updated f f' m).
        { intros m Hm [(K1 & K2 & K3)|(b & K1 & K2)]; [left; rewrite (Before m Hm) in *; auto | right; exists b; auto]. }
        split; [eapply only_files_trans; [eapply only_file_files; [|exact A1]; exists n; split; [left|]; reflexivity | eapply only_files_mono; [|exact B1]; intros q (m & Hm & ->); exists m; split; [right; exact Hm | reflexivity]]|].
        split; [exact B2|]. split; [intros Ho m [<-|Hm]; [exact Un | apply Um; [exact Hm | apply B3; assumption]]|]. split.
        * intros Ho. destruct (B4 Ho) as (pre & k & post & -> & C1 & C2 & C3). exists (n :: pre), k, post. split; [reflexivity|].
          split; [intros m [<-|Hm]; [exact Un | apply Um; [apply in_app_iff; left; exact Hm | apply C1, Hm]]|].
          split; [intros m Hm; rewrite (C2 m Hm); apply Before, in_app_iff; right; right; exact Hm|].
          intros Hc. rewrite <- (Before k) by (apply in_app_iff; right; left; reflexivity). apply C3.
          destruct o as [[]|e|]; [congruence | | exact Hc]. exact (clean_suffix (@Raised unit e) (upd n) pl f _ pl1 f1 pl' E1' Hc).
        * intros Hg. rewrite B5; [apply A5; intros b; apply Hg; left; reflexivity | intros m b Hm; apply Hg; right; exact Hm].
      + destruct (Stop ltac:(discriminate) E) as (<- & <- & <-). split; [eapply only_file_files; [|exact A1]; exists n; split; [left|]; reflexivity|].
        split; [exact A2|]. split; [discriminate|]. split; [|intros Hg; apply A5; intros b; apply Hg; left; reflexivity].
        intros Ho. exists [], n, l. split; [reflexivity|]. split; [intros m []|]. split; [intros m Hm; eapply only_place; [exact A1 | intros ->; contradiction] | apply A4, Ho].
      + destruct (Stop ltac:(discriminate) E) as (<- & <- & <-). split; [eapply only_file_files; [|exact A1]; exists n; split; [left|]; reflexivity|].
        split; [exact A2|]. split; [discriminate|]. split; [|intros Hg; apply A5; intros b; apply Hg; left; reflexivity].
        intros Ho. exists [], n, l. split; [reflexivity|]. split; [intros m []|]. split; [intros m Hm; eapply only_place; [exact A1 | intros ->; contradiction] | apply A4, Ho].
  Qed.
  Lemma names_NoDup : NoDup hash_files.
  Proof. unfold hash_files. repeat (constructor; [cbn [In]; intros H; repeat destruct H as [H|H]; try discriminate H; exact H|]). constructor. Qed.
  Variable src : ppath.
  Notation fetch := (fetch_hashes cwd dir mtime head get src).
  Lemma fetch_bundled pl f : dir = src -> run fetch pl f = (Raised SysExit, pl, f).
  Proof. intros <-. unfold fetch_hashes. rewrite !eqbR. reflexivity. Qed.
  Lemma fetch_other : dir <> src -> fetch = let~ _ := path_mkdir start (rev (pp_parts dir)) in for_each hash_files upd.
  Proof.
    intros Hd. unfold fetch_hashes. destruct (eqbP (pp_root dir) (pp_root src)) as [E1|]; [|reflexivity]. destruct (eqbP (pp_parts dir) (pp_parts src)) as [E2|]; [|reflexivity].
    exfalso. apply Hd. destruct dir, src. cbn in E1, E2. congruence.
  Qed.
  Lemma fetch_step pl f o pl' f' : dir <> src -> usable cwd dir f -> run fetch pl f = (o, pl', f') ->
    only_files (fun q => exists n, In n hash_files /\ q = at_ n) f f' /\ usable cwd dir f' /\
    (o = Done tt -> forall n, In n hash_files -> updated f f' n) /\
    (o <> Done tt -> exists pre n post, hash_files = pre ++ n :: post /\ (forall m, In m pre -> updated f f' m) /\ (forall m, In m post -> look f' (at_ m) = look f (at_ m)) /\
      (clean o pl pl' -> look f' (at_ n) = look f (at_ n) \/ ~ is_file f' (at_ n))) /\
    ((forall n b, In n hash_files -> get (url_of n) <> Ok b) -> adds_dirs D f f').
  Proof.
    intros Hd Hu. rewrite (fetch_other Hd), run_bind. destruct (run (path_mkdir start (rev (pp_parts dir))) pl f) as [[o1 pl1] f1] eqn:E1. pose proof E1 as E1'. apply dir_step in E1 as [A1 A2]; [|exact Hu].
    assert (HO : only_files (fun q => exists n, In n hash_files /\ q = at_ n) f f1).
    { destruct some_file as [n Hn]. apply (only_file_files _ (at_ n)); [exists n; auto | apply adds_dirs_only, A1]. }
    assert (Stop : o1 <> Done tt -> (match o1 with Done a => run (for_each hash_files upd) pl1 f1 | Raised e => (Raised e, pl1, f1) | Crashed => (Crashed, pl1, f1) end) = (o, pl', f') -> o1 = o /\ pl1 = pl' /\ f1 = f').
    { intros Ho E. destruct o1 as [[]|e|]; [congruence | injection E as <- <- <-; auto | injection E as <- <- <-; auto]. }
    assert (Q : f1 = f' -> exists pre n post, hash_files = pre ++ n :: post /\ (forall m, In m pre -> updated f f' m) /\ (forall m, In m post -> look f' (at_ m) = look f (at_ m)) /\ (clean o pl pl' -> look f' (at_ n) = look f (at_ n) \/ ~ is_file f' (at_ n))).
    { intros <-. eexists [], _, _. split; [reflexivity|]. split; [intros m []|]. split; [intros m _; apply adds_place, A1 | left; apply adds_place, A1]. }
    intros E. destruct o1 as [[]|e|].
    - apply loop_step in E as (B1 & B2 & B3 & B4 & B5); [|apply names_NoDup | apply incl_refl | exact A2].
      assert (Um : forall m, updated f1 f' m -> updated f f' m).
      { intros m [(K1 & K2 & K3)|(b & K1 & K2)]; [left; rewrite (adds_place f f1 m A1) in *; auto | right; exists b; auto]. }
      split; [eapply only_files_trans; eassumption|]. split; [exact B2|]. split; [intros Ho n Hn; apply Um, B3; assumption|]. split.
      + intros Ho. destruct (B4 Ho) as (pre & k & post & El & C1 & C2 & C3). exists pre, k, post. split; [exact El|]. split; [intros m Hm; apply Um, C1, Hm|].
        split; [intros m Hm; rewrite (C2 m Hm); apply adds_place, A1|]. intros Hc. rewrite <- (adds_place f f1 k A1). apply C3.
        destruct o as [[]|e|]; [congruence | | exact Hc]. exact (clean_suffix (@Raised unit e) _ pl f _ pl1 f1 pl' E1' Hc).
      + intros Hg. rewrite (B5 Hg). exact A1.
    - destruct (Stop ltac:(discriminate) E) as (<- & <- & <-). split; [exact HO|]. split; [exact A2|]. split; [discriminate|]. split; [auto|]. intros _. exact A1.
    - destruct (Stop ltac:(discriminate) E) as (<- & <- & <-). split; [exact HO|]. split; [exact A2|]. split; [discriminate|]. split; [auto|]. intros _. exact A1.
  Qed.

  (** ** Nothing to do *)
  Lemma mkdir_exists f r : usable cwd dir f -> below D (r ++ start) -> ~ In dotdot r -> look f (r ++ start) = Some NDir -> run (path_mkdir start r) [] f = (Done tt, [], f).
  Proof.
    intros Hu Hb Hd Hl. assert (Ha : forall fo, at_loc f fo (start, rev r) = Ok (r ++ start)).
    { intros fo. unfold at_loc. cbn [fst snd]. apply resolve_plain; [|rewrite <- in_rev; exact Hd|].
      - rewrite rev_involutive. eapply nolink_anc; [apply usable_minv, Hu | exact Hb].
      - rewrite rev_involutive. split; [reflexivity|]. apply wf_dirs_to; [apply Hu | rewrite rev_involutive; congruence]. }
    assert (E : create_at NDir (start, rev r) f = Err (OSError EEXIST)) by (unfold create_at; rewrite Ha; cbn [rbind]; rewrite Hl; reflexivity).
    assert (K : run (mkdir_at start r) [] f = (Raised (OSError EEXIST), [], f)) by (unfold mkdir_at, sys, sys_part; cbn [run]; repeat match goal with |- context [create_at NDir ?l ?g] => replace (create_at NDir l g) with (@Err (unit * fs) (OSError EEXIST)) by (symmetry; exact E) end; reflexivity).
    assert (K2 : run (dir_exists_ok start r (OSError EEXIST)) [] f = (Done tt, [], f)).
    { unfold dir_exists_ok. cbn [is_oserror]. rewrite run_bind. unfold query. cbn [run]. unfold loc_isdir. rewrite Ha. cbn [node_of]. rewrite Hl. reflexivity. }
    destruct r; cbn [path_mkdir]; rewrite run_catch, K; exact K2.
  Qed.
  Lemma upd_current n f : In n hash_files -> usable cwd dir f -> look f (at_ n) <> None -> cur n -> run (upd n) [] f = (Done tt, [], f).
  Proof.
    intros Hn Hu Hl (h & t & Eh & Et & Hle). rewrite upd_eq, run_bind. assert (run (ask n) [] f = (Done true, [], f)) as ->; [|reflexivity].
    unfold ask. rewrite run_catch, run_bind. pose proof (usable_ready f n Hu Hn) as Hr. apply ready_winv in Hr as [Hs Hi].
    assert (run (stat cwd (hp n)) [] f = (Done tt, [], f)) as ->.
    { unfold stat, sys, sys_part. cbn [run]. rewrite (locate_ok cwd (hp n) Hs f true Hi) by (rewrite hp_target by exact Hn; exact Hl). cbn [rbind]. rewrite hp_target by exact Hn. destruct (look f (at_ n)); [reflexivity | congruence]. }
    rewrite run_bind, run_lift. change (hash_url n) with (url_of n). rewrite Eh, run_bind, run_lift, Et. cbn [run]. apply Qle_bool_iff in Hle. rewrite Hle. reflexivity.
  Qed.
  Lemma fetch_current f : dir <> src -> usable cwd dir f -> (forall n, In n hash_files -> look f (at_ n) <> None /\ cur n) -> run fetch [] f = (Done tt, [], f).
  Proof.
    intros Hd Hu Hc. rewrite (fetch_other Hd), run_bind. destruct some_file as [n0 Hn0]. destruct (Hc n0 Hn0) as [Hl _].
    rewrite mkdir_exists; [|exact Hu | unfold dir_place; rewrite <- start_eq; exists []; reflexivity | apply dir_dots|].
    2:{ rewrite start_eq. apply (proj1 Hu n0). exact Hl. }
    assert (L : forall l, incl l hash_files -> run (for_each l upd) [] f = (Done tt, [], f)); [|apply L, incl_refl].
    induction l as [|n l IH]; intros Hi; [reflexivity|]. cbn [for_each]. destruct (Hc n) as [H1 H2]; [apply Hi; left; reflexivity|].
    rewrite run_bind, upd_current by (auto; apply Hi; left; reflexivity). apply IH. intros m Hm. apply Hi. right. exact Hm.
  Qed.
End Fetch.

(** ** Concrete filesystems *)
Lemma wf_by (f : fs) : forallb (fun kv => match fst kv with [] => true | _ :: p => match look f p with Some NDir => true | _ => false end end) f = true -> fs_wf f.
Proof.
  intros H x p Hl. change (dget ((x :: p) : path) f <> None) in Hl. destruct (dget ((x :: p) : path) f) as [n|] eqn:E; [|destruct (Hl eq_refl)]. apply dget_Some_In in E. rewrite forallb_forall in H. apply H in E. cbn [fst] in E.
  destruct (look f p) as [[| |]|]; [discriminate | reflexivity | discriminate | discriminate].
Qed.
Lemma nolink_by (f : fs) p : forallb (fun kv => match snd kv with NLink _ => false | _ => true end) f = true -> nolink f p.
Proof.
  intros H q t _ E. destruct q as [|x q]; [discriminate|]. cbn [look] in E. apply dget_Some_In in E. rewrite forallb_forall in H. apply H in E. discriminate.
Qed.
