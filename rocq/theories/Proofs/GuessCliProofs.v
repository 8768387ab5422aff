(** * Proofs about the command which guesses hashes *)

From Verif Require Import Base.PyFacts Base.TextFacts Base.Fs Base.FsFacts Base.Utf8 Model.Files Model.Wad Model.Hashes Model.FetchHashes Model.Storage Model.Component Model.Cli Model.Components Model.WadCli
  Model.Guess Model.GuessPaths Model.GuessChars Model.Releases Model.Grep Model.GrepLcu Model.GuessCli
  Spec.FsSpec Spec.HashesSpec Spec.PatchCacheSpec Spec.WadCliSpec Spec.GuessCliSpec
  Proofs.HashesProofs Proofs.GuessProofs Proofs.SymlinksProofs Proofs.PatchCacheProofs Proofs.WadCliProofs.

(** ** Names of methods *)

Lemma names_ok methods names : method_names methods = Ok names <-> requested methods names /\ incl names methods_known.
Proof.
  unfold method_names. split.
  - destruct (truthy methods) as [s|] eqn:Et.
    + destruct (forallb _ _) eqn:Ef; [|discriminate]. intros E. injection E as <-. destruct methods as [[|c s']|]; cbn [truthy] in Et; try discriminate. injection Et as <-.
      split.
      * rewrite <- (join_split 44 (c :: s')) at 1. apply rq_some.
        -- rewrite join_split. discriminate.
        -- apply split_ch_pieces.
        -- apply split_ch_nonempty.
        -- clear Ef. induction (split_ch 44 (c :: s')) as [|p l IH]; cbn [map]; [constructor|]. constructor; [apply stripped_ok; reflexivity | exact IH].
      * intros n Hn. rewrite forallb_forall in Ef. apply mem_In. exact (Ef n Hn).
    + intros E. injection E as <-. split; [|intros n Hn; vm_compute in Hn |- *; tauto].
      apply (rq_none methods). destruct methods as [[|c s]|]; auto; discriminate.
  - intros [[o Ho|parts names' Hne Hc Hp Hs] Hi].
    + destruct Ho as [-> | ->]; reflexivity.
    + destruct (join [44] parts) as [|c s] eqn:Ej; [contradiction|]. cbn [truthy]. rewrite <- Ej. rewrite split_join; [|exact Hp | exact Hc].
      assert (map (strip is_space) parts = names') as -> by (clear -Hs; induction Hs as [|p n l l' Hpn _ IH]; [reflexivity|]; cbn [map]; f_equal; [apply stripped_ok; exact Hpn | exact IH]).
      rewrite (proj2 (forallb_forall _ _)); [reflexivity|]. intros n Hn. apply mem_In. apply Hi. exact Hn.
Qed.

(** ** Methods only find correct paths *)

Definition sound (H : str -> Z) (m : method) : Prop := forall g, guesser_ok g -> grows H (fun _ => True) g (fst (m g)).
Section Sound.
  Variable H : str -> Z.
  Variable other : str -> list parg -> result str.
  Lemma gen_sound (l : guesser -> list (result str)) : sound H (fun g => check_gen H (l g) g).
  Proof. intros g Hg. eapply grows_weaken; [|apply check_gen_grows; exact Hg]. auto. Qed.
  Lemma all_sound (l : guesser -> list str) : sound H (fun g => (check_all H (l g) g, Ok tt)).
  Proof. intros g Hg. cbn [fst]. eapply grows_weaken; [|apply check_all_grows; exact Hg]. auto. Qed.
  Lemma fold_sound {A} (l : list A) (k : A -> list str) : forall g, guesser_ok g -> grows H (fun _ => True) g (fold_left (fun g x => check_all H (k x) g) l g).
  Proof.
    induction l as [|x l IH]; intros g Hg; cbn [fold_left]; [apply grows_refl; exact Hg|].
    pose proof (all_sound (fun _ => k x) g Hg) as H1. cbn [fst] in H1. eapply grows_trans; [exact H1|]. apply IH. exact (grows_ok _ _ _ _ H1).
  Qed.
  Lemma op_sound o : sound H (fun g => (run_op H o g, Ok tt)).
  Proof. intros g Hg. apply run_op_grows. exact Hg. Qed.
  Lemma gen_grows l g : guesser_ok g -> grows H (fun _ => True) g (fst (check_gen H l g)).
  Proof. intros Hg. exact (gen_sound (fun _ => l) g Hg). Qed.
  Lemma client_sound : Forall (fun m => sound H (snd m)) (lcu_methods H other).
  Proof.
    unfold lcu_methods. apply Forall_forall. intros m Hm. cbn [In] in Hm. destruct Hm as [<-|[<-|[<-|[<-|[<-|[<-|[]]]]]]]; cbn [snd]; intros g Hg.
    - unfold lcu_substitute_numbers, substitute_numbers_in, check_formats. apply gen_grows. exact Hg.
    - exact (op_sound OpSubstituteBasenames g Hg).
    - unfold lcu_substitute_words, substitute_words_in, check_formats. cbn [Nat.eqb orb nonempty_text]. apply gen_grows. exact Hg.
    - exact (op_sound OpSubstituteExtensions g Hg).
    - unfold total. cbn [fst]. unfold substitute_region_lang. apply fold_sound. exact Hg.
    - unfold substitute_plugin, check_formats. apply gen_grows. exact Hg.
  Qed.
  Lemma game_sound order : Forall (fun m => sound H (snd m)) (game_methods H other order).
  Proof.
    unfold game_methods. apply Forall_forall. intros m Hm. cbn [In] in Hm. destruct Hm as [<-|[<-|[<-|[<-|[<-|[<-|[<-|[]]]]]]]]; cbn [snd]; intros g Hg.
    - unfold game_substitute_numbers, substitute_numbers_in, check_formats. apply gen_grows. exact Hg.
    - exact (op_sound OpSubstituteBasenames g Hg).
    - unfold game_substitute_words, substitute_words_in, check_formats. cbn [Nat.eqb orb]. apply gen_grows. exact Hg.
    - exact (op_sound OpSubstituteExtensions g Hg).
    - unfold substitute_skin_numbers. apply gen_grows. exact Hg.
    - unfold total. cbn [fst]. unfold substitute_character. apply fold_sound. exact Hg.
    - unfold total. cbn [fst]. unfold check_basename_prefixes. exact (all_sound (fun _ => _) g Hg).
  Qed.
  Lemma grep_lcu_sound word ulower loads show es : sound H (grep_lcu word ulower loads show H es).
  Proof.
    intros g Hg. unfold grep_lcu. destruct (check_gen H _ g) as [g1 r] eqn:E. match type of E with check_gen H ?l g = _ => pose proof (gen_grows l g Hg) as H1 end. rewrite E in H1. cbn [fst] in H1.
    destruct r as [[]|x]; cbn [fst]; [|exact H1]. eapply grows_trans; [exact H1|]. exact (op_sound (OpCheckBasenames _) g1 (grows_ok _ _ _ _ H1)).
  Qed.
  Lemma grep_game_sound es : sound H (Grep.grep_wad H other es).
  Proof. exact (gen_sound (fun _ => _)). Qed.
End Sound.

(** ** Execution *)

Section P.
  Variable gunzip unzstd : bytes -> result bytes.
  Variable xxh3 : bytes -> N.
  Variable json_loads : bytes -> result unit.
  Variable cwd : path.
  Variable dir : ppath.
  Variable H : str -> Z.
  Variable other : str -> list parg -> result str.
  Variable word : N -> bool.
  Variable ulower : str -> str.
  Variable loads : str -> result (option json).
  Variable show : json -> str.
  Variable order : list str -> list str.
  Variable enc : str -> bytes.
  Variable listing : bool -> list element.
  Variable fspaths : element -> printed.
  Notation open_at := (open_at gunzip unzstd xxh3 cwd dir).
  Notation archive_at := (archive_at gunzip unzstd xxh3 cwd dir).
  Notation element_wads := (element_wads gunzip unzstd xxh3 cwd dir fspaths).
  Notation arg_wads := (arg_wads gunzip unzstd xxh3 cwd dir listing fspaths).
  Notation arg_archives := (arg_archives gunzip unzstd xxh3 cwd dir listing fspaths).
  Notation element_archives := (element_archives gunzip unzstd xxh3 cwd dir fspaths).
  Notation archives := (archives gunzip unzstd xxh3 cwd dir listing fspaths).
  Notation load_hashes := (load_hashes cwd dir).
  Notation save_hashes := (save_hashes cwd dir enc).
  Notation table_at := (table_at cwd dir).
  Notation written := (written cwd dir).
  Notation guess_part := (guess_part gunzip unzstd xxh3 json_loads cwd dir enc).
  Notation part_done := (part_done gunzip unzstd xxh3 json_loads cwd dir enc).
  Notation maybe_saved := (maybe_saved cwd dir H enc).
  Notation guessed := (guessed gunzip unzstd xxh3 json_loads).
  Notation searched := (searched gunzip unzstd xxh3 json_loads).
  Notation grep_all := (grep_all gunzip unzstd xxh3 json_loads).
  Notation command := (command_hashes_guess gunzip unzstd xxh3 json_loads cwd dir H other word ulower loads show order enc listing fspaths).

  (** *** Archives *)
  Lemma open_fs s pl f o pl' f' : run (open_at s) pl f = (o, pl', f') -> f' = f.
  Proof.
    unfold GuessCli.open_at. rewrite run_bind. destruct (run _ pl f) as [[[[data w]|e|] pl1] f1] eqn:E; apply load_fs in E; subst f1; cbn [run]; intros E; congruence.
  Qed.
  Lemma open_done s pl f l pl' f' : run (open_at s) pl f = (Done l, pl', f') -> exists w, l = [w] /\ archive_at f s w.
  Proof.
    unfold GuessCli.open_at. intros E. apply done_bind in E as ([data w] & pl1 & f1 & E1 & E). apply load_done in E1 as [-> Ho]. cbn [run] in E. injection E as <- _ _.
    eexists. split; [reflexivity|]. constructor. exact Ho.
  Qed.
  Lemma gather_fs {A B} (l : list A) (body : A -> prog (list B)) : (forall x pl f o pl' f', In x l -> run (body x) pl f = (o, pl', f') -> f' = f) ->
    forall pl f o pl' f', run (gather l body) pl f = (o, pl', f') -> f' = f.
  Proof.
    intros Hb. induction l as [|x t IH]; intros pl f o pl' f' E; cbn [gather run] in E; [congruence|]. rewrite run_bind in E.
    destruct (run (body x) pl f) as [[[a|e|] pl1] f1] eqn:E1; apply Hb in E1; try (left; reflexivity); subst f1; [|congruence..].
    rewrite run_bind in E. destruct (run (gather t body) pl1 f) as [[[b|e|] pl2] f2] eqn:E2; apply IH in E2; try (intros; eapply Hb; [right; eassumption | eassumption]); subst f2; cbn [run] in E; congruence.
  Qed.
  Lemma gather_done {A B} (body : A -> prog (list B)) (R : fs -> A -> list B -> Prop) l :
    (forall x pl f a pl' f', In x l -> run (body x) pl f = (Done a, pl', f') -> f' = f /\ R f x a) ->
    forall pl f b pl' f', run (gather l body) pl f = (Done b, pl', f') -> f' = f /\ exists bs, Forall2 (R f) l bs /\ b = concat bs.
  Proof.
    intros Hb. induction l as [|x t IH]; intros pl f b pl' f' E; cbn [gather] in E; [cbn [run] in E; injection E as <- _ <-; split; [reflexivity|]; exists []; split; [constructor | reflexivity]|].
    apply done_bind in E as (a & pl1 & f1 & E1 & E). apply Hb in E1 as [-> Ha]; [|left; reflexivity]. apply done_bind in E as (c & pl2 & f2 & E2 & E).
    apply IH in E2 as [-> (bs & Hbs & ->)]; [|intros; eapply Hb; [right; eassumption | eassumption]]. cbn [run] in E. injection E as <- _ <-.
    split; [reflexivity|]. exists (a :: bs). split; [constructor; assumption | reflexivity].
  Qed.
  Lemma is_wad_iff p : is_wad p = true <-> archive_name p.
  Proof.
    unfold is_wad, archive_name. rewrite orb_true_iff, !endswith_iff. split; [intros [[a ->]|[a ->]]; eauto | intros [a [-> | ->]]; eauto].
  Qed.
  Lemma element_fs e pl f o pl' f' : run (element_wads e) pl f = (o, pl', f') -> f' = f.
  Proof.
    unfold GuessCli.element_wads. rewrite run_bind. destruct (run (gather _ _) pl f) as [[[l|x|] pl1] f1] eqn:E; apply gather_fs in E; try (intros; eapply open_fs; eassumption); subst f1; intros E; try congruence.
    destruct (snd (fspaths e)); cbn [run] in E; congruence.
  Qed.
  Lemma element_done e pl f l pl' f' : run (element_wads e) pl f = (Done l, pl', f') -> f' = f /\ element_archives f e l.
  Proof.
    intros E. pose proof (element_fs _ _ _ _ _ _ E) as ->. split; [reflexivity|]. unfold GuessCli.element_wads in E. apply done_bind in E as (ws & pl1 & f1 & E1 & E).
    apply (gather_done _ (fun f x l => exists w, l = [w] /\ archive_at f x w)) in E1.
    2:{ intros x q f0 a q' f0' _ E0. split; [eapply open_fs; exact E0 | eapply open_done; exact E0]. }
    destruct E1 as [-> (bs & Hbs & ->)]. destruct (fspaths e) as [ps [x|]] eqn:Ef; cbn [fst snd run] in E, Hbs; [discriminate|]. injection E as <- _.
    exists ps, (filter is_wad ps). split; [exact Ef|]. split; [apply kept_filter; intros x; apply is_wad_iff|].
    clear -Hbs. induction Hbs as [|x b l bs (w & -> & Hw) _ IH]; cbn [concat app]; constructor; assumption.
  Qed.
  Lemma arg_fs a pl f o pl' f' : run (arg_wads a) pl f = (o, pl', f') -> f' = f.
  Proof.
    unfold GuessCli.arg_wads. destruct (parse_component listing a) as [[[p|]|[e|]]|x]; cbn [run]; try (intros E; congruence).
    - apply gather_fs. intros; eapply element_fs; eassumption.
    - destruct x; try (cbn [run]; intros E; congruence). apply open_fs.
  Qed.
  Lemma arg_done a pl f l pl' f' : run (arg_wads a) pl f = (Done l, pl', f') -> f' = f /\ arg_archives f a l.
  Proof.
    intros E. pose proof (arg_fs _ _ _ _ _ _ E) as ->. split; [reflexivity|]. unfold GuessCli.arg_wads in E.
    destruct (parse_component listing a) as [[[p|]|[e|]]|x] eqn:Ep; cbn [run] in E.
    - apply (gather_done _ element_archives) in E as [_ (bs & Hbs & ->)]; [|intros; eapply element_done; eassumption]. eapply ga_patch; eassumption.
    - injection E as <- _. apply ga_missing. auto.
    - discriminate.
    - injection E as <- _. apply ga_missing. auto.
    - destruct x; try discriminate. apply open_done in E as (w & -> & Hw). apply ga_file; assumption.
  Qed.
  Lemma args_fs args pl f o pl' f' : run (gather args arg_wads) pl f = (o, pl', f') -> f' = f.
  Proof. apply gather_fs. intros; eapply arg_fs; eassumption. Qed.
  Lemma args_done args pl f ws pl' f' : run (gather args arg_wads) pl f = (Done ws, pl', f') -> f' = f /\ archives f args ws.
  Proof. intros E. apply (gather_done _ arg_archives) in E; [|intros; eapply arg_done; eassumption]. exact E. Qed.

  (** *** Methods *)
  Lemma grep_all_ok grep ws : forall c g c' g', grep_all grep ws c g = (c', (g', Ok tt)) <-> searched grep ws c g c' g'.
  Proof.
    induction ws as [|w t IH]; intros c g c' g'; cbn [GuessCli.grep_all].
    - split; [intros E; injection E as <- <-; constructor | intros E; inversion E; reflexivity].
    - split.
      + destruct (guess_extensions _ _ _ _ _ _ _ _) as [[c1 files]|] eqn:Ee; [|discriminate]. unfold wad_entries. destruct (grep _ g) as [g1 [[]|]] eqn:Eg; [|discriminate].
        intros E. apply IH in E. eapply se_cons; eassumption.
      + intros E. inversion E as [|? ? ? ? ? ? ? ? ? Ee Eg Es]; subst. rewrite Ee. unfold wad_entries. rewrite Eg. apply IH. exact Es.
  Qed.
  Lemma grep_all_sound grep ws : (forall es, sound H (grep es)) -> forall c g, guesser_ok g -> grows H (fun _ => True) g (fst (snd (grep_all grep ws c g))).
  Proof.
    intros Hs. induction ws as [|w t IH]; intros c g Hg; cbn [GuessCli.grep_all]; [apply grows_refl; exact Hg|].
    destruct (guess_extensions _ _ _ _ _ _ _ _) as [[c1 files]|]; cbn [fst snd]; [|apply grows_refl; exact Hg].
    pose proof (Hs (wad_entries gunzip unzstd xxh3 w files) g Hg) as H1. destruct (grep _ g) as [g1 [[]|]]; cbn [fst snd] in *; [|exact H1].
    eapply grows_trans; [exact H1|]. apply IH. exact (grows_ok _ _ _ _ H1).
  Qed.
  Lemma run_methods_ok names ms : forall g g', run_methods names ms g = (g', Ok tt) <-> exists l, kept (fun m => In (fst m) names) ms l /\ passes (map snd l) g g'.
  Proof.
    induction ms as [|[n m] t IH]; intros g g'; cbn [run_methods].
    - split; [intros E; injection E as <-; exists []; split; constructor|]. intros (l & Hk & Hp). inversion Hk; subst. inversion Hp; reflexivity.
    - destruct (mem n names) eqn:Em.
      + apply mem_In in Em. split.
        * destruct (m g) as [g1 [[]|]] eqn:E1; [|discriminate]. intros E. apply IH in E as (l & Hk & Hp). exists ((n, m) :: l). split; [constructor; assumption|]. econstructor; eassumption.
        * intros (l & Hk & Hp). inversion Hk as [|? ? l' Hy Hk'|? ? ? Hn Hk']; subst; [|contradiction]. cbn [map snd] in Hp. inversion Hp as [|? ? ? g1 ? E1 Hp']; subst. rewrite E1. apply IH. eauto.
      + apply mem_false in Em. split.
        * intros E. apply IH in E as (l & Hk & Hp). exists l. split; [constructor; assumption | exact Hp].
        * intros (l & Hk & Hp). inversion Hk as [|? ? l' Hy Hk'|? ? ? Hn Hk']; subst; [contradiction|]. apply IH. eauto.
  Qed.
  Lemma run_methods_sound names ms : Forall (fun m => sound H (snd m)) ms -> forall g, guesser_ok g -> grows H (fun _ => True) g (fst (run_methods names ms g)).
  Proof.
    intros Hs. induction Hs as [|[n m] t Hm _ IH]; intros g Hg; cbn [run_methods]; [apply grows_refl; exact Hg|].
    destruct (mem n names); [|apply IH; exact Hg]. specialize (Hm g Hg). cbn [snd] in Hm. destruct (m g) as [g1 [[]|]]; cbn [fst] in *; [|exact Hm].
    eapply grows_trans; [exact Hm|]. apply IH. exact (grows_ok _ _ _ _ Hm).
  Qed.

  (** *** Tables *)
  Definition table_names : list str := [lit "hashes.lcu.txt"; lit "hashes.game.txt"].
  Lemma load_hashes_fs n pl f o pl' f' : run (load_hashes n) pl f = (o, pl', f') -> f' = f.
  Proof.
    unfold GuessCli.load_hashes. rewrite run_bind. destruct (run _ pl f) as [[[b|e|] pl1] f1] eqn:E; apply read_fs in E; subst f1; [|intros E; congruence..].
    rewrite lift_fs. intros E. congruence.
  Qed.
  Lemma load_hashes_done n pl f d pl' f' : In n table_names -> run (load_hashes n) pl f = (Done d, pl', f') -> table_at f n d.
  Proof.
    intros Hn E. unfold GuessCli.load_hashes in E. rewrite dir_file_ok in E by exact Hn. apply done_bind in E as (b & pl1 & f1 & E1 & E). apply read_done in E1 as [-> Hb]. rewrite lift_fs in E.
    destruct (utf8_dec b) as [text|] eqn:Eu; cbn [rbind] in E; [|discriminate]. destruct (parse_hashes text) as [d'|] eqn:Ep; [|discriminate]. injection E as -> _ _.
    exists b, text. auto.
  Qed.
  Lemma table_NoDup f n d : table_at f n d -> NoDup (dkeys d).
  Proof.
    intros (data & text & _ & _ & Ep). unfold parse_hashes in Ep. apply rbind_Ok in Ep as (l & _ & E). injection E as <-. apply dict_of_NoDup.
  Qed.

  Lemma save_text d : exists text, saved_text d text.
  Proof. eexists. reflexivity. Qed.
  Lemma file_nonempty (f : fs) p b : look f p = Some (NFile b) -> p <> [].
  Proof. intros E ->. discriminate. Qed.
  Lemma written_part f n p b x y f0 : content_at cwd f (dir_file dir n) p b -> look f0 p = Some (NFile x) -> (forall q, q <> p -> look f0 q = look f q) ->
    written f n (x ++ y) (f_append p y f0).
  Proof.
    intros Hc Hx Ho. pose proof (file_nonempty _ _ _ Hx) as Hp. exists p, b. split; [exact Hc|]. unfold f_append. rewrite Hx. split.
    - rewrite look_put_same by exact Hp. reflexivity.
    - intros q Hq. rewrite look_put_other by congruence. apply Ho. exact Hq.
  Qed.
  Lemma fclose_run pl f o pl' f' : run fclose pl f = (o, pl', f') -> f' = f /\ (failures pl = 0%nat -> o = Done tt).
  Proof.
    unfold fclose, sys, sys_part. cbn [run]. destruct pl as [|[[e n|n]|] pl]; cbn [run failures]; intros E; injection E as <- _ <-; split; try reflexivity; discriminate.
  Qed.
  Lemma save_run n d text pl f p b o pl' f' : In n table_names -> content_at cwd f (dir_file dir n) p b -> saved_text d text ->
    run (save_hashes n d) pl f = (o, pl', f') ->
    (failures pl = 0%nat -> o = Done tt) /\ (o = Done tt -> written f n (enc text) f') /\
    (f' = f \/ exists k, written f n (takeN k (enc text)) f' /\ (failures pl = 0%nat -> takeN k (enc text) = enc text)).
  Proof.
    intros Hn Hc Ht E. unfold GuessCli.save_hashes in E. rewrite dir_file_ok in E by exact Hn. rewrite run_bind in E. destruct Hc as [Hl Hf]. pose proof (file_nonempty _ _ _ Hf) as Hp.
    assert (Hopen : f_open_w cwd (dir_file dir n) f = Ok (p, put p (NFile []) f)) by (unfold f_open_w; rewrite Hl; cbn [rbind]; rewrite Hf; reflexivity).
    unfold saved_text in Ht.
    set (f1 := put p (NFile []) f) in *.
    assert (H1 : look f1 p = Some (NFile [])) by (apply look_put_same; exact Hp).
    assert (H2 : forall q, q <> p -> look f1 q = look f q) by (intros q Hq; apply look_put_other; congruence).
    assert (HW : forall y, written f n y (f_append p y f1)) by (intros y; apply (written_part f n p b [] y f1); [split; assumption | exact H1 | exact H2]).
    assert (HW0 : written f n [] f1) by (exists p, b; split; [split; assumption | auto]).
    assert (Hin : forall q g o q' g', run (with_close (let~ text0 := lift (hf_save {| hf_size := 16; hf_hashes := Some d |}) in fwrite p (enc text0))) q f1 = (o, q', g') -> g = f1 ->
      (failures q = 0%nat -> o = Done tt) /\ (o = Done tt -> written f n (enc text) g') /\
      (exists k, written f n (takeN k (enc text)) g' /\ (failures q = 0%nat -> takeN k (enc text) = enc text))).
    { clear E. intros q g o0 q' g' E _. unfold with_close in E. rewrite run_bind, run_catch, run_bind, lift_fs, Ht in E. unfold fwrite, sys_part in E.
      assert (Hall : takeN (lenN (enc text)) (enc text) = enc text) by (apply takeN_all; lia).
      destruct q as [|[[e m|m]|] q]; cbn [run] in E.
      - rewrite run_bind in E. destruct (run fclose [] _) as [[o1 q1] f2] eqn:Ec. apply fclose_run in Ec as [-> Ho]. rewrite (Ho eq_refl) in E. cbn [run] in E. injection E as <- _ <-.
        split; [reflexivity|]. split; [intros _; apply HW|]. exists (lenN (enc text)). rewrite Hall. split; [apply HW | reflexivity].
      - rewrite run_bind in E. destruct (run fclose q _) as [[o1 q1] f2] eqn:Ec. apply fclose_run in Ec as [-> _]. assert (g' = f_append p (takeN m (enc text)) f1 /\ o0 <> Done tt) as [-> Ho] by (destruct o1; cbn [run] in E; injection E as <- _ <-; split; congruence).
        cbn [failures]. split; [discriminate|]. split; [contradiction|]. exists m. split; [apply HW | discriminate].
      - injection E as <- _ <-. cbn [failures]. split; [discriminate|]. split; [discriminate|]. exists m. split; [apply HW | discriminate].
      - rewrite run_bind in E. destruct (run fclose q _) as [[o1 q1] f2] eqn:Ec. apply fclose_run in Ec as [-> Ho]. assert (g' = f_append p (enc text) f1 /\ o0 = o1) as [-> ->] by (destruct o1 as [[]| |]; cbn [run] in E; injection E as <- _ <-; split; congruence).
        cbn [failures]. split; [exact Ho|]. split; [intros _; apply HW|]. exists (lenN (enc text)). rewrite Hall. split; [apply HW | reflexivity]. }
    unfold open_w, sys, sys_part in E. destruct pl as [|[[e m|m]|] pl]; cbn [run failures] in *; rewrite ?Hopen in E; cbn [run] in E.
    - destruct (Hin _ f1 _ _ _ E eq_refl) as (A & B & C). split; [exact A|]. split; [exact B|]. right. exact C.
    - injection E as <- _ <-. split; [discriminate|]. split; [discriminate|]. left. reflexivity.
    - injection E as <- _ <-. split; [discriminate|]. split; [discriminate|]. left. reflexivity.
    - destruct (Hin _ f1 _ _ _ E eq_refl) as (A & B & C). split; [exact A|]. split; [exact B|]. right. exact C.
  Qed.

  (** *** Parts *)
  Definition hashes_of (ws : list gwad) : list Z := flat_map (fun w => map (fun e => Z.of_N (w_hash e)) (gw_files w)) ws.
  Lemma hash_in_iff ws h : In h (hashes_of ws) <-> hash_in ws h.
  Proof.
    unfold hashes_of, hash_in. rewrite in_flat_map. split.
    - intros (w & Hw & Hh). apply in_map_iff in Hh as (e & <- & He). eauto 6.
    - intros (w & e & Hw & He & ->). exists w. split; [exact Hw|]. apply in_map_iff. eauto.
  Qed.
  Lemma init_ok d ws : NoDup (dkeys d) -> guesser_ok (guesser_init d (hashes_of ws)) /\ starting d ws (guesser_init d (hashes_of ws)).
  Proof.
    intros Hd.
    assert (Hu : forall h, In h (g_unknown (guesser_init d (hashes_of ws))) <-> hash_in ws h /\ dget h d = None).
    { intros h. unfold guesser_init. cbn [g_unknown]. rewrite filter_In, set_of_In, hash_in_iff. unfold dhas. destruct (dget h d); cbn [negb]; intuition congruence. }
    assert (Hn : NoDup (g_unknown (guesser_init d (hashes_of ws)))) by (unfold guesser_init; cbn [g_unknown]; apply NoDup_filter, set_of_NoDup).
    split.
    - split; [exact Hd|]. split; [exact Hn|]. intros h Hh. apply Hu in Hh. apply Hh.
    - split; [reflexivity|]. split; [reflexivity|]. split; [exact Hn | exact Hu].
  Qed.
  Lemma found_iff (g g' : guesser) : guesser_ok g -> grows H (fun _ => True) g g' ->
    (Nat.eqb (length (g_unknown g) - length (g_unknown g')) 0 = true <-> forall h, In h (g_unknown g) -> dget h (g_known g') = None).
  Proof.
    intros (_ & Hn & _) ((_ & Hn' & _) & _ & _ & Hu & _). rewrite Nat.eqb_eq. split.
    - intros E h Hh. apply Hu. apply (NoDup_length_incl (l' := g_unknown g) Hn'); [lia | intros x Hx; apply Hu, Hx | exact Hh].
    - intros Ha. assert (length (g_unknown g) <= length (g_unknown g'))%nat; [|lia]. apply NoDup_incl_length; [exact Hn|]. intros h Hh. apply Hu. auto.
  Qed.
  Lemma starting_found d ws (g g' : guesser) : starting d ws g -> grows H (fun _ => True) g g' -> found_more H ws d (g_known g').
  Proof.
    intros (Ek & _ & _ & Hu) (_ & Hk & Hnew & _). rewrite <- Ek. split; [exact Hk|]. intros h p E1 E2. destruct (Hnew h p E1 E2) as (E & Hi & _). split; [exact E|]. apply Hu in Hi. apply Hi.
  Qed.
  Lemma part_run (pt : part) names dry ws c pl f o pl' f' : In (pt_file pt) table_names -> (forall es, sound H (pt_grep pt es)) -> Forall (fun m => sound H (snd m)) (pt_methods pt) ->
    run (guess_part (pt_file pt) (pt_suffix pt) (pt_grep pt) (pt_methods pt) names dry ws c) pl f = (o, pl', f') ->
    maybe_saved (failures pl = 0%nat) pt dry ws f f' /\ (forall c', o = Done c' -> part_done pt names dry ws f c f' c') /\ (f' <> f -> failures pl = 0%nat -> exists c', o = Done c').
  Proof.
    intros Hn Hg Hm E. unfold GuessCli.guess_part in E. cbv zeta in E. set (ws' := filter (fun w => endswith (gw_path w) (pt_suffix pt)) ws) in *.
    assert (Hws : part_archives pt ws ws') by (apply kept_filter; intros w; rewrite endswith_iff; reflexivity).
    rewrite run_bind in E. destruct (run (load_hashes (pt_file pt)) pl f) as [[[d|e|] pl1] f1] eqn:E1; pose proof (load_hashes_fs _ _ _ _ _ _ E1) as ->; pose proof (run_failures0 _ _ _ _ _ _ E1) as Hf1.
    2,3: injection E as <- _ <-; split; [left; reflexivity|]; split; [discriminate | congruence].
    apply load_hashes_done in E1; [|exact Hn]. rename E1 into Hd. destruct (init_ok d ws' (table_NoDup _ _ _ Hd)) as [Hok Hst]. fold (hashes_of ws') in E. set (g := guesser_init d (hashes_of ws')) in *.
    assert (Hnew : forall h, In h (g_unknown g) <-> hash_in ws' h /\ dget h d = None) by apply Hst.
    destruct (g_unknown g) as [|u us] eqn:Eu.
    { cbn [run] in E. injection E as <- _ <-. split; [left; reflexivity|]. split; [|congruence]. intros c' Ec. injection Ec as <-. exists d, ws', g. split; [exact Hd|]. split; [exact Hws|]. split; [exact Hst|]. left.
      split; [|auto]. intros h Hh En. destruct (proj2 (Hnew h) (conj Hh En)). }
    rewrite <- Eu in *. assert (Hsome : exists h, hash_in ws' h /\ dget h d = None) by (exists u; apply Hnew; rewrite Eu; left; reflexivity).
    set (first := if mem (lit "grep") names then grep_all (pt_grep pt) ws' c g else (c, (g, Ok tt))) in *.
    assert (H1 : grows H (fun _ => True) g (fst (snd first))) by (unfold first; destruct (mem (lit "grep") names); [apply grep_all_sound; assumption | apply grows_refl; exact Hok]).
    assert (Hfirst : forall c1 g1, first = (c1, (g1, Ok tt)) -> In (lit "grep") names /\ searched (pt_grep pt) ws' c g c1 g1 \/ ~ In (lit "grep") names /\ c1 = c /\ g1 = g).
    { intros c1 g1. unfold first. destruct (mem (lit "grep") names) eqn:Em.
      - intros Ef. left. split; [apply mem_In; exact Em | apply grep_all_ok; exact Ef].
      - intros Ef. injection Ef as <- <-. right. split; [apply mem_false; exact Em | auto]. }
    destruct first as [c1 [g1 r1]]. cbn [fst snd] in H1. rewrite run_bind, lift_fs in E. destruct r1 as [[]|x]; [|injection E as <- _ <-; split; [left; reflexivity|]; split; [discriminate | congruence]].
    specialize (Hfirst c1 g1 eq_refl). pose proof (run_methods_sound names (pt_methods pt) Hm g1 (grows_ok _ _ _ _ H1)) as H2.
    destruct (run_methods names (pt_methods pt) g1) as [g2 r2] eqn:E2. cbn [fst] in H2. rewrite run_bind, lift_fs in E. destruct r2 as [[]|x]; [|injection E as <- _ <-; split; [left; reflexivity|]; split; [discriminate | congruence]].
    apply run_methods_ok in E2 as (ms & Hk & Hp). pose proof (grows_trans _ _ _ _ _ H1 H2) as H3. pose proof (found_iff g g2 Hok H3) as Hfound.
    assert (Hdone : guessed pt names ws' c g c1 g2) by (exists g1, ms; auto).
    destruct (Nat.eqb _ 0) eqn:E0.
    { cbn [run] in E. injection E as <- _ <-. split; [left; reflexivity|]. split; [|congruence]. intros c' Ec. injection Ec as <-. exists d, ws', g. split; [exact Hd|]. split; [exact Hws|]. split; [exact Hst|]. right. split; [exact Hsome|].
      exists g2. split; [exact Hdone|]. left. split; [|reflexivity]. left. intros (h & Hh & Hd0 & Hh2). apply Hh2. apply (proj1 Hfound eq_refl). apply Hnew. auto. }
    assert (Hf : exists h, hash_in ws' h /\ dget h d = None /\ dget h (g_known g2) <> None).
    { destruct (existsb (fun h => match dget h (g_known g2) with Some _ => true | None => false end) (g_unknown g)) eqn:Ex.
      - apply existsb_exists in Ex as (h & Hh & Eh). apply Hnew in Hh as [Hh1 Hh2]. exists h. split; [exact Hh1|]. split; [exact Hh2|]. destruct (dget h (g_known g2)); discriminate.
      - exfalso. assert (false = true); [|discriminate]. apply Hfound. intros h Hh. destruct (dget h (g_known g2)) as [q|] eqn:Eq; [|reflexivity].
        assert (existsb (fun h => match dget h (g_known g2) with Some _ => true | None => false end) (g_unknown g) = true) as Et; [|congruence]. apply existsb_exists. exists h. split; [exact Hh|]. rewrite Eq. reflexivity. }
    destruct dry.
    { cbn [run] in E. injection E as <- _ <-. split; [left; reflexivity|]. split; [|congruence]. intros c' Ec. injection Ec as <-. exists d, ws', g. split; [exact Hd|]. split; [exact Hws|]. split; [exact Hst|]. right. split; [exact Hsome|].
      exists g2. split; [exact Hdone|]. left. auto. }
    destruct (save_text (g_known g2)) as [text Ht]. pose proof Hd as (data & txt & [p Hc] & _).
    rewrite run_bind in E. destruct (run (save_hashes (pt_file pt) (g_known g2)) pl1 f) as [[o1 pl2] f2] eqn:Es.
    destruct (save_run _ _ _ _ _ _ _ _ _ _ Hn Hc Ht Es) as (S1 & S2 & S3). assert (f' = f2) as -> by (destruct o1; cbn [run] in E; congruence).
    split; [|split].
    - destruct S3 as [->|(k & Hw & Hall)]; [left; reflexivity|]. right. split; [reflexivity|]. exists d, ws', (g_known g2), text, k.
      split; [exact Hd|]. split; [exact Hws|]. split; [exact (starting_found _ _ _ _ Hst H3)|]. split; [exact Ht|]. split; [exact Hf|]. split; [exact Hw|]. auto.
    - intros c' ->. assert (o1 = Done tt /\ c' = c1) as [-> ->] by (destruct o1 as [[]| |]; cbn [run] in E; [injection E as <- _; auto | congruence..]).
      exists d, ws', g. split; [exact Hd|]. split; [exact Hws|]. split; [exact Hst|]. right. split; [exact Hsome|]. exists g2. split; [exact Hdone|]. right. split; [exact Hf|]. split; [reflexivity|]. exists text. auto.
    - intros _ Hz. rewrite (S1 (Hf1 Hz)) in E. cbn [run] in E. injection E as <- _. eauto.
  Qed.

  (** *** The command *)
  Notation client_part := (client_part H other word ulower loads show).
  Notation game_part := (game_part H other order).
  Lemma command_done args methods dry c pl f o pl' f' : run (command args methods dry c) pl f = (o, pl', f') -> o = Done tt ->
    exists names ws f1 c1 c2, args <> [] /\ requested methods names /\ incl names methods_known /\ archives f args ws /\
      part_done client_part names dry ws f c f1 c1 /\ part_done game_part names dry ws f1 c1 f' c2.
  Proof.
    intros E ->. unfold command_hashes_guess in E. destruct args as [|a args]; [discriminate|]. apply done_bind in E as (names & pl1 & f1 & E1 & E). rewrite lift_fs in E1.
    destruct (method_names methods) as [ns|] eqn:En; [|discriminate]. injection E1 as <- <- <-. apply names_ok in En as [Hr Hi].
    apply done_bind in E as (ws & pl2 & f2 & E2 & E). apply args_done in E2 as [-> Hws]. apply done_bind in E as (c1 & pl3 & f3 & E3 & E). apply done_bind in E as (c2 & pl4 & f4 & E4 & E). cbn [run] in E. injection E as _ <-.
    exists ns, ws, f3, c1, c2. split; [discriminate|]. split; [exact Hr|]. split; [exact Hi|]. split; [exact Hws|]. split.
    - eapply (part_run client_part); [left; reflexivity | intros es; apply grep_lcu_sound | exact (client_sound H other) | exact E3 | reflexivity].
    - eapply (part_run game_part); [right; left; reflexivity | intros es; apply grep_game_sound | exact (game_sound H other order) | exact E4 | reflexivity].
  Qed.
  Lemma command_any args methods dry c pl f o pl' f' : run (command args methods dry c) pl f = (o, pl', f') ->
    f' = f \/ exists ws f1, archives f args ws /\ maybe_saved (failures pl = 0%nat) client_part dry ws f f1 /\ maybe_saved (failures pl = 0%nat) game_part dry ws f1 f'.
  Proof.
    unfold command_hashes_guess. destruct args as [|a args]; [cbn [run]; intros E; left; congruence|]. rewrite run_bind, lift_fs. destruct (method_names methods) as [ns|]; [|intros E; left; congruence].
    rewrite run_bind. destruct (run (gather (a :: args) arg_wads) pl f) as [[[ws|e|] pl1] f1] eqn:E1; pose proof (args_fs _ _ _ _ _ _ E1) as ->; [|intros E; left; congruence..].
    pose proof (run_failures0 _ _ _ _ _ _ E1) as Hf1. apply args_done in E1 as [_ Hws]. rewrite run_bind.
    match goal with |- context [run ?p pl1 f] => destruct (run p pl1 f) as [[o2 pl2] f2] eqn:E2 end. pose proof (run_failures0 _ _ _ _ _ _ E2) as Hf2.
    apply (part_run client_part) in E2 as (M2 & _ & _); [|left; reflexivity | intros es; apply grep_lcu_sound | exact (client_sound H other)].
    assert (M2' : maybe_saved (failures pl = 0%nat) client_part dry ws f f2) by (destruct M2 as [->|(-> & d & ws' & d' & t & n & A1 & A2 & A3 & A4 & A5 & A6 & A7)]; [left; reflexivity|]; right; split; [reflexivity|]; exists d, ws', d', t, n; auto 10).
    destruct o2 as [c2|e|]; [|intros E; right; exists ws, f2; split; [exact Hws|]; split; [exact M2' | left; congruence]..].
    rewrite run_bind. match goal with |- context [run ?p pl2 f2] => destruct (run p pl2 f2) as [[o3 pl3] f3] eqn:E3 end.
    apply (part_run game_part) in E3 as (M3 & _ & _); [|right; left; reflexivity | intros es; apply grep_game_sound | exact (game_sound H other order)].
    intros E. assert (f' = f3) as -> by (destruct o3; cbn [run] in E; congruence).
    right. exists ws, f2. split; [exact Hws|]. split; [exact M2'|].
    destruct M3 as [->|(-> & d & ws' & d' & t & n & A1 & A2 & A3 & A4 & A5 & A6 & A7)]; [left; reflexivity|]. right. split; [reflexivity|]. exists d, ws', d', t, n. auto 10.
  Qed.
End P.
