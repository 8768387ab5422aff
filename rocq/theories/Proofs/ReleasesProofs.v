(** * Proofs about releases *)

From Verif Require Import Base.Py Base.Text Base.Utf8 Base.PyFacts Base.TextFacts Base.Fs Base.FsDir Spec.FsSpec Base.FsFacts Spec.FilesSpec Model.Files Proofs.FilesProofs Base.FsLinks Spec.Utf8Spec Proofs.Utf8Proofs Proofs.PatcherExtractProofs Model.Releases Spec.ReleasesSpec.
Require Import Coq.Sorting.Permutation Coq.Sorting.Sorted.

(** ** Programs that only read *)

(** Such a program leaves the filesystem unchanged, and its result does not depend on failures. *)
Definition reading {A} (p : prog A) : Prop :=
  forall pl f o pl' f', run p pl f = (o, pl', f') -> f' = f /\ forall a, o = Done a -> fst (fst (run p [] f)) = Done a.

Lemma reading_query {A} (g : fs -> A) : reading (query g).
Proof.
  intros pl f o pl' f' E. destruct (run_query_fs _ _ _ _ _ _ E) as [-> [-> | ->]]; (split; [reflexivity|]); intros a Ea; [|discriminate].
  cbn. congruence.
Qed.
Lemma reading_sys {A} (op : fs -> result (A * fs)) : (forall f a f', op f = Ok (a, f') -> f' = f) -> reading (sys op).
Proof.
  intros Hop pl f o pl' f' E. destruct o as [a|e|].
  - pose proof E as E'. apply run_sys_done in E'. split; [eapply Hop; exact E'|]. intros a0 E0. injection E0 as <-.
    unfold sys, sys_part. cbn [run]. rewrite E'. reflexivity.
  - split; [eapply run_sys_raised; exact E | discriminate].
  - split; [|discriminate]. unfold sys, sys_part in E. destruct pl as [|[[e n|n]|] pl]; cbn in E;
      try (destruct (op f) as [[a f1]|e1]; discriminate); try discriminate. injection E as <- <-. reflexivity.
Qed.
Lemma reading_lift {A} (r : result A) : reading (lift r).
Proof. intros pl f o pl' f' E. destruct r; cbn in E |- *; injection E as <- <- <-; split; try reflexivity; congruence. Qed.
Lemma reading_ret {A} (a : A) : reading (Ret a).
Proof. exact (reading_lift (Ok a)). Qed.
(** What runs before the end of [bind p k]. *)
Lemma reading_bind_run {A B} (p : prog A) (k : A -> prog B) pl f o pl' f' : reading p ->
  run (bind p k) pl f = (o, pl', f') ->
  (f' = f /\ (forall b, o <> Done b)) \/ (exists a pl1 u, fst (fst (run p [] f)) = Done a /\ pl = u ++ pl1 /\ run (k a) pl1 f = (o, pl', f')).
Proof.
  intros Hp. rewrite run_bind. destruct (run p pl f) as [[[a|e|] pl1] f1] eqn:E1; intros E.
  - pose proof (run_consumes _ _ _ _ _ _ E1) as [u Hu]. apply Hp in E1 as [-> H]. right. exists a, pl1, u. auto.
  - apply Hp in E1 as [-> _]. left. injection E as <- <- <-. split; [reflexivity | discriminate].
  - apply Hp in E1 as [-> _]. left. injection E as <- <- <-. split; [reflexivity | discriminate].
Qed.
Lemma reading_bind {A B} (p : prog A) (k : A -> prog B) : reading p -> (forall a, reading (k a)) -> reading (bind p k).
Proof.
  intros Hp Hk pl f o pl' f' E. apply reading_bind_run in E as [[-> H]|(a & pl1 & u & Ha & _ & E)]; [| |exact Hp].
  - split; [reflexivity|]. intros b Eb. exfalso. exact (H b Eb).
  - apply Hk in E as [-> E]. split; [reflexivity|]. intros b Eb. rewrite run_bind.
    destruct (run_nil_plan p f) as (o1 & f1 & E1). rewrite E1 in *. cbn [fst] in Ha. subst o1. apply Hp in E1 as [-> _]. apply E. exact Eb.
Qed.
Lemma reading_read cwd s : reading (read_file cwd s).
Proof.
  apply reading_sys. intros f a f' E. apply rbind_Ok in E as (p & _ & E). destruct (look f p) as [[| |]|]; congruence.
Qed.
Lemma reading_listdir order cwd s : reading (listdir order cwd s).
Proof.
  apply reading_sys. intros f a f' E. apply rbind_Ok in E as (p & _ & E). destruct (look f p) as [[| |]|]; congruence.
Qed.
Ltac reads := repeat first
  [ apply reading_bind; [|intros ?] | apply reading_query | apply reading_read | apply reading_listdir | apply reading_lift | apply reading_ret
  | match goal with |- reading (if ?b then _ else _) => destruct b end | match goal with |- reading (match ?x with _ => _ end) => destruct x end ].

(** Fault-free results of such programs. *)
Definition result_of {A} (p : prog A) (f : fs) : outcome A := fst (fst (run p [] f)).
Lemma result_bind {A B} (p : prog A) (k : A -> prog B) f : reading p ->
  result_of (bind p k) f = match result_of p f with Done a => result_of (k a) f | Raised e => Raised e | Crashed => Crashed end.
Proof.
  intros Hp. unfold result_of. rewrite run_bind. destruct (run_nil_plan p f) as (o & f1 & E). rewrite E. cbn [fst].
  apply Hp in E as [-> _]. destruct o; reflexivity.
Qed.
Lemma result_run {A} (p : prog A) f a : reading p -> result_of p f = Done a -> run p [] f = (Done a, [], f).
Proof.
  intros Hp E. destruct (run_nil_plan p f) as (o & f1 & E1). unfold result_of in E. rewrite E1 in *. cbn [fst] in E. subst o.
  apply Hp in E1 as [-> _]. reflexivity.
Qed.

(** ** Texts *)

Lemma decZ_valid z : valid_name (decZ z).
Proof.
  split; [apply decZ_nonempty|]. split; [|split].
  - intros E. apply (decZ_not_in z cDot); [reflexivity | discriminate | rewrite E; left; reflexivity].
  - intros E. apply (decZ_not_in z cDot); [reflexivity | discriminate | rewrite E; left; reflexivity].
  - apply decZ_not_in; [reflexivity | discriminate].
Qed.
Lemma decZ_small z : Forall (fun c => c < 128) (decZ z).
Proof.
  apply Forall_forall. intros c Hc. destruct (N.lt_ge_cases c 128) as [|H]; [assumption|]. exfalso.
  apply (decZ_not_in z c); [|unfold cMinus; lia | exact Hc]. unfold is_digit. apply andb_false_iff. right. apply N.leb_gt. lia.
Qed.
Lemma dec_ascii s : Forall (fun c => c < 128) s -> utf8_dec (map n2b s) = Ok s.
Proof.
  intros H. rewrite <- (utf8_dec_enc s).
  - f_equal. induction H as [|c s Hc _ IH]; [reflexivity|]. cbn [map]. unfold utf8_enc in *. cbn [flat_map]. rewrite <- IH.
    unfold utf8_enc1. destruct (N.ltb_spec c 128); [reflexivity | lia].
  - eapply Forall_impl; [|exact H]. intros c Hc. cbv beta in Hc. unfold scalar. lia.
Qed.
Lemma decZ_nospace z : forallb (fun x => negb (is_space x)) (decZ z) = true.
Proof.
  apply forallb_forall. intros c Hc. destruct (is_space c) eqn:E; [|reflexivity]. exfalso.
  apply (decZ_not_in z c); [| |exact Hc]; unfold is_space, is_digit, cMinus in *;
    repeat rewrite ?orb_true_iff, ?andb_true_iff, ?N.leb_le in E; [|lia]. apply andb_false_iff. rewrite !N.leb_gt. lia.
Qed.
Lemma stamp_text t : int10 (strip is_space (decZ t ++ [cNL])) = Ok t.
Proof.
  assert (E : strip is_space (decZ t ++ [cNL]) = decZ t).
  { rewrite <- (strip_id is_space (decZ t) (decZ_nospace t)) at 2. unfold strip.
    pose proof (decZ_nospace t) as H. destruct (decZ t) as [|c l] eqn:Ed; [exfalso; exact (decZ_nonempty _ Ed)|].
    cbn [forallb] in H. apply andb_true_iff in H as [H _]. apply negb_true_iff in H.
    rewrite (lstrip_id is_space ((c :: l) ++ [cNL])), (lstrip_id is_space (c :: l)) by (cbn; assumption).
    apply rstrip_app_all. reflexivity. }
  rewrite E. apply int10_decZ.
Qed.

Lemma sorted_rev {A} (R : A -> A -> Prop) l : StronglySorted R l -> StronglySorted (fun a b => R b a) (rev l).
Proof.
  induction 1 as [|x l H IH HF]; cbn [rev]; [constructor|].
  assert (G : forall m, StronglySorted (fun a b => R b a) m -> Forall (R x) m -> StronglySorted (fun a b => R b a) (m ++ [x])).
  { clear. induction m as [|y m IH]; intros Hm Hx; cbn [app]; [repeat constructor|]. inversion_clear Hm. inversion_clear Hx.
    constructor; [auto|]. apply Forall_app. split; [assumption | repeat constructor; assumption]. }
  apply G; [exact IH | apply Forall_rev; exact HF].
Qed.

Section Rel.
  Variable cwd : path.
  Variable base patchline : str.
  Variable load : bytes -> result json.
  Variable dump : json -> list bytes.
  Variable same : json -> json -> bool.
  Notation rel_dir := (rel_dir cwd base patchline).
  Notation release_file := (release_file cwd base patchline).
  Notation stamp_file := (stamp_file cwd base patchline).
  Notation ready_ := (releases_ready cwd base patchline).
  Notation release_at := (release_at cwd base patchline load).
  Notation stored := (stored cwd base patchline).
  Notation stamped := (stamped cwd base patchline).

  (** ** Paths *)

  Lemma base_facts f : ready_ f -> plain_path (release_base base patchline) /\ target cwd (release_base base patchline) = rel_dir.
  Proof.
    intros R. destruct (rr_base _ _ _ _ R) as [Hb Hd]. unfold release_base.
    change (lit "cdtb/releases/" ++ patchline) with (lit "cdtb/releases" ++ cSlash :: patchline).
    apply (dir_join cwd base (lit "cdtb/releases") patchline Hb Hd eq_refl ltac:(discriminate)); [|exact (rr_line _ _ _ _ R)].
    intros Hi. cbn in Hi. repeat (destruct Hi as [Hi|Hi]; [discriminate|]). exact Hi.
  Qed.
  Lemma sub_facts a n : a <> [] -> ~ In dotdot (comps a) -> valid_name n ->
    plain_path (a ++ cSlash :: n) /\ target cwd (a ++ cSlash :: n) = n :: target cwd a.
  Proof.
    intros Ha Hd (N1 & N2 & N3 & N4). assert (Ec : comps (a ++ cSlash :: n) = comps a ++ [n]) by (rewrite comps_app, (comps_one n) by assumption; reflexivity).
    split.
    - split; [|rewrite basename_snoc by assumption; split; [apply dirname_snoc; assumption | auto]].
      rewrite Ec. intros Hi. apply in_app_or in Hi as [Hi|[Hi|[]]]; [contradiction | congruence].
    - unfold target. rewrite Ec, rev_app_distr. destruct a as [|c a]; [congruence | reflexivity].
  Qed.
  Lemma lit_valid (s : str) : (eqb s [] || eqb s [cDot] || eqb s dotdot || mem cSlash s) = false -> valid_name s.
  Proof.
    intros H. repeat apply orb_false_iff in H as [H ?]. repeat split; try (apply eqbF; assumption).
    intros Hi. apply mem_In in Hi. congruence.
  Qed.
  Lemma release_facts f v : ready_ f -> plain_path (release_path base patchline v) /\ target cwd (release_path base patchline v) = release_file v.
  Proof.
    intros R. destruct (base_facts f R) as [Hp Ht]. unfold release_path.
    replace (release_base base patchline ++ cSlash :: decZ v ++ lit "/release.json") with ((release_base base patchline ++ cSlash :: decZ v) ++ cSlash :: lit "release.json")
      by (rewrite <- app_assoc; reflexivity).
    destruct (sub_facts (release_base base patchline) (decZ v)) as [Hp1 Ht1]; [apply plain_nonempty; assumption | apply Hp | apply decZ_valid|].
    destruct (sub_facts (release_base base patchline ++ cSlash :: decZ v) (lit "release.json")) as [Hp2 Ht2]; [apply plain_nonempty; assumption | apply Hp1 | apply lit_valid; reflexivity|].
    split; [exact Hp2|]. rewrite Ht2, Ht1, Ht. reflexivity.
  Qed.
  Lemma stamp_facts f : ready_ f -> plain_path (latest_path base patchline) /\ target cwd (latest_path base patchline) = stamp_file.
  Proof.
    intros R. destruct (base_facts f R) as [Hp Ht]. unfold latest_path.
    change (lit "/latest.timestamp") with (cSlash :: lit "latest.timestamp").
    destruct (sub_facts (release_base base patchline) (lit "latest.timestamp")) as [Hp1 Ht1]; [apply plain_nonempty; assumption | apply Hp | apply lit_valid; reflexivity|].
    split; [exact Hp1|]. rewrite Ht1, Ht. reflexivity.
  Qed.
  Lemma ready_release f v : ready_ f -> ready cwd (release_path base patchline v) f.
  Proof.
    intros R. destruct (release_facts f v R) as [Hp Ht]. split; [assumption|]. rewrite Ht. split; [apply (rr_release _ _ _ _ R)|]. split; apply R.
  Qed.
  Lemma ready_stamp f : ready_ f -> ready cwd (latest_path base patchline) f.
  Proof.
    intros R. destruct (stamp_facts f R) as [Hp Ht]. split; [assumption|]. rewrite Ht. split; [apply (rr_stamp _ _ _ _ R)|]. split; apply R.
  Qed.
  Lemma files_ne v : release_file v <> stamp_file.
  Proof. discriminate. Qed.
  Lemma release_inj v u : release_file v = release_file u -> v = u.
  Proof. intros E. injection E as E. apply decZ_inj. exact E. Qed.

  (** ** Reading *)

  Lemma result_read s f : ready cwd s f ->
    result_of (read_file cwd s) f = match look f (target cwd s) with Some (NFile b) => Done b | Some _ => Raised (OSError EISDIR) | None => result_of (read_file cwd s) f end.
  Proof.
    intros Hr. apply ready_winv in Hr as [Hs Hi]. destruct (look f (target cwd s)) as [n|] eqn:El; [|reflexivity].
    unfold result_of, read_file, sys, sys_part. cbn [run]. rewrite (locate_ok cwd s Hs f true Hi) by congruence. cbn [rbind]. rewrite El. destruct n; reflexivity.
  Qed.
  Lemma read_done s f b : ready cwd s f -> result_of (read_file cwd s) f = Done b -> look f (target cwd s) = Some (NFile b).
  Proof.
    intros Hr. apply ready_winv in Hr as [Hs Hi]. unfold result_of, read_file, sys, sys_part. cbn [run].
    destruct (locate cwd f true s) as [p|e] eqn:E; cbn [rbind]; [|discriminate]. apply locate_t in E as [-> _]; [|assumption | apply Hi].
    destruct (look f (target cwd s)) as [[b'| |]|]; cbn; intros H; try discriminate. injection H as ->. reflexivity.
  Qed.
  Lemma exists_ready s f : ready cwd s f -> f_exists cwd s f = true <-> look f (target cwd s) <> None.
  Proof.
    intros Hr. apply ready_winv in Hr as [Hs Hi]. unfold f_exists. split.
    - destruct (locate cwd f true s) as [p|] eqn:E; cbn [node_of]; [|discriminate].
      apply locate_t in E as [-> _]; [|assumption | apply Hi]. destruct (look f (target cwd s)); [discriminate|]. discriminate.
    - intros Hb. rewrite (locate_ok cwd s Hs f true Hi) by assumption. cbn [node_of]. destruct (look f (target cwd s)); [reflexivity | congruence].
  Qed.
  Lemma load_release_reading v : reading (load_release cwd base patchline load v).
  Proof. unfold load_release. reads. Qed.
  Lemma latest_reading : reading (latest_timestamp cwd base patchline).
  Proof. unfold latest_timestamp. reads. Qed.
  Lemma info_reading conf get : reading (latest_info cwd patchline conf get load).
  Proof. unfold latest_info, get_latest_client_manifest, get_latest_game_manifest, client_doc. reads. Qed.

  Lemma load_release_done f v d : ready_ f -> result_of (load_release cwd base patchline load v) f = Done d <-> release_at f v d.
  Proof.
    intros R. unfold load_release. rewrite result_bind by apply reading_read. pose proof (ready_release f v R) as Hr. destruct (release_facts f v R) as [_ Ht]. split.
    - destruct (result_of (read_file cwd (release_path base patchline v)) f) as [b| |] eqn:E; try discriminate. apply read_done in E; [|assumption].
      rewrite Ht in E. destruct (load b) as [d'|] eqn:El; cbn; intros H; [|discriminate]. injection H as ->. exists b. auto.
    - intros (b & Hl & El). rewrite result_read by assumption. rewrite Ht, Hl, El. reflexivity.
  Qed.
  Lemma latest_none f : ready_ f -> result_of (latest_timestamp cwd base patchline) f = Done None -> look f stamp_file = None.
  Proof.
    intros R. unfold latest_timestamp. rewrite result_bind by apply reading_query. unfold exists_ at 1, query at 1, result_of at 1. cbn [run fst].
    pose proof (exists_ready _ f (ready_stamp f R)) as He. destruct (stamp_facts f R) as [_ Ht]. rewrite Ht in He.
    destruct (f_exists cwd (latest_path base patchline) f).
    - rewrite result_bind by apply reading_read. destruct (result_of (read_file _ _) f) as [b| |]; try discriminate.
      rewrite result_bind by apply reading_lift. destruct (utf8_dec b); cbn; try discriminate.
      match goal with |- context [lift ?r] => destruct r end; cbn; discriminate.
    - intros _. destruct (look f stamp_file) eqn:E; [|reflexivity]. exfalso. enough (false = true) by discriminate. apply He. congruence.
  Qed.
  Lemma latest_some f t : ready_ f -> result_of (latest_timestamp cwd base patchline) f = Done (Some t) <-> stamped f t.
  Proof.
    intros R. unfold latest_timestamp. rewrite result_bind by apply reading_query. unfold exists_ at 1, query at 1, result_of at 1. cbn [run fst].
    pose proof (ready_stamp f R) as Hr. pose proof (exists_ready _ f Hr) as He. destruct (stamp_facts f R) as [_ Ht]. rewrite Ht in He. split.
    - destruct (f_exists cwd (latest_path base patchline) f); [|discriminate]. rewrite result_bind by apply reading_read.
      destruct (result_of (read_file _ _) f) as [b| |] eqn:E; try discriminate. apply read_done in E; [|assumption]. rewrite Ht in E.
      rewrite result_bind by apply reading_lift. destruct (utf8_dec b) as [s|] eqn:Es; cbn; try discriminate.
      destruct (int10 (strip is_space s)) as [t'|] eqn:Et; cbn; intros H; [|discriminate]. injection H as ->. exists b, s. auto.
    - intros (b & s & Hl & Es & Et). rewrite (proj2 He) by congruence. rewrite result_bind by apply reading_read. rewrite result_read by assumption.
      rewrite Ht, Hl, result_bind by apply reading_lift. rewrite Es. cbn [lift result_of run fst]. rewrite Et. reflexivity.
  Qed.

  (** ** Writing *)

  Lemma ready_frame s f f' : ready_ f -> ready cwd s f' -> only_file (target cwd s) f f' -> ready_ f'.
  Proof.
    intros R (_ & Hn & Hw & Hc) HO. split; [apply R | apply R | exact Hw | exact Hc | |].
    - intros v q x B E. destruct (HO q) as [E'|[->|(_ & E' & _)]]; [rewrite E' in E; exact (rr_release _ _ _ _ R v q x B E) | exact (Hn _ x (below_refl _) E) | congruence].
    - intros q x B E. destruct (HO q) as [E'|[->|(_ & E' & _)]]; [rewrite E' in E; exact (rr_stamp _ _ _ _ R q x B E) | exact (Hn _ x (below_refl _) E) | congruence].
  Qed.
  Lemma only_file_keeps t f f' q b : only_file t f f' -> q <> t -> look f q = Some (NFile b) -> look f' q = Some (NFile b).
  Proof. intros HO Hq E. destruct (HO q) as [E'|[?|(E' & _)]]; congruence. Qed.
  Lemma only_file_back t f f' q b : only_file t f f' -> q <> t -> look f' q = Some (NFile b) -> look f q = Some (NFile b).
  Proof. intros HO Hq E. destruct (HO q) as [E'|[?|(_ & E' & _)]]; congruence. Qed.

  (** The releases other than [now] are not changed. *)
  Definition others (now : Z) (f f' : fs) : Prop :=
    forall v b, v <> now -> look f' (release_file v) = Some (NFile b) <-> look f (release_file v) = Some (NFile b).
  Lemma others_refl now f : others now f f.
  Proof. intros v b _. reflexivity. Qed.

  Lemma write_release_run now info pl f o pl' f' : ready_ f ->
    run (write_release cwd base patchline dump now info) pl f = (o, pl', f') ->
    ready_ f' /\ others now f f' /\
    match o with
    | Done _ => look f' (release_file now) = Some (NFile (concat (dump info))) /\ look f' stamp_file = Some (NFile (map n2b (decZ now ++ [cNL])))
    | Raised _ => clean o pl pl' -> (~ stored f' now /\ (forall t, stamped f' t <-> stamped f t)) \/ forall t, ~ stamped f' t
    | Crashed => True
    end.
  Proof.
    intros R E. unfold write_release in E. rewrite run_bind in E. pose proof (ready_release f now R) as Hr. destruct (release_facts f now R) as [_ Ht].
    destruct (run (write_file_or_remove cwd (release_path base patchline now) (write_pieces (dump info) None)) pl f) as [[o1 pl1] f1] eqn:E1.
    destruct (wfr_frame _ _ _ _ _ _ _ _ _ Hr E1) as [HO1 Hr1]. pose proof (ready_frame _ _ _ R Hr1 HO1) as R1. rewrite Ht in HO1.
    assert (H1 : others now f f1).
    { intros v b Hv. split; [apply (only_file_back (release_file now)) | apply (only_file_keeps (release_file now))]; auto; intros Eq; apply Hv; apply release_inj; exact Eq. }
    assert (Hs1 : forall t, stamped f1 t <-> stamped f t).
    { intros t. split; intros (b & s & Hl & Hd & Hi); exists b, s; (split; [|auto]).
      - eapply only_file_back; [exact HO1 | discriminate | exact Hl].
      - eapply only_file_keeps; [exact HO1 | discriminate | exact Hl]. }
    destruct (run_consumes _ _ _ _ _ _ E1) as [w Hw].
    destruct o1 as [u1|e1|].
    - apply wfr_success in E1 as [Hl1 _]; [|assumption]. rewrite Ht in Hl1. pose proof (ready_stamp f1 R1) as Hr2. destruct (stamp_facts f1 R1) as [_ Ht2].
      destruct (wfr_frame _ _ _ _ _ _ _ _ _ Hr2 E) as [HO2 Hr3]. pose proof (ready_frame _ _ _ R1 Hr3 HO2) as R2. rewrite Ht2 in HO2.
      assert (H2 : others now f1 f').
      { intros v b _. split; [apply (only_file_back stamp_file) | apply (only_file_keeps stamp_file)]; auto; discriminate. }
      split; [exact R2|]. split; [intros v b Hv; rewrite (H2 v b Hv); apply H1; assumption|]. destruct o as [u|e|]; [| |exact I].
      + apply wfr_success in E as [Hl2 _]; [|assumption]. rewrite Ht2 in Hl2. cbn [concat] in Hl2. rewrite app_nil_r in Hl2. split; [|exact Hl2].
        eapply only_file_keeps; [exact HO2 | discriminate | exact Hl1].
      + intros Hc. right. intros t (b & s & Hl & _). apply wfr_failure in E as [E|(u & x & E)]; [| |assumption].
        * rewrite Ht2 in E. apply E. exists b. exact Hl.
        * cbn [clean] in Hc. apply (Hc (w ++ u) x). rewrite Hw, E, <- app_assoc. reflexivity.
    - injection E as <- <- <-. split; [exact R1|]. split; [exact H1|]. cbn [clean]. intros Hc. left. split; [|exact Hs1].
      apply wfr_failure in E1 as [E1|(u & x & E1)]; [|exfalso; exact (Hc _ _ E1) | assumption]. rewrite Ht in E1. exact E1.
    - injection E as <- <- <-. auto.
  Qed.

  (** ** Fetching *)

  Lemma stamped_fun f t u : stamped f t -> stamped f u -> t = u.
  Proof. intros (b & s & H1 & H2 & H3) (b' & s' & H1' & H2' & H3'). congruence. Qed.
  Lemma release_fun f v d d' : release_at f v d -> release_at f v d' -> d = d'.
  Proof. intros (b & H1 & H2) (b' & H1' & H2'). congruence. Qed.
  Lemma release_stored f v d : release_at f v d -> stored f v.
  Proof. intros (b & H & _). exists b. exact H. Qed.

  Section Fetch.
    Variable conf : option str.
    Variable get : str -> result json.
    Notation fetch := (fetch_latest_update cwd base patchline conf get load dump same).
    Notation answers := (answers cwd patchline load conf get).

    Lemma fetch_run now pl f o pl' f' : ready_ f -> run (fetch now) pl f = (o, pl', f') ->
      (f' = f /\ forall u, o <> Done u) \/
      exists info, answers f info /\
        ((exists t d, stamped f t /\ release_at f t d /\ same info d = true /\ f' = f) \/
         ((look f stamp_file = None \/ exists t d, stamped f t /\ release_at f t d /\ same info d = false) /\
          exists pl1 u, pl = u ++ pl1 /\ run (write_release cwd base patchline dump now info) pl1 f = (o, pl', f'))).
    Proof.
      intros R E. unfold fetch_latest_update in E. apply reading_bind_run in E as [E|(info & pl1 & u1 & Hi & -> & E)]; [auto | | apply info_reading].
      apply reading_bind_run in E as [E|(l & pl2 & u2 & Hl & -> & E)]; [auto | | apply latest_reading].
      destruct l as [t|].
      - apply reading_bind_run in E as [E|(d & pl3 & u3 & Hd & -> & E)]; [auto | | apply load_release_reading].
        right. exists info. split; [exact Hi|]. fold (result_of (latest_timestamp cwd base patchline) f) in Hl. apply latest_some in Hl; [|assumption].
        apply load_release_done in Hd; [|assumption]. destruct (same info d) eqn:Es.
        + left. exists t, d. cbn [run] in E. injection E as <- <- <-. auto.
        + right. split; [right; eauto|]. exists pl3, (u1 ++ u2 ++ u3). rewrite <- !app_assoc. auto.
      - right. exists info. split; [exact Hi|]. right. split; [left; apply latest_none; assumption|]. exists pl2, (u1 ++ u2). rewrite <- app_assoc. auto.
    Qed.
    Lemma answers_fun f i j : answers f i -> answers f j -> i = j.
    Proof. unfold ReleasesSpec.answers. congruence. Qed.

    (** Whatever happens. *)
    Lemma fetch_others now pl f o pl' f' : ready_ f -> run (fetch now) pl f = (o, pl', f') -> ready_ f' /\ others now f f'.
    Proof.
      intros R E. apply fetch_run in E as [(-> & _)|(info & _ & [(t & d & _ & _ & _ & ->)|(_ & pl1 & u & _ & E)])]; [| | |assumption];
        try (split; [assumption | apply others_refl]).
      apply write_release_run in E as (R' & H & _); auto.
    Qed.
    (** Success. *)
    Lemma fetch_done now pl f u pl' f' info : ready_ f -> answers f info -> run (fetch now) pl f = (Done u, pl', f') ->
      (exists t d, stamped f t /\ release_at f t d /\ same info d = true /\ f' = f) \/
      ((look f stamp_file = None \/ exists t d, stamped f t /\ release_at f t d /\ same info d = false) /\
       look f' (release_file now) = Some (NFile (concat (dump info))) /\ stamped f' now).
    Proof.
      intros R Ha E. apply fetch_run in E as [(-> & H)|(i & Hi & [H|(H & pl1 & w & _ & E)])]; [exfalso; exact (H _ eq_refl) | | |assumption];
        (assert (i = info) as -> by (eapply answers_fun; eassumption)); [left; exact H|]. right. split; [exact H|].
      apply write_release_run in E as (_ & _ & H1 & H2); [|assumption]. split; [exact H1|].
      exists (map n2b (decZ now ++ [cNL])), (decZ now ++ [cNL]). split; [exact H2|]. split; [|apply stamp_text].
      apply dec_ascii. apply Forall_app. split; [apply decZ_small | repeat constructor].
    Qed.
    (** After a success, the last release is the one of the servers. *)
    Lemma fetch_settled now pl f u pl' f' info d : ready_ f -> answers f info ->
      load (concat (dump info)) = Ok d -> same info d = true -> run (fetch now) pl f = (Done u, pl', f') ->
      exists t d', stamped f' t /\ release_at f' t d' /\ same info d' = true.
    Proof.
      intros R Ha Hd Hs E. eapply fetch_done in E as [(t & d' & H1 & H2 & H3 & ->)|(_ & H1 & H2)]; [eauto | | assumption | eassumption].
      exists now, d. split; [assumption|]. split; [exists (concat (dump info)); auto | assumption].
    Qed.
    Lemma fetch_settled_same now pl f o pl' f' info t d : ready_ f -> answers f info -> stamped f t -> release_at f t d -> same info d = true ->
      run (fetch now) pl f = (o, pl', f') -> f' = f.
    Proof.
      intros R Ha Ht Hd Hs E. apply fetch_run in E as [(-> & _)|(i & Hi & [(t' & d' & _ & _ & _ & ->)|([H|(t' & d' & H1 & H2 & H3)] & _)])];
        [reflexivity | reflexivity | | |assumption]; exfalso.
      - destruct Ht as (b & s & E & _). congruence.
      - assert (i = info) as -> by (eapply answers_fun; eassumption). assert (t' = t) as -> by (eapply stamped_fun; eassumption).
        assert (d' = d) as -> by (eapply release_fun; eassumption). congruence.
    Qed.

    (** Consistency. *)
    Lemma fetch_consistent t now pl f o pl' f' : ready_ f -> consistent cwd base patchline t f -> (t <= now)%Z ->
      run (fetch now) pl f = (o, pl', f') -> clean o pl pl' \/ f' = f -> consistent cwd base patchline now f'.
    Proof.
      intros R [C1 C2] Ht E Hc. assert (H0 : f' = f -> consistent cwd base patchline now f').
      { intros ->. split; [intros v Hv; specialize (C1 v Hv); lia | exact C2]. }
      pose proof E as E'. apply fetch_others in E' as [_ Ho]; [|assumption]. assert (Hst : forall v, stored f' v -> stored f v \/ v = now).
      { intros v [b Hb]. destruct (Z.eq_dec v now) as [|Hn]; [auto|]. left. exists b. apply (Ho v b Hn). exact Hb. }
      destruct Hc as [Hc|Hc]; [|auto]. destruct o as [u|e|]; [| |destruct Hc].
      - pose proof E as E2. apply fetch_run in E2 as [(_ & H)|(info & Ha & _)]; [exfalso; exact (H _ eq_refl) | |assumption].
        eapply fetch_done in E as [(_ & _ & _ & _ & _ & H)|(_ & H1 & H2)]; [auto | | assumption | exact Ha]. split.
        + intros v Hv. destruct (Hst v Hv) as [H|H]; [specialize (C1 v H)|]; lia.
        + intros w v Hw Hv. assert (w = now) as -> by (eapply stamped_fun; eassumption). destruct (Hst v Hv) as [H|H]; [specialize (C1 v H)|]; lia.
      - apply fetch_run in E as [(H & _)|(i & Hi & [(t' & d' & _ & _ & _ & H)|(_ & pl1 & w & -> & E)])]; [auto | auto | |assumption].
        assert (Hc1 : clean (Raised e : outcome unit) pl1 pl') by (cbn [clean] in *; intros x y Ey; apply (Hc (w ++ x) y); rewrite Ey, app_assoc; reflexivity).
        apply write_release_run in E as (_ & _ & H); [|assumption]. split.
        + intros v Hv. destruct (Hst v Hv) as [H'|H']; [specialize (C1 v H')|]; lia.
        + intros x v Hx Hv. destruct (H Hc1) as [[H1 H2]|H1]; [|exfalso; exact (H1 _ Hx)].
          destruct (Hst v Hv) as [H'| ->]; [|contradiction]. apply C2; [apply H2; assumption | assumption].
    Qed.
  End Fetch.

  Lemma fetches_consistent t f t' f' : fetches cwd base patchline load dump same t f t' f' -> ready_ f -> consistent cwd base patchline t f ->
    ready_ f' /\ consistent cwd base patchline t' f'.
  Proof.
    induction 1 as [|conf get t now pl f o pl' f1 t2 f2 Hn E Hc _ IH]; intros R C; [auto|]. apply IH.
    - eapply fetch_others in E as [R1 _]; assumption.
    - eapply fetch_consistent; eassumption.
  Qed.
  Lemma attempts_kept t f t' f' : attempts cwd base patchline load dump same t f t' f' -> ready_ f -> (forall v, stored f v -> (v <= t)%Z) ->
    ready_ f' /\ (forall v, stored f' v -> (v <= t')%Z) /\ (t <= t')%Z /\ forall v b, (v <= t)%Z -> look f' (release_file v) = Some (NFile b) <-> look f (release_file v) = Some (NFile b).
  Proof.
    induction 1 as [t f|conf get t now pl f o pl' f1 t2 f2 Hn E _ IH]; intros R C.
    - split; [assumption|]. split; [assumption|]. split; [lia|]. reflexivity.
    - apply fetch_others in E as [R1 Ho]; [|assumption]. destruct (IH R1) as (R2 & C2 & Hle & H).
      + intros v [b Hb]. destruct (Z.eq_dec v now) as [->|Hv]; [lia|]. apply (Ho v b Hv) in Hb. specialize (C v (ex_intro _ b Hb)). lia.
      + split; [assumption|]. split; [assumption|]. split; [lia|]. intros v b Hv. rewrite (H v b) by lia. apply Ho. lia.
  Qed.

  (** ** Listing *)

  Variable order : list str -> list str.
  Hypothesis order_perm : forall l, Permutation (order l) l.

  Lemma load_releases_reading l : reading (load_releases cwd base patchline load l).
  Proof. induction l as [|v l IH]; cbn [load_releases]; [apply reading_ret|]. apply reading_bind; [apply reading_query|]. intros [|]; [|exact IH].
    apply reading_bind; [apply load_release_reading|]. intros d. apply reading_bind; [exact IH|]. intros r. apply reading_ret. Qed.
  Lemma isdir_base f : ready_ f -> f_isdir cwd (release_base base patchline) f = true <-> look f rel_dir = Some NDir.
  Proof.
    intros R. destruct (base_facts f R) as [Hp Ht]. unfold f_isdir.
    assert (Hn : nolink f (target cwd (release_base base patchline))) by (rewrite Ht; eapply nolink_anc; [exact (rr_stamp _ _ _ _ R) | apply below_cons]).
    assert (Hi : winv cwd (release_base base patchline) f) by (split; [exact Hn | split; apply R]). split.
    - destruct (locate cwd f true _) as [p|] eqn:E; cbn [node_of]; [|discriminate]. apply locate_t in E as [-> _]; [|assumption | assumption].
      rewrite Ht. destruct (look f rel_dir) as [[| |]|]; try discriminate. reflexivity.
    - intros E. rewrite (locate_ok cwd _ Hp f true Hi) by (rewrite Ht; congruence). cbn [node_of]. rewrite Ht, E. reflexivity.
  Qed.
  Lemma result_listdir f : ready_ f -> look f rel_dir = Some NDir ->
    result_of (listdir order cwd (release_base base patchline)) f = Done (order (names rel_dir f)).
  Proof.
    intros R Hd. destruct (base_facts f R) as [Hp Ht].
    assert (Hn : nolink f (target cwd (release_base base patchline))) by (rewrite Ht; eapply nolink_anc; [exact (rr_stamp _ _ _ _ R) | apply below_cons]).
    assert (Hi : winv cwd (release_base base patchline) f) by (split; [exact Hn | split; apply R]).
    unfold listdir, result_of, sys, sys_part. cbn [run]. rewrite (locate_ok cwd _ Hp f true Hi) by (rewrite Ht; congruence). cbn [rbind]. rewrite Ht, Hd. reflexivity.
  Qed.

  Lemma result_isfile s f : result_of (isfile cwd s) f = Done (f_isfile cwd s f).
  Proof. reflexivity. Qed.
  Lemma load_releases_done f l : ready_ f -> forall vs, result_of (load_releases cwd base patchline load vs) f = Done l ->
    (forall v d, In (v, d) l <-> In v vs /\ release_at f v d) /\ (forall R : Z -> Z -> Prop, StronglySorted R vs -> StronglySorted R (map fst l)).
  Proof.
    intros R vs. revert l. induction vs as [|v vs IH]; intros l; cbn [load_releases].
    - intros E. injection E as <-. split; [intros v d; cbn; intuition | auto].
    - rewrite result_bind by apply reading_query. rewrite result_isfile. pose proof (isfile_ready _ _ _ (ready_release f v R)) as Hf.
      destruct (release_facts f v R) as [_ Ht]. rewrite Ht in Hf. destruct (f_isfile cwd (release_path base patchline v) f).
      + rewrite result_bind by apply load_release_reading. destruct (result_of (load_release _ _ _ _ v) f) as [d| |] eqn:Ed; try discriminate.
        apply load_release_done in Ed; [|assumption]. rewrite result_bind by apply load_releases_reading.
        destruct (result_of (load_releases _ _ _ _ vs) f) as [r| |] eqn:Er; try discriminate. intros E. injection E as <-. destruct (IH r eq_refl) as [H1 H2]. split.
        * intros v' d'. cbn [In]. rewrite H1. split; [intros [E|[H H']]; [injection E as <- <-; auto | auto]|].
          intros [[<-|H] H']; [left; f_equal; eapply release_fun; eassumption | auto].
        * intros Rel Hs. inversion_clear Hs as [|? ? Hs' HF]. cbn [map fst]. constructor; [apply H2; assumption|]. apply Forall_forall. intros x Hx.
          apply in_map_iff in Hx as ([x' d'] & <- & Hx). rewrite Forall_forall in HF. apply HF. apply H1 in Hx. apply Hx.
      + intros E. destruct (IH l E) as [H1 H2]. split.
        * intros v' d'. rewrite H1. cbn [In]. split; [intuition|]. intros [[<-|H] H']; [|auto]. apply release_stored in H'. apply Hf in H'. discriminate.
        * intros Rel Hs. inversion_clear Hs. apply H2. assumption.
  Qed.
  Lemma load_releases_total f : ready_ f -> (forall v, stored f v -> exists d, release_at f v d) -> forall vs, exists l, result_of (load_releases cwd base patchline load vs) f = Done l.
  Proof.
    intros R Hall. induction vs as [|v vs [l IH]]; cbn [load_releases]; [eexists; reflexivity|].
    rewrite result_bind by apply reading_query. rewrite result_isfile. pose proof (isfile_ready _ _ _ (ready_release f v R)) as Hf.
    destruct (release_facts f v R) as [_ Ht]. rewrite Ht in Hf. destruct (f_isfile cwd (release_path base patchline v) f); [|eauto].
    destruct (Hall v (proj1 Hf eq_refl)) as [d Hd]. rewrite result_bind by apply load_release_reading. rewrite (proj2 (load_release_done f v d R) Hd).
    rewrite result_bind by apply load_releases_reading. rewrite IH. eexists. reflexivity.
  Qed.

  Notation iter := (iter_releases cwd base patchline load order).
  Lemma iter_reading : reading iter.
  Proof. unfold iter_releases. apply reading_bind; [apply reading_query|]. intros [|]; [|apply reading_ret]. apply reading_bind; [apply reading_listdir|]. intros l. apply load_releases_reading. Qed.
  Lemma versions_In l v : In v (versions l) <-> exists n, In n l /\ int10 n = Ok v.
  Proof.
    unfold versions. rewrite in_flat_map. split; intros (n & Hn & H); exists n; (split; [assumption|]).
    - destruct (int10 n) as [z|]; [|destruct H]. destruct H as [->|[]]. reflexivity.
    - rewrite H. left. reflexivity.
  Qed.
  Lemma sorted_versions l : StronglySorted (fun a b => (b <= a)%Z) (py_sorted_rev Z.ltb l).
  Proof.
    unfold py_sorted_rev. eapply (sorted_rev (fun a b => (a <= b)%Z)).
    assert (H : StronglySorted (nlt_rev Z.ltb) (py_sorted Z.ltb (rev l))).
    { apply py_sorted_sorted; [intros a b H; apply Z.ltb_ge; apply Z.ltb_lt in H; lia|]. intros a b c H1 H2. apply Z.ltb_ge in H1, H2. apply Z.ltb_ge. lia. }
    induction H as [|x m H IH HF]; constructor; [exact IH|]. eapply Forall_impl; [|exact HF]. intros a Ha. unfold nlt_rev in Ha. apply Z.ltb_ge in Ha. exact Ha.
  Qed.
  Lemma release_entry f v : ready_ f -> stored f v -> look f rel_dir = Some NDir /\ look f (decZ v :: rel_dir) = Some NDir.
  Proof.
    intros R [b Hb]. assert (H : look f (decZ v :: rel_dir) = Some NDir) by (apply (rr_wf _ _ _ _ R (lit "release.json")); change (look f (release_file v) <> None); congruence).
    split; [|exact H]. apply (rr_wf _ _ _ _ R (decZ v)). congruence.
  Qed.

  Lemma iter_cases f l : ready_ f -> result_of iter f = Done l ->
    (look f rel_dir <> Some NDir /\ l = []) \/
    (look f rel_dir = Some NDir /\ result_of (load_releases cwd base patchline load (py_sorted_rev Z.ltb (versions (order (names rel_dir f))))) f = Done l).
  Proof.
    intros R. unfold iter_releases. rewrite result_bind by apply reading_query. change (result_of (isdir cwd ?s) f) with (Done (f_isdir cwd s f)).
    cbv beta iota. pose proof (isdir_base f R) as Hd. change (result_of (isdir cwd (release_base base patchline)) f) with (Done (f_isdir cwd (release_base base patchline) f)).
    cbv beta iota. destruct (f_isdir cwd (release_base base patchline) f).
    - apply proj1 in Hd. specialize (Hd eq_refl). rewrite result_bind by apply reading_listdir. rewrite result_listdir by assumption. auto.
    - intros E. injection E as <-. left. split; [|reflexivity]. intros E. apply Hd in E. discriminate.
  Qed.
  Lemma list_In f l : ready_ f -> result_of iter f = Done l -> forall v d, In (v, d) l <-> release_at f v d.
  Proof.
    intros R E v d. apply iter_cases in E as [[Hn ->]|[Hd E]]; [| |assumption].
    - split; [intros [] | intros H]. apply release_stored in H. apply release_entry in H as [H _]; [contradiction | assumption].
    - apply load_releases_done in E as [H _]; [|assumption]. rewrite H. split; [intuition|]. intros Hr. split; [|exact Hr].
      eapply Permutation_in; [apply py_sorted_rev_perm|]. apply versions_In. exists (decZ v). split; [|apply int10_decZ].
      eapply Permutation_in; [symmetry; apply order_perm|]. apply names_In. apply release_stored in Hr. apply release_entry in Hr as [_ Hr]; [|assumption]. rewrite Hr. discriminate.
  Qed.
  Lemma list_sorted f l : ready_ f -> result_of iter f = Done l -> StronglySorted (fun a b => (b <= a)%Z) (map fst l).
  Proof.
    intros R E. apply iter_cases in E as [[_ ->]|[_ E]]; [constructor | |assumption]. apply load_releases_done in E as [_ H]; [|assumption]. apply H. apply sorted_versions.
  Qed.
  Lemma versions_NoDup l : NoDup l -> (forall n v, In n l -> int10 n = Ok v -> n = decZ v) -> NoDup (versions l).
  Proof.
    induction 1 as [|n l Hn _ IH]; intros Hc; [constructor|]. cbn [versions flat_map]. fold (versions l).
    assert (IH' : NoDup (versions l)) by (apply IH; intros m v Hm; apply Hc; right; assumption).
    destruct (int10 n) as [v|] eqn:E; [|exact IH']. cbn [app]. constructor; [|exact IH']. intros Hv. apply versions_In in Hv as (m & Hm & Em).
    apply Hn. rewrite (Hc n v (or_introl eq_refl) E), <- (Hc m v (or_intror Hm) Em). exact Hm.
  Qed.
  Lemma list_strict f l : ready_ f -> (forall n v, look f (n :: rel_dir) <> None -> int10 n = Ok v -> n = decZ v) ->
    result_of iter f = Done l -> StronglySorted (fun a b => (b < a)%Z) (map fst l).
  Proof.
    intros R Hc E. apply iter_cases in E as [[_ ->]|[_ E]]; [constructor | |assumption]. apply load_releases_done in E as [_ H]; [|assumption]. apply H.
    assert (Hnd : NoDup (py_sorted_rev Z.ltb (versions (order (names rel_dir f))))).
    { eapply Permutation_NoDup; [apply py_sorted_rev_perm|]. apply versions_NoDup.
      - eapply Permutation_NoDup; [symmetry; apply order_perm | apply names_NoDup].
      - intros n v Hn. apply Hc. apply names_In. eapply Permutation_in; [apply order_perm | exact Hn]. }
    pose proof (sorted_versions (versions (order (names rel_dir f)))) as Hs.
    clear H. revert Hnd Hs. generalize (py_sorted_rev Z.ltb (versions (order (names rel_dir f)))). intros vs Hnd Hs.
    induction Hs as [|x m Hs IH HF]; constructor.
    - apply IH. inversion_clear Hnd. assumption.
    - inversion_clear Hnd as [|? ? Hx Hm]. rewrite Forall_forall in HF |- *. intros y Hy. specialize (HF y Hy). assert (y <> x) by (intros ->; contradiction). lia.
  Qed.
  Lemma list_total f : ready_ f -> (forall v, stored f v -> exists d, release_at f v d) -> exists l, run iter [] f = (Done l, [], f).
  Proof.
    intros R Hall. assert (H : exists l, result_of iter f = Done l).
    { unfold iter_releases. rewrite result_bind by apply reading_query. pose proof (isdir_base f R) as Hd.
      change (result_of (isdir cwd (release_base base patchline)) f) with (Done (f_isdir cwd (release_base base patchline) f)).
      cbv beta iota. destruct (f_isdir cwd (release_base base patchline) f); [|eexists; reflexivity].
      apply proj1 in Hd. specialize (Hd eq_refl). rewrite result_bind by apply reading_listdir. rewrite result_listdir by assumption. apply load_releases_total; assumption. }
    destruct H as [l H]. exists l. apply result_run; [apply iter_reading | exact H].
  Qed.
  (** The first one is the greatest. *)
  Lemma list_head f l t d : ready_ f -> result_of iter f = Done l -> release_at f t d -> (forall v, stored f v -> (v <= t)%Z) -> exists l', l = (t, d) :: l'.
  Proof.
    intros R E Hd Hm. pose proof (list_In f l R E) as HI. pose proof (list_sorted f l R E) as Hs. pose proof (proj2 (HI t d) Hd) as Hi.
    destruct l as [|[v d'] l]; [destruct Hi|]. exists l. f_equal. assert (Hv : release_at f v d') by (apply HI; left; reflexivity).
    assert (v = t) as ->.
    { specialize (Hm v (release_stored _ _ _ Hv)). destruct Hi as [Ei|Hi]; [congruence|]. cbn [map fst] in Hs. inversion_clear Hs as [|? ? _ HF]. rewrite Forall_forall in HF.
      specialize (HF t (in_map fst _ _ Hi)). lia. }
    f_equal. eapply release_fun; eassumption.
  Qed.
  Lemma last_first conf get t f now pl u pl' f' info d pl2 l pl3 f3 : ready_ f -> consistent cwd base patchline t f -> (t <= now)%Z ->
    answers cwd patchline load conf get f info -> load (concat (dump info)) = Ok d -> same info d = true ->
    run (fetch_latest_update cwd base patchline conf get load dump same now) pl f = (Done u, pl', f') ->
    run iter pl2 f' = (Done l, pl3, f3) -> exists v d' l', l = (v, d') :: l' /\ same info d' = true.
  Proof.
    intros R C Ht Ha Hd Hs E El. pose proof E as E'. apply fetch_others in E' as [R' _]; [|assumption].
    pose proof (fetch_consistent conf get t now pl f (Done u) pl' f' R C Ht E (or_introl I)) as [_ C'].
    eapply fetch_settled in E as (v & d' & H1 & H2 & H3); [|assumption | eassumption | eassumption | eassumption].
    apply iter_reading in El as [_ El]. specialize (El l eq_refl). fold (result_of iter f') in El.
    destruct (list_head f' l v d' R' El H2) as [l' ->]; [intros x; apply C'; assumption|]. eauto.
  Qed.
End Rel.
