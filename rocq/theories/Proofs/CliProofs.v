(** * Proofs about the choice of patches *)

From Coq Require Import Sorted.
From Verif Require Import Base.Py Base.Text Base.PyFacts Base.TextFacts Model.Version Model.Storage Model.Component Model.Cli
  Spec.VersionSpec Spec.StorageSpec Spec.CliSpec Proofs.VersionProofs Proofs.StorageProofs.

Lemma dir_versions_ok entries acc : no_short_name entries ->
  exists vs, dir_versions entries acc = Ok vs /\ forall t, In t vs <-> In t acc \/ wanted entries t.
Proof.
  revert acc. induction entries as [|[path isdir] rest IH]; intros acc Hc; cbn [dir_versions].
  - exists acc. split; [reflexivity|]. intros t. split; [auto|]. intros [H|(path & v & [] & _)]. exact H.
  - assert (Hc' : no_short_name rest) by (intros p e Hi; apply Hc; right; exact Hi).
    assert (Hskip : (forall v, isdir = true -> patch_version (ArgStr path) <> Ok v) -> forall t, In t acc \/ wanted rest t <-> In t acc \/ wanted ((path, isdir) :: rest) t).
    { intros Hs t. split; (intros [H|(p & v & Hi & Hv)]; [left; exact H|]).
      - right. exists p, v. split; [right; exact Hi | exact Hv].
      - destruct Hi as [Hi|Hi]; [|right; exists p, v; auto]. injection Hi as -> ->. destruct Hv as [Hv _]. destruct (Hs v eq_refl Hv). }
    destruct isdir; cbn [negb].
    + destruct (patch_version (ArgStr path)) as [v|e] eqn:E.
      * destruct (IH (set_add (v_s v) acc) Hc') as (vs & Ev & Hvs). exists vs. split; [exact Ev|]. intros t. rewrite Hvs, set_add_In. split.
        -- intros [[Ht|Ht]|(p & w & Hi & Hv)]; [|left; exact Ht|].
           ++ right. exists path, v. split; [left; reflexivity|]. split; [exact E | congruence].
           ++ right. exists p, w. split; [right; exact Hi | exact Hv].
        -- intros [Ht|(p & w & [Hi|Hi] & Hv & Hw)]; [left; right; exact Ht| |right; exists p, w; auto].
           injection Hi as <-. rewrite E in Hv. injection Hv as <-. left. left. congruence.
      * destruct (Hc path e (or_introl eq_refl) E) as [-> | ->]; (destruct (IH acc Hc') as (vs & Ev & Hvs); exists vs; split; [exact Ev|]; intros t; rewrite Hvs; apply Hskip; intros v _; congruence).
    + destruct (IH acc Hc') as (vs & Ev & Hvs). exists vs. split; [exact Ev|]. intros t. rewrite Hvs. apply Hskip. intros v Hv. discriminate.
Qed.

Lemma older_dec first p ps : newest_first first (p :: ps) ->
  exists b, match first with None => Ok false | Some f => v_lt (p_ver p) f end = Ok b /\ (b = true <-> older first p).
Proof.
  intros [_ H]. destruct first as [f|]; [|exists false; split; [reflexivity|]; cbn; intuition discriminate].
  destruct H as ([y Hy] & HF & _). inversion HF as [|? ? [x Hx] _]; subst. exists (tuple_lt x y). unfold v_lt. rewrite Hx, Hy. split; [reflexivity|].
  rewrite tuple_lt_before. cbn [older]. split; [intros H; exists x, y; auto|]. intros (x' & y' & E1 & E2 & H). congruence.
Qed.
Lemma newest_tail first p ps : newest_first first (p :: ps) -> newest_first first ps.
Proof.
  intros [Hn H]. split; [now inversion Hn|]. destruct first as [f|]; [|exact I]. destruct H as (Hy & HF & HS). split; [exact Hy|]. split; [now inversion HF | now inversion HS].
Qed.
Lemma older_all first p ps q : newest_first first (p :: ps) -> older first p -> In q (p :: ps) -> older first q.
Proof.
  intros [_ H] Ho [<-|Hq]; [exact Ho|]. destruct first as [f|]; [|destruct Ho]. destruct H as (_ & HF & HS). inversion HS as [|? ? _ HS']; subst. rewrite Forall_forall in HS'.
  destruct Ho as (x & y & Hx & Hy & Hb). rewrite Forall_forall in HF. destruct (HF q (or_intror Hq)) as [z Hz]. exists z, y. split; [exact Hz|]. split; [exact Hy|].
  apply tuple_lt_before. apply tuple_lt_before in Hb. specialize (HS' q Hq x z Hx Hz). apply tuple_lt_before in HS'. exact (tuple_lt_trans _ _ _ HS' Hb).
Qed.
Lemma subseq_none {A} (l : list A) : subseq [] l.
Proof. induction l; constructor; assumption. Qed.
Lemma subseq_In {A} (a b : list A) x : subseq a b -> In x a -> In x b.
Proof. induction 1 as [|y a b _ IH|y a b _ IH]; [auto|right; auto|]. intros [<-|H]; [left; reflexivity | right; auto]. Qed.

Lemma pick_ok first versions ps : versions <> [] -> newest_first first ps ->
  (exists p, In p ps /\ older first p) \/ (forall v, In v versions -> exists p, In p ps /\ ptext p = v /\ ~ older first p) ->
  exists sel, pick_patches first versions ps = Ok sel /\ subseq sel ps /\ forall p, In p ps -> (In p sel <-> In (ptext p) versions /\ ~ older first p).
Proof.
  revert versions. induction ps as [|p ps IH]; intros versions Hne Hnf Hc.
  { exfalso. destruct Hc as [(p & [] & _)|Hc]. destruct versions as [|v vs]; [congruence|]. destruct (Hc v (or_introl eq_refl)) as (p & [] & _). }
  cbn [pick_patches]. destruct (older_dec first p ps Hnf) as (b & Eb & Hb). rewrite Eb. cbn [rbind]. destruct b.
  { exists []. split; [reflexivity|]. split; [apply subseq_none|]. intros q Hq. split; [intros []|]. intros [_ Hn]. apply Hn. apply (older_all first p ps q Hnf); [now apply Hb | exact Hq]. }
  assert (Hno : ~ older first p) by (rewrite <- Hb; discriminate). pose proof (newest_tail _ _ _ Hnf) as Hnf'.
  assert (Hnd : forall q, In q ps -> ptext q <> ptext p).
  { destruct Hnf as [Hn _]. cbn [map] in Hn. inversion Hn as [|? ? Hx _]; subst. intros q Hq E. apply Hx. rewrite <- E. apply in_map. exact Hq. }
  change (v_s (p_ver p)) with (ptext p). destruct (mem (ptext p) versions) eqn:Em.
  - apply mem_In in Em. remember (filter (fun v => negb (eqb v (ptext p))) versions) as versions' eqn:Ev.
    assert (Hv' : forall v, In v versions' <-> In v versions /\ v <> ptext p).
    { intros v. rewrite Ev, filter_In. rewrite negb_true_iff. split; intros [H1 H2]; (split; [exact H1|]); [apply eqb_false in H2; exact H2 | apply eqbF; exact H2]. }
    destruct versions' as [|v0 vs0] eqn:Ev0.
    + exists [p]. split; [reflexivity|]. split; [constructor; apply subseq_none|]. intros q [<-|Hq].
      * split; [intros _; split; assumption | intros _; left; reflexivity].
      * split.
        -- intros [<-|[]]. destruct (Hnd p Hq eq_refl).
        -- intros [Hi _]. exfalso. apply (proj2 (Hv' (ptext q))). split; [exact Hi | apply Hnd, Hq].
    + rewrite <- Ev0 in *. assert (Hne' : versions' <> []) by (rewrite Ev0; discriminate). clear Ev0.
      destruct (IH versions' Hne' Hnf') as (sel & E & Hs & Hsel).
      { destruct Hc as [(q & [<-|Hq] & Ho)|Hc]; [contradiction | left; exists q; auto|]. right. intros v Hv. apply Hv' in Hv as [Hv Hvp]. destruct (Hc v Hv) as (q & [<-|Hq] & Et & Ho); [congruence|]. exists q. auto. }
      destruct versions' as [|v1 vs1]; [congruence|]. rewrite E. cbn [rbind]. exists (p :: sel). split; [reflexivity|]. split; [constructor; exact Hs|]. intros q [<-|Hq].
      * split; [intros _; split; assumption | intros _; left; reflexivity].
      * specialize (Hsel q Hq). specialize (Hv' (ptext q)). specialize (Hnd q Hq). split.
        -- intros [<-|Hi]; [congruence|]. apply Hsel in Hi as [Hi Ho]. apply Hv' in Hi as [Hi _]. auto.
        -- intros [Hi Ho]. right. apply Hsel. split; [apply Hv'; auto | exact Ho].
  - assert (Em' : ~ In (ptext p) versions) by (intros Hi; apply mem_In in Hi; congruence).
    destruct (IH versions Hne Hnf') as (sel & E & Hs & Hsel).
    { destruct Hc as [(q & [<-|Hq] & Ho)|Hc]; [contradiction | left; exists q; auto|]. right. intros v Hv. destruct (Hc v Hv) as (q & [<-|Hq] & Et & Ho); [congruence|]. exists q. auto. }
    exists sel. split; [exact E|]. split; [constructor; exact Hs|]. intros q [<-|Hq]; [|apply Hsel, Hq]. split; [|intros [Hi _]; contradiction].
    intros Hi. exfalso. apply (subseq_In _ _ _ Hs) in Hi. exact (Hnd p Hi eq_refl).
Qed.
Lemma pick_missing first versions ps v : newest_first first ps -> (forall p, In p ps -> ~ older first p) -> In v versions -> (forall p, In p ps -> ptext p <> v) ->
  pick_patches first versions ps = Err ValueError.
Proof.
  revert versions. induction ps as [|p ps IH]; intros versions Hnf Ho Hv Hm; [reflexivity|]. cbn [pick_patches]. destruct (older_dec first p ps Hnf) as (b & Eb & Hb). rewrite Eb. cbn [rbind].
  destruct b; [exfalso; apply (Ho p); [left; reflexivity | now apply Hb]|]. pose proof (newest_tail _ _ _ Hnf) as Hnf'.
  assert (IH' : forall versions, In v versions -> pick_patches first versions ps = Err ValueError) by (intros vs Hvs; apply IH; [exact Hnf' | intros q Hq; apply Ho; right; exact Hq | exact Hvs | intros q Hq; apply Hm; right; exact Hq]).
  change (v_s (p_ver p)) with (ptext p). destruct (mem (ptext p) versions); [|apply IH'; exact Hv].
  assert (Hv' : In v (filter (fun v => negb (eqb v (ptext p))) versions)).
  { apply filter_In. split; [exact Hv|]. apply negb_true_iff, eqbF. intros E. apply (Hm p (or_introl eq_refl)). congruence. }
  destruct (filter (fun v0 : str => negb (eqb v0 (ptext p))) versions) as [|v0 vs0] eqn:E; [destruct Hv'|]. rewrite IH' by exact Hv'. reflexivity.
Qed.

(** ** Pairs *)
Lemma chained_app output links prev a b ea eb : chained output links prev a ea ->
  chained output links (last (map Some a) prev) b eb -> chained output links prev (a ++ b) (ea ++ eb).
Proof.
  intros Ha Hb. induction Ha as [prev|prev p ps es Ha IH]; [exact Hb|]. cbn [app]. constructor. apply IH. cbn [map] in Hb.
  assert (E : forall (l : list (option patch)) x y, last (x :: l) y = last l x).
  { clear. induction l as [|z l IH]; intros x y; [reflexivity|]. change (last (x :: z :: l) y) with (last (z :: l) y). rewrite IH. symmetry. apply IH. }
  rewrite E in Hb. exact Hb.
Qed.
Lemma pair_chained output links ps : exists es, pair_exporters output links ps = Ok es /\ chained output links None (rev ps) (rev es).
Proof.
  induction ps as [|p t IH]; [exists []; split; [reflexivity | constructor]|]. destruct IH as (es & E & Hc). cbn [pair_exporters].
  destruct t as [|q t].
  - cbn [raw_exporter_init]. unfold raw_exporter_init. cbn [andb rbind]. cbn [pair_exporters] in E. injection E as <-. cbn [pair_exporters rbind]. eexists. split; [reflexivity|]. cbn [rev app]. constructor. constructor.
  - unfold raw_exporter_init at 1. rewrite E. assert (El : exists s, (match links with None => Ok true | Some s => if s && negb true then Err ValueError else Ok s end) = Ok s /\ s = match links with None => true | Some s => s end).
    { destruct links as [s|]; [rewrite andb_false_r|]; eauto. }
    destruct El as (s & El & Es). rewrite El. cbn [rbind]. eexists. split; [reflexivity|]. change (rev (p :: q :: t)) with (rev (q :: t) ++ [p]). cbn [rev]. 
    eapply chained_app; [exact Hc|]. cbn [rev]. rewrite map_app. cbn [map]. rewrite last_last. subst s. apply (ch_cons output links (Some q) p [] []). constructor.
Qed.

Lemma from_directory_ok entries ps output first links : no_short_name entries -> newest_first first ps ->
  (exists p, In p ps /\ older first p) \/ (forall t, wanted entries t -> exists p, In p ps /\ ptext p = t /\ ~ older first p) ->
  exists sel es, from_directory entries ps output first links = Ok es /\ chained output links None (rev sel) es
  /\ subseq sel ps /\ forall p, In p ps -> (In p sel <-> wanted entries (ptext p) /\ ~ older first p).
Proof.
  intros Hc Hnf H. unfold from_directory. destruct (dir_versions_ok entries [] Hc) as (vs & E & Hvs). rewrite E. cbn [rbind].
  assert (Hw : forall t, In t vs <-> wanted entries t) by (intros t; rewrite Hvs; cbn; intuition).
  destruct vs as [|v vs'] eqn:Ev.
  - exists [], []. split; [reflexivity|]. split; [constructor|]. split; [apply subseq_none|]. intros p _. split; [intros []|]. intros [Hi _]. apply Hw in Hi. destruct Hi.
  - destruct (pick_ok first (v :: vs') ps) as (sel & Es & Hs & Hsel); [discriminate | exact Hnf | |].
    { destruct H as [H|H]; [left; exact H|]. right. intros t Ht. apply H, Hw, Ht. }
    rewrite Es. cbn [rbind]. destruct (pair_chained output links sel) as (es & Ep & Hch). rewrite Ep. cbn [rbind]. exists sel, (rev es). split; [reflexivity|]. split; [exact Hch|].
    split; [exact Hs|]. intros p Hp. rewrite (Hsel p Hp), Hw. reflexivity.
Qed.
Lemma from_directory_missing entries ps output first links t : no_short_name entries -> newest_first first ps -> (forall p, In p ps -> ~ older first p) ->
  wanted entries t -> (forall p, In p ps -> ptext p <> t) -> from_directory entries ps output first links = Err ValueError.
Proof.
  intros Hc Hnf Ho Ht Hm. unfold from_directory. destruct (dir_versions_ok entries [] Hc) as (vs & E & Hvs). rewrite E. cbn [rbind].
  assert (Hi : In t vs) by (apply Hvs; right; exact Ht). destruct vs as [|v vs']; [destruct Hi|]. rewrite (pick_missing first (v :: vs') ps t); auto.
Qed.

(** ** Export command *)
Lemma storage_text l ps v : patches l = Ok ps -> forall p, storage_patch (Some v) l = Ok (Some p) <-> patch_of_text ps v p.
Proof.
  intros E p. unfold storage_patch. rewrite E. cbn [rbind]. split.
  - intros H. injection H as H. clear E. revert p H. induction ps as [|q ps IH]; intros p H; [discriminate|]. cbn [find] in H. unfold v_eq_str in H at 1. destruct (eqb (v_s (p_ver q)) v) eqn:Eq.
    + injection H as ->. apply eqb_true in Eq. exists [], ps. split; [reflexivity|]. split; [exact Eq | intros ? []].
    + apply eqb_false in Eq. destruct (IH p H) as (pre & post & -> & Et & Hpre). exists (q :: pre), post. split; [reflexivity|]. split; [exact Et|]. intros x [<-|Hx]; [exact Eq | apply Hpre, Hx].
  - intros (pre & post & -> & Et & Hpre). f_equal. clear E. induction pre as [|q pre IH]; cbn [app find]; unfold v_eq_str at 1.
    + unfold ptext in Et. rewrite Et, eqbR. reflexivity.
    + assert (Eq : eqb (v_s (p_ver q)) v = false) by (apply eqbF, (Hpre q); left; reflexivity). rewrite Eq. apply IH. intros x Hx. apply Hpre. right. exact Hx.
Qed.
Lemma storage_text_none l ps v : patches l = Ok ps -> (forall p, In p ps -> ptext p <> v) -> storage_patch (Some v) l = Ok None.
Proof.
  intros E H. unfold storage_patch. rewrite E. cbn [rbind]. f_equal. clear E. induction ps as [|q ps IH]; [reflexivity|]. cbn [find]. unfold v_eq_str at 1.
  assert (Eq : eqb (v_s (p_ver q)) v = false) by (apply eqbF, (H q); left; reflexivity). rewrite Eq. apply IH. intros x Hx. apply H. right. exact Hx.
Qed.
Lemma storage_text_total l v : exists o, storage_patch (Some v) l = Ok o.
Proof. unfold storage_patch. destruct (patches_spec l) as (ps & gs & E & _). rewrite E. cbn [rbind]. eauto. Qed.
Lemma guess_spec v ps q : guess_previous v ps = Ok q <-> just_before ps (v_s v) q.
Proof.
  split.
  - induction ps as [|p ps IH]; intros H; [discriminate|]. cbn [guess_previous] in H. unfold v_eq in H at 1. destruct (eqb (v_s (p_ver p)) (v_s v)) eqn:E.
    + apply eqb_true in E. destruct ps as [|q' ps]; [discriminate|]. injection H as ->. exists [], p, ps. split; [reflexivity|]. split; [exact E | intros ? []].
    + apply eqb_false in E. destruct (IH H) as (pre & x & post & -> & Et & Hpre). exists (p :: pre), x, post. split; [reflexivity|]. split; [exact Et|]. intros y [<-|Hy]; [exact E | apply Hpre, Hy].
  - intros (pre & x & post & -> & Et & Hpre). induction pre as [|p pre IH]; cbn [app guess_previous]; unfold v_eq at 1.
    + unfold ptext in Et. rewrite Et, eqbR. reflexivity.
    + assert (Eq : eqb (v_s (p_ver p)) (v_s v) = false) by (apply eqbF, (Hpre p); left; reflexivity). rewrite Eq. apply IH. intros y Hy. apply Hpre. right. exact Hy.
Qed.
Lemma guess_missing v ps : (forall p, In p ps -> ptext p <> v_s v) -> guess_previous v ps = Err SysExit.
Proof.
  induction ps as [|p ps IH]; intros H; [reflexivity|]. cbn [guess_previous]. unfold v_eq at 1. assert (Eq : eqb (v_s (p_ver p)) (v_s v) = false) by (apply eqbF, (H p); left; reflexivity).
  rewrite Eq. apply IH. intros y Hy. apply H. right. exact Hy.
Qed.
Lemma asked_spec listing ps arg p : patches (listing false) = Ok ps ->
  storage_patch (if eqb arg (lit "latest") then None else Some arg) (listing false) = Ok (Some p) <-> asked ps arg p.
Proof.
  intros E. unfold asked. destruct (eqb arg (lit "latest")) eqn:Ea.
  - apply eqb_true in Ea. unfold storage_patch. rewrite E. cbn [rbind]. split.
    + destruct ps as [|q t]; [discriminate|]. intros H. injection H as ->. left. eauto.
    + intros [[_ [t ->]]|[H _]]; [reflexivity | contradiction].
  - apply eqb_false in Ea. rewrite (storage_text _ ps arg E). split; [auto|]. intros [[H _]|[_ H]]; [contradiction | exact H].
Qed.
Definition find_compared (listing : bool -> list element) (p : patch) (a : option str) : result (option patch) :=
  if eqb a (Some (lit "none")) then Ok None
  else if given a then let! oq := storage_patch a (listing true) in match oq with None => Err SysExit | Some q => Ok (Some q) end
  else let! ps := patches (listing true) in let! q := guess_previous (p_ver p) ps in Ok (Some q).
Lemma compared_spec listing stored p a prev : patches (listing true) = Ok stored -> find_compared listing p a = Ok prev <-> compared stored p a prev.
Proof.
  intros E. unfold find_compared. destruct (eqb a (Some (lit "none"))) eqn:Ea.
  - apply eqb_true in Ea. subst a. split; [intros H; injection H as <-; constructor|]. intros H. inversion H; subst; [reflexivity | contradiction | destruct H0; discriminate].
  - apply eqb_false in Ea. destruct a as [[|c t]|]; cbn [given].
    + rewrite E. cbn [rbind]. split.
      * intros H. destruct (guess_previous (p_ver p) stored) as [q|] eqn:G; [|discriminate]. injection H as <-. apply guess_spec in G. apply cmp_guess; auto.
      * intros H. inversion H; subst; [congruence|]. match goal with Hx : just_before _ _ _ |- _ => rename Hx into Hj end. apply guess_spec in Hj. rewrite Hj. reflexivity.
    + destruct (storage_text_total (listing true) (c :: t)) as [o Eo]. rewrite Eo. cbn [rbind]. split.
      * destruct o as [q|]; [|discriminate]. intros H. injection H as <-. apply (storage_text _ stored _ E) in Eo. constructor; [congruence | discriminate | exact Eo].
      * intros H. inversion H; subst; try match goal with Hx : _ \/ _ |- _ => destruct Hx; discriminate end; try discriminate; try (exfalso; apply Ea; reflexivity). match goal with Hx : patch_of_text _ _ _ |- _ => rename Hx into Hq end. apply (storage_text _ stored _ E) in Hq. rewrite Hq in Eo. injection Eo as <-. reflexivity.
    + rewrite E. cbn [rbind]. split.
      * intros H. destruct (guess_previous (p_ver p) stored) as [q|] eqn:G; [|discriminate]. injection H as <-. apply guess_spec in G. apply cmp_guess; auto.
      * intros H. inversion H; subst. match goal with Hx : just_before _ _ _ |- _ => rename Hx into Hj end. apply guess_spec in Hj. rewrite Hj. reflexivity.
Qed.

Lemma command_export_patch listing entries a arg : xa_patch a = Some arg -> arg <> [] -> given (xa_first a) = false ->
  command_export listing entries a =
  (let! op := storage_patch (if eqb arg (lit "latest") then None else Some arg) (listing false) in
   match op with
   | None => Err SysExit
   | Some p =>
     let! prev := find_compared listing p (xa_previous a) in
     let! e := raw_exporter_init (path_join (xa_output a) (v_s (p_ver p))) p prev (Some (xa_symlinks a)) in
     Ok ([e], negb (xa_lazy a))
   end).
Proof.
  intros Ep Hne Hf. unfold command_export. rewrite Ep, Hf. destruct arg as [|c t]; [congruence|]. reflexivity.
Qed.
Lemma command_export_spec listing entries a arg ps stored : patches (listing false) = Ok ps -> patches (listing true) = Ok stored ->
  xa_patch a = Some arg -> arg <> [] -> given (xa_first a) = false -> forall es ow,
  command_export listing entries a = Ok (es, ow) <->
  exists p prev, asked ps arg p /\ compared stored p (xa_previous a) prev /\ (xa_symlinks a = true -> prev <> None) /\ ow = negb (xa_lazy a)
  /\ es = [{| re_output := normpath (path_join (xa_output a) (ptext p)); re_patch := p; re_previous := prev; re_symlinks := xa_symlinks a |}].
Proof.
  intros E1 E2 Ep Hne Hf es ow. rewrite (command_export_patch listing entries a arg) by assumption. split.
  - intros H. destruct (storage_patch _ (listing false)) as [[p|]|] eqn:Es; cbn [rbind] in H; try discriminate. apply (asked_spec listing ps arg p E1) in Es.
    destruct (find_compared listing p (xa_previous a)) as [prev|] eqn:Ef; cbn [rbind] in H; [|discriminate]. apply (compared_spec listing stored p _ _ E2) in Ef.
    exists p, prev. split; [exact Es|]. split; [exact Ef|]. unfold raw_exporter_init in H. destruct prev as [q|]; cbn [negb] in H.
    + rewrite andb_false_r in H. cbn [rbind] in H. injection H as <- <-. split; [discriminate|]. auto.
    + rewrite andb_true_r in H. destruct (xa_symlinks a); [discriminate|]. cbn [rbind] in H. injection H as <- <-. split; [discriminate|]. auto.
  - intros (p & prev & Ha & Hc & Hl & -> & ->). apply (asked_spec listing ps arg p E1) in Ha. rewrite Ha. cbn [rbind]. apply (compared_spec listing stored p _ _ E2) in Hc. rewrite Hc. cbn [rbind].
    unfold raw_exporter_init. destruct prev as [q|]; cbn [negb].
    + rewrite andb_false_r. reflexivity.
    + rewrite andb_true_r. destruct (xa_symlinks a); [destruct (Hl eq_refl eq_refl)|]. reflexivity.
Qed.
Lemma command_update listing entries a : given (xa_patch a) = false -> exists e, command_export listing entries a = Err e.
Proof.
  intros H. unfold command_export. rewrite H. cbn [negb]. destruct (given (xa_previous a)); [eauto|]. destruct (xa_first a) as [[|c t]|]; cbn [given]; [|eauto|]; eexists; reflexivity.
Qed.

(** ** Storages *)
Lemma from_conf_patchline cdn c l path : dget (lit "type") c = Some (lit "patcher") -> dget (lit "path") c = Some path ->
  from_conf cdn (dset (lit "patchline") l c) = Ok (PatcherStorage path l true).
Proof.
  intros Et Ep. unfold from_conf. rewrite !dget_dset. assert (E1 : eqb (lit "type") (lit "patchline") = false) by reflexivity. assert (E2 : eqb (lit "path") (lit "patchline") = false) by reflexivity.
  assert (E3 : eqb (lit "patchline") (lit "patchline") = true) by reflexivity. rewrite ?E1, ?E2, ?E3, Et, Ep. reflexivity.
Qed.
Section Args.
Variables isdir isfile : str -> bool.
Variable load_json : str -> result conf.
Variable cdn_url : str -> option str.
Lemma args_patchline env arg p c path l : storage_path env arg p -> storage_conf_from_path isdir isfile load_json p = Ok c ->
  dget (lit "type") c = Some (lit "patcher") -> dget (lit "path") c = Some path ->
  parse_storage_args isdir isfile load_json cdn_url env arg (Some l) = Ok (PatcherStorage path l true).
Proof.
  intros Hp Ec Et Epath. unfold parse_storage_args. destruct Hp; rewrite Ec; cbn [rbind]; rewrite Et; change (eqb (Some (lit "patcher")) (Some (lit "patcher"))) with true; cbn iota; apply from_conf_patchline; assumption.
Qed.
Lemma args_rejected env arg p c l : storage_path env arg p -> storage_conf_from_path isdir isfile load_json p = Ok c ->
  dget (lit "type") c <> Some (lit "patcher") -> parse_storage_args isdir isfile load_json cdn_url env arg (Some l) = Err SysExit.
Proof.
  intros Hp Ec Et. unfold parse_storage_args. assert (E : eqb (dget (lit "type") c) (Some (lit "patcher")) = false) by (apply eqbF, Et).
  destruct Hp; rewrite Ec; cbn [rbind]; rewrite E; reflexivity.
Qed.
Lemma args_default env arg p c path : storage_path env arg p -> storage_conf_from_path isdir isfile load_json p = Ok c ->
  dget (lit "type") c = Some (lit "patcher") -> dget (lit "path") c = Some path -> exists l,
  parse_storage_args isdir isfile load_json cdn_url env arg None = Ok (PatcherStorage path l true)
  /\ (dget (lit "patchline") c = Some l \/ dget (lit "patchline") c = None /\ l = lit "live").
Proof.
  intros Hp Ec Et Epath. exists (match dget (lit "patchline") c with Some l => l | None => lit "live" end).
  split; [|destruct (dget (lit "patchline") c); auto]. unfold parse_storage_args. destruct Hp; rewrite Ec; cbn [rbind]; unfold from_conf; rewrite Et, Epath; reflexivity.
Qed.
End Args.
Lemma given_iff a : given a = true <-> a <> None /\ a <> Some [].
Proof. destruct a as [[|c t]|]; cbn [given]; split; intros H; try discriminate; try tauto; try (destruct H; congruence). split; discriminate. Qed.
Lemma given_not a : given a = false <-> a = None \/ a = Some [].
Proof. destruct a as [[|c t]|]; cbn [given]; split; intros H; auto; try discriminate. destruct H; discriminate. Qed.
Lemma command_export_errors listing entries a ps stored : patches (listing false) = Ok ps -> patches (listing true) = Ok stored ->
  (exists arg, xa_patch a = Some arg /\ arg <> [] /\ (xa_first a <> None /\ xa_first a <> Some []
     \/ arg <> lit "latest" /\ (forall p, In p ps -> ptext p <> arg)
     \/ exists p, asked ps arg p /\ ((exists t, xa_previous a = Some t /\ t <> [] /\ t <> lit "none" /\ forall q, In q stored -> ptext q <> t)
          \/ (xa_previous a = None \/ xa_previous a = Some []) /\ forall q, In q stored -> ptext q <> ptext p)))
  \/ (xa_patch a = None \/ xa_patch a = Some []) /\ xa_previous a <> None /\ xa_previous a <> Some [] ->
  command_export listing entries a = Err SysExit.
Proof.
  intros E1 E2 [(arg & Ep & Hne & H)|[Hp Hprev]].
  - destruct (given (xa_first a)) eqn:Hf.
    + unfold command_export. rewrite Ep, Hf. destruct arg; [congruence | reflexivity].
    + rewrite (command_export_patch listing entries a arg) by assumption. destruct H as [H|[[Hl H]|(p & Ha & H)]].
      * apply given_iff in H. congruence.
      * assert (El : eqb arg (lit "latest") = false) by (apply eqbF, Hl). rewrite El, (storage_text_none _ ps arg E1 H). reflexivity.
      * apply (asked_spec listing ps arg p E1) in Ha. rewrite Ha. cbn [rbind]. unfold find_compared. destruct H as [(t & -> & Ht & Hn & H)|[Hn H]].
        -- assert (Es : eqb (Some t) (Some (lit "none")) = false) by (apply eqbF; congruence). rewrite Es. destruct t as [|c t]; [congruence|]. cbn [given]. rewrite (storage_text_none _ stored _ E2 H). reflexivity.
        -- assert (Es : eqb (xa_previous a) (Some (lit "none")) = false) by (apply eqbF; destruct Hn as [-> | ->]; discriminate). rewrite Es. apply given_not in Hn. rewrite Hn, E2. cbn [rbind].
           rewrite (guess_missing _ stored H). reflexivity.
  - unfold command_export. apply given_not in Hp. apply given_iff in Hprev. rewrite Hp, Hprev. reflexivity.
Qed.

(** ** Constructors *)

Lemma exporter_init output p prev links e :
  raw_exporter_init output p prev links = Ok e <->
  re_output e = normpath output /\ re_patch e = p /\ re_previous e = prev /\ (re_symlinks e = true -> prev <> None)
  /\ (links = Some (re_symlinks e) \/ links = None /\ (prev <> None -> re_symlinks e = true)).
Proof.
  unfold raw_exporter_init. split.
  - intros H. apply rbind_Ok in H as (b & Hb & H). injection H as <-. cbn [re_output re_patch re_previous re_symlinks]. split; [reflexivity|]. split; [reflexivity|]. split; [reflexivity|].
    destruct links as [[|]|], prev as [q|]; cbn [andb negb] in Hb; try discriminate; injection Hb as <-; (split; [intros; congruence|]); auto; right; (split; [reflexivity|]); auto; congruence.
  - destruct e as [o p' prev' b]. cbn [re_output re_patch re_previous re_symlinks]. intros (-> & -> & -> & H1 & [-> | [-> H2]]).
    + destruct b, prev; cbn [andb negb rbind]; try reflexivity. exfalso. apply H1; reflexivity.
    + destruct b, prev; cbn [rbind]; try reflexivity; exfalso; [apply H1; reflexivity|]. assert (false = true) by (apply H2; discriminate). discriminate.
Qed.
Lemma exporter_refused output p prev links err : raw_exporter_init output p prev links = Err err <-> err = ValueError /\ links = Some true /\ prev = None.
Proof.
  unfold raw_exporter_init. destruct links as [[|]|], prev as [q|]; cbn [andb negb rbind]; (split; [intros H; try discriminate H; try (injection H as <-; auto) | intros (H1 & H2 & H3); congruence]).
Qed.
Lemma conf_rads cdn c st : dget (lit "type") c = Some (lit "rads") ->
  (from_conf cdn c = Ok st <-> exists path url, st = RadsStorage path url /\ dget (lit "path") c = Some path
   /\ (dget (lit "cdn") c = None /\ url = dget (lit "url") c \/ exists n u, dget (lit "cdn") c = Some n /\ dget (lit "url") c = None /\ cdn n = Some u /\ url = Some u)).
Proof.
  intros Et. unfold from_conf. rewrite Et. cbn [of_opt rbind]. change (eqb (lit "rads") (lit "patcher")) with false. change (eqb (lit "rads") (lit "rads")) with true. cbv iota.
  unfold dhas. destruct (dget (lit "cdn") c) as [n|] eqn:Ec.
  - destruct (dget (lit "url") c) as [u|] eqn:Eu; cbn [rbind].
    + split; [discriminate|]. intros (path & url & _ & _ & [[H _]|(n' & u' & _ & H & _)]); discriminate.
    + destruct (cdn n) as [u|] eqn:En; cbn [of_opt rbind].
      * destruct (dget (lit "path") c) as [path|]; cbn [of_opt rbind].
        -- split; [intros H; injection H as <-; exists path, (Some u); split; [reflexivity|]; split; [reflexivity|]; right; exists n, u; auto|].
           intros (p' & url & -> & Hp & [[H _]|(n' & u' & H1 & _ & H2 & ->)]); [discriminate|]. congruence.
        -- split; [discriminate|]. intros (p' & url & _ & Hp & _). discriminate.
      * split; [discriminate|]. intros (p' & url & _ & _ & [[H _]|(n' & u' & H1 & _ & H2 & _)]); congruence.
  - cbn [rbind]. destruct (dget (lit "path") c) as [path|]; cbn [of_opt rbind].
    + split; [intros H; injection H as <-; exists path, (dget (lit "url") c); auto|]. intros (p' & url & -> & Hp & [[_ ->]|(n' & u' & H1 & _)]); congruence.
    + split; [discriminate|]. intros (p' & url & _ & Hp & _). discriminate.
Qed.
Lemma conf_both cdn c n u : dget (lit "type") c = Some (lit "rads") -> dget (lit "cdn") c = Some n -> dget (lit "url") c = Some u -> from_conf cdn c = Err ValueError.
Proof. intros Et Ec Eu. unfold from_conf, dhas. rewrite Et, Ec, Eu. reflexivity. Qed.
Lemma conf_unknown cdn c t : dget (lit "type") c = Some t -> t <> lit "patcher" -> t <> lit "rads" -> from_conf cdn c = Err ValueError.
Proof.
  intros Et H1 H2. unfold from_conf. rewrite Et. cbn [of_opt rbind]. destruct (eqbP t (lit "patcher")); [contradiction|]. destruct (eqbP t (lit "rads")); [contradiction|]. reflexivity.
Qed.
