(** * Proofs about the elements of a patcher storage *)

From Verif Require Import Base.Py Base.Text Base.PyFacts Base.TextFacts Base.Fs Base.FsDir Spec.FsSpec Base.FsFacts Base.FsLinks Spec.FilesSpec Model.Version Model.Files Proofs.FilesProofs Model.Rman Model.Patcher
  Model.Releases Spec.ReleasesSpec Proofs.ReleasesProofs Model.PatchCache Spec.PatchCacheSpec Proofs.PatchCacheProofs Model.PatcherList Spec.PatcherListSpec.
Require Import Coq.Sorting.Permutation Coq.Sorting.Sorted.

(** ** Programs which only read at a state *)

Definition gives {A} (f : fs) (p : prog A) (Q : A -> Prop) : Prop :=
  forall pl o pl' f', run p pl f = (o, pl', f') -> f' = f /\ forall a, o = Done a -> Q a.
Lemma gives_ret {A} f (a : A) (Q : A -> Prop) : Q a -> gives f (Ret a) Q.
Proof. intros H pl o pl' f' E. cbn [run] in E. injection E as <- _ <-. split; [reflexivity|]. intros x Ex. injection Ex as <-. exact H. Qed.
Lemma gives_bind {A B} f (p : prog A) (k : A -> prog B) Q Q' : gives f p Q -> (forall a, Q a -> gives f (k a) Q') -> gives f (bind p k) Q'.
Proof.
  intros Hp Hk pl o pl' f' E. rewrite run_bind in E. destruct (run p pl f) as [[[a|e|] pl1] f1] eqn:E1; apply Hp in E1 as [-> H1].
  - exact (Hk a (H1 a eq_refl) _ _ _ _ E).
  - injection E as <- _ <-. split; [reflexivity | discriminate].
  - injection E as <- _ <-. split; [reflexivity | discriminate].
Qed.
Lemma gives_reading {A} f (p : prog A) : reading p -> gives f p (fun a => result_of p f = Done a).
Proof. intros H pl o pl' f' E. exact (H _ _ _ _ _ E). Qed.
Lemma gives_impl {A} f (p : prog A) (Q Q' : A -> Prop) : (forall a, Q a -> Q' a) -> gives f p Q -> gives f p Q'.
Proof. intros H Hp pl o pl' f' E. apply Hp in E as [-> E]. auto. Qed.
Lemma gives_result {A} f (p : prog A) Q a : gives f p Q -> result_of p f = Done a -> run p [] f = (Done a, [], f) /\ Q a.
Proof. intros H E. destruct (run_nil_plan p f) as (o & f1 & E1). unfold result_of in E. rewrite E1 in E. cbn [fst] in E. subst o. pose proof E1 as E2. apply H in E2 as [-> H2]. auto. Qed.
Lemma result_gives_bind {A B} f (p : prog A) (k : A -> prog B) Q a : gives f p Q -> result_of p f = Done a -> result_of (bind p k) f = result_of (k a) f.
Proof. intros H E. destruct (gives_result f p Q a H E) as [E1 _]. unfold result_of. rewrite run_bind, E1. reflexivity. Qed.

(** Programs with the same executions at a state *)
Definition agree {A} (f : fs) (p p' : prog A) : Prop := forall pl, run p pl f = run p' pl f.
Lemma agree_bind {A B} f (p p' : prog A) (k k' : A -> prog B) Q : agree f p p' -> gives f p Q -> (forall a, Q a -> agree f (k a) (k' a)) -> agree f (bind p k) (bind p' k').
Proof.
  intros H Hp Hk pl. rewrite !run_bind, <- (H pl). destruct (run p pl f) as [[[a|e|] pl1] f1] eqn:E1; [|reflexivity|reflexivity].
  apply Hp in E1 as [-> H1]. apply Hk. exact (H1 a eq_refl).
Qed.

(** ** Elements of a release *)

Lemma truthy_iff u : truthy u = true <-> ~ falsy u.
Proof.
  split.
  - intros H F. destruct F; discriminate.
  - intros H. destruct u as [|[|]|[| |]| |[|]|[|]|[|]]; try reflexivity; exfalso; apply H; constructor.
Qed.
Lemma data_get_some d n u : data_get (url_key n) d = Ok u -> truthy u = true <-> has_element d n u.
Proof.
  unfold data_get. destruct d as [| | | | | |m]; try discriminate. intros E. injection E as E. change (url_key n) with (url_field n) in E. rewrite truthy_iff. split.
  - intros H. exists m. destruct (dget (url_field n) m) as [x|]; [rewrite E; auto|]. exfalso. apply H. rewrite <- E. constructor.
  - intros (m' & _ & _ & H). exact H.
Qed.
Lemma has_data_get d n u : has_element d n u -> data_get (url_key n) d = Ok u /\ truthy u = true.
Proof. intros (m & -> & E & H). unfold data_get. change (url_key n) with (url_field n). rewrite E. split; [reflexivity | apply truthy_iff; exact H]. Qed.
Lemma data_get_dict d n u : data_get (url_key n) d = Ok u -> exists m, d = JObj m.
Proof. destruct d; try discriminate. eauto. Qed.
Lemma has_fun d n u u' : has_element d n u -> has_element d n u' -> u' = u.
Proof. intros H H'. apply has_data_get in H as [H _], H' as [H' _]. rewrite H in H'. injection H' as ->. reflexivity. Qed.
Lemma available_ok names d l : available_elements names d = Ok l -> forall n, In n l <-> In n names /\ exists u, has_element d n u.
Proof.
  revert l. induction names as [|x names IH]; intros l E n; cbn [available_elements] in E.
  - injection E as <-. split; [intros [] | intros [[] _]].
  - apply rbind_Ok in E as (u & Eu & E). apply rbind_Ok in E as (r & Er & E). injection E as <-. specialize (IH r Er n). pose proof (data_get_some d x u Eu) as Hu.
    destruct (truthy u) eqn:Et.
    + cbn [In]. rewrite IH. split; [intros [<-|[H H']]; [split; [auto|]; exists u; apply Hu; reflexivity | auto] | intros [[<-|H] H']; auto].
    + cbn [In]. rewrite IH. split; [intuition|]. intros [[<-|H] [u' H']]; [|eauto]. exfalso. pose proof (has_data_get _ _ _ H') as [E1 E2]. rewrite Eu in E1. injection E1 as ->. congruence.
Qed.
Lemma available_dict m names : exists l, available_elements names (JObj m) = Ok l.
Proof. induction names as [|n t [l IH]]; cbn [available_elements]; [eauto|]. rewrite IH. cbn [data_get rbind]. eauto. Qed.

Section List.
  Variable cwd : path.
  Variable base patchline : str.
  Variable load : bytes -> result json.
  Notation ready_ := (releases_ready cwd base patchline).
  Notation release_at := (release_at cwd base patchline load).
  Notation stored := (stored cwd base patchline).

  (** What is said of an element. *)
  Definition element_of (names : list str) (v : Z) (d : json) (K : Z -> str -> option version -> Prop) (x : listed) : Prop :=
    ls_release x = v /\ In (ls_name x) names /\ has_element d (ls_name x) (ls_url x) /\ K v (ls_name x) (ls_version x).
  Definition all_of (names : list str) (v : Z) (d : json) (K : Z -> str -> option version -> Prop) (l : list listed) : Prop :=
    Forall (element_of names v d K) l /\ available_elements names d = Ok (map ls_name l).

  Section Ver.
    Variable ver : Z -> str -> json -> prog (option version).
    Variable K : Z -> str -> option version -> Prop.
    Lemma elements_gives f v d : (forall n u, element_name n -> has_element d n u -> gives f (ver v n u) (K v n)) ->
      forall names, (forall n, In n names -> element_name n) -> gives f (patch_elements_of ver names v d) (all_of names v d K).
    Proof.
      intros Hver. induction names as [|n names IH]; intros Hn; cbn [patch_elements_of].
      - apply gives_ret. split; [constructor | reflexivity].
      - apply (gives_bind _ _ _ (fun u => data_get (url_key n) d = Ok u)).
        { eapply gives_impl; [|apply gives_reading; apply reading_lift]. intros u E. destruct (data_get (url_key n) d); cbn in E; [injection E as ->; reflexivity | discriminate]. }
        intros u Eu. assert (IH' : gives f (patch_elements_of ver names v d) (all_of names v d K)) by (apply IH; intros x Hx; apply Hn; right; exact Hx).
        pose proof (data_get_some d n u Eu) as Hu. destruct (truthy u) eqn:Et.
        + assert (Hd : has_element d n u) by (apply Hu; reflexivity). eapply gives_bind; [apply Hver; [apply Hn; left; reflexivity | exact Hd]|]. intros w Hw.
          eapply gives_bind; [exact IH'|]. intros r [Hr Ha]. apply gives_ret. split.
          * constructor; [repeat split; cbn; auto|]. eapply Forall_impl; [|exact Hr]. intros x (H1 & H2 & H3 & H4). repeat split; auto. right. exact H2.
          * cbn [available_elements map]. rewrite Eu, Ha. cbn [rbind]. rewrite Et. reflexivity.
        + eapply gives_impl; [|exact IH']. intros r [Hr Ha]. split.
          * eapply Forall_impl; [|exact Hr]. intros x (H1 & H2 & H3 & H4). repeat split; auto. right. exact H2.
          * cbn [available_elements]. rewrite Eu, Ha. cbn [rbind]. rewrite Et. reflexivity.
    Qed.
    Lemma elements_agree f v d ver' : (forall n u, element_name n -> has_element d n u -> gives f (ver v n u) (K v n)) ->
      (forall n u, element_name n -> has_element d n u -> agree f (ver v n u) (ver' v n u)) ->
      forall names, (forall n, In n names -> element_name n) -> agree f (patch_elements_of ver names v d) (patch_elements_of ver' names v d).
    Proof.
      intros Hver Ha. induction names as [|n names IH]; intros Hn; cbn [patch_elements_of]; [intros pl; reflexivity|].
      eapply agree_bind; [intros pl; reflexivity | |].
      { apply (gives_impl _ _ (fun u => result_of (lift (data_get (url_key n) d)) f = Done u)); [intros u E; exact E|]. apply gives_reading, reading_lift. }
      intros u Eu. assert (Eu' : data_get (url_key n) d = Ok u) by (destruct (data_get (url_key n) d); cbn in Eu; [injection Eu as ->; reflexivity | discriminate]).
      assert (Hn' : forall x, In x names -> element_name x) by (intros x Hx; apply Hn; right; exact Hx). specialize (IH Hn').
      pose proof (data_get_some d n u Eu') as Hu. destruct (truthy u) eqn:Et; [|exact IH].
      assert (Hd : has_element d n u) by (apply Hu; reflexivity). assert (He : element_name n) by (apply Hn; left; reflexivity).
      eapply agree_bind; [apply Ha; assumption | apply Hver; assumption |]. intros w _.
      eapply agree_bind; [exact IH | apply elements_gives; [exact Hver | exact Hn'] |]. intros r _ pl. reflexivity.
    Qed.
    Lemma elements_total f v m : (forall n u, element_name n -> has_element (JObj m) n u -> gives f (ver v n u) (K v n) /\ exists w, result_of (ver v n u) f = Done w) ->
      forall names, (forall n, In n names -> element_name n) -> exists l, result_of (patch_elements_of ver names v (JObj m)) f = Done l.
    Proof.
      intros Hver. induction names as [|n names IH]; intros Hn; cbn [patch_elements_of]; [eexists; reflexivity|].
      assert (Hn' : forall x, In x names -> element_name x) by (intros x Hx; apply Hn; right; exact Hx). specialize (IH Hn'). destruct IH as [l IH].
      rewrite result_bind by apply reading_lift. destruct (data_get (url_key n) (JObj m)) as [u|e] eqn:Eu; [|discriminate]. cbn [lift]. change (result_of (Ret u) f) with (Done u). cbv iota.
      pose proof (data_get_some _ n u Eu) as Hu. destruct (truthy u) eqn:Et; [|eauto].
      assert (Hd : has_element (JObj m) n u) by (apply Hu; reflexivity). assert (He : element_name n) by (apply Hn; left; reflexivity).
      destruct (Hver n u He Hd) as [Hg [w Hw]]. erewrite result_gives_bind; [|exact Hg | exact Hw].
      erewrite result_gives_bind; [|apply elements_gives; [intros; apply Hver; assumption | exact Hn'] | exact IH]. eexists. reflexivity.
    Qed.
  End Ver.

  Lemma names_are n : In n element_names -> element_name n.
  Proof. intros [<-|[<-|[]]]; [left | right]; reflexivity. Qed.

  (** ** Releases *)

  Section Releases.
    Variable ver : Z -> str -> json -> prog (option version).
    Variable K : Z -> str -> option version -> Prop.
    Variable f : fs.
    Hypothesis R : ready_ f.
    Hypothesis Hver : forall v d n u, release_at f v d -> element_name n -> has_element d n u -> gives f (ver v n u) (K v n).
    Notation list_ := (list_elements cwd base patchline load ver).
    Notation iter_ := (load_releases cwd base patchline load).

    (** The list of elements is made from the list of releases. *)
    Inductive from_releases : list (Z * json) -> list listed -> Prop :=
    | fr_nil : from_releases [] []
    | fr_cons v d rs e l : release_at f v d -> all_of element_names v d K e -> from_releases rs l -> from_releases ((v, d) :: rs) (e ++ l).
    Lemma list_gives vs : gives f (list_ vs) (fun l => exists rs, result_of (iter_ vs) f = Done rs /\ from_releases rs l).
    Proof.
      induction vs as [|v vs IH]; cbn [list_elements load_releases].
      - apply gives_ret. exists []. split; [reflexivity | constructor].
      - eapply gives_bind; [apply gives_reading; apply reading_query|]. intros b Eb. destruct b.
        + eapply gives_bind; [apply gives_reading; apply load_release_reading|]. intros d Ed. pose proof (proj1 (load_release_done cwd base patchline load f v d R) Ed) as Hd.
          eapply gives_bind; [apply elements_gives; [intros n u; apply Hver; exact Hd | apply names_are]|]. intros e He.
          eapply gives_bind; [exact IH|]. intros r (rs & Er & Hr). apply gives_ret. exists ((v, d) :: rs). split; [|constructor; assumption].
          rewrite result_bind by apply reading_query. rewrite Eb. rewrite result_bind by apply load_release_reading. rewrite Ed.
          rewrite result_bind by apply load_releases_reading. rewrite Er. reflexivity.
        + eapply gives_impl; [|exact IH]. intros r (rs & Er & Hr). exists rs. split; [|exact Hr]. rewrite result_bind by apply reading_query. rewrite Eb. exact Er.
    Qed.
    Lemma list_agree ver' vs : (forall v d n u, release_at f v d -> element_name n -> has_element d n u -> agree f (ver v n u) (ver' v n u)) ->
      agree f (list_ vs) (list_elements cwd base patchline load ver' vs).
    Proof.
      intros Ha. induction vs as [|v vs IH]; cbn [list_elements]; [intros pl; reflexivity|].
      eapply agree_bind; [intros pl; reflexivity | apply gives_reading; apply reading_query |]. intros b _. destruct b; [|exact IH].
      eapply agree_bind; [intros pl; reflexivity | apply gives_reading; apply load_release_reading |]. intros d Ed. pose proof (proj1 (load_release_done cwd base patchline load f v d R) Ed) as Hd.
      eapply agree_bind; [eapply elements_agree; [intros n u; apply Hver; exact Hd | intros n u; apply (Ha v d); exact Hd | apply names_are] | apply elements_gives; [intros n u; apply Hver; exact Hd | apply names_are] |].
      intros e _. eapply agree_bind; [exact IH | apply list_gives |]. intros r _ pl. reflexivity.
    Qed.
    Lemma list_total_ vs : (forall v d n u, release_at f v d -> element_name n -> has_element d n u -> exists w, result_of (ver v n u) f = Done w) ->
      (forall v, stored f v -> exists m, release_at f v (JObj m)) -> exists l, result_of (list_ vs) f = Done l.
    Proof.
      intros Ht Hs. induction vs as [|v vs [l IH]]; cbn [list_elements]; [eexists; reflexivity|].
      rewrite result_bind by apply reading_query. rewrite result_isfile. pose proof (isfile_ready _ _ _ (ready_release _ _ _ f v R)) as Hf.
      destruct (release_facts _ _ _ f v R) as [_ Htt]. rewrite Htt in Hf. destruct (f_isfile cwd (release_path base patchline v) f); [|eauto].
      destruct (Hs v (proj1 Hf eq_refl)) as [m Hm]. rewrite result_bind by apply load_release_reading. rewrite (proj2 (load_release_done cwd base patchline load f v _ R) Hm).
      destruct (elements_total ver K f v m) with (names := element_names) as [e Ee]; [intros n u Hn Hu; split; [eapply Hver; eassumption | eapply Ht; eassumption] | apply names_are |].
      erewrite result_gives_bind; [|apply elements_gives; [intros n u; apply Hver; exact Hm | apply names_are] | exact Ee].
      erewrite result_gives_bind; [|apply list_gives | exact IH]. eexists. reflexivity.
    Qed.

    Lemma all_In v d e : all_of element_names v d K e -> forall x, In x e -> element_of element_names v d K x.
    Proof. intros [H _] x. rewrite Forall_forall in H. apply H. Qed.
    Lemma from_In rs l : from_releases rs l -> forall x, In x l -> exists d, In (ls_release x, d) rs /\ element_of element_names (ls_release x) d K x.
    Proof.
      induction 1 as [|v d rs e l Hd He _ IH]; intros x; [intros []|]. intros Hx. apply in_app_iff in Hx as [Hx|Hx].
      - exists d. pose proof (all_In _ _ _ He x Hx) as H. pose proof H as [-> _]. split; [left; reflexivity | exact H].
      - destruct (IH x Hx) as (d' & H1 & H2). exists d'. split; [right; exact H1 | exact H2].
    Qed.
    Lemma from_all rs l : from_releases rs l -> forall v d n u, In (v, d) rs -> element_name n -> has_element d n u -> exists w, In {| ls_release := v; ls_name := n; ls_url := u; ls_version := w |} l /\ K v n w.
    Proof.
      induction 1 as [|v0 d0 rs e l Hd He _ IH]; intros v d n u; [intros []|]. intros [E|Hi] Hn Hu.
      - injection E as -> ->. pose proof (all_In _ _ _ He) as Hx. destruct He as [_ He]. pose proof (available_ok _ _ _ He n) as Hav.
        assert (In n (map ls_name e)) as Hin. { apply Hav. split; [|eauto]. destruct Hn as [-> | ->]; [left | right; left]; reflexivity. }
        apply in_map_iff in Hin as (x & Ex & Hi). pose proof (Hx x Hi) as (H1 & H2 & H3 & H4). destruct x as [xv xn xu xw]. cbn in *. subst xv xn.
        rewrite (has_fun _ _ _ _ Hu H3) in Hi. exists xw. split; [apply in_app_iff; left; exact Hi | exact H4].
      - destruct (IH v d n u Hi Hn Hu) as (w & Hw & Hk). exists w. split; [apply in_app_iff; right; exact Hw | exact Hk].
    Qed.
    Definition place (x : listed) : Z * str := (ls_release x, ls_name x).
    Lemma pair_sorted d e : forall v, all_of element_names v d K e -> StronglySorted listed_before (map place e).
    Proof.
      intros v [He Ha]. assert (Hv : map place e = map (fun n => (v, n)) (map ls_name e)).
      { rewrite map_map. apply map_ext_in. intros x Hx. rewrite Forall_forall in He. destruct (He x Hx) as (H & _). unfold place. rewrite H. reflexivity. }
      rewrite Hv. clear Hv He. revert Ha. generalize (map ls_name e). clear e. intros l Ha. cbn [element_names available_elements] in Ha.
      apply rbind_Ok in Ha as (u & _ & Ha). apply rbind_Ok in Ha as (r & Hr & Ha). apply rbind_Ok in Hr as (u' & _ & Hr). cbn [rbind] in Hr. injection Hr as <-. injection Ha as <-.
      destruct (truthy u), (truthy u'); cbn [map]; repeat apply SSorted_cons; try apply SSorted_nil; repeat apply Forall_cons; try apply Forall_nil. right. repeat split.
    Qed.
    Lemma sorted_app {A} (P : A -> A -> Prop) l1 l2 : StronglySorted P l1 -> StronglySorted P l2 -> (forall a b, In a l1 -> In b l2 -> P a b) -> StronglySorted P (l1 ++ l2).
    Proof.
      intros H1 H2 H. induction H1 as [|x l1 H1 IH HF]; [exact H2|]. cbn [app]. constructor.
      - apply IH. intros a b Ha. apply H. right. exact Ha.
      - apply Forall_app. split; [exact HF|]. apply Forall_forall. intros b Hb. apply H; [left; reflexivity | exact Hb].
    Qed.
    Lemma from_strict rs l : from_releases rs l -> StronglySorted (fun a b => (b < a)%Z) (map fst rs) -> StronglySorted listed_before (map place l).
    Proof.
      induction 1 as [|v d rs e l Hd He Hl IH]; intros Hs; [constructor|]. cbn [map fst] in Hs. inversion_clear Hs as [|? ? Hs' HF]. rewrite map_app. apply sorted_app.
      - eapply pair_sorted. exact He.
      - apply IH. exact Hs'.
      - intros a b Ha Hb. apply in_map_iff in Ha as (x & <- & Hx). apply in_map_iff in Hb as (y & <- & Hy). apply (all_In _ _ _ He) in Hx as (Ex & _). left. unfold place. cbn [fst]. rewrite Ex.
        rewrite Forall_forall in HF. apply HF. destruct (from_In _ _ Hl y Hy) as (d' & Hd' & _). apply in_map_iff. exists (ls_release y, d'). auto.
    Qed.
    Lemma from_sorted rs l : from_releases rs l -> StronglySorted (fun a b => (b <= a)%Z) (map fst rs) -> StronglySorted (fun a b => (b <= a)%Z) (map ls_release l).
    Proof.
      induction 1 as [|v d rs e l Hd He Hl IH]; intros Hs; [constructor|]. cbn [map fst] in Hs. inversion_clear Hs as [|? ? Hs' HF]. rewrite map_app. apply sorted_app.
      - assert (He' : forall x, In x e -> ls_release x = v) by (intros x Hx; apply (all_In _ _ _ He) in Hx as (Ex & _); exact Ex). clear -He'. induction e as [|x e IHe]; cbn [map]; [constructor|]. constructor.
        + apply IHe. intros y Hy. apply He'. right. exact Hy.
        + apply Forall_forall. intros y Hy. apply in_map_iff in Hy as (y' & <- & Hy). rewrite (He' x (or_introl eq_refl)), (He' y' (or_intror Hy)). lia.
      - apply IH. exact Hs'.
      - intros a b Ha Hb. apply in_map_iff in Ha as (x & <- & Hx). apply in_map_iff in Hb as (y & <- & Hy). apply (all_In _ _ _ He) in Hx as (Ex & _). rewrite Ex.
        rewrite Forall_forall in HF. apply HF. destruct (from_In _ _ Hl y Hy) as (d' & Hd' & _). apply in_map_iff. exists (ls_release y, d'). auto.
    Qed.

    Variable order : list str -> list str.
    Hypothesis order_perm : forall l, Permutation (order l) l.
    Notation listing_ := (listing cwd base patchline load order ver).
    Notation iter := (iter_releases cwd base patchline load order).
    Lemma listing_gives : gives f listing_ (fun l => exists rs, result_of iter f = Done rs /\ from_releases rs l).
    Proof.
      unfold listing, iter_releases. eapply gives_bind; [apply gives_reading; apply reading_query|]. intros b Eb. destruct b.
      - eapply gives_bind; [apply gives_reading; apply reading_listdir|]. intros l El. eapply gives_impl; [|apply list_gives]. intros r (rs & Er & Hr). exists rs. split; [|exact Hr].
        rewrite result_bind by apply reading_query. rewrite Eb. rewrite result_bind by apply reading_listdir. rewrite El. exact Er.
      - apply gives_ret. exists []. split; [|constructor]. rewrite result_bind by apply reading_query. rewrite Eb. reflexivity.
    Qed.
    Lemma listing_agree ver' : (forall v d n u, release_at f v d -> element_name n -> has_element d n u -> agree f (ver v n u) (ver' v n u)) ->
      agree f listing_ (listing cwd base patchline load order ver').
    Proof.
      intros Ha. unfold listing. eapply agree_bind; [intros pl; reflexivity | apply gives_reading; apply reading_query |]. intros b _. destruct b; [|intros pl; reflexivity].
      eapply agree_bind; [intros pl; reflexivity | apply gives_reading; apply reading_listdir |]. intros l _. apply list_agree. exact Ha.
    Qed.
    Lemma listing_total : (forall v d n u, release_at f v d -> element_name n -> has_element d n u -> exists w, result_of (ver v n u) f = Done w) ->
      (forall v, stored f v -> exists m, release_at f v (JObj m)) -> exists l, run listing_ [] f = (Done l, [], f).
    Proof.
      intros Ht Hs. assert (H : exists l, result_of listing_ f = Done l).
      { unfold listing. rewrite result_bind by apply reading_query. pose proof (isdir_base cwd base patchline f R) as Hd.
        change (result_of (isdir cwd (release_base base patchline)) f) with (Done (f_isdir cwd (release_base base patchline) f)).
        cbv beta iota. destruct (f_isdir cwd (release_base base patchline) f); [|eexists; reflexivity].
        apply proj1 in Hd. specialize (Hd eq_refl). rewrite result_bind by apply reading_listdir. rewrite result_listdir by assumption. apply list_total_; assumption. }
      destruct H as [l H]. exists l. eapply (proj1 (gives_result f listing_ _ l listing_gives H)).
    Qed.
  End Releases.
End List.

(** ** Versions *)

Section Versions.
  Variable cwd : path.
  Variable enc : str -> bytes.
  Variable base patchline : str.
  Variable load : bytes -> result json.
  Notation ver := (fun get zstd sha1 symlinks parse sets => element_version_of cwd enc base patchline get zstd sha1 symlinks load parse sets).
  Lemma cache_name v n : release_dir base patchline v ++ lit "/patch_version." ++ n = cache_file base patchline v n.
  Proof. unfold release_dir, cache_file. rewrite <- app_assoc. reflexivity. Qed.
  Lemma version_gives get zstd sha1 symlinks parse sets f v n u : cached cwd base patchline f v n ->
    gives f (ver get zstd sha1 symlinks parse sets v n u) (known cwd base patchline f v n).
  Proof.
    intros H. unfold element_version_of, patcher_version. destruct (eqb patchline (lit "pbe")) eqn:Ep.
    - apply eqb_true in Ep. apply gives_ret. left. split; [exact Ep | reflexivity].
    - assert (Hp : patchline <> lit "pbe") by (apply eqbF; exact Ep). destruct H as [H|[s H]]; [contradiction|]. rewrite cache_name. destruct (hit cwd enc f _ s H) as (_ & H2 & _).
      intros pl o pl' f' E. apply H2 in E as [-> E]. split; [reflexivity|]. intros a ->. right. split; [exact Hp|]. exists s. split; [exact H | exact (E a eq_refl)].
  Qed.
  Lemma version_agree get zstd sha1 symlinks parse sets get' zstd' sha1' symlinks' parse' sets' f v n u : cached cwd base patchline f v n ->
    agree f (ver get zstd sha1 symlinks parse sets v n u) (ver get' zstd' sha1' symlinks' parse' sets' v n u).
  Proof.
    intros H pl. unfold element_version_of, patcher_version. destruct (eqb patchline (lit "pbe")) eqn:Ep; [reflexivity|].
    assert (Hp : patchline <> lit "pbe") by (apply eqbF; exact Ep). destruct H as [H|[s H]]; [contradiction|]. rewrite cache_name. destruct (hit cwd enc f _ s H) as (_ & _ & H3). apply H3.
  Qed.
  Lemma version_total get zstd sha1 symlinks parse sets f v n u w : known cwd base patchline f v n w ->
    result_of (ver get zstd sha1 symlinks parse sets v n u) f = Done w.
  Proof.
    intros H. unfold element_version_of, patcher_version. destruct H as [[-> ->]|[Hp (s & Hs & Hr)]]; [reflexivity|]. rewrite (proj2 (eqbF _ _) Hp). rewrite cache_name.
    destruct (hit cwd enc f _ s Hs) as (H1 & _ & _). destruct (H1 (retrieve_patcher cwd base get zstd sha1 symlinks (release_dir base patchline v) load sets (element_manifest cwd base get parse u) n)) as (o & E & Ho).
    unfold result_of. rewrite E. cbn [fst]. inversion Hr as [E1 E2|s' v' Hs' Ev E1 E2|]; subst; inversion Ho; subst; try contradiction; try congruence.
  Qed.
  Lemma known_cached f v n w : known cwd base patchline f v n w -> cached cwd base patchline f v n.
  Proof. intros [[H _]|[_ (s & H & _)]]; [left; exact H | right; exists s; exact H]. Qed.
End Versions.

(** ** The first element *)

Section First.
  Variable cwd : path.
  Variable base patchline : str.
  Variable load : bytes -> result json.
  Variable ver : Z -> str -> json -> prog (option version).
  Notation ready_ := (releases_ready cwd base patchline).
  Notation release_at := (release_at cwd base patchline load).
  Notation stored := (stored cwd base patchline).
  Lemma elements_first d n u v pl f l pl' f' : first_element d n u -> run (patch_elements_of ver element_names v d) pl f = (Done l, pl', f') ->
    exists x l', l = x :: l' /\ ls_release x = v /\ ls_name x = n /\ ls_url x = u.
  Proof.
    intros Hf E. cbn [element_names patch_elements_of] in E. rewrite run_bind in E.
    destruct (data_get (url_key (lit "game")) d) as [g|e] eqn:Eg; cbn [lift run] in E; [|discriminate].
    pose proof (data_get_some d _ g Eg) as Hg. destruct (truthy g) eqn:Et.
    - assert (Hd : has_element d (lit "game") g) by (apply Hg; reflexivity). destruct Hf as [[-> Hu]|(_ & _ & Hn)]; [|exfalso; exact (Hn g Hd)].
      rewrite (has_fun _ _ _ _ Hd Hu). rewrite run_bind in E. destruct (run (ver v (lit "game") g) pl f) as [[[w|e|] pl1] f1]; try discriminate.
      rewrite run_bind in E. match type of E with context [run ?p pl1 f1] => destruct (run p pl1 f1) as [[[r|e|] pl2] f2]; try discriminate end.
      cbn [run] in E. injection E as <- _ _. eexists _, _. split; [reflexivity|]. repeat split.
    - destruct Hf as [[-> Hu]|(-> & Hu & _)].
      { exfalso. apply has_data_get in Hu as [E1 E2]. rewrite Eg in E1. injection E1 as ->. congruence. }
      rewrite run_bind in E. apply has_data_get in Hu as [E1 E2]. rewrite E1 in E. cbn [lift run] in E. rewrite E2 in E.
      rewrite run_bind in E. destruct (run (ver v (lit "client") u) pl f) as [[[w|e|] pl1] f1]; try discriminate.
      cbn [bind run] in E. injection E as <- _ _. eexists _, _. split; [reflexivity|]. repeat split.
  Qed.
  (** Releases before the last one are not there. *)
  Lemma list_first f t d n u : ready_ f -> release_at f t d -> first_element d n u -> forall vs pl l pl' f', StronglySorted (fun a b => (b <= a)%Z) vs -> In t vs ->
    (forall v, stored f v -> (v <= t)%Z) -> run (list_elements cwd base patchline load ver vs) pl f = (Done l, pl', f') ->
    exists x l', l = x :: l' /\ ls_release x = t /\ ls_name x = n /\ ls_url x = u.
  Proof.
    intros R Hd Hf. induction vs as [|v vs IH]; intros pl l pl' f' Hs Hi Hm E; [destruct Hi|]. cbn [list_elements] in E. inversion_clear Hs as [|? ? Hs' HF].
    apply reading_bind_run in E as [[_ H]|(b & pl1 & _ & Eb & _ & E)]; [exfalso; exact (H l eq_refl) | |apply reading_query].
    assert (Hb : b = true <-> stored f v).
    { pose proof (isfile_ready _ _ _ (ready_release _ _ _ f v R)) as Hf'. destruct (release_facts _ _ _ f v R) as [_ Htt]. rewrite Htt in Hf'.
      change (Done (f_isfile cwd (release_path base patchline v) f) = Done b) in Eb. injection Eb as <-. exact Hf'. }
    assert (Ht : stored f t) by (eapply release_stored; exact Hd).
    destruct b.
    - assert (v = t) as ->.
      { specialize (Hm v (proj1 Hb eq_refl)). destruct Hi as [->|Hi]; [reflexivity|]. rewrite Forall_forall in HF. specialize (HF t Hi). lia. }
      apply reading_bind_run in E as [[_ H]|(d' & pl2 & _ & Ed & _ & E)]; [exfalso; exact (H l eq_refl) | |apply load_release_reading].
      apply (load_release_done cwd base patchline load f t d' R) in Ed. rewrite (release_fun cwd base patchline load f t d d' Hd Ed) in *.
      rewrite run_bind in E. destruct (run (patch_elements_of ver element_names t d') pl2 f) as [[[e|e|] pl3] f3] eqn:E1; try discriminate.
      rewrite run_bind in E. destruct (run (list_elements cwd base patchline load ver vs) pl3 f3) as [[[r|r|] pl4] f4]; try discriminate. cbn [run] in E. injection E as <- _ _.
      apply (elements_first _ n u) in E1 as (x & l' & -> & Hx); [|exact Hf]. exists x, (l' ++ r). split; [reflexivity | exact Hx].
    - eapply IH; [exact Hs' | | exact Hm | exact E]. destruct Hi as [->|Hi]; [|exact Hi]. apply Hb in Ht. discriminate.
  Qed.
  Variable order : list str -> list str.
  Hypothesis order_perm : forall l, Permutation (order l) l.
  Lemma listing_first f t d n u pl l pl' f' : ready_ f -> release_at f t d -> first_element d n u -> (forall v, stored f v -> (v <= t)%Z) ->
    run (listing cwd base patchline load order ver) pl f = (Done l, pl', f') -> exists x l', l = x :: l' /\ ls_release x = t /\ ls_name x = n /\ ls_url x = u.
  Proof.
    intros R Hd Hf Hm E. unfold listing in E. assert (Ht : stored f t) by (eapply release_stored; exact Hd). destruct (release_entry _ _ _ f t R Ht) as [H1 H2].
    apply reading_bind_run in E as [[_ H]|(b & pl1 & _ & Eb & _ & E)]; [exfalso; exact (H l eq_refl) | |apply reading_query].
    change (Done (f_isdir cwd (release_base base patchline) f) = Done b) in Eb. injection Eb as Eb. rewrite (proj2 (isdir_base cwd base patchline f R) H1) in Eb. subst b.
    apply reading_bind_run in E as [[_ H]|(ns & pl2 & _ & En & _ & E)]; [exfalso; exact (H l eq_refl) | |apply reading_listdir].
    change (result_of (listdir order cwd (release_base base patchline)) f = Done ns) in En. rewrite result_listdir in En by assumption. injection En as <-.
    eapply list_first; [exact R | exact Hd | exact Hf | | | exact Hm | exact E].
    - apply (sorted_versions cwd order order_perm).
    - eapply Permutation_in; [apply py_sorted_rev_perm|]. apply versions_In. exists (decZ t). split; [|apply int10_decZ].
      eapply Permutation_in; [symmetry; apply order_perm|]. apply names_In. rewrite H2. discriminate.
  Qed.
End First.
