(** * Proofs about component strings *)

From Verif Require Import Base.TextFacts Model.Version Model.Storage Model.Component Spec.ComponentSpec.

Lemma is_digit_iff c : is_digit c = true <-> 48 <= c <= 57.
Proof. unfold is_digit. lia. Qed.

Lemma ver_run_app st s1 s2 :
  ver_run st (s1 ++ s2) = match ver_run st s1 with Some st' => ver_run st' s2 | None => None end.
Proof.
  revert st. induction s1 as [|c t IH]; intros st; cbn [ver_run app]; [reflexivity|].
  destruct (ver_step st c); [apply IH | reflexivity].
Qed.
Lemma ver_run_digits st d : number d ->
  ver_run st d = Some (match st with VStart | VFirst => VFirst | _ => VGroup end).
Proof.
  intros [Hne HF]. destruct d as [|c d]; [congruence|]. inversion HF as [|? ? Hc HF']; subst.
  cbn [ver_run]. unfold ver_step. rewrite (proj2 (is_digit_iff c) Hc).
  assert (G : forall st', st' = VFirst \/ st' = VGroup -> ver_run st' d = Some st').
  { clear -HF'. induction HF' as [|x d Hx HF IH]; intros st' Hst; cbn [ver_run]; [reflexivity|].
    unfold ver_step. rewrite (proj2 (is_digit_iff x) Hx). destruct Hst as [->| ->]; apply IH; auto. }
  destruct st; apply G; auto.
Qed.

Definition st_lang (st : vstate) (s : str) : Prop :=
  match st with
  | VStart => s = []
  | VFirst => number s
  | VNeed => exists s', dotted_version s' /\ s = s' ++ [46]
  | VGroup => exists s' d, dotted_version s' /\ number d /\ s = s' ++ 46 :: d
  | VDot => exists s' d, dotted_version s' /\ number d /\ s = s' ++ 46 :: d ++ [46]
  end.

Lemma number_snoc d c : number d -> 48 <= c <= 57 -> number (d ++ [c]).
Proof. intros [Hne HF] Hc. split; [destruct d; discriminate|]. apply Forall_app. split; [assumption | repeat constructor; apply Hc]. Qed.
Lemma number_one c : 48 <= c <= 57 -> number [c].
Proof. intros Hc. split; [discriminate | repeat constructor; apply Hc]. Qed.

Lemma ver_run_lang s st : ver_run VStart s = Some st -> st_lang st s.
Proof.
  revert st. induction s as [|c s IH] using rev_ind; intros st.
  - intros E. injection E as <-. reflexivity.
  - rewrite ver_run_app. destruct (ver_run VStart s) as [st0|]; [|discriminate]. specialize (IH st0 eq_refl).
    cbn [ver_run]. unfold ver_step. destruct (is_digit c) eqn:Ed.
    + apply is_digit_iff in Ed. destruct st0; intros E; injection E as <-; cbn [st_lang] in *.
      * subst s. apply number_one. assumption.
      * apply number_snoc; assumption.
      * destruct IH as (s' & Hs' & ->). exists s', [c]. split; [assumption|]. split; [apply number_one; assumption|].
        rewrite <- app_assoc. reflexivity.
      * destruct IH as (s' & d & Hs' & Hd & ->). exists s', (d ++ [c]). split; [assumption|].
        split; [apply number_snoc; assumption|]. rewrite <- app_assoc. reflexivity.
      * destruct IH as (s' & d & Hs' & Hd & ->). exists (s' ++ 46 :: d), [c].
        split; [apply dv_group; assumption|]. split; [apply number_one; assumption|].
        rewrite <- !app_assoc. cbn [app]. rewrite <- app_assoc. reflexivity.
    + destruct (N.eqb_spec c cDot) as [->|Hc]; [|discriminate].
      destruct st0; intros E; try discriminate E; injection E as <-; cbn [st_lang] in *.
      * exists s. split; [apply dv_one; assumption | reflexivity].
      * destruct IH as (s' & d & Hs' & Hd & ->). exists s', d. split; [assumption|]. split; [assumption|].
        rewrite <- app_assoc. reflexivity.
      * destruct IH as (s' & d & Hs' & Hd & ->). exists (s' ++ 46 :: d ++ [46]).
        split; [apply dv_group_dot; assumption | reflexivity].
Qed.

Lemma dotted_run s : dotted_version s ->
  exists st, ver_run VStart s = Some st /\ (st = VFirst \/ st = VGroup \/ st = VDot).
Proof.
  induction 1 as [d Hd | s d Hs (st & E & Hst) Hd | s d Hs (st & E & Hst) Hd].
  - exists VFirst. rewrite ver_run_digits by assumption. auto.
  - rewrite ver_run_app, E. destruct Hst as [->|[->| ->]]; cbn [ver_run].
    + change (ver_step VFirst 46) with (Some VNeed). cbn iota. rewrite ver_run_digits by assumption. exists VGroup. auto.
    + change (ver_step VGroup 46) with (Some VDot). cbn iota. rewrite ver_run_digits by assumption. exists VGroup. auto.
    + change (ver_step VDot 46) with (Some VNeed). cbn iota. rewrite ver_run_digits by assumption. exists VGroup. auto.
  - rewrite ver_run_app, E. destruct Hst as [->|[->| ->]]; cbn [ver_run].
    + change (ver_step VFirst 46) with (Some VNeed). cbn iota. rewrite ver_run_app, ver_run_digits by assumption. exists VDot. auto.
    + change (ver_step VGroup 46) with (Some VDot). cbn iota. rewrite ver_run_app, ver_run_digits by assumption. exists VDot. auto.
    + change (ver_step VDot 46) with (Some VNeed). cbn iota. rewrite ver_run_app, ver_run_digits by assumption. exists VDot. auto.
Qed.

Lemma ver_accept_iff s : ver_accept s = true <-> dotted_version s.
Proof.
  unfold ver_accept. split.
  - intros E. destruct (ver_run VStart s) as [st|] eqn:Er; [|discriminate]. apply ver_run_lang in Er.
    destruct st; try discriminate E; cbn [st_lang] in Er.
    + apply dv_one. assumption.
    + destruct Er as (s' & d & Hs & Hd & ->). apply dv_group; assumption.
    + destruct Er as (s' & d & Hs & Hd & ->). apply dv_group_dot; assumption.
  - intros H. destruct (dotted_run s H) as (st & -> & [->|[->| ->]]); reflexivity.
Qed.

Lemma dotted_chars s : dotted_version s -> Forall (fun c => 46 <= c <= 57) s.
Proof.
  assert (Hnum : forall d, number d -> Forall (fun c => 46 <= c <= 57) d).
  { intros d [_ HF]. eapply Forall_impl; [|exact HF]. cbn. lia. }
  induction 1 as [d Hd | s d Hs IH Hd | s d Hs IH Hd]; [auto | |].
  - apply Forall_app. split; [assumption | constructor; [lia | auto]].
  - apply Forall_app. split; [assumption | constructor; [lia|]]. apply Forall_app. split; [auto | repeat constructor; lia].
Qed.
Lemma version_part_no_nl v : version_part v -> ~ In 10 v.
Proof.
  intros [->|[->|Hd]]; [intros [] | cbn; intuition discriminate |].
  apply dotted_chars in Hd. rewrite Forall_forall in Hd. intros Hi. specialize (Hd 10 Hi). lia.
Qed.
Lemma version_part_b v :
  eqb v [] || ver_accept v || eqb v (lit "main") = true <-> version_part v.
Proof. unfold version_part. rewrite !orb_true_iff, !eqbT, ver_accept_iff. tauto. Qed.

Lemma removelast_snoc {A} (l : list A) x : removelast (l ++ [x]) = l.
Proof. rewrite removelast_app by discriminate. cbn. apply app_nil_r. Qed.

Lemma match_component_iff c name v :
  match_component c = Some (name, v) <-> component_text name v c.
Proof.
  unfold match_component.
  set (try_name := try_component c).
  assert (T1 : forall n m v, try_name n = Some (m, v) ->
     m = n /\ version_part v /\ (c = n ++ lit "=" ++ v \/ c = n ++ lit "=" ++ v ++ [10])).
  { intros n m w. unfold try_name, try_component. cbn zeta. destruct (startswith c (n ++ lit "=")) eqn:Es; [|discriminate].
    apply startswith_iff in Es as (r & ->). unfold drop_prefix. rewrite dropN_app_exact. cbn zeta.
    destruct (endswith r [cNL]) eqn:Ee.
    - apply endswith_iff in Ee as (r' & ->). rewrite removelast_snoc.
      destruct (_ || _) eqn:Ev; [|discriminate]. intros E. injection E as <- <-.
      split; [reflexivity|]. split; [apply version_part_b; assumption|]. right. rewrite <- !app_assoc. reflexivity.
    - destruct (_ || _) eqn:Ev; [|discriminate]. intros E. injection E as <- <-.
      split; [reflexivity|]. split; [apply version_part_b; assumption|]. left. rewrite <- app_assoc. reflexivity. }
  assert (T2 : forall n w, version_part w -> (c = n ++ lit "=" ++ w \/ c = n ++ lit "=" ++ w ++ [10]) -> try_name n = Some (n, w)).
  { intros n w Hw Hc. unfold try_name, try_component. cbn zeta.
    assert (exists r, c = (n ++ lit "=") ++ r /\ (r = w \/ r = w ++ [10])) as (r & -> & Hr).
    { destruct Hc as [->| ->]; [exists w | exists (w ++ [10])]; rewrite <- app_assoc; auto. }
    rewrite startswith_app. unfold drop_prefix. rewrite dropN_app_exact. cbn zeta.
    replace (if endswith r [cNL] then removelast r else r) with w.
    - apply version_part_b in Hw. rewrite Hw. reflexivity.
    - destruct Hr as [->| ->].
      + destruct (endswith w [cNL]) eqn:Ee; [|reflexivity]. exfalso.
        apply endswith_iff in Ee as (r' & ->). apply (version_part_no_nl _ Hw). apply in_or_app. right. left. reflexivity.
      + change [10] with [cNL]. rewrite endswith_app, removelast_snoc. reflexivity. }
  assert (T3 : forall n m w w', In n [lit "patch"; lit "game"; lit "client"] -> In m [lit "patch"; lit "game"; lit "client"] ->
     (c = n ++ lit "=" ++ w \/ c = n ++ lit "=" ++ w ++ [10]) ->
     (c = m ++ lit "=" ++ w' \/ c = m ++ lit "=" ++ w' ++ [10]) -> n = m).
  { intros n m w w' Hn Hm Hc Hc'. cbn [In] in Hn, Hm.
    destruct Hn as [<-|[<-|[<-|[]]]], Hm as [<-|[<-|[<-|[]]]]; try reflexivity; exfalso;
    destruct Hc as [->| ->], Hc' as [Hc'|Hc']; discriminate Hc'. }
  split.
  - intros E. unfold component_text.
    destruct (try_name (lit "patch")) as [[m w]|] eqn:E1.
    { injection E as -> ->. apply T1 in E1 as (-> & ? & ?). split; [left; reflexivity | auto]. }
    destruct (try_name (lit "game")) as [[m w]|] eqn:E2.
    { injection E as -> ->. apply T1 in E2 as (-> & ? & ?). split; [right; left; reflexivity | auto]. }
    apply T1 in E as (-> & ? & ?). split; [right; right; left; reflexivity | auto].
  - intros (Hn & Hv & Hc).
    assert (Ht : try_name name = Some (name, v)) by (apply T2; assumption).
    destruct (try_name (lit "patch")) as [[m w]|] eqn:E1.
    { pose proof (T1 _ _ _ E1) as (-> & Hw & Hc'). 
      assert (lit "patch" = name) by (eapply T3; [left; reflexivity | exact Hn | exact Hc' | exact Hc]). subst. congruence. }
    destruct (try_name (lit "game")) as [[m w]|] eqn:E2.
    { pose proof (T1 _ _ _ E2) as (-> & Hw & Hc').
      assert (lit "game" = name) by (eapply T3; [right; left; reflexivity | exact Hn | exact Hc' | exact Hc]). subst. congruence. }
    cbn [In] in Hn. destruct Hn as [<-|[<-|[<-|[]]]]; congruence.
Qed.

Lemma parse_component_reject listing c :
  (forall name v, ~ component_text name v c) -> parse_component listing c = Err ValueError.
Proof.
  intros H. unfold parse_component. destruct (match_component c) as [[name v]|] eqn:E; [|reflexivity].
  apply match_component_iff in E. exfalso. apply (H name v E).
Qed.

(** Meaning of an accepted component. *)
Lemma dotted_trailing v d : dotted_version v -> v = d ++ [46] -> dotted_version d /\ rstrip (N.eqb cDot) v = d.
Proof.
  intros Hv E. 
  assert (Hd : dotted_version d /\ exists d' c, d = d' ++ [c] /\ 48 <= c <= 57).
  { destruct Hv as [w Hw | s w Hs Hw | s w Hs Hw].
    - exfalso. destruct Hw as [_ HF]. subst w. apply Forall_app in HF as [_ HF]. inversion HF. lia.
    - exfalso. destruct Hw as [Hne HF]. destruct w as [|x w _] using rev_ind; [congruence|].
      rewrite app_comm_cons, app_assoc in E. apply app_inj_tail in E as [_ ->]. apply Forall_app in HF as [_ HF]. inversion HF. lia.
    - rewrite app_comm_cons, app_assoc in E. apply app_inj_tail in E as [<- _]. split; [apply dv_group; assumption|].
      destruct Hw as [Hne HF]. destruct w as [|x w _] using rev_ind; [congruence|].
      exists (s ++ 46 :: w), x. rewrite <- app_assoc. split; [reflexivity|]. apply Forall_app in HF as [_ HF]. inversion HF; assumption. }
  destruct Hd as (Hd & d' & c & -> & Hc). split; [assumption|]. subst v.
  rewrite rstrip_app_all by reflexivity. apply rstrip_snoc_false. unfold cDot. lia.
Qed.

Lemma parse_component_meaning listing name v c :
  component_text name v c ->
  let wanted := match v with [] => None | _ => Some (if eqb (last v 0) 46 then removelast v else v) end in
  let latest := match v with [] => true | _ => eqb (last v 0) 46 end in
  parse_component listing c =
  if eqb name (lit "patch") then
    match storage_patch wanted (listing false) with
    | Ok (Some p) => rmap (fun p => CPatch (Some p)) (if latest then patch_latest p else Ok p)
    | Ok None => Ok (CPatch None)
    | Err e => Err e
    end
  else Ok (CElement (patch_element name wanted (listing (match wanted with Some _ => true | None => false end)))).
Proof.
  intros Hc. pose proof Hc as (_ & Hv & _). apply match_component_iff in Hc. cbn zeta. unfold parse_component. rewrite Hc.
  assert (E : (if eqb v [] then (None, true)
      else if endswith v [cDot] then (Some (rstrip (N.eqb cDot) v), true)
      else (Some v, false)) =
      (match v with [] => None | _ => Some (if eqb (last v 0) 46 then removelast v else v) end,
       match v with [] => true | _ => eqb (last v 0) 46 end)).
  { destruct v as [|x v]; [reflexivity|]. set (w := x :: v) in *.
    replace (eqb w []) with false by (symmetry; apply eqbF; discriminate).
    destruct (endswith w [cDot]) eqn:Ee.
    - apply endswith_iff in Ee as (r & Ew). 
      assert (El : last w 0 = 46) by (rewrite Ew; apply last_last).
      assert (Er : removelast w = r) by (rewrite Ew; apply removelast_snoc).
      change (match w with [] => None | _ => Some (if eqb (last w 0) 46 then removelast w else w) end)
        with (Some (if eqb (last w 0) 46 then removelast w else w)).
      change (match w with [] => true | _ => eqb (last w 0) 46 end) with (eqb (last w 0) 46).
      rewrite El, Er, eqbR. f_equal. f_equal.
      destruct Hv as [Hv|[Hv|Hv]]; [discriminate | rewrite Hv in Ew; exfalso; destruct r as [|? [|? [|? [|? [|? ?]]]]]; discriminate |].
      apply dotted_trailing; assumption.
    - destruct (eqbP (last w 0) 46) as [El|El]; [|reflexivity]. exfalso.
      assert (Ew : w = removelast w ++ [46]) by (rewrite <- El; apply app_removelast_last; discriminate).
      rewrite Ew in Ee. change [46] with [cDot] in Ee. rewrite endswith_app in Ee. discriminate. }
  rewrite E. destruct (eqb name (lit "patch")); [|reflexivity].
  destruct (storage_patch _ _) as [[p|]|e]; cbn [rbind]; try reflexivity.
  destruct (match v with [] => true | _ => eqb (last v 0) 46 end); [|reflexivity].
  destruct (patch_latest p); reflexivity.
Qed.

(** ** Configuration *)

Section ConfProofs.
  Variable isdir isfile : str -> bool.
  Variable load_json : str -> result conf.

  Lemma conf_has_type_and_path path c :
    storage_conf_from_path isdir isfile load_json path = Ok c ->
    (exists t, dget (lit "type") c = Some t) /\ (exists p, dget (lit "path") c = Some p).
  Proof.
    assert (HL : forall p c, load_storage_conf load_json p = Ok c ->
      (exists t, dget (lit "type") c = Some t) /\ (exists p, dget (lit "path") c = Some p)).
    { intros p c'. unfold load_storage_conf. destruct (load_json p) as [j|]; cbn [rbind]; [|discriminate].
      unfold dhas. destruct (dget (lit "type") j) as [t|] eqn:Et; [|discriminate]. cbn [negb]. intros E. injection E as <-.
      rewrite dget_dset_other by discriminate. rewrite dget_dset_same. split; eauto. }
    unfold storage_conf_from_path. destruct (isdir path).
    - destruct (isfile _); [apply HL|]. unfold guess_storage_conf. destruct (isdir _); [|discriminate].
      intros E. injection E as <-. split; eexists; reflexivity.
    - destruct (isfile path); [apply HL|]. destruct (cut_first 58 path) as [[t p]|]; intros E; injection E as <-; split; eexists; reflexivity.
  Qed.

  Lemma conf_precedence path :
    let r := storage_conf_from_path isdir isfile load_json path in
    let conf_path := path_join path (lit "cdtb.storage.conf") in
    (isdir path = true -> isfile conf_path = true -> r = load_storage_conf load_json conf_path) /\
    (isdir path = true -> isfile conf_path = false -> isdir (path_join path (lit "channels")) = true ->
       r = Ok [(lit "type", lit "patcher"); (lit "path", path)]) /\
    (isdir path = true -> isfile conf_path = false -> isdir (path_join path (lit "channels")) = false -> r = Err ValueError) /\
    (isdir path = false -> isfile path = true -> r = load_storage_conf load_json path) /\
    (isdir path = false -> isfile path = false -> forall t p, path = t ++ 58 :: p -> ~ In 58 t ->
       r = Ok [(lit "type", t); (lit "path", p)]) /\
    (isdir path = false -> isfile path = false -> ~ In 58 path ->
       r = Ok [(lit "type", lit "patcher"); (lit "path", path)]).
  Proof.
    cbn zeta. unfold storage_conf_from_path, guess_storage_conf.
    split; [|split; [|split; [|split; [|split]]]].
    - intros -> ->. reflexivity.
    - intros -> -> ->. reflexivity.
    - intros -> -> ->. reflexivity.
    - intros -> ->. reflexivity.
    - intros -> -> t p Ep Ht. rewrite Ep, cut_first_app by assumption. reflexivity.
    - intros -> -> Hn. apply cut_first_None in Hn. rewrite Hn. reflexivity.
  Qed.

  (** A loaded configuration keeps all its entries except the path, which is made relative to
      the configuration file. *)
  Lemma load_conf_spec path c c' :
    load_json path = Ok c -> load_storage_conf load_json path = Ok c' ->
    (forall k, k <> lit "path" -> dget k c' = dget k c) /\
    dget (lit "path") c' = Some (normpath (path_join (dirname path) (match dget (lit "path") c with Some p => p | None => lit "." end))).
  Proof.
    intros E. unfold load_storage_conf. rewrite E. cbn [rbind]. destruct (negb _); [discriminate|]. intros E'. injection E' as <-.
    split; [intros k Hk; apply dget_dset_other; assumption | apply dget_dset_same].
  Qed.
End ConfProofs.
