(** * The search of paths in files *)

From Coq Require Import Relations.
From Verif Require Import Base.Py Base.PyFacts Base.Text Base.TextFacts Base.Bin Base.Lines Model.Hashes Model.Patcher Model.Guess Model.GuessPaths Model.GuessChars Model.Grep.
From Verif Require Import Spec.HashesSpec Spec.GuessSpec Spec.GuessPathsSpec Spec.GrepSpec Proofs.HashesProofs Proofs.GuessProofs Proofs.GuessPathsProofs.

(** ** Texts *)

Lemma ascii_Some b p : ascii b = Some p <-> is_text b p.
Proof.
  unfold ascii, is_text. destruct (forallb (fun c => c <? 128) (map b2n b)) eqn:E.
  - assert (HA : Forall (fun x => b2n x < 128) b).
    { apply Forall_forall. intros x Hx. rewrite forallb_forall in E. apply N.ltb_lt, E, in_map. assumption. }
    unfold lower. rewrite map_map. split; [intros F; split; [assumption | congruence] | intros [_ ->]; reflexivity].
  - split; [discriminate|]. intros [HA _]. exfalso. assert (F : forallb (fun c => c <? 128) (map b2n b) = true); [|congruence].
    apply forallb_forall. intros c Hc. apply in_map_iff in Hc as (x & <- & Hx). rewrite Forall_forall in HA. apply N.ltb_lt, HA. assumption.
Qed.
Lemma ascii_None b : ascii b = None <-> exists x, In x b /\ 128 <= b2n x.
Proof.
  unfold ascii. destruct (forallb (fun c => c <? 128) (map b2n b)) eqn:E.
  - split; [discriminate|]. intros (x & Hx & Hn). rewrite forallb_forall in E. specialize (E (b2n x) (in_map _ _ _ Hx)). apply N.ltb_lt in E. lia.
  - split; [intros _ | reflexivity]. induction b as [|x b IH]; [discriminate|]. cbn [map forallb] in E. apply andb_false_iff in E as [E|E].
    + exists x. split; [left; reflexivity | apply N.ltb_ge; assumption].
    + destruct (IH E) as (y & Hy & Hn). exists y. split; [right; assumption | assumption].
Qed.

(** ** Occurrences of names *)

Section Compatible.
  Context {A : Type} `{EqDec A}.
  Definition compatible (a b : list A) : bool := startswith a b || startswith b a.
  Lemma prefix_compatible (a b u v : list A) : a ++ u = b ++ v -> compatible a b = true.
  Proof.
    unfold compatible. revert b. induction a as [|x a IH]; intros b E; [destruct b; reflexivity|]. destruct b as [|y b]; [reflexivity|]. cbn [app] in E. injection E as -> E.
    cbn [startswith]. rewrite eqbR. cbn [andb]. apply IH. assumption.
  Qed.
End Compatible.

Definition apart (names : list bytes) : bool :=
  forallb (fun n => negb (eqb n []) && forallb (fun k => forallb (fun s => negb (compatible (skipn k n) s)) names) (seq 1 (length n - 1))) names.
Lemma apart_at names n : apart names = true -> In n names -> n <> [] /\ forall a n2 s t r, n = a ++ n2 -> a <> [] -> n2 <> [] -> In s names -> n2 ++ t = s ++ r -> False.
Proof.
  intros HA Hn. unfold apart in HA. rewrite forallb_forall in HA. specialize (HA n Hn). apply andb_prop in HA as [H1 H2]. split; [apply negb_true_iff in H1; apply eqbF; assumption|].
  intros a n2 s t r -> Ha H2' Hs E. rewrite forallb_forall in H2. assert (Hi : In (length a) (seq 1 (length (a ++ n2) - 1))).
  { apply in_seq. rewrite app_length. destruct a; [congruence|]. destruct n2; [congruence|]. cbn [length]. lia. }
  specialize (H2 _ Hi). rewrite forallb_forall in H2. specialize (H2 s Hs). rewrite skipn_app, skipn_all, Nat.sub_diag in H2. cbn [skipn app] in H2.
  rewrite (prefix_compatible n2 s t r E) in H2. discriminate.
Qed.

Lemma starts_skip names k : forall pos s, name_starts names k pos s = name_starts names 0 (pos + N.of_nat k) (skipn k s).
Proof.
  induction k as [|k IH]; intros pos s; [cbn [skipn]; f_equal; lia|]. destruct s as [|c t]; [reflexivity|]. cbn [skipn]. cbn [name_starts]. rewrite IH. f_equal. lia.
Qed.
Lemma app_longer {A} (a b c d : list A) : a ++ b = c ++ d -> (length a <= length c)%nat -> exists e, c = a ++ e /\ b = e ++ d.
Proof.
  revert c. induction a as [|x a IH]; intros c E Hl; [exists c; split; [reflexivity | assumption]|]. destruct c as [|y c]; [cbn [length] in Hl; lia|].
  cbn [app] in E. injection E as -> E. destruct (IH c E) as (e & -> & ->); [cbn [length] in Hl; lia|]. exists e. split; reflexivity.
Qed.
Lemma starts_In names : apart names = true -> forall n pos s, (length s <= n)%nat -> forall i, In i (name_starts names 0 pos s) <-> exists a m r, s = a ++ m ++ r /\ In m names /\ i = pos + lenN a.
Proof.
  intros HA. induction n as [|n IH]; intros pos s Hl i.
  { destruct s; [|cbn [length] in Hl; lia]. split; [intros []|]. intros (a & m & r & E & Hm & _). symmetry in E. apply app_eq_nil in E as [_ E]. apply app_eq_nil in E as [-> _]. destruct (apart_at names [] HA Hm) as [F _]. congruence. }
  destruct s as [|c t].
  { split; [intros []|]. intros (a & m & r & E & Hm & _). symmetry in E. apply app_eq_nil in E as [_ E]. apply app_eq_nil in E as [-> _]. destruct (apart_at names [] HA Hm) as [F _]. congruence. }
  cbn [name_starts]. destruct (find (startswith (c :: t)) names) as [m|] eqn:Ef.
  - apply find_some in Ef as [Hm Es]. apply startswith_iff in Es as [u Eu]. destruct (apart_at names m HA Hm) as [Hne Hap]. destruct m as [|x m]; [congruence|].
    assert (c = x /\ t = m ++ u) as [-> Et] by (cbn [app] in Eu; split; congruence). clear Eu. rewrite starts_skip. replace (length (x :: m) - 1)%nat with (length m) by (cbn [length]; lia).
    rewrite Et. rewrite skipn_app, skipn_all, Nat.sub_diag. cbn [skipn app]. cbn [In]. rewrite IH; [|rewrite Et in Hl; cbn [length] in Hl; rewrite app_length in Hl; lia]. split.
    + intros [<-|(a & m' & r & -> & Hm' & ->)].
      * exists [], (x :: m), u. split; [reflexivity|]. split; [assumption|]. cbn. lia.
      * exists (x :: m ++ a), m', r. split; [cbn [app]; rewrite <- app_assoc; reflexivity|]. split; [assumption|]. rewrite !lenN_length. cbn [length]. rewrite app_length. lia.
    + intros (a & m' & r & E & Hm' & ->). destruct a as [|y a]; [left; cbn; lia|]. right. assert (E' : (x :: m) ++ u = (y :: a) ++ m' ++ r) by (rewrite <- E; cbn [app]; congruence).
      destruct (Nat.le_gt_cases (length (x :: m)) (length (y :: a))) as [Hle|Hgt].
      * destruct (app_longer _ _ _ _ E' Hle) as (e & Ea & ->). exists e, m', r. split; [reflexivity|]. split; [assumption|]. rewrite Ea, !lenN_length, app_length. cbn [length]. lia.
      * exfalso. destruct (app_longer _ _ _ _ (eq_sym E')) as (e & Ea & Ee); [lia|]. apply (Hap (y :: a) e m' u r Ea); [discriminate | | assumption | symmetry; assumption].
        intros ->. rewrite app_nil_r in Ea. rewrite Ea in Hgt. lia.
  - rewrite IH; [|cbn [length] in Hl; lia]. split.
    + intros (a & m & r & -> & Hm & ->). exists (c :: a), m, r. split; [reflexivity|]. split; [assumption|]. rewrite !lenN_length. cbn [length]. lia.
    + intros (a & m & r & E & Hm & ->). destruct a as [|y a].
      * exfalso. cbn [app] in E. pose proof (find_none _ _ Ef m Hm) as F. rewrite E, startswith_app in F. discriminate.
      * cbn [app] in E. assert (c = y /\ t = a ++ m ++ r) as [<- Et] by (split; congruence). exists a, m, r. split; [assumption|]. split; [assumption|]. rewrite !lenN_length. cbn [length]. lia.
Qed.

(** ** Property files *)

Lemma py_nth_at {A} (a : list A) x b : py_nth (a ++ x :: b) (Z.of_N (lenN a)) = Ok x.
Proof. unfold py_nth. destruct (Z.ltb_spec (Z.of_N (lenN a)) 0) as [F|_]; [lia|]. destruct (Z.ltb_spec (Z.of_N (lenN a)) 0) as [F|_]; [lia|]. rewrite N2Z.id, nthN_app_exact. reflexivity. Qed.
Lemma py_nth_end {A} (a : list A) x b : py_nth (a ++ x :: b) (- Z.of_N (lenN (x :: b))) = Ok x.
Proof.
  unfold py_nth. assert (HL : (0 < lenN (x :: b))%N) by (rewrite lenN_length; cbn [length]; lia). destruct (Z.ltb_spec (- Z.of_N (lenN (x :: b))) 0) as [_|F]; [|lia].
  assert (E : (- Z.of_N (lenN (x :: b)) + Z.of_N (lenN (a ++ x :: b)) = Z.of_N (lenN a))%Z) by (rewrite lenN_app; lia). rewrite E.
  destruct (Z.ltb_spec (Z.of_N (lenN a)) 0) as [F|_]; [lia|]. rewrite N2Z.id, nthN_app_exact. reflexivity.
Qed.
Lemma snoc2 {A} (l : list A) : l = [] \/ (exists x, l = [x]) \/ exists l' x y, l = l' ++ [x; y].
Proof.
  destruct l as [|y l _] using rev_ind; [auto|]. right. destruct l as [|x l _] using rev_ind; [left; exists y; reflexivity|]. right. exists l, x, y. rewrite <- app_assoc. reflexivity.
Qed.
Lemma snoc_inj {A} (a b : list A) x y : a ++ [x] = b ++ [y] -> a = b /\ x = y.
Proof. apply app_inj_tail. Qed.
Lemma snoc2_inj {A} (a b : list A) x y x' y' : a ++ [x; y] = b ++ [x'; y'] -> a = b /\ x = x' /\ y = y'.
Proof.
  change [x; y] with ([x] ++ [y]). change [x'; y'] with ([x'] ++ [y']). rewrite !app_assoc. intros E. apply snoc_inj in E as [E ->]. apply snoc_inj in E as [-> ->]. auto.
Qed.
Definition before (data : bytes) (i : N) : result N :=
  rbind (py_nth data (Z.of_N i - 2)) (fun x => rbind (py_nth data (Z.of_N i - 1)) (fun y => Ok (b2n x + 256 * b2n y))).
Lemma before_ok a b : (2 <= length b)%nat -> exists n, before (a ++ b) (lenN a) = Ok n /\ forall n', length_before a b n' <-> n' = n.
Proof.
  intros Hb. unfold before. destruct (snoc2 a) as [->|[(z & ->)|(a' & x & y & ->)]].
  - destruct (snoc2 b) as [->|[(z & ->)|(b' & x & y & ->)]]; [cbn [length] in Hb; lia | cbn [length] in Hb; lia|]. exists (b2n x + 256 * b2n y). cbn [app]. split.
    + change (Z.of_N (lenN []) - 2)%Z with (- Z.of_N (lenN [x; y]))%Z. rewrite py_nth_end. cbn [rbind]. change [x; y] with ([x] ++ [y]). rewrite app_assoc. change (Z.of_N (lenN []) - 1)%Z with (- Z.of_N (lenN [y]))%Z. rewrite py_nth_end. reflexivity.
    + intros n'. split.
      * intros (x' & y' & -> & [(a' & F)|[(F & _)|(_ & b'' & E)]]); [destruct a'; discriminate | discriminate|]. apply snoc2_inj in E as (_ & -> & ->). reflexivity.
      * intros ->. exists x, y. split; [reflexivity|]. right. right. eauto.
  - destruct b as [|x b _] using rev_ind; [cbn [length] in Hb; lia|]. exists (b2n x + 256 * b2n z). split.
    + change (Z.of_N (lenN [z]) - 2)%Z with (- Z.of_N (lenN [x]))%Z. change (Z.of_N (lenN [z]) - 1)%Z with (Z.of_N (lenN (@nil byte))). rewrite (app_assoc [z] b [x]), py_nth_end. cbn [rbind].
      change (([z] ++ b) ++ [x]) with ([] ++ z :: (b ++ [x])). rewrite py_nth_at. reflexivity.
    + intros n'. split.
      * intros (x' & y' & -> & [(a' & F)|[(F & b' & E)|(F & _)]]); [destruct a' as [|? [|? ?]]; discriminate | | discriminate]. apply snoc_inj in E as [_ ->]. assert (z = y') as -> by congruence. reflexivity.
      * intros ->. exists x, z. split; [reflexivity|]. right. left. split; [reflexivity | eauto].
  - exists (b2n x + 256 * b2n y). split.
    + rewrite lenN_app. change (lenN [x; y]) with 2. replace (Z.of_N (lenN a' + 2) - 2)%Z with (Z.of_N (lenN a')) by lia. replace (Z.of_N (lenN a' + 2) - 1)%Z with (Z.of_N (lenN (a' ++ [x]))) by (rewrite lenN_app; change (lenN [x]) with 1; lia).
      rewrite <- app_assoc. cbn [app]. rewrite py_nth_at. cbn [rbind]. change (a' ++ x :: y :: b) with (a' ++ [x] ++ y :: b). rewrite app_assoc, py_nth_at. reflexivity.
    + intros n'. split.
      * intros (x' & y' & -> & [(a'' & E)|[(F & _)|(F & _)]]); [|destruct a' as [|? [|? ?]]; discriminate | destruct a'; discriminate]. apply snoc2_inj in E as (_ & -> & ->). reflexivity.
      * intros ->. exists x, y. split; [reflexivity|]. left. eauto.
Qed.
Lemma taken {A} (l b : list A) n : b = takeN n l <-> exists c, l = b ++ c /\ (lenN b = n \/ lenN b < n /\ c = []).
Proof.
  split.
  - intros ->. exists (dropN n l). split; [rewrite takeN_dropN; reflexivity|]. rewrite lenN_takeN. destruct (N.le_gt_cases n (lenN l)) as [Hl|Hl]; [left; lia|]. right. split; [lia | apply dropN_all; lia].
  - intros (c & -> & [<-|[Hn ->]]); [rewrite takeN_app_exact; reflexivity | rewrite app_nil_r, takeN_all by lia; reflexivity].
Qed.
Lemma bin_apart : apart bin_names = true.
Proof. vm_compute. reflexivity. Qed.
Lemma bin_long n : In n bin_names -> (2 <= length n)%nat.
Proof. intros Hn. apply Nat.leb_le. revert n Hn. apply forallb_forall. vm_compute. reflexivity. Qed.
Lemma bin_candidates_In data x : In x (bin_candidates data) <-> exists q p, x = Ok q /\ bin_string data p /\ In q (bin_paths p).
Proof.
  unfold bin_candidates. rewrite in_flat_map. split.
  - intros (i & Hi & Hx). apply (starts_In bin_names bin_apart (length data) 0 data (le_n _)) in Hi as (a & s & r & -> & Hs & ->). rewrite N.add_0_l in Hx.
    assert (HL : (2 <= length (s ++ r))%nat) by (rewrite app_length; pose proof (bin_long s Hs); lia). destruct (before_ok a (s ++ r) HL) as (n & E & Hn). unfold before in E. rewrite E in Hx.
    rewrite dropN_app_exact in Hx. destruct (ascii (takeN n (s ++ r))) as [p|] eqn:Ea; [|destruct Hx]. apply in_map_iff in Hx as (q & <- & Hq). exists q, p. split; [reflexivity|]. split; [|assumption].
    destruct (proj1 (taken (s ++ r) (takeN n (s ++ r)) n) eq_refl) as (c & Ec & Hc). exists a, s, r, n, (takeN n (s ++ r)), c. split; [reflexivity|]. split; [assumption|]. split; [apply Hn; reflexivity|]. split; [assumption|]. split; [assumption | apply ascii_Some; assumption].
  - intros (q & p & -> & (a & s & r & n & b & c & -> & Hs & Hn & Eb & Hb & Hp) & Hq). exists (lenN a). split; [apply (starts_In bin_names bin_apart _ 0 _ (le_n _)); exists a, s, r; split; [reflexivity|]; split; [assumption | lia]|].
    assert (HL : (2 <= length (s ++ r))%nat) by (rewrite app_length; pose proof (bin_long s Hs); lia). destruct (before_ok a (s ++ r) HL) as (n' & E & Hn'). apply Hn' in Hn as ->. unfold before in E. rewrite E, dropN_app_exact.
    assert (b = takeN n' (s ++ r)) as <- by (apply taken; eauto). apply ascii_Some in Hp. rewrite Hp. apply in_map. assumption.
Qed.
Lemma without_app x s : without (lenN s) (x ++ s) = x.
Proof. unfold without. rewrite lenN_app. replace (lenN x + lenN s - lenN s) with (lenN x) by lia. apply takeN_app_exact. Qed.
Lemma parent_of_iff p q : parent_of p q <-> q = updir p.
Proof.
  unfold parent_of, updir. destruct (cut_last cSlash p) as [[a b]|] eqn:E.
  - apply cut_last_Some in E as [-> Hb]. split.
    + intros [(n & Hn & E)|[Hn _]]; [|exfalso; apply Hn, in_or_app; right; left; reflexivity]. assert (F : cut_last cSlash (a ++ cSlash :: b) = Some (q, n)) by (rewrite E; apply cut_last_app; assumption).
      rewrite cut_last_app in F by assumption. congruence.
    + intros ->. left. exists b. split; [assumption | reflexivity].
  - apply cut_last_None in E. split.
    + intros [(n & _ & ->)|[_ ->]]; [|reflexivity]. exfalso. apply E, in_or_app. right. left. reflexivity.
    + intros ->. right. auto.
Qed.
Lemma begins_iff s p : begins s p <-> startswith p s = true.
Proof. rewrite startswith_iff. reflexivity. Qed.
Lemma ends_iff s p : ends s p <-> endswith p s = true.
Proof. rewrite endswith_iff. reflexivity. Qed.
Lemma begins_two s t p : begins s p -> begins t p -> compatible s t = true.
Proof. intros [a ->] [b E]. exact (prefix_compatible s t a b E). Qed.
Lemma bin_paths_In p q : In q (bin_paths p) <-> bin_path p q.
Proof.
  unfold bin_paths. destruct (startswith p (lit "characters")) eqn:E1.
  { apply begins_iff in E1. split.
    - intros [<-|[<-|[<-|[]]]]; [apply (bp_character p []) | apply (bp_character p (lit "assets/")) | apply (bp_character p (lit "data/"))]; auto.
    - intros Hq. destruct Hq; try contradiction; [| | | |exfalso; eapply H0; [|exact E1]; left; reflexivity].
      + destruct H0 as [->|[->| ->]]; cbn [In app]; auto.
      + exfalso. pose proof (begins_two _ _ _ E1 H0) as F. vm_compute in F. discriminate.
      + exfalso. pose proof (begins_two _ _ _ E1 H0) as F. vm_compute in F. discriminate.
      + exfalso. pose proof (begins_two _ _ _ E1 H2) as F. destruct H1 as [<-|[<-|[<-|[<-|[]]]]]; vm_compute in F; discriminate. }
  assert (N1 : ~ begins (lit "characters") p) by (rewrite begins_iff; congruence). clear E1. destruct (endswith p (lit ".lua")) eqn:E2.
  { pose proof E2 as E2'. apply ends_iff in E2'. apply endswith_iff in E2 as [x ->]. rewrite (without_app x (lit ".lua") : without 4 (x ++ lit ".lua") = x). split.
    - intros [<-|[<-|[<-|[<-|[]]]]]; apply (bp_lua _ x); cbn [In]; auto.
    - intros Hq. destruct Hq; try contradiction. apply app_inv_tail in H0 as <-. destruct H1 as [<-|[<-|[<-|[<-|[]]]]]; cbn [In]; auto. }
  assert (N2 : ~ ends (lit ".lua") p) by (rewrite ends_iff; congruence). clear E2. assert (N2' : forall x, p <> x ++ lit ".lua") by (intros x F; apply N2; exists x; assumption).
  destruct (startswith p (lit "shaders")) eqn:E3.
  { apply begins_iff in E3. split.
    - intros Hq. apply in_app_or in Hq as [Hq|Hq].
      + apply in_map_iff in Hq as (y & <- & Hy). rewrite <- (app_nil_r y) at 1. apply bp_shader; auto. left. reflexivity.
      + apply in_flat_map in Hq as (y & Hy & Hq). apply in_map_iff in Hq as (z & <- & Hz). apply bp_shader; auto. right. assumption.
    - intros Hq. destruct Hq; try contradiction; [destruct (N2' x H0) | | | |exfalso; eapply H0; [|exact E3]; right; left; reflexivity].
      + apply in_or_app. destruct H2 as [<-|Hz]; [left; rewrite app_nil_r; apply in_map_iff; eauto | right; apply in_flat_map; exists y; split; [assumption | apply in_map_iff; eauto]].
      + exfalso. pose proof (begins_two _ _ _ E3 H0) as F. vm_compute in F. discriminate.
      + exfalso. pose proof (begins_two _ _ _ E3 H2) as F. destruct H1 as [<-|[<-|[<-|[<-|[]]]]]; vm_compute in F; discriminate. }
  assert (N3 : ~ begins (lit "shaders") p) by (rewrite begins_iff; congruence). clear E3. destruct (startswith p (lit "maps/mapgeometry/")) eqn:E4.
  { apply begins_iff in E4. split.
    - intros [<-|[<-|[]]]; apply bp_geometry; auto.
    - intros Hq. destruct Hq; try contradiction; [destruct (N2' x H0) | |].
      + destruct H1 as [->| ->]; cbn [In]; auto.
      + exfalso. apply (H0 (lit "maps")); [cbn [In]; auto 10|]. destruct E4 as [r ->]. exists (lit "/mapgeometry/" ++ r). reflexivity. }
  assert (N4 : ~ begins (lit "maps/mapgeometry/") p) by (rewrite begins_iff; congruence). clear E4. destruct (existsb (startswith p) _) eqn:E5.
  { apply existsb_exists in E5 as (s & Hs & Es). apply begins_iff in Es. split.
    - intros Hq. apply (bp_parents p s (updir p) (updir (updir p))); auto; [apply parent_of_iff; reflexivity | apply parent_of_iff; reflexivity|]. destruct Hq as [<-|[<-|[<-|[]]]]; auto.
    - intros Hq. destruct Hq; try contradiction; [destruct (N2' x H0) | |].
      + apply parent_of_iff in H3. apply parent_of_iff in H4. subst. destruct H5 as [->|[->| ->]]; cbn [In]; auto.
      + exfalso. apply (H0 s); [right; right; assumption | assumption]. }
  assert (N5 : forall s, In s [lit "clientstates"; lit "patching"; lit "loadouts"; lit "maps"] -> ~ begins s p).
  { intros s Hs F. apply begins_iff in F. assert (G : existsb (startswith p) [lit "clientstates"; lit "patching"; lit "loadouts"; lit "maps"] = true) by (apply existsb_exists; eauto). congruence. }
  clear E5. assert (N6 : forall s, In s [lit "characters"; lit "shaders"; lit "clientstates"; lit "patching"; lit "loadouts"; lit "maps"] -> ~ begins s p).
  { intros s [<-|[<-|Hs]]; [assumption | assumption | apply N5; assumption]. }
  split.
  - intros [<-|Hq]; [apply bp_other; auto|]. destruct (endswith p (lit ".png")) eqn:E6; [|destruct Hq]. destruct Hq as [<-|[]]. apply bp_other; auto. right. apply endswith_iff in E6 as [x ->]. exists x. split; [reflexivity|].
    rewrite (without_app x (lit ".png") : without 4 (x ++ lit ".png") = x). reflexivity.
  - intros Hq. destruct Hq; try contradiction; [destruct (N2' x H0) | destruct (N5 s H1 H2) |]. destruct H1 as [->|(x & -> & ->)]; [left; reflexivity|]. right.
    assert (E6 : endswith (x ++ lit ".png") (lit ".png") = true) by (apply endswith_iff; eauto). rewrite E6. left. rewrite (without_app x (lit ".png") : without 4 (x ++ lit ".png") = x). reflexivity.
Qed.

(** ** Quoted texts *)

Lemma quoted_skip key k : forall s, quoted key k s = quoted key 0 (skipn k s).
Proof. induction k as [|k IH]; intros s; [reflexivity|]. destruct s as [|c t]; [reflexivity|]. cbn [skipn]. cbn [quoted]. apply IH. Qed.
Lemma quoted_here_Some key s v : quoted_here key s = Some v <-> v <> [] /\ ~ In x22 v /\ exists r, s = key ++ v ++ x22 :: r.
Proof.
  unfold quoted_here, cQuote. destruct (startswith s key) eqn:E.
  - apply startswith_iff in E as [u ->]. unfold drop_prefix. rewrite dropN_app_exact. destruct (cut_first x22 u) as [[w r]|] eqn:Ec.
    + apply cut_first_Some in Ec as [-> Hw]. split.
      * destruct w as [|x w]; [discriminate|]. intros F. assert (v = x :: w) as -> by congruence. split; [discriminate|]. split; [assumption | eauto].
      * intros (Hv & Hn & r' & E). apply app_inv_head in E. assert (F : cut_first x22 (w ++ x22 :: r) = Some (v, r')) by (rewrite E; apply cut_first_app; assumption). rewrite cut_first_app in F by assumption.
        assert (w = v) as -> by congruence. destruct v; [congruence | reflexivity].
    + split; [discriminate|]. intros (_ & _ & r & E). apply app_inv_head in E as ->. apply cut_first_None in Ec. exfalso. apply Ec, in_or_app. right. left. reflexivity.
  - split; [discriminate|]. intros (_ & _ & r & ->). rewrite startswith_app in E. discriminate.
Qed.
Lemma quotes_here key v s : v <> [] -> ~ In x22 v -> quoted key 0 (key ++ v ++ x22 :: s) = v :: quoted key 0 s.
Proof.
  intros Hv Hn. assert (E : quoted_here key (key ++ v ++ x22 :: s) = Some v) by (apply quoted_here_Some; eauto).
  assert (HK : exists c t, key ++ v ++ x22 :: s = c :: t /\ length t = (length key + length v + length s)%nat).
  { destruct (key ++ v ++ x22 :: s) as [|c t] eqn:Ek; [destruct key, v; discriminate|]. exists c, t. split; [reflexivity|]. apply (f_equal (@length byte)) in Ek. rewrite !app_length in Ek. cbn [length] in Ek. lia. }
  destruct HK as (c & t & Ek & Hl). pose proof E as E'. rewrite Ek in E'. rewrite Ek. cbn [quoted]. rewrite E'. rewrite quoted_skip. f_equal. f_equal.
  change t with (skipn 1 (c :: t)). rewrite <- Ek.
  assert (F : forall (l : bytes) a b, skipn a (skipn b l) = skipn (b + a) l).
  { intros l a b. revert l. induction b as [|b IHb]; intros l; [reflexivity|]. destruct l; [destruct a; reflexivity|]. cbn [skipn Nat.add]. apply IHb. }
  rewrite F. replace (1 + (length key + length v))%nat with (length (key ++ v ++ [x22]) + 0)%nat by (rewrite !app_length; cbn [length]; lia).
  replace (key ++ v ++ x22 :: s) with ((key ++ v ++ [x22]) ++ s) by (rewrite <- !app_assoc; reflexivity). rewrite <- F, skipn_app, skipn_all, Nat.sub_diag. reflexivity.
Qed.
Lemma quotes_iff key s vs : quotes key s vs <-> vs = quoted key 0 s.
Proof.
  split.
  - induction 1 as [|v s vs Hv Hn _ IH|c s vs Hn _ IH]; [reflexivity | rewrite quotes_here by assumption; congruence|].
    cbn [quoted]. destruct (quoted_here key (c :: s)) as [v|] eqn:E; [|assumption]. apply quoted_here_Some in E as (Hv & Hq & r & E). destruct (Hn v r Hv Hq E).
  - intros ->. assert (HI : forall n s, (length s <= n)%nat -> quotes key s (quoted key 0 s)); [|apply (HI (length s)); lia]. clear s.
    induction n as [|n IH]; intros s Hl; [destruct s; [constructor | cbn [length] in Hl; lia]|]. destruct s as [|c t]; [constructor|].
    destruct (quoted_here key (c :: t)) as [v|] eqn:E.
    + pose proof E as E'. apply quoted_here_Some in E' as (Hv & Hq & r & Es). rewrite Es, quotes_here by assumption. apply qu_here; [assumption | assumption|]. apply IH.
      apply (f_equal (@length byte)) in Es. rewrite !app_length in Es. cbn [length] in *. lia.
    + cbn [quoted]. rewrite E. apply qu_skip; [|apply IH; cbn [length] in Hl; lia]. intros v r Hv Hq Es. assert (F : quoted_here key (c :: t) = Some v) by (apply quoted_here_Some; eauto). congruence.
Qed.

(** ** Other files *)

Lemma path_byte_iff b : path_byte b = true <-> path_char b.
Proof.
  unfold path_byte, path_char, is_digit. cbv zeta. rewrite !orb_true_iff, !andb_true_iff, mem_In, !N.leb_le. cbn [In]. unfold cUnder, cDot, cSpace, cSlash, cMinus. intuition lia.
Qed.
Lemma path_run_app u v : Forall path_char u -> path_run (u ++ v) = u ++ path_run v.
Proof. induction 1 as [|c u Hc _ IH]; [reflexivity|]. cbn [app path_run]. rewrite (proj2 (path_byte_iff c) Hc), IH. reflexivity. Qed.
Lemma path_run_spec s : exists t, s = path_run s ++ t /\ Forall path_char (path_run s) /\ forall c r, t = c :: r -> ~ path_char c.
Proof.
  induction s as [|c s (t & E & HF & Ht)]; [exists []; split; [reflexivity|]; split; [constructor | intros ? ? F; discriminate F]|]. cbn [path_run]. destruct (path_byte c) eqn:Ec.
  - exists t. split; [cbn [app]; congruence|]. split; [constructor; [apply path_byte_iff; assumption | assumption] | assumption].
  - exists (c :: s). split; [reflexivity|]. split; [constructor|]. intros c' r F. assert (c = c') as <- by congruence. rewrite <- path_byte_iff. congruence.
Qed.
Lemma path_run_end b : (forall c r, b = c :: r -> ~ path_char c) -> path_run b = [].
Proof. destruct b as [|c r]; [reflexivity|]. intros Hb. cbn [path_run]. destruct (path_byte c) eqn:E; [|reflexivity]. apply path_byte_iff in E. destruct (Hb c r eq_refl E). Qed.
Definition alone (names : list bytes) : bool := forallb (fun n => forallb (fun m => eqb n m || negb (compatible n m)) names) names.
Lemma file_alone : alone file_names = true /\ forallb (forallb path_byte) file_names = true.
Proof. split; vm_compute; reflexivity. Qed.
Lemma file_name_run n : In n file_names -> Forall path_char n.
Proof. intros Hn. destruct file_alone as [_ E]. rewrite forallb_forall in E. specialize (E n Hn). apply Forall_forall. intros c Hc. rewrite forallb_forall in E. apply path_byte_iff, E. assumption. Qed.
Lemma file_name_one n m u v : In n file_names -> In m file_names -> n ++ u = m ++ v -> n = m.
Proof.
  intros Hn Hm E. destruct file_alone as [F _]. unfold alone in F. rewrite forallb_forall in F. specialize (F n Hn). rewrite forallb_forall in F. specialize (F m Hm). rewrite (prefix_compatible n m u v E), orb_false_r in F.
  apply eqb_true in F. assumption.
Qed.
Lemma file_start_run s : file_start (path_run s) <-> file_start s.
Proof.
  unfold file_start. split.
  - intros (n & c & r & Hn & Hc & E). destruct (path_run_spec s) as (t & Es & _). exists n, c, (r ++ t). split; [assumption|]. split; [assumption|]. rewrite Es, E, <- app_assoc. reflexivity.
  - intros (n & c & r & Hn & Hc & ->). exists n, c, (path_run r). split; [assumption|]. split; [assumption|]. rewrite path_run_app by (apply file_name_run; assumption). cbn [path_run]. rewrite (proj2 (path_byte_iff c) Hc). reflexivity.
Qed.
Lemma file_here_Some s m : file_here s = Some m <-> m = path_run s /\ file_start s.
Proof.
  unfold file_here. destruct (find (startswith s) file_names) as [n|] eqn:Ef.
  - apply find_some in Ef as [Hn Es]. apply startswith_iff in Es as [u ->]. unfold drop_prefix. rewrite dropN_app_exact, path_run_app by (apply file_name_run; assumption). split.
    + destruct (path_run u) as [|c r] eqn:Er; [discriminate|]. intros F. split; [congruence|]. destruct (path_run_spec u) as (t & Eu & HF & _). rewrite Er in *. exists n, c, (r ++ t). split; [assumption|]. split; [inversion HF; assumption | rewrite Eu; reflexivity].
    + intros [-> (n' & c & r & Hn' & Hc & E)]. pose proof (file_name_one n n' u (c :: r) Hn Hn' E) as <-. apply app_inv_head in E as ->. cbn [path_run]. rewrite (proj2 (path_byte_iff c) Hc). reflexivity.
  - split; [discriminate|]. intros [_ (n & c & r & Hn & Hc & ->)]. pose proof (find_none _ _ Ef n Hn) as F. rewrite startswith_app in F. discriminate.
Qed.
Lemma file_skip k : forall pos s, file_matches k pos s = file_matches 0 (pos + N.of_nat k) (skipn k s).
Proof.
  induction k as [|k IH]; intros pos s; [cbn [skipn]; f_equal; lia|]. destruct s as [|c t]; [reflexivity|]. cbn [skipn]. cbn [file_matches]. rewrite IH. f_equal. lia.
Qed.
Lemma file_start_nonempty m : file_start m -> m <> [].
Proof. intros (n & c & r & _ & _ & ->) F. apply app_eq_nil in F as [_ F]. discriminate. Qed.
Lemma file_matches_In n : forall pos s i m, (length s <= n)%nat -> (In (i, m) (file_matches 0 pos s) <-> exists a b, s = a ++ m ++ b /\ i = pos + lenN a /\ file_string a m b).
Proof.
  assert (HZ : forall i m pos, False <-> exists a b, [] = a ++ m ++ b /\ i = pos + lenN a /\ file_string a m b).
  { intros i m pos. split; [intros []|]. intros (a & b & E & _ & Hf & _). symmetry in E. apply app_eq_nil in E as [_ E]. apply app_eq_nil in E as [-> _]. exact (file_start_nonempty _ Hf eq_refl). }
  induction n as [|n IH]; intros pos s i m Hl; (destruct s as [|c t]; [apply HZ|]); [cbn [length] in Hl; lia|].
  cbn [file_matches]. destruct (file_here (c :: t)) as [m0|] eqn:Eh.
  - apply file_here_Some in Eh as [Em Hs]. destruct (path_run_spec (c :: t)) as (u & Eu & HF & Hu). rewrite <- Em in *. assert (Hm0 : file_start m0) by (rewrite Em; apply file_start_run; assumption).
    destruct m0 as [|x m0]; [destruct (file_start_nonempty _ Hm0 eq_refl)|]. cbn [app] in Eu. assert (x = c /\ t = m0 ++ u) as [-> Et] by (split; congruence). rewrite file_skip. replace (length (c :: m0) - 1)%nat with (length m0) by (cbn [length]; lia).
    rewrite Et, skipn_app, skipn_all, Nat.sub_diag. cbn [skipn app]. cbn [In]. rewrite IH by (rewrite Et in Hl; cbn [length] in Hl; rewrite app_length in Hl; lia). split.
    + intros [F|(a & b & -> & -> & H1 & H2 & H3 & H4)].
      * assert (pos = i /\ c :: m0 = m) as [<- <-] by (split; congruence). exists [], u. split; [reflexivity|]. split; [cbn; lia|]. split; [assumption|]. split; [assumption|]. split; [assumption|].
        intros a' x E Hx. symmetry in E. apply app_eq_nil in E as [_ E]. contradiction.
      * exists (c :: m0 ++ a), b. split; [cbn [app]; rewrite <- app_assoc; reflexivity|]. split; [rewrite !lenN_length; cbn [length]; rewrite app_length; lia|]. split; [assumption|]. split; [assumption|]. split; [assumption|].
        intros a' x E Hx HX. destruct (Nat.le_gt_cases (length (c :: m0)) (length a')) as [Hle|Hgt].
        -- destruct (app_longer (c :: m0) a a' x E Hle) as (e & -> & ->). apply (H4 e x); auto.
        -- destruct (app_longer a' x (c :: m0) a (eq_sym E)) as (e & Ea & Ex); [lia|]. exfalso.
           assert (HA : Forall path_char a) by (rewrite Ex in HX; apply Forall_app in HX; apply HX).
           destruct a as [|y a]; cbn [app] in Hu.
           ++ destruct m as [|y m]; [destruct (file_start_nonempty _ H1 eq_refl)|]. cbn [app] in Hu. apply (Hu y (m ++ b) eq_refl). inversion H2; assumption.
           ++ apply (Hu y (a ++ m ++ b) eq_refl). inversion HA; assumption.
    + intros (a & b & E & -> & H1 & H2 & H3 & H4). destruct a as [|y a].
      * left. f_equal; [cbn; lia|]. cbn [app] in E. rewrite Em, Et, E, path_run_app by assumption. rewrite path_run_end by assumption. apply app_nil_r.
      * right. assert (E' : (c :: m0) ++ u = (y :: a) ++ m ++ b) by (rewrite <- E; reflexivity). destruct (Nat.le_gt_cases (length (c :: m0)) (length (y :: a))) as [Hle|Hgt].
        -- destruct (app_longer _ _ _ _ E' Hle) as (e & Ea & ->). exists e, b. split; [reflexivity|]. split; [rewrite Ea, !lenN_length, app_length; cbn [length]; lia|]. split; [assumption|]. split; [assumption|]. split; [assumption|].
           intros a' x Ee Hx HX. apply (H4 ((c :: m0) ++ a') x); [rewrite Ea, Ee, <- app_assoc; reflexivity | assumption | assumption].
        -- exfalso. destruct (app_longer _ _ _ _ (eq_sym E')) as (e & Ea & Ee); [lia|].
           assert (HA : Forall path_char (y :: a)) by (rewrite Ea in HF; apply Forall_app in HF; apply HF).
           apply (H4 [] (y :: a)); [reflexivity | discriminate | assumption|]. apply file_start_run in Hs. rewrite Et, E in Hs. rewrite (path_run_app (y :: a)), path_run_app, path_run_end, app_nil_r in Hs by assumption. assumption.
  - rewrite IH by (cbn [length] in Hl; lia). split.
    + intros (a & b & -> & -> & H1 & H2 & H3 & H4). exists (c :: a), b. split; [reflexivity|]. split; [rewrite !lenN_length; cbn [length]; lia|]. split; [assumption|]. split; [assumption|]. split; [assumption|].
      intros a' x E Hx HX Hs. destruct a' as [|y a']; cbn [app] in E.
      * subst x. assert (F : file_here (c :: a ++ m ++ b) = Some (path_run (c :: a ++ m ++ b))) by (apply file_here_Some; split; [reflexivity|]; destruct Hs as (n' & c' & r & Hn & Hc & E); exists n', c', (r ++ b); split; [assumption|]; split; [assumption|]; cbn [app] in E; rewrite app_assoc, app_comm_cons, E, <- app_assoc; reflexivity).
        congruence.
      * apply (H4 a' x); [congruence | assumption | assumption | assumption].
    + intros (a & b & E & -> & H1 & H2 & H3 & H4). destruct a as [|y a]; cbn [app] in E.
      * exfalso. assert (F : file_here (c :: t) = Some (path_run (c :: t))).
        { apply file_here_Some. split; [reflexivity|]. rewrite E. destruct H1 as (n' & c' & r & Hn & Hc & ->). exists n', c', (r ++ b). split; [assumption|]. split; [assumption|]. rewrite <- app_assoc. reflexivity. }
        congruence.
      * assert (c = y /\ t = a ++ m ++ b) as [<- ->] by (split; congruence). exists a, b. split; [reflexivity|]. split; [rewrite !lenN_length; cbn [length]; lia|]. split; [assumption|]. split; [assumption|]. split; [assumption|].
        intros a' x Ea. apply (H4 (c :: a') x). rewrite Ea. reflexivity.
Qed.
Lemma replaced_soon p q : replaced (eq (lit "data_soon/")) (lit "data/") p q <-> q = not_soon p.
Proof.
  assert (HR : replaced (eq (lit "data_soon/")) (lit "data/") p (not_soon p)) by (apply (str_replace_replaced (lit "data_soon/") (lit "data/")) with (n := length p); [discriminate | lia]).
  split; [|intros ->; assumption]. intros Hq. eapply (replaced_fun (eq (lit "data_soon/"))); [intros o <-; discriminate | congruence | exact Hq | exact HR].
Qed.
Lemma takeN_map {A B} (f : A -> B) n l : takeN n (map f l) = map f (takeN n l).
Proof. rewrite !takeN_firstn, firstn_map. reflexivity. Qed.
Lemma lower_map b : lower (map b2n b) = map (fun x => lower1 (b2n x)) b.
Proof. unfold lower. apply map_map. Qed.
Lemma b2n_zero x : b2n x = 0 -> x = x00.
Proof. intros E. destruct x; try discriminate; reflexivity. Qed.
Lemma ledec2 x y : ledec [x; y] = b2n x + 256 * b2n y.
Proof. cbn [ledec]. lia. Qed.
Lemma drop_back {A} (a b c : list A) n : n = lenN b -> takeN n (dropN (lenN (a ++ b) - n) (a ++ b ++ c)) = b.
Proof. intros ->. rewrite lenN_app. replace (lenN a + lenN b - lenN b) with (lenN a) by lia. rewrite dropN_app_exact. apply takeN_app_exact. Qed.
Lemma shorter {A} (m p : list A) n : (exists p', m = p ++ p' /\ p' <> [] /\ lenN p = n) <-> n < lenN m /\ p = takeN n m.
Proof.
  split.
  - intros (p' & -> & Hp & <-). rewrite takeN_app_exact, lenN_app, !lenN_length. destruct p'; [congruence|]. cbn [length]. split; [lia | reflexivity].
  - intros [Hn ->]. exists (dropN n m). split; [rewrite takeN_dropN; reflexivity|]. split; [|rewrite lenN_takeN; lia]. intros F. apply (f_equal lenN) in F. rewrite lenN_dropN in F. change (lenN []) with 0 in F. lia.
Qed.
Definition written (a : bytes) (n : N) : Prop :=
  (exists a' x y, a = a' ++ [x; y] /\ n = b2n x + 256 * b2n y /\ (n <> 0 \/ lenN a' < 2)) \/ (exists a' x y, a = a' ++ [x; y; x00; x00] /\ n = b2n x + 256 * b2n y).
Definition length_at (data : bytes) (pos : N) : N :=
  let n := ledec (takeN 2 (dropN (pos - 2) data)) in if (n =? 0) && (4 <=? pos) then ledec (takeN 4 (dropN (pos - 4) data)) else n.
Lemma written_at a r n : 2 <= lenN a -> (written a n <-> n = length_at (a ++ r) (lenN a)).
Proof.
  intros Ha. destruct (snoc2 a) as [->|[(z & ->)|(a1 & x & y & ->)]]; [cbn in Ha; lia | cbn in Ha; lia|].
  unfold length_at, written. cbv zeta.
  assert (ED : takeN 2 (dropN (lenN (a1 ++ [x; y]) - 2) ((a1 ++ [x; y]) ++ r)) = [x; y]) by (rewrite <- (app_assoc a1 [x; y] r); apply drop_back; reflexivity). rewrite ED, ledec2. clear ED. destruct (N.eqb_spec (b2n x + 256 * b2n y) 0) as [E0|E0]; cbn [andb].
  - assert (Ex : x = x00) by (apply b2n_zero; lia). assert (Ey : y = x00) by (apply b2n_zero; lia). subst x y. destruct (N.leb_spec 4 (lenN (a1 ++ [x00; x00]))) as [H4|H4].
    + rewrite lenN_app in H4. change (lenN [x00; x00]) with 2 in H4. destruct (snoc2 a1) as [->|[(z & ->)|(a2 & u & v & ->)]]; [cbn in H4; lia | cbn in H4; lia|].
      rewrite <- (app_assoc a2 [u; v] [x00; x00]). cbn [app]. rewrite <- app_assoc, (drop_back a2 [u; v; x00; x00] r 4 eq_refl).
      replace (ledec [u; v; x00; x00]) with (b2n u + 256 * b2n v) by (cbn [ledec]; change (b2n x00) with 0; lia). split.
      * intros [(a' & x' & y' & E & -> & Hn)|(a' & x' & y' & E & ->)].
        -- exfalso. change [u; v; x00; x00] with ([u; v] ++ [x00; x00]) in E. rewrite app_assoc in E. apply snoc2_inj in E as (<- & <- & <-). destruct Hn as [Hn|Hn]; [apply Hn; reflexivity|]. rewrite lenN_app in Hn. change (lenN [u; v]) with 2 in Hn. lia.
        -- change [u; v; x00; x00] with ([u; v] ++ [x00; x00]) in E. change [x'; y'; x00; x00] with ([x'; y'] ++ [x00; x00]) in E. rewrite !app_assoc in E. apply app_inv_tail in E. apply snoc2_inj in E as (_ & -> & ->). reflexivity.
      * intros ->. right. exists a2, u, v. auto.
    + rewrite lenN_app in H4. change (lenN [x00; x00]) with 2 in H4. split.
      * intros [(a' & x' & y' & E & -> & _)|(a' & x' & y' & E & ->)]; [apply snoc2_inj in E as (_ & <- & <-); reflexivity|].
        exfalso. change [x'; y'; x00; x00] with ([x'; y'] ++ [x00; x00]) in E. rewrite app_assoc in E. apply app_inv_tail in E as ->. rewrite lenN_app in H4. change (lenN [x'; y']) with 2 in H4. lia.
      * intros ->. left. exists a1, x00, x00. split; [reflexivity|]. split; [reflexivity|]. right. lia.
  - split.
    + intros [(a' & x' & y' & E & -> & _)|(a' & x' & y' & E & ->)]; [apply snoc2_inj in E as (_ & <- & <-); reflexivity|].
      exfalso. change [x'; y'; x00; x00] with ([x'; y'] ++ [x00; x00]) in E. rewrite app_assoc in E. apply snoc2_inj in E as (_ & -> & ->). apply E0. reflexivity.
    + intros ->. left. exists a1, x, y. auto.
Qed.
Lemma match_paths_In a m r t : In t (match_paths (a ++ r) (lenN a, m)) <-> exists p, file_text a m p /\ replaced (eq (lit "data_soon/")) (lit "data/") (map (fun x => lower1 (b2n x)) p) t.
Proof.
  unfold match_paths. cbn [fst snd]. cbv zeta. rewrite !lower_map. cbn [In].
  assert (HF : forall p, file_text a m p <-> p = m \/ exists n, written a n /\ n < lenN m /\ p = takeN n m).
  { intros p. unfold file_text. fold (written a). split; (intros [->|Hp]; [auto|]); right.
    - destruct Hp as (n & p' & H1 & H2 & H3 & H4). exists n. split; [exact H4|]. apply shorter. eauto.
    - destruct Hp as (n & H4 & Hn). apply shorter in Hn as (p' & H1 & H2 & H3). exists n, p'. split; [assumption|]. split; [assumption|]. split; [assumption | exact H4]. }
  assert (HW : forall n, written a n -> 2 <= lenN a).
  { intros n [(a' & x & y & -> & _)|(a' & x & y & -> & _)]; rewrite lenN_app; [change (lenN [x; y]) with 2 | change (lenN [x; y; x00; x00]) with 4]; lia. }
  fold (length_at (a ++ r) (lenN a)). replace (lenN (map (fun x => lower1 (b2n x)) m)) with (lenN m) by (rewrite !lenN_length, map_length; reflexivity). split.
  - intros [<-|Ht]; [exists m; split; [left; reflexivity | apply replaced_soon; reflexivity]|]. destruct (N.leb_spec 2 (lenN a)) as [H2|H2]; [|destruct Ht].
    destruct (N.ltb_spec (length_at (a ++ r) (lenN a)) (lenN m)) as [Hl|Hl]; [|destruct Ht]. destruct Ht as [<-|[]]. exists (takeN (length_at (a ++ r) (lenN a)) m). split.
    + apply HF. right. exists (length_at (a ++ r) (lenN a)). split; [apply (written_at a r); [assumption | reflexivity] | auto].
    + apply replaced_soon. rewrite takeN_map. reflexivity.
  - intros (p & Hp & Ht). apply replaced_soon in Ht as ->. apply HF in Hp as [->|(n & Hw & Hn & ->)]; [auto|]. right. pose proof (HW n Hw) as H2. apply (written_at a r n H2) in Hw as <-.
    destruct (N.leb_spec 2 (lenN a)); [|lia]. destruct (N.ltb_spec n (lenN m)); [|lia]. left. rewrite takeN_map. reflexivity.
Qed.
Lemma file_candidates_In data q : In q (file_candidates data) <-> file_path data q.
Proof.
  unfold file_candidates. rewrite in_flat_map. unfold file_path.
  assert (HL : forall t, In q (lua_paths t) <-> q = t \/ exists x y, t = x ++ lit ".lua" /\ In y [lit ".luabin"; lit ".luabin64"; lit ".preload"] /\ q = x ++ y).
  { intros t. unfold lua_paths. cbn [In]. destruct (endswith t (lit ".lua")) eqn:E.
    - apply endswith_iff in E as [x ->]. rewrite (without_app x (lit ".lua") : without 4 (x ++ lit ".lua") = x). cbn [In]. split.
      + intros [<-|[<-|[<-|[<-|[]]]]]; [auto | | |]; right; exists x; eexists; (split; [reflexivity|]); (split; [|reflexivity]); cbn [In]; auto.
      + intros [->|(x' & y & Ex & Hy & ->)]; [auto|]. apply app_inv_tail in Ex as <-. destruct Hy as [<-|[<-|[<-|[]]]]; auto.
    - cbn [In]. split; [intros [<-|[]]; auto|]. intros [->|(x & y & -> & _)]; [auto|]. assert (F : endswith (x ++ lit ".lua") (lit ".lua") = true) by (apply endswith_iff; eauto). congruence. }
  split.
  - intros (t & Ht & Hq). apply (proj1 (set_of_In _ _)), in_flat_map in Ht as ([i m] & Hm & Ht). apply (file_matches_In (length data) 0 data i m (le_n _)) in Hm as (a & b & -> & -> & Hs). rewrite N.add_0_l in Ht.
    apply match_paths_In in Ht as (p & Hp & Ht). exists a, m, b, p, t. split; [reflexivity|]. split; [assumption|]. split; [assumption|]. split; [assumption | apply HL; assumption].
  - intros (a & m & b & p & t & -> & Hs & Hp & Ht & Hq). exists t. split; [|apply HL; assumption]. apply (proj2 (set_of_In _ _)), in_flat_map. exists (lenN a, m). split.
    + apply (file_matches_In _ 0 _ _ _ (le_n _)). exists a, b. split; [reflexivity|]. split; [lia | assumption].
    + apply match_paths_In. eauto.
Qed.

(** ** Normal form of paths *)

Lemma step_norm abs l l' : step abs l l' -> forall acc, (abs = true -> acc = [] \/ ~ exists b, l = lit ".." :: b /\ l' = b) -> fold_left (norm_step abs) l acc = fold_left (norm_step abs) l' acc \/ (abs = true /\ acc <> []).
Proof.
  intros Hs acc _. destruct Hs as [a x b Hx|a x b H1 H2 H3|b Hb].
  - left. rewrite !fold_left_app. cbn [fold_left]. f_equal. unfold norm_step. destruct Hx as [->| ->]; reflexivity.
  - left. rewrite !fold_left_app. cbn [fold_left]. f_equal. enough (E : forall c, norm_step abs (norm_step abs c x) (lit "..") = c) by apply E. intros c.
    assert (E1 : norm_step abs c x = x :: c).
    { unfold norm_step. destruct (@eqbP str _ x []); [contradiction|]. destruct (@eqbP str _ x (lit ".")); [contradiction|]. destruct (@eqbP str _ x (lit "..")); [contradiction | reflexivity]. }
    assert (E2 : norm_step abs (x :: c) (lit "..") = c).
    { unfold norm_step. replace (eqb (lit "..") [] || eqb (lit "..") (lit ".")) with false by reflexivity. replace (negb (eqb (lit "..") (lit ".."))) with false by reflexivity. destruct (@eqbP str _ x (lit "..")); [contradiction | reflexivity]. }
    rewrite E1. exact E2.
  - destruct acc as [|y acc]; [left|right; split; [assumption | discriminate]]. cbn [fold_left]. f_equal. subst abs. reflexivity.
Qed.
Lemma steps_norm abs l l' : clos_refl_trans _ (step abs) l l' -> fold_left (norm_step abs) l [] = fold_left (norm_step abs) l' [].
Proof.
  induction 1 as [l l' Hs| |]; [|reflexivity | congruence]. destruct (step_norm abs l l' Hs []) as [E|[_ F]]; [auto | assumption | congruence].
Qed.
Lemma step_app abs l l' b : step abs l l' -> step abs (l ++ b) (l' ++ b).
Proof.
  intros [a x c Hx|a x c H1 H2 H3|c Hc]; rewrite <- ?app_assoc; cbn [app].
  - apply st_dot. assumption.
  - apply st_up; assumption.
  - apply st_root. assumption.
Qed.
Lemma steps_app abs l l' b : clos_refl_trans _ (step abs) l l' -> clos_refl_trans _ (step abs) (l ++ b) (l' ++ b).
Proof. induction 1; [apply rt_step, step_app; assumption | apply rt_refl | eapply rt_trans; eassumption]. Qed.
(** Names after the leading [..], in reverse order *)
Definition normal_acc (abs : bool) (acc : list str) : Prop :=
  exists names ups, acc = names ++ ups /\ Forall (fun x => x <> [] /\ x <> lit "." /\ x <> lit "..") names /\ Forall (eq (lit "..")) ups /\ (abs = true -> ups = []).
Lemma norm_step_normal abs acc c : normal_acc abs acc -> normal_acc abs (norm_step abs acc c) /\ clos_refl_trans _ (step abs) (rev acc ++ [c]) (rev (norm_step abs acc c)).
Proof.
  intros (names & ups & -> & Hn & Hu & Ha). unfold norm_step. destruct (eqbP c []) as [->|H1]; cbn [orb].
  { split; [exists names, ups; auto|]. apply rt_step. rewrite <- (app_nil_r (rev (names ++ ups))) at 2. apply st_dot. auto. }
  destruct (eqbP c (lit ".")) as [->|H2].
  { split; [exists names, ups; auto|]. apply rt_step. rewrite <- (app_nil_r (rev (names ++ ups))) at 2. apply st_dot. auto. }
  destruct (eqbP c (lit "..")) as [->|H3]; cbn [negb].
  - destruct names as [|x names]; cbn [app].
    + destruct ups as [|u ups].
      * destruct abs; [|split; [exists [], [lit ".."]; repeat constructor; discriminate | apply rt_refl]]. split; [exists [], []; repeat constructor|]. apply rt_step. apply st_root. reflexivity.
      * destruct abs; [discriminate (Ha eq_refl)|]. assert (u = lit "..") as -> by (inversion Hu; congruence). rewrite eqbR. split; [|apply rt_refl]. exists [], (lit ".." :: lit ".." :: ups). split; [reflexivity|]. split; [constructor|]. split; [constructor; [reflexivity | assumption] | discriminate].
    + inversion Hn as [|? ? (N1 & N2 & N3) Hn']; subst. destruct (eqbP x (lit "..")); [contradiction|]. split; [exists names, ups; auto|]. cbn [rev]. rewrite <- app_assoc. cbn [app]. apply rt_step. rewrite <- (app_nil_r (rev (names ++ ups))) at 2. apply st_up; assumption.
  - split; [|apply rt_refl]. exists (c :: names), ups. split; [reflexivity|]. split; [constructor; [auto | assumption] | auto].
Qed.
Lemma norm_fold abs l acc : normal_acc abs acc -> normal_acc abs (fold_left (norm_step abs) l acc) /\ clos_refl_trans _ (step abs) (rev acc ++ l) (rev (fold_left (norm_step abs) l acc)).
Proof.
  revert acc. induction l as [|c l IH]; intros acc Ha; cbn [fold_left]; [rewrite app_nil_r; split; [assumption | apply rt_refl]|]. destruct (norm_step_normal abs acc c Ha) as [H1 H2]. destruct (IH _ H1) as [H3 H4]. split; [assumption|].
  eapply rt_trans; [|exact H4]. change (c :: l) with ([c] ++ l). rewrite app_assoc. apply steps_app. assumption.
Qed.
Lemma normal_stuck abs acc : normal_acc abs acc -> forall l', ~ step abs (rev acc) l'.
Proof.
  intros (names & ups & -> & Hn & Hu & Ha) l' Hs. rewrite rev_app_distr in Hs. assert (Hu' : forall x, In x (rev ups) -> x = lit "..") by (intros x Hx; apply in_rev in Hx; rewrite Forall_forall in Hu; symmetry; apply Hu; assumption).
  assert (Hn' : forall x, In x (rev names) -> x <> [] /\ x <> lit "." /\ x <> lit "..") by (intros x Hx; apply in_rev in Hx; rewrite Forall_forall in Hn; apply Hn; assumption).
  assert (Hr : forall x, In x (rev ups ++ rev names) -> x <> [] /\ x <> lit ".").
  { intros x Hx. apply in_app_or in Hx as [Hx|Hx]; [rewrite (Hu' x Hx); split; discriminate | destruct (Hn' x Hx) as (H1 & H2 & _); auto]. }
  remember (rev ups ++ rev names) as l eqn:El. destruct Hs as [a x b Hx|a x b H1 H2 H3|b Hb].
  - destruct (Hr x) as [F1 F2]; [apply in_or_app; right; left; reflexivity|]. destruct Hx; contradiction.
  - destruct (Nat.le_gt_cases (length (rev ups)) (length (a ++ [x]))) as [Hle|Hgt].
    + assert (E : rev ups ++ rev names = (a ++ [x]) ++ lit ".." :: b) by (rewrite <- El, <- app_assoc; reflexivity). destruct (app_longer _ _ _ _ E Hle) as (e & _ & Ee). destruct (Hn' (lit "..")) as (_ & _ & F); [rewrite Ee; apply in_or_app; right; left; reflexivity|]. apply F. reflexivity.
    + assert (E : (a ++ [x]) ++ lit ".." :: b = rev ups ++ rev names) by (rewrite <- El, <- app_assoc; reflexivity). destruct (app_longer _ _ _ _ E (Nat.lt_le_incl _ _ Hgt)) as (e & Ee & _). apply H3, Hu'. rewrite Ee. apply in_or_app. left. apply in_or_app. right. left. reflexivity.
  - rewrite (Ha Hb) in El. cbn [rev app] in El. destruct (Hn' (lit "..")) as (_ & _ & F); [rewrite <- El; left; reflexivity|]. apply F. reflexivity.
Qed.
Lemma stuck_fold abs l : (forall l', ~ step abs l l') -> fold_left (norm_step abs) l [] = rev l.
Proof.
  induction l as [|x l IH] using rev_ind; intros Hs; [reflexivity|]. rewrite fold_left_app, IH by (intros l' F; apply (Hs (l' ++ [x])), step_app; assumption). cbn [fold_left]. rewrite rev_app_distr. cbn [rev app]. unfold norm_step.
  destruct (eqbP x []) as [->|H1]; [exfalso; apply (Hs (l ++ [])), st_dot; auto|]. destruct (eqbP x (lit ".")) as [->|H2]; [exfalso; apply (Hs (l ++ [])), st_dot; auto|]. cbn [orb].
  destruct (eqbP x (lit "..")) as [->|H3]; [|reflexivity]. cbn [negb]. destruct l as [|y l _] using rev_ind; cbn [rev].
  - destruct abs; [|reflexivity]. exfalso. apply (Hs []), st_root. reflexivity.
  - rewrite rev_app_distr. cbn [rev app]. destruct (eqbP y (lit "..")) as [->|Hy]; [reflexivity|]. exfalso.
    destruct (eqbP y []) as [->|Hy1]; [apply (Hs (l ++ [lit ".."])); rewrite <- app_assoc; apply st_dot; auto|]. destruct (eqbP y (lit ".")) as [->|Hy2]; [apply (Hs (l ++ [lit ".."])); rewrite <- app_assoc; apply st_dot; auto|].
    apply (Hs (l ++ [])). rewrite <- app_assoc. apply st_up; assumption.
Qed.
Definition slashes_of (p : str) : str := if startswith p (lit "//") && negb (startswith p (lit "///")) then lit "//" else if startswith p (lit "/") then lit "/" else [].
Lemma root_of_iff p root : root_of p root <-> root = slashes_of p.
Proof.
  unfold root_of, slashes_of.
  assert (C : forall c (t : str), (forall r', c :: t <> lit "/" ++ r') <-> c <> cSlash).
  { intros c t. split; [intros F E; apply (F t); rewrite E; reflexivity|]. intros Hc r' E. apply Hc. change (c :: t = cSlash :: r') in E. congruence. }
  assert (D : forall c (t : str), (exists r, c :: t = lit "/" ++ r) <-> c = cSlash).
  { intros c t. split; [intros (r & E); change (c :: t = cSlash :: r) in E; congruence | intros ->; exists t; reflexivity]. }
  destruct (startswith p (lit "/")) eqn:E1.
  - apply startswith_iff in E1 as [r ->]. destruct (startswith (lit "/" ++ r) (lit "//")) eqn:E2.
    + apply startswith_iff in E2 as [r2 E2]. change (lit "//" ++ r2) with (lit "/" ++ lit "/" ++ r2) in E2. apply app_inv_head in E2 as ->. destruct (startswith (lit "/" ++ lit "/" ++ r2) (lit "///")) eqn:E3; cbn [andb negb].
      * apply startswith_iff in E3 as [r3 E3]. change (lit "///" ++ r3) with (lit "/" ++ lit "/" ++ lit "/" ++ r3) in E3. apply app_inv_head, app_inv_head in E3 as ->. split.
        -- intros [[-> F]|[[-> (r & E & F)]|[-> _]]]; [exfalso; eapply F; reflexivity | | reflexivity]. exfalso. change (lit "//" ++ r) with (lit "/" ++ lit "/" ++ r) in E. apply app_inv_head, app_inv_head in E as <-. eapply F. reflexivity.
        -- intros ->. right. right. split; [reflexivity|]. right. exists r3. reflexivity.
      * assert (F3 : forall r', r2 <> lit "/" ++ r') by (intros r' ->; change (startswith (lit "///" ++ r') (lit "///") = false) in E3; rewrite startswith_app in E3; discriminate). split.
        -- intros [[-> F]|[[-> _]|[-> [(r & E & F)|(r & E)]]]]; [exfalso; eapply F; reflexivity | reflexivity | |]; exfalso.
           ++ apply app_inv_head in E as <-. eapply F. reflexivity.
           ++ change (lit "///" ++ r) with (lit "/" ++ lit "/" ++ lit "/" ++ r) in E. apply app_inv_head, app_inv_head in E. exact (F3 r E).
        -- intros ->. right. left. split; [reflexivity|]. exists r2. split; [reflexivity | assumption].
    + cbn [andb]. assert (F2 : forall r', r <> lit "/" ++ r') by (intros r' ->; change (startswith (lit "//" ++ r') (lit "//") = false) in E2; rewrite startswith_app in E2; discriminate). split.
      * intros [[-> F]|[[-> (r' & E & _)]|[-> _]]]; [exfalso; eapply F; reflexivity | | reflexivity]. exfalso. change (lit "//" ++ r') with (lit "/" ++ lit "/" ++ r') in E. apply app_inv_head in E. exact (F2 r' E).
      * intros ->. right. right. split; [reflexivity|]. left. exists r. split; [reflexivity | assumption].
  - assert (F1 : forall r, p <> lit "/" ++ r) by (intros r ->; rewrite startswith_app in E1; discriminate).
    assert (E2 : startswith p (lit "//") = false) by (destruct (startswith p (lit "//")) eqn:E2; [|reflexivity]; apply startswith_iff in E2 as [r E2]; destruct (F1 (lit "/" ++ r) E2)). rewrite E2. cbn [andb]. split.
    + intros [[-> _]|[[-> (r & E & _)]|[-> [(r & E & _)|(r & E)]]]]; [reflexivity | | |]; exfalso; [exact (F1 (lit "/" ++ r) E) | exact (F1 r E) | exact (F1 (lit "//" ++ r) E)].
    + intros ->. left. split; [reflexivity | assumption].
Qed.
Lemma normal_form_iff p q : normal_form p q <-> q = normpath p.
Proof.
  unfold normpath. fold (slashes_of p). unfold normal_form. set (abs := negb (eqb (slashes_of p) [])). set (l0 := rev (fold_left (norm_step abs) (split_ch cSlash p) [])).
  assert (HN : normal_acc abs []) by (exists [], []; repeat constructor). destruct (norm_fold abs (split_ch cSlash p) [] HN) as [H1 H2]. cbn [rev app] in H2. split.
  - intros (root & names & l & Hr & Hn & Hne & Ep & Hs & Hst & Hq). apply root_of_iff in Hr as ->. fold abs in Hs, Hst. assert (names = split_ch cSlash p) as -> by (rewrite Ep; symmetry; apply split_join; assumption).
    assert (El : l = l0). { unfold l0. rewrite (steps_norm _ _ _ Hs), stuck_fold by assumption. rewrite rev_involutive. reflexivity. }
    subst l. destruct Hq as [[E ->]|[E ->]]; change (lit "/") with [cSlash] in *; [rewrite E; reflexivity|]. destruct (slashes_of p ++ join [cSlash] l0); [congruence | reflexivity].
  - intros Hq. exists (slashes_of p), (split_ch cSlash p), l0. split; [apply root_of_iff; reflexivity|]. split; [apply split_ch_pieces|]. split; [apply split_ch_nonempty|]. split; [symmetry; apply (join_split cSlash)|]. fold abs.
    split; [assumption|]. split; [apply normal_stuck; assumption|]. change (lit "/") with [cSlash]. destruct (slashes_of p ++ join [cSlash] l0) as [|c r] eqn:E; [left; auto | right; split; [discriminate | assumption]].
Qed.

(** ** Entries *)

Lemma ext_in_iff l e : ext_in l e = true <-> exists x, en_ext e = Some x /\ In x l.
Proof.
  unfold ext_in. destruct (en_ext e) as [x|]; [|split; [discriminate | intros (x & F & _); discriminate]]. rewrite mem_In. split; [eauto|]. intros (y & E & Hy). assert (x = y) as -> by congruence. assumption.
Qed.
Lemma has_path_iff e w : has_path e = Some w <-> named e w.
Proof.
  unfold has_path, named. destruct (en_path e) as [[|c p]|]; [split; [discriminate | intros [F1 F2]; congruence] | | split; [discriminate | intros [F _]; discriminate]].
  split; [intros E; split; [assumption|]; intros ->; discriminate | intros [E _]; assumption].
Qed.
Lemma replaced_back p q : replaced (eq [92]) (lit "/") p q <-> q = str_replace [92] [cSlash] p.
Proof.
  assert (HR : replaced (eq [92]) (lit "/") p (str_replace [92] [cSlash] p)) by (apply (str_replace_replaced [92] (lit "/")) with (n := length p); [discriminate | lia]).
  split; [|intros ->; assumption]. intros Hq. eapply (replaced_fun (eq [92])); [intros o <-; discriminate | congruence | exact Hq | exact HR].
Qed.
Lemma foreign_iff vs : foreign vs <-> exists v, In v vs /\ ascii v = None.
Proof.
  unfold foreign. split.
  - intros (v & x & Hv & Hx). exists v. split; [assumption|]. apply ascii_None. eauto.
  - intros (v & Hv & E). apply ascii_None in E as (x & Hx). exists v, x. tauto.
Qed.

Lemma bin_not_shader x : In x [lit "bin"; lit "inibin"] -> In x shader_exts -> False.
Proof. intros [<-|[<-|[]]] H; apply mem_In in H; discriminate. Qed.

Section Entry.
  Variable other : str -> list parg -> result str.

  Lemma preload_cases (e : entry) p : plain_name e -> en_ext e = Some (lit "preload") ->
    forall x, In x (if endswith p (lit ".lua") then [Ok p; Ok (without 4 p ++ lit ".luabin"); Ok (without 4 p ++ lit ".luabin64")]
        else if endswith p (lit ".troy") then [Ok (lit "data/shared/particles/" ++ without 5 p ++ lit ".troybin")]
        else match has_path e with Some w => [pct other (dirname w ++ lit "/%s.preload") [PStr p]] | None => [] end) <-> exists q, x = Ok q /\ preload_path e p q.
  Proof.
    intros Hpl He x. destruct (endswith p (lit ".lua")) eqn:E1.
    { apply endswith_iff in E1 as [y ->]. rewrite (without_app y (lit ".lua") : without 4 (y ++ lit ".lua") = y). split.
      - intros [<-|[<-|[<-|[]]]]; eexists; (split; [reflexivity|]); apply (pp_lua e _ y); cbn [In]; auto.
      - intros (q & -> & Hq). destruct Hq as [y' z E Hz|y' E|w F _ _].
        + apply app_inv_tail in E as <-. destruct Hz as [<-|[<-|[<-|[]]]]; cbn [In]; auto.
        + exfalso. apply (f_equal (@rev N)) in E. rewrite !rev_app_distr in E. discriminate.
        + exfalso. apply F. exists y. reflexivity. }
    assert (N1 : ~ ends (lit ".lua") p) by (rewrite ends_iff; congruence). destruct (endswith p (lit ".troy")) eqn:E2.
    { apply endswith_iff in E2 as [y ->]. rewrite (without_app y (lit ".troy") : without 5 (y ++ lit ".troy") = y). split.
      - intros [<-|[]]. eexists. split; [reflexivity|]. apply pp_troy. reflexivity.
      - intros (q & -> & Hq). destruct Hq as [y' z E Hz|y' E|w _ F _].
        + exfalso. apply N1. exists y'. assumption.
        + apply app_inv_tail in E as <-. left. reflexivity.
        + exfalso. apply F. exists y. reflexivity. }
    assert (N2 : ~ ends (lit ".troy") p) by (rewrite ends_iff; congruence).
    assert (HP : forall w, has_path e = Some w -> pct other (dirname w ++ lit "/%s.preload") [PStr p] = Ok (dirname w ++ lit "/" ++ p ++ lit ".preload")).
    { intros w Hw. apply has_path_iff in Hw as [Hw _]. rewrite pct_app by (eapply Hpl; eassumption). change (lit "/%s.preload") with (lit "/" ++ lit "%s" ++ lit ".preload").
      rewrite (pct_app other (lit "/")) by (vm_compute; intuition discriminate). rewrite pct_s. rewrite pct_plain by (vm_compute; intuition discriminate). reflexivity. }
    destruct (has_path e) as [w|] eqn:Ew.
    - rewrite (HP w eq_refl). split.
      + intros [<-|[]]. eexists. split; [reflexivity|]. apply pp_other; [assumption | assumption | apply has_path_iff; assumption].
      + intros (q & -> & Hq). destruct Hq as [y' z E Hz|y' E|w' _ _ Hw]; [exfalso; apply N1; exists y'; assumption | exfalso; apply N2; exists y'; assumption|]. apply has_path_iff in Hw. assert (w = w') as -> by congruence. left. reflexivity.
    - split; [intros []|]. intros (q & -> & Hq). destruct Hq as [y' z E Hz|y' E|w' _ _ Hw]; [apply N1; exists y'; assumption | apply N2; exists y'; assumption|]. apply has_path_iff in Hw. congruence.
  Qed.
  Lemma entry_Ok e q : plain_name e -> (In (Ok q) (entry_candidates other e) <-> exists data, opened e /\ en_data e = Ok (Some data) /\ entry_path e data q).
  Proof.
    intros Hpl. unfold entry_candidates. destruct (N.eqb_spec (en_type e) 2) as [Et|Et]; [split; [intros [] | intros (d & [F _] & _); contradiction]|].
    destruct (ext_in skipped_exts e) eqn:Es.
    { apply ext_in_iff in Es as (x & Ex & Hx). split; [intros []|]. intros (d & [_ F] & _). exact (F x Ex Hx). }
    assert (Ho : opened e) by (split; [assumption|]; intros x Ex Hx; assert (F : ext_in skipped_exts e = true) by (apply ext_in_iff; eauto); congruence).
    destruct (en_data e) as [[data|]|x]; [|split; [intros [] | intros (d & _ & F & _); discriminate] | split; [intros [F|[]]; discriminate | intros (d & _ & F & _); discriminate]].
    assert (HD : forall (P : Prop), (P <-> entry_path e data q) -> (P <-> exists d, opened e /\ Ok (Some data) = Ok (Some d) /\ entry_path e d q)).
    { intros P HP. rewrite HP. split; [eauto|]. intros (d & _ & E & Hd). assert (data = d) as -> by congruence. assumption. }
    apply HD. clear HD.
    destruct (ext_in [lit "bin"; lit "inibin"] e) eqn:E1.
    { apply ext_in_iff in E1 as (x & Ex & Hx). rewrite bin_candidates_In. split.
      - intros (q' & p & E & Hs & Hq). assert (q = q') as <- by congruence. apply (ep_bin e data x p q); [assumption | destruct Hx as [<-|[<-|[]]]; auto | assumption | apply bin_paths_In; assumption].
      - intros Hq. destruct Hq as [x' p q' Ex' Hx' Hs Hq|vs v p q' Ex'|x' w vs v p n q' Ex' Hx'|w lines l p Ex'|q' Hn].
        + exists q', p. split; [reflexivity|]. split; [assumption | apply bin_paths_In; assumption].
        + exfalso. assert (x = lit "preload") as -> by congruence. destruct Hx as [F|[F|F]]; [discriminate F | discriminate F | destruct F].
        + exfalso. assert (x = x') as <- by congruence. exact (bin_not_shader x Hx Hx').
        + exfalso. assert (x = lit "atlas") as -> by congruence. destruct Hx as [F|[F|F]]; [discriminate F | discriminate F | destruct F].
        + exfalso. apply (Hn x Ex). apply in_or_app. left. destruct Hx as [<-|[<-|[]]]; cbn [In]; auto. }
    assert (N1 : forall x, en_ext e = Some x -> ~ In x [lit "bin"; lit "inibin"]) by (intros x Ex Hx; assert (F : ext_in [lit "bin"; lit "inibin"] e = true) by (apply ext_in_iff; eauto); congruence).
    assert (N1' : forall x, en_ext e = Some x -> x = lit "bin" \/ x = lit "inibin" -> False) by (intros x Ex Hx; apply (N1 x Ex); destruct Hx as [->| ->]; cbn [In]; auto).
    destruct (ext_in [lit "preload"] e) eqn:E2.
    { apply ext_in_iff in E2 as (x & Ex & [<-|[]]). unfold preload_candidates. rewrite in_flat_map. split.
      - intros (v & Hv & Hq). destruct (ascii v) as [p|] eqn:Ea; [|destruct Hq as [F|[]]; discriminate]. apply (preload_cases e p Hpl Ex) in Hq as (q' & E & Hq). assert (q = q') as <- by congruence.
        apply (ep_preload e data (quoted (bl "Name=""") 0 data) v p q); [assumption | apply quotes_iff; reflexivity | assumption | apply ascii_Some; assumption | assumption].
      - intros Hq. destruct Hq as [x' p q' Ex' Hx' Hs Hq|vs v p q' Ex' Hvs Hv Hp Hq|x' w vs v p n q' Ex' Hx'|w lines l p Ex'|q' Hn].
        + destruct (N1' x' Ex' Hx').
        + apply quotes_iff in Hvs as ->. exists v. split; [assumption|]. apply ascii_Some in Hp. rewrite Hp. apply (preload_cases e p Hpl Ex). eauto.
        + exfalso. assert (lit "preload" = x') as <- by congruence. apply mem_In in Hx'. discriminate.
        + exfalso. assert (F : Some (lit "preload") = Some (lit "atlas")) by congruence. discriminate.
        + exfalso. apply (Hn _ Ex). apply in_or_app. left. cbn [In]. auto. }
    assert (N2 : en_ext e <> Some (lit "preload")) by (intros Ex; assert (F : ext_in [lit "preload"] e = true) by (apply ext_in_iff; exists (lit "preload"); split; [assumption | left; reflexivity]); congruence).
    destruct (ext_in [lit "hls"; lit "ps_2_0"; lit "ps_3_0"; lit "vs_2_0"; lit "vs_3_0"] e) eqn:E3.
    { apply ext_in_iff in E3 as (x & Ex & Hx). unfold include_candidates. split.
      - intros Hq. destruct (has_path e) as [w|] eqn:Ew; [|destruct Hq]. apply in_map_iff in Hq as (v & Hq & Hv). destruct (ascii v) as [p|] eqn:Ea; [|discriminate].
        apply (ep_shader e data x w (quoted (bl "#include """) 0 data) v p (normpath (dirname w ++ lit "/" ++ p))); [assumption | assumption | apply has_path_iff; assumption | apply quotes_iff; reflexivity | assumption | apply ascii_Some; assumption | apply normal_form_iff; reflexivity|].
        apply replaced_back. congruence.
      - intros Hq. destruct Hq as [x' p q' Ex' Hx' Hs Hq|vs v p q' Ex' Hvs Hv Hp Hq|x' w vs v p n q' Ex' Hx' Hw Hvs Hv Hp Hn Hr|w lines l p Ex'|q' Hn].
        + destruct (N1' x' Ex' Hx').
        + contradiction.
        + apply has_path_iff in Hw. rewrite Hw. apply quotes_iff in Hvs as ->. apply in_map_iff. exists v. split; [|assumption]. apply ascii_Some in Hp. rewrite Hp. apply normal_form_iff in Hn as ->. apply replaced_back in Hr as ->. reflexivity.
        + exfalso. assert (x = lit "atlas") as -> by congruence. cbn [In] in Hx. decompose [or] Hx; first [contradiction | discriminate].
        + exfalso. apply (Hn _ Ex). apply in_or_app. right. assumption. }
    assert (N3 : forall x, en_ext e = Some x -> ~ In x shader_exts) by (intros x Ex Hx; assert (F : ext_in [lit "hls"; lit "ps_2_0"; lit "ps_3_0"; lit "vs_2_0"; lit "vs_3_0"] e = true) by (apply ext_in_iff; eauto); congruence).
    destruct (ext_in [lit "atlas"] e) eqn:E4.
    { apply ext_in_iff in E4 as (x & Ex & [<-|[]]). unfold atlas_candidates. split.
      - intros Hq. destruct (has_path e) as [w|] eqn:Ew; [|destruct Hq]. apply in_flat_map in Hq as (l & Hl & Hq). destruct (ascii l) as [p|] eqn:Ea; [|destruct Hq]. destruct Hq as [E|[]].
        assert (dirname w ++ lit "/" ++ p = q) as <- by congruence. apply (ep_atlas e data w (split_ch x0a data) l p); [assumption | apply has_path_iff; assumption | apply split_ch_pieces | apply split_ch_nonempty | symmetry; apply join_split | assumption | apply ascii_Some; assumption].
      - intros Hq. destruct Hq as [x' p q' Ex' Hx' Hs Hq|vs v p q' Ex' Hvs Hv Hp Hq|x' w vs v p n q' Ex' Hx'|w lines l p Ex' Hw Hl Hne Ed Hi Hp|q' Hn].
        + destruct (N1' x' Ex' Hx').
        + contradiction.
        + destruct (N3 x' Ex' Hx').
        + apply has_path_iff in Hw. rewrite Hw. apply in_flat_map. exists l. split; [rewrite Ed, split_join by assumption; assumption|]. apply ascii_Some in Hp. rewrite Hp. left. reflexivity.
        + exfalso. apply (Hn _ Ex). apply in_or_app. left. cbn [In]. auto. }
    assert (N4 : en_ext e <> Some (lit "atlas")) by (intros Ex; assert (F : ext_in [lit "atlas"] e = true) by (apply ext_in_iff; exists (lit "atlas"); split; [assumption | left; reflexivity]); congruence).
    rewrite in_map_iff. split.
    - intros (q' & E & Hq). assert (q' = q) as -> by congruence. apply ep_other; [|apply file_candidates_In; assumption]. intros x Ex Hx. apply in_app_or in Hx as [[<-|[<-|[<-|[<-|[]]]]]|Hx]; [apply (N1' _ Ex); auto | apply (N1' _ Ex); auto | contradiction | contradiction | exact (N3 x Ex Hx)].
    - intros Hq. destruct Hq as [x' p q' Ex' Hx' Hs Hq|vs v p q' Ex' Hvs Hv Hp Hq|x' w vs v p n q' Ex' Hx'|w lines l p Ex' Hw Hl Hne Ed Hi Hp|q' Hn Hq]; [destruct (N1' x' Ex' Hx') | contradiction | destruct (N3 x' Ex' Hx') | contradiction|].
      exists q'. split; [reflexivity | apply file_candidates_In; assumption].
  Qed.
  Lemma entry_Err e : plain_name e -> ((exists x, In (Err x) (entry_candidates other e)) <-> entry_fails e).
  Proof.
    intros Hpl. unfold entry_candidates, entry_fails. destruct (N.eqb_spec (en_type e) 2) as [Et|Et]; [split; [intros (x & []) | intros ([F _] & _); contradiction]|].
    destruct (ext_in skipped_exts e) eqn:Es.
    { apply ext_in_iff in Es as (x & Ex & Hx). split; [intros (y & [])|]. intros ([_ F] & _). destruct (F x Ex Hx). }
    assert (Ho : opened e) by (split; [assumption|]; intros x Ex Hx; assert (F : ext_in skipped_exts e = true) by (apply ext_in_iff; eauto); congruence).
    destruct (en_data e) as [[data|]|y]; [| split; [intros (x & []) | intros (_ & [(x & F)|(d & F & _)]); discriminate] | split; [intros _; split; [assumption | eauto] | intros _; exists y; left; reflexivity]].
    destruct (ext_in [lit "bin"; lit "inibin"] e) eqn:E1.
    { apply ext_in_iff in E1 as (x & Ex & Hx). split; [intros (y & F); apply bin_candidates_In in F as (q & p & F & _); discriminate|].
      intros (_ & [(y & F)|(d & _ & [(F & _)|(x' & w & vs & F & Hx' & _)])]); [discriminate | |]; exfalso.
      - assert (x = lit "preload") as -> by congruence. cbn [In] in Hx. decompose [or] Hx; first [contradiction | discriminate].
      - assert (x = x') as <- by congruence. exact (bin_not_shader x Hx Hx'). }
    destruct (ext_in [lit "preload"] e) eqn:E2.
    { apply ext_in_iff in E2 as (x & Ex & [<-|[]]). unfold preload_candidates. split.
      - intros (y & Hy). apply in_flat_map in Hy as (v & Hv & Hy). destruct (ascii v) as [p|] eqn:Ea; [apply (preload_cases e p Hpl Ex) in Hy as (q & F & _); discriminate|].
        split; [assumption|]. right. exists data. split; [reflexivity|]. left. split; [assumption|]. exists (quoted (bl "Name=""") 0 data). split; [apply quotes_iff; reflexivity|]. apply foreign_iff. eauto.
      - intros (_ & [(y & F)|(d & Ed & [(_ & vs & Hvs & Hf)|(x' & w & vs & F & Hx' & _)])]); [discriminate | |].
        + assert (data = d) as <- by congruence. apply quotes_iff in Hvs as ->. apply foreign_iff in Hf as (v & Hv & Ea). exists UnicodeDecodeError. apply in_flat_map. exists v. split; [assumption|]. rewrite Ea. left. reflexivity.
        + exfalso. assert (lit "preload" = x') as <- by congruence. apply mem_In in Hx'. discriminate. }
    assert (N2 : en_ext e <> Some (lit "preload")) by (intros Ex; assert (F : ext_in [lit "preload"] e = true) by (apply ext_in_iff; exists (lit "preload"); split; [assumption | left; reflexivity]); congruence).
    destruct (ext_in [lit "hls"; lit "ps_2_0"; lit "ps_3_0"; lit "vs_2_0"; lit "vs_3_0"] e) eqn:E3.
    { apply ext_in_iff in E3 as (x & Ex & Hx). unfold include_candidates. split.
      - intros (y & Hy). destruct (has_path e) as [w|] eqn:Ew; [|destruct Hy]. apply in_map_iff in Hy as (v & Hy & Hv). destruct (ascii v) as [p|] eqn:Ea; [discriminate|].
        split; [assumption|]. right. exists data. split; [reflexivity|]. right. exists x, w, (quoted (bl "#include """) 0 data). split; [assumption|]. split; [assumption|]. split; [apply has_path_iff; assumption|]. split; [apply quotes_iff; reflexivity|]. apply foreign_iff. eauto.
      - intros (_ & [(y & F)|(d & Ed & [(F & _)|(x' & w & vs & Ex' & Hx' & Hw & Hvs & Hf)])]); [discriminate | contradiction|]. assert (data = d) as <- by congruence. apply quotes_iff in Hvs as ->. apply foreign_iff in Hf as (v & Hv & Ea).
        apply has_path_iff in Hw. rewrite Hw. exists UnicodeDecodeError. apply in_map_iff. exists v. rewrite Ea. auto. }
    assert (N3 : forall x, en_ext e = Some x -> ~ In x shader_exts) by (intros x Ex Hx; assert (F : ext_in [lit "hls"; lit "ps_2_0"; lit "ps_3_0"; lit "vs_2_0"; lit "vs_3_0"] e = true) by (apply ext_in_iff; eauto); congruence).
    assert (HR : (opened e /\ ((exists x : exn, Ok (Some data) = Err x) \/ (exists d : bytes, Ok (Some data) = Ok (Some d) /\ (en_ext e = Some (lit "preload") /\ (exists vs : list bytes, quotes (bl "Name=""") d vs /\ foreign vs) \/
      (exists (x : str) (w : str) (vs : list bytes), en_ext e = Some x /\ In x shader_exts /\ named e w /\ quotes (bl "#include """) d vs /\ foreign vs))))) -> False).
    { intros (_ & [(y & F)|(d & Ed & [(F & _)|(x' & w & vs & Ex' & Hx' & _)])]); [discriminate | contradiction | exact (N3 x' Ex' Hx')]. }
    destruct (ext_in [lit "atlas"] e) eqn:E4.
    - split; [|intros F; destruct (HR F)]. intros (y & Hy). exfalso. unfold atlas_candidates in Hy. destruct (has_path e); [|destruct Hy]. apply in_flat_map in Hy as (l & _ & Hy). destruct (ascii l); [|destruct Hy]. destruct Hy as [F|[]]; discriminate.
    - split; [|intros F; destruct (HR F)]. intros (y & Hy). exfalso. apply in_map_iff in Hy as (q & F & _). discriminate.
  Qed.
End Entry.
Lemma check_gen_outcome H l g : (snd (check_gen H l g) = Ok tt <-> forall x, ~ In (Err x) l).
Proof.
  revert g. induction l as [|[p|e] l IH]; intros g; cbn [check_gen snd].
  - split; [intros _ x [] | reflexivity].
  - rewrite IH. split; [intros F x [E|Hx]; [discriminate | exact (F x Hx)] | intros F x Hx; apply (F x); right; assumption].
  - split; [discriminate | intros F; destruct (F e); left; reflexivity].
Qed.
Lemma check_gen_cut H l l' g : (exists x, In (Err x) l) -> check_gen H (l ++ l') g = check_gen H l g.
Proof.
  revert g. induction l as [|[p|e] l IH]; intros g (x & Hx); [destruct Hx | | reflexivity]. cbn [check_gen app]. apply IH. destruct Hx as [F|Hx]; [discriminate | eauto].
Qed.
Lemma check_gen_app H l l' g : check_gen H (l ++ l') g = match check_gen H l g with (g', Ok _) => check_gen H l' g' | r => r end.
Proof. revert g. induction l as [|[p|e] l IH]; intros g; cbn [check_gen app]; [reflexivity | apply IH | reflexivity]. Qed.
Lemma check_gen_Err H l g x : snd (check_gen H l g) = Err x -> In (Err x) l.
Proof.
  revert g. induction l as [|[p|e] l IH]; intros g; cbn [check_gen snd]; [discriminate | intros E; right; eapply IH; exact E | intros E; left; congruence].
Qed.
Lemma first_mark {A} (c : A) a a' r r' : ~ In c a -> ~ In c a' -> a ++ c :: r = a' ++ c :: r' -> a = a' /\ r = r'.
Proof.
  revert a'. induction a as [|x a IH]; intros [|x' a'] Ha Ha' E; cbn [app] in E; inversion E; subst.
  - auto.
  - destruct Ha'. left. reflexivity.
  - destruct Ha. left. reflexivity.
  - destruct (IH a') as [-> ->]; [intros F; apply Ha; right; assumption | intros F; apply Ha'; right; assumption | assumption | auto].
Qed.
