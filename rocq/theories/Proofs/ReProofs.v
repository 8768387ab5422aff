(** * Matching of regular expressions *)

From Verif Require Import Base.Py Base.PyFacts Base.Re.

Section Re.
  Context {A : Type} `{EqDec A}.

  Definition past (b : option A) (t : list A) : option A := fold_left (fun _ c => Some c) t b.
  Definition all (p : A -> bool) (u : list A) : Prop := Forall (fun c => p c = true) u.

  Lemma past_app b u v : past b (u ++ v) = past (past b u) v.
  Proof. apply fold_left_app. Qed.

  (** The star takes as much as possible. *)
  Lemma star_None p k g : forall s b, star_from p k g b s = None <-> forall u v, s = u ++ v -> all p u -> k (past b u, v, g) = None.
  Proof.
    induction s as [|c t IH]; intros b; cbn [star_from].
    - split; [intros E u v F _; symmetry in F; apply app_eq_nil in F as [-> ->]; exact E | intros F; apply (F [] []); [reflexivity | constructor]].
    - destruct (p c) eqn:Ec.
      + destruct (star_from p k g (Some c) t) eqn:E.
        * split; [discriminate|]. intros F. assert (E' : star_from p k g (Some c) t = None); [|congruence]. apply IH. intros u v -> Hu. apply (F (c :: u) v); [reflexivity | constructor; assumption].
        * split.
          -- intros Hk u v F Hu. destruct u as [|c' u]; [cbn [app] in F; subst v; exact Hk|]. cbn [app] in F. injection F as <- F. inversion Hu; subst. exact (proj1 (IH (Some c)) E u v eq_refl H3).
          -- intros F. apply (F [] (c :: t)); [reflexivity | constructor].
      + split.
        * intros Hk u v F Hu. destruct u as [|c' u]; [cbn [app] in F; subst v; exact Hk|]. cbn [app] in F. injection F as <- F. inversion Hu; subst. congruence.
        * intros F. apply (F [] (c :: t)); [reflexivity | constructor].
  Qed.
  Lemma star_Some p k g : forall s b x, star_from p k g b s = Some x <->
    exists u v, s = u ++ v /\ all p u /\ k (past b u, v, g) = Some x /\ forall u' v', s = u' ++ v' -> all p u' -> (length u < length u')%nat -> k (past b u', v', g) = None.
  Proof.
    induction s as [|c t IH]; intros b x; cbn [star_from].
    - split.
      + intros E. exists [], []. split; [reflexivity|]. split; [constructor|]. split; [exact E|]. intros u' v' F _ Hl. symmetry in F. apply app_eq_nil in F as [-> _]. cbn in Hl. lia.
      + intros (u & v & F & _ & Hk & _). symmetry in F. apply app_eq_nil in F as [-> ->]. exact Hk.
    - destruct (p c) eqn:Ec.
      + destruct (star_from p k g (Some c) t) eqn:E.
        * apply IH in E as E'. destruct E' as (u & v & -> & Hu & Hk & HM). split.
          -- intros F. exists (c :: u), v. split; [reflexivity|]. split; [constructor; assumption|]. split; [rewrite <- F; exact Hk|]. intros u' v' F' Hu' Hl. destruct u' as [|c' u']; [cbn in Hl; lia|].
             cbn [app] in F'. injection F' as <- F'. inversion Hu'; subst. apply (HM u' v' F'); [assumption | cbn [length] in Hl; lia].
          -- intros (u' & v' & F' & Hu' & Hk' & HM'). destruct (Nat.lt_trichotomy (length u') (S (length u))) as [Hl|[Hl|Hl]].
             ++ pose proof (HM' (c :: u) v eq_refl (Forall_cons _ Ec Hu) Hl) as F. change (past b (c :: u)) with (past (Some c) u) in F. congruence.
             ++ destruct u' as [|c' u']; [discriminate|]. cbn [app] in F'. injection F' as <- F'. cbn [length] in Hl. assert (u = u' /\ v = v') as [<- <-]; [|rewrite <- Hk'; symmetry; exact Hk].
                clear - F' Hl. revert u' F' Hl. induction u as [|a u IH]; intros [|a' u'] F Hl; try discriminate; [auto|]. cbn [app] in F. injection F as <- F. destruct (IH u' F) as [-> ->]; [cbn in Hl; lia | auto].
             ++ destruct u' as [|c' u']; [cbn in Hl; lia|]. cbn [app] in F'. injection F' as <- F'. inversion Hu'; subst. assert (F : k (past (Some c) u', v', g) = None) by (apply (HM u' v' F' H3); cbn [length] in Hl; lia). change (past b (c :: u')) with (past (Some c) u') in Hk'. congruence.
        * rewrite star_None in E. split.
          -- intros Hk. exists [], (c :: t). split; [reflexivity|]. split; [constructor|]. split; [exact Hk|]. intros u' v' F Hu' Hl. destruct u' as [|c' u']; [cbn in Hl; lia|]. cbn [app] in F. injection F as <- F. inversion Hu'; subst. exact (E u' v' eq_refl H3).
          -- intros (u & v & F & Hu & Hk & _). destruct u as [|c' u]; [cbn [app] in F; subst v; exact Hk|]. cbn [app] in F. injection F as <- F. inversion Hu; subst. pose proof (E u v eq_refl H3) as F'. change (past b (c :: u)) with (past (Some c) u) in Hk. congruence.
      + split.
        * intros Hk. exists [], (c :: t). split; [reflexivity|]. split; [constructor|]. split; [exact Hk|]. intros u' v' F Hu' Hl. destruct u' as [|c' u']; [cbn in Hl; lia|]. cbn [app] in F. injection F as <- F. inversion Hu'; subst. congruence.
        * intros (u & v & F & Hu & Hk & _). destruct u as [|c' u]; [cbn [app] in F; subst v; exact Hk|]. cbn [app] in F. injection F as <- F. inversion Hu; subst. congruence.
  Qed.
  (** The lazy star takes as little as possible. *)
  Lemma lazy_Some p k g x : forall s b, lazy_from p k g b s = Some x <->
    exists u v, s = u ++ v /\ all p u /\ k (past b u, v, g) = Some x /\ forall u' v', s = u' ++ v' -> (length u' < length u)%nat -> k (past b u', v', g) = None.
  Proof.
    induction s as [|c t IH]; intros b; cbn [lazy_from].
    - destruct (k (b, [], g)) eqn:E.
      + split; [intros F; injection F as <-; exists [], []; repeat split; [constructor | exact E | intros u' v' _ Hl; cbn in Hl; lia]|]. intros (u & v & F & _ & Hk & _). symmetry in F. apply app_eq_nil in F as [-> ->]. cbn in Hk. congruence.
      + split; [discriminate|]. intros (u & v & F & _ & Hk & _). symmetry in F. apply app_eq_nil in F as [-> ->]. cbn in Hk. congruence.
    - destruct (k (b, c :: t, g)) eqn:E.
      + split; [intros F; injection F as <-; exists [], (c :: t); repeat split; [constructor | exact E | intros u' v' _ Hl; cbn in Hl; lia]|]. intros (u & v & F & _ & Hk & HM). destruct u as [|c' u]; [cbn [app] in F; subst v; cbn in Hk; congruence|].
        pose proof (HM [] (c :: t) eq_refl) as F'. cbn in F'. rewrite F' in E; [discriminate | lia].
      + destruct (p c) eqn:Ec.
        * rewrite IH. split.
          -- intros (u & v & -> & Hu & Hk & HM). exists (c :: u), v. split; [reflexivity|]. split; [constructor; assumption|]. split; [exact Hk|]. intros u' v' F Hl. destruct u' as [|c' u']; [cbn [app] in F; subst v'; exact E|].
             cbn [app] in F. injection F as <- F. apply (HM u' v' F). cbn [length] in Hl. lia.
          -- intros (u & v & F & Hu & Hk & HM). destruct u as [|c' u]; [cbn [app] in F; subst v; cbn in Hk; congruence|]. cbn [app] in F. injection F as <- F. inversion Hu; subst. exists u, v. split; [reflexivity|]. split; [assumption|]. split; [exact Hk|].
             intros u' v' F Hl. apply (HM (c :: u') v'); [cbn [app]; congruence | cbn [length]; lia].
        * split; [discriminate|]. intros (u & v & F & Hu & Hk & _). destruct u as [|c' u]; [cbn [app] in F; subst v; cbn in Hk; congruence|]. cbn [app] in F. injection F as <- F. inversion Hu; subst. congruence.
  Qed.
  (** When what follows starts with a character that the star does not take. *)
  Lemma star_until p k g s b x : (forall b' c r, p c = true -> k (b', c :: r, g) = None) ->
    star_from p k g b s = Some x <-> exists u v, s = u ++ v /\ all p u /\ (forall c r, v = c :: r -> p c = false) /\ k (past b u, v, g) = Some x.
  Proof.
    intros HK. rewrite star_Some. split.
    - intros (u & v & -> & Hu & Hk & _). exists u, v. repeat split; [assumption | | assumption]. intros c r ->. destruct (p c) eqn:E; [|reflexivity]. rewrite HK in Hk; [discriminate | exact E].
    - intros (u & v & -> & Hu & Hv & Hk). exists u, v. repeat split; [assumption | assumption|]. intros u' v' F Hu' Hl. exfalso.
      destruct v as [|c r]; [rewrite app_nil_r in F; subst u; rewrite app_length in Hl; lia|]. specialize (Hv c r eq_refl).
      assert (Hc : In c u'); [|rewrite (proj1 (Forall_forall _ _) Hu' c Hc) in Hv; discriminate]. clear - F Hl. revert u' F Hl. induction u as [|a u IH]; intros [|a' u'] F Hl; cbn [length] in Hl; try lia; cbn [app] in F; injection F as <- F.
      + left. reflexivity.
      + right. apply (IH u' F). lia.
  Qed.
  (** When everything is accepted afterwards, up to the first other character. *)
  Lemma star_total p k g s b x : (forall st, k st <> None) ->
    star_from p k g b s = Some x <-> exists u v, s = u ++ v /\ all p u /\ (forall c r, v = c :: r -> p c = false) /\ k (past b u, v, g) = Some x.
  Proof.
    intros HK. revert b. induction s as [|c t IH]; intros b; cbn [star_from].
    - split; [intros E; exists [], []; repeat split; [constructor | discriminate | exact E] | intros (u & v & F & _ & _ & Hk); symmetry in F; apply app_eq_nil in F as [-> ->]; exact Hk].
    - destruct (p c) eqn:Ec.
      + destruct (star_from p k g (Some c) t) eqn:E; [rewrite <- E, IH|exfalso; rewrite star_None in E; specialize (E [] t eq_refl (Forall_nil _)); exact (HK _ E)]. split.
        * intros (u & v & -> & Hu & Hv & Hk). exists (c :: u), v. repeat split; [constructor; assumption | assumption | exact Hk].
        * intros (u & v & F & Hu & Hv & Hk). destruct u as [|c' u]; [cbn [app] in F; subst v; rewrite (Hv c t eq_refl) in Ec; discriminate|]. cbn [app] in F. injection F as <- F. inversion Hu; subst. exists u, v. repeat split; assumption.
      + split.
        * intros E. exists [], (c :: t). repeat split; [constructor | | exact E]. intros c' r F. injection F as <- <-. exact Ec.
        * intros (u & v & F & Hu & Hv & Hk). destruct u as [|c' u]; [cbn [app] in F; subst v; exact Hk|]. cbn [app] in F. injection F as <- F. inversion Hu; subst. congruence.
  Qed.
  Lemma first_length (u v : list A) : firstn (length (u ++ v) - length v) (u ++ v) = u.
  Proof. rewrite app_length. replace (length u + length v - length v)%nat with (length u) by lia. rewrite firstn_app, firstn_all, Nat.sub_diag. cbn. apply app_nil_r. Qed.

  Variable word : A -> bool.

  Lemma lit_matches w : forall b s g k x, matches word (Lit w) (b, s, g) k = Some x <-> exists r, s = w ++ r /\ k (past b w, r, g) = Some x.
  Proof.
    induction w as [|c w IH]; intros b s g k x.
    - cbn [Lit fold_right matches]. split; [intros E; exists s; auto | intros (r & -> & E); exact E].
    - cbn [Lit fold_right]. change (fold_right (fun c r => Cls (eqb c) ;; r) Eps w) with (Lit w). cbn [matches]. destruct s as [|d t].
      + split; [discriminate|]. intros (r & E & _). discriminate.
      + destruct (eqb c d) eqn:E.
        * apply eqb_true in E as <-. rewrite IH. split; intros (r & E & Hk); exists r; (split; [|exact Hk]).
          -- cbn [app]. congruence.
          -- cbn [app] in E. congruence.
        * split; [discriminate|]. intros (r & F & _). cbn [app] in F. injection F as -> F. rewrite eqbR in E. discriminate.
  Qed.
  Lemma cls_matches p b s g k x : matches word (Cls p) (b, s, g) k = Some x <-> exists c r, s = c :: r /\ p c = true /\ k (Some c, r, g) = Some x.
  Proof.
    cbn [matches]. destruct s as [|c r]; [split; [discriminate | intros (? & ? & F & _); discriminate]|]. destruct (p c) eqn:E.
    - split; [intros Hk; exists c, r; auto | intros (c' & r' & F & _ & Hk); injection F as -> ->; exact Hk].
    - split; [discriminate|]. intros (c' & r' & F & F' & _). injection F as -> ->. congruence.
  Qed.
  Lemma bound_matches b s g k x : matches word Bound (b, s, g) k = Some x <-> xorb (in_word word b) (in_word word (hd_error s)) = true /\ k (b, s, g) = Some x.
  Proof. cbn [matches]. destruct (xorb _ _); [tauto|]. split; [discriminate | intros [F _]; discriminate]. Qed.
  Lemma seq_matches r1 r2 st k : matches word (r1 ;; r2) st k = matches word r1 st (fun st' => matches word r2 st' k).
  Proof. destruct st as [[b s] g]. reflexivity. Qed.
  Lemma group_matches r b s g k : matches word (Group r) (b, s, g) k = matches word r (b, s, g) (fun '(b', s', g') => k (b', s', g' ++ [firstn (length s - length s') s])).
  Proof. reflexivity. Qed.
  Lemma alt_matches r1 r2 st k x : matches word (Alt r1 r2) st k = Some x <-> matches word r1 st k = Some x \/ matches word r1 st k = None /\ matches word r2 st k = Some x.
  Proof. destruct st as [[b s] g]. cbn [matches]. destruct (matches word r1 (b, s, g) k); split; [auto | intros [E|[F _]]; [exact E | discriminate] | auto | intros [F|[_ E]]; [discriminate | exact E]]. Qed.

  Lemma plus_end p b s g x : matches word (Group (Plus p)) (b, s, g) Some = Some x <->
    exists q r, s = q ++ r /\ q <> [] /\ all p q /\ (forall c r', r = c :: r' -> p c = false) /\ x = (past b q, r, g ++ [q]).
  Proof.
    rewrite group_matches. unfold Plus. rewrite seq_matches, cls_matches. split.
    - intros (c & t & -> & Hc & E). cbn [matches] in E. apply star_total in E as (u & v & -> & Hu & Hv & E); [|intros [[? ?] ?]; discriminate]. exists (c :: u), v. split; [reflexivity|]. split; [discriminate|]. split; [constructor; assumption|]. split; [assumption|].
      rewrite (first_length (c :: u) v : firstn (length (c :: u ++ v) - length v) (c :: u ++ v) = c :: u) in E. injection E as <-. reflexivity.
    - intros (q & r & -> & Hq & Ha & Hr & ->). destruct q as [|c u]; [contradiction|]. inversion Ha; subst. exists c, (u ++ r). split; [reflexivity|]. split; [assumption|]. cbn [matches]. apply star_total; [intros [[? ?] ?]; discriminate|].
      exists u, r. split; [reflexivity|]. split; [assumption|]. split; [assumption|]. rewrite first_length. reflexivity.
  Qed.
  Lemma plus_until p k b s g x : (forall b' c r g', p c = true -> k (b', c :: r, g') = None) ->
    matches word (Group (Plus p)) (b, s, g) k = Some x <-> exists q r, s = q ++ r /\ q <> [] /\ all p q /\ k (past b q, r, g ++ [q]) = Some x.
  Proof.
    intros HK. rewrite group_matches. unfold Plus. rewrite seq_matches, cls_matches. split.
    - intros (c & t & -> & Hc & E). cbn [matches] in E. apply star_until in E as (u & v & -> & Hu & Hv & E); [|intros; apply HK; assumption]. exists (c :: u), v. split; [reflexivity|]. split; [discriminate|]. split; [constructor; assumption|].
      rewrite (first_length (c :: u) v : firstn (length (c :: u ++ v) - length v) (c :: u ++ v) = c :: u) in E. exact E.
    - intros (q & r & -> & Hq & Ha & E). destruct q as [|c u]; [contradiction|]. inversion Ha; subst. exists c, (u ++ r). split; [reflexivity|]. split; [assumption|]. cbn [matches]. apply star_until; [intros; apply HK; assumption|].
      exists u, r. split; [reflexivity|]. split; [assumption|]. split; [|rewrite first_length; exact E]. intros d r' ->. destruct (p d) eqn:Ed; [|reflexivity]. rewrite HK in E; [discriminate | exact Ed].
  Qed.
  Lemma alt_None r1 r2 st k : matches word (Alt r1 r2) st k = None <-> matches word r1 st k = None /\ matches word r2 st k = None.
  Proof. destruct st as [[b s] g]. cbn [matches]. destruct (matches word r1 (b, s, g) k); [|tauto]. split; [discriminate | intros [F _]; discriminate]. Qed.

  (** ** Matches from left to right *)
  Inductive finds (M : option A -> list A -> list (list A) -> list A -> Prop) : option A -> list A -> list (list (list A)) -> Prop :=
  | fi_nil b : finds M b [] []
  | fi_here b t v r vs : M b t v r -> finds M (past b t) r vs -> finds M b (t ++ r) (v :: vs)
  | fi_skip b c s vs : (forall t v r, M b t v r -> c :: s <> t ++ r) -> finds M (Some c) s vs -> finds M b (c :: s) vs.
  Lemma finditer_skip r k : forall b s, finditer word r k b s = finditer word r 0 (past b (firstn k s)) (skipn k s).
  Proof. induction k as [|k IH]; intros b s; [reflexivity|]. destruct s as [|c t]; [reflexivity|]. cbn [firstn skipn past fold_left finditer]. rewrite IH. reflexivity. Qed.
  Definition describes (r : re A) (M : option A -> list A -> list (list A) -> list A -> Prop) : Prop :=
    (forall b s x, match_at word r b s = Some x <-> exists t v s', s = t ++ s' /\ M b t v s' /\ x = (past b t, s', v)) /\ (forall b t v s, M b t v s -> t <> []).
  Lemma finds_iff r M : describes r M -> forall s b vs, finditer word r 0 b s = vs <-> finds M b s vs.
  Proof.
    intros [HM HN]. assert (H1 : forall n s b, (length s <= n)%nat -> finds M b s (finditer word r 0 b s)).
    { induction n as [|n IH]; intros s b Hl; (destruct s as [|c t]; [constructor|]); [cbn in Hl; lia|]. cbn [finditer]. destruct (match_at word r b (c :: t)) as [[[b' s'] g]|] eqn:E.
      - apply HM in E as (u & v & s2 & E & Hm & F). injection F as -> -> ->. pose proof (HN _ _ _ _ Hm) as Hu. destruct u as [|c' u]; [contradiction|]. cbn [app] in E. injection E as <- ->. rewrite finditer_skip.
        rewrite app_length. replace (length u + length s2 - length s2)%nat with (length u) by lia. rewrite firstn_app, firstn_all, skipn_app, skipn_all, Nat.sub_diag. cbn [firstn skipn app]. rewrite app_nil_r.
        change (c :: u ++ s2) with ((c :: u) ++ s2). constructor; [exact Hm|]. apply IH. cbn [length] in Hl. rewrite app_length in Hl. lia.
      - constructor; [|apply IH; cbn [length] in Hl; lia]. intros u v s2 Hm F. assert (F' : match_at word r b (c :: t) = Some (past b u, s2, v)) by (apply HM; eauto 6). congruence. }
    assert (H2 : forall s b vs, finds M b s vs -> finditer word r 0 b s = vs).
    { intros s b vs F. induction F as [b|b t v s vs Hm F IH|b c s vs Hn F IH]; [reflexivity| |].
      - pose proof (HN _ _ _ _ Hm) as Ht. assert (E : match_at word r b (t ++ s) = Some (past b t, s, v)) by (apply HM; eauto 6). destruct t as [|c t]; [contradiction|]. cbn [app] in *. cbn [finditer]. rewrite E. f_equal. rewrite finditer_skip.
        rewrite app_length. replace (length t + length s - length s)%nat with (length t) by lia. rewrite firstn_app, firstn_all, skipn_app, skipn_all, Nat.sub_diag. cbn [firstn skipn app]. rewrite app_nil_r. exact IH.
      - cbn [finditer]. destruct (match_at word r b (c :: s)) as [[[b' s'] g]|] eqn:E; [|exact IH]. exfalso. apply HM in E as (u & v & s2 & E & Hm & _). exact (Hn _ _ _ Hm E). }
    intros s b vs. split; [intros <-; apply (H1 (length s)); lia | apply H2].
  Qed.
End Re.
