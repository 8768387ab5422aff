(** * The search of paths in the files of the client *)

From Verif Require Import Base.Py Base.PyFacts Base.Text Base.TextFacts Base.Utf8 Base.Regex Base.Re Model.Hashes Model.Patcher Model.Guess Model.Grep Model.Releases Model.GrepLcu.
From Verif Require Import Spec.HashesSpec Spec.Utf8Spec Spec.GrepLcuSpec Proofs.Utf8Proofs Proofs.HashesProofs Proofs.GuessProofs Proofs.GrepProofs Proofs.ReProofs.

Lemma alnum_iff c : alnum c = true <-> letter_or_digit c.
Proof. unfold alnum, is_digit, letter_or_digit. rewrite !orb_true_iff, !andb_true_iff, !N.leb_le. lia. Qed.
Lemma url_iff c : url_char c = true <-> url_like c.
Proof. unfold url_char, url_like. rewrite orb_true_iff, alnum_iff, mem_In. cbn [In]. unfold cSlash, cUnder, cDot, cMinus. intuition congruence. Qed.
Lemma rel_iff c : rel_char c = true <-> path_like c.
Proof. unfold rel_char, path_like. rewrite orb_true_iff, alnum_iff, mem_In. cbn [In]. unfold cSlash, cUnder, cDot, cMinus. intuition congruence. Qed.
Lemma before_iff c : rel_before c = true <-> ~ path_like c /\ c <> 92.
Proof.
  unfold rel_before, path_like. rewrite negb_true_iff, orb_false_iff, mem_false. cbn [In]. unfold cSlash, cUnder, cDot, cMinus.
  pose proof (alnum_iff c) as HA. destruct (alnum c); split; intros; intuition congruence.
Qed.
Lemma but_iff c x : but c x = true <-> x <> c.
Proof. unfold but. rewrite negb_true_iff, N.eqb_neq. reflexivity. Qed.
Lemma but_all c u : all (but c) u <-> ~ In c u.
Proof. unfold all. rewrite Forall_forall. split; [intros F Hc; apply F in Hc; apply but_iff in Hc; congruence | intros F x Hx; apply but_iff; intros ->; contradiction]. Qed.
Lemma lower_iff c : is_lower c = true <-> 97 <= c <= 122.
Proof. unfold is_lower. rewrite andb_true_iff, !N.leb_le. reflexivity. Qed.
Lemma all_iff (p : N -> bool) (P : N -> Prop) u : (forall c, p c = true <-> P c) -> all p u <-> Forall P u.
Proof. intros HP. unfold all. rewrite !Forall_forall. split; intros F x Hx; apply HP, F, Hx. Qed.
Lemma run_iff (p : N -> bool) (P : N -> Prop) q r : (forall c, p c = true <-> P c) ->
  longest_run P q r <-> q <> [] /\ all p q /\ (forall c r', r = c :: r' -> p c = false).
Proof.
  intros HP. unfold longest_run. rewrite (all_iff p P q HP). split; intros (H1 & H2 & H3); (split; [assumption|]; split; [assumption|]); intros c r' E; specialize (H3 c r' E).
  - destruct (p c) eqn:F; [|reflexivity]. apply HP in F. contradiction.
  - intros F. apply HP in F. congruence.
Qed.

Lemma found_finds M b s vs : found M b s vs <-> finds M b s vs.
Proof. split; (induction 1; [constructor | econstructor; eassumption | constructor; assumption]). Qed.

Section Patterns.
  Variable word : N -> bool.
  Hypothesis WO : word_ok word.

  Lemma found_in_iff r M s vs : describes word r M -> found_in word r s = vs <-> found M None s vs.
  Proof. intros HD. unfold found_in. rewrite (finds_iff word r M HD), found_finds. reflexivity. Qed.
  Lemma not_word_iff b : not_word word b <-> in_word word b = false.
  Proof. unfold not_word. destruct b as [c|]; cbn [in_word]; split; [auto | intros E c' F; congruence | reflexivity | discriminate]. Qed.
  Lemma bound_start b c w r : word c = true -> xorb (in_word word b) (in_word word (hd_error ((c :: w) ++ r))) = true <-> not_word word b.
  Proof. intros Hc. cbn [app hd_error in_word]. rewrite Hc, not_word_iff. destruct (in_word word b); cbn; split; congruence. Qed.

  Lemma fe_describes : describes word re_fe (fe_match word).
  Proof.
    assert (HF : word 102 = true) by (apply WO; unfold letter_or_digit; lia). split.
    - intros b s x. unfold match_at, re_fe. rewrite seq_matches, bound_matches, seq_matches, lit_matches. split.
      + intros (Hb & r & -> & E). apply bound_start in Hb; [|exact HF]. rewrite seq_matches in E. apply plus_until in E as (p & r1 & -> & Hp & Ha & E).
        2: { intros b' c r' g' Hc. apply but_iff in Hc. cbn [matches]. destruct (eqb cSlash c) eqn:F; [apply eqb_true in F; congruence | reflexivity]. }
        rewrite seq_matches in E. apply cls_matches in E as (c & r2 & -> & Hc & E). apply eqb_true in Hc as <-. apply plus_end in E as (q & r3 & -> & Hq & Haq & Hr & ->).
        exists (lit "fe/" ++ p ++ lit "/" ++ q), [p; q], r3. split; [rewrite <- !app_assoc; reflexivity|]. split.
        * exists p, q. split; [reflexivity|]. split; [reflexivity|]. split; [exact Hb|]. split; [exact Hp|]. split; [apply but_all; exact Ha|]. apply (run_iff url_char); [apply url_iff | auto].
        * rewrite !past_app. reflexivity.
      + intros (t & v & s' & -> & (p & q & -> & -> & Hb & Hp & Ha & Hq) & ->). apply (run_iff url_char) in Hq as (Hq & Haq & Hr); [|apply url_iff].
        split; [rewrite <- app_assoc; apply bound_start; assumption|]. exists (p ++ lit "/" ++ q ++ s'). split; [rewrite <- !app_assoc; reflexivity|]. rewrite seq_matches. apply plus_until.
        { intros b' c r' g' Hc. apply but_iff in Hc. cbn [matches]. destruct (eqb cSlash c) eqn:F; [apply eqb_true in F; congruence | reflexivity]. }
        exists p, (lit "/" ++ q ++ s'). split; [reflexivity|]. split; [assumption|]. split; [apply but_all; assumption|]. rewrite seq_matches. apply cls_matches. exists cSlash, (q ++ s'). split; [reflexivity|]. split; [reflexivity|].
        apply plus_end. exists q, s'. split; [reflexivity|]. split; [assumption|]. split; [assumption|]. split; [assumption|]. rewrite !past_app. reflexivity.
    - intros b t v s (p & q & _ & -> & _). discriminate.
  Qed.
  Lemma lit_run w p P : (forall c, p c = true <-> P c) -> w <> [] -> describes word (Lit w ;; Group (Plus p)) (fun b t v r => exists q, v = [q] /\ t = w ++ q /\ longest_run P q r).
  Proof.
    intros HP Hw. split.
    - intros b s x. unfold match_at. rewrite seq_matches, lit_matches. split.
      + intros (r & -> & E). apply plus_end in E as (q & r3 & -> & Hq & Haq & Hr & ->). exists (w ++ q), [q], r3. split; [apply app_assoc|]. split; [|rewrite past_app; reflexivity].
        exists q. split; [reflexivity|]. split; [reflexivity|]. apply (run_iff p); auto.
      + intros (t & v & s' & -> & (q & -> & -> & Hq) & ->). apply (run_iff p) in Hq as (Hq & Haq & Hr); [|assumption]. exists (q ++ s'). split; [symmetry; apply app_assoc|]. apply plus_end. exists q, s'. rewrite past_app. auto 6.
    - intros b t v s (q & _ & -> & _) F. apply app_eq_nil in F as [F _]. contradiction.
  Qed.
  Lemma data_describes : describes word re_data data_match.
  Proof. apply (lit_run (lit "/DATA/") url_char url_like url_iff). discriminate. Qed.
  Lemma splash_describes : describes word re_splash splash_match.
  Proof. apply (lit_run (lit "-splash-") (but cDot) (fun c => c <> cDot)); [intros c; apply but_iff | discriminate]. Qed.
  Lemma assets_describes : describes word re_assets (assets_match word).
  Proof.
    assert (HF : word 108 = true) by (apply WO; unfold letter_or_digit; lia). destruct (lit_run (lit "lol-game-data/assets/") url_char url_like url_iff) as [HD _]; [discriminate|]. split.
    - intros b s x. specialize (HD b s x). unfold match_at, re_assets in *. rewrite seq_matches, bound_matches, HD. split.
      + intros (Hb & t & v & s' & -> & (q & -> & -> & Hq) & ->). exists (lit "lol-game-data/assets/" ++ q), [q], s'. split; [reflexivity|]. split; [|reflexivity]. exists q. split; [reflexivity|]. split; [reflexivity|]. split; [|exact Hq].
        rewrite <- app_assoc in Hb. apply bound_start in Hb; assumption.
      + intros (t & v & s' & -> & (q & -> & -> & Hb & Hq) & ->). split; [rewrite <- app_assoc; apply bound_start; assumption|]. exists (lit "lol-game-data/assets/" ++ q), [q], s'. eauto 8.
    - intros b t v s (q & _ & -> & _). discriminate.
  Qed.
  Lemma relative_describes : describes word re_relative relative_match.
  Proof.
    assert (HT : forall b s x b0 s0 d, (matches word (Lit d) (b, s, []) (fun st' => matches word (Lit (lit "/") ;; Plus rel_char) st' (fun '(b', s', g') => Some (b', s', g' ++ [firstn (length s0 - length s') s0])))) = Some x ->
        s0 = s -> b0 = b -> exists q r, s = d ++ lit "/" ++ q ++ r /\ longest_run path_like q r /\ x = (past b (d ++ lit "/" ++ q), r, [d ++ lit "/" ++ q])).
    { intros b s x b0 s0 d E -> ->. apply lit_matches in E as (r & -> & E). rewrite seq_matches in E. apply lit_matches in E as (r1 & -> & E). unfold Plus in E. rewrite seq_matches in E. apply cls_matches in E as (c & r2 & -> & Hc & E).
      cbn [matches] in E. apply star_total in E as (u & v & -> & Hu & Hv & E); [|intros [[? ?] ?]; discriminate]. exists (c :: u), v. split; [reflexivity|]. split; [apply (run_iff rel_char); [apply rel_iff|]; split; [discriminate|]; split; [constructor|]; assumption|].
      replace (d ++ lit "/" ++ c :: u ++ v) with ((d ++ lit "/" ++ c :: u) ++ v) in E by (rewrite <- !app_assoc; reflexivity). rewrite first_length in E. rewrite !past_app. injection E as E. rewrite <- E. reflexivity. }
    assert (HT' : forall b d q r, longest_run path_like q r -> matches word (Lit d) (b, d ++ lit "/" ++ q ++ r, []) (fun st' => matches word (Lit (lit "/") ;; Plus rel_char) st' (fun '(b', s', g') => Some (b', s', g' ++ [firstn (length (d ++ lit "/" ++ q ++ r) - length s') (d ++ lit "/" ++ q ++ r)]))) =
        Some (past b (d ++ lit "/" ++ q), r, [d ++ lit "/" ++ q])).
    { intros b d q r Hq. apply (run_iff rel_char) in Hq as (Hq & Haq & Hr); [|apply rel_iff]. apply lit_matches. eexists. split; [reflexivity|]. rewrite seq_matches. apply lit_matches. eexists. split; [reflexivity|]. destruct q as [|c u]; [contradiction|]. inversion Haq; subst.
      unfold Plus. rewrite seq_matches. apply cls_matches. exists c, (u ++ r). split; [reflexivity|]. split; [assumption|]. cbn [matches]. apply star_total; [intros [[? ?] ?]; discriminate|]. exists u, r. split; [reflexivity|]. split; [assumption|]. split; [assumption|].
      replace (d ++ lit "/" ++ (c :: u) ++ r) with ((d ++ lit "/" ++ c :: u) ++ r) by (rewrite <- !app_assoc; reflexivity). rewrite first_length. rewrite !past_app. reflexivity. }
    split.
    - intros b s x. unfold match_at, re_relative. rewrite seq_matches, cls_matches. split.
      + intros (c & r & -> & Hc & E). apply before_iff in Hc as [Hc1 Hc2]. rewrite group_matches, seq_matches in E. apply alt_matches in E.
        assert (HE : exists d, (d = lit "." \/ d = lit "..") /\ matches word (Lit d) (Some c, r, []) (fun st' => matches word (Lit (lit "/") ;; Plus rel_char) st' (fun '(b', s', g') => Some (b', s', g' ++ [firstn (length r - length s') r]))) = Some x).
        { destruct E as [E|[_ E]]; [exists (lit ".") | exists (lit "..")]; auto. }
        destruct HE as (d & Hd & HE). apply (HT _ _ _ (Some c) r) in HE as (q & r' & -> & Hq & ->); [|reflexivity|reflexivity].
        exists (c :: d ++ lit "/" ++ q), [d ++ lit "/" ++ q], r'. split; [cbn [app]; rewrite <- !app_assoc; reflexivity|]. split; [|reflexivity]. exists c, (d ++ lit "/"), q. rewrite <- app_assoc. split; [reflexivity|]. split; [reflexivity|]. split; [exact Hc1|]. split; [exact Hc2|]. split; [destruct Hd as [-> | ->]; [left | right]; reflexivity | exact Hq].
      + intros (t & v & s' & -> & (c & d & q & -> & -> & Hc1 & Hc2 & Hd & Hq) & ->). exists c, ((d ++ q) ++ s'). split; [reflexivity|]. split; [apply before_iff; auto|]. rewrite group_matches, seq_matches.
        assert (Hd' : exists d', d = d' ++ lit "/" /\ (d' = lit "." \/ d' = lit "..")). { destruct Hd as [-> | ->]; [exists (lit ".") | exists (lit "..")]; auto. }
        destruct Hd' as (d' & -> & Hd'). replace (((d' ++ lit "/") ++ q) ++ s') with (d' ++ lit "/" ++ q ++ s') by (rewrite <- !app_assoc; reflexivity). apply alt_matches. destruct Hd' as [-> | ->].
        * left. exact (HT' (Some c) (lit ".") q s' Hq).
        * right. split; [reflexivity | exact (HT' (Some c) (lit "..") q s' Hq)].
    - intros b t v s (c & d & q & _ & -> & _). discriminate.
  Qed.
  (** The continuation of a match of [re_named] after its first characters. *)
  Definition exts : re N := Alts [Lit (lit "js"); Lit (lit "json"); Lit (lit "webm"); Lit (lit "html")] (Cls is_lower ;; Cls is_lower ;; Cls is_lower).
  Lemma ext_words e : known_ext e -> e <> [] /\ Forall letter_or_digit e.
  Proof.
    intros [He|(x & y & z & -> & Hx & Hy & Hz)].
    - cbn [In] in He. destruct He as [<-|[<-|[<-|[<-|[]]]]]; (split; [discriminate | apply (all_iff alnum letter_or_digit); [apply alnum_iff | apply Forall_forall, forallb_forall; reflexivity]]).
    - split; [discriminate|]. apply Forall_cons; [|apply Forall_cons; [|apply Forall_cons; [|apply Forall_nil]]]; unfold letter_or_digit; lia.
  Qed.
  Lemma ext_once e e' r r' : known_ext e -> known_ext e' -> not_word_next word r -> not_word_next word r' -> e ++ r = e' ++ r' -> e = e' /\ r = r'.
  Proof.
    intros He He'. apply ext_words in He as [_ He], He' as [_ He']. revert e' He'. induction e as [|c e IH]; intros e' He' Hr Hr' E.
    - destruct e' as [|c' e']; [auto|]. cbn [app] in E. exfalso. inversion He'; subst. specialize (Hr c' (e' ++ r') eq_refl). rewrite WO in Hr; [discriminate | assumption].
    - destruct e' as [|c' e']; cbn [app] in E.
      + exfalso. inversion He; subst. specialize (Hr' c (e ++ r) eq_refl). rewrite WO in Hr'; [discriminate | assumption].
      + injection E as <- E. inversion He; inversion He'; subst. destruct (IH H2 e' H6 Hr Hr' E) as [-> ->]. auto.
  Qed.
  Lemma exts_sound st k x : matches word exts st k = Some x -> exists b s g e r, st = (b, s, g) /\ known_ext e /\ s = e ++ r /\ k (past b e, r, g) = Some x.
  Proof.
    destruct st as [[b s] g]. intros E. exists b, s, g. unfold exts, Alts in E. cbn [fold_right] in E.
    apply alt_matches in E as [E|[_ E]]; [apply lit_matches in E as (r & -> & E); exists (lit "js"), r; split; [reflexivity|]; split; [left; cbn [In]; tauto | auto]|].
    apply alt_matches in E as [E|[_ E]]; [apply lit_matches in E as (r & -> & E); exists (lit "json"), r; split; [reflexivity|]; split; [left; cbn [In]; tauto | auto]|].
    apply alt_matches in E as [E|[_ E]]; [apply lit_matches in E as (r & -> & E); exists (lit "webm"), r; split; [reflexivity|]; split; [left; cbn [In]; tauto | auto]|].
    apply alt_matches in E as [E|[_ E]]; [apply lit_matches in E as (r & -> & E); exists (lit "html"), r; split; [reflexivity|]; split; [left; cbn [In]; tauto | auto]|].
    rewrite !seq_matches in E. apply cls_matches in E as (c1 & r1 & -> & H1 & E). rewrite seq_matches in E. apply cls_matches in E as (c2 & r2 & -> & H2 & E). apply cls_matches in E as (c3 & r3 & -> & H3 & E). apply lower_iff in H1, H2, H3.
    exists [c1; c2; c3], r3. split; [reflexivity|]. split; [right; eauto 10|]. split; [reflexivity | exact E].
  Qed.
  Lemma exts_complete b e r g k : known_ext e -> k (past b e, r, g) <> None -> matches word exts (b, e ++ r, g) k <> None.
  Proof.
    intros He Hk F. unfold exts, Alts in F. cbn [fold_right] in F. rewrite !alt_None in F. destruct F as (F1 & F2 & F3 & F4 & F5). apply Hk. destruct (k (past b e, r, g)) as [x|] eqn:E; [|reflexivity]. exfalso. destruct He as [He|(c1 & c2 & c3 & -> & H1 & H2 & H3)].
    - assert (HL : matches word (Lit e) (b, e ++ r, g) k = Some x) by (apply lit_matches; eauto). cbn [In] in He. destruct He as [<-|[<-|[<-|[<-|[]]]]]; congruence.
    - assert (HL : matches word (Cls is_lower ;; Cls is_lower ;; Cls is_lower) (b, [c1; c2; c3] ++ r, g) k = Some x); [|congruence].
      rewrite !seq_matches. apply cls_matches. exists c1, (c2 :: c3 :: r). split; [reflexivity|]. split; [apply lower_iff; assumption|]. rewrite seq_matches. apply cls_matches. exists c2, (c3 :: r). split; [reflexivity|]. split; [apply lower_iff; assumption|].
      apply cls_matches. exists c3, r. split; [reflexivity|]. split; [apply lower_iff; assumption | exact E].
  Qed.
  Lemma bound_after b e r : known_ext e -> xorb (in_word word (past b e)) (in_word word (hd_error r)) = true <-> not_word_next word r.
  Proof.
    intros He. apply ext_words in He as [Hn He]. destruct (exists_last Hn) as (e' & c & ->). rewrite past_app. cbn [past fold_left in_word]. apply Forall_app in He as [_ He]. inversion He; subst. rewrite WO by assumption. cbn [xorb].
    unfold not_word_next. destruct r as [|d r]; cbn [hd_error in_word]; [split; [discriminate | reflexivity]|]. destruct (word d) eqn:Ed; split; [discriminate | intros F; rewrite (F d r eq_refl) in Ed; discriminate | intros _ c' r' F; congruence | reflexivity].
  Qed.
  (** What follows the star of [re_named]; [s0] is the text of the group. *)
  Definition named_rest (s0 : str) (st : rstate N) : option (rstate N) :=
    matches word (Cls (eqb cDot) ;; exts) st (fun '(b', s', g') => matches word Bound (b', s', g' ++ [firstn (length s0 - length s') s0]) Some).
  Lemma named_rest_iff b s0 pre v x : s0 = pre ++ v ->
    named_rest s0 (b, v, []) = Some x <-> exists e r, v = lit "." ++ e ++ r /\ known_ext e /\ not_word_next word r /\ x = (past b (lit "." ++ e), r, [pre ++ lit "." ++ e]).
  Proof.
    intros ->. unfold named_rest. rewrite seq_matches, cls_matches.
    assert (HS : forall c r x, matches word exts (Some c, r, []) (fun '(b', s', g') => matches word Bound (b', s', g' ++ [firstn (length (pre ++ lit "." ++ r) - length s') (pre ++ lit "." ++ r)]) Some) = Some x ->
      exists e r', r = e ++ r' /\ known_ext e /\ not_word_next word r' /\ x = (past (Some c) e, r', [pre ++ lit "." ++ e])).
    { intros c r x' E. apply exts_sound in E as (b' & s' & g' & e & r' & E0 & He & -> & E). injection E0 as <- -> <-. apply bound_matches in E as [Hb E]. apply (bound_after _ e) in Hb; [|assumption]. exists e, r'. split; [reflexivity|]. split; [assumption|]. split; [assumption|].
      replace (pre ++ lit "." ++ e ++ r') with ((pre ++ lit "." ++ e) ++ r') in E by (rewrite <- !app_assoc; reflexivity). rewrite first_length in E. injection E as <-. reflexivity. }
    split.
    - intros (c & r & -> & Hc & E). apply eqb_true in Hc as <-. apply HS in E as (e & r' & -> & He & Hr & ->). exists e, r'. auto.
    - intros (e & r & -> & He & Hr & ->). exists cDot, (e ++ r). split; [reflexivity|]. split; [reflexivity|].
      destruct (matches word exts (Some cDot, e ++ r, []) (fun '(b', s', g') => matches word Bound (b', s', g' ++ [firstn (length (pre ++ lit "." ++ e ++ r) - length s') (pre ++ lit "." ++ e ++ r)]) Some)) as [x|] eqn:E.
      + apply HS in E as (e' & r' & E & He' & Hr' & ->). apply ext_once in E as [-> ->]; try assumption. reflexivity.
      + exfalso. revert E. apply exts_complete; [assumption|]. intros F. assert (F' : matches word Bound (past (Some cDot) e, r, [] ++ [firstn (length (pre ++ lit "." ++ e ++ r) - length r) (pre ++ lit "." ++ e ++ r)]) Some <> None); [|apply F'; exact F].
        intros F2. cbn [matches] in F2. rewrite (proj2 (bound_after (Some cDot) e r He) Hr) in F2. discriminate.
  Qed.
  Lemma named_describes : describes word re_named (named_match word).
  Proof.
    split.
    - intros b s x. unfold match_at, re_named. rewrite seq_matches, cls_matches.
      assert (HX : forall c r, matches word (Group (Cls alnum ;; Star url_char ;; Cls (eqb cDot) ;; exts) ;; Bound) (Some c, r, []) Some = Some x <->
        exists p r', r = p ++ r' /\ with_ext p /\ not_word_next word r' /\ (forall y r2, r' = y ++ r2 -> y <> [] -> not_word_next word r2 -> ~ with_ext (p ++ y)) /\ x = (past (Some c) p, r', [p])).
      { intros c r. rewrite seq_matches, group_matches, seq_matches, cls_matches. split.
        - intros (d & t & -> & Hd & E). rewrite seq_matches in E. cbn [matches] in E. change (star_from url_char (named_rest (d :: t)) [] (Some d) t = Some x) in E.
          apply star_Some in E as (u & v & -> & Hu & E & HM). apply (named_rest_iff _ _ (d :: u)) in E as (e & r' & -> & He & Hr & ->); [|reflexivity]. exists (d :: u ++ lit "." ++ e), r'. split; [cbn [app]; rewrite <- !app_assoc; reflexivity|].
          assert (HU : Forall url_like u) by (apply (all_iff url_char); [apply url_iff | exact Hu]). apply alnum_iff in Hd. split; [exists d, u, e; auto|]. split; [exact Hr|]. split; [|change (d :: u ++ lit "." ++ e) with ((d :: u) ++ lit "." ++ e); rewrite !past_app; reflexivity].
          intros y r2 -> Hy Hr2 (d' & x' & e' & E & Hd' & Hx' & He'). cbn [app] in E. injection E as <- E. destruct y as [|c0 y]; [contradiction|]. specialize (Hr c0 (y ++ r2) eq_refl).
          assert (E2 : u ++ lit "." ++ e ++ (c0 :: y) ++ r2 = x' ++ lit "." ++ e' ++ r2).
          { transitivity (((u ++ lit "." ++ e) ++ (c0 :: y)) ++ r2); [rewrite <- !app_assoc; reflexivity|]. transitivity ((x' ++ lit "." ++ e') ++ r2); [f_equal; exact E | rewrite <- !app_assoc; reflexivity]. }
          destruct (Nat.le_gt_cases (length x') (length u)) as [Hl|Hl].
          + rewrite <- !app_assoc in E. symmetry in E. destruct (app_longer _ _ _ _ E Hl) as (w & -> & E'). assert (HI : In c0 e').
            { destruct w as [|w0 w]; cbn [app lit] in E'.
              - change (cDot :: e' = cDot :: e ++ c0 :: y) in E'. injection E' as ->. apply in_or_app. right. left. reflexivity.
              - change (cDot :: e' = w0 :: w ++ cDot :: e ++ c0 :: y) in E'. injection E' as _ ->. apply in_or_app. right. right. apply in_or_app. right. left. reflexivity. }
            apply ext_words in He' as [_ He']. rewrite WO in Hr; [discriminate|]. exact (proj1 (Forall_forall _ _) He' c0 HI).
          + assert (EN : named_rest (d :: u ++ lit "." ++ e ++ (c0 :: y) ++ r2) (past (Some d) x', lit "." ++ e' ++ r2, []) = None).
            { apply HM; [exact E2 | apply (all_iff url_char url_like); [apply url_iff | assumption] | exact Hl]. }
            assert (ES : named_rest (d :: u ++ lit "." ++ e ++ (c0 :: y) ++ r2) (past (Some d) x', lit "." ++ e' ++ r2, []) = Some (past (past (Some d) x') (lit "." ++ e'), r2, [(d :: x') ++ lit "." ++ e'])); [|congruence].
            apply (named_rest_iff _ _ (d :: x')); [exact (f_equal (cons d) E2) | eauto 6].
        - intros (p & r' & -> & (d & u & e & -> & Hd & Hu & He) & Hr & HM & ->). exists d, ((u ++ lit "." ++ e) ++ r'). split; [reflexivity|]. split; [apply alnum_iff; assumption|]. rewrite seq_matches. cbn [matches].
          change (star_from url_char (named_rest (d :: (u ++ lit "." ++ e) ++ r')) [] (Some d) ((u ++ lit "." ++ e) ++ r') = Some (past (Some c) (d :: u ++ lit "." ++ e), r', [d :: u ++ lit "." ++ e])).
          assert (EA : (u ++ lit "." ++ e) ++ r' = u ++ lit "." ++ e ++ r') by (rewrite <- !app_assoc; reflexivity). rewrite EA. apply star_Some. exists u, (lit "." ++ e ++ r'). split; [reflexivity|]. split; [apply (all_iff url_char url_like); [apply url_iff | assumption]|]. split.
          + apply (named_rest_iff _ _ (d :: u)); [reflexivity|]. exists e, r'. split; [reflexivity|]. split; [assumption|]. split; [assumption|]. rewrite <- past_app. reflexivity.
          + intros u' v' E Hu' Hl. destruct (named_rest (d :: u ++ lit "." ++ e ++ r') (past (Some d) u', v', [])) as [x'|] eqn:EN; [|reflexivity]. exfalso. apply (named_rest_iff _ _ (d :: u')) in EN as (e' & r2 & -> & He' & Hr2 & ->); [|cbn [app]; f_equal; exact E].
            destruct (app_longer _ _ _ _ E) as (w & -> & E'); [lia|]. destruct w as [|w0 w]; [rewrite app_nil_r in Hl; lia|]. change (cDot :: e ++ r' = w0 :: w ++ lit "." ++ e' ++ r2) in E'. injection E' as <- E'.
            assert (HD : ~ In cDot e). { apply ext_words in He as [_ He]. intros F. apply (proj1 (Forall_forall _ _) He) in F. unfold letter_or_digit, cDot in F. lia. }
            assert (HL : (length e <= length w)%nat).
            { destruct (Nat.le_gt_cases (length e) (length w)) as [?|Hg]; [assumption|]. exfalso. symmetry in E'. destruct (app_longer _ _ _ _ E') as (w2 & -> & E2); [lia|]. destruct w2 as [|w0 w2]; [rewrite app_nil_r in Hg; lia|].
              change (cDot :: e' ++ r2 = w0 :: w2 ++ r') in E2. injection E2 as <- _. apply HD. apply in_or_app. right. left. reflexivity. }
            destruct (app_longer _ _ _ _ E' HL) as (z & -> & ->). apply (HM (z ++ lit "." ++ e') r2); [rewrite <- !app_assoc; reflexivity | destruct z; discriminate | assumption|].
            exists d, (u ++ [cDot] ++ e ++ z), e'. split; [change (lit ".") with [cDot]; cbn [app]; rewrite <- !app_assoc; cbn [app]; rewrite <- !app_assoc; reflexivity|]. split; [assumption|]. split; [|assumption]. apply (all_iff url_char url_like) in Hu'; [|apply url_iff]. exact Hu'. }
      split.
      + intros (c & r & -> & Hc & E). apply HX in E as (p & r' & -> & Hp & Hr & HM & ->). exists (c :: p), [p], r'. split; [reflexivity|]. split; [|reflexivity]. apply mem_In in Hc. cbn [In] in Hc. exists c, p. split; [reflexivity|]. split; [reflexivity|]. split; [intuition congruence | auto].
      + intros (t & v & s' & -> & (c & p & -> & -> & Hc & Hp & Hr & HM) & ->). exists c, (p ++ s'). split; [reflexivity|]. split; [apply mem_In; cbn [In]; intuition congruence|]. apply HX. exists p, s'. auto 6.
    - intros b t v s (c & p & _ & -> & _). discriminate.
  Qed.

  Lemma template_describes : describes word re_template template_match.
  Proof.
    assert (HK : forall b v g x, matches word (Lit (lit "-template-") ;; Group (Plus (but 34)) ;; Cls (eqb 34)) (b, v, g) Some = Some x <->
      exists p r, v = lit "-template-" ++ p ++ [34] ++ r /\ p <> [] /\ ~ In 34 p /\ x = (past b (lit "-template-" ++ p ++ [34]), r, g ++ [p])).
    { intros b v g x. rewrite seq_matches, lit_matches.
      assert (HR : forall b' c r g', but 34 c = true -> matches word (Cls (eqb 34)) (b', c :: r, g') Some = None).
      { intros b' c r g' Hc. apply but_iff in Hc. cbn [matches]. destruct (eqb 34 c) eqn:F; [apply eqb_true in F; congruence | reflexivity]. }
      split.
      - intros (r & -> & E). rewrite seq_matches in E. apply plus_until in E as (p & r1 & -> & Hp & Ha & E); [|exact HR]. apply cls_matches in E as (c & r2 & -> & Hc & E). apply eqb_true in Hc as <-. injection E as <-.
        exists p, r2. split; [reflexivity|]. split; [assumption|]. split; [apply but_all; assumption|]. rewrite !past_app. reflexivity.
      - intros (p & r & -> & Hp & Ha & ->). eexists. split; [reflexivity|]. rewrite seq_matches. apply plus_until; [exact HR|]. exists p, (34 :: r). split; [reflexivity|]. split; [assumption|]. split; [apply but_all; assumption|].
        apply cls_matches. exists 34, r. split; [reflexivity|]. split; [reflexivity|]. rewrite !past_app. reflexivity. }
    split.
    - intros b s x. unfold match_at, re_template. rewrite seq_matches, lit_matches. split.
      + intros (r & -> & E). rewrite seq_matches in E. cbn [matches] in E. apply star_Some in E as (a & v & -> & Ha & E & HM). apply HK in E as (p & r & -> & Hp & Hq & ->). apply but_all in Ha.
        exists (lit "<template id=""" ++ a ++ lit "-template-" ++ p ++ [34]), [p], r. split; [rewrite <- !app_assoc; reflexivity|]. split; [|rewrite !past_app; reflexivity].
        exists a, p. split; [reflexivity|]. split; [reflexivity|]. split; [assumption|]. split; [assumption|]. split; [assumption|]. intros a' p' E Hp'. destruct (Nat.le_gt_cases (length a') (length a)) as [?|Hg]; [assumption|]. exfalso.
        assert (HQ : ~ In 34 (a' ++ lit "-template-" ++ p')). { rewrite <- E. intros F. apply in_app_or in F as [F|F]; [contradiction|]. apply in_app_or in F as [F|F]; [|contradiction]. cbn in F. decompose [or] F; try discriminate; contradiction. }
        assert (EN : matches word (Lit (lit "-template-") ;; Group (Plus (but 34)) ;; Cls (eqb 34)) (past (past b (lit "<template id=""")) a', lit "-template-" ++ p' ++ [34] ++ r, []) Some = None).
        { apply HM; [|apply but_all; intros F; apply HQ; apply in_or_app; left; exact F | exact Hg]. rewrite !app_assoc. rewrite !app_assoc in E. rewrite E. reflexivity. }
        assert (ES : matches word (Lit (lit "-template-") ;; Group (Plus (but 34)) ;; Cls (eqb 34)) (past (past b (lit "<template id=""")) a', lit "-template-" ++ p' ++ [34] ++ r, []) Some =
          Some (past (past (past b (lit "<template id=""")) a') (lit "-template-" ++ p' ++ [34]), r, [] ++ [p'])); [|congruence].
        apply HK. exists p', r. split; [reflexivity|]. split; [assumption|]. split; [|reflexivity]. intros F. apply HQ. apply in_or_app. right. apply in_or_app. right. exact F.
      + intros (t & v & s' & -> & (a & p & -> & -> & Ha & Hp & Hq & HM) & ->). exists (a ++ lit "-template-" ++ p ++ [34] ++ s'). split; [rewrite <- !app_assoc; reflexivity|]. rewrite seq_matches. cbn [matches]. apply star_Some.
        exists a, (lit "-template-" ++ p ++ [34] ++ s'). split; [reflexivity|]. split; [apply but_all; assumption|]. split.
        * apply HK. exists p, s'. split; [reflexivity|]. split; [assumption|]. split; [assumption|]. rewrite !past_app. reflexivity.
        * intros u' v' E Hu' Hl. match goal with |- ?X = None => destruct X as [x|] eqn:EN end; [|reflexivity]. exfalso. apply HK in EN as (p' & r' & -> & Hp' & Hq' & _). apply but_all in Hu'.
          assert (HT : forall y, ~ In 34 y -> forall a0, ~ In 34 a0 -> ~ In 34 (a0 ++ lit "-template-" ++ y)). { intros y Hy a0 Ha0 F. apply in_app_or in F as [F|F]; [contradiction|]. apply in_app_or in F as [F|F]; [|contradiction]. cbn in F. decompose [or] F; try discriminate; contradiction. }
          assert (E' : (a ++ lit "-template-" ++ p) ++ 34 :: s' = (u' ++ lit "-template-" ++ p') ++ 34 :: r') by (rewrite <- !app_assoc; exact E). apply first_mark in E' as [E' _]; [|apply HT; assumption | apply HT; assumption].
          specialize (HM u' p' E' Hp'). lia.
    - intros b t v s (a & p & _ & -> & _). discriminate.
  Qed.

  Lemma map_describes : describes word re_map map_match.
  Proof.
    set (k0 := fun (s0 : str) (st : rstate N) => matches word (Lit (lit ".js")) st (fun '(b', s', g') => matches word (Lit (lit ".map")) (b', s', g' ++ [firstn (length s0 - length s') s0]) Some)).
    assert (HK : forall b x v s0 y, s0 = x ++ v -> k0 s0 (b, v, []) = Some y <-> exists r, v = lit ".js.map" ++ r /\ y = (past b (lit ".js.map"), r, [x ++ lit ".js"])).
    { intros b x v s0 y ->. unfold k0. rewrite lit_matches. split.
      - intros (r & -> & E). apply lit_matches in E as (r1 & -> & E). exists r1. split; [reflexivity|]. replace (x ++ lit ".js" ++ lit ".map" ++ r1) with ((x ++ lit ".js") ++ lit ".map" ++ r1) in E by (rewrite <- !app_assoc; reflexivity). rewrite first_length in E. injection E as <-. reflexivity.
      - intros (r & -> & ->). exists (lit ".map" ++ r). split; [reflexivity|]. apply lit_matches. exists r. split; [reflexivity|]. replace (x ++ lit ".js.map" ++ r) with ((x ++ lit ".js") ++ lit ".map" ++ r) by (rewrite <- !app_assoc; reflexivity). rewrite first_length. reflexivity. }
    split.
    - intros b s x. unfold match_at, re_map. rewrite seq_matches, lit_matches. split.
      + intros (r & -> & E). rewrite seq_matches, group_matches, seq_matches in E. cbn [matches] in E. change (lazy_from (but cNL) (k0 r) [] (past b (lit "sourceMappingURL=")) r = Some x) in E.
        apply lazy_Some in E as (u & v & -> & Hu & E & HM). apply (HK _ u) in E as (r & -> & ->); [|reflexivity]. apply but_all in Hu.
        exists (lit "sourceMappingURL=" ++ u ++ lit ".js.map"), [u ++ lit ".js"], r. split; [rewrite <- !app_assoc; reflexivity|]. split; [|rewrite !past_app; reflexivity].
        exists u. split; [reflexivity|]. split; [reflexivity|]. split; [assumption|]. intros x' r' E. destruct (Nat.le_gt_cases (length u) (length x')) as [?|Hg]; [assumption|]. exfalso. specialize (HM x' (lit ".js.map" ++ r') E Hg).
        assert (ES : k0 (u ++ lit ".js.map" ++ r) (past (past b (lit "sourceMappingURL=")) x', lit ".js.map" ++ r', []) = Some (past (past (past b (lit "sourceMappingURL=")) x') (lit ".js.map"), r', [x' ++ lit ".js"])) by (apply (HK _ x'); [exact E | eauto]). congruence.
      + intros (t & v & s' & -> & (u & -> & -> & Hu & HM) & ->). exists (u ++ lit ".js.map" ++ s'). split; [rewrite <- !app_assoc; reflexivity|]. rewrite seq_matches, group_matches, seq_matches. cbn [matches].
        change (lazy_from (but cNL) (k0 (u ++ lit ".js.map" ++ s')) [] (past b (lit "sourceMappingURL=")) (u ++ lit ".js.map" ++ s') = Some (past b (lit "sourceMappingURL=" ++ u ++ lit ".js.map"), s', [u ++ lit ".js"])).
        apply lazy_Some. exists u, (lit ".js.map" ++ s'). split; [reflexivity|]. split; [apply but_all; assumption|]. split; [apply (HK _ u); [reflexivity|]; exists s'; split; [reflexivity | rewrite !past_app; reflexivity]|].
        intros u' v' E Hl. match goal with |- ?X = None => destruct X as [x|] eqn:EN end; [|reflexivity]. exfalso. apply (HK _ u') in EN as (r' & -> & _); [|exact E]. specialize (HM u' r' E). lia.
    - intros b t v s (u & _ & -> & _). discriminate.
  Qed.
End Patterns.
