(** * Proofs about the text dump of BIN files *)

From Verif Require Import Base.Py Base.Text Base.PyFacts Base.TextFacts Base.PathFacts Model.BinFile Model.BinDump Spec.BinDumpSpec.

(** ** Literals *)
Lemma hexl_number w n : 0 < w -> n < 16 ^ w -> hex_number w (hexl w n) n.
Proof. intros Hw Hn. split; [apply hexl_len; assumption|]. split; [apply hexl_chars | apply hexl_value]. Qed.
Section Repr.
  Variable printable : N -> bool.
  Lemma char_unescaped q c t s : q = 39 \/ q = 34 -> c < 0x110000 -> unescaped q t s -> unescaped q (repr_char printable q c ++ t) (c :: s).
  Proof.
    intros Hq Hc Ht. unfold repr_char. destruct (N.eqb_spec c q) as [->|H1]; [constructor; exact Ht|]. destruct (N.eqb_spec c 92) as [->|H2]; [constructor; exact Ht|]. cbn [orb].
    destruct (N.eqb_spec c 9) as [->|H3]; [apply un_tab, Ht|]. destruct (N.eqb_spec c 10) as [->|H4]; [apply un_newline, Ht|]. destruct (N.eqb_spec c 13) as [->|H5]; [apply un_return, Ht|].
    destruct ((c <? 32) || (c =? 127)) eqn:E1; [rewrite <- app_assoc; apply un_hex2; [apply hexl_number; lia | exact Ht]|].
    destruct (c <? 127) eqn:E2; [apply un_plain; assumption|]. destruct (printable c); [apply un_plain; assumption|].
    destruct (c <? 256) eqn:E3; [rewrite <- app_assoc; apply un_hex2; [apply hexl_number; lia | exact Ht]|].
    destruct (c <? 65536) eqn:E4; rewrite <- app_assoc; [apply un_hex4 | apply un_hex8]; try exact Ht; apply hexl_number; lia.
  Qed.
  Lemma quote_cases s : repr_quote s = 39 \/ repr_quote s = 34.
  Proof. unfold repr_quote. destruct (_ && _); auto. Qed.
  Lemma repr_literal s : code_points s -> literal (repr_str printable s) s.
  Proof.
    intros H. exists (repr_quote s), (flat_map (repr_char printable (repr_quote s)) s). split; [apply quote_cases|]. split; [reflexivity|]. generalize (quote_cases s). generalize (repr_quote s). intros q Hq.
    induction H as [|c s Hc _ IH]; [constructor|]. cbn [flat_map]. apply char_unescaped; assumption.
  Qed.
  Lemma char_no_newline q c : q = 39 \/ q = 34 -> no_newline (repr_char printable q c).
  Proof.
    intros Hq. assert (HH : forall w n, no_newline (hexl w n)) by (intros w n; apply hexl_not_in; [reflexivity | unfold cNL; lia]). unfold no_newline, repr_char in *.
    destruct (N.eqb_spec c q) as [->|H1]; [cbn; unfold cNL; destruct Hq; intros [?|[?|[]]]; lia|]. destruct (N.eqb_spec c 92) as [->|H2]; [cbn; unfold cNL; intros [?|[?|[]]]; lia|]. cbn [orb].
    destruct (N.eqb_spec c 9); [vm_compute; intuition discriminate|]. destruct (N.eqb_spec c 10) as [->|H4]; [vm_compute; intuition discriminate|]. destruct (N.eqb_spec c 13); [vm_compute; intuition discriminate|].
    destruct ((c <? 32) || (c =? 127)); [rewrite in_app_iff; intros [H|H]; [vm_compute in H; intuition discriminate | exact (HH _ _ H)]|].
    destruct (c <? 127); [intros [H|[]]; unfold cNL in H; congruence|]. destruct (printable c); [intros [H|[]]; unfold cNL in H; congruence|].
    destruct (c <? 256); [|destruct (c <? 65536)]; (rewrite in_app_iff; intros [H|H]; [vm_compute in H; intuition discriminate | exact (HH _ _ H)]).
  Qed.
  Lemma repr_no_newline s : no_newline (repr_str printable s).
  Proof.
    unfold no_newline, repr_str. rewrite !in_app_iff. intros [H|[H|H]].
    - destruct H as [H|[]]. destruct (quote_cases s) as [E|E]; rewrite E in H; discriminate.
    - apply in_flat_map in H as (c & _ & H). exact (char_no_newline _ c (quote_cases s) H).
    - destruct H as [H|[]]. destruct (quote_cases s) as [E|E]; rewrite E in H; discriminate.
  Qed.
End Repr.
Lemma hex_fun w d n m : hex_number w d n -> hex_number w d m -> n = m.
Proof. intros (_ & _ & H1) (_ & _ & H2). rewrite H1 in H2. injection H2 as H2. lia. Qed.
Lemma hex_cut w d1 d2 n1 n2 t1 t2 : hex_number w d1 n1 -> hex_number w d2 n2 -> d1 ++ t1 = d2 ++ t2 -> n1 = n2 /\ t1 = t2.
Proof.
  intros H1 H2 E. assert (length d1 = length d2) by (destruct H1 as [H1 _], H2 as [H2 _]; rewrite lenN_length in H1, H2; lia).
  assert (E' : d1 = d2 /\ t1 = t2).
  { clear H1 H2. revert d2 H E. induction d1 as [|x d1 IH]; intros [|y d2] H E; try discriminate; [auto|]. cbn in E, H. injection E as -> E. injection H as H. destruct (IH d2 H E) as [-> ->]. auto. }
  destruct E' as [-> ->]. split; [eapply hex_fun; eassumption | reflexivity].
Qed.
Lemma unescaped_fun q t s1 : q = 39 \/ q = 34 -> unescaped q t s1 -> forall s2, unescaped q t s2 -> s1 = s2.
Proof.
  intros Hq H. induction H as [|c t s H1 H2 H3 _ IH|t s _ IH|t s _ IH|t s _ IH|t s _ IH|t s _ IH|d n t s Hd _ IH|d n t s Hd _ IH|d n t s Hd _ IH]; intros s2 H';
    [inversion H'; reflexivity|..]; (inversion H' as [E|c' t' s' K1 K2 K3 K4 E|t' s' K E|t' s' K E|t' s' K E|t' s' K E|t' s' K E|d' n' t' s' Kd K E|d' n' t' s' Kd K E|d' n' t' s' Kd K E]; subst;
    try (exfalso; lia); try (f_equal; apply IH; assumption); try (cbn [lit app] in *; exfalso; lia)).
  all: try (match goal with Hx : hex_number ?w ?d ?n, Hy : hex_number ?w ?d' ?n', E : ?d' ++ ?t' = ?d ++ ?t |- _ => destruct (hex_cut w d' d n' n t' t Hy Hx E) as [-> ->]; f_equal; apply IH; assumption end).
Qed.
Lemma literal_fun t s1 s2 : literal t s1 -> literal t s2 -> s1 = s2.
Proof.
  intros (q1 & b1 & H1 & -> & U1) (q2 & b2 & H2 & E & U2). injection E as E1 E2. subst q2. apply app_inj_tail in E2 as [-> _]. eapply unescaped_fun; eassumption.
Qed.

(** ** Lines *)
Lemma lines_nonempty s : lines s <> [].
Proof. apply split_ch_nonempty. Qed.
Lemma lines_one s : no_newline s -> lines s = [s].
Proof. apply split_ch_none. Qed.
Lemma lines_app s t : lines (s ++ cNL :: t) = lines s ++ lines t.
Proof. apply split_ch_app_gen. Qed.
Lemma lines_pieces s : Forall no_newline (lines s).
Proof. apply split_ch_pieces. Qed.
Lemma lines_cons c s : lines (c :: s) = if c =? cNL then [] :: lines s else leading [c] (lines s).
Proof.
  unfold lines. cbn [split_ch]. change (eqb c cNL) with (N.eqb c cNL) || idtac. destruct (N.eqb_spec c cNL) as [->|H].
  - rewrite eqbR. reflexivity.
  - rewrite (proj2 (eqbF c cNL)) by exact H. destruct (split_ch cNL s); reflexivity.
Qed.
Lemma leading_nil ls : ls <> [] -> leading [] ls = ls.
Proof. destruct ls; [congruence | reflexivity]. Qed.
Lemma leading_leading a b ls : leading a (leading b ls) = leading (a ++ b) ls.
Proof. destruct ls; cbn [leading]; [|rewrite app_assoc]; reflexivity. Qed.
Lemma lines_leading pre s : no_newline pre -> lines (pre ++ s) = leading pre (lines s).
Proof.
  intros H. induction pre as [|c pre IH]; [symmetry; apply leading_nil, lines_nonempty|]. cbn [app]. rewrite lines_cons. destruct (N.eqb_spec c cNL) as [->|Hc]; [exfalso; apply H; left; reflexivity|].
  rewrite IH by (intros Hi; apply H; right; exact Hi). apply leading_leading.
Qed.
Lemma ending_app a b post : b <> [] -> ending (a ++ b) post = a ++ ending b post.
Proof. intros H. induction a as [|x a IH]; [reflexivity|]. cbn [app ending]. rewrite IH. destruct (a ++ b) eqn:E; [apply app_eq_nil in E as [_ E]; contradiction | reflexivity]. Qed.
Lemma ending_leading c ls post : ls <> [] -> ending (leading c ls) post = leading c (ending ls post).
Proof. destruct ls as [|x [|y ls]]; [congruence | cbn [leading ending]; rewrite app_assoc; reflexivity | reflexivity]. Qed.
Lemma lines_ending s post : no_newline post -> lines (s ++ post) = ending (lines s) post.
Proof.
  intros H. induction s as [|c s IH]; [cbn [app]; rewrite lines_one by exact H; reflexivity|]. cbn [app]. rewrite !lines_cons, IH. destruct (c =? cNL).
  - cbn [ending]. pose proof (lines_nonempty s). destruct (lines s); [congruence | reflexivity].
  - symmetry. apply ending_leading, lines_nonempty.
Qed.
Lemma lines_indent s : lines (lit "  " ++ indent s) = indented (lines s).
Proof.
  assert (H : forall s, lines (indent s) = match lines s with [] => [] | x :: t => x :: indented t end).
  { clear s. induction s as [|c s IH]; [reflexivity|]. unfold indent in *. cbn [flat_map]. rewrite (lines_cons c s). destruct (N.eqb_spec c cNL) as [->|Hc].
    - change (lines ([cNL; cSpace; cSpace] ++ flat_map (fun c => if c =? cNL then [cNL; cSpace; cSpace] else [c]) s)) with (lines ([] ++ cNL :: (lit "  " ++ flat_map (fun c => if c =? cNL then [cNL; cSpace; cSpace] else [c]) s))).
      rewrite lines_app, lines_leading by (vm_compute; intuition discriminate). rewrite IH. pose proof (lines_nonempty s). destruct (lines s); [congruence | reflexivity].
    - cbn [app]. rewrite lines_cons. destruct (N.eqb_spec c cNL); [contradiction|]. rewrite IH. destruct (lines s); reflexivity. }
  rewrite lines_leading by (vm_compute; intuition discriminate). rewrite H. pose proof (lines_nonempty s). destruct (lines s); [congruence | reflexivity].
Qed.
Lemma lines_indent_list l : lines (indent_list l) = block (map lines l).
Proof.
  unfold indent_list, block. destruct l as [|x l]; [reflexivity|]. set (l' := x :: l). assert (Em : map lines l' <> []) by discriminate. destruct (map lines l') as [|y m] eqn:E; [congruence|]. rewrite <- E. clear y m E Em. clearbody l'. clear x l.
  change ([cNL] ++ flat_map (fun s => lit "  " ++ indent s ++ [cNL]) l' ++ lit "]") with (cNL :: (flat_map (fun s => lit "  " ++ indent s ++ [cNL]) l' ++ lit "]")). rewrite lines_app. f_equal.
  induction l' as [|s l' IH]; [reflexivity|]. cbn [flat_map map concat]. rewrite <- !app_assoc. rewrite app_assoc. cbn [app]. rewrite lines_app, IH, lines_indent. reflexivity.
Qed.
Lemma complete_one s ls t : complete_lines ls t -> complete_lines (lines s ++ ls) (s ++ [cNL] ++ t).
Proof.
  intros [H1 ->]. split; [apply Forall_app; split; [apply lines_pieces | exact H1]|]. rewrite map_app, concat_app. cbn [app].
  change (s ++ cNL :: concat (map (fun l => l ++ [cNL]) ls)) with (s ++ [cNL] ++ concat (map (fun l => l ++ [cNL]) ls)). rewrite app_assoc. f_equal. symmetry.
  induction s as [|c s IH]; [reflexivity|]. rewrite lines_cons. destruct (N.eqb_spec c cNL) as [->|Hc]; [cbn [map concat]; rewrite IH; reflexivity|].
  pose proof (lines_nonempty s) as Hn. destruct (lines s) as [|x r]; [congruence|]. cbn [leading map concat app] in *. rewrite IH. reflexivity.
Qed.

(** ** Unindented lines of an item *)
Lemma indented_filter ls : filter (fun l => negb (is_indented l)) (indented ls) = [].
Proof. induction ls as [|l ls IH]; [reflexivity|]. cbn [indented map filter]. exact IH. Qed.
Lemma block_marks {A} (f : A -> str) head l : (match head with c :: _ => c <> 32 | [] => False end) -> no_newline head ->
  filter (fun x => negb (is_indented x)) (lines (head ++ indent_list (map f l) ++ lit ">")) = marks head l.
Proof.
  intros Hh Hn. rewrite lines_leading by exact Hn. rewrite lines_ending by (vm_compute; intuition discriminate). rewrite lines_indent_list.
  assert (Hi : forall s, is_indented (head ++ s) = false).
  { intros s. destruct head as [|c head]; [destruct Hh|]. unfold is_indented. cbn [lit app startswith]. destruct (startswith ((c :: head) ++ s) (lit "  ")) eqn:E; [|exact E]. apply startswith_iff in E as [r E]. injection E as E. congruence. }
  unfold block, marks. destruct l as [|x l].
  - cbn [map ending leading filter]. rewrite Hi. reflexivity.
  - cbn [map]. rewrite app_assoc, ending_app by discriminate. cbn [app ending leading filter]. rewrite Hi. cbn [negb]. f_equal. rewrite filter_app.
    assert (E : forall m, filter (fun x => negb (is_indented x)) (concat (map indented m)) = []).
    { induction m as [|y m IH]; [reflexivity|]. cbn [map concat]. rewrite filter_app, indented_filter, IH. reflexivity. }
    etransitivity; [apply (f_equal2 (@app _)); [apply (E (lines (f x) :: map lines (map f l))) | reflexivity] | reflexivity].
Qed.
