(** * Facts about lines *)

From Verif Require Import Base.TextFacts Base.Lines.

Definition no_break (l : str) : Prop := Forall (fun c => is_break c = false) l.

Lemma break_cr : is_break cCR = true. Proof. reflexivity. Qed.
Lemma break_nl : is_break cNL = true. Proof. reflexivity. Qed.
Lemma no_break_neq c : is_break c = false -> (c =? cCR) = false /\ (c =? cNL) = false.
Proof. intros H. split; apply N.eqb_neq; intros ->; discriminate. Qed.

Lemma nl_norm_line l s : ~ In cCR l -> nl_norm (l ++ s) = l ++ nl_norm s.
Proof.
  induction l as [|c l IH]; [reflexivity|]. intros H. cbn [app nl_norm].
  destruct (N.eqb_spec c cCR) as [->|]; [exfalso; apply H; left; reflexivity|].
  rewrite IH; [reflexivity|]. intros Hi. apply H. right. assumption.
Qed.
Lemma nl_norm_eol eol s : eol = [cNL] \/ eol = [cCR; cNL] -> nl_norm (eol ++ s) = cNL :: nl_norm s.
Proof. intros [->| ->]; reflexivity. Qed.
Lemma nl_norm_id s : ~ In cCR s -> nl_norm s = s.
Proof. intros H. rewrite <- (app_nil_r s) at 1. rewrite nl_norm_line by assumption. apply app_nil_r. Qed.
(** A text made of lines, each ended by LF or CR LF. *)
Lemma nl_norm_text (ls : list str) eol s : eol = [cNL] \/ eol = [cCR; cNL] -> Forall (fun l => ~ In cCR l) ls ->
  nl_norm (concat (map (fun l => l ++ eol) ls) ++ s) = concat (map (fun l => l ++ [cNL]) ls) ++ nl_norm s.
Proof.
  intros He. induction 1 as [|l ls H _ IH]; [reflexivity|]. cbn [map concat].
  rewrite <- !app_assoc, nl_norm_line by assumption. rewrite nl_norm_eol by assumption. rewrite IH. reflexivity.
Qed.

Lemma splitlines_line l s : no_break l -> splitlines (l ++ cNL :: s) = l :: splitlines s.
Proof.
  induction 1 as [|c l H _ IH]; [reflexivity|]. cbn [app splitlines]. destruct (no_break_neq c H) as [-> _]. rewrite H, IH. reflexivity.
Qed.
Lemma splitlines_last l : no_break l -> splitlines l = match l with [] => [] | _ => [l] end.
Proof.
  induction 1 as [|c l H Hl IH]; [reflexivity|]. cbn [splitlines]. destruct (no_break_neq c H) as [-> _]. rewrite H, IH.
  destruct l; reflexivity.
Qed.
Lemma splitlines_text (ls : list str) s : Forall no_break ls ->
  splitlines (concat (map (fun l => l ++ [cNL]) ls) ++ s) = ls ++ splitlines s.
Proof.
  induction 1 as [|l ls H _ IH]; [reflexivity|]. cbn [map concat]. rewrite <- !app_assoc. cbn [app].
  rewrite splitlines_line by assumption. rewrite IH. reflexivity.
Qed.
Lemma splitlines_no_break s : Forall no_break (splitlines s).
Proof.
  assert (G : forall n s, (length s <= n)%nat -> Forall no_break (splitlines s)).
  { clear. induction n as [|n IH]; intros s Hs; [destruct s; [constructor | cbn in Hs; lia]|].
    destruct s as [|c t]; [constructor|]. cbn [length] in Hs. cbn [splitlines].
    destruct (c =? cCR).
    - destruct t as [|d t']; [repeat constructor|]. cbn [length] in Hs. destruct (d =? cNL).
      + constructor; [constructor | apply IH; lia].
      + constructor; [constructor | apply (IH (d :: t')); cbn [length]; lia].
    - destruct (is_break c) eqn:Eb; [constructor; [constructor | apply IH; lia]|].
      assert (H := IH t ltac:(lia)). destruct (splitlines t) as [|l ls]; [repeat constructor; assumption|].
      inversion H; subst. constructor; [constructor; assumption | assumption]. }
  apply (G (length s)). lia.
Qed.

Lemma file_lines_line l s : ~ In cNL l -> file_lines (l ++ cNL :: s) = (l ++ [cNL]) :: file_lines s.
Proof.
  induction l as [|c l IH]; [reflexivity|]. intros H. cbn [app file_lines].
  destruct (N.eqb_spec c cNL) as [->|]; [exfalso; apply H; left; reflexivity|].
  rewrite IH; [reflexivity|]. intros Hi. apply H. right. assumption.
Qed.
Lemma file_lines_last l : ~ In cNL l -> file_lines l = match l with [] => [] | _ => [l] end.
Proof.
  induction l as [|c l IH]; [reflexivity|]. intros H. cbn [file_lines].
  destruct (N.eqb_spec c cNL) as [->|]; [exfalso; apply H; left; reflexivity|].
  rewrite IH; [destruct l; reflexivity|]. intros Hi. apply H. right. assumption.
Qed.
Lemma file_lines_text (ls : list str) s : Forall (fun l => ~ In cNL l) ls ->
  file_lines (concat (map (fun l => l ++ [cNL]) ls) ++ s) = map (fun l => l ++ [cNL]) ls ++ file_lines s.
Proof.
  induction 1 as [|l ls H _ IH]; [reflexivity|]. cbn [map concat]. rewrite <- !app_assoc. cbn [app].
  rewrite file_lines_line by assumption. rewrite IH. reflexivity.
Qed.
Lemma no_break_nl l : no_break l -> ~ In cNL l.
Proof. intros H Hi. unfold no_break in H. rewrite Forall_forall in H. apply H in Hi. discriminate. Qed.
Lemma no_break_app a b : no_break a -> no_break b -> no_break (a ++ b).
Proof. intros. apply Forall_app. split; assumption. Qed.
Lemma no_break_cr l : no_break l -> ~ In cCR l.
Proof. intros H Hi. unfold no_break in H. rewrite Forall_forall in H. apply H in Hi. discriminate. Qed.
Lemma digit_no_break c : is_digit c = true -> is_break c = false.
Proof.
  unfold is_digit, is_break. intros H. apply andb_prop in H as [H1 H2]. apply N.leb_le in H1, H2.
  destruct (N.leb_spec c 13), (N.leb_spec c 30), (N.eqb_spec c 133), (N.eqb_spec c 8232), (N.eqb_spec c 8233); lia.
Qed.
Lemma dec_no_break n : no_break (dec n).
Proof. eapply Forall_impl; [|apply dec_chars]. cbn beta. apply digit_no_break. Qed.
Lemma decZ_no_break z : no_break (decZ z).
Proof. destruct z; cbn [decZ]; [| |constructor; [reflexivity|]]; apply dec_no_break. Qed.
Lemma join_no_break sep l : no_break sep -> Forall no_break l -> no_break (join sep l).
Proof.
  intros Hs. induction 1 as [|x l H Hl IH]; [constructor|]. destruct l as [|y l]; [assumption|].
  change (join sep (x :: y :: l)) with (x ++ sep ++ join sep (y :: l)). repeat apply no_break_app; assumption.
Qed.

Lemma py_nth_mid {A} (pre : list A) x post : py_nth (pre ++ x :: post) (Z.of_N (lenN pre)) = Ok x.
Proof.
  unfold py_nth. destruct (Z.ltb_spec (Z.of_N (lenN pre)) 0); [lia|]. destruct (Z.ltb_spec (Z.of_N (lenN pre)) 0); [lia|].
  rewrite N2Z.id. rewrite nthN_app_exact. reflexivity.
Qed.
Lemma py_slice_mid {A} (pre l post : list A) i j : i = Z.of_N (lenN pre) -> j = Z.of_N (lenN pre + lenN l) ->
  py_slice (pre ++ l ++ post) i j = l.
Proof.
  intros -> ->. unfold py_slice. rewrite !pyidx_pos by lia. rewrite !N2Z.id, !lenN_app.
  rewrite !N.min_r by lia. unfold sliceN. rewrite dropN_app_exact.
  replace (lenN pre + lenN l - lenN pre) with (lenN l) by lia. apply takeN_app_exact.
Qed.
