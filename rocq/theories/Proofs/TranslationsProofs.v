(** * Proofs about translations *)

From Verif Require Import Base.Py Base.Text Base.Bin Base.Utf8 Base.PyFacts Base.TextFacts Base.LinesFacts Model.Rst Model.Translations
  Spec.Utf8Spec Spec.TranslationsSpec Proofs.Utf8Proofs.

Lemma byte_lines_line l s : ~ In x0a l -> byte_lines (l ++ x0a :: s) = (l ++ [x0a]) :: byte_lines s.
Proof.
  induction l as [|c l IH]; [reflexivity|]. intros H. cbn [app byte_lines]. assert (E : eqb c x0a = false) by (apply eqbF; intros ->; apply H; left; reflexivity).
  rewrite E, IH by (intros Hi; apply H; right; exact Hi). reflexivity.
Qed.
Lemma byte_lines_last l : ~ In x0a l -> byte_lines l = match l with [] => [] | _ => [l] end.
Proof.
  induction l as [|c l IH]; [reflexivity|]. intros H. cbn [byte_lines]. assert (E : eqb c x0a = false) by (apply eqbF; intros ->; apply H; left; reflexivity).
  rewrite E, IH by (intros Hi; apply H; right; exact Hi). destruct l; reflexivity.
Qed.

Lemma enc1_newline c : scalar c -> In x0a (utf8_enc1 c) -> c = cNL.
Proof.
  intros Hs. assert (G : forall n, n < 256 -> n2b n = x0a -> n = 10).
  { intros n Hn E. assert (b2n (n2b n) = 10) by (rewrite E; reflexivity). rewrite b2n_n2b in H. rewrite N.mod_small in H; assumption. }
  unfold utf8_enc1. unfold scalar in Hs. intros Hi.
  repeat match type of Hi with context [if ?c then _ else _] => destruct c eqn:? end;
  cbn [In] in Hi; repeat destruct Hi as [Hi|Hi]; try contradiction; apply G in Hi; try (unfold cNL; lia); Z.div_mod_to_equations; lia.
Qed.
Lemma enc_newline s : Forall scalar s -> ~ In cNL s -> ~ In x0a (utf8_enc s).
Proof.
  intros HF Hn Hi. unfold utf8_enc in Hi. apply in_flat_map in Hi as (c & Hc & Hi). rewrite Forall_forall in HF. apply enc1_newline in Hi; [congruence | apply HF, Hc].
Qed.

Lemma slice_cut {A} (a m b : list A) : lenN b = 2 -> py_slice (a ++ m ++ b) (Z.of_N (lenN a)) (-2) = m.
Proof.
  intros Hb. unfold py_slice. assert (E1 : pyidx (lenN (a ++ m ++ b)) (Z.of_N (lenN a)) = lenN a) by (rewrite pyidx_pos by lia; rewrite !lenN_app; lia).
  assert (E2 : pyidx (lenN (a ++ m ++ b)) (-2) = lenN a + lenN m) by (unfold pyidx; rewrite !lenN_app, Hb; change (-2 <? 0)%Z with true; cbn iota; lia).
  rewrite E1, E2. unfold sliceN. rewrite dropN_app_exact. replace (lenN a + lenN m - lenN a) with (lenN m) by lia. apply takeN_app_exact.
Qed.

Definition entry_text (k v : str) : str := (lit "tr """ ++ k ++ lit """ ") ++ 61 :: lit " """ ++ v ++ lit """" ++ [cNL].
Lemma entry_enc k v : tline_bytes (Entry k v) ++ [x0a] = utf8_enc (entry_text k v).
Proof.
  unfold entry_text. cbn [tline_bytes]. change (61 :: lit " """ ++ v ++ lit """" ++ [cNL]) with (lit "= """ ++ v ++ lit """" ++ [cNL]). rewrite !enc_app.
  change (utf8_enc (lit "tr """)) with (bl "tr """). change (utf8_enc (lit """ ")) with (bl """ "). change (utf8_enc (lit "= """)) with (bl "= """).
  change (utf8_enc (lit """")) with (bl """"). change (utf8_enc [cNL]) with [x0a]. change (bl """ = """) with (bl """ " ++ bl "= """). rewrite <- !app_assoc. reflexivity.
Qed.
Lemma entry_scalar k v : Forall scalar k -> Forall scalar v -> Forall scalar (entry_text k v).
Proof.
  intros Hk Hv. unfold entry_text. rewrite <- !app_assoc. apply Forall_app. split; [repeat constructor; unfold scalar; lia|]. apply Forall_app. split; [exact Hk|].
  apply Forall_app. split; [repeat constructor; unfold scalar; lia|]. constructor; [unfold scalar; lia|]. apply Forall_app. split; [repeat constructor; unfold scalar; lia|].
  apply Forall_app. split; [exact Hv|]. repeat constructor; unfold scalar, cNL; lia.
Qed.

Lemma load_entry k v rest d : tline_ok (Entry k v) -> load_lines ((tline_bytes (Entry k v) ++ [x0a]) :: rest) d = load_lines rest (dset k v d).
Proof.
  intros (Hk & Hv & He & _ & _). cbn [load_lines]. assert (E : startswith (tline_bytes (Entry k v) ++ [x0a]) (bl "tr """) = true).
  { apply startswith_iff. eexists. cbn [tline_bytes]. rewrite <- app_assoc. reflexivity. }
  rewrite E, entry_enc, utf8_dec_enc by (apply entry_scalar; assumption). cbn [rbind]. unfold entry_text. rewrite cut_first_app.
  2:{ rewrite !in_app_iff. intros [H|[H|H]]; [vm_compute in H; intuition discriminate | exact (He H) | vm_compute in H; intuition discriminate]. }
  change 4%Z with (Z.of_N (lenN (lit "tr """))). change 2%Z with (Z.of_N (lenN (lit " """))). rewrite slice_cut by reflexivity. rewrite slice_cut by reflexivity. reflexivity.
Qed.
Lemma load_other raw x rest d : other_ok raw -> (x = [] \/ x = [x0a]) -> load_lines ((raw ++ x) :: rest) d = load_lines rest d.
Proof.
  intros [Hn Ho] Hx. cbn [load_lines]. destruct (startswith (raw ++ x) (bl "tr """)) eqn:E; [|reflexivity]. exfalso. apply startswith_iff in E as [r E].
  destruct Hx as [->| ->]; [rewrite app_nil_r in E; exact (Ho r E)|].
  destruct r as [|y r] using rev_ind.
  - rewrite app_nil_r in E. assert (Hi : In x0a (bl "tr """)) by (rewrite <- E; apply in_or_app; right; left; reflexivity). vm_compute in Hi. intuition discriminate.
  - rewrite app_assoc in E. apply app_inj_tail in E as [E _]. exact (Ho r E).
Qed.
Lemma load_tlines ls rest d : Forall tline_ok ls ->
  load_lines (map (fun l => tline_bytes l ++ [x0a]) ls ++ rest) d = load_lines rest (fold_left (fun d kv => dset (fst kv) (snd kv) d) (pairs_of ls) d).
Proof.
  intros H. revert d. induction H as [|l ls Hl _ IH]; intros d; [reflexivity|]. cbn [map app pairs_of flat_map]. destruct l as [k v|raw].
  - rewrite load_entry by exact Hl. rewrite IH. reflexivity.
  - cbn [tline_bytes]. rewrite load_other by (auto; exact Hl). rewrite IH. reflexivity.
Qed.
Lemma tline_no_newline l : tline_ok l -> ~ In x0a (tline_bytes l).
Proof.
  destruct l as [k v|raw]; [|intros [H _]; exact H]. intros (Hk & Hv & _ & Nk & Nv). cbn [tline_bytes]. rewrite !in_app_iff.
  intros [H|[H|[H|[H|H]]]]; try (vm_compute in H; intuition discriminate); [exact (enc_newline k Hk Nk H) | exact (enc_newline v Hv Nv H)].
Qed.
Lemma byte_lines_tlines ls rest : Forall tline_ok ls -> byte_lines (tlines_bytes ls ++ rest) = map (fun l => tline_bytes l ++ [x0a]) ls ++ byte_lines rest.
Proof.
  induction 1 as [|l ls Hl _ IH]; [reflexivity|]. unfold tlines_bytes in *. cbn [flat_map map app]. rewrite <- !app_assoc. cbn [app]. rewrite byte_lines_line by (apply tline_no_newline; exact Hl).
  rewrite IH. reflexivity.
Qed.

(** After the first line, what is read. *)
Lemma load_first game first rest : first_ok first -> load_translations game (first ++ x0a :: rest) = rmap FromText (load_lines (byte_lines rest) []).
Proof.
  intros (Hl & Hn & Hr & Ho). unfold load_translations.
  assert (E : eqb (takeN 3 (first ++ x0a :: rest)) (bl "RST") = false).
  { apply eqbF. intros E. destruct (N.leb_spec 3 (lenN first)) as [H3|H3].
    - rewrite takeN_app in E. replace (3 - lenN first) with 0 in E by lia. rewrite takeN_0, app_nil_r in E. exact (Hr E).
    - rewrite takeN_app, takeN_all in E by lia. replace (3 - lenN first) with 1 in E by lia. assert (Hi : In x0a (bl "RST")) by (rewrite <- E; apply in_or_app; right; left; reflexivity).
      vm_compute in Hi. intuition discriminate. }
  rewrite E. f_equal. rewrite dropN_app. destruct (N.leb_spec 3 (lenN first)) as [H3|H3].
  - replace (3 - lenN first) with 0 by lia. rewrite dropN_0, byte_lines_line.
    + apply load_other; [exact Ho | auto].
    + apply Ho.
  - rewrite dropN_all by lia. replace (3 - lenN first) with 1 by lia. cbn [app]. destruct rest; reflexivity.
Qed.
Lemma load_text game first ls last : first_ok first -> Forall tline_ok ls -> other_ok last ->
  load_translations game (first ++ x0a :: tlines_bytes ls ++ last) = Ok (FromText (dict_of (pairs_of ls))).
Proof.
  intros Hf HF Hl. rewrite load_first by exact Hf. rewrite byte_lines_tlines by exact HF. rewrite load_tlines by exact HF. unfold dict_of.
  rewrite byte_lines_last by apply Hl. destruct last as [|x last]; [reflexivity|]. rewrite <- (app_nil_r (x :: last)). rewrite load_other by auto. reflexivity.
Qed.
(** A line which looks like an entry but is not valid. *)
Lemma load_bad game first ls bad rest e : first_ok first -> Forall tline_ok ls -> ~ In x0a bad ->
  ((forall s, Forall scalar s -> bl "tr """ ++ bad <> utf8_enc s) /\ e = UnicodeDecodeError \/ (exists s, Forall scalar s /\ bad = utf8_enc s /\ ~ In 61 s) /\ e = ValueError) ->
  load_translations game (first ++ x0a :: tlines_bytes ls ++ (bl "tr """ ++ bad) ++ x0a :: rest) = Err e.
Proof.
  intros Hf HF Hn Hb. rewrite load_first by exact Hf. rewrite byte_lines_tlines by exact HF. rewrite load_tlines by exact HF. rewrite byte_lines_line.
  2:{ rewrite in_app_iff. intros [H|H]; [vm_compute in H; intuition discriminate | exact (Hn H)]. }
  cbn [load_lines]. assert (E : startswith ((bl "tr """ ++ bad) ++ [x0a]) (bl "tr """) = true) by (apply startswith_iff; eexists; rewrite <- app_assoc; reflexivity). rewrite E.
  destruct Hb as [[Hb ->]|[(s & Hs & -> & Ne) ->]].
  - destruct (utf8_dec ((bl "tr """ ++ bad) ++ [x0a])) as [s|e] eqn:Ed; [|apply utf8_dec_error in Ed; subst e; reflexivity].
    exfalso. apply utf8_dec_sound in Ed as [Hs Es].
    assert (G : exists s', s = s' ++ [cNL]).
    { destruct s as [|c s'] using rev_ind; [cbn in Es; destruct bad; discriminate|]. exists s'. f_equal. f_equal. apply Forall_app in Hs as [_ Hc]. inversion Hc; subst.
      rewrite enc_app in Es. cbn [utf8_enc flat_map] in Es. rewrite app_nil_r in Es. apply enc1_newline; [assumption|].
      destruct (utf8_enc1 c) as [|y l] eqn:E1 using rev_ind; [destruct (enc1_nonempty c E1)|]. rewrite app_assoc in Es. apply app_inj_tail in Es as [_ <-]. apply in_or_app. right. left. reflexivity. }
    destruct G as [s' ->]. rewrite enc_app in Es. change (utf8_enc [cNL]) with [x0a] in Es. apply app_inj_tail in Es as [Es _]. apply Forall_app in Hs as [Hs _]. exact (Hb s' Hs Es).
  - assert (Ee : (bl "tr """ ++ utf8_enc s) ++ [x0a] = utf8_enc (lit "tr """ ++ s ++ [cNL])).
    { rewrite !enc_app, <- app_assoc. reflexivity. }
    rewrite Ee, utf8_dec_enc.
    + cbn [rbind]. rewrite (proj2 (cut_first_None 61 _)); [reflexivity|]. rewrite !in_app_iff. intros [H|[H|H]]; [vm_compute in H; intuition discriminate | exact (Ne H) | vm_compute in H; intuition discriminate].
    + apply Forall_app. split; [repeat constructor; unfold scalar; lia|]. apply Forall_app. split; [exact Hs|]. repeat constructor; unfold scalar, cNL; lia.
Qed.
