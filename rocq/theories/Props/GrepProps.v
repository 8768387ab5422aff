(** * C68: search of paths in the files of game archives *)

From Verif Require Import Base.Py Base.PyFacts Base.Text Base.TextFacts Model.Hashes Model.Patcher Model.Guess Model.GuessPaths Model.GuessChars Model.Grep.
From Verif Require Import Spec.HashesSpec Spec.GuessSpec Spec.GuessPathsSpec Spec.GrepSpec Proofs.HashesProofs Proofs.GuessProofs Proofs.GuessPathsProofs Proofs.GrepProofs Props.GuessProps Props.GuessPathsProps.

Theorem C68_normpath p q : normpath p = q <-> normal_form p q.
Proof. rewrite normal_form_iff. split; congruence. Qed.
Theorem C68_bin data q : In (Ok q) (bin_candidates data) <-> exists p, bin_string data p /\ bin_path p q.
Proof.
  rewrite bin_candidates_In. split.
  - intros (q' & p & E & Hs & Hq). assert (q = q') as <- by congruence. exists p. split; [assumption | apply bin_paths_In; assumption].
  - intros (p & Hs & Hq). exists q, p. split; [reflexivity|]. split; [assumption | apply bin_paths_In; assumption].
Qed.
Theorem C68_bin_safe data e : ~ In (Err e) (bin_candidates data).
Proof. rewrite bin_candidates_In. intros (q & p & F & _). discriminate. Qed.
Theorem C68_file data q : In q (file_candidates data) <-> file_path data q.
Proof. apply file_candidates_In. Qed.
Theorem C68_quotes key data vs : quoted key 0 data = vs <-> quotes key data vs.
Proof. rewrite quotes_iff. split; congruence. Qed.

Section C68.
  Variable H : str -> Z.
  Variable other : str -> list parg -> result str.

  (** Only paths in the entries are found, each with its own hash, and the guesser stays consistent, also when the search fails. *)
  Theorem C68_safe entries g : guesser_ok g -> Forall plain_name entries ->
    grows H (fun q => exists e data, In e entries /\ opened e /\ en_data e = Ok (Some data) /\ entry_path e data q) g (fst (grep_wad H other entries g)).
  Proof.
    intros Hg Hp. rewrite Forall_forall in Hp. eapply grows_weaken; [|apply check_gen_grows; assumption]. intros q Hq. apply in_flat_map in Hq as (e & He & Hq). apply entry_Ok in Hq as (data & Ho & Hq); [eauto 6 | auto].
  Qed.
  (** The search succeeds exactly when no entry fails; all paths have then been tried. *)
  Theorem C68_outcome entries g : Forall plain_name entries -> (snd (grep_wad H other entries g) = Ok tt <-> Forall (fun e => ~ entry_fails e) entries).
  Proof.
    intros Hp. unfold grep_wad. rewrite check_gen_outcome. rewrite Forall_forall in *. split.
    - intros F e He Hf. apply (entry_Err other e (Hp e He)) in Hf as (x & Hx). apply (F x). apply in_flat_map. eauto.
    - intros F x Hx. apply in_flat_map in Hx as (e & He & Hx). apply (F e He). apply (entry_Err other e (Hp e He)). eauto.
  Qed.
  Theorem C68_tried entries g : guesser_ok g -> Forall plain_name entries -> Forall (fun e => ~ entry_fails e) entries ->
    forall e data q, In e entries -> opened e -> en_data e = Ok (Some data) -> entry_path e data q -> ~ In (H q) (g_unknown (fst (grep_wad H other entries g))).
  Proof.
    intros Hg Hp Hf e data q He Ho Hd Hq. destruct (check_gen_all H (flat_map (entry_candidates other) entries) g Hg) as [_ HT].
    - intros [p|x] Hx; [eauto|]. exfalso. rewrite Forall_forall in *. apply in_flat_map in Hx as (e' & He' & Hx). apply (Hf e' He'). apply (entry_Err other e' (Hp e' He')). eauto.
    - apply HT. apply in_flat_map. exists e. split; [assumption|]. apply entry_Ok; [rewrite Forall_forall in Hp; auto | eauto].
  Qed.
  (** Entries before the first one that fails are searched. *)
  Theorem C68_prefix before e after g : guesser_ok g -> Forall plain_name (before ++ e :: after) -> Forall (fun e => ~ entry_fails e) before -> entry_fails e ->
    (exists x, snd (grep_wad H other (before ++ e :: after) g) = Err x) /\
    (forall e' data q, In e' before -> opened e' -> en_data e' = Ok (Some data) -> entry_path e' data q -> ~ In (H q) (g_unknown (fst (grep_wad H other (before ++ e :: after) g)))) /\
    grows H (fun q => exists e' data, In e' (before ++ [e]) /\ opened e' /\ en_data e' = Ok (Some data) /\ entry_path e' data q) g (fst (grep_wad H other (before ++ e :: after) g)).
  Proof.
    intros Hg Hp Hb He. pose proof Hp as Hp'. apply Forall_app in Hp' as [Hp1 Hp2]. inversion Hp2; subst. unfold grep_wad. rewrite flat_map_app. cbn [flat_map].
    assert (HE : exists x, In (Err x) (entry_candidates other e)) by (apply entry_Err; assumption).
    assert (HF : check_gen H (flat_map (entry_candidates other) before ++ entry_candidates other e ++ flat_map (entry_candidates other) after) g = check_gen H (flat_map (entry_candidates other) (before ++ [e])) g).
    { rewrite flat_map_app. cbn [flat_map]. rewrite app_nil_r, app_assoc. apply check_gen_cut. destruct HE as (x & Hx). exists x. apply in_or_app. right. assumption. }
    rewrite HF. change (check_gen H (flat_map (entry_candidates other) (before ++ [e])) g) with (grep_wad H other (before ++ [e]) g).
    assert (Hp3 : Forall plain_name (before ++ [e])) by (apply Forall_app; split; [assumption | repeat constructor; assumption]). split; [|split].
    - destruct (snd (grep_wad H other (before ++ [e]) g)) as [[]|x] eqn:E; [|eauto]. exfalso. apply C68_outcome in E; [|assumption]. apply Forall_app in E as [_ E]. inversion E. contradiction.
    - intros e' data q He' Ho Hd Hq F. apply (C68_tried before g Hg Hp1 Hb e' data q He' Ho Hd Hq). unfold grep_wad in *. rewrite flat_map_app, check_gen_app in F.
      destruct (check_gen_all H (flat_map (entry_candidates other) before) g Hg) as [E _].
      { intros [p|x] Hx; [eauto|]. exfalso. rewrite Forall_forall in *. apply in_flat_map in Hx as (e2 & He2 & Hx). apply (Hb e2 He2). apply (entry_Err other e2 (Hp1 e2 He2)). eauto. }
      pose proof (check_gen_grows H (flat_map (entry_candidates other) before) g Hg) as HG. destruct (check_gen H (flat_map (entry_candidates other) before) g) as [g1 r]. cbn [fst snd] in *. subst r.
      eapply grows_unknown; [apply check_gen_grows; eapply grows_ok; exact HG | exact F].
    - apply C68_safe; assumption.
  Qed.

  (** The lines of a debugger which start with [hash: ]: the text after the first quote, up to the second if there is one. *)
  Definition xdbg_text (l p : str) : Prop := exists a r, l = a ++ 34 :: r /\ ~ In 34 a /\ ~ In 34 p /\ (r = p \/ exists b, r = p ++ 34 :: b).
  Theorem C68_xdbg lines g : guesser_ok g ->
    let cand q := exists l, In l lines /\ begins (lit "hash: ") l /\ xdbg_text l q in
    grows H cand g (fst (check_xdbg_hashes H lines g)) /\
    ((forall l, In l lines -> begins (lit "hash: ") l -> In 34 l) -> snd (check_xdbg_hashes H lines g) = Ok tt /\ all_tried H cand (fst (check_xdbg_hashes H lines g))) /\
    (forall l, In l lines -> begins (lit "hash: ") l -> ~ In 34 l -> snd (check_xdbg_hashes H lines g) = Err IndexError).
  Proof.
    intros Hg cand.
    assert (HL : forall l, match split_ch 34 l with _ :: p :: _ => xdbg_text l p /\ forall q, xdbg_text l q -> q = p | _ => ~ In 34 l end).
    { intros l. unfold xdbg_text. pose proof (split_ch_pieces 34 l) as Hpi. pose proof (join_split 34 l) as Hj. pose proof (split_ch_nonempty 34 l) as Hne. destruct (split_ch 34 l) as [|a [|p r]]; [contradiction | cbn [join] in Hj; subst; inversion Hpi; assumption|].
      inversion Hpi as [|? ? Ha Hpi']; subst. inversion Hpi' as [|? ? Hp Hpi'']; subst. split.
      - exists a, (join [34] (p :: r)). split; [reflexivity|]. split; [assumption|]. split; [assumption|]. destruct r as [|b r]; [left; reflexivity|]. right. exists (join [34] (b :: r)). reflexivity.
      - intros q (a' & r' & E & Ha' & Hq & Hr). assert (E' : a ++ 34 :: join [34] (p :: r) = a' ++ 34 :: r') by (rewrite <- E; reflexivity). destruct (first_mark 34 a a' _ _ Ha Ha' E') as [_ Er].
        assert (Hpq : exists r2, join [34] (p :: r) = r2 /\ (r2 = p \/ exists b, r2 = p ++ 34 :: b)). { eexists. split; [reflexivity|]. destruct r as [|b r]; [left; reflexivity | right; exists (join [34] (b :: r)); reflexivity]. }
        destruct Hpq as (r2 & E2 & Hr2). rewrite E2 in Er. subst r2 r'. clear - Hq Hp Hr Hr2. destruct Hr as [Hr|[b Hr]], Hr2 as [Hr2|[b' Hr2]].
        + congruence.
        + exfalso. apply Hq. rewrite <- Hr, Hr2. apply in_or_app. right. left. reflexivity.
        + exfalso. apply Hp. rewrite <- Hr2, Hr. apply in_or_app. right. left. reflexivity.
        + rewrite Hr in Hr2. destruct (first_mark 34 q p b b' Hq Hp Hr2) as [-> _]. reflexivity. }
    assert (HO : forall q, In (Ok q) (xdbg_paths lines) <-> cand q).
    { intros q. unfold xdbg_paths, cand. rewrite in_map_iff. split.
      - intros (l & E & Hl). apply filter_In in Hl as [Hl Hb]. exists l. split; [assumption|]. split; [apply begins_iff; assumption|]. pose proof (HL l) as HLl. destruct (split_ch 34 l) as [|a [|p r]]; try discriminate. assert (p = q) as <- by congruence. apply HLl.
      - intros (l & Hl & Hb & Hx). exists l. pose proof (HL l) as HLl. split; [|apply filter_In; split; [assumption | apply begins_iff; assumption]].
        destruct (split_ch 34 l) as [|a [|p r]]; [exfalso | exfalso |].
        1,2: apply HLl; destruct Hx as (a' & r & -> & _); apply in_or_app; right; left; reflexivity.
        destruct HLl as [_ HLl]. rewrite (HLl q Hx). reflexivity. }
    assert (HE : forall x, In (Err x) (xdbg_paths lines) -> exists l, In l lines /\ begins (lit "hash: ") l /\ ~ In 34 l).
    { intros x Hx. unfold xdbg_paths in Hx. apply in_map_iff in Hx as (l & E & Hl). apply filter_In in Hl as [Hl Hb]. exists l. split; [assumption|]. split; [apply begins_iff; assumption|]. pose proof (HL l) as HLl. destruct (split_ch 34 l) as [|a [|p r]]; [assumption | assumption | discriminate]. }
    split; [|split].
    - eapply grows_weaken; [|apply check_gen_grows; assumption]. intros q. apply HO.
    - intros Hq. destruct (check_gen_all H (xdbg_paths lines) g Hg) as [H1 H2]; [|split; [assumption|]; intros q Hc; apply H2, HO; assumption].
      intros [p|x] Hx; [eauto|]. exfalso. destruct (HE x Hx) as (l & Hl & Hb & Hn). exact (Hn (Hq l Hl Hb)).
    - intros l Hl Hb Hn. unfold check_xdbg_hashes. assert (HX : forall x, In (Err x) (xdbg_paths lines) -> x = IndexError).
      { intros x Hx. unfold xdbg_paths in Hx. apply in_map_iff in Hx as (l' & E & _). destruct (split_ch 34 l') as [|a [|p r]]; congruence. }
      assert (HI : In (Err IndexError) (xdbg_paths lines)).
      { unfold xdbg_paths. apply in_map_iff. exists l. split; [|apply filter_In; split; [assumption | apply begins_iff; assumption]]. pose proof (HL l) as HLl. destruct (split_ch 34 l) as [|a [|p r]]; try reflexivity. exfalso. apply Hn. destruct HLl as [(a' & r' & -> & _) _]. apply in_or_app. right. left. reflexivity. }
      destruct (snd (check_gen H (xdbg_paths lines) g)) as [[]|x] eqn:E; [exfalso; exact (proj1 (check_gen_outcome H _ g) E _ HI)|]. f_equal. apply HX. eapply check_gen_Err. eassumption.
  Qed.
End C68.

(** ** Defects *)

(** A preload file with one name which is not ASCII stops the search: the next file is not searched. *)
Theorem C68_ascii_refuted : exists H entries g q, guesser_ok g /\ Forall plain_name entries /\ (exists e data, In e entries /\ opened e /\ en_data e = Ok (Some data) /\ entry_path e data q) /\
  forall other, snd (grep_wad H other entries g) = Err UnicodeDecodeError /\ In (H q) (g_unknown (fst (grep_wad H other entries g))).
Proof.
  set (e1 := {| en_type := 0; en_ext := Some (lit "preload"); en_path := Some (lit "data/a.preload"); en_data := Ok (Some (bl "Name=""" ++ xe9 :: bl "A"""))|}).
  set (e2 := {| en_type := 0; en_ext := Some (lit "preload"); en_path := Some (lit "data/b.preload"); en_data := Ok (Some (bl "Name=""X.lua"""))|}).
  exists ex_guess_hash, [e1; e2], (ex_known [] [lit "x.lua"]), (lit "x.lua").
  split; [apply ex_ok; vm_compute; reflexivity|]. assert (HP : Forall plain_name [e1; e2]).
  { repeat constructor; intros _ w Ew; injection Ew as <-; vm_compute; intuition discriminate. }
  split; [assumption|]. split.
  - exists e2, (bl "Name=""X.lua"""). split; [right; left; reflexivity|]. inversion HP as [|? ? _ HP2]; subst. inversion HP2; subst.
    assert (HC : exists data, opened e2 /\ en_data e2 = Ok (Some data) /\ entry_path e2 data (lit "x.lua")) by (apply (entry_Ok (fun _ _ => Err TypeError)); [assumption | vm_compute; auto]).
    destruct HC as (data & Ho & Ed & Hp). injection Ed as <-. auto.
  - intros other. vm_compute. auto.
Qed.
(** The include of a shader at the root is searched with a leading slash. *)
Theorem C68_include_refuted : exists H entries g, guesser_ok g /\ Forall plain_name entries /\
  (exists e, In e entries /\ en_path e = Some (lit "a.hls") /\ en_data e = Ok (Some (bl "#include ""b.hls""")) /\ forall q, entry_path e (bl "#include ""b.hls""") q -> q = lit "/b.hls") /\
  forall other, In (H (lit "b.hls")) (g_unknown (fst (grep_wad H other entries g))).
Proof.
  set (e1 := {| en_type := 0; en_ext := Some (lit "hls"); en_path := Some (lit "a.hls"); en_data := Ok (Some (bl "#include ""b.hls"""))|}).
  assert (HP : plain_name e1) by (intros F; discriminate).
  exists ex_guess_hash, [e1], (ex_known [] [lit "b.hls"]). split; [apply ex_ok; vm_compute; reflexivity|]. split; [repeat constructor; assumption|]. split.
  - exists e1. split; [left; reflexivity|]. split; [reflexivity|]. split; [reflexivity|]. intros q Hq.
    assert (HI : In (Ok q) (entry_candidates (fun _ _ => Err TypeError) e1)).
    { apply entry_Ok; [assumption|]. eexists. split; [|split; [reflexivity | exact Hq]]. split; [discriminate|]. intros x Ex Hx. injection Ex as <-. apply mem_In in Hx. discriminate. }
    vm_compute in HI. destruct HI as [E|[]]. injection E as <-. reflexivity.
  - intros other. vm_compute. auto.
Qed.
(** The length of a string at the start of a property file is read from the end of the file. *)
Theorem C68_length_refuted : exists data p, bin_string data p /\ exists b, data = bl "DATA/ab" ++ b /\ p = lit "data/".
Proof.
  exists (bl "DATA/ab" ++ [x05; x00]), (lit "data/"). split; [|eexists; split; reflexivity].
  exists [], (bl "DATA/"), (bl "ab" ++ [x05; x00]), 5, (bl "DATA/"), (bl "ab" ++ [x05; x00]). split; [reflexivity|]. split; [right; left; reflexivity|]. split.
  - exists x05, x00. split; [reflexivity|]. right. right. split; [reflexivity|]. exists (bl "DATA/ab"). reflexivity.
  - split; [reflexivity|]. split; [left; reflexivity|]. apply ascii_Some. reflexivity.
Qed.

(** ** Examples *)

Definition ex_entries : list entry :=
  let e t x p d := {| en_type := t; en_ext := x; en_path := p; en_data := d |} in
  [e 0 (Some (lit "bin")) None (Ok (Some (x01 :: x0b :: x00 :: bl "DATA/A1.png" ++ x0e :: x00 :: bl "Maps/A/B/C.bin" ++ [x09; x00] ++ bl "Shaders/X")));
   e 3 (Some (lit "preload")) (Some (lit "data/z/a.preload")) (Ok (Some (bl "Name=""S/T.lua"" Name="""" Name=""Vi.troy"" Name=""Other""")));
   e 1 (Some (lit "hls")) (Some (lit "a/b/c.hls")) (Ok (Some (bl "#include ""../D.hls"" #include "".\e//f""")));
   e 0 (Some (lit "atlas")) (Some (lit "a/x.atlas")) (Ok (Some (bl "I.png" ++ x0a :: bl "J.png" ++ [x0a; xe9])));
   e 2 None None (Err (OSError ENOENT));
   e 0 (Some (lit "dds")) None (Err (OSError ENOENT));
   e 0 None None (Ok None);
   e 0 (Some (lit "txt")) None (Ok (Some (x0f :: x00 :: bl "DATA_Soon/Q.luaXY,UX/b c$UX/")))].
Definition ex_grep : guesser :=
  ex_known [lit "zz"] [lit "data/a1.png"; lit "data/a1.dds"; lit "maps/a"; lit "maps/a/b"; lit "assets/shaders/generated/shaders/x.vs_2_0-dx11"; lit "s/t.luabin"; lit "data/shared/particles/vi.troybin"; lit "data/z/other.preload";
    lit "a/d.hls"; lit "a/b/./e/f"; lit "a/j.png"; lit "data/q.luaxy"; lit "ux/b c"; lit "data/q.lua"].
(** All these paths are found and nothing else. *)
Example C68_ex : forall other, let r := grep_wad ex_guess_hash other ex_entries ex_grep in snd r = Ok tt /\ g_unknown (fst r) = [] /\ length (g_known (fst r)) = 15%nat.
Proof. intros other. vm_compute. repeat split. Qed.
Example C68_hyps : guesser_ok ex_grep /\ Forall plain_name ex_entries /\ Forall (fun e => ~ entry_fails e) ex_entries /\
  (exists e, entry_fails e /\ plain_name e) /\ xdbg_text (lit "hash: ""a/b"" 12") (lit "a/b").
Proof.
  assert (HP : Forall plain_name ex_entries) by (repeat constructor; intros Ee w Ew; try discriminate; injection Ew as <-; vm_compute; intuition discriminate).
  split; [apply ex_ok; vm_compute; reflexivity|]. split; [assumption|]. split; [apply (C68_outcome ex_guess_hash (fun _ _ => Err TypeError) ex_entries ex_grep HP), C68_ex|]. split.
  - exists {| en_type := 0; en_ext := None; en_path := None; en_data := Err (OSError EIO) |}. split; [|intros F; discriminate]. split; [|left; eexists; reflexivity]. split; [discriminate | intros x F; discriminate].
  - exists (lit "hash: "), (lit "a/b"" 12"). split; [reflexivity|]. split; [vm_compute; intuition discriminate|]. split; [vm_compute; intuition discriminate|]. right. exists (lit " 12"). reflexivity.
Qed.
Print Assumptions C68_normpath. Print Assumptions C68_bin. Print Assumptions C68_bin_safe. Print Assumptions C68_file. Print Assumptions C68_quotes. Print Assumptions C68_safe. Print Assumptions C68_outcome. Print Assumptions C68_tried.
Print Assumptions C68_prefix. Print Assumptions C68_xdbg. Print Assumptions C68_ascii_refuted. Print Assumptions C68_include_refuted. Print Assumptions C68_length_refuted.
