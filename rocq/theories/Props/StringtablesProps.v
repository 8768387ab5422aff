(** * C62: translation files *)

From Verif Require Import Base.Py Base.Text Base.PyFacts Base.TextFacts Base.Fs Spec.FsSpec Base.FsFacts Base.FsRealFacts Base.FsLinks Model.Stringtables Spec.StringtablesSpec Proofs.StringtablesProofs.

(** C62: the files of the newest place that has some, each with its language; an error if there is none at all. *)
Theorem C62_paths order cwd f base game : (forall l x, In x (order l) <-> In x l) -> searchable cwd f base game -> dir_text base -> not_pattern base ->
  not_pattern game -> ~ In cSlash game -> ~ In 92 game ->
  match stringtable_paths order cwd f base game with
  | Ok d => exists newer place older, places game = newer ++ place :: older /\ Forall (none_at cwd f base) newer /\ d <> [] /\ files_of cwd f base place d
  | Err e => e = RuntimeError /\ Forall (none_at cwd f base) (places game)
  end.
Proof. intros Ho Hs Hb Hp Hg Hsl Hbk. exact (stringtable_paths_ok order Ho cwd f base game Hs Hb Hp Hg Hsl Hbk). Qed.
Print Assumptions C62_paths.

Local Notation t := lit.
Local Definition menu (d : path) (files : list str) : fs :=
  ([t "menu"] ++ [t "data"] ++ d, NDir) :: ([t "data"] ++ d, NDir) :: map (fun n => (n :: [t "menu"] ++ [t "data"] ++ d, NFile (bl "RST"))) files.
Local Definition lang (d : path) (l : str) (files : list str) : fs :=
  (l :: d, NDir) :: ([t "data"; l] ++ d, NDir) :: ([t "menu"; t "data"; l] ++ d, NDir) :: ([t "en_us"; t "menu"; t "data"; l] ++ d, NDir)
  :: map (fun n => (n :: [t "en_us"; t "menu"; t "data"; l] ++ d, NFile (bl "RST"))) files.
Local Definition f0 : fs :=
  ([t "e"], NDir) :: lang [t "e"] (t "en_us") [t "lol.stringtable"; t "tft.stringtable"] ++ lang [t "e"] (t "fr_fr") [t "lol.stringtable"]
  ++ lang [t "e"] (t "data_") [t "tft.stringtable"] ++ menu [t "e"] [t "main_de_de.stringtable"; t "fontconfig_it_it.txt"].
(** Newest files first, whatever the older ones. *)
Example C62_ex : stringtable_paths (fun l => l) [] f0 (t "/e") (t "tft") = Ok [(t "en_us", t "/e/en_us/data/menu/en_us/tft.stringtable")]
  /\ stringtable_paths (fun l => l) [] f0 (t "/e") (t "lol") = Ok [(t "en_us", t "/e/en_us/data/menu/en_us/lol.stringtable"); (t "fr_fr", t "/e/fr_fr/data/menu/en_us/lol.stringtable")]
  /\ stringtable_paths (fun l => l) [] f0 (t "e") (t "tt") = Ok [(t "de_de", t "e/data/menu/main_de_de.stringtable")]
  /\ stringtable_paths (fun l => l) [] f0 (t "e/en_us") (t "tft") = Err RuntimeError.
Proof. repeat split; vm_compute; reflexivity. Qed.
Example C62_hyps : searchable [] f0 (t "/e") (t "tft") /\ dir_text (t "/e") /\ not_pattern (t "/e").
Proof.
  split; [|split; [exists (t "/"), 101; split; [reflexivity | discriminate] | repeat split; vm_compute; intuition discriminate]].
  assert (Hv : forall x p, look f0 (x :: p) <> None -> valid_name x).
  { intros x p H. assert (Hi : exists n, In (x :: p, n) f0) by (unfold look in H; match type of H with ?z <> None => destruct z as [n|] eqn:E end; [exists n; apply dget_Some_In; exact E | congruence]).
    destruct Hi as [n Hi]. apply (in_map fst) in Hi. assert (Hall : forallb (fun q => valid_name_b (hd [] q)) (map fst f0) = true) by (vm_compute; reflexivity).
    rewrite forallb_forall in Hall. apply Hall in Hi. apply valid_name_b_ok. exact Hi. }
  split; [apply wf_check_ok; reflexivity|]. split; [reflexivity|]. split; [exact Hv|].
  intros place l Hp (a & b & c & d & -> & Hs) (p & E & Hl).
  assert (G : forall k cs cur q, resolve k f0 false cur cs = Ok q -> look f0 q <> None -> Forall (fun x => x <> dotdot) cs -> Forall (fun x => exists r, look f0 (x :: r) <> None) cs).
  { assert (Hno : forall q z, look f0 q <> Some (NLink z)).
    { intros q z H. assert (Hi : In (q, NLink z) f0) by (destruct q; [discriminate | apply dget_Some_In; exact H]). assert (Hall : forallb (fun q => match snd q with NLink _ => false | _ => true end) f0 = true) by (vm_compute; reflexivity).
      rewrite forallb_forall in Hall. apply Hall in Hi. discriminate. }
    intros k. induction cs as [|x cs IH]; intros cur q E2 Hq HF; [constructor|]. inversion HF as [|? ? Hx HF']; subst. rewrite resolve_cons in E2. replace (eqb x dotdot) with false in E2 by (symmetry; apply eqbF; exact Hx).
    assert (Hn : look f0 (x :: cur) <> None) by (destruct (look f0 (x :: cur)) eqn:El; [discriminate | destruct cs; [injection E2 as <-; congruence | discriminate]]).
    constructor; [exists cur; exact Hn|]. destruct (look f0 (x :: cur)) as [[y| |z]|] eqn:El; [destruct cs; [constructor | discriminate] | eapply IH; eassumption | exfalso; eapply Hno; exact El | congruence]. }
  assert (Hcode : forall pre suf, forallb (fun q => match q with x :: _ => negb (startswith x pre && endswith x suf && (lenN x =? lenN pre + 5 + lenN suf)
      && negb (forallb (fun y => negb (y =? 92) && negb (y =? cNL)) x && negb (hd 0 (skipn (length pre) x) =? cDot))) | [] => true end) (map fst f0) = true ->
    forall r, look f0 ((pre ++ [a; b; cUnder; c; d] ++ suf) :: r) <> None -> regular_code [a; b; cUnder; c; d]).
  { intros pre suf Hb r Hn. rewrite forallb_forall in Hb. assert (Hi : In ((pre ++ [a; b; cUnder; c; d] ++ suf) :: r) (map fst f0)).
    { unfold look in Hn. match type of Hn with ?z <> None => destruct z as [n|] eqn:E2 end; [|congruence]. apply dget_Some_In in E2. apply (in_map fst) in E2. exact E2. }
    apply Hb in Hi. cbv beta iota in Hi. replace (startswith (pre ++ [a; b; cUnder; c; d] ++ suf) pre) with true in Hi by (symmetry; apply startswith_iff; eexists; reflexivity).
    replace (endswith (pre ++ [a; b; cUnder; c; d] ++ suf) suf) with true in Hi by (symmetry; apply endswith_iff; exists (pre ++ [a; b; cUnder; c; d]); rewrite <- app_assoc; reflexivity).
    replace (lenN _ =? _) with true in Hi by (symmetry; rewrite !lenN_app; cbn; lia). cbn [andb] in Hi. rewrite negb_involutive in Hi. apply andb_true_iff in Hi as [H1 H2].
    rewrite skipn_app, skipn_all, Nat.sub_diag in H2. cbn in H2. rewrite forallb_forall in H1.
    assert (H3 : forall y, In y [a; b; cUnder; c; d] -> y <> 92 /\ y <> cNL).
    { intros y Hy. assert (H4 : negb (y =? 92) && negb (y =? cNL) = true) by (apply H1; apply in_or_app; right; apply in_or_app; left; exact Hy). lia. }
    split; [intros Hi; apply H3 in Hi; tauto|]. split; [intros Hi; apply H3 in Hi; tauto|]. cbn. intros ->. discriminate. }
  assert (Ec : forall s, comps (t "/e" ++ cSlash :: s) = t "e" :: comps s) by (intros s; rewrite comps_app; reflexivity).
  unfold locate, at_loc, loc_of in E. cbn [app] in E. cbn [fst snd is_abs] in E. change (47 =? cSlash) with true in E. cbv iota in E. change (47 :: 101 :: cSlash :: place [a; b; cUnder; c; d]) with (t "/e" ++ cSlash :: place [a; b; cUnder; c; d]) in E. rewrite Ec in E.
  assert (Hd : [a; b; cUnder; c; d] <> dotdot) by discriminate. assert (Hone : comps [a; b; cUnder; c; d] = [[a; b; cUnder; c; d]]) by (apply comps_one; [exact Hs | discriminate | discriminate]).
  assert (Hsub : forall pre suf, ~ In cSlash pre -> ~ In cSlash suf -> ~ In cSlash (pre ++ [a; b; cUnder; c; d] ++ suf)) by (intros pre suf H1 H2 Hi; apply in_app_iff in Hi as [Hi|Hi]; [tauto|]; apply in_app_iff in Hi; tauto).
  destruct Hp as [<-|[<-|[<-|[<-|[]]]]].
  - change ([a; b; cUnder; c; d] ++ t "/data/menu/en_us/" ++ t "tft" ++ t ".stringtable") with ([a; b; cUnder; c; d] ++ cSlash :: t "data/menu/en_us/tft.stringtable") in E. rewrite comps_app, Hone in E.
    replace (comps (t "data/menu/en_us/tft.stringtable")) with [t "data"; t "menu"; t "en_us"; t "tft.stringtable"] in E by (vm_compute; reflexivity).
    cbn [app] in E. apply G in E; [|exact Hl | repeat (apply Forall_cons; [discriminate|]); apply Forall_nil]. inversion E as [|? ? _ E']; subst. inversion E' as [|? ? [r Hr] _]; subst. apply (Hcode [] []) in Hr; [exact Hr | vm_compute; reflexivity].
  - change ([a; b; cUnder; c; d] ++ t "/data/menu/en_us/main.stringtable") with ([a; b; cUnder; c; d] ++ cSlash :: t "data/menu/en_us/main.stringtable") in E. rewrite comps_app, Hone in E.
    replace (comps (t "data/menu/en_us/main.stringtable")) with [t "data"; t "menu"; t "en_us"; t "main.stringtable"] in E by (vm_compute; reflexivity).
    cbn [app] in E. apply G in E; [|exact Hl | repeat (apply Forall_cons; [discriminate|]); apply Forall_nil]. inversion E as [|? ? _ E']; subst. inversion E' as [|? ? [r Hr] _]; subst. apply (Hcode [] []) in Hr; [exact Hr | vm_compute; reflexivity].
  - change (t "data/menu/main_" ++ [a; b; cUnder; c; d] ++ t ".stringtable") with (t "data" ++ cSlash :: t "menu" ++ cSlash :: (t "main_" ++ [a; b; cUnder; c; d] ++ t ".stringtable")) in E. rewrite !comps_app in E.
    replace (comps (t "data")) with [t "data"] in E by (vm_compute; reflexivity). replace (comps (t "menu")) with [t "menu"] in E by (vm_compute; reflexivity).
    rewrite (comps_one (t "main_" ++ _)) in E; [|apply Hsub; vm_compute; intuition discriminate | discriminate | discriminate].
    cbn [app] in E. apply G in E; [|exact Hl | repeat (apply Forall_cons; [discriminate|]); apply Forall_nil]. inversion E as [|? ? _ E1]; subst. inversion E1 as [|? ? _ E2]; subst. inversion E2 as [|? ? _ E3]; subst. inversion E3 as [|? ? [r Hr] _]; subst.
    apply (Hcode (t "main_") (t ".stringtable")) in Hr; [exact Hr | vm_compute; reflexivity].
  - change (t "data/menu/fontconfig_" ++ [a; b; cUnder; c; d] ++ t ".txt") with (t "data" ++ cSlash :: t "menu" ++ cSlash :: (t "fontconfig_" ++ [a; b; cUnder; c; d] ++ t ".txt")) in E. rewrite !comps_app in E.
    replace (comps (t "data")) with [t "data"] in E by (vm_compute; reflexivity). replace (comps (t "menu")) with [t "menu"] in E by (vm_compute; reflexivity).
    rewrite (comps_one (t "fontconfig_" ++ _)) in E; [|apply Hsub; vm_compute; intuition discriminate | discriminate | discriminate].
    cbn [app] in E. apply G in E; [|exact Hl | repeat (apply Forall_cons; [discriminate|]); apply Forall_nil]. inversion E as [|? ? _ E1]; subst. inversion E1 as [|? ? _ E2]; subst. inversion E2 as [|? ? _ E3]; subst. inversion E3 as [|? ? [r Hr] _]; subst.
    apply (Hcode (t "fontconfig_") (t ".txt")) in Hr; [exact Hr | vm_compute; reflexivity].
Qed.

(** C62: the base directory is taken as a pattern: the files of a directory named "x[1]" are not found… *)
Theorem C62_pattern_refuted : exists f base, present [] f base (t "en_us/data/menu/en_us/tft.stringtable") /\ stringtable_paths (fun l => l) [] f base (t "tft") = Err RuntimeError.
Proof.
  exists (([t "x[1]"], NDir) :: lang [t "x[1]"] (t "en_us") [t "tft.stringtable"]), (t "/x[1]"). split; [|vm_compute; reflexivity].
  eexists. split; [vm_compute; reflexivity | discriminate].
Qed.
Print Assumptions C62_pattern_refuted.
(** … and those of another directory are used instead. *)
Theorem C62_other_refuted : exists f base d l p, stringtable_paths (fun l => l) [] f base (t "tft") = Ok d /\ In (l, p) d /\ startswith p base = false.
Proof.
  exists (([t "x1"], NDir) :: ([t "x[1]"], NDir) :: lang [t "x1"] (t "en_us") [t "tft.stringtable"] ++ lang [t "x[1]"] (t "en_us") [t "tft.stringtable"]), (t "/x[1]").
  eexists _, _, _. split; [vm_compute; reflexivity|]. split; [left; reflexivity | reflexivity].
Qed.
Print Assumptions C62_other_refuted.
(** C62: a name with an end of line makes the search fail. *)
Theorem C62_name_refuted : exists f, present [] f (t "/x") (t "en_us/data/menu/en_us/tft.stringtable") /\ stringtable_paths (fun l => l) [] f (t "/x") (t "tft") = Err AttributeError.
Proof.
  exists (([t "x"], NDir) :: lang [t "x"] (t "en_us") [t "tft.stringtable"] ++ map (fun kv => (map (fun n => if eqb n (t "fr_fr") then [102; cNL; cUnder; 102; 114] else n) (fst kv), snd kv)) (lang [t "x"] (t "fr_fr") [t "tft.stringtable"])).
  split; [|vm_compute; reflexivity]. eexists. split; [vm_compute; reflexivity | discriminate].
Qed.
Print Assumptions C62_name_refuted.
