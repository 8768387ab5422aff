(** * Proofs about the commands on archives *)

From Coq Require Import Permutation Sorted.
From Verif Require Import Base.TextFacts Base.Utf8 Base.Fs Spec.FsSpec Base.FsFacts Model.Files Model.Wad Model.WadExtract Model.Hashes Model.FetchHashes Model.Stringtables
  Model.Cli Model.WadCli Spec.PatchCacheSpec Spec.WadCliSpec Spec.WadExtractSpec Proofs.FilesProofs Proofs.SymlinksProofs Proofs.PatchCacheProofs Proofs.WadExtractProofs Proofs.WildProofs.

(** ** Choice *)

Lemma kept_filter {A} (P : A -> Prop) (b : A -> bool) : (forall x, b x = true <-> P x) -> forall l, kept P l (filter b l).
Proof.
  intros H. induction l as [|x l IH]; cbn [filter]; [constructor|]. destruct (b x) eqn:E; [apply kept_yes; [apply H; exact E | exact IH] | apply kept_no; [|exact IH]].
  intros Hx. apply H in Hx. congruence.
Qed.
Lemma kept_fun {A} (P : A -> Prop) l l1 : kept P l l1 -> forall l2, kept P l l2 -> l1 = l2.
Proof.
  induction 1; intros l2 H2; inversion H2; subst; try contradiction; [reflexivity | f_equal; auto | auto].
Qed.
Lemma filter_filter {A} (p q : A -> bool) l : filter p (filter q l) = filter (fun x => q x && p x) l.
Proof. induction l as [|x l IH]; cbn [filter]; [reflexivity|]. destruct (q x); cbn [filter andb]; [destruct (p x); rewrite IH; reflexivity | exact IH]. Qed.

Definition unknown_b (u : unknown_arg) (w : wfile) : bool := match u with UYes => true | UOnly => no_path w | UNo => negb (no_path w) end.
Definition pattern_b (patterns : list str) (w : wfile) : bool :=
  match patterns with [] => true | _ => existsb (fun p => match w_path w with Some path => fnmatch path p | None => false end) patterns end.
Lemma selected_filter u ps l : selected u ps l = filter (fun w => unknown_b u w && pattern_b ps w) l.
Proof.
  unfold selected. destruct ps as [|p ps].
  - destruct u; [|apply filter_ext; intros w; cbn [unknown_b pattern_b]; rewrite andb_true_r; reflexivity..].
    symmetry. cbn [unknown_b pattern_b andb]. clear. induction l as [|x l IH]; cbn [filter]; [reflexivity | f_equal; exact IH].
  - destruct u; rewrite ?filter_filter; apply filter_ext; reflexivity.
Qed.
Lemma unknown_iff u w : unknown_b u w = true <-> unknown_ok (unknown_text u) (w_path w).
Proof.
  unfold unknown_b, no_path. destruct u; cbn [unknown_text]; destruct (w_path w); split; intros H; try discriminate; try constructor; inversion H.
Qed.
Lemma pattern_iff ps w : pattern_b ps w = true <-> pattern_ok ps (w_path w).
Proof.
  unfold pattern_ok. destruct ps as [|p ps]; [split; auto|]. unfold pattern_b. rewrite existsb_exists. split.
  - intros (q & Hq & H). destruct (w_path w) as [s|]; [|discriminate]. right. exists s, q. split; [reflexivity|]. split; [exact Hq|]. apply fnmatch_iff. exact H.
  - intros [E|(s & q & Es & Hq & H)]; [discriminate|]. exists q. split; [exact Hq|]. rewrite Es. apply fnmatch_iff. exact H.
Qed.
Lemma selected_kept u ps l : kept (wanted u ps) l (selected u ps l).
Proof.
  rewrite selected_filter. apply kept_filter. intros w. rewrite andb_true_iff, unknown_iff, pattern_iff. reflexivity.
Qed.

(** ** Tables *)

Lemma table_get h d : dget h (table_of d) = dget (Z.of_N h) d.
Proof.
  unfold table_of. induction d as [|[z s] d IH]; [reflexivity|]. cbn [filter fst]. destruct (Z.leb_spec 0 z) as [Hz|Hz]; cbn [map dget fst snd].
  - destruct (eqbP h (Z.to_N z)) as [->|Hn].
    + rewrite Z2N.id by exact Hz. rewrite eqbR. reflexivity.
    + destruct (eqbP (Z.of_N h) z) as [<-|_]; [rewrite N2Z.id in Hn; congruence | exact IH].
  - destruct (eqbP (Z.of_N h) z) as [E|_]; [lia | exact IH].
Qed.
Lemma resolve_ext t1 t2 l : (forall h : N, dget h t1 = dget h t2) -> resolve_paths t1 l = resolve_paths t2 l.
Proof. intros H. unfold resolve_paths. apply map_ext. intros w. unfold resolve_path. rewrite H. reflexivity. Qed.
Lemma open_ext gz zs xx t1 t2 b : (forall h : N, dget h t1 = dget h t2) -> open_wad gz zs xx t1 b = open_wad gz zs xx t2 b.
Proof. intros H. unfold open_wad. destruct (prun parse_headers b) as [[v l]|]; [|reflexivity]. cbn [rbind]. rewrite (resolve_ext t1 t2 l H). reflexivity. Qed.
Lemma same_get {V} (a b : option V) : (forall v, a = Some v <-> b = Some v) -> a = b.
Proof. intros H. destruct a as [x|]; [symmetry; apply H; reflexivity|]. destruct b as [y|]; [|reflexivity]. assert (None = Some y) by (apply H; reflexivity). discriminate. Qed.

(** ** Opening *)

Lemma dir_file_ok dir name : In name [lit "hashes.lcu.txt"; lit "hashes.game.txt"] -> hash_path dir name = dir_file dir name.
Proof.
  intros H. assert (Hp : pdiv dir name = {| pp_root := pp_root dir; pp_parts := pp_parts dir ++ [name] |}).
  { unfold pdiv. cbn [In] in H. destruct H as [<-|[<-|[]]]; reflexivity. }
  unfold hash_path, dir_file, ptext. rewrite Hp. cbn [pp_root pp_parts]. change (lit "/") with [cSlash].
  destruct (pp_root dir ++ join [cSlash] (pp_parts dir ++ [name])) as [|c s] eqn:E; [|reflexivity]. exfalso.
  apply app_eq_nil in E as [_ E]. clear Hp. destruct (pp_parts dir) as [|x l].
  - cbn [app join] in E. subst name. destruct H as [H|[H|[]]]; discriminate.
  - cbn [app] in E. destruct l as [|y l]; cbn [app join] in E; destruct x; discriminate.
Qed.
Lemma lcu_not_game p q : p ++ lit ".wad.client" = q ++ lit ".wad" -> False.
Proof. intros E. apply (f_equal (@rev _)) in E. rewrite !rev_app_distr in E. discriminate. Qed.
Lemma hash_file_iff dir g wad s : hash_file dir g wad = Ok s <-> table_file dir g wad s.
Proof.
  unfold hash_file, default_hashfile. split.
  - destruct g as [s'|]; [intros E; injection E as ->; constructor|]. destruct (endswith wad (lit ".wad.client")) eqn:E1; cbn [rbind].
    + intros E. injection E as <-. apply endswith_iff in E1 as [p ->]. rewrite dir_file_ok by (cbn; auto). constructor.
    + destruct (endswith wad (lit ".wad")) eqn:E2; cbn [rbind]; [|discriminate]. intros E. injection E as <-. apply endswith_iff in E2 as [p ->]. rewrite dir_file_ok by (cbn; auto). constructor.
  - intros H. inversion H; subst; [reflexivity | |].
    + replace (endswith (p ++ lit ".wad.client") (lit ".wad.client")) with true by (symmetry; apply endswith_iff; eauto). cbn [rbind]. rewrite dir_file_ok by (cbn; auto). reflexivity.
    + destruct (endswith (p ++ lit ".wad") (lit ".wad.client")) eqn:E; [apply endswith_iff in E as [q E]; symmetry in E; destruct (lcu_not_game _ _ E)|].
      replace (endswith (p ++ lit ".wad") (lit ".wad")) with true by (symmetry; apply endswith_iff; eauto). cbn [rbind]. rewrite dir_file_ok by (cbn; auto). reflexivity.
Qed.

Section P.
  Variable gunzip unzstd : bytes -> result bytes.
  Variable xxh3 : bytes -> N.
  Variable json_loads : bytes -> result unit.
  Variable cwd : path.
  Variable dir : ppath.
  Notation opened := (opened gunzip unzstd xxh3 cwd dir).
  Notation load := (load_wad gunzip unzstd xxh3 cwd dir).

  Lemma load_fs g s pl f o pl' f' : run (load g s) pl f = (o, pl', f') -> f' = f.
  Proof.
    unfold load_wad, load_table. rewrite !run_bind, lift_fs. destruct (hash_file dir g s) as [t|]; [|intros E; congruence].
    rewrite run_bind. destruct (run (read_file cwd t) pl f) as [[[b|e|] pl1] f1] eqn:E1; apply read_fs in E1; subst f1; [|intros E; congruence..].
    rewrite lift_fs. match goal with |- context [match ?r with Ok _ => Done _ | Err _ => _ end] => destruct r as [tb|] end; [|intros E; congruence].
    rewrite run_bind. destruct (run (read_file cwd s) pl1 f) as [[[d|e|] pl2] f2] eqn:E2; apply read_fs in E2; subst f2; [|intros E; congruence..].
    rewrite run_bind, lift_fs. destruct (open_wad _ _ _ _ _); cbn [run]; intros E; congruence.
  Qed.
  Lemma load_done g s pl f data w pl' f' : run (load g s) pl f = (Done (data, w), pl', f') -> f' = f /\ opened f g s data w.
  Proof.
    intros E. pose proof (load_fs _ _ _ _ _ _ _ E) as ->. split; [reflexivity|]. unfold load_wad, load_table in E.
    apply done_bind in E as (t & pl1 & f1 & E1 & E). apply done_bind in E1 as (s' & pl2 & f2 & E2 & E1). rewrite lift_fs in E2. destruct (hash_file dir g s) as [s''|] eqn:Eh; [|discriminate]. injection E2 as -> <- <-.
    apply done_bind in E1 as (td & pl3 & f3 & E3 & E1). apply read_done in E3 as [-> Ht]. rewrite lift_fs in E1.
    destruct (utf8_dec td) as [text|] eqn:Eu; cbn [rbind] in E1; [|discriminate]. destruct (parse_hashes text) as [d|] eqn:Ep; cbn [rbind] in E1; [|discriminate]. injection E1 as <- <- <-.
    apply done_bind in E as (b & pl4 & f4 & E4 & E). apply read_done in E4 as [-> Hb]. apply done_bind in E as (w' & pl5 & f5 & E5 & E). rewrite lift_fs in E5.
    destruct (open_wad gunzip unzstd xxh3 (table_of d) b) as [w''|] eqn:Eo; [|discriminate]. injection E5 as -> <- <-. cbn [run] in E. injection E as -> -> _.
    split; [exact Hb|]. exists d, (table_of d). split; [exists s', td, text; split; [apply hash_file_iff; exact Eh | auto]|]. split; [intros h p; rewrite table_get; reflexivity | exact Eo].
  Qed.
  Lemma load_runs g s f data w : opened f g s data w -> run (load g s) [] f = (Done (data, w), [], f).
  Proof.
    intros (Hb & d & t & (s' & td & text & Hs & Ht & Eu & Ep) & Hd & Eo). apply hash_file_iff in Hs. unfold load_wad, load_table.
    rewrite !run_bind, lift_fs, Hs, run_bind, (read_content _ _ _ _ Ht), lift_fs, Eu. cbn [rbind]. rewrite Ep. cbn [rbind]. rewrite run_bind, (read_content _ _ _ _ Hb), run_bind, lift_fs.
    rewrite (open_ext gunzip unzstd xxh3 (table_of d) t data), Eo; [reflexivity|]. intros h. rewrite table_get. symmetry. apply same_get. intros v. apply Hd.
  Qed.
  Lemma opened_fun f g s data w data' w' : opened f g s data w -> opened f g s data' w' -> data = data' /\ w = w'.
  Proof. intros H H'. apply load_runs in H, H'. rewrite H in H'. injection H' as -> ->. auto. Qed.
  Lemma opened_file f g s data w : opened f g s data w -> f_isfile cwd s f = true.
  Proof. intros [H _]. apply isfile_iff. eauto. Qed.

  (** ** Extraction *)

  Notation guess := (guess_extensions gunzip unzstd xxh3 json_loads).
  Notation prepared := (prepared gunzip unzstd xxh3 json_loads cwd dir).

  Lemma not_dir_iff f s : not_dir cwd f s <-> f_exists cwd s f = true /\ f_isdir cwd s f = false.
  Proof.
    unfold not_dir, f_exists, f_isdir. destruct (locate cwd f true s) as [p|e]; cbn [node_of].
    - split.
      + intros (p' & n & E & El & Hn). injection E as <-. rewrite El. destruct n; [auto | congruence | auto].
      + destruct (look f p) as [n|] eqn:El; intros [H1 H2]; [|discriminate]. exists p, n. split; [reflexivity|]. split; [exact El|]. intros ->. discriminate.
    - split; [intros (p' & n & E & _); discriminate | intros [H _]; discriminate].
  Qed.

  Lemma query_run {A} (g : fs -> A) pl f o pl' f' : run (query g) pl f = (o, pl', f') -> f' = f /\ (o = Done (g f) \/ o = Crashed).
  Proof. unfold query. cbn [run]. destruct pl as [|[[e n|n]|] pl]; cbn [run]; intros E; injection E as <- <- <-; auto. Qed.

  Lemma extract_run a pl f o pl' f' : run (command_wad_extract gunzip unzstd xxh3 json_loads cwd dir a) pl f = (o, pl', f') ->
    (f' = f /\ forall x, o <> Done x) \/
    exists data w l pl1, prepared a f data w l /\ run (wad_extract gunzip unzstd xxh3 cwd data (wad_toc w) l (output_dir a) (negb (ea_lazy a))) pl1 f = (o, pl', f') /\ (failures pl = 0%nat -> failures pl1 = 0%nat).
  Proof.
    unfold command_wad_extract. rewrite run_bind. destruct (run (isfile cwd (ea_wad a)) pl f) as [[o1 pl1] f1] eqn:E1. pose proof E1 as F1. apply query_run in E1 as (-> & [->| ->]); [|intros E; injection E as <- <- <-; left; split; [reflexivity | discriminate]].
    destruct (f_isfile cwd (ea_wad a) f); cbn [negb]; [|cbn [run]; intros E; injection E as <- <- <-; left; split; [reflexivity | discriminate]].
    rewrite run_bind. destruct (run (exists_ cwd (output_dir a)) pl1 f) as [[o2 pl2] f2] eqn:E2. pose proof E2 as F2. apply query_run in E2 as (-> & [->| ->]); [|intros E; injection E as <- <- <-; left; split; [reflexivity | discriminate]].
    rewrite run_bind. match goal with |- context [run ?p pl2 f] => destruct (run p pl2 f) as [[o3 pl3] f3] eqn:E3 end. pose proof E3 as F3.
    assert (H3 : f3 = f /\ (o3 = Crashed \/ exists b, o3 = Done b /\ (b = true <-> not_dir cwd f (output_dir a)))).
    { pose proof (not_dir_iff f (output_dir a)) as ND. destruct (f_exists cwd (output_dir a) f).
      - rewrite run_bind in E3. destruct (run (isdir cwd (output_dir a)) pl2 f) as [[o4 pl4] f4] eqn:E4. apply query_run in E4 as (-> & [->| ->]); cbn [run] in E3; injection E3 as <- <- <-; split; auto.
        right. eexists. split; [reflexivity|]. rewrite ND. destruct (f_isdir cwd (output_dir a) f); cbn [negb]; intuition discriminate.
      - cbn [run] in E3. injection E3 as <- <- <-. split; [reflexivity|]. right. eexists. split; [reflexivity|]. rewrite ND. intuition discriminate. }
    destruct H3 as [-> [->|(b & -> & Hb)]]; [intros E; injection E as <- <- <-; left; split; [reflexivity | discriminate]|].
    destruct b; [cbn [run]; intros E; injection E as <- <- <-; left; split; [reflexivity | discriminate]|].
    rewrite run_bind. destruct (run (load (ea_hashes a) (ea_wad a)) pl3 f) as [[[[data w]|e|] pl4] f4] eqn:E4; [|apply load_fs in E4; subst f4; intros E; injection E as <- <- <-; left; split; [reflexivity | discriminate]..].
    pose proof E4 as F4. apply load_done in E4 as [-> Ho]. rewrite run_bind, lift_fs. destruct (guess data (wad_toc w) [] (selected (ea_unknown a) (ea_pattern a) (wad_files w))) as [[c l]|e] eqn:Eg; [|intros E; injection E as <- <- <-; left; split; [reflexivity | discriminate]].
    intros E. right. exists data, w, l, pl4. split; [|split; [exact E|]].
    - split; [intros H; apply Hb in H; discriminate|]. split; [exact Ho|]. exists (selected (ea_unknown a) (ea_pattern a) (wad_files w)), c. split; [apply selected_kept | exact Eg].
    - intros H. eapply run_failures0; [exact F4|]. eapply run_failures0; [exact F3|]. eapply run_failures0; [exact F2|]. eapply run_failures0; [exact F1 | exact H].
  Qed.
  Lemma prepared_fun a f data w l data' w' l' : prepared a f data w l -> prepared a f data' w' l' -> data = data' /\ w = w' /\ l = l'.
  Proof.
    intros (_ & H1 & s1 & c1 & K1 & G1) (_ & H2 & s2 & c2 & K2 & G2). destruct (opened_fun _ _ _ _ _ _ _ H1 H2) as [<- <-]. pose proof (kept_fun _ _ _ K1 _ K2) as <-. split; [reflexivity|]. split; [reflexivity|]. congruence.
  Qed.
  Lemma prepared_runs a f data w l : prepared a f data w l ->
    run (command_wad_extract gunzip unzstd xxh3 json_loads cwd dir a) [] f = run (wad_extract gunzip unzstd xxh3 cwd data (wad_toc w) l (output_dir a) (negb (ea_lazy a))) [] f.
  Proof.
    intros (Hn & Ho & sel & c & K & G). unfold command_wad_extract. rewrite run_bind. unfold isfile at 1, query at 1. cbn [run]. rewrite (opened_file _ _ _ _ _ Ho). cbn [negb].
    rewrite run_bind. unfold exists_ at 1, query at 1. cbn [run]. rewrite run_bind. rewrite not_dir_iff in Hn.
    assert (Hb : run (if f_exists cwd (output_dir a) f then let~ d := isdir cwd (output_dir a) in Ret (negb d) else Ret false) [] f = (Done false, [], f)).
    { destruct (f_exists cwd (output_dir a) f); [|reflexivity]. unfold isdir, query. cbn [bind run]. destruct (f_isdir cwd (output_dir a) f); [reflexivity|]. exfalso. apply Hn. auto. }
    rewrite Hb. rewrite run_bind, (load_runs _ _ _ _ _ Ho), run_bind, lift_fs. rewrite (kept_fun _ _ _ (selected_kept (ea_unknown a) (ea_pattern a) (wad_files w)) _ K), G. reflexivity.
  Qed.

  (** ** Listing *)

  Lemma entry_lt_irrefl x : entry_lt x x = false.
  Proof. unfold entry_lt. rewrite str_lt_irrefl, eqbR, N.ltb_irrefl. reflexivity. Qed.
  Lemma entry_lt_iff a b : entry_lt a b = true <-> str_lt (fst a) (fst b) = true \/ fst a = fst b /\ snd a < snd b.
  Proof. unfold entry_lt. rewrite orb_true_iff, andb_true_iff, N.ltb_lt. destruct (eqbP (fst a) (fst b)); intuition congruence. Qed.
  Lemma entry_lt_trans a b c : entry_lt a b = true -> entry_lt b c = true -> entry_lt a c = true.
  Proof.
    rewrite !entry_lt_iff. intros [H|[E H]] [H'|[E' H']]; rewrite ?E, <- ?E'; auto.
    - left. eapply str_lt_trans; eassumption.
    - right. split; [reflexivity | lia].
  Qed.
  Lemma entry_lt_asym a b : entry_lt a b = true -> entry_lt b a = false.
  Proof. intros H. destruct (entry_lt b a) eqn:E; [|reflexivity]. pose proof (entry_lt_trans _ _ _ H E) as H'. rewrite entry_lt_irrefl in H'. discriminate. Qed.
  Lemma entry_lt_total a b : entry_lt a b = true \/ a = b \/ entry_lt b a = true.
  Proof.
    rewrite !entry_lt_iff. destruct (str_lt_total (fst a) (fst b)) as [H|[H|H]]; [auto | | auto].
    destruct (N.lt_trichotomy (snd a) (snd b)) as [H'|[H'|H']]; [auto | right; left; destruct a, b; cbn [fst snd] in *; congruence | right; right; auto].
  Qed.
  Lemma entry_lt_ntrans a b c : entry_lt a b = false -> entry_lt b c = false -> entry_lt a c = false.
  Proof.
    intros H1 H2. destruct (entry_lt a c) eqn:E; [|reflexivity]. destruct (entry_lt_total a b) as [H|[->|H]]; [congruence | congruence|].
    rewrite (entry_lt_trans _ _ _ H E) in H2. discriminate.
  Qed.
  Lemma entry_le a b : entry_lt b a = false -> line_le a b.
  Proof.
    intros H. unfold line_le. destruct (str_lt_total (fst a) (fst b)) as [H1|[H1|H1]]; [auto | |].
    - right. split; [exact H1|]. apply N.nlt_ge. intros H2. assert (entry_lt b a = true) by (apply entry_lt_iff; auto). congruence.
    - assert (entry_lt b a = true) by (apply entry_lt_iff; auto). congruence.
  Qed.
End P.

(** Entries of a parsed archive have no path and no extension. *)
Definition gives {A} (Q : A -> Prop) (m : P A) : Prop := forall b p a p', m b p = Ok (a, p') -> Q a.
Lemma gives_ret {A} (Q : A -> Prop) a : Q a -> gives Q (pret a).
Proof. intros H b p a' p' E. injection E as <- _. exact H. Qed.
Lemma gives_bind {A B} (Q : B -> Prop) (m : P A) (k : A -> P B) : (forall a, gives Q (k a)) -> gives Q (pbind m k).
Proof. intros H b p a p' E. unfold pbind in E. destruct (m b p) as [[x q]|]; [|discriminate]. exact (H x _ _ _ _ E). Qed.
Lemma gives_bind_of {A B} (R : A -> Prop) (Q : B -> Prop) (m : P A) (k : A -> P B) : gives R m -> (forall a, R a -> gives Q (k a)) -> gives Q (pbind m k).
Proof. intros Hm H b p a p' E. unfold pbind in E. destruct (m b p) as [[x q]|] eqn:Em; [|discriminate]. exact (H x (Hm _ _ _ _ Em) _ _ _ _ E). Qed.
Lemma gives_list {A} (Q : A -> Prop) (m : P A) n : gives Q m -> gives (Forall Q) (plist n m).
Proof.
  intros Hm. unfold plist. induction (N.to_nat n) as [|k IH]; cbn [prep]; [apply gives_ret; constructor|].
  eapply gives_bind_of; [exact Hm|]. intros a Ha. eapply gives_bind_of; [exact IH|]. intros l Hl. apply gives_ret. constructor; assumption.
Qed.
Definition unnamed (w : wfile) : Prop := w_path w = None /\ w_ext w = None.
Lemma headers_unnamed b v l : prun parse_headers b = Ok (v, l) -> Forall unnamed l.
Proof.
  intros E. unfold prun in E. destruct (parse_headers b 0) as [[[v' l'] p]|] eqn:Ep; [|discriminate]. cbn [rmap fst] in E. injection E as -> ->.
  assert (H : gives (fun x => Forall unnamed (snd x)) parse_headers); [|exact (H _ _ _ _ Ep)].
  assert (H1 : gives unnamed entry_v1) by (repeat (apply gives_bind; intros ?); apply gives_ret; split; reflexivity).
  assert (H2 : gives unnamed entry_v2) by (repeat (apply gives_bind; intros ?); apply gives_ret; split; reflexivity).
  assert (H3 : gives unnamed entry_v34) by (repeat (apply gives_bind; intros ?); apply gives_ret; split; reflexivity).
  unfold parse_headers. do 3 (apply gives_bind; intros ?). destruct (negb _); [intros ? ? ? ? E; discriminate|]. do 2 (apply gives_bind; intros ?).
  eapply (gives_bind_of (Forall unnamed)); [|intros l0 Hl0; apply gives_ret; exact Hl0].
  destruct (_ =? 1); [apply gives_list; exact H1|]. destruct (_ || _); apply gives_list; assumption.
Qed.
Lemma entry_text gz zs xx t b w e : open_wad gz zs xx t b = Ok w -> In e (wad_files w) -> list_text (w_path e) (fst (list_entry e)).
Proof.
  unfold open_wad. intros E He. apply rbind_Ok in E as ([v l] & Ep & E). apply headers_unnamed in Ep. apply rbind_Ok in E as (toc & _ & E). injection E as <-. cbn [wad_files] in He.
  unfold resolve_paths in He. apply in_map_iff in He as (e0 & <- & He0). rewrite Forall_forall in Ep. destruct (Ep e0 He0) as [H1 H2].
  unfold resolve_path. destruct (dget (w_hash e0) t) as [p|].
  - unfold list_entry. cbn [set_ext set_path w_path w_ext fst]. destruct p as [|c p]; cbn [truthy]; [|constructor]. replace (snd (splitext [])) with (@nil N) by reflexivity. cbn. constructor.
  - unfold list_entry. rewrite H1, H2. cbn [truthy fst]. constructor.
Qed.
