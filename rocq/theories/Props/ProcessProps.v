(** * C55: export of a patch *)

From Coq Require Import Permutation Sorted.
From Verif Require Import Base.Py Base.Text Base.PyFacts Base.TextFacts Base.Fs Spec.FsSpec Base.FsFacts Base.FsLinks Base.FsRealFacts Model.Version Model.Wad Model.Exporter Spec.ExportTreeSpec Spec.ExporterSpec
  Proofs.ExporterProofs Proofs.HashesProofs Model.Convert Spec.ConvertSpec Spec.CleanSpec Spec.SymlinksSpec Model.Process Spec.ProcessSpec Proofs.ExportAllProofs Proofs.ProcessProofs.
From Verif Require Props.ExporterProps.

Section C55.
  Variable cd : codecs.
  Variable cwd : path.
  Variable order set_order : list str -> list str.
  Variable gunzip unzstd : bytes -> result bytes.
  Variable xxh3 : bytes -> N.
  Variable enc : str -> result bytes.
  Variable cs : list conv.
  Variable output : str.
  Hypothesis Horder : forall l, Permutation (order l) l.
  Hypothesis Hset : forall l, Permutation (set_order l) l.
  Hypothesis Hnames : plain_names cd.
  Variable symlinks : bool.
  (** Files of the patches, before and after their selection. *)
  Variables (v : version) (e0 e : exporter) (prev0 : option (version * exporter)) (prev : option exporter).
  Hypothesis He : transform cs v e0 = Ok e.
  Hypothesis Hprev : match prev0, prev with Some (pv, p0), Some p => transform cs pv p0 = Ok p | None, None => True | _, _ => False end.
  Hypothesis Hplan : plannable cs symlinks e prev.
  Variable f : fs.
  Hypothesis Hready : process_ready cwd output cs (produces cs e) (selected e prev) f.
  Notation d := (target cwd output).
  Notation at_out := (ConvertSpec.at_out cwd output).
  Notation exported ow := (process cd cwd order set_order gunzip unzstd xxh3 enc cs output ow symlinks v e0 prev0).
  Notation K := (kept_paths cs symlinks e prev).

  (** The plan exists (see C26). *)
  Lemma filtered_produces p x : dicts e -> dicts p -> produces cs (filter_exporter e p) x -> produces cs e x.
  Proof. intros H1 H2 (q & Hq & Hx). exists q. split; [eapply filter_exports; eassumption | exact Hx]. Qed.
  Lemma plan_NoDup s pr pl : planned cs s e pr = Ok pl -> NoDup (pl_new pl).
  Proof.
    unfold planned, plan_links, plan_plain. destruct pr as [p|]; [destruct s|]; intros E;
      repeat match type of E with rbind ?x _ = Ok _ => let H := fresh in let E' := fresh in apply rbind_Ok in E as (? & H & E); try (apply rbind_Ok in H as (? & _ & H)) end;
      injection E as <-; cbn [pl_new]; try apply set_add_NoDup; apply set_of_NoDup.
  Qed.
  Lemma plan_facts : exists pl, planned cs symlinks e prev = Ok pl /\ pl_exporter pl = selected e prev /\ (forall x, In x (pl_changed pl) <-> x = lit "cdragon" \/ K x)
    /\ (forall x, produces cs (selected e prev) x -> K x) /\ (forall x, K x -> produces cs e x)
    /\ (forall l, In l (pl_links pl) -> exists b, produces cs e b /\ inside b l)
    /\ (forall x l, K x -> In l (pl_links pl) -> ~ inside x l /\ ~ inside l x) /\ (forall l1 l2, In l1 (pl_links pl) -> In l2 (pl_links pl) -> inside l1 l2 -> l1 = l2)
    /\ (forall x, produces cs e x -> K x \/ exists l, In l (pl_links pl) /\ inside x l) /\ NoDup (pl_links pl)
    /\ (forall x, In x (pl_new pl) <-> produces cs e x \/ (symlinks = false \/ prev = None) /\ x = lit "cdragon").
  Proof.
    destruct Hplan as (D & N0 & HP). assert (NN : no_nesting (produces cs e)) by apply Hready. unfold planned, selected, kept_paths. destruct prev as [p|].
    - destruct HP as (Dp & Np & HP). destruct symlinks.
      + destruct (HP eq_refl) as (S & U & SP & NNp). destruct (ExporterProps.C26_plan cs e p D Dp N0 Np S U SP NN NNp) as (pl & E & Ex & Hnew & Hch & Hall & Hmeet & _ & _ & Hsrc & Hnd & Hanti). exists pl. rewrite Ex in *. split; [exact E|]. split; [reflexivity|]. split; [exact Hch|]. split; [auto|].
        split; [intros x; apply filtered_produces; assumption|]. split; [exact Hsrc|]. split; [exact Hmeet|]. split; [exact Hanti|]. split; [intros x Hx; destruct (Hall x Hx) as [H|(r & H1 & H2 & _)]; [auto | right; exists r; auto]|]. split; [exact Hnd|].
        intros x. rewrite Hnew. split; [auto|]. intros [H|[[H|H] _]]; [exact H | discriminate | discriminate].
      + destruct (ExporterProps.C26_plain cs e (Some p) N0 Np) as (pl & E & El & Ex & Hch). exists pl. rewrite El. split; [exact E|]. split; [exact Ex|]. split; [exact Hch|]. split; [intros x; apply filtered_produces; assumption|].
        split; [auto|]. split; [contradiction|]. split; [contradiction|]. split; [contradiction|]. split; [auto|]. split; [constructor|].
        assert (En : pl_new pl = pl_changed pl) by (unfold plan_plain in E; apply rbind_Ok in E as (? & _ & E); apply rbind_Ok in E as (? & _ & E); injection E as <-; reflexivity). intros x. rewrite En, Hch. intuition.
    - destruct (ExporterProps.C26_plain cs e None N0 Logic.I) as (pl & E & El & Ex & Hch). exists pl. rewrite El. split; [exact E|]. split; [exact Ex|]. split; [exact Hch|]. split; [auto|].
      split; [auto|]. split; [contradiction|]. split; [contradiction|]. split; [contradiction|]. split; [auto|]. split; [constructor|].
      assert (En : pl_new pl = pl_changed pl) by (unfold plan_plain in E; apply rbind_Ok in E as (? & _ & E); apply rbind_Ok in E as (? & _ & E); injection E as <-; reflexivity). intros x. rewrite En, Hch. intuition.
  Qed.
  Lemma ready_kept : process_ready cwd output cs K (selected e prev) f.
  Proof.
    destruct plan_facts as (pl & _ & _ & _ & _ & Hsub & _). destruct Hready as (H1 & H2 & H3 & H4 & H5 & H6 & H7 & H8). repeat (split; [assumption|]). split; [intros x Hx; apply H5, Hsub, Hx|]. split; [|split; assumption].
    intros x y Hx Hy. apply H6; apply Hsub; assumption.
  Qed.
  Lemma regular_up b l : regular b -> inside b l -> regular l.
  Proof.
    intros [H1 H2] [r E]. split; [rewrite E in H1; apply Forall_app in H1; apply H1|]. intros G. apply H2. rewrite E. destruct (parts l) as [|c t] eqn:El; [destruct (parts_nonempty l El)|]. exact G.
  Qed.
  Definition unknown : list N := py_sorted N.ltb (unknown_hashes e0).
  Definition prev_text : str := match prev0 with Some (pv, _) => v_s pv | None => [] end.

  (** [process] selects the files, plans, and carries out the plan. *)
  Lemma process_run ow pl : planned cs symlinks e prev = Ok pl -> exported ow = carry_out cd cwd order set_order gunzip unzstd xxh3 enc cs output ow prev_text unknown pl.
  Proof.
    intros E. unfold process, prev_text, unknown. rewrite He. cbn [lift bind]. destruct prev0 as [[pv p0]|], prev as [p|]; try contradiction; [rewrite Hprev; cbn [lift bind]|]; rewrite E; reflexivity.
  Qed.
  (** The paths given by links. *)
  Definition link_paths : list str := match planned cs symlinks e prev with Ok pl => pl_links pl | Err _ => [] end.
  Ltac plan := let pl := fresh "pl0" in destruct plan_facts as (pl & Epl & Ex & Hch & Hpr & Hsub & Hsrc & Hmt & Han & Hall & Hnd & Hnew);
    assert (Hrl : forall l, In l (pl_links pl) -> regular l) by (intros l Hl; destruct (Hsrc l Hl) as (b & Hb & Hi); eapply regular_up; [apply Hready; exact Hb | exact Hi]);
    assert (El : link_paths = pl_links pl) by (unfold link_paths; rewrite Epl; reflexivity).

  (** Nothing outside of the output directory ever changes, whatever fails. *)
  Theorem C55_frame ow pl o pl' f' : run (exported ow) pl f = (o, pl', f') -> forall q, ~ below q d -> look f' q = look f q.
  Proof.
    plan. rewrite (process_run ow _ Epl). exact (final_frame cd cwd order set_order gunzip unzstd xxh3 enc cs output Horder Hset Hnames _ _ _ K f ready_kept Hch Hpr Hrl Hmt Han pl0 eq_refl eq_refl Ex ow prev_text unknown pl o pl' f').
  Qed.
  (** Every path is either one to keep or given by a link, and these do not meet. *)
  Theorem C55_paths x : produces cs e x -> K x \/ exists l, In l link_paths /\ inside x l.
  Proof. plan. rewrite El. apply Hall. Qed.
  (** There is nothing else than the lists, the kept paths (and what is in them) and the links. *)
  Theorem C55_nothing_else ow pl pl' f' : run (exported ow) pl f = (Done tt, pl', f') -> forall q, is_leaf f' q -> strictly_below q d ->
    below q (at_out (lit "cdragon")) \/ (exists x, K x /\ below q (at_out x)) \/ exists l, In l link_paths /\ q = at_out l /\ is_link f' q.
  Proof.
    plan. rewrite (process_run ow _ Epl), El. exact (final_leaves cd cwd order set_order gunzip unzstd xxh3 enc cs output Horder Hset Hnames _ _ _ K f ready_kept Hch Hpr Hrl Hmt Han pl0 eq_refl eq_refl Ex ow prev_text unknown pl pl' f').
  Qed.
  (** Plain files and archive entries that are not in the previous patch are extracted. *)
  Theorem C55_plain x src data c pl pl' f' : failures pl = 0%nat -> no_clash cwd output cs (selected e prev) -> In (x, src) (ex_plain (selected e prev)) -> chosen cs x c ->
    source_file cwd output cs (selected e prev) f src data -> ~ below (target cwd src) d ->
    run (exported true) pl f = (Done tt, pl', f') -> exported_as cd cwd output plain_logged f' c data x.
  Proof.
    plan. rewrite (process_run true _ Epl). exact (final_plain cd cwd order set_order gunzip unzstd xxh3 enc cs output Horder Hset Hnames _ _ _ K f ready_kept Hch Hpr Hrl Hmt Han pl0 eq_refl eq_refl Ex prev_text unknown x src data c pl pl' f').
  Qed.
  Theorem C55_entries x n w y wadf data c pl pl' f' : failures pl = 0%nat -> no_clash cwd output cs (selected e prev) -> In (n, w) (ex_wads (selected e prev)) -> In y (ew_files w) -> w_path y = Some x -> chosen cs x c ->
    source_file cwd output cs (selected e prev) f (ew_src w) wadf -> ~ below (target cwd (ew_src w)) d -> read_data gunzip unzstd xxh3 wadf y (ew_toc w) = Ok (Some data) ->
    run (exported true) pl f = (Done tt, pl', f') -> exported_as cd cwd output entry_logged f' c data x.
  Proof.
    plan. rewrite (process_run true _ Epl). exact (final_entry cd cwd order set_order gunzip unzstd xxh3 enc cs output Horder Hset Hnames _ _ _ K f ready_kept Hch Hpr Hrl Hmt Han pl0 eq_refl eq_refl Ex prev_text unknown x n w y wadf data c pl pl' f').
  Qed.
  (** A path of both patches that is not extracted: its text leads to the same file as for the previous patch, and this one
      has not changed (unless there already was a link). *)
  Theorem C55_linked ow x f0 q pl pl' f' : failures pl = 0%nat -> produces cs e x -> ~ K x -> (forall l, inside x l -> ~ is_link f (at_out l)) ->
    part_outside d f f0 -> reaches 39 cwd f0 (path_join (path_join (dirname output) prev_text) x) q ->
    run (exported ow) pl f = (Done tt, pl', f') -> reaches 40 cwd f' (path_join output x) q /\ look f' q = look f0 q.
  Proof.
    plan. intros Hpl Hx Hn Hfree. destruct (Hall x Hx) as [H|(l & Hl & Hi)]; [contradiction|]. assert (Hv : Forall valid_name (parts x)) by apply (proj1 (proj2 (proj2 (proj2 (proj2 Hready)))) x Hx). rewrite (process_run ow _ Epl).
    exact (final_linked cd cwd order set_order gunzip unzstd xxh3 enc cs output Horder Hset Hnames _ _ _ K f ready_kept Hch Hpr Hrl Hmt Han pl0 eq_refl eq_refl Ex ow prev_text unknown pl pl' f' l x f0 q Hpl Hl Hv Hi (Hfree l Hi)).
  Qed.
  (** The lists. *)
  Theorem C55_exported_list ow pl pl' f' : run (exported ow) pl f = (Done tt, pl', f') ->
    listing enc f' (at_out (lit "cdragon/files.exported.txt")) (fun x => produces cs e x \/ (symlinks = false \/ prev = None) /\ x = lit "cdragon").
  Proof.
    plan. rewrite (process_run ow _ Epl). intros E. apply (final_listed cd cwd order set_order gunzip unzstd xxh3 enc cs output Horder Hset Hnames _ _ _ K f ready_kept Hch Hpr Hrl Hmt Han pl0 eq_refl eq_refl Ex) in E as (_ & _ & H).
    exists (py_sorted str_lt (pl_new pl0)). split; [exact H|]. split; [apply str_sorted_strict, (plan_NoDup symlinks prev); exact Epl|]. intros x. rewrite <- Hnew. split; apply Permutation_in; [apply Permutation_sym|]; apply py_sorted_perm.
  Qed.
  Theorem C55_links_list ow pl pl' f' : failures pl = 0%nat -> run (exported ow) pl f = (Done tt, pl', f') ->
    (forall l, In l link_paths -> is_link f' (at_out l)) /\ (link_paths <> [] -> listing enc f' (at_out (lit "cdragon/files.links.txt")) (fun x => In x link_paths)).
  Proof.
    plan. rewrite (process_run ow _ Epl), El. intros Hpl E. split.
    - intros l Hl. exact (final_link cd cwd order set_order gunzip unzstd xxh3 enc cs output Horder Hset Hnames _ _ _ K f ready_kept Hch Hpr Hrl Hmt Han pl0 eq_refl eq_refl Ex ow prev_text unknown pl pl' f' l Hpl Hl E).
    - intros Hne. apply (final_listed cd cwd order set_order gunzip unzstd xxh3 enc cs output Horder Hset Hnames _ _ _ K f ready_kept Hch Hpr Hrl Hmt Han pl0 eq_refl eq_refl Ex) in E as (H & _ & _).
      exists (py_sorted str_lt (pl_links pl0)). split; [apply H, Hne|]. split; [apply str_sorted_strict, Hnd|]. intros x. split; apply Permutation_in; [apply Permutation_sym|]; apply py_sorted_perm.
  Qed.
  Theorem C55_unknown_list ow pl pl' f' : run (exported ow) pl f = (Done tt, pl', f') ->
    exists hs, text_file enc f' (at_out (lit "cdragon/files.unknown.txt")) (map (hexl 16) hs) /\ StronglySorted (fun a b => a <= b) hs /\ forall h, In h hs <-> unresolved e0 h.
  Proof.
    plan. rewrite (process_run ow _ Epl). intros E. apply (final_listed cd cwd order set_order gunzip unzstd xxh3 enc cs output Horder Hset Hnames _ _ _ K f ready_kept Hch Hpr Hrl Hmt Han pl0 eq_refl eq_refl Ex) in E as (_ & H & _).
    exists unknown. split; [exact H|]. split.
    - unfold unknown. assert (G : StronglySorted (fun a b => N.ltb b a = false) (py_sorted N.ltb (unknown_hashes e0))).
      { apply py_sorted_sorted; intros *; rewrite ?N.ltb_ge, ?N.ltb_lt; lia. }
      revert G. generalize (py_sorted N.ltb (unknown_hashes e0)). induction l as [|a l IH]; intros G; [constructor|]. apply StronglySorted_inv in G as [G1 G2]. constructor; [apply IH, G1|]. eapply Forall_impl; [|exact G2]. intros b Hb. apply N.ltb_ge. exact Hb.
    - intros h. transitivity (In h (unknown_hashes e0)); [split; apply Permutation_in; [apply Permutation_sym|]; apply py_sorted_perm|].
      unfold unknown_hashes. rewrite in_flat_map. split.
      + intros ([k w] & Hk & Hh). apply in_map_iff in Hh as (y & <- & Hy). apply filter_In in Hy as [Hy Ht]. exists k, w, y. split; [exact Hk|]. split; [exact Hy|]. split; [reflexivity|]. destruct (w_path y) as [[|c s]|]; [right; reflexivity | discriminate | left; reflexivity].
      + intros (k & w & y & Hk & Hy & Eh & Hp). exists (k, w). split; [exact Hk|]. apply in_map_iff. exists y. split; [exact Eh|]. apply filter_In. split; [exact Hy|]. destruct Hp as [-> | ->]; reflexivity.
  Qed.
End C55.
Print Assumptions C55_frame.
Print Assumptions C55_paths.
Print Assumptions C55_nothing_else.
Print Assumptions C55_plain.
Print Assumptions C55_entries.
Print Assumptions C55_linked.
Print Assumptions C55_exported_list.
Print Assumptions C55_links_list.
Print Assumptions C55_unknown_list.

(** ** Example: "/e/14.2" is exported after "/e/14.1" *)

Local Notation t := lit.
Local Definition cd0 : codecs := {| cd_image := fun d => ([d], ImgSaved); cd_bin := fun d => Ok ([d], None); cd_rst := fun d => Ok ([d], None); cd_atlas := fun d => Ok ([d], None);
  cd_skins := fun d => Ok ([d], None); cd_skn := fun _ => Ok [] |}.
Local Definition ver (s : String.string) : version := match patch_version (ArgStr (lit s)) with Ok v => v | Err _ => {| v_s := []; v_t := VMain |} end.
Arguments ver s%string_scope.
Local Definition E5 : wfile := set_path (mk_header 5 0 2 2 0 false None (Some 50)) (Some (t "plugins/q/e.js")).
Local Definition E6 (sha : N) : wfile := set_ext (mk_header 6 2 3 3 0 false None (Some sha)) (Some (t "json")).
Local Definition key := t "plugins/rcp-fe/assets2.wad".
Local Definition new0 : exporter := {| ex_plain := [(t "b.txt", t "/s/b2"); (t "a.txt", t "/s/a")]; ex_wads := [(key, {| ew_src := t "/s/new.wad"; ew_toc := None; ew_files := [E5; E6 61] |})] |}.
Local Definition old0 : exporter := {| ex_plain := [(t "b.txt", t "/s/b1"); (t "a.txt", t "/s/a")]; ex_wads := [(key, {| ew_src := t "/s/old.wad"; ew_toc := None; ew_files := [E5; E6 60] |})] |}.
Local Definition tr (v : String.string) (e : exporter) : exporter := match transform raw_converters (ver v) e with Ok r => r | Err _ => {| ex_plain := []; ex_wads := [] |} end.
Arguments tr v%string_scope e.
Local Definition f0 : fs :=
  [([t "w"], NDir); ([t "s"], NDir); ([t "a"; t "s"], NFile (bl "A")); ([t "b1"; t "s"], NFile (bl "B1")); ([t "b2"; t "s"], NFile (bl "B2")); ([t "new.wad"; t "s"], NFile (bl "EEnew")); ([t "old.wad"; t "s"], NFile (bl "EEold"));
   ([t "e"], NDir); ([t "14.1"; t "e"], NDir); ([t "a.txt"; t "14.1"; t "e"], NFile (bl "A")); ([t "b.txt"; t "14.1"; t "e"], NFile (bl "B1"));
   ([t "plugins"; t "14.1"; t "e"], NDir); ([t "q"; t "plugins"; t "14.1"; t "e"], NDir); ([t "e.js"; t "q"; t "plugins"; t "14.1"; t "e"], NFile (bl "EE"));
   ([t "14.2"; t "e"], NDir); ([t "b.txt"; t "14.2"; t "e"], NFile (bl "B0")); ([t "old"; t "14.2"; t "e"], NDir); ([t "x.txt"; t "old"; t "14.2"; t "e"], NFile (bl "X"))].
Local Definition same (l : list str) := l.
Local Definition ascii (s : str) : result bytes := Ok (map (fun c => match Byte.of_N c with Some b => b | None => x00 end) s).
Local Definition none : bytes -> result bytes := fun _ => Err ValueError.
Local Definition out := t "/e/14.2".
Local Definition run0 := run (process cd0 [t "w"] same same none none (fun _ => 0) ascii raw_converters out true true (ver "14.2") new0 (Some (ver "14.1", old0))) [] f0.
Local Definition g0 : fs := snd run0.
Example C55_ex : fst run0 = (Done tt, [])
  /\ look g0 [t "b.txt"; t "14.2"; t "e"] = Some (NFile (bl "B2")) /\ look g0 [t "a.txt"; t "14.2"; t "e"] = Some (NLink (t "../14.1/a.txt"))
  /\ look g0 [t "q"; t "plugins"; t "14.2"; t "e"] = Some (NLink (t "../../14.1/plugins/q"))
  /\ look g0 [t "0000000000000006.json"; t "unknown"; t "rcp-fe"; t "plugins"; t "14.2"; t "e"] = Some (NFile (bl "new"))
  /\ look g0 [t "old"; t "14.2"; t "e"] = None
  /\ look g0 [t "files.unknown.txt"; t "cdragon"; t "14.2"; t "e"] = Some (NFile (bl "0000000000000006
"))
  /\ look g0 [t "files.links.txt"; t "cdragon"; t "14.2"; t "e"] = Some (NFile (bl "a.txt
plugins/q
"))
  /\ look g0 [t "files.exported.txt"; t "cdragon"; t "14.2"; t "e"] = Some (NFile (bl "a.txt
b.txt
plugins/q/e.js
plugins/rcp-fe/unknown/0000000000000006.json
")).
Proof. vm_compute. repeat split. Qed.
Local Definition e1 := tr "14.2" new0.
Local Definition p1 := tr "14.1" old0.
Local Lemma e1_eq : transform raw_converters (ver "14.2") new0 = Ok e1.
Proof. vm_compute. reflexivity. Qed.
Local Lemma p1_eq : transform raw_converters (ver "14.1") old0 = Ok p1.
Proof. vm_compute. reflexivity. Qed.
Local Lemma same_ex : same_entries new0 old0.
Proof.
  intros k w o [Hw|[]] [Ho|[]]. injection Hw as <- <-. apply (f_equal snd) in Ho. cbn [snd] in Ho. subst o. split; [vm_compute; discriminate|]. cbn [ew_files In].
  intros x y [<-|[<-|[]]] [<-|[<-|[]]] E1 E2; try (vm_compute in E1; discriminate E1); try (vm_compute in E2; discriminate E2); split; reflexivity.
Qed.
Local Lemma selected_ex : dicts e1 /\ dicts p1 /\ named e1 /\ named p1 /\ summed e1 /\ unique_hashes p1 /\ same_paths e1 p1.
Proof.
  apply (ExporterProps.C26_selected raw_converters (ver "14.2") (ver "14.1") new0 old0 e1 p1); [apply ExporterProps.dicts_check_ok; vm_compute; reflexivity | apply ExporterProps.dicts_check_ok; vm_compute; reflexivity
    | apply ExporterProps.summed_check_ok; vm_compute; reflexivity | apply ExporterProps.unique_check_ok; vm_compute; reflexivity | exact same_ex | vm_compute; reflexivity | exact e1_eq | exact p1_eq].
Qed.
Example C55_plannable_ex : plannable raw_converters true e1 (Some p1).
Proof.
  destruct selected_ex as (H1 & H2 & H3 & H4 & H5 & H6 & H7). split; [exact H1|]. split; [exact H3|]. split; [exact H2|]. split; [exact H4|]. intros _. split; [exact H5|]. split; [exact H6|]. split; [exact H7|].
  eapply ExporterProps.nesting_check; [exact H4 | vm_compute; reflexivity | vm_compute; reflexivity].
Qed.
Local Definition regular_b (x : str) : bool := forallb valid_name_b (parts x) && negb (eqb (hd [] (parts x)) (lit "cdragon")).
Local Lemma regular_b_ok x : regular_b x = true -> regular x.
Proof.
  intros H. apply andb_true_iff in H as [H1 H2]. split; [apply Forall_forall; intros c Hc; apply valid_name_b_ok; revert c Hc; apply forallb_forall; exact H1|]. intros E. rewrite E in H2. discriminate.
Qed.
Local Lemma list_check cs e l (P : str -> bool) : named e -> all_converted cs e = Ok l -> forallb P l = true -> forall x, produces cs e x -> P x = true.
Proof. intros HN E H x Hx. destruct (all_converted_ok cs e HN) as (l' & E' & HL). rewrite E in E'. injection E' as <-. apply (proj1 (forallb_forall _ _) H), HL, Hx. Qed.
Local Lemma skn_check cs e : forallb (fun p => match get_converter cs p with SknConv => false | _ => true end) (export_list e) = true -> forall p, ConvertSpec.exports e p -> chosen cs p SknConv -> False.
Proof.
  intros H p Hp Hc. apply chosen_unique in Hc. apply export_list_iff in Hp. apply (proj1 (forallb_forall _ _) H) in Hp. rewrite <- Hc in Hp. discriminate.
Qed.
Example C55_ready_ex : process_ready [t "w"] out raw_converters (produces raw_converters e1) (selected e1 (Some p1)) f0.
Proof.
  destruct selected_ex as (H1 & H2 & H3 & H4 & H5 & H6 & H7). split.
  { split; [discriminate|]. split; [vm_compute; intuition discriminate|]. split; [apply no_links_ok; reflexivity|]. split; [apply wf_check_ok; reflexivity|]. split; [apply names_check_ok; reflexivity | discriminate]. }
  split; [reflexivity|]. split; [intros B; apply below_b_ok in B; discriminate|]. split; [exists [t "a.txt"; t "14.1"; t "e"]; split; [eexists; reflexivity|]; split; [exists (t "a.txt"), [t "14.1"]; reflexivity | intros B; apply below_b_ok in B; discriminate]|].
  split; [intros x Hx; apply regular_b_ok; revert x Hx; eapply list_check; [exact H3 | vm_compute; reflexivity | vm_compute; reflexivity]|].
  split; [eapply ExporterProps.nesting_check; [exact H3 | vm_compute; reflexivity | vm_compute; reflexivity]|].
  split; [intros p Hp Hc; exfalso; revert p Hp Hc; apply skn_check; vm_compute; reflexivity|]. intros s _. apply no_links_ok. reflexivity.
Qed.
(** A file given by a link to its directory. *)
Local Definition f00 : fs := firstn 14 f0.
Local Definition node_b (a b : option node) : bool := match a, b with Some NDir, Some NDir => true | Some (NFile x), Some (NFile y) => eqb x y | Some (NLink x), Some (NLink y) => eqb x y | None, None => true | _, _ => false end.
Local Lemma node_b_ok a b : node_b a b = true -> a = b.
Proof.
  destruct a as [[x| |x]|], b as [[y| |y]|]; cbn [node_b]; try discriminate; try reflexivity; intros H.
  - destruct (eqbP x y) as [E|E] in H; [rewrite E; reflexivity | discriminate H].
  - destruct (eqbP x y) as [E|E] in H; [rewrite E; reflexivity | discriminate H].
Qed.
Local Lemma part_check (d : path) (f f' : fs) : wf_check f' = true -> forallb (fun e => node_b (look f (fst e)) (look f' (fst e)) && negb (below_b (fst e) d)) (([], NDir) :: f') = true -> part_outside d f f'.
Proof.
  intros Hw H. split; [apply wf_check_ok, Hw|]. intros q Hq. assert (Hi : exists n, In (q, n) (([], NDir) :: f')).
  { destruct q as [|x q]; [exists NDir; left; reflexivity|]. destruct (look f' (x :: q)) as [n|] eqn:E; [|congruence]. exists n. right. apply dget_some_In. exact E. }
  destruct Hi as [n Hi]. apply (proj1 (forallb_forall _ _) H) in Hi. cbn [fst] in Hi. apply andb_true_iff in Hi as [E1 E2]. split; [symmetry; apply node_b_ok; exact E1|].
  intros B. apply below_b_ok in B. rewrite B in E2. discriminate.
Qed.
Example C55_linked_ex : let x := t "plugins/q/e.js" in produces raw_converters e1 x /\ ~ kept_paths raw_converters true e1 (Some p1) x /\ (forall l, ~ is_link f0 (at_out [t "w"] out l))
  /\ part_outside (target [t "w"] out) f0 f00 /\ reaches 39 [t "w"] f00 (path_join (path_join (dirname out) (v_s (ver "14.1"))) x) [t "e.js"; t "q"; t "plugins"; t "14.1"; t "e"].
Proof.
  destruct selected_ex as (H1 & H2 & H3 & H4 & H5 & H6 & H7). split.
  { exists (t "plugins/q/e.js"). split; [|vm_compute; left; reflexivity]. apply export_list_iff. vm_compute. right. right. left. reflexivity. }
  split; [|split].
  - intros Hk. pose proof (list_check raw_converters (filter_exporter e1 p1) _ (fun y => negb (eqb y (t "plugins/q/e.js"))) (filter_named e1 p1 H1 H2 H3) eq_refl) as G. apply (G eq_refl) in Hk. discriminate.
  - intros l [y Hy]. exact (no_links_ok f0 _ eq_refl _ y (below_refl _) Hy).
  - split; [apply part_check; vm_compute; reflexivity|]. split; [discriminate|]. split; [vm_compute; reflexivity | discriminate].
Qed.

(** A list of links from a previous export stays when there are no links any more. *)
Local Definition f01 : fs := f0 ++ [([t "cdragon"; t "14.2"; t "e"], NDir); ([t "files.links.txt"; t "cdragon"; t "14.2"; t "e"], NFile (bl "a.txt
"))].
Theorem C55_stale_list_refuted : exists cd cwd order set_order gunzip unzstd xxh3 enc cs output v e0 e f f' b,
  (forall l, Permutation (order l) l) /\ (forall l, Permutation (set_order l) l) /\ transform cs v e0 = Ok e /\ plannable cs false e None /\ process_ready cwd output cs (produces cs e) e f
  /\ run (process cd cwd order set_order gunzip unzstd xxh3 enc cs output true false v e0 None) [] f = (Done tt, [], f')
  /\ look f' (at_out cwd output (lit "cdragon/files.links.txt")) = Some (NFile b) /\ b <> [] /\ (forall q, ~ is_link f' q).
Proof.
  destruct selected_ex as (H1 & H2 & H3 & H4 & H5 & H6 & H7).
  exists cd0, [t "w"], same, same, none, none, (fun _ => 0), ascii, raw_converters, out, (ver "14.2"), new0, e1, f01,
    (snd (run (process cd0 [t "w"] same same none none (fun _ => 0) ascii raw_converters out true false (ver "14.2") new0 None) [] f01)), (bl "a.txt
").
  split; [intros l; apply Permutation_refl|]. split; [intros l; apply Permutation_refl|]. split; [exact e1_eq|]. split; [exact (conj H1 (conj H3 I))|]. split.
  { split.
    { split; [discriminate|]. split; [vm_compute; intuition discriminate|]. split; [apply no_links_ok; reflexivity|]. split; [apply wf_check_ok; reflexivity|]. split; [apply names_check_ok; reflexivity | discriminate]. }
    split; [reflexivity|]. split; [intros B; apply below_b_ok in B; discriminate|]. split; [exists [t "a.txt"; t "14.1"; t "e"]; split; [eexists; reflexivity|]; split; [exists (t "a.txt"), [t "14.1"]; reflexivity | intros B; apply below_b_ok in B; discriminate]|].
    split; [intros x Hx; apply regular_b_ok; revert x Hx; eapply list_check; [exact H3 | vm_compute; reflexivity | vm_compute; reflexivity]|].
    split; [eapply ExporterProps.nesting_check; [exact H3 | vm_compute; reflexivity | vm_compute; reflexivity]|].
    split; [intros p Hp Hc; exfalso; revert p Hp Hc; apply skn_check; vm_compute; reflexivity|]. intros s _. apply no_links_ok. reflexivity. }
  split; [vm_compute; reflexivity|]. split; [vm_compute; reflexivity|]. split; [discriminate|]. intros q [y Hy].
  refine (no_links_ok _ q _ q y (below_refl _) Hy). vm_compute. reflexivity.
Qed.
Print Assumptions C55_stale_list_refuted.
