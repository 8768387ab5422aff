(** * C24: Filtering against another exporter removes exactly the identical files
    * C26: Export plans: every new path is either extracted or linked, never both *)

From Verif Require Import Base.Py Base.Text Base.PyFacts Base.TextFacts Model.Version Model.Wad Model.ExportTree Model.Exporter Spec.ExportTreeSpec Spec.ExporterSpec Proofs.ExportTreeProofs Proofs.ExporterProofs Props.ExportTreeProps.

(** ** C24 *)

(** A plain file is kept iff the other exporter has not the same source for the same path. *)
Theorem C24_plain self other k s : dicts self -> dicts other ->
  In (k, s) (ex_plain (filter_exporter self other)) <-> In (k, s) (ex_plain self) /\ ~ In (k, s) (ex_plain other).
Proof. exact (filter_plain_In self other k s). Qed.
Print Assumptions C24_plain.

(** Archives keep, in order, exactly the entries the other exporter does not provide. *)
Theorem C24_entries self other k w' : dicts self -> dicts other -> summed self -> unique_hashes other -> In (k, w') (ex_wads (filter_exporter self other)) ->
  exists w keep, In (k, w) (ex_wads self) /\ ew_src w' = ew_src w /\ ew_toc w' = ew_toc w /\ ew_files w' = filter keep (ew_files w) /\
    forall f, In f (ew_files w) -> keep f = true <-> forall o, In (k, o) (ex_wads other) -> ~ provides (ew_src w) f o.
Proof. exact (filter_entries self other k w'). Qed.
Print Assumptions C24_entries.
(** Archives with such entries are not removed. *)
Theorem C24_left self other k w f : dicts self -> dicts other -> summed self -> unique_hashes other -> In (k, w) (ex_wads self) -> In f (ew_files w) ->
  (forall o, In (k, o) (ex_wads other) -> ~ provides (ew_src w) f o) -> exists w', In (k, w') (ex_wads (filter_exporter self other)) /\ In f (ew_files w').
Proof. exact (filter_entries_left self other k w f). Qed.
Print Assumptions C24_left.
(** Archives left empty disappear; names stay unique. *)
Theorem C24_emptied self other k w' : dicts self -> dicts other -> In (k, w') (ex_wads (filter_exporter self other)) -> ew_files w' = [] ->
  In (k, w') (ex_wads self) /\ ~ In k (dkeys (ex_wads other)).
Proof. exact (filter_emptied self other k w'). Qed.
Print Assumptions C24_emptied.
Theorem C24_dicts self other : dicts self -> dicts other -> dicts (filter_exporter self other).
Proof. exact (filter_exporter_dicts self other). Qed.
Print Assumptions C24_dicts.

(** Filtering by a predicate. *)
Theorem C24_predicate pred e : dicts e ->
  (forall k s, In (k, s) (ex_plain (filter_export_paths pred e)) <-> In (k, s) (ex_plain e) /\ pred (Some k) = true) /\
  forall k w', In (k, w') (ex_wads (filter_export_paths pred e)) <->
    ew_files w' <> [] /\ exists w, In (k, w) (ex_wads e) /\ w' = with_files w (filter (fun f => pred (w_path f)) (ew_files w)).
Proof.
  intros [HN _]. split; [intros k s; rewrite filter_export_plain, filter_In; reflexivity|]. intros k w'. rewrite filter_export_wads by exact HN. rewrite filter_In, in_map_iff. cbn [snd]. split.
  - intros [([k0 w] & E & Hi) Hne]. cbn [fst snd] in E. injection E as <- <-. split; [destruct (ew_files _); [discriminate | discriminate]|]. exists w. auto.
  - intros (Hne & w & Hi & ->). split; [exists (k, w); auto|]. destruct (ew_files _); [congruence | reflexivity].
Qed.
Print Assumptions C24_predicate.

Local Definition F (h : N) (p : String.string) (sha : option N) : wfile :=
  {| w_hash := h; w_off := 0; w_csize := 0; w_size := 0; w_type := 0; w_count := 0; w_dup := false; w_first := None; w_sha := sha; w_path := Some (lit p); w_ext := None |}.
Arguments F h p%string_scope sha.
Local Definition U (h : N) (e : String.string) (sha : option N) : wfile :=
  {| w_hash := h; w_off := 0; w_csize := 0; w_size := 0; w_type := 0; w_count := 0; w_dup := false; w_first := None; w_sha := sha; w_path := None; w_ext := Some (lit e) |}.
Arguments U h e%string_scope sha.
Local Definition W (src : String.string) (l : list wfile) : ewad := {| ew_src := lit src; ew_files := l; ew_toc := None |}.
Arguments W src%string_scope l.
Local Definition dicts_check (e : exporter) : bool := eqb (set_of (dkeys (ex_wads e))) (dkeys (ex_wads e)) && eqb (set_of (dkeys (ex_plain e))) (dkeys (ex_plain e)).
Local Lemma dicts_check_ok e : dicts_check e = true -> dicts e.
Proof. intros H. apply andb_true_iff in H as [H1 H2]. apply eqb_true in H1, H2. split; [rewrite <- H1 | rewrite <- H2]; apply set_of_NoDup. Qed.
Local Definition summed_check (e : exporter) : bool := forallb (fun kw => forallb (fun f => match w_sha f with Some _ => true | None => false end) (ew_files (snd kw))) (ex_wads e).
Local Lemma summed_check_ok e : summed_check e = true -> summed e.
Proof.
  intros H k w f Hi Hf E. unfold summed_check in H. rewrite forallb_forall in H. specialize (H _ Hi). cbn [snd] in H. rewrite forallb_forall in H. specialize (H _ Hf). rewrite E in H. discriminate.
Qed.
Local Definition unique_check (e : exporter) : bool := forallb (fun kw => eqb (set_of (map w_hash (ew_files (snd kw)))) (map w_hash (ew_files (snd kw)))) (ex_wads e).
Local Lemma unique_check_ok e : unique_check e = true -> unique_hashes e.
Proof. intros H k w Hi. unfold unique_check in H. rewrite forallb_forall in H. specialize (H _ Hi). cbn [snd] in H. apply eqb_true in H. rewrite <- H. apply set_of_NoDup. Qed.

Local Definition new0 := {|
  ex_plain := [(lit "a.txt", lit "src/1"); (lit "b.txt", lit "src/2")];
  ex_wads := [(lit "DATA/X.wad.client", W "new/X" [F 1 "data/a.bin" (Some 10); F 2 "assets/b.dds" (Some 21); F 3 "assets/c.png" (Some 30)]);
              (lit "plugins/rcp-be/default-assets.wad", W "same/p" [F 4 "plugins/p/e.js" (Some 40)]);
              (lit "plugins/rcp-fe/assets2.wad", W "new/q" [F 5 "plugins/q/e.js" (Some 50); U 6 "json" (Some 61)])] |}.
Local Definition old0 := {|
  ex_plain := [(lit "b.txt", lit "src/2"); (lit "a.txt", lit "src/0")];
  ex_wads := [(lit "DATA/X.wad.client", W "old/X" [F 3 "assets/c.png" (Some 30); F 2 "assets/b.dds" (Some 20); F 1 "data/a.bin" (Some 10); F 7 "assets/d.png" (Some 70)]);
              (lit "plugins/rcp-be/default-assets.wad", W "same/p" [F 4 "plugins/p/e.js" (Some 40)]);
              (lit "plugins/rcp-fe/assets2.wad", W "old/q" [F 5 "plugins/q/e.js" (Some 50); U 6 "json" (Some 60)])] |}.
Example C24_hyps : dicts new0 /\ dicts old0 /\ summed new0 /\ unique_hashes old0.
Proof. split; [apply dicts_check_ok; vm_compute; reflexivity|]. split; [apply dicts_check_ok; vm_compute; reflexivity|]. split; [apply summed_check_ok | apply unique_check_ok]; vm_compute; reflexivity. Qed.
Example C24_ex : filter_exporter new0 old0 = {|
  ex_plain := [(lit "a.txt", lit "src/1")];
  ex_wads := [(lit "DATA/X.wad.client", W "new/X" [F 2 "assets/b.dds" (Some 21)]); (lit "plugins/rcp-fe/assets2.wad", W "new/q" [U 6 "json" (Some 61)])] |}.
Proof. vm_compute. reflexivity. Qed.

(** Without checksums (WAD version 1), entries the other archive does not have are lost. *)
Theorem C24_v1_refuted : exists self other k w f, dicts self /\ dicts other /\ unique_hashes other /\ In (k, w) (ex_wads self) /\ In f (ew_files w) /\
  (forall o, In (k, o) (ex_wads other) -> ~ provides (ew_src w) f o) /\ ex_wads (filter_exporter self other) = [].
Proof.
  exists {| ex_plain := []; ex_wads := [(lit "x.wad", W "new" [F 1 "a" None])] |}, {| ex_plain := []; ex_wads := [(lit "x.wad", W "old" [F 2 "b" None])] |}, (lit "x.wad"), (W "new" [F 1 "a" None]), (F 1 "a" None).
  split; [apply dicts_check_ok; vm_compute; reflexivity|]. split; [apply dicts_check_ok; vm_compute; reflexivity|]. split; [apply unique_check_ok; vm_compute; reflexivity|].
  split; [left; reflexivity|]. split; [left; reflexivity|]. split; [|vm_compute; reflexivity].
  intros o [E|[]]. injection E as <-. intros [E|(g & [<-|[]] & E & _)]; [vm_compute in E | vm_compute in E]; discriminate.
Qed.
Print Assumptions C24_v1_refuted.
(** With a repeated hash in the other archive, an entry it has is kept. *)
Theorem C24_repeated_refuted : exists self other k w f o, dicts self /\ dicts other /\ summed self /\ In (k, o) (ex_wads other) /\ In f (ew_files o) /\
  In (k, w) (ex_wads (filter_exporter self other)) /\ In f (ew_files w).
Proof.
  exists {| ex_plain := []; ex_wads := [(lit "x.wad", W "new" [F 1 "a" (Some 5)])] |}, {| ex_plain := []; ex_wads := [(lit "x.wad", W "old" [F 1 "a" (Some 5); F 1 "a" (Some 6)])] |},
    (lit "x.wad"), (W "new" [F 1 "a" (Some 5)]), (F 1 "a" (Some 5)), (W "old" [F 1 "a" (Some 5); F 1 "a" (Some 6)]).
  split; [apply dicts_check_ok; vm_compute; reflexivity|]. split; [apply dicts_check_ok; vm_compute; reflexivity|]. split; [apply summed_check_ok; vm_compute; reflexivity|].
  split; [left; reflexivity|]. split; [left; reflexivity|]. split; [vm_compute; left; reflexivity | left; reflexivity].
Qed.
Print Assumptions C24_repeated_refuted.

(** ** C26 *)

(** Each produced path is extracted or inside exactly one link; links and extracted paths do not meet;
    what a link brings from the previous patch is produced by the new one, unchanged. *)
Theorem C26_plan cs e prev : dicts e -> dicts prev -> named e -> named prev -> summed e -> unique_hashes prev -> same_paths e prev ->
  no_nesting (produces cs e) -> no_nesting (produces cs prev) ->
  exists pl, plan_links cs e prev = Ok pl /\ pl_exporter pl = filter_exporter e prev /\
    (forall x, In x (pl_new pl) <-> produces cs e x) /\
    (forall x, In x (pl_changed pl) <-> x = lit "cdragon" \/ produces cs (pl_exporter pl) x) /\
    (forall x, produces cs e x -> produces cs (pl_exporter pl) x \/
       exists r, In r (pl_links pl) /\ inside x r /\ forall r', In r' (pl_links pl) -> inside x r' -> r' = r) /\
    (forall x r, produces cs (pl_exporter pl) x -> In r (pl_links pl) -> ~ inside x r /\ ~ inside r x) /\
    (forall r b, In r (pl_links pl) -> produces cs prev b -> inside b r -> produces cs e b /\ ~ produces cs (pl_exporter pl) b) /\
    (forall r b, In r (pl_links pl) -> produces cs e b -> inside b r -> produces cs prev b) /\
    (forall r, In r (pl_links pl) -> exists b, produces cs e b /\ inside b r) /\
    NoDup (pl_links pl) /\ (forall r1 r2, In r1 (pl_links pl) -> In r2 (pl_links pl) -> inside r1 r2 -> r1 = r2).
Proof.
  intros H1 H2 H3 H4 H5 H6 H7 H8 H9. destruct (plan_links_ok cs e prev H1 H2 H3 H4 H5 H6 H7 H8 H9) as (pl & E & Ex & H). exists pl. split; [exact E|]. split; [exact Ex|]. rewrite Ex. exact H.
Qed.
Print Assumptions C26_plan.

(** The hypotheses on paths hold for selected files when the archives give equal names and
    extensions to equal entries, and both patches use the same layout. *)
Theorem C26_selected cs v v' e prev e' prev' : dicts e -> dicts prev -> summed e -> unique_hashes prev -> same_entries e prev -> by_lang v = by_lang v' ->
  transform cs v e = Ok e' -> transform cs v' prev = Ok prev' ->
  dicts e' /\ dicts prev' /\ named e' /\ named prev' /\ summed e' /\ unique_hashes prev' /\ same_paths e' prev'.
Proof.
  intros D D' S U SE HV E E'. split; [exact (transform_dicts cs v e e' D E)|]. split; [exact (transform_dicts cs v' prev prev' D' E')|].
  split; [exact (transform_named cs v e e' D E)|]. split; [exact (transform_named cs v' prev prev' D' E')|]. split; [exact (transform_summed cs v e e' D S E)|].
  split; [exact (transform_unique cs v' prev prev' D' U E')|]. exact (transform_same cs v v' e prev e' prev' D D' HV SE E E').
Qed.
Print Assumptions C26_selected.

(** Without links, all produced paths are kept. *)
Theorem C26_plain cs e prev : named e -> match prev with Some p => named p | None => True end ->
  exists pl, plan_plain cs e prev = Ok pl /\ pl_links pl = [] /\ pl_exporter pl = match prev with Some p => filter_exporter e p | None => e end /\
    forall x, In x (pl_changed pl) <-> x = lit "cdragon" \/ produces cs e x.
Proof.
  intros H1 H2. destruct (all_converted_ok cs e H1) as (l & E & HL). unfold plan_plain. rewrite E. cbn [rbind].
  destruct prev as [p|]; [destruct (all_converted_ok cs p H2) as (l' & E' & _); rewrite E'|]; cbn [rbind]; eexists; (split; [reflexivity|]); cbn [pl_links pl_exporter pl_changed]; (split; [reflexivity|]); (split; [reflexivity|]); intros x; rewrite set_add_In, set_of_In, HL; reflexivity.
Qed.
Print Assumptions C26_plain.

Local Definition ver (s : String.string) : version := match patch_version (ArgStr (lit s)) with Ok v => v | Err _ => {| v_s := []; v_t := VMain |} end.
Arguments ver s%string_scope.
Local Definition tr (v : String.string) (e : exporter) : exporter := match transform raw_converters (ver v) e with Ok r => r | Err _ => {| ex_plain := []; ex_wads := [] |} end.
Arguments tr v%string_scope e.
Example C26_new : tr "14.5" new0 = {|
  ex_plain := [(lit "a.txt", lit "src/1"); (lit "b.txt", lit "src/2")];
  ex_wads := [(lit "DATA/X.wad.client", W "new/X" [F 1 "game/data/a.bin" (Some 10); F 2 "game/assets/b.dds" (Some 21); F 3 "game/assets/c.png" (Some 30)]);
              (lit "plugins/rcp-be/default-assets.wad", W "same/p" [F 4 "plugins/p/e.js" (Some 40)]);
              (lit "plugins/rcp-fe/assets2.wad", W "new/q" [F 5 "plugins/q/e.js" (Some 50); set_path (U 6 "json" (Some 61)) (Some (lit "plugins/rcp-fe/unknown/0000000000000006.json"))])] |}.
Proof. vm_compute. reflexivity. Qed.
Example C26_ex : match plan_links raw_converters (tr "14.5" new0) (tr "14.4" old0) with
  | Ok pl => pl_changed pl = [lit "a.txt"; lit "game/assets/b.png"; lit "plugins/rcp-fe/unknown/0000000000000006.json"; lit "cdragon"] /\
             pl_links pl = [lit "b.txt"; lit "game/data"; lit "game/assets/c.png"; lit "plugins/p"; lit "plugins/q"]
  | Err _ => False end.
Proof. vm_compute. split; reflexivity. Qed.
Local Lemma same_entries_ex : same_entries new0 old0.
Proof.
  intros k w o Hw Ho. cbn [new0 old0 ex_wads In] in Hw, Ho.
  destruct Hw as [Hw|[Hw|[Hw|[]]]]; injection Hw as <- <-; destruct Ho as [Ho|[Ho|[Ho|[]]]]; try (exfalso; apply (f_equal fst) in Ho; revert Ho; vm_compute; discriminate);
    apply (f_equal snd) in Ho; cbn [snd] in Ho; subst o; (split; [vm_compute; try discriminate; reflexivity|]); intros f g Hf Hg; cbn [W ew_files In] in Hf, Hg;
    repeat (destruct Hf as [<-|Hf]; [|]); try destruct Hf; repeat (destruct Hg as [<-|Hg]; [|]); try destruct Hg; cbn [w_hash w_sha w_path w_ext F U]; intros; try discriminate; split; reflexivity.
Qed.
Example C26_hyps : same_entries new0 old0 /\ by_lang (ver "14.5") = by_lang (ver "14.4").
Proof. split; [exact same_entries_ex | vm_compute; reflexivity]. Qed.

Local Lemma nesting_check cs e l : named e -> all_converted cs e = Ok l -> ExportTreeProps.only_check l = true -> no_nesting (produces cs e).
Proof.
  intros HN E HC p q Hp Hq. destruct (all_converted_ok cs e HN) as (l' & E' & HL). rewrite E in E'. injection E' as <-. apply (ExportTreeProps.only_check_ok l HC); apply HL; assumption.
Qed.
Example C26_paths : no_nesting (produces raw_converters (tr "14.5" new0)) /\ no_nesting (produces raw_converters (tr "14.4" old0)).
Proof.
  split.
  - eapply nesting_check; [eapply (transform_named raw_converters (ver "14.5") new0); [apply dicts_check_ok; vm_compute; reflexivity | vm_compute; reflexivity] | vm_compute; reflexivity | vm_compute; reflexivity].
  - eapply nesting_check; [eapply (transform_named raw_converters (ver "14.4") old0); [apply dicts_check_ok; vm_compute; reflexivity | vm_compute; reflexivity] | vm_compute; reflexivity | vm_compute; reflexivity].
Qed.

(** From 14.4 on, language archives are exported to another directory: with the last patch of the
    old layout as previous patch, the plan fails. *)
Theorem C26_layout_refuted : exists e prev e' prev', dicts e /\ dicts prev /\ summed e /\ unique_hashes prev /\ same_entries e prev /\
  transform raw_converters (ver "14.4") e = Ok e' /\ transform raw_converters (ver "14.3") prev = Ok prev' /\ plan_links raw_converters e' prev' = Err KeyError.
Proof.
  set (k := lit "DATA/FINAL/X.fr_FR.wad.client").
  exists {| ex_plain := []; ex_wads := [(k, W "new" [F 1 "a.png" (Some 1)])] |}, {| ex_plain := []; ex_wads := [(k, W "old" [F 1 "a.png" (Some 1)])] |}.
  eexists. eexists. split; [apply dicts_check_ok; vm_compute; reflexivity|]. split; [apply dicts_check_ok; vm_compute; reflexivity|].
  split; [apply summed_check_ok; vm_compute; reflexivity|]. split; [apply unique_check_ok; vm_compute; reflexivity|]. split.
  - intros k' w o [Hw|[]] [Ho|[]]. injection Hw as <- <-. apply (f_equal snd) in Ho. cbn [snd] in Ho. subst o. split; [vm_compute; discriminate|]. intros f g [<-|[]] [<-|[]] _ _. split; reflexivity.
  - split; [vm_compute; reflexivity|]. split; [vm_compute; reflexivity|]. vm_compute. reflexivity.
Qed.
Print Assumptions C26_layout_refuted.
(** An entry without checksum that is not in the previous archive: the plan fails. *)
Theorem C26_v1_refuted : exists e prev, dicts e /\ dicts prev /\ named e /\ named prev /\ unique_hashes prev /\ same_paths e prev /\
  plan_links raw_converters e prev = Err KeyError.
Proof.
  exists {| ex_plain := []; ex_wads := [(lit "x.wad", W "new" [F 1 "a" None])] |}, {| ex_plain := []; ex_wads := [(lit "x.wad", W "old" [F 2 "b" None])] |}.
  split; [apply dicts_check_ok; vm_compute; reflexivity|]. split; [apply dicts_check_ok; vm_compute; reflexivity|].
  split; [intros k w f [E|[]] Hf; injection E as <- <-; destruct Hf as [<-|[]]; discriminate|]. split; [intros k w f [E|[]] Hf; injection E as <- <-; destruct Hf as [<-|[]]; discriminate|].
  split; [apply unique_check_ok; vm_compute; reflexivity|]. split; [|vm_compute; reflexivity].
  intros k' w o [Hw|[]] [Ho|[]]. injection Hw as <- <-. apply (f_equal snd) in Ho. cbn [snd] in Ho. subst o. split; [vm_compute; discriminate|]. intros f g [<-|[]] [<-|[]] E _. discriminate.
Qed.
Print Assumptions C26_v1_refuted.
(** A mesh and a file in the directory of its objects: the plan fails. *)
Theorem C26_nesting_refuted : exists e prev, dicts e /\ dicts prev /\ named e /\ named prev /\ summed e /\ unique_hashes prev /\ same_paths e prev /\
  plan_links raw_converters e prev = Err TypeError.
Proof.
  exists {| ex_plain := []; ex_wads := [(lit "x.wad", W "new" [F 1 "game/a.skn" (Some 1); F 2 "game/a/b.png" (Some 2)])] |},
    {| ex_plain := []; ex_wads := [(lit "x.wad", W "old" [F 1 "game/a.skn" (Some 1); F 2 "game/a/b.png" (Some 2)])] |}.
  split; [apply dicts_check_ok; vm_compute; reflexivity|]. split; [apply dicts_check_ok; vm_compute; reflexivity|].
  split; [intros k w f [E|[]] Hf; injection E as <- <-; destruct Hf as [<-|[<-|[]]]; discriminate|]. split; [intros k w f [E|[]] Hf; injection E as <- <-; destruct Hf as [<-|[<-|[]]]; discriminate|].
  split; [apply summed_check_ok; vm_compute; reflexivity|]. split; [apply unique_check_ok; vm_compute; reflexivity|]. split; [|vm_compute; reflexivity].
  intros k' w o [Hw|[]] [Ho|[]]. injection Hw as <- <-. apply (f_equal snd) in Ho. cbn [snd] in Ho. subst o. split; [vm_compute; discriminate|].
  intros f g [<-|[<-|[]]] [<-|[<-|[]]] E _; try discriminate; reflexivity.
Qed.
Print Assumptions C26_nesting_refuted.
(** Without links, the list of exported files has a path that is not produced. *)
Theorem C26_listing_refuted : exists e pl x, named e /\ plan_plain raw_converters e None = Ok pl /\ In x (pl_new pl) /\ ~ produces raw_converters e x.
Proof.
  exists {| ex_plain := [(lit "a.txt", lit "src")]; ex_wads := [] |}. eexists. exists (lit "cdragon"). split; [intros k w f []|]. split; [vm_compute; reflexivity|].
  split; [right; left; reflexivity|]. intros (p & [[s [E|[]]]|(k & w & f & [] & _)] & H). injection E as <- <-. vm_compute in H. destruct H as [H|[]]. discriminate.
Qed.
Print Assumptions C26_listing_refuted.
