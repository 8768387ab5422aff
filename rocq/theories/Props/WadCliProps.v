(** * C71: extraction and listing of archives by the command line *)

From Coq Require Import Permutation Sorted.
From Verif Require Import Base.TextFacts Base.Utf8 Base.Fs Spec.FsSpec Base.FsFacts Model.Files Model.Wad Model.WadExtract Model.Hashes Model.FetchHashes Model.Stringtables
  Model.Cli Model.WadCli Spec.PatchCacheSpec Spec.WadExtractSpec Spec.WadCliSpec Proofs.FilesProofs Proofs.PatchCacheProofs Proofs.WadExtractProofs Proofs.WildProofs Proofs.WadCliProofs
  Props.WadExtractProps Proofs.FetchHashesProofs Spec.GuessPathsSpec Proofs.GuessPathsProofs.

(** Patterns mean what is documented. *)
Theorem C71_pattern name pattern : fnmatch name pattern = true <-> wild pattern name.
Proof. apply fnmatch_iff. Qed.
Print Assumptions C71_pattern.
(** Exactly the wanted entries are chosen, in the order of the archive. *)
Theorem C71_chosen u patterns files : kept (wanted u patterns) files (selected u patterns files).
Proof. apply selected_kept. Qed.
Print Assumptions C71_chosen.
(** A pattern excludes the entries of unknown path, so that nothing is left of the unknown entries only. *)
Theorem C71_pattern_unknown p ps files : selected UOnly (p :: ps) files = [].
Proof.
  assert (H : forall e, In e (selected UOnly (p :: ps) files) -> False).
  { intros e. rewrite selected_filter, filter_In, andb_true_iff, unknown_iff, pattern_iff. intros (_ & H1 & [H2|(s & q & H2 & _)]); [discriminate|]. rewrite H2 in H1. inversion H1. }
  destruct (selected UOnly (p :: ps) files) as [|e l]; [reflexivity | exfalso; apply (H e); left; reflexivity].
Qed.
Print Assumptions C71_pattern_unknown.

(** The directory in which an archive is extracted by default. *)
Theorem C71_output a s : ea_output a = None \/ ea_output a = Some [] -> default_output (ea_wad a) s -> output_dir a = s.
Proof.
  intros Ho H. assert (E : exists e, extension (ea_wad a) s e).
  { inversion H as [p E1 E2|d n c Hc Hd Hn Hs E1 E2].
    - exists (lit "client"). split; [rewrite <- app_assoc; reflexivity|]. split; [vm_compute; intuition discriminate|]. split; [vm_compute; intuition discriminate|].
      exists (p ++ lit ".wa"), 100, []. split; [rewrite <- app_assoc; reflexivity|]. split; [discriminate|]. split; [discriminate | intros []].
    - exists (lit "wad"). split; [rewrite <- app_assoc; reflexivity|]. split; [vm_compute; intuition discriminate|]. split; [vm_compute; intuition discriminate|].
      apply in_split in Hc as (n1 & n2 & ->). exists (d ++ n1), c, n2. split; [rewrite <- app_assoc; reflexivity|]. split; [exact Hd|]. rewrite in_app_iff in Hn. cbn [In] in Hn. split; intros Hi; apply Hn; auto. }
  destruct E as [e E]. apply splitext_iff in E. unfold output_dir. rewrite E. destruct Ho as [-> | ->]; reflexivity.
Qed.
Print Assumptions C71_output.

Section C71.
  Variable gunzip unzstd : bytes -> result bytes.
  Variable xxh3 : bytes -> N.
  Variable json_loads : bytes -> result unit.
  Variable cwd : path.
  Variable dir : ppath.
  Notation command a := (command_wad_extract gunzip unzstd xxh3 json_loads cwd dir a).
  Notation prepared := (prepared gunzip unzstd xxh3 json_loads cwd dir).
  Notation opened := (opened gunzip unzstd xxh3 cwd dir).
  Notation content data w e d := (read_data gunzip unzstd xxh3 data e (wad_toc w) = Ok (Some d)).
  Notation entries l := (set_unknown_paths (lit "unknown") (sanitize_paths l)).

  (** Without what is needed for the extraction, the command fails and nothing is written. *)
  Theorem C71_stops a pl f o pl' f' : run (command a) pl f = (o, pl', f') -> ~ (exists data w l, prepared a f data w l) -> f' = f /\ forall x, o <> Done x.
  Proof. intros E H. apply extract_run in E as [E|(data & w & l & pl1 & Hp & _)]; [exact E|]. exfalso. eauto. Qed.
  (** In particular when the output is a file, the program exits. *)
  Theorem C71_not_dir a f : f_isfile cwd (ea_wad a) f = true -> not_dir cwd f (output_dir a) -> run (command a) [] f = (Raised SysExit, [], f).
  Proof.
    intros Hf Hd. apply not_dir_iff in Hd as [H1 H2]. unfold command_wad_extract, isfile, query. cbn [bind run]. rewrite Hf. cbn [negb bind]. unfold exists_, query. cbn [bind run]. rewrite H1. unfold isdir, query. cbn [bind run]. rewrite H2. reflexivity.
  Qed.
  (** Whatever fails, only the wanted entries with data are written, in the output directory. *)
  Theorem C71_frame a pl f o pl' f' data w l :
    prepared a f data w l -> Forall (good cwd (output_dir a) f) (entries l) -> run (command a) pl f = (o, pl', f') ->
    only_files (fun t => exists e d, In e (entries l) /\ content data w e d /\ t = dest cwd (output_dir a) e) f f'.
  Proof.
    intros Hp Hg E. apply extract_run in E as [[-> _]|(data' & w' & l' & pl1 & Hp' & E & _)]; [intros q; left; reflexivity|].
    destruct (prepared_fun _ _ _ _ _ _ _ _ _ _ _ _ _ _ Hp Hp') as (<- & <- & <-). exact (C18_frame _ _ _ _ _ _ _ _ _ _ _ _ _ _ Hg E).
  Qed.
  (** After a success each wanted entry with data is at its path, the last one winning. *)
  Theorem C71_done a pl f pl' f' : ea_lazy a = false -> failures pl = 0%nat -> run (command a) pl f = (Done tt, pl', f') ->
    exists data w l, prepared a f data w l /\
      (Forall (good cwd (output_dir a) f) (entries l) ->
       forall l1 e l2 d, entries l = l1 ++ e :: l2 -> content data w e d ->
       (forall e' d', In e' l2 -> content data w e' d' -> dest cwd (output_dir a) e' <> dest cwd (output_dir a) e) ->
       look f' (dest cwd (output_dir a) e) = Some (NFile d)).
  Proof.
    intros Hz Hf E. apply extract_run in E as [[_ E]|(data & w & l & pl1 & Hp & E & H0)]; [destruct (E tt eq_refl)|]. exists data, w, l. split; [exact Hp|]. rewrite Hz in E. cbn [negb] in E.
    intros Hg l1 e l2 d Hl Hd Hn. exact (C18_contents _ _ _ _ _ _ _ _ _ _ _ _ _ _ _ _ Hg (H0 Hf) E Hl Hd Hn).
  Qed.
  (** With [--lazy] nothing that exists changes, and a success writes what was missing. *)
  Theorem C71_lazy a pl f o pl' f' data w l : ea_lazy a = true ->
    prepared a f data w l -> Forall (good cwd (output_dir a) f) (entries l) -> run (command a) pl f = (o, pl', f') ->
    (forall q, look f q <> None -> look f' q = look f q) /\
    (failures pl = 0%nat -> o = Done tt -> forall l1 e l2 d, entries l = l1 ++ e :: l2 -> content data w e d -> look f (dest cwd (output_dir a) e) = None ->
     (forall e' d', In e' l1 -> content data w e' d' -> ~ below (dest cwd (output_dir a) e') (dest cwd (output_dir a) e)) ->
     look f' (dest cwd (output_dir a) e) = Some (NFile d)).
  Proof.
    intros Hz Hp Hg E. apply extract_run in E as [[-> Ho]|(data' & w' & l' & pl1 & Hp' & E & H0)]; [split; [reflexivity | intros _ ->; destruct (Ho tt eq_refl)]|].
    destruct (prepared_fun _ _ _ _ _ _ _ _ _ _ _ _ _ _ Hp Hp') as (<- & <- & <-). rewrite Hz in E. cbn [negb] in E. split.
    - intros q Hq. exact (C18_keeps _ _ _ _ _ _ _ _ _ _ _ _ _ _ Hg E Hq).
    - intros Hf -> l1 e l2 d Hl Hd Hno Hn. exact (C18_contents_keep _ _ _ _ _ _ _ _ _ _ _ _ _ _ _ _ Hg (H0 Hf) E Hl Hd Hno Hn).
  Qed.
  (** What is needed suffices for the extraction to run. *)
  Theorem C71_starts a f data w l : prepared a f data w l ->
    run (command a) [] f = run (wad_extract gunzip unzstd xxh3 cwd data (wad_toc w) l (output_dir a) (negb (ea_lazy a))) [] f.
  Proof. apply prepared_runs. Qed.

  (** A game archive is not extracted by default when a file has its name without ".client". *)
  Theorem C71_beside a p f : ea_output a = None -> ea_wad a = p ++ lit ".wad.client" ->
    f_isfile cwd (p ++ lit ".wad.client") f = true -> f_isfile cwd (p ++ lit ".wad") f = true -> run (command a) [] f = (Raised SysExit, [], f).
  Proof.
    intros Ho Hw H1 H2. apply C71_not_dir; [rewrite Hw; exact H1|]. rewrite (C71_output a (p ++ lit ".wad")); [|auto | rewrite Hw; constructor].
    apply not_dir_iff. unfold f_isfile, f_exists, f_isdir in *. destruct (node_of f (locate cwd f true (p ++ lit ".wad"))) as [[b| |t]|]; try discriminate. auto.
  Qed.

  (** The listing: all entries, once, ordered by paths then by hashes; nothing is written. *)
  Notation listing g s := (command_wad_list gunzip unzstd xxh3 cwd dir g s).
  Theorem C71_list g s pl f o pl' f' : run (listing g s) pl f = (o, pl', f') ->
    f' = f /\ forall lines, o = Done lines ->
      exists data w texts sorted, opened f g s data w /\ Forall2 (fun e x => list_text (w_path e) (fst x) /\ snd x = w_hash e) (wad_files w) texts /\
        Permutation texts sorted /\ StronglySorted line_le sorted /\ lines = map (fun x => list_line (snd x) (fst x)) sorted.
  Proof.
    unfold command_wad_list. rewrite run_bind. destruct (run (isfile cwd s) pl f) as [[o1 pl1] f1] eqn:E1. apply query_run in E1 as (-> & [->| ->]); [|intros E; injection E as <- <- <-; split; [reflexivity | discriminate]].
    destruct (f_isfile cwd s f); cbn [negb]; [|cbn [run]; intros E; injection E as <- <- <-; split; [reflexivity | discriminate]].
    rewrite run_bind. destruct (run (load_wad gunzip unzstd xxh3 cwd dir g s) pl1 f) as [[[[data w]|e|] pl2] f2] eqn:E2; [|apply load_fs in E2; subst f2; intros E; injection E as <- <- <-; split; [reflexivity | discriminate]..].
    apply load_done in E2 as [-> Ho]. cbn [run]. intros E. injection E as <- <- <-. split; [reflexivity|]. intros lines El. injection El as <-.
    exists data, w, (map list_entry (wad_files w)), (py_sorted entry_lt (map list_entry (wad_files w))). split; [exact Ho|]. split; [|split; [apply py_sorted_perm|split]].
    - destruct Ho as (_ & d & t & _ & _ & Eo). assert (H : forall e, In e (wad_files w) -> list_text (w_path e) (fst (list_entry e))) by (intros e He; eapply entry_text; eassumption).
      clear - H. induction (wad_files w) as [|e l IH]; cbn [map]; constructor; [split; [apply H; left; reflexivity | reflexivity] | apply IH; intros x Hx; apply H; right; exact Hx].
    - assert (HS : StronglySorted (nlt_rev entry_lt) (py_sorted entry_lt (map list_entry (wad_files w)))) by (apply py_sorted_sorted; [apply entry_lt_asym | apply entry_lt_ntrans]).
      induction HS as [|x l _ IH Hx]; constructor; [exact IH|]. eapply Forall_impl; [|exact Hx]. intros y Hy. apply entry_le. exact Hy.
    - reflexivity.
  Qed.
  Theorem C71_list_runs g s f data w : opened f g s data w -> exists lines, run (listing g s) [] f = (Done lines, [], f).
  Proof.
    intros Ho. unfold command_wad_list. rewrite run_bind. unfold isfile at 1, query at 1. cbn [run]. rewrite (opened_file _ _ _ _ _ _ _ _ _ _ Ho). cbn [negb]. rewrite run_bind, (load_runs _ _ _ _ _ _ _ _ _ _ Ho). cbn [run]. eauto.
  Qed.
End C71.
Print Assumptions C71_stops.
Print Assumptions C71_not_dir.
Print Assumptions C71_frame.
Print Assumptions C71_done.
Print Assumptions C71_lazy.
Print Assumptions C71_starts.
Print Assumptions C71_beside.
Print Assumptions C71_list.
Print Assumptions C71_list_runs.
(** A line gives back the hash and the text, as a line of a file of hashes. *)
Theorem C71_line h text : (forall c, text <> c ++ [cNL]) -> parse_hash_line (list_line h text) = Ok (Z.of_N h, text).
Proof.
  intros Hn. unfold parse_hash_line, list_line. cbn [app]. rewrite cut_first_app by (apply hexl_not_in; [reflexivity | unfold cSpace; lia]). rewrite hexl_value. cbn [rbind]. f_equal. f_equal.
  unfold rstrip. destruct (rev text) as [|x r] eqn:Er; [apply (f_equal (@rev _)) in Er; rewrite rev_involutive in Er; subst text; reflexivity|].
  cbn [lstrip]. destruct (N.eqb_spec cNL x) as [<-|Hx].
  - exfalso. apply (Hn (rev r)). apply (f_equal (@rev _)) in Er. rewrite rev_involutive in Er. exact Er.
  - rewrite <- Er, rev_involutive. reflexivity.
Qed.
Print Assumptions C71_line.

(** ** An example: an archive with a file of known path and an image of unknown path *)
Local Definition png : bytes := map n2b [137; 80; 78; 71; 13; 10; 26; 10].
Local Definition arch : bytes :=
  bl "RW" ++ map n2b [1; 0; 0; 0; 0; 0] ++ leenc 4 2 ++
  leenc 8 1 ++ leenc 4 60 ++ leenc 4 5 ++ leenc 4 5 ++ leenc 4 0 ++
  leenc 8 2 ++ leenc 4 65 ++ leenc 4 8 ++ leenc 4 8 ++ leenc 4 0 ++ bl "HELLO" ++ png.
Local Definition table : bytes := bl "0000000000000001 a/hello.txt" ++ [n2b 10].
Local Definition disk : fs :=
  [([lit "d"], NDir); ([lit "x.wad.client"; lit "d"], NFile arch); ([lit "h"], NDir); ([lit "hashes.game.txt"; lit "h"], NFile table)].
Local Definition hdir : ppath := {| pp_root := lit "/"; pp_parts := [lit "h"] |}.
Local Definition nozip : bytes -> result bytes := fun _ => Err ValueError.
Local Definition nojson : bytes -> result unit := fun _ => Err ValueError.
Local Definition args (u : unknown_arg) (ps : list str) : extract_args :=
  {| ea_wad := lit "x.wad.client"; ea_output := None; ea_hashes := None; ea_unknown := u; ea_pattern := ps; ea_lazy := false |}.
Local Definition go (u : unknown_arg) (ps : list str) (f : fs) : outcome unit * plan * fs :=
  run (command_wad_extract nozip nozip (fun _ => 0) nojson [lit "d"] hdir (args u ps)) [] f.
Local Definition hello : path := [lit "hello.txt"; lit "a"; lit "x.wad"; lit "d"].
Local Definition image : path := [lit "0000000000000002.png"; lit "unknown"; lit "x.wad"; lit "d"].
Example C71_ex :
  fst (go UYes [] disk) = (Done tt, []) /\ look (snd (go UYes [] disk)) hello = Some (NFile (bl "HELLO")) /\ look (snd (go UYes [] disk)) image = Some (NFile png) /\
  fst (go UOnly [] disk) = (Done tt, []) /\ look (snd (go UOnly [] disk)) hello = None /\ look (snd (go UOnly [] disk)) image = Some (NFile png) /\
  fst (go UNo [] disk) = (Done tt, []) /\ look (snd (go UNo [] disk)) hello = Some (NFile (bl "HELLO")) /\ look (snd (go UNo [] disk)) image = None /\
  look (snd (go UYes [lit "*.txt"] disk)) hello = Some (NFile (bl "HELLO")) /\ look (snd (go UYes [lit "*.txt"] disk)) image = None /\
  look (snd (go UYes [lit "*.bin"; lit "?/[!a-g]*"] disk)) hello = Some (NFile (bl "HELLO")) /\ snd (go UYes [lit "[b-z]/*"] disk) = disk.
Proof. vm_compute. repeat split. Qed.
(** The hypotheses hold: the archive is opened, and its entries have good destinations. *)
Example C71_hyps : exists data w l, prepared nozip nozip (fun _ => 0) nojson [lit "d"] hdir (args UYes []) disk data w l /\
  Forall (good [lit "d"] (output_dir (args UYes [])) disk) (set_unknown_paths (lit "unknown") (sanitize_paths l)) /\ length l = 2%nat.
Proof.
  assert (Ew : exists w, open_wad nozip nozip (fun _ => 0) [(1, lit "a/hello.txt")] arch = Ok w /\ exists c l, guess_extensions nozip nozip (fun _ => 0) nojson arch (wad_toc w) [] (wad_files w) = Ok (c, l) /\
    map w_path l = [Some (lit "a/hello.txt"); None] /\ map w_path (set_unknown_paths (lit "unknown") (sanitize_paths l)) = [Some (lit "a/hello.txt"); Some (lit "unknown/0000000000000002.png")]).
  { eexists. split; [vm_compute; reflexivity|]. do 2 eexists. split; [vm_compute; reflexivity|]. split; vm_compute; reflexivity. }
  destruct Ew as (w & Ew & c & l & Eg & Hl & Hp). exists arch, w, l. split; [|split].
  - split; [intros H; apply not_dir_iff in H as [H _]; vm_compute in H; discriminate|]. split.
    + split; [eexists; split; vm_compute; reflexivity|]. exists [(1%Z, lit "a/hello.txt")], [(1, lit "a/hello.txt")]. split; [|split].
      * exists (dir_file hdir (lit "hashes.game.txt")), table, (lit "0000000000000001 a/hello.txt" ++ [10]). split; [exact (tf_game hdir (lit "x"))|]. split; [eexists; split; vm_compute; reflexivity|]. split; vm_compute; reflexivity.
      * intros h p. rewrite <- (table_get h [(1%Z, lit "a/hello.txt")]). reflexivity.
      * exact Ew.
    + exists (selected UYes [] (wad_files w)), c. split; [apply selected_kept | exact Eg].
  - assert (Hg : forall e p, w_path e = Some p -> plain_path (path_join (lit "x.wad") p) -> good [lit "d"] (lit "x.wad") disk e).
    { intros e p He Hq. exists p. split; [exact He|]. split; [exact Hq|]. split; [apply nolink_by; reflexivity|]. split; [apply wf_by; vm_compute; reflexivity | reflexivity]. }
    replace (output_dir (args UYes [])) with (lit "x.wad") by (vm_compute; reflexivity). revert Hp. generalize (set_unknown_paths (lit "unknown") (sanitize_paths l)). intros es E. destruct es as [|e1 es]; [discriminate E|]. destruct es as [|e2 es]; [discriminate E|]. destruct es as [|e3 es]; [|discriminate E].
    pose proof (f_equal (hd None) E) as E1. pose proof (f_equal (fun x => hd None (tl x)) E) as E2. cbn [map hd tl] in E1, E2. clear E.
    constructor; [|constructor; [|constructor]].
    + apply (Hg e1 _ E1). split; [vm_compute; intuition discriminate|]. split; [discriminate|]. split; discriminate.
    + apply (Hg e2 _ E2). split; [vm_compute; intuition discriminate|]. split; [discriminate|]. split; discriminate.
  - apply (f_equal (@length _)) in Hl. rewrite map_length in Hl. exact Hl.
Qed.
(** The file of the name without ".client" prevents the extraction. *)
Example C71_beside_ex : fst (go UYes [] (([lit "x.wad"; lit "d"], NFile arch) :: disk)) = (Raised SysExit, []).
Proof. vm_compute. reflexivity. Qed.
Example C71_list_ex : fst (run (command_wad_list nozip nozip (fun _ => 0) [lit "d"] hdir None (lit "x.wad.client")) [] disk) =
  (Done [lit "0000000000000002 ?"; lit "0000000000000001 a/hello.txt"], []).
Proof. vm_compute. reflexivity. Qed.

(** The listing is not the list of the extracted files: extensions of unknown files are not guessed, though there is a format for them. *)
Theorem C71_list_ext_refuted : exists f data w lines l,
  opened nozip nozip (fun _ => 0) [lit "d"] hdir f None (lit "x.wad.client") data w /\
  run (command_wad_list nozip nozip (fun _ => 0) [lit "d"] hdir None (lit "x.wad.client")) [] f = (Done lines, [], f) /\
  prepared nozip nozip (fun _ => 0) nojson [lit "d"] hdir (args UYes []) f data w l /\ (exists e, In e l /\ w_hash e = 2 /\ w_ext e = Some (lit "png")) /\
  In (list_line 2 (lit "?")) lines /\ ~ In (list_line 2 (lit "?.png")) lines.
Proof.
  destruct C71_hyps as (data & w & l & Hp & _). exists disk, data, w, [lit "0000000000000002 ?"; lit "0000000000000001 a/hello.txt"], l.
  split; [apply Hp|]. split; [vm_compute; reflexivity|]. split; [exact Hp|]. split; [|split; [left; vm_compute; reflexivity | vm_compute; intuition discriminate]].
  destruct Hp as (_ & Ho & sel & c & K & G). apply load_runs in Ho. assert (E : fst (fst (run (load_wad nozip nozip (fun _ => 0) [lit "d"] hdir None (lit "x.wad.client")) [] disk)) = Done (data, w)).
  { change (ea_hashes (args UYes [])) with (@None str) in Ho. change (ea_wad (args UYes [])) with (lit "x.wad.client") in Ho. rewrite Ho. reflexivity. }
  vm_compute in E. injection E as <- <-. pose proof (kept_fun _ _ _ (selected_kept UYes [] _) _ K) as <-. vm_compute in G. injection G as _ <-. eexists. split; [right; left; reflexivity|]. split; reflexivity.
Qed.
Print Assumptions C71_list_ext_refuted.
