(** * C18: extraction of WAD archives *)

From Verif Require Import Base.TextFacts Base.Fs Spec.FsSpec Base.FsFacts Model.Files Model.Wad Model.WadExtract
  Spec.WadExtractSpec Proofs.WadExtractProofs.

Section C18.
  Variable gunzip unzstd : bytes -> result bytes.
  Variable xxh3 : bytes -> N.
  Variable cwd : path.
  Variable wadf : bytes.
  Variable toc : option bytes.
  Variable output : str.
  Variable files : list wfile.
  (** The data of an entry, as read by [WadFileHeader.read_data] (C15). *)
  Notation data w d := (read_data gunzip unzstd xxh3 wadf w toc = Ok (Some d)).
  Notation extract overwrite := (wad_extract gunzip unzstd xxh3 cwd wadf toc files output overwrite).
  (** The entries with the paths given by [sanitize_paths] and [set_unknown_paths] (C16). *)
  Notation entries := (set_unknown_paths (lit "unknown") (sanitize_paths files)).

  (** Whatever fails, only the destinations of the entries that have data change (so redirections
      and unreadable entries write nothing), and missing directories leading to them. *)
  Theorem C18_frame ow pl f o pl' f' :
    Forall (good cwd output f) entries -> run (extract ow) pl f = (o, pl', f') ->
    only_files (fun t => exists w d, In w entries /\ data w d /\ t = dest cwd output w) f f'.
  Proof.
    intros Hg E. apply loop_frame in E as [H _]; [|exact Hg]. eapply only_files_mono; [|exact H]. cbn beta.
    intros t (w & Hi & [d Hd] & Ht). exists w, d. auto.
  Qed.

  (** With overwriting: each entry with data is found at its path, the last one winning. *)
  Theorem C18_contents l1 w l2 pl f pl' f' d :
    Forall (good cwd output f) entries -> failures pl = 0%nat -> run (extract true) pl f = (Done tt, pl', f') ->
    entries = l1 ++ w :: l2 -> data w d ->
    (forall w' d', In w' l2 -> data w' d' -> dest cwd output w' <> dest cwd output w) ->
    look f' (dest cwd output w) = Some (NFile d).
  Proof.
    intros Hg Hp E Hl Hd Hn. unfold wad_extract, extracted_files in E. rewrite Hl in E, Hg.
    eapply loop_content; [exact Hg | exact Hp | exact E | exact Hd|]. intros w' Hi [d' Hd']. eapply Hn; eassumption.
  Qed.

  (** Without overwriting: what exists is unchanged whatever happens, the rest is written. *)
  Theorem C18_keeps pl f o pl' f' q :
    Forall (good cwd output f) entries -> run (extract false) pl f = (o, pl', f') ->
    look f q <> None -> look f' q = look f q.
  Proof. intros Hg E Hq. eapply loop_keeps; [exact Hg | exact E | exact Hq]. Qed.
  Theorem C18_contents_keep l1 w l2 pl f pl' f' d :
    Forall (good cwd output f) entries -> failures pl = 0%nat -> run (extract false) pl f = (Done tt, pl', f') ->
    entries = l1 ++ w :: l2 -> data w d -> look f (dest cwd output w) = None ->
    (forall w' d', In w' l1 -> data w' d' -> ~ below (dest cwd output w') (dest cwd output w)) ->
    look f' (dest cwd output w) = Some (NFile d).
  Proof.
    intros Hg Hp E Hl Hd Hno Hn. unfold wad_extract, extracted_files in E. rewrite Hl in E, Hg.
    eapply loop_content_keep; [exact Hg | exact Hp | exact E | exact Hd | exact Hno|]. intros w' Hi [d' Hd']. eapply Hn; eassumption.
  Qed.

  (** Paths without '..' that are not absolute stay below the output directory. *)
  Theorem C18_contained w p f :
    good cwd output f w -> output <> [] -> w_path w = Some p -> is_abs p = false -> comps p <> [] ->
    strictly_below (dest cwd output w) (target cwd output).
  Proof.
    intros _ Ho Hp Ha Hc. unfold dest. rewrite Hp. rewrite target_join by assumption.
    destruct (rev (comps p)) as [|x r] eqn:Er.
    - apply (f_equal (@rev _)) in Er. rewrite rev_involutive in Er. contradiction.
    - exists x, r. reflexivity.
  Qed.
End C18.
Print Assumptions C18_frame.
Print Assumptions C18_contents.
Print Assumptions C18_keeps.
Print Assumptions C18_contents_keep.
Print Assumptions C18_contained.

(** An archive with a named file, a file of unknown name and a redirection, extracted where the
    named file exists. *)
Local Definition arch : bytes := bl "HELLOworld" ++ leenc 4 2 ++ bl "to".
Local Definition sample : list wfile :=
  [ set_path (mk_header 1 0 5 5 0 false None None) (Some (lit "a/hello.txt"));
    mk_header 2 5 5 5 0 false None None;
    set_path (mk_header 3 10 6 6 2 false None None) (Some (lit "b/link.txt")) ].
Local Definition wd : path := [lit "w"].
Local Definition disk : fs :=
  [([lit "w"], NDir); ([lit "a"; lit "w"], NDir); ([lit "hello.txt"; lit "a"; lit "w"], NFile (bl "old"))].
Local Definition final (ow : bool) : outcome unit * plan * fs :=
  run (wad_extract (fun _ => Err ValueError) (fun _ => Err ValueError) (fun _ => 0) wd arch None sample (lit "/w") ow) [] disk.
Example C18_runs_ex :
  fst (final true) = (Done tt, []) /\ fst (final false) = (Done tt, []) /\
  look (snd (final true)) [lit "hello.txt"; lit "a"; lit "w"] = Some (NFile (bl "HELLO")) /\
  look (snd (final false)) [lit "hello.txt"; lit "a"; lit "w"] = Some (NFile (bl "old")) /\
  look (snd (final true)) [lit "0000000000000002"; lit "unknown"; lit "w"] = Some (NFile (bl "world")) /\
  look (snd (final true)) [lit "b"; lit "w"] = None.
Proof. vm_compute. repeat split. Qed.
Example C18_good_ex : Forall (good wd (lit "/w") disk) (set_unknown_paths (lit "unknown") (sanitize_paths sample)).
Proof.
  assert (Hn : forall p, nolink disk p).
  { intros p q t _ H. destruct q as [|x q]; [discriminate|]. unfold look, disk in H. cbn [dget] in H.
    repeat (destruct (eqb _ _) in H; [discriminate|]). discriminate. }
  assert (Hw : fs_wf disk).
  { intros x p H. unfold look, disk in H. cbn [dget] in H.
    destruct (eqbP ((x :: p) : path) [lit "w"]) as [E|]; [injection E as -> ->; reflexivity|].
    destruct (eqbP ((x :: p) : path) [lit "a"; lit "w"]) as [E|]; [injection E as -> ->; reflexivity|].
    destruct (eqbP ((x :: p) : path) [lit "hello.txt"; lit "a"; lit "w"]) as [E|]; [injection E as -> ->; reflexivity|congruence]. }
  assert (Hg : forall w p, w_path w = Some p -> plain_path (path_join (lit "/w") p) -> good wd (lit "/w") disk w).
  { intros w p Hp Hq. exists p. split; [exact Hp|]. split; [exact Hq|]. split; [apply Hn|]. split; [exact Hw | reflexivity]. }
  repeat (constructor; [eapply Hg; [reflexivity|]; split; [vm_compute; intuition discriminate|]; split; [discriminate|]; split; discriminate|]).
  constructor.
Qed.

(** An entry with an absolute path, or with '..', is written outside of the output directory. *)
Theorem C18_escape_refuted :
  exists f, forall p, p = lit "/etc/x" \/ p = lit "../etc/x" ->
  exists f', run (wad_extract (fun _ => Err ValueError) (fun _ => Err ValueError) (fun _ => 0) wd arch None
    [set_ext (set_path (mk_header 1 0 5 5 0 false None None) (Some (p ++ lit ".bin"))) None] (lit "/w") true) [] f = (Done tt, [], f') /\
    look f [lit "x.bin"; lit "etc"] = None /\ look f' [lit "x.bin"; lit "etc"] = Some (NFile (bl "HELLO")).
Proof.
  exists disk. intros p [->| ->]; (eexists; split; [vm_compute; reflexivity|]; split; vm_compute; reflexivity).
Qed.
Print Assumptions C18_escape_refuted.
