(** * Property C46: conversion of exported files *)

From Verif Require Import Base.Py Base.Text Base.Regex Base.PyFacts Base.Fs Spec.FsSpec Base.FsFacts Model.Files Proofs.FilesProofs Base.FsLinks Base.FsTree
  Model.Wad Model.Tex Model.Exporter Model.Convert Spec.ConvertSpec Proofs.ConvertProofs Proofs.ConvertRunProofs Proofs.ExportAllProofs.

(** The converter of a path is the first one that handles it; without any, files are copied. *)
Theorem C46_first (cs : list conv) (p : str) (c : conv) : get_converter cs p = c <-> chosen cs p c.
Proof. split; [intros <-; apply chosen_get | intros H; symmetry; apply chosen_unique, H]. Qed.
Print Assumptions C46_first.

Section C46.
  Variable cd : codecs.
  Variable cwd : path.
  Variable output : str.

  (** Whatever happens, a conversion changes nothing but its announced paths (and creates their directories). *)
  Theorem C46_frame c p fin data pl f o pl' f' : conv_ready cwd output c p f -> plain_names cd -> source_of fin data -> run (convert cd cwd c fin output p) pl f = (o, pl', f') ->
    only_files (conv_at cwd output c p) f f' /\ conv_ready cwd output c p f'.
  Proof. intros H1 H2 H3 H4. eapply convert_frame; eauto. Qed.

  (** When it succeeds, these paths hold what is expected. *)
  Theorem C46_written c p fin data pl f a pl' f' : conv_ready cwd output c p f -> plain_names cd -> source_of fin data -> run (convert cd cwd c fin output p) pl f = (Done a, pl', f') ->
    converted_to cd c data p (has_file cwd output f') (has_dir cwd output f').
  Proof. intros H1 H2 H3 H4. eapply convert_done; eauto. Qed.

  (** Every announced path exists after a success. *)
  Theorem C46_announced c p fin data pl f a pl' f' : conv_ready cwd output c p f -> plain_names cd -> source_of fin data -> run (convert cd cwd c fin output p) pl f = (Done a, pl', f') ->
    forall q, In q (converted_paths c p) -> look f' (at_out cwd output q) <> None.
  Proof.
    intros H1 H2 H3 H4 q Hq. pose proof (C46_written c p fin data pl f a pl' f' H1 H2 H3 H4) as H. unfold has_file, has_dir in H.
    destruct c; cbn [converted_to converted_paths In] in H, Hq; fold (stem p) in Hq; repeat match type of H with _ /\ _ => destruct H as [? H] | exists _, _ => destruct H as [? H] end;
      repeat match type of Hq with _ \/ _ => destruct Hq as [<-|Hq] end; try contradiction; congruence.
  Qed.

  (** The directory of an exploded skin has no other file (unless its old content could not be removed). *)
  Theorem C46_skn_exact p fin data pl f a pl' f' : conv_ready cwd output SknConv p f -> plain_names cd -> source_of fin data -> failures pl = 0%nat -> run (convert cd cwd SknConv fin output p) pl f = (Done a, pl', f') ->
    exists objs, cd_skn cd data = Ok objs /\ forall t, strictly_below t (at_out cwd output (stem p)) -> look f' t <> None -> exists n, In n (map fst objs) /\ t = at_out cwd output (stem p ++ lit "/" ++ n ++ lit ".obj").
  Proof. apply skn_exact. Qed.

  (** When it fails, either something is in the way or the content is to blame, and then no partial result is left. *)
  Theorem C46_failed c p fin data pl f e pl' f' : conv_ready cwd output c p f -> plain_names cd -> source_of fin data -> failures pl = 0%nat -> run (convert cd cwd c fin output p) pl f = (Raised e, pl', f') ->
    path_error e \/ conversion_fails cd c data p e (has_file cwd output f') (no_file cwd output f') (no_tree cwd output f').
  Proof. intros H1 H2 H3 H4 H5. eapply convert_fails; eauto. Qed.

  Variable cs : list conv.
  Variable gunzip unzstd : bytes -> result bytes.
  Variable xxh3 : bytes -> N.

  (** Without [overwrite], a file whose announced paths all exist is left alone. *)
  Theorem C46_skip c p source pl f o pl' f' : chosen cs p c -> conv_ready cwd output c p f -> (forall q, In q (converted_paths c p) -> look f (at_out cwd output q) <> None) ->
    run (export_plain cd cwd cs output false p source) pl f = (o, pl', f') -> f' = f /\ (o = Done tt \/ o = Crashed).
  Proof. intros H. apply chosen_unique in H as ->. apply plain_skip. Qed.
  Theorem C46_skip_entry c p w wadf toc pl f o pl' f' : w_path w = Some p -> chosen cs p c -> conv_ready cwd output c p f -> (forall q, In q (converted_paths c p) -> look f (at_out cwd output q) <> None) ->
    run (export_entry cd cwd cs output gunzip unzstd xxh3 false wadf toc w) pl f = (o, pl', f') -> f' = f /\ (o = Done tt \/ o = Crashed).
  Proof. intros Hp H. apply chosen_unique in H as ->. apply entry_skip, Hp. Qed.
  (** Otherwise it is converted. *)
  Theorem C46_not_skipped ow c p source data pl f a pl' f' : plain_names cd -> failures pl = 0%nat -> chosen cs p c -> conv_ready cwd output c p f -> ready cwd source f -> look f (target cwd source) = Some (NFile data) ->
    (ow = true \/ exists q, In q (converted_paths c p) /\ look f (at_out cwd output q) = None) ->
    run (export_plain cd cwd cs output ow p source) pl f = (Done a, pl', f') -> exported_as cd cwd output plain_logged f' c data p.
  Proof. intros Hn Hpl H. apply chosen_unique in H as ->. apply plain_done; assumption. Qed.

  Section All.
  Variable e : exporter.
  Variable f : fs.
  Hypothesis Hready : export_ready cwd output cs e f.
  Hypothesis Hnames : plain_names cd.
  Lemma C46_static p : exports e p -> get_converter cs p = SknConv -> stem p <> p /\ ~ below cwd (at_out cwd output (stem p)).
  Proof. intros He Hc. destruct (Hready p _ He (chosen_get cs p)) as [_ H]. destruct (H Hc) as (H1 & H2 & _). auto. Qed.
  Lemma C46_inv : inv cwd (BE cwd cs output e) (WE cs output e) f.
  Proof.
    split; [intros s (p & q & He & Hq & ->); apply (Hready p _ He (chosen_get cs p)), Hq|]. intros t x (p & He & Hc & Ht). destruct (Hready p _ He (chosen_get cs p)) as [_ H]. destruct (H Hc) as (_ & _ & H3). apply H3, Ht.
  Qed.
  (** An export changes only the announced paths of its files. *)
  Theorem C46_export_frame ow pl o pl' f' : run (export cd cwd cs output gunzip unzstd xxh3 ow e) pl f = (o, pl', f') ->
    only_files (export_at cwd output cs e) f f' /\ export_ready cwd output cs e f'.
  Proof.
    intros E. destruct (fr_export cd cwd cs output gunzip unzstd xxh3 Hnames e C46_static ow pl f o pl' f' C46_inv E) as [H1 H2]. split.
    - intros q. destruct (H1 q) as [E1|[(p & Hp & Ht)|(E1 & E2 & t & (p & Hp & Ht) & E3)]]; [auto | right; left | right; right; split; [exact E1|]; split; [exact E2|]; exists t; split; [|exact E3]]; exists p, (get_converter cs p); auto using chosen_get.
    - intros p c He Hc. apply chosen_unique in Hc as ->. exact (einv_ready cwd cs output e C46_static p f' He H2).
  Qed.
  Hypothesis Hclash : no_clash cwd output cs e.
  Lemma C46_clash p1 p2 t : exports e p1 -> exports e p2 -> conv_at cwd output (get_converter cs p1) p1 t -> conv_at cwd output (get_converter cs p2) p2 t -> p1 = p2.
  Proof. intros H1 H2. exact (proj2 Hclash p1 p2 _ _ t H1 H2 (chosen_get cs p1) (chosen_get cs p2)). Qed.
  (** A complete export without clashes: each file is converted from its content, or its content cannot be converted. *)
  Theorem C46_export_plain p src data c pl pl' f' : failures pl = 0%nat -> In (p, src) (ex_plain e) -> chosen cs p c -> source_file cwd output cs e f src data ->
    run (export cd cwd cs output gunzip unzstd xxh3 true e) pl f = (Done tt, pl', f') -> exported_as cd cwd output plain_logged f' c data p.
  Proof.
    intros Hpl Hin Hc Hs E. apply chosen_unique in Hc as ->. exact (export_plain_done cd cwd cs output gunzip unzstd xxh3 Hnames e C46_static C46_clash (proj1 Hclash) p src data pl f pl' f' C46_inv Hpl Hin Hs E).
  Qed.
  Theorem C46_export_entries p k w x wadf data c pl pl' f' : failures pl = 0%nat -> In (k, w) (ex_wads e) -> In x (ew_files w) -> w_path x = Some p -> chosen cs p c -> source_file cwd output cs e f (ew_src w) wadf ->
    read_data gunzip unzstd xxh3 wadf x (ew_toc w) = Ok (Some data) ->
    run (export cd cwd cs output gunzip unzstd xxh3 true e) pl f = (Done tt, pl', f') -> exported_as cd cwd output entry_logged f' c data p.
  Proof.
    intros Hpl Hin Hx Hp Hc Hs Hd E. apply chosen_unique in Hc as ->. exact (export_entry_done cd cwd cs output gunzip unzstd xxh3 Hnames e C46_static C46_clash (proj1 Hclash) p k w x wadf data pl f pl' f' C46_inv Hpl Hin Hx Hp Hs Hd E).
  Qed.
  End All.
End C46.
Print Assumptions C46_frame.
Print Assumptions C46_written.
Print Assumptions C46_announced.
Print Assumptions C46_skn_exact.
Print Assumptions C46_failed.
Print Assumptions C46_skip.
Print Assumptions C46_skip_entry.
Print Assumptions C46_not_skipped.
Print Assumptions C46_export_frame.
Print Assumptions C46_export_plain.
Print Assumptions C46_export_entries.

(** ** Example *)

Local Notation t := lit.
Local Definition wd : path := [t "w"].
(** Images get a prefix, ".bin" files with an empty content are not parsed, a skin has two entries of which one is given twice. *)
Local Definition cd0 : codecs := {|
  cd_image := fun d => if eqb d (bl "bad") then ([bl "P"], ImgNotImplemented) else ([bl "PNG"; d], ImgSaved);
  cd_bin := fun d => if eqb d [] then Err ValueError else Ok ([bl "{"; d; bl "}"], None);
  cd_rst := fun d => Ok ([d], None);
  cd_atlas := fun d => Ok ([d], None);
  cd_skins := fun d => Ok ([d], None);
  cd_skn := fun d => Ok [(t "body", Ok (bl "v1")); (t "hat", Ok d); (t "body", Ok (bl "v2"))] |}.
Local Definition cs0 : list conv := [ImageConv [t ".dds"; t ".tga"]; BinConv [rlit (t "a/")]; SknConv].
Local Definition f0 : fs := [([t "w"], NDir); ([t "src"; t "w"], NDir); ([t "i.dds"; t "src"; t "w"], NFile (bl "dds")); ([t "s.skn"; t "src"; t "w"], NFile (bl "skn")); ([t "e.bin"; t "src"; t "w"], NFile []);
  ([t "out"; t "w"], NDir); ([t "s"; t "out"; t "w"], NDir); ([t "old.obj"; t "s"; t "out"; t "w"], NFile (bl "old")); ([t "keep"; t "out"; t "w"], NFile (bl "k"))].
Local Definition e0 : exporter := {| ex_wads := []; ex_plain := [(t "i.dds", t "src/i.dds"); (t "s.skn", t "src/s.skn"); (t "a/e.bin", t "src/e.bin")] |}.
Local Definition nothing : bytes -> result bytes := fun _ => Err ValueError.
Local Definition run0 ow := run (export cd0 wd cs0 (t "out") nothing nothing (fun _ => 0) ow e0) [] f0.
Local Definition g0 : fs := snd (run0 true).
Example C46_export_ex : fst (run0 true) = (Done tt, []) /\
  look g0 [t "i.png"; t "out"; t "w"] = Some (NFile (bl "PNGdds")) /\ look g0 [t "i.dds"; t "out"; t "w"] = None /\
  look g0 [t "s.skn"; t "out"; t "w"] = Some (NFile (bl "skn")) /\ look g0 [t "body.obj"; t "s"; t "out"; t "w"] = Some (NFile (bl "v2")) /\ look g0 [t "hat.obj"; t "s"; t "out"; t "w"] = Some (NFile (bl "skn")) /\
  look g0 [t "old.obj"; t "s"; t "out"; t "w"] = None /\
  look g0 [t "e.bin"; t "a"; t "out"; t "w"] = Some (NFile []) /\ look g0 [t "e.bin.json"; t "a"; t "out"; t "w"] = None /\ look g0 [t "keep"; t "out"; t "w"] = Some (NFile (bl "k")).
Proof. vm_compute. repeat split. Qed.
Example C46_names_ex : plain_names cd0.
Proof. intros d objs n r E. injection E as <-. cbn [In]. intros H. repeat (destruct H as [H|H]; [injection H as <- <-; vm_compute; intuition discriminate|]). destruct H. Qed.
Lemma ready_ex s : plain_path s -> ready wd s f0.
Proof. intros H. split; [exact H|]. split; [apply no_links_ok; reflexivity|]. split; [apply wf_check_ok; reflexivity | reflexivity]. Qed.
Local Ltac plain := split; [vm_compute; intuition discriminate|]; split; [discriminate|]; split; discriminate.
Lemma exports_ex p : exports e0 p -> p = t "i.dds" \/ p = t "s.skn" \/ p = t "a/e.bin".
Proof. intros [[s H]|(k & w & x & [] & _)]. cbn [e0 ex_plain In] in H. repeat (destruct H as [H|H]; [injection H as <- _; auto|]). destruct H. Qed.
Example C46_ready_ex : export_ready wd (t "out") cs0 e0 f0.
Proof.
  intros p c He Hc. apply chosen_unique in Hc as ->. apply exports_ex in He as [->|[->| ->]]; (split; [intros q Hq; apply ready_ex; vm_compute in Hq; repeat (destruct Hq as [<-|Hq]; [plain|]); destruct Hq |]); [discriminate | | discriminate].
  intros _. split; [discriminate|]. split; [intros B; apply below_b_ok in B; discriminate|]. intros q x _ Hl. exact (no_links_ok f0 q eq_refl q x (below_refl q) Hl).
Qed.
Lemma at_ex p x : exports e0 p -> conv_at wd (t "out") (get_converter cs0 p) p x ->
  p = t "i.dds" /\ x = [t "i.png"; t "out"; t "w"] \/ p = t "s.skn" /\ (x = [t "s.skn"; t "out"; t "w"] \/ below x [t "s"; t "out"; t "w"]) \/ p = t "a/e.bin" /\ below x [t "a"; t "out"; t "w"].
Proof.
  intros He (q & Hq & Hx). apply exports_ex in He as [->|[->| ->]]; vm_compute in Hq.
  - destruct Hq as [<-|[]]. left. split; [reflexivity|]. destruct Hx as [->|(H & _)]; [reflexivity | discriminate].
  - right. left. split; [reflexivity|]. destruct Hq as [<-|[<-|[]]]; [left; destruct Hx as [->|(_ & H & _)]; [reflexivity | discriminate] | right; destruct Hx as [->|(_ & _ & H)]; [exists []; reflexivity | exact H]].
  - right. right. split; [reflexivity|]. destruct Hx as [->|(H & _)]; [|discriminate]. destruct Hq as [<-|[<-|[]]]; apply below_b_ok; reflexivity.
Qed.
Lemma below_last (x a b : path) c : below x (c :: a) -> below x b -> length b = S (length a) -> b = c :: a.
Proof.
  intros [l1 ->] [l2 E] Hl. assert (Hlen : length l1 = length l2) by (apply (f_equal (@length _)) in E; rewrite !app_length in E; cbn [length] in E; lia).
  revert l2 E Hlen. induction l1 as [|y l1 IH]; intros [|z l2] E Hlen; try discriminate; [symmetry; exact E|]. injection E as _ E. apply (IH l2 E). injection Hlen as Hlen. exact Hlen.
Qed.
Example C46_clash_ex : no_clash wd (t "out") cs0 e0.
Proof.
  split; [repeat (constructor; [vm_compute; intuition discriminate|]); constructor|]. intros p1 p2 c1 c2 x H1 H2 Hc1 Hc2 A1 A2. apply chosen_unique in Hc1 as ->, Hc2 as ->. apply at_ex in A1; [|exact H1]. apply at_ex in A2; [|exact H2].
  destruct A1 as [(-> & A1)|[(-> & A1)|(-> & A1)]], A2 as [(-> & A2)|[(-> & A2)|(-> & A2)]]; try reflexivity; exfalso.
  - subst x. destruct A2 as [A2|A2]; [discriminate | apply below_b_ok in A2; discriminate].
  - subst x. apply below_b_ok in A2. discriminate.
  - subst x. destruct A1 as [A1|A1]; [discriminate | apply below_b_ok in A1; discriminate].
  - destruct A1 as [->|A1]; [apply below_b_ok in A2; discriminate | discriminate (below_last _ _ _ _ A1 A2 eq_refl)].
  - subst x. apply below_b_ok in A1. discriminate.
  - destruct A2 as [->|A2]; [apply below_b_ok in A1; discriminate | discriminate (below_last _ _ _ _ A1 A2 eq_refl)].
Qed.
Example C46_source_ex : source_file wd (t "out") cs0 e0 f0 (t "src/s.skn") (bl "skn").
Proof.
  split; [apply ready_ex; plain|]. split; [reflexivity|]. intros x (p & c & He & Hc & Hx) B. apply chosen_unique in Hc as ->. apply at_ex in Hx; [|exact He].
  destruct Hx as [(_ & ->)|[(_ & [->|Hx])|(_ & Hx)]]; [apply below_b_ok in B; discriminate.. | |]; pose proof (below_trans _ _ _ B Hx) as B2; apply below_b_ok in B2; discriminate.
Qed.
(** An entry of an archive, and an image that is not decoded. *)
Local Definition wad1 : ewad := {| ew_src := t "src/i.dds"; ew_toc := None;
  ew_files := [set_ext (set_path (mk_header 1 0 2 2 0 false None None) (Some (t "x.txt"))) None; mk_header 2 0 2 2 0 false None None; set_ext (set_path (mk_header 3 1 2 2 0 false None None) (Some (t "y.tga"))) None] |}.
Local Definition e1 : exporter := {| ex_wads := [(t "k", wad1)]; ex_plain := [] |}.
Local Definition run1 := run (export cd0 wd cs0 (t "out") nothing nothing (fun _ => 0) true e1) [] f0.
Example C46_entries_ex : fst run1 = (Done tt, []) /\ look (snd run1) [t "x.txt"; t "out"; t "w"] = Some (NFile (bl "dd")) /\ look (snd run1) [t "y.png"; t "out"; t "w"] = Some (NFile (bl "PNGds")).
Proof. vm_compute. repeat split. Qed.
(** A skin whose ".skn" file exists is not skipped as long as its directory does not: the existing file is rewritten. *)
Local Definition f1 : fs := [([t "w"], NDir); ([t "src"; t "w"], NDir); ([t "s.skn"; t "src"; t "w"], NFile (bl "new")); ([t "out"; t "w"], NDir); ([t "s.skn"; t "out"; t "w"], NFile (bl "old"))].
Example C46_lazy_ex :
  look (snd (run (export_plain cd0 wd cs0 (t "out") false (t "s.skn") (t "src/s.skn")) [] f1)) [t "s.skn"; t "out"; t "w"] = Some (NFile (bl "new"))
  /\ run (export_plain cd0 wd cs0 (t "out") false (t "s.skn") (t "src/s.skn")) [] (put [t "s"; t "out"; t "w"] NDir f1) = (Done tt, [], put [t "s"; t "out"; t "w"] NDir f1).
Proof. vm_compute. split; reflexivity. Qed.
(** ".skn" has no extension: its directory would be the file itself. *)
Example C46_dot_ex : stem (t "a/.skn") = t "a/.skn" /\ fst (fst (run (convert cd0 wd SknConv (Ret (bl "d")) (t "out") (t "a/.skn")) [] f1)) = Raised (OSError EEXIST).
Proof. split; vm_compute; reflexivity. Qed.
(** Names of skin entries are not checked: a file can be written outside of the output directory. *)
Local Definition cd1 : codecs := {| cd_image := cd_image cd0; cd_bin := cd_bin cd0; cd_rst := cd_rst cd0; cd_atlas := cd_atlas cd0; cd_skins := cd_skins cd0; cd_skn := fun d => Ok [(t "../../escaped", Ok d)] |}.
Theorem C46_skn_escape_refuted : exists cd f p fin data f', conv_ready wd (t "out") SknConv p f /\ source_of fin data /\ run (convert cd wd SknConv fin (t "out") p) [] f = (Done tt, [], f')
  /\ ~ only_files (conv_at wd (t "out") SknConv p) f f' /\ look f' [t "escaped.obj"; t "w"] = Some (NFile data).
Proof.
  exists cd1, f0, (t "s.skn"), (Ret (bl "d")), (bl "d"). eexists. split.
  { apply (C46_ready_ex (t "s.skn")); [left; eexists; right; left; reflexivity | apply C46_first; reflexivity]. }
  split; [left; reflexivity|]. split; [vm_compute; reflexivity|]. split; [|reflexivity].
  intros H. destruct (H [t "escaped.obj"; t "w"]) as [E|[(q & Hq & Hx)|(_ & E & _)]]; [discriminate E | | discriminate E].
  vm_compute in Hq. destruct Hq as [<-|[<-|[]]]; destruct Hx as [Hx|(_ & _ & Hx)]; try discriminate Hx; apply below_b_ok in Hx; discriminate Hx.
Qed.
Print Assumptions C46_skn_escape_refuted.
