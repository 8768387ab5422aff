(** * C78: extraction of meshes by the command line *)

From Verif Require Import Base.Py Base.Text Base.Bin Base.PyFacts Base.TextFacts Base.Fs Spec.FsSpec Base.FsFacts Base.FsLinks Model.Files Proofs.FilesProofs Model.Skn Model.Wad Model.Convert Model.Cli Model.SknCli
  Spec.SknSpec Proofs.SknProofs Props.SknProps Spec.PatchCacheSpec Proofs.PatchCacheProofs Spec.SknCliSpec Proofs.SymlinksProofs Proofs.SknCliProofs Spec.GuessPathsSpec Proofs.GuessPathsProofs.

Lemma isfile_content cwd f s : f_isfile cwd s f = true <-> exists data, has_content cwd f s data.
Proof.
  unfold f_isfile, has_content, content_at, node_of. split.
  - destruct (locate cwd f true s) as [p|e]; [|discriminate]. destruct (look f p) as [[b| |]|] eqn:E; try discriminate. eauto.
  - intros (data & p & -> & ->). reflexivity.
Qed.

Section C78.
  Variable show : N -> str.
  Variable enc : str -> bytes.
  Variable cwd : path.
  Notation command s out := (command_skn_extract show enc cwd s out).
  Notation R s out := (target cwd (skn_output s out)).
  Notation names k := (map e_name (k_entries k)).

  Lemma objs_names k : map fst (skn_objs show enc k) = names k.
  Proof. unfold skn_objs. rewrite map_map. reflexivity. Qed.
  Lemma skn_run s out pl f o pl' f' : run (command s out) pl f = (o, pl', f') ->
    (f' = f /\ forall x, o <> Done x) \/
    exists k pl1, mesh_at cwd f s k /\ run (let~ _ := makedirs cwd (skn_output s out) in save_objs cwd (skn_output s out) (skn_objs show enc k)) pl1 f = (o, pl', f').
  Proof.
    unfold command_skn_extract. rewrite run_bind. destruct (run (isfile cwd s) pl f) as [[o1 pl1] f1] eqn:E1.
    assert (f1 = f /\ (o1 = Done (f_isfile cwd s f) \/ o1 = Crashed)) as [-> Ho] by (revert E1; unfold isfile, query; cbn [run]; destruct pl as [|[[e n|n]|] pl]; cbn [run]; intros E; injection E as <- <- <-; auto).
    destruct Ho as [-> | ->]; [|intros E; injection E as <- <- <-; left; split; [reflexivity | discriminate]].
    destruct (f_isfile cwd s f); cbn [negb]; [|cbn [run]; intros E; injection E as <- <- <-; left; split; [reflexivity | discriminate]].
    rewrite run_bind. destruct (run (read_file cwd s) pl1 f) as [[[data|e|] pl2] f2] eqn:E2; [|apply read_fs in E2; subst f2; intros E; injection E as <- <- <-; left; split; [reflexivity | discriminate]..].
    apply read_done in E2 as [-> Hc]. rewrite run_bind. destruct (prun parse_skn data) as [k|e] eqn:Ek; cbn [lift run]; [|intros E; injection E as <- <- <-; left; split; [reflexivity | discriminate]].
    intros E. right. exists k, pl2. split; [apply mesh_at_iff; eauto | exact E].
  Qed.
  Lemma skn_runs s out f k : mesh_at cwd f s k ->
    run (command s out) [] f = run (let~ _ := makedirs cwd (skn_output s out) in save_objs cwd (skn_output s out) (skn_objs show enc k)) [] f.
  Proof.
    intros H. apply mesh_at_iff in H as (data & Hc & Ek). unfold command_skn_extract, isfile, query. cbn [bind run]. rewrite (proj2 (isfile_content cwd f s)) by eauto. cbn [negb].
    rewrite run_bind. destruct Hc as (p & Ep & El). assert (Er : run (read_file cwd s) [] f = (Done data, [], f)) by (unfold read_file, sys, sys_part; cbn [run]; rewrite Ep; cbn [rbind]; rewrite El; reflexivity).
    rewrite Er, run_bind, Ek. reflexivity.
  Qed.
  Lemma mesh_at_fun f s k1 k2 : mesh_at cwd f s k1 -> mesh_at cwd f s k2 -> k1 = k2.
  Proof. rewrite !mesh_at_iff. intros (d1 & H1 & E1) (d2 & H2 & E2). rewrite (content_fun _ _ _ _ _ H1 H2) in E1. congruence. Qed.

  (** C78: what is not a file is refused and what is not a mesh fails, whatever else happens, before anything is created. *)
  Theorem C78_missing s out f : (forall data, ~ has_content cwd f s data) -> run (command s out) [] f = (Raised SysExit, [], f).
  Proof.
    intros H. unfold command_skn_extract, isfile, query. cbn [bind run]. destruct (f_isfile cwd s f) eqn:E; [|reflexivity]. apply isfile_content in E as [data E]. destruct (H data E).
  Qed.
  Theorem C78_stops s out pl f o pl' f' : run (command s out) pl f = (o, pl', f') -> (forall k, ~ mesh_at cwd f s k) -> f' = f /\ forall x, o <> Done x.
  Proof. intros E H. apply skn_run in E as [E|(k & pl1 & Hm & _)]; [exact E|]. destruct (H k Hm). Qed.

  (** C78: whatever fails, only the files of the submeshes and the output directory are written. *)
  Theorem C78_frame s out pl f o pl' f' k : mesh_at cwd f s k -> flat_names (names k) -> output_ready cwd (skn_output s out) (names k) f ->
    run (command s out) pl f = (o, pl', f') -> objs_only (R s out) (names k) f f'.
  Proof.
    intros Hm Hf Hr E. apply skn_run in E as [[-> _]|(k' & pl1 & Hm' & E)]; [apply rel_refl|]. rewrite (mesh_at_fun _ _ _ _ Hm' Hm) in E. clear Hm'.
    destruct (skn_output s out) as [|c rt] eqn:Ert; [cbn [makedirs bind run] in E; injection E as <- <- <-; apply rel_refl|]. rewrite <- Ert in *.
    assert (Hne : skn_output s out <> []) by (rewrite Ert; discriminate). pose proof (or_dots _ _ _ _ Hr) as Hd.
    eapply (safe_run (output_ready cwd (skn_output s out) (names k)) (objs_only (R s out) (names k)) (rel_refl _ _ _) (rel_trans _ _ _)) in E as (E & _); [exact E | | exact Hr].
    eapply safe_bind; [apply dirs_safe; exact Hd|]. intros _ _. apply all_saved_safe; [assumption..|]. rewrite objs_names. apply incl_refl.
  Qed.

  (** C78: when the command succeeds, every submesh is made of triangles; the file of the last submesh of each name holds its text; nothing else is written. *)
  Theorem C78_done s out pl f a pl' f' k : mesh_at cwd f s k -> flat_names (names k) -> output_ready cwd (skn_output s out) (names k) f ->
    run (command s out) pl f = (Done a, pl', f') ->
    (forall e, In e (k_entries k) -> exists fs, triangles e fs) /\
    (forall e, last_named k e -> exists t, submesh_text show e t /\ look f' (obj_at (R s out) (e_name e)) = Some (NFile (enc t))) /\
    look f' (R s out) = Some NDir /\ objs_only (R s out) (names k) f f'.
  Proof.
    intros Hm Hf Hr E. pose proof (C78_frame s out pl f (Done a) pl' f' k Hm Hf Hr E) as HF. apply skn_run in E as [[_ E]|(k' & pl1 & Hm' & E)]; [destruct (E a eq_refl)|]. rewrite (mesh_at_fun _ _ _ _ Hm' Hm) in E. clear Hm'.
    apply done_bind in E as ([] & pl2 & f1 & E1 & E2). assert (Hne : skn_output s out <> []) by (intros Er; rewrite Er in E1; discriminate). pose proof (or_dots _ _ _ _ Hr) as Hd.
    pose proof E1 as E1d. apply makedirs_text_done in E1d as [_ Hdir]; [|apply Hr | exact Hd].
    eapply (safe_run (output_ready cwd (skn_output s out) (names k)) (objs_only (R s out) (names k)) (rel_refl _ _ _) (rel_trans _ _ _)) in E1 as (_ & Hr1 & _); [|apply dirs_safe; exact Hd | exact Hr].
    apply (all_saved_done cwd _ Hne Hd (names k) Hf) in E2 as (_ & G1 & G3 & G2); [|rewrite objs_names; apply incl_refl | exact Hr1].
    assert (HT : forall e, In e (k_entries k) -> exists t, submesh_text show e t /\ rmap enc (to_obj show e) = Ok (enc t)).
    { intros e He. destruct (G3 (e_name e) (rmap enc (to_obj show e))) as [b Eb]; [unfold skn_objs; apply (in_map (fun e => (e_name e, rmap enc (to_obj show e)))), He|].
      destruct (to_obj show e) as [t|x] eqn:Et; [|discriminate]. exists t. split; [apply submesh_text_iff, Et | reflexivity]. }
    split; [|split; [|split; [|exact HF]]].
    - intros e He. destruct (HT e He) as (t & (fs & Ht & _) & _). eauto.
    - intros e (l1 & l2 & El & Hl). destruct (HT e) as (t & Ht & Er); [rewrite El; apply in_elt|]. exists t. split; [exact Ht|].
      destruct (G1 (map (fun e => (e_name e, rmap enc (to_obj show e))) l1) (e_name e) (rmap enc (to_obj show e)) (map (fun e => (e_name e, rmap enc (to_obj show e))) l2)) as (b & Eb & Hb).
      + unfold skn_objs. rewrite El, map_app. reflexivity.
      + rewrite map_map. exact Hl.
      + rewrite Er in Eb. injection Eb as <-. exact Hb.
    - rewrite G2; [exact Hdir|]. intros n _ En. apply (obj_above cwd (skn_output s out) n). rewrite <- En. apply below_refl.
  Qed.

  (** C78: it succeeds when all the submeshes are made of triangles and nothing is in the way. *)
  Lemma dirs_free s out f k : flat_names (names k) -> skn_output s out <> [] -> output_ready cwd (skn_output s out) (names k) f -> unblocked (R s out) (names k) f ->
    exists f1, run (makedirs cwd (skn_output s out)) [] f = (Done tt, [], f1) /\ output_ready cwd (skn_output s out) (names k) f1 /\ free cwd (skn_output s out) (names k) f1 /\
      forall q, look f1 q = look f q \/ look f q = None /\ look f1 q = Some NDir /\ below (R s out) q.
  Proof.
    intros Hf Hne Hr [U1 U2]. pose proof (or_dots _ _ _ _ Hr) as Hd. destruct (makedirs_total cwd (skn_output s out) f) as [f1 E1]; [exact Hne | apply Hr | apply Hr | apply Hr | exact Hd | exact U1|].
    exists f1. split; [exact E1|]. pose proof E1 as E1d. apply makedirs_text_done in E1d as [_ Hdir]; [|apply Hr | exact Hd]. pose proof E1 as E1a.
    eapply (safe_run (dinv cwd (R s out)) (adds_dirs (R s out))) in E1a as (Ha & _); [|intros x q; auto | |apply makedirs_dinv, Hd | split; [|split]; apply Hr].
    2:{ intros a b c H1 H2 q. destruct (H2 q) as [E2|(E2 & E2' & B2)]; destruct (H1 q) as [E3|(E3 & E3' & B3)]; [left; congruence | right; rewrite E2; auto | right; rewrite <- E3; auto | right; split; [exact E3 | auto]]. }
    eapply (safe_run (output_ready cwd (skn_output s out) (names k)) (objs_only (R s out) (names k)) (rel_refl _ _ _) (rel_trans _ _ _)) in E1 as (HO & Hr1 & _); [|apply dirs_safe; exact Hd | exact Hr].
    split; [exact Hr1|]. split; [split; [exact Hdir|] | exact Ha]. intros n Hn E. destruct (Ha (obj_at (R s out) n)) as [E0|(_ & _ & B)]; [apply (U2 n Hn); congruence | exact (obj_above cwd (skn_output s out) n B)].
  Qed.
  Theorem C78_total s out f k : mesh_at cwd f s k -> flat_names (names k) -> skn_output s out <> [] -> output_ready cwd (skn_output s out) (names k) f -> unblocked (R s out) (names k) f ->
    (forall e, In e (k_entries k) -> exists fs, triangles e fs) -> exists f', run (command s out) [] f = (Done tt, [], f').
  Proof.
    intros Hm Hf Hne Hr Hu Ht. pose proof (or_dots _ _ _ _ Hr) as Hd. destruct (dirs_free s out f k Hf Hne Hr Hu) as (f1 & E1 & Hr1 & F1 & _).
    rewrite (skn_runs _ _ _ _ Hm), run_bind, E1. edestruct (all_saved_total cwd (skn_output s out) Hne Hd (names k) Hf (skn_objs show enc k) f1) as (f' & E & _); [rewrite objs_names; apply incl_refl | exact Hr1 | exact F1 | | eauto].
    intros n r Hi. apply in_map_iff in Hi as (e & Ee & He). injection Ee as <- <-. destruct (Ht e He) as [fs H]. rewrite (C33_obj_words show e fs H). cbn [rmap]. eauto.
  Qed.

  (** C78: otherwise the submeshes before the first one without triangles are written and an empty file is left for that one. *)
  Theorem C78_incomplete s out f k l1 e l2 : mesh_at cwd f s k -> flat_names (names k) -> skn_output s out <> [] -> output_ready cwd (skn_output s out) (names k) f -> unblocked (R s out) (names k) f ->
    k_entries k = l1 ++ e :: l2 -> (forall x, In x l1 -> exists fs, triangles x fs) -> lenN (e_indices e) mod 3 <> 0 ->
    exists f', run (command s out) [] f = (Raised ValueError, [], f') /\ look f' (obj_at (R s out) (e_name e)) = Some (NFile []) /\
      (forall a x b, l1 = a ++ x :: b -> ~ In (e_name x) (map e_name (b ++ [e])) -> exists t, submesh_text show x t /\ look f' (obj_at (R s out) (e_name x)) = Some (NFile (enc t))) /\
      forall x, In x l2 -> ~ In (e_name x) (map e_name (l1 ++ [e])) -> look f' (obj_at (R s out) (e_name x)) = look f (obj_at (R s out) (e_name x)).
  Proof.
    intros Hm Hf Hne Hr Hu Ek Ht He. pose proof (or_dots _ _ _ _ Hr) as Hd. destruct (dirs_free s out f k Hf Hne Hr Hu) as (f1 & E1 & Hr1 & F1 & Ha). apply (C33_obj_triangles show) in He.
    set (g := fun e => (e_name e, rmap enc (to_obj show e))).
    assert (Eo : skn_objs show enc k = map g l1 ++ (e_name e, Err ValueError) :: map g l2) by (unfold skn_objs; rewrite Ek, map_app; cbn [map]; rewrite He; reflexivity).
    assert (HI : incl (map fst (map g l1 ++ (e_name e, Err ValueError) :: map g l2)) (names k)) by (rewrite <- Eo, objs_names; apply incl_refl).
    destruct (all_saved_stops cwd (skn_output s out) Hne Hd (names k) Hf (map g l1) (e_name e) ValueError (map g l2) f1) as (f2 & f' & E2 & E3 & H1 & H2); [exact HI | exact Hr1 | exact F1 | |].
    { intros n r Hi. apply in_map_iff in Hi as (x & Ex & Hx). injection Ex as <- <-. destruct (Ht x Hx) as [fs H]. rewrite (C33_obj_words show x fs H). cbn [rmap]. eauto. }
    exists f'. rewrite (skn_runs _ _ _ _ Hm), run_bind, E1, Eo. split; [exact E3|]. split; [exact H1|].
    apply (all_saved_done cwd _ Hne Hd (names k) Hf) in E2 as (_ & G1 & G3 & G2); [|intros n Hn; apply HI; rewrite map_app; apply in_or_app; left; exact Hn | exact Hr1]. split.
    - intros a x b El Hx. rewrite map_app, in_app_iff in Hx. assert (Hxe : e_name x <> e_name e) by (intros E; apply Hx; right; left; symmetry; exact E).
      destruct (Ht x) as [fs Hfs]; [rewrite El; apply in_elt|]. exists (obj_lines (flat_map (vertex_words show) (e_vertices x) ++ map (fun f => face_words (fst (fst f)) (snd (fst f)) (snd f)) fs)). split; [exists fs; auto|].
      rewrite H2 by (apply obj_at_neq; exact Hxe). destruct (G1 (map g a) (e_name x) (rmap enc (to_obj show x)) (map g b)) as (c & Ec & Hc).
      + rewrite El, map_app. reflexivity.
      + rewrite map_map. cbn [g fst]. intros Hi. apply Hx. left. exact Hi.
      + rewrite (C33_obj_words show x fs Hfs) in Ec. cbn [rmap] in Ec. injection Ec as <-. exact Hc.
    - intros x Hx Hn. rewrite map_app, in_app_iff in Hn. rewrite H2, G2.
      + destruct (Ha (obj_at (R s out) (e_name x))) as [E|(_ & _ & B)]; [exact E | destruct (obj_above cwd (skn_output s out) _ B)].
      + rewrite map_map. cbn [g fst]. intros n Hi. apply obj_at_neq. intros E. apply Hn. left. rewrite E. exact Hi.
      + apply obj_at_neq. intros E. apply Hn. right. left. symmetry. exact E.
  Qed.
End C78.
Print Assumptions C78_missing.
Print Assumptions C78_stops.
Print Assumptions C78_frame.
Print Assumptions C78_done.
Print Assumptions C78_total.
Print Assumptions C78_incomplete.
(** C78: by default, the output directory is the path of the file without its extension. *)
Theorem C78_default s x e : extension s x e -> skn_output s None = x.
Proof. intros H. apply splitext_iff in H. unfold skn_output. rewrite H. reflexivity. Qed.
Print Assumptions C78_default.
Theorem C78_given s o : skn_output s (Some o) = o.
Proof. reflexivity. Qed.
Print Assumptions C78_given.

(** ** Examples *)
Local Definition enc (t : str) : bytes := map n2b t.
Local Definition with_subs (l : list submesh) : mesh :=
  {| x_major := 4; x_minor := 1; x_subs := l; x_extra := 0; x_vsize := 56; x_vtype := 1; x_box := repeat 0 10; x_indices := [0; 1; 2; 3; 4; 5; 3; 5; 4]; x_vertices := map SknProps.sv [10; 11; 12; 13; 14; 15] |}.
Local Definition disk_of (name : str) (x : mesh) : fs := [([name; lit "w"], NFile (mesh_bytes x)); ([lit "w"], NDir)].
Local Definition w : path := [lit "w"].
Local Definition disk := disk_of (lit "m.skn") SknProps.sample.
Lemma disk_has name x : name <> [] -> locate w (disk_of name x) true name = Ok [name; lit "w"] -> has_content w (disk_of name x) name (mesh_bytes x).
Proof. intros Hn El. exists [name; lit "w"]. split; [exact El|]. unfold disk_of, look. cbn [dget]. rewrite eqbR. reflexivity. Qed.
Local Definition mesh_of (x : mesh) : skn := match prun parse_skn (mesh_bytes x) with Ok k => k | Err _ => {| k_major := 0; k_minor := 0; k_entries := []; k_vertex_type := None |} end.
Lemma disk_mesh name x : name <> [] -> locate w (disk_of name x) true name = Ok [name; lit "w"] -> match prun parse_skn (mesh_bytes x) with Ok _ => true | Err _ => false end = true -> mesh_at w (disk_of name x) name (mesh_of x).
Proof. intros Hn El H. apply mesh_at_iff. exists (mesh_bytes x). split; [apply disk_has; assumption|]. unfold mesh_of. destruct (prun parse_skn (mesh_bytes x)); [reflexivity | discriminate]. Qed.
Example C78_hyps : exists k, mesh_at w disk (lit "m.skn") k /\ map e_name (k_entries k) = [lit "body"; lit "head"] /\ flat_names (map e_name (k_entries k)) /\ skn_output (lit "m.skn") None = lit "m" /\
  output_ready w (lit "m") (map e_name (k_entries k)) disk /\ unblocked (target w (lit "m")) (map e_name (k_entries k)) disk /\ (forall e, In e (k_entries k) -> (exists fs, triangles e fs) /\ last_named k e).
Proof.
  exists (mesh_of SknProps.sample). assert (EN : map e_name (k_entries (mesh_of SknProps.sample)) = [lit "body"; lit "head"]) by (vm_compute; reflexivity). rewrite EN.
  split; [apply disk_mesh; [discriminate | vm_compute; reflexivity | vm_compute; reflexivity]|]. split; [reflexivity|]. split; [intros n [<-|[<-|[]]]; vm_compute; intuition discriminate|]. split; [vm_compute; reflexivity|].
  split; [|split].
  - constructor; [apply wf_check_ok; vm_compute; reflexivity | vm_compute; reflexivity | vm_compute; intuition discriminate | apply no_links_ok; vm_compute; reflexivity|].
    intros n t [<-|[<-|[]]]; vm_compute; discriminate.
  - split; [|intros n [<-|[<-|[]]]; vm_compute; discriminate]. intros q [l E]. change (target w (lit "m")) with [lit "m"; lit "w"] in E. destruct l as [|a [|b [|c l]]]; cbn [app] in E.
    + subst q. left. vm_compute. reflexivity.
    + injection E as _ <-. right. vm_compute. reflexivity.
    + injection E as _ _ <-. right. reflexivity.
    + discriminate.
  - intros e He. assert (HL : k_entries (mesh_of SknProps.sample) = [nth 0 (k_entries (mesh_of SknProps.sample)) e; nth 1 (k_entries (mesh_of SknProps.sample)) e]) by (vm_compute; reflexivity).
    rewrite HL in He. cbn [In] in He. destruct He as [<-|[<-|[]]]; (split; [|rewrite HL in EN |- *]).
    + exists [(1, 2, 3)]. vm_compute. reflexivity.
    + eexists [], _. split; [exact HL|]. vm_compute. intuition discriminate.
    + exists [(1, 2, 3); (1, 3, 2)]. vm_compute. reflexivity.
    + eexists [_], []. split; [exact HL | intros []].
Qed.
Local Definition go s out f := run (command_skn_extract dec enc w s out) [] f.
Example C78_done_ex : fst (go (lit "m.skn") None disk) = (Done tt, []) /\
  (exists r, look (snd (go (lit "m.skn") None disk)) [lit "body.obj"; lit "m"; lit "w"] = Some (NFile (bl "v 10 1 2" ++ [n2b 10] ++ bl "vt 8 9" ++ r))) /\
  look (snd (go (lit "m.skn") (Some (lit "out")) disk)) [lit "head.obj"; lit "out"; lit "w"] = look (snd (go (lit "m.skn") None disk)) [lit "head.obj"; lit "m"; lit "w"].
Proof. split; [vm_compute; reflexivity|]. split; [|vm_compute; reflexivity]. eexists. vm_compute. reflexivity. Qed.
Example C78_missing_ex : go (lit "other.skn") None disk = (Raised SysExit, [], disk).
Proof. vm_compute. reflexivity. Qed.
(** The second submesh has four indices: it is left empty, and the third one is not written. *)
Local Definition broken := with_subs [SknProps.sub "a" 0 3 0 3; SknProps.sub "b" 0 3 0 4; SknProps.sub "c" 0 3 0 3].
Example C78_incomplete_ex : fst (go (lit "m.skn") None (disk_of (lit "m.skn") broken)) = (Raised ValueError, []) /\
  map (fun n => match look (snd (go (lit "m.skn") None (disk_of (lit "m.skn") broken))) [n; lit "m"; lit "w"] with Some (NFile b) => Some (negb (eqb b [])) | _ => None end) [lit "a.obj"; lit "b.obj"; lit "c.obj"] = [Some true; Some false; None].
Proof. vm_compute. split; reflexivity. Qed.

(** ** What does not hold *)

(** Names of submeshes are not checked: files are written outside of the output directory. *)
Theorem C78_outside_refuted : exists show enc cwd f s out k f' q, mesh_at cwd f s k /\ output_ready cwd (skn_output s out) (map e_name (k_entries k)) f /\
  run (command_skn_extract show enc cwd s out) [] f = (Done tt, [], f') /\ look f' q <> look f q /\ ~ below q (target cwd (skn_output s out)) /\ ~ below (target cwd (skn_output s out)) q.
Proof.
  set (x := with_subs [SknProps.sub "../../etc" 0 3 0 3]). exists dec, enc, w, (disk_of (lit "m.skn") x), (lit "m.skn"), (Some (lit "out")), (mesh_of x).
  eexists. exists [lit "etc.obj"]. split; [apply disk_mesh; [discriminate | vm_compute; reflexivity | vm_compute; reflexivity]|]. split.
  - constructor; [apply wf_check_ok; vm_compute; reflexivity | vm_compute; reflexivity | vm_compute; intuition discriminate | apply no_links_ok; vm_compute; reflexivity|].
    intros n t Hn. assert (EN : map e_name (k_entries (mesh_of x)) = [lit "../../etc"]) by (vm_compute; reflexivity). rewrite EN in Hn. destruct Hn as [<-|[]]. vm_compute. discriminate.
  - split; [vm_compute; reflexivity|]. split; [vm_compute; discriminate|]. split; intros [l E]; apply (f_equal (@rev _)) in E; rewrite rev_app_distr in E; vm_compute in E; discriminate.
Qed.
Print Assumptions C78_outside_refuted.
(** Submeshes of the same name overwrite each other. *)
Theorem C78_same_name_refuted : exists show enc cwd f s out k f' e t, mesh_at cwd f s k /\ flat_names (map e_name (k_entries k)) /\ output_ready cwd (skn_output s out) (map e_name (k_entries k)) f /\
  run (command_skn_extract show enc cwd s out) [] f = (Done tt, [], f') /\ In e (k_entries k) /\ submesh_text show e t /\ look f' (obj_at (target cwd (skn_output s out)) (e_name e)) <> Some (NFile (enc t)).
Proof.
  set (x := with_subs [SknProps.sub "a" 0 3 0 3; SknProps.sub "a" 3 3 3 6]). assert (EN : map e_name (k_entries (mesh_of x)) = [lit "a"; lit "a"]) by (vm_compute; reflexivity).
  exists dec, enc, w, (disk_of (lit "m.skn") x), (lit "m.skn"), (Some (lit "out")), (mesh_of x).
  eexists. exists (nth 0 (k_entries (mesh_of x)) {| e_name := []; e_vertices := []; e_indices := [] |}). eexists. rewrite EN. split; [apply disk_mesh; [discriminate | vm_compute; reflexivity | vm_compute; reflexivity]|]. split; [intros n [<-|[<-|[]]]; vm_compute; intuition discriminate|]. split.
  - constructor; [apply wf_check_ok; vm_compute; reflexivity | vm_compute; reflexivity | vm_compute; intuition discriminate | apply no_links_ok; vm_compute; reflexivity|].
    intros n t [<-|[<-|[]]]; vm_compute; discriminate.
  - split; [vm_compute; reflexivity|]. split; [vm_compute; left; reflexivity|]. split; [exists [(1, 2, 3)]; split; [vm_compute; reflexivity | reflexivity]|]. vm_compute. discriminate.
Qed.
Print Assumptions C78_same_name_refuted.
(** Without extension, the default output is the file itself. *)
Theorem C78_default_refuted : exists show enc cwd f s k, mesh_at cwd f s k /\ flat_names (map e_name (k_entries k)) /\ (forall e, In e (k_entries k) -> exists fs, triangles e fs) /\
  output_ready cwd (skn_output s None) (map e_name (k_entries k)) f /\ run (command_skn_extract show enc cwd s None) [] f = (Raised (OSError EEXIST), [], f).
Proof.
  destruct C78_hyps as (k & Hm & EN & Hf & _ & _ & _ & Ht). exists dec, enc, w, (disk_of (lit "mesh") SknProps.sample), (lit "mesh"), k.
  assert (Ek : k = mesh_of SknProps.sample).
  { eapply mesh_at_fun; [exact Hm|]. apply disk_mesh; [discriminate | vm_compute; reflexivity | vm_compute; reflexivity]. }
  subst k. split; [apply disk_mesh; [discriminate | vm_compute; reflexivity | vm_compute; reflexivity]|]. split; [exact Hf|]. split; [intros e He; apply (Ht e He)|]. split.
  - rewrite EN. constructor; [apply wf_check_ok; vm_compute; reflexivity | vm_compute; reflexivity | vm_compute; intuition discriminate | apply no_links_ok; vm_compute; reflexivity|].
    intros n t [<-|[<-|[]]]; vm_compute; discriminate.
  - vm_compute. reflexivity.
Qed.
Print Assumptions C78_default_refuted.
