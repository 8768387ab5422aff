(** * Claim C69: download and listing of RADS solutions *)

From Coq Require Import Permutation.
From Verif Require Import Base.PyFacts Base.Text Base.Utf8 Base.Fs Spec.FsSpec Base.FsFacts Model.Files Spec.FilesSpec
  Model.Rads Spec.RadsSpec Model.RadsDownload Spec.RadsDownloadSpec Proofs.RadsDownloadProofs.

Section C69.
  Variable cwd : path.
  Variable base : str.
  (** zlib, and what it computes. *)
  Variable zst : Type.
  Variable zinit : zst.
  Variable zstep : zst -> bytes -> result (zst * bytes).
  Variable zflush : zst -> result bytes.
  Variable inflate : bytes -> result bytes.
  Hypothesis Hz : zlaw zst zinit zstep zflush inflate.
  (** The server, and the order of sets. *)
  Variable get : str -> result bytes.
  Variable net : str -> result (list bytes).
  Variable order : list pv -> list pv.
  Hypothesis Horder : forall l, Permutation l (order l).
  Variables name version : str.
  Variable langs : langs_arg.
  Variable f : fs.
  Hypothesis Hready : ready cwd (path_join base (solution_file name version)) f.
  Hypothesis Hsite : forall ps, selected cwd base get f name version langs ps -> site cwd base get f ps.
  Variable pl : plan.
  Variable o : outcome unit.
  Variable pl' : plan.
  Variable f' : fs.
  Hypothesis Hrun : run (sv_download cwd base zst zinit zstep zflush get net order name version langs) pl f = (o, pl', f').
  Notation tgt := (pkg_target cwd base).

  (** Whatever happens, existing files are unchanged, and nothing is created but the manifests and the packaged files of the
      selected project versions, and directories leading to them. *)
  Theorem C69_frame : keeps f f' /\ only_files (touched cwd base get f name version langs) f f'.
  Proof. eapply sv_step in Hrun as [(H1 & _ & H2 & _) _]; eauto. Qed.

  (** Unless the process dies or the removal of an incomplete file fails, a new file is complete: it is a manifest as it was
      received, or has the bytes advertised by the manifest of its project version. *)
  Theorem C69_contents : clean o pl pl' -> forall q b, look f' q = Some (NFile b) -> look f q = Some (NFile b) \/ downloaded cwd base get inflate net f name version langs q b.
  Proof. eapply sv_step in Hrun as [(_ & _ & _ & H) _]; eauto. Qed.

  (** After a successful download, the manifests and all packaged files of all selected project versions are there. *)
  Theorem C69_complete : o = Done tt -> is_file f' (at_ cwd base (solution_file name version)) /\
    exists ps, selected cwd base get f name version langs ps /\
      forall p, In p ps -> is_file f' (at_ cwd base (release_file p)) /\ is_file f' (at_ cwd base (package_list p)) /\
        exists l, packaged cwd base get f p l /\ forall pf, In pf l -> is_file f' (tgt pf).
  Proof.
    intros Ho. eapply sv_step in Hrun as [_ H]; eauto. destruct (H Ho) as (ps & Hs & (d & t & ds & Hd & _) & _ & HK). split; [exists d; exact Hd|]. exists ps. split; [exact Hs|].
    intros p Hp. destruct (HK p Hp) as (_ & _ & H1 & dp & l & Hl & Hdp & _ & HF). split; [exact H1|]. split; [exists dp; exact Hdp|]. exists l. split; [exact Hl|].
    rewrite Forall_forall in HF. intros pf Hpf. apply HF, Hpf.
  Qed.

  (** A second download changes nothing, whatever the server answers then, and succeeds even without a server. *)
  Theorem C69_again : o = Done tt -> forall get2 net2 order2, (forall l, Permutation l (order2 l)) ->
    run (sv_download cwd base zst zinit zstep zflush get2 net2 order2 name version langs) [] f' = (Done tt, [], f') /\
    forall pl2 o2 pl2' f2, run (sv_download cwd base zst zinit zstep zflush get2 net2 order2 name version langs) pl2 f' = (o2, pl2', f2) -> f2 = f'.
  Proof.
    intros Ho get2 net2 order2 H2. eapply sv_step in Hrun as [_ H]; eauto. destruct (H Ho) as (ps & Hs & HK). eapply sv_again; eauto.
  Qed.

  Lemma listing_files : o = Done tt -> forall get2 order2, (forall l, Permutation l (order2 l)) ->
    exists xs, (forall y, In y xs <-> solution_path cwd base get f name version langs y) /\ (forall y, In y xs -> is_file f' (target cwd (path_join base y))) /\
      forall A (h : str -> result A), run (sv_paths cwd base get2 order2 h name version langs) [] f' = (match rmapM h xs with Ok r => Done r | Err e => Raised e end, [], f').
  Proof.
    intros Ho get2 order2 H2. pose proof Hrun as Hrun1. eapply sv_step in Hrun1 as [_ H]; eauto. destruct (H Ho) as (ps & Hs & HK).
    destruct (paths_run cwd base get2 order2 H2 name version langs f' ps _ HK (packaged_fun cwd base get f)) as (xs & HX & E). exists xs. split; [|split; [|exact E]].
    - intros y. rewrite HX. split.
      + intros (p & l & pf & Hp & Hl & Hpf & _ & ->). exists ps, p, l, pf. auto.
      + intros (ps' & p & l & pf & Hs' & Hp & Hl & Hpf & ->). assert (ps' = ps) as -> by (eapply selected_fun; eassumption).
        exists p, l, pf. repeat split; auto. destruct HK as (_ & _ & HK). destruct (HK p Hp) as (_ & _ & _ & d & l' & Hl' & _ & _ & HF).
        assert (l' = l) as -> by (eapply packaged_fun; eassumption). rewrite Forall_forall in HF. apply HF, Hpf.
    - intros y Hy. apply HX in Hy as (p & l & pf & _ & _ & _ & Hf & ->). exact Hf.
  Qed.

  (** Nor does the listing of the paths need the server: it gives the paths of the packaged files, which exist. *)
  Theorem C69_list : o = Done tt -> forall get2 order2, (forall l, Permutation l (order2 l)) ->
    exists r, run (elem_fspaths cwd base get2 order2 name version langs) [] f' = (Done r, [], f') /\
      (forall x, In x r <-> exists y, solution_path cwd base get f name version langs y /\ x = path_join base y) /\
      forall x, In x r -> is_file f' (target cwd x).
  Proof.
    intros Ho get2 order2 H2. destruct (listing_files Ho get2 order2 H2) as (xs & HX & HF & E).
    exists (map (path_join base) xs). assert (Em : rmapM (fun p => Ok (fspath base p)) xs = Ok (map (path_join base) xs)).
    { clear. induction xs as [|x xs IH]; cbn [rmapM map rbind]; [reflexivity|]. rewrite IH. reflexivity. }
    unfold elem_fspaths. rewrite E, Em. split; [reflexivity|]. split.
    - intros x. rewrite in_map_iff. split; [intros (y & <- & Hy); exists y; split; [apply HX, Hy | reflexivity] | intros (y & Hy & ->); exists y; split; [reflexivity | apply HX, Hy]].
    - intros x Hx. apply in_map_iff in Hx as (y & <- & Hy). apply HF, Hy.
  Qed.

  (** With the relative paths: what follows the fifth slash of the path, in lower case.  A path with less slashes is an
      error. *)
  Theorem C69_paths : o = Done tt -> forall get2 order2, (forall l, Permutation l (order2 l)) ->
    (forall y, solution_path cwd base get f name version langs y -> exists r, rel_of y r) /\
    (exists l, run (elem_paths cwd base get2 order2 name version langs) [] f' = (Done l, [], f') /\
       run (elem_relpaths cwd base get2 order2 name version langs) [] f' = (Done (map snd l), [], f') /\
       run (elem_fspaths cwd base get2 order2 name version langs) [] f' = (Done (map fst l), [], f') /\
       forall x r, In (x, r) l <-> exists y, solution_path cwd base get f name version langs y /\ x = path_join base y /\ rel_of y r) \/
    (exists y, solution_path cwd base get f name version langs y /\ forall r, ~ rel_of y r) /\
    run (elem_paths cwd base get2 order2 name version langs) [] f' = (Raised IndexError, [], f') /\
    run (elem_relpaths cwd base get2 order2 name version langs) [] f' = (Raised IndexError, [], f').
  Proof.
    intros Ho get2 order2 H2. destruct (listing_files Ho get2 order2 H2) as (xs & HX & HF & E). unfold elem_paths, elem_relpaths, elem_fspaths. rewrite !E.
    destruct (relpaths_cases base xs) as [(l & E1 & E2 & E3 & H)|((y & Hy & Hn) & E1 & E2)].
    - left. rewrite E1, E2, E3. split.
      + intros y Hy. apply HX in Hy. destruct (relpath y) as [r|e] eqn:Er; [exists r; apply relpath_ok, Er|]. apply rmapM_Ok in E2. exfalso. clear -E2 Hy Er.
        induction E2 as [|a b ys zs E2 _ IH]; [destruct Hy|]. destruct Hy as [->|Hy]; [congruence | auto].
      + exists l. repeat split.
        * intros Hi. apply H in Hi as (y & Hy & H'). exists y. split; [apply HX, Hy | exact H'].
        * intros (y & Hy & H'). apply H. exists y. split; [apply HX, Hy | exact H'].
    - right. rewrite E1, E2. split; [exists y; split; [apply HX, Hy | exact Hn]|]. split; reflexivity.
  Qed.
End C69.
Print Assumptions C69_frame.
Print Assumptions C69_contents.
Print Assumptions C69_complete.
Print Assumptions C69_again.
Print Assumptions C69_list.
Print Assumptions C69_paths.

(** The relative path of a path. *)
Theorem C69_relpath p : (forall r, relpath p = Ok r <-> rel_of p r) /\ ((forall r, ~ rel_of p r) -> relpath p = Err IndexError).
Proof.
  split; [intros r; apply relpath_ok|]. intros H. destruct (relpath p) as [r|e] eqn:E; [destruct (H r); apply relpath_ok, E | rewrite (relpath_err _ _ E); reflexivity].
Qed.
Print Assumptions C69_relpath.

(** ** An example *)

Local Definition z0 : bytes := [].
Local Definition zs (z w : bytes) : result (bytes * bytes) := Ok (z ++ w, []).
Local Definition zf (z : bytes) : result bytes := Ok (rev z).
Local Definition nls : str := [cNL].
Local Definition enc1 (s : str) : bytes := map (fun c => match Byte.of_N c with Some b => b | None => Byte.x00 end) s.
Local Definition wd : path := [lit "w"].
Local Definition disk : fs := [(wd, NDir); ([lit "rads"; lit "w"], NDir)].
Local Definition base1 : str := lit "/w/rads".
Local Definition sln : str := lit "league_client_sln".
Local Definition pa : pv := (lit "a", lit "0.0.0.1").
Local Definition pb : pv := (lit "b", lit "0.0.0.2").
Local Definition sln_data : bytes := enc1 (join nls [lit "RADS Solution Manifest"; lit "1.0.0.0"; sln; lit "0.0.1.0"; lit "2";
  lit "a"; lit "0.0.0.1"; lit "0"; lit "0"; lit "b"; lit "0.0.0.2"; lit "10"; lit "0"; lit "1"; lit "fr_fr"; lit "0"; lit "2"; lit "a"; lit "b"]).
Local Definition pkg_a : bytes := enc1 (join nls [lit "PKG1"; lit "/projects/a/releases/0.0.0.1/files/Deploy/x.TXT,BIN,0,4,0"; lit "/projects/a/releases/0.0.0.1/files/y.compressed,BIN,5,3,0"]).
Local Definition pkg_b : bytes := enc1 (join nls [lit "PKG1"; lit "/projects/b/releases/0.0.0.2/files/fr.txt,BIN,1,2,0"]).
Local Definition get1 (u : str) : result bytes :=
  if eqb u (lit "solutions/league_client_sln/releases/0.0.1.0/solutionmanifest") then Ok sln_data
  else if eqb u (lit "projects/a/releases/0.0.0.1/packages/files/packagemanifest") then Ok pkg_a
  else if eqb u (lit "projects/b/releases/0.0.0.2/packages/files/packagemanifest") then Ok pkg_b
  else if endswith u (lit "/releasemanifest") then Ok (bl "release") else Err HTTPError.
Local Definition net1 (u : str) : result (list bytes) := if endswith u (lit "/packages/files/BIN") then Ok [bl "hell"; bl "oc"; bl "ba"] else Err HTTPError.
Local Definition dl1 := run (sv_download wd base1 bytes z0 zs zf get1 net1 (fun l => l) sln (lit "0.0.1.0") LTrue) [] disk.
Local Definition off : str -> result bytes := fun _ => Err HTTPError.
Example C69_ex :
  fst dl1 = (Done tt, []) /\
  look (snd dl1) (target wd (lit "/w/rads/projects/a/releases/0.0.0.1/files/Deploy/x.TXT")) = Some (NFile (bl "hell")) /\
  look (snd dl1) (target wd (lit "/w/rads/projects/a/releases/0.0.0.1/files/y")) = Some (NFile (bl "abc")) /\
  look (snd dl1) (target wd (lit "/w/rads/projects/b/releases/0.0.0.2/files/fr.txt")) = Some (NFile (bl "el")) /\
  look (snd dl1) (target wd (lit "/w/rads/projects/b/releases/0.0.0.2/releasemanifest")) = Some (NFile (bl "release")) /\
  run (sv_download wd base1 bytes z0 zs zf off (fun _ => Err HTTPError) (fun l => rev l) sln (lit "0.0.1.0") LTrue) [] (snd dl1) = (Done tt, [], snd dl1) /\
  run (elem_paths wd base1 off (fun l => l) sln (lit "0.0.1.0") LTrue) [] (snd dl1) = (Done [
    (lit "/w/rads/projects/a/releases/0.0.0.1/files/Deploy/x.TXT", lit "deploy/x.txt"); (lit "/w/rads/projects/a/releases/0.0.0.1/files/y", lit "y");
    (lit "/w/rads/projects/b/releases/0.0.0.2/files/fr.txt", lit "fr.txt")], [], snd dl1) /\
  (* a language which is not in the manifest *)
  fst (run (sv_download wd base1 bytes z0 zs zf get1 net1 (fun l => l) sln (lit "0.0.1.0") (LOne (lit "de_de"))) [] disk) = (Raised KeyError, []).
Proof. vm_compute. repeat split. Qed.

Local Definition l_a : list pkgfile := [
  {| k_path := lit "projects/a/releases/0.0.0.1/files/Deploy/x.TXT"; k_package := lit "BIN"; k_offset := 0; k_size := 4; k_compressed := false; k_extract := lit "projects/a/releases/0.0.0.1/files/Deploy/x.TXT" |};
  {| k_path := lit "projects/a/releases/0.0.0.1/files/y.compressed"; k_package := lit "BIN"; k_offset := 5; k_size := 3; k_compressed := true; k_extract := lit "projects/a/releases/0.0.0.1/files/y" |} ].
Local Definition l_b : list pkgfile := [
  {| k_path := lit "projects/b/releases/0.0.0.2/files/fr.txt"; k_package := lit "BIN"; k_offset := 1; k_size := 2; k_compressed := false; k_extract := lit "projects/b/releases/0.0.0.2/files/fr.txt" |} ].
Local Lemma listed_a : listed pkg_a l_a.
Proof. eexists _, _. split; [vm_compute; reflexivity|]. split; [vm_compute; reflexivity|]. vm_compute. reflexivity. Qed.
Local Lemma listed_b : listed pkg_b l_b.
Proof. eexists _, _. split; [vm_compute; reflexivity|]. split; [vm_compute; reflexivity|]. vm_compute. reflexivity. Qed.
Local Lemma disk_ready s : plain_path s -> ready wd s disk.
Proof.
  intros Hs. split; [exact Hs|]. split; [|split; [|reflexivity]].
  - intros q t _ H. destruct q as [|x q]; [discriminate|]. unfold look, disk, wd in H. cbn [dget] in H. repeat (destruct (eqb _ _) in H; [discriminate|]). discriminate.
  - intros x p H. unfold look, disk, wd in H. cbn [dget] in H.
    destruct (eqbP ((x :: p) : path) [lit "w"]) as [E|]; [injection E as -> ->; reflexivity|].
    destruct (eqbP ((x :: p) : path) [lit "rads"; lit "w"]) as [E|]; [injection E as -> ->; reflexivity | congruence].
Qed.
Local Lemma plain_by s : (negb (mem dotdot (comps s)) && negb (eqb (dirname s) []) && negb (eqb (basename s) []) && negb (eqb (basename s) [cDot])) = true -> plain_path s.
Proof.
  intros H. repeat (apply andb_prop in H as [H ?]). repeat match goal with H : negb _ = true |- _ => apply negb_true_iff in H end.
  split; [apply mem_false; assumption|]. repeat split; apply eqbF; assumption.
Qed.
(** The example meets the hypotheses. *)
Example C69_hyps : zlaw bytes z0 zs zf (fun b => Ok (rev b)) /\ (forall l : list pv, Permutation l ((fun l => l) l)) /\
  ready wd (path_join base1 (solution_file sln (lit "0.0.1.0"))) disk /\
  selected wd base1 get1 disk sln (lit "0.0.1.0") LTrue [pa; pb] /\
  forall ps, selected wd base1 get1 disk sln (lit "0.0.1.0") LTrue ps -> site wd base1 get1 disk ps.
Proof.
  assert (HS : selected wd base1 get1 disk sln (lit "0.0.1.0") LTrue [pa; pb]).
  { exists sln_data. eexists _, _. split; [right; split; [intros [b Hb]; vm_compute in Hb; discriminate | vm_compute; reflexivity]|]. split; [vm_compute; reflexivity|]. split; vm_compute; reflexivity. }
  split; [|split; [intros l; apply Permutation_refl|split; [apply disk_ready, plain_by; vm_compute; reflexivity|split; [exact HS|]]]].
  - intros ws. assert (G : forall ws z, zfeed bytes zs z ws = Ok (z ++ concat ws, [])).
    { clear. induction ws as [|w ws IH]; intros z; cbn [zfeed concat]; [rewrite app_nil_r; reflexivity|].
      unfold zs at 1. cbn [rbind]. rewrite IH. cbn [rbind app]. rewrite <- app_assoc. reflexivity. }
    unfold zall. rewrite G. reflexivity.
  - intros ps Hps. assert (ps = [pa; pb]) as -> by (eapply selected_fun; eassumption). split; [|split].
    + intros p [<-|[<-|[]]]; split; apply disk_ready, plain_by; vm_compute; reflexivity.
    + intros p p' [<-|[<-|[]]] [<-|[<-|[]]] E; try reflexivity; vm_compute in E; discriminate.
    + intros p l Hp Hl.
      assert (Hpl : l = l_a /\ p = pa \/ l = l_b /\ p = pb).
      { destruct Hp as [<-|[<-|[]]]; [left | right]; (split; [|reflexivity]); (eapply packaged_fun; [exact Hl|]);
          [exists pkg_a | exists pkg_b]; (split; [right; split; [intros [b Hb]; vm_compute in Hb; discriminate | vm_compute; reflexivity] | apply listed_a || apply listed_b]). }
      destruct Hpl as [[-> ->]|[-> ->]]; (split; [|split]).
      * repeat (apply Forall_cons; [split; [vm_compute; discriminate|]; split; [vm_compute; discriminate|]; apply disk_ready, plain_by; vm_compute; reflexivity|]). constructor.
      * intros a b [<-|[<-|[]]] [<-|[<-|[]]] E; try reflexivity; vm_compute in E; discriminate.
      * intros pf p' [<-|[<-|[]]] [<-|[<-|[]]] E; vm_compute in E; discriminate.
      * repeat (apply Forall_cons; [split; [vm_compute; discriminate|]; split; [vm_compute; discriminate|]; apply disk_ready, plain_by; vm_compute; reflexivity|]). constructor.
      * intros a b [<-|[]] [<-|[]] _. reflexivity.
      * intros pf p' [<-|[]] [<-|[<-|[]]] E; vm_compute in E; discriminate.
Qed.

(** The manifests are trusted: a package manifest may make the download write outside of the storage. *)
Local Definition get2 (u : str) : result bytes :=
  if endswith u (lit "/packages/files/packagemanifest") then Ok (enc1 (join nls [lit "PKG1"; lit "//w/x,BIN,0,4,0"])) else get1 u.
Theorem C69_inside_refuted : exists get net f f', ~ is_file f [lit "x"; lit "w"] /\
  run (sv_download wd base1 bytes z0 zs zf get net (fun l => l) sln (lit "0.0.1.0") LTrue) [] f = (Done tt, [], f') /\
  look f' [lit "x"; lit "w"] = Some (NFile (bl "hell")) /\ ~ below [lit "x"; lit "w"] (target wd base1).
Proof.
  exists get2, net1, disk. eexists. split; [intros [b Hb]; vm_compute in Hb; discriminate|]. split; [vm_compute; reflexivity|]. split; [vm_compute; reflexivity|].
  intros [l E]. vm_compute in E. destruct l as [|x [|y l]]; cbn in E; try discriminate. apply (f_equal (@length _)) in E. cbn in E. rewrite app_length in E. cbn in E. lia.
Qed.
Print Assumptions C69_inside_refuted.
