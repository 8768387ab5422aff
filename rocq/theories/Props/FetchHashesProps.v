(** * Claim C70: update of the hash files *)

From Coq Require Import QArith_base.
From Verif Require Import Base.PyFacts Base.Text Base.TextFacts Base.Fs Spec.FsSpec Base.FsFacts Model.Files Spec.FilesSpec Proofs.FilesProofs
  Model.Hashes Model.Cli Model.FetchHashes Spec.FetchHashesSpec Proofs.FetchDateProofs Proofs.FetchHashesProofs.
Local Open Scope N_scope.

(** ** Dates *)

(** The calendar: valid dates are numbered one after the other, without gaps. *)
Theorem C70_calendar d : valid d -> (exists n, day_no d n) /\ (forall n n', day_no d n -> day_no d n' -> n = n') /\ (forall d' n, valid d' -> day_no d n -> day_no d' n -> d' = d).
Proof.
  destruct d as [y m x]. intros V. apply valid_iff in V. split; [eexists; apply day_no_exists, V|]. split.
  - intros n n' H H'. apply day_no_ordinal in H, H'. congruence.
  - intros [y' m' x'] n V' H H'. apply valid_iff in V'. apply day_no_ordinal in H, H'. cbn [yr mo da] in H, H'.
    destruct (ordinal_inj y' m' x' y m x V' V) as (-> & -> & ->); [lia | reflexivity].
Qed.
Print Assumptions C70_calendar.
(** A date of a header is read as the instant it denotes; the weekday does not matter. *)
Theorem C70_date w d mon hh mi ss t : weekday w -> month_name (mo d) mon -> instant d hh mi ss t -> http_date (http_text w d mon hh mi ss) = Ok t.
Proof. apply http_date_text. Qed.
Print Assumptions C70_date.
(** No other text is read as something which is not an instant: 30 February or 24:00:00 are errors. *)
Theorem C70_date_valid s : (forall t, http_date s = Ok t -> exists d hh mi ss, instant d hh mi ss t) /\ (forall e, http_date s = Err e -> e = ValueError).
Proof.
  split; [apply http_date_Ok|]. intros e E. unfold http_date in E.
  assert (PN : forall l s e, p_name l s = Err e -> e = ValueError).
  { clear. intros l s e. unfold p_name. assert (I : forall x i, index_of x l i = Err e -> e = ValueError).
    { induction l as [|y l IH]; intros x i; cbn [index_of]; [intros X; injection X as <-; reflexivity|]. destruct (eqb x y); [discriminate | apply IH]. }
    destruct (index_of _ _ _) eqn:Ei; cbn [rbind]; [discriminate|]. intros X. injection X as <-. apply I in Ei. exact Ei. }
  assert (PL : forall p s e, p_lit p s = Err e -> e = ValueError) by (clear; intros p s e; unfold p_lit; destruct (startswith _ _); [discriminate|]; intros X; injection X as <-; reflexivity).
  assert (PS : forall s e, p_spaces s = Err e -> e = ValueError) by (clear; intros [|c s] e; cbn [p_spaces]; [intros X; injection X as <-; reflexivity|]; destruct (is_space c); [discriminate|]; intros X; injection X as <-; reflexivity).
  assert (PD : forall l a b s e, p_number l a b s = Err e -> e = ValueError) by (clear; intros l a b s e; unfold p_number; destruct (p_digits s); destruct (_ && _)%bool; [discriminate|]; intros X; injection X as <-; reflexivity).
  repeat match type of E with
  | rbind ?r ?k = Err e => let a := fresh "a" in let x := fresh "x" in let Er := fresh "Er" in destruct r as [a|x] eqn:Er; cbn [rbind] in E; [try destruct a as [? ?]; clear Er | injection E as ->; (eapply PN; exact Er) || (eapply PL; exact Er) || (eapply PS; exact Er) || (eapply PD; exact Er)]
  end.
  all: repeat match type of E with (match ?s with _ => _ end) = _ => destruct s end; try discriminate E; injection E as <-; reflexivity.
Qed.
Print Assumptions C70_date_valid.
Example C70_date_ex : http_date (lit "Sun, 06 Nov 1994 08:49:37 GMT") = Ok 784111777%Z /\ http_date (lit "Thu, 29 Feb 2024 23:59:59 GMT") = Ok 1709251199%Z /\
  http_date (lit "Wed, 29 Feb 2023 00:00:00 GMT") = Err ValueError /\ http_date (lit "Wed, 31 Dec 1969 23:59:59 GMT") = Ok (-1)%Z /\ http_date (lit "Sun, 06 Nov 1994 08:49:37 +0000") = Err ValueError /\
  http_text (lit "Sun") {| yr := 1994; mo := 11; da := 6 |} (lit "Nov") 8 49 37 = lit "Sun, 06 Nov 1994 08:49:37 GMT" /\
  weekday (lit "Sun") /\ month_name 11 (lit "Nov") /\ instant {| yr := 1994; mo := 11; da := 6 |} 8 49 37 784111777.
Proof.
  repeat (split; [vm_compute; reflexivity|]). split; [repeat ((left; reflexivity) || right)|]. split; [repeat ((left; reflexivity) || right)|].
  apply instant_iff. repeat split; vm_compute; (discriminate || reflexivity).
Qed.

(** ** Files *)

Section C70.
  Variable cwd : path.
  Variables dir src : ppath.
  Variable mtime : str -> Q.
  Variable head : str -> result str.
  Variable get : str -> result bytes.
  Variable f : fs.
  Variable pl : plan.
  Variable o : outcome unit.
  Variable pl' : plan.
  Variable f' : fs.
  Hypothesis Hrun : run (fetch_hashes cwd dir mtime head get src) pl f = (o, pl', f').

  (** The hashes which come with the source are never updated. *)
  Theorem C70_bundled : dir = src -> o = Raised SysExit /\ f' = f.
  Proof. intros H. rewrite (fetch_bundled cwd dir mtime head get src pl f H) in Hrun. injection Hrun as <- <- <-. auto. Qed.

  Hypothesis Hdir : good_dir dir.
  Hypothesis Huse : usable cwd dir f.
  Hypothesis Hsrc : dir <> src.

  (** Whatever happens, nothing else than the nine files is changed, and only directories leading to them are created. *)
  Theorem C70_frame : only_files (fun q => exists n, In n hash_files /\ q = place cwd dir n) f f' /\ usable cwd dir f'.
  Proof. eapply fetch_step in Hrun as (H1 & H2 & _); eauto. Qed.

  (** After a success each file is either there as before and not older than the one of the server, or the one of the server. *)
  Theorem C70_done : o = Done tt -> forall n, In n hash_files -> updated http_date mtime head get cwd dir f f' n.
  Proof. eapply fetch_step in Hrun as (_ & _ & H & _); eauto. Qed.

  (** Otherwise the files before some file have been updated, those after it are unchanged, and that file is unchanged or gone
      (unless the process died or the removal of the incomplete file failed). *)
  Theorem C70_stops : o <> Done tt -> exists pre n post, hash_files = pre ++ n :: post /\
    (forall m, In m pre -> updated http_date mtime head get cwd dir f f' m) /\ (forall m, In m post -> look f' (place cwd dir m) = look f (place cwd dir m)) /\
    (clean o pl pl' -> look f' (place cwd dir n) = look f (place cwd dir n) \/ ~ is_file f' (place cwd dir n)).
  Proof. eapply fetch_step in Hrun as (_ & _ & _ & H & _); eauto. Qed.

  (** When nothing can be downloaded, no file is changed. *)
  Theorem C70_offline : (forall n b, In n hash_files -> get (url_of n) <> Ok b) ->
    forall q, look f' q = look f q \/ look f q = None /\ look f' q = Some NDir.
  Proof.
    intros Hg q. eapply fetch_step in Hrun as (_ & _ & _ & _ & H); eauto. destruct (H Hg q) as [E|(E & E' & _)]; auto.
  Qed.

  (** When all files are there and recent, nothing is downloaded or changed. *)
  Theorem C70_fresh : failures pl = 0%nat -> (forall n, In n hash_files -> look f (place cwd dir n) <> None /\ current http_date mtime head n) -> o = Done tt /\ f' = f.
  Proof.
    intros Hf Hc. destruct (run_no_failure (fetch_hashes cwd dir mtime head get src) pl f Hf) as (pl2 & _ & E).
    rewrite (fetch_current cwd dir Hdir mtime head get src f Hsrc Huse Hc) in E. rewrite Hrun in E. cbn [fst snd] in E. injection E as -> _ ->. auto.
  Qed.
End C70.
Print Assumptions C70_bundled.
Print Assumptions C70_frame.
Print Assumptions C70_done.
Print Assumptions C70_stops.
Print Assumptions C70_offline.
Print Assumptions C70_fresh.

(** ** An example *)

Local Definition hdir : ppath := mkpath (lit "/home/h/hashes").
Local Definition hsrc : ppath := mkpath (lit "/usr/lib/cdtb").
Local Definition game : str := lit "hashes.game.txt".
Local Definition lcu : str := lit "hashes.lcu.txt".
Local Definition first : str := lit "hashes.binentries.txt".
Local Definition disk : fs := [([lit "home"], NDir); ([lit "h"; lit "home"], NDir); ([lit "hashes"; lit "h"; lit "home"], NDir);
  (place [] hdir first, NFile (bl "entries")); (place [] hdir game, NFile (bl "old")); (place [] hdir lcu, NFile (bl "kept"))].
Local Definition mtime1 (n : str) : Q := if eqb n lcu then inject_Z 784111777 else if eqb n game then Qmake 1568223553 2 else 0.
Local Definition head1 (u : str) : result str := if eqb u (url_of first) then Ok (lit "Thu, 01 Jan 1970 00:00:00 GMT") else Ok (lit "Sun, 06 Nov 1994 08:49:37 GMT").
Local Definition get1 (u : str) : result bytes := Ok (bl "new").
Local Definition got := run (fetch_hashes [] hdir mtime1 head1 get1 hsrc) [] disk.
Example C70_ex : fst got = (Done tt, []) /\ look (snd got) (place [] hdir game) = Some (NFile (bl "new")) /\ look (snd got) (place [] hdir lcu) = Some (NFile (bl "kept")) /\
  look (snd got) (place [] hdir first) = Some (NFile (bl "entries")) /\ look (snd got) (place [] hdir (lit "hashes.rst.xxh3.txt")) = Some (NFile (bl "new")) /\
  (* in an empty home *)
  (let r := run (fetch_hashes [] hdir mtime1 head1 get1 hsrc) [] [] in fst r = (Done tt, []) /\ look (snd r) (place [] hdir lcu) = Some (NFile (bl "new"))).
Proof. vm_compute. repeat split. Qed.
Local Lemma disk_usable cwd d : look disk cwd = Some NDir -> usable cwd d disk.
Proof.
  intros Hc. split; [apply wf_by; vm_compute; reflexivity|]. split; [exact Hc|]. intros n _. apply nolink_by. vm_compute. reflexivity.
Qed.
Local Lemma hdir_good : good_dir hdir.
Proof.
  split; [right; left; reflexivity|]. split; [|left; discriminate].
  repeat (apply Forall_cons; [repeat split; try discriminate; apply mem_false; reflexivity|]). constructor.
Qed.
(** The example meets the hypotheses. *)
Example C70_hyps : good_dir hdir /\ usable [] hdir disk /\ hdir <> hsrc /\ current http_date mtime1 head1 lcu /\ ~ current http_date mtime1 head1 game.
Proof.
  split; [apply hdir_good|]. split; [apply disk_usable; reflexivity|]. split; [discriminate|]. split.
  - eexists _, _. split; [vm_compute; reflexivity|]. split; [vm_compute; reflexivity|]. apply Qle_bool_iff. vm_compute. reflexivity.
  - intros (h & t & E1 & E2 & E3). vm_compute in E1. injection E1 as <-. vm_compute in E2. injection E2 as <-. apply Qle_bool_iff in E3. vm_compute in E3. discriminate.
Qed.

(** ** What is not ensured *)

(** When the new content cannot be written, the old file is lost. *)
Theorem C70_lost_refuted : exists cwd dir src mtime head get f pl pl' f' n b, good_dir dir /\ usable cwd dir f /\ dir <> src /\ In n hash_files /\
  look f (place cwd dir n) = Some (NFile b) /\ failures pl = 1%nat /\ run (fetch_hashes cwd dir mtime head get src) pl f = (Raised (OSError EIO), pl', f') /\ clean (@Raised unit (OSError EIO)) pl pl' /\
  look f' (place cwd dir n) = None.
Proof.
  exists [], hdir, hsrc, (fun _ => 0%Q), (fun _ => Ok (lit "Sun, 06 Nov 1994 08:49:37 GMT")), get1, disk, [None; None; None; None; None; None; None; Some (FErr (OSError EIO) 1); None]. eexists _, _. exists first, (bl "entries").
  split; [apply hdir_good|]. split; [apply disk_usable; reflexivity|]. split; [discriminate|]. split; [left; reflexivity|]. split; [reflexivity|]. split; [reflexivity|].
  split; [vm_compute; reflexivity|]. split; [|vm_compute; reflexivity].
  intros u x E. apply (f_equal (@rev _)) in E. rewrite rev_app_distr in E. cbn in E. discriminate.
Qed.
Print Assumptions C70_lost_refuted.
(** With the current directory as directory of hashes, an update always fails and removes the file. *)
Theorem C70_dot_refuted : exists cwd src mtime head get f f' n b, usable cwd (mkpath (lit ".")) f /\ mkpath (lit ".") <> src /\ In n hash_files /\
  look f (place cwd (mkpath (lit ".")) n) = Some (NFile b) /\ run (fetch_hashes cwd (mkpath (lit ".")) mtime head get src) [] f = (Raised (OSError ENOENT), [], f') /\
  look f' (place cwd (mkpath (lit ".")) n) = None.
Proof.
  exists [lit "hashes"; lit "h"; lit "home"], hsrc, (fun _ => 0%Q), (fun _ => Ok (lit "Sun, 06 Nov 1994 08:49:37 GMT")), get1, disk. eexists. exists first, (bl "entries").
  split; [apply disk_usable; reflexivity|]. split; [discriminate|]. split; [left; reflexivity|]. split; [reflexivity|]. split; vm_compute; reflexivity.
Qed.
Print Assumptions C70_dot_refuted.
(** When the process dies during an update, the file may stay incomplete for ever: as it is recent, later updates keep it. *)
Theorem C70_crash_refuted : exists cwd dir src mtime mtime' head get f pl pl1 f1 f2 n, good_dir dir /\ usable cwd dir f /\ dir <> src /\ In n hash_files /\
  get (url_of n) = Ok (bl "new") /\ run (fetch_hashes cwd dir mtime head get src) pl f = (Crashed, pl1, f1) /\
  run (fetch_hashes cwd dir mtime' head get src) [] f1 = (Done tt, [], f2) /\ look f2 (place cwd dir n) = Some (NFile []).
Proof.
  exists [], hdir, hsrc, (fun _ => 0%Q), (fun _ => inject_Z 1700000000), (fun _ => Ok (lit "Sun, 06 Nov 1994 08:49:37 GMT")), get1, disk, [None; None; None; None; None; None; None; Some (FCrash 0)]. do 3 eexists. exists first.
  split; [apply hdir_good|]. split; [apply disk_usable; reflexivity|]. split; [discriminate|]. split; [left; reflexivity|]. split; [reflexivity|]. split; [vm_compute; reflexivity|]. split; vm_compute; reflexivity.
Qed.
Print Assumptions C70_crash_refuted.
