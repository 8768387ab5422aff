(** * C75: the command which guesses hashes *)

From Verif Require Import Base.PyFacts Base.TextFacts Base.Utf8 Base.Fs Base.FsFacts Spec.FsSpec Model.Files Model.Wad Model.Hashes Model.FetchHashes Model.Version Model.Storage Model.Component Model.Cli Model.Components Model.WadCli
  Model.Guess Model.GuessPaths Model.GuessChars Model.Releases Model.Grep Model.GrepLcu Model.GuessCli Spec.HashesSpec Spec.PatchCacheSpec Spec.WadCliSpec Spec.GuessCliSpec
  Proofs.HashesProofs Proofs.PatchCacheProofs Proofs.WadCliProofs Proofs.GuessCliProofs Props.HashesProps Props.WadCliProps Props.ComponentsProps.

Section C75.
  Variable gunzip unzstd : bytes -> result bytes.
  Variable xxh3 : bytes -> N.
  Variable json_loads : bytes -> result unit.
  Variable cwd : path.
  Variable dir : ppath.
  Variable H : str -> Z.
  Variable other : str -> list parg -> result str.
  Variable word : N -> bool.
  Variable ulower : str -> str.
  Variable loads : str -> result (option json).
  Variable show : json -> str.
  Variable order : list str -> list str.
  Variable enc : str -> bytes.
  Variable listing : bool -> list element.
  Variable fspaths : element -> printed.
  Notation command := (command_hashes_guess gunzip unzstd xxh3 json_loads cwd dir H other word ulower loads show order enc listing fspaths).
  Notation client_part := (client_part H other word ulower loads show).
  Notation game_part := (game_part H other order).
  Notation part_done := (part_done gunzip unzstd xxh3 json_loads cwd dir enc).
  Notation maybe_saved := (maybe_saved cwd dir H enc).
  Notation archives := (archives gunzip unzstd xxh3 cwd dir listing fspaths).

  (** After a success, both parts have been done on the given archives with the methods that are asked for. *)
  Theorem C75_done args methods dry c pl f pl' f' : run (command args methods dry c) pl f = (Done tt, pl', f') ->
    exists names ws f1 c1 c2, args <> [] /\ requested methods names /\ incl names methods_known /\ archives f args ws /\
      part_done client_part names dry ws f c f1 c1 /\ part_done game_part names dry ws f1 c1 f' c2.
  Proof. intros E. eapply command_done; [exact E | reflexivity]. Qed.

  (** Whatever happens, only the files of hashes may change, to add paths of unknown hashes of the archives: nothing known is lost without failures. *)
  Theorem C75_any args methods dry c pl f o pl' f' : run (command args methods dry c) pl f = (o, pl', f') ->
    f' = f \/ exists ws f1, archives f args ws /\ maybe_saved (failures pl = 0%nat) client_part dry ws f f1 /\ maybe_saved (failures pl = 0%nat) game_part dry ws f1 f'.
  Proof. apply command_any. Qed.
  Theorem C75_dry args methods c pl f o pl' f' : run (command args methods true c) pl f = (o, pl', f') -> f' = f.
  Proof.
    intros E. apply C75_any in E as [E|(ws & f1 & _ & M1 & M2)]; [exact E|]. destruct M1 as [->|[E _]]; [|discriminate]. destruct M2 as [->|[E _]]; [reflexivity | discriminate].
  Qed.

  (** Nothing is done without archives, or with an unknown method. *)
  Theorem C75_refused args methods dry c pl f : args = [] \/ (exists names, requested methods names /\ ~ incl names methods_known) ->
    run (command args methods dry c) pl f = (Raised SysExit, pl, f).
  Proof.
    intros [->|(names & Hr & Hi)]; [reflexivity|]. unfold command_hashes_guess. destruct args as [|a args]; [reflexivity|]. rewrite run_bind, lift_fs.
    replace (method_names methods) with (@Err (list str) SysExit); [reflexivity|]. inversion Hr as [o Ho|parts names' Hne Hc Hp Hs]; subst.
    - exfalso. apply Hi. intros n Hn. vm_compute in Hn |- *. tauto.
    - unfold method_names. destruct (join [44] parts) as [|x s] eqn:Ej; [contradiction|]. cbn [truthy]. rewrite <- Ej, split_join by assumption.
      assert (map (strip is_space) parts = names) as -> by (clear -Hs; induction Hs as [|p n l l' Hpn _ IH]; [reflexivity|]; cbn [map]; f_equal; [apply stripped_ok; exact Hpn | exact IH]).
      destruct (forallb (fun n => mem n all_methods) names) eqn:Ef; [|reflexivity]. exfalso. apply Hi. rewrite forallb_forall in Ef. intros n Hn. apply mem_In. apply Ef. exact Hn.
  Qed.

  (** A method that is asked for is run once with all that was found before it, and what it finds is kept. *)
  Theorem C75_method names (ms l : list (str * method)) g g' : Forall (fun m => sound H (snd m)) ms -> guesser_ok g ->
    kept (fun m => In (fst m) names) ms l -> passes (map snd l) g g' ->
    grows H (fun _ => True) g g' /\
    forall n m, In (n, m) ms -> In n names -> exists ga gb, grows H (fun _ => True) g ga /\ m ga = (gb, Ok tt) /\ grows H (fun _ => True) gb g'.
  Proof.
    intros Hs Hg Hk. revert g Hg. induction Hk as [|[n0 m0] ms l Hn Hk IH|[n0 m0] ms l Hn Hk IH]; intros g Hg Hp; cbn [map snd fst] in *.
    - inversion Hp; subst. split; [apply grows_refl; exact Hg | intros n m []].
    - inversion Hp as [|? ? ? g1 ? E1 Hp']; subst. inversion Hs as [|? ? Hm Hs']; subst. pose proof (Hm g Hg) as H1. cbn [snd] in H1. rewrite E1 in H1. cbn [fst] in H1.
      destruct (IH Hs' g1 (grows_ok _ _ _ _ H1) Hp') as [H2 H3]. split; [eapply grows_trans; eassumption|]. intros n m [E|Hi] Hin.
      + injection E as <- <-. exists g, g1. split; [apply grows_refl; exact Hg|]. split; [exact E1 | exact H2].
      + destruct (H3 n m Hi Hin) as (ga & gb & A1 & A2 & A3). exists ga, gb. split; [eapply grows_trans; eassumption | auto].
    - inversion Hs as [|? ? Hm Hs']; subst. destruct (IH Hs' g Hg Hp) as [H2 H3]. split; [exact H2|]. intros n m [E|Hi] Hin; [injection E as -> ->; contradiction | eauto].
  Qed.
  (** The methods of both parts only add paths under their own hashes, which are unknown. *)
  Theorem C75_sound : Forall (fun m => sound H (snd m)) (pt_methods client_part) /\ Forall (fun m => sound H (snd m)) (pt_methods game_part) /\
    (forall es, sound H (pt_grep client_part es)) /\ (forall es, sound H (pt_grep game_part es)).
  Proof.
    split; [exact (client_sound H other)|]. split; [exact (game_sound H other order)|]. split; intros es; [apply grep_lcu_sound | apply grep_game_sound].
  Qed.

  (** A file of hashes that has been saved gives back its table, if its paths have no line break. *)
  Theorem C75_reload f name d text f' : saved_text d text -> written cwd dir f name (enc text) f' -> utf8_dec (enc text) = Ok text ->
    NoDup (dkeys d) -> (forall h p, In (h, p) d -> one_line p) -> exists d', table_at cwd dir f' name d' /\ same_table d' d.
  Proof.
    intros Ht (p & b & [Hl Hb] & Hc & Ho) Hu Hn H1. destruct (C20_round_trip {| hf_size := 16; hf_hashes := Some d |} d text eq_refl Hn H1 Ht {| hf_size := 16; hf_hashes := None |} eq_refl) as (d' & E & Es & _).
    exists d'. split; [|exact Es]. exists (enc text), text. split; [|split; [exact Hu|]].
    - exists p. split; [|exact Hc]. unfold locate in *. destruct (dir_file dir name); [discriminate|]. eapply resolve_but; [exact Ho | right; eexists; exact Hb | eexists; exact Hc | exact Hl].
    - unfold hf_load in E. cbn [hf_hashes hf_size rbind] in E. destruct (parse_hashes text); congruence.
  Qed.

  (** An argument which designates the client or the game of a version always fails. *)
  Theorem C75_element args a e methods dry c f ws names : requested methods names -> incl names methods_known -> archives f args ws -> parse_component listing a = Ok (CElement (Some e)) ->
    forall o pl' f' rest, run (command (args ++ a :: rest) methods dry c) [] f = (o, pl', f') -> f' = f /\ forall x, o <> Done x.
  Proof.
    intros Hr Hi Hw Ha o pl' f' rest E.
    assert (Hno : forall l pl f0 b q f0', In a l -> run (gather l (arg_wads gunzip unzstd xxh3 cwd dir listing fspaths)) pl f0 = (Done b, q, f0') -> False).
    { intros l pl f0 b q f0' Hin Eg. apply args_done in Eg as [_ (wss & HF & _)]. clear -Hin HF Ha. induction HF as [|x y l l' Hx HF IH]; [destruct Hin|]. destruct Hin as [->|Hin]; [|exact (IH Hin)].
      inversion Hx as [? ? E1|? [E1|E1]|? ? ? E1]; congruence. }
    unfold command_hashes_guess in E. destruct (args ++ a :: rest) as [|y l] eqn:El; [destruct args; discriminate|]. rewrite run_bind, lift_fs, (proj2 (names_ok _ _) (conj Hr Hi)), run_bind in E.
    assert (Hin : In a (y :: l)) by (rewrite <- El; apply in_or_app; right; left; reflexivity).
    destruct (run (gather (y :: l) _) [] f) as [[[b|x|] q] f1] eqn:Eg; [destruct (Hno _ _ _ _ _ _ Hin Eg)|..]; apply args_fs in Eg; subst f1; injection E as <- _ <-; split; try reflexivity; discriminate.
  Qed.
End C75.
Print Assumptions C75_done.
Print Assumptions C75_any.
Print Assumptions C75_dry.
Print Assumptions C75_refused.
Print Assumptions C75_method.
Print Assumptions C75_sound.
Print Assumptions C75_reload.
Print Assumptions C75_element.

(** ** An example: an archive of the game and an archive of the client, each with a known file and an unknown one *)
Local Notation arch := WadCliProps.arch.
Local Notation nozip := WadCliProps.nozip.
Local Notation nojson := WadCliProps.nojson.
Local Notation hdir := WadCliProps.hdir.
Local Notation both := ComponentsProps.both.
Local Definition lf : bytes := [n2b 10].
Local Definition disk : fs :=
  [([lit "d"], NDir); ([lit "x.wad.client"; lit "d"], NFile arch); ([lit "x.wad"; lit "d"], NFile arch); ([lit "h"], NDir);
   ([lit "hashes.game.txt"; lit "h"], NFile (bl "0000000000000003 b/x.png" ++ lf ++ bl "0000000000000001 a/hello.txt" ++ lf));
   ([lit "hashes.lcu.txt"; lit "h"], NFile (bl "0000000000000001 plugins/p/a/b/f.js" ++ lf ++ bl "0000000000000004 plugins/q.css" ++ lf))].
Local Definition hash (p : str) : Z := if eqb p (lit "a/hello.png") then 2%Z else if eqb p (lit "plugins/p/a/b/f.css") then 2%Z else 0%Z.
Local Definition utf8 (s : str) : bytes := map n2b s.
Local Definition paths_of (e : element) : printed := if eqb (e_name e) (lit "game") then ([lit "readme.txt"; lit "x.wad.client"], None) else ([lit "x.wad"], None).
Local Definition go (args : list str) (methods : str) (dry : bool) (pl : plan) (f : fs) : outcome unit * plan * fs :=
  run (command_hashes_guess nozip nozip (fun _ => 0) nojson [lit "d"] hdir hash (fun _ _ => Err ValueError) is_digit lower (fun _ => Ok None) (fun _ => []) (fun l => l) utf8 both paths_of
    args (Some methods) dry []) pl f.
Local Definition game_file : path := [lit "hashes.game.txt"; lit "h"].
Local Definition lcu_file : path := [lit "hashes.lcu.txt"; lit "h"].
Example C75_ex :
  fst (go [lit "x.wad.client"] (lit "ext") false [] disk) = (Done tt, []) /\
  look (snd (go [lit "x.wad.client"] (lit "ext") false [] disk)) game_file = Some (NFile (bl "0000000000000002 a/hello.png" ++ lf ++ bl "0000000000000001 a/hello.txt" ++ lf ++ bl "0000000000000003 b/x.png" ++ lf)) /\
  look (snd (go [lit "x.wad.client"] (lit "ext") false [] disk)) lcu_file = look disk lcu_file /\
  go [lit "x.wad.client"] (lit "ext") true [] disk = (Done tt, [], disk) /\
  go [lit "x.wad.client"] (lit "regionlang, grep") false [] disk = (Done tt, [], disk) /\
  go [lit "x.wad.client"] (lit "ext,,grep") false [] disk = (Raised SysExit, [], disk) /\
  fst (go [lit "patch=9.1"] (lit " words , ext") false [] disk) = (Done tt, []) /\
  look (snd (go [lit "patch=9.1"] (lit " words , ext") false [] disk)) lcu_file =
    Some (NFile (bl "0000000000000002 plugins/p/a/b/f.css" ++ lf ++ bl "0000000000000001 plugins/p/a/b/f.js" ++ lf ++ bl "0000000000000004 plugins/q.css" ++ lf)) /\
  look (snd (go [lit "patch=9.1"] (lit " words , ext") false [] disk)) game_file = look (snd (go [lit "x.wad.client"] (lit "ext") false [] disk)) game_file.
Proof. vm_compute. repeat split. Qed.
(** Hypotheses of [C75_refused], [C75_element] and [C75_reload]. *)
Example C75_hyps :
  (exists names, requested (Some (lit "ext,,grep")) names /\ ~ incl names methods_known) /\
  (exists names, requested (Some (lit " words , ext")) names /\ incl names methods_known /\ names = [lit "words"; lit "ext"]) /\
  (exists e, parse_component both (lit "game=9.1") = Ok (CElement (Some e))) /\
  (exists text, saved_text [(1%Z, lit "a b"); (2%Z, lit "a")] text /\ utf8_dec (utf8 text) = Ok text).
Proof.
  split; [|split; [|split]].
  - exists [lit "ext"; []; lit "grep"]. split.
    + apply (rq_some [lit "ext"; []; lit "grep"]); [discriminate| |discriminate|]; [repeat constructor; vm_compute; intuition discriminate|].
      constructor; [|constructor; [|constructor; [|constructor]]]; apply stripped_ok; reflexivity.
    + intros Hi. specialize (Hi [] (or_intror (or_introl eq_refl))). vm_compute in Hi. intuition discriminate.
  - exists [lit "words"; lit "ext"]. split; [|split; [intros n [<-|[<-|[]]]; vm_compute; tauto | reflexivity]].
    apply (rq_some [lit " words "; lit " ext"]); [discriminate| |discriminate|]; [repeat constructor; vm_compute; intuition discriminate|].
    constructor; [|constructor; [|constructor]]; apply stripped_ok; reflexivity.
  - eexists. vm_compute. reflexivity.
  - eexists. split; vm_compute; reflexivity.
Qed.

(** The element of a patch cannot be given, though the patch can. *)
Theorem C75_element_refuted : exists e, parse_component both (lit "game=9.1") = Ok (CElement (Some e)) /\ paths_of e = ([lit "readme.txt"; lit "x.wad.client"], None) /\
  go [lit "x.wad.client"] (lit "ext") false [] disk <> (Raised AttributeError, [], disk) /\ fst (go [lit "patch=9.1"] (lit "ext") false [] disk) = (Done tt, []) /\
  go [lit "game=9.1"] (lit "ext") false [] disk = (Raised AttributeError, [], disk).
Proof. eexists. split; [vm_compute; reflexivity|]. split; [vm_compute; reflexivity|]. split; [vm_compute; discriminate|]. split; vm_compute; reflexivity. Qed.
(** The hashes that have been found are lost when a later method fails, and the archives of the game are not searched. *)
Theorem C75_lost_refuted : exists args f' b, fst (go args (lit "ext") false [] disk) = (Done tt, []) /\ f' = snd (go args (lit "ext") false [] disk) /\
  look f' lcu_file = Some (NFile b) /\ look disk lcu_file <> Some (NFile b) /\ look f' game_file <> look disk game_file /\
  go args (lit "ext,plugin") false [] disk = (Raised TypeError, [], disk).
Proof.
  exists [lit "x.wad"; lit "x.wad.client"]. do 2 eexists. split; [vm_compute; reflexivity|]. split; [reflexivity|]. split; [vm_compute; reflexivity|].
  split; [vm_compute; discriminate|]. split; [vm_compute; discriminate | vm_compute; reflexivity].
Qed.
(** The known hashes are lost when the file cannot be written, as it has been emptied. *)
Theorem C75_write_refuted : exists pl f' d, failures pl = 1%nat /\ go [lit "x.wad.client"] (lit "ext") false pl disk = (Raised (OSError EIO), [], f') /\
  table_at [lit "d"] hdir disk (lit "hashes.game.txt") d /\ d <> [] /\ table_at [lit "d"] hdir f' (lit "hashes.game.txt") [].
Proof.
  exists [None; None; None; None; None; Some (FErr (OSError EIO) 0)]. do 2 eexists. split; [reflexivity|]. split; [vm_compute; reflexivity|].
  split; [eexists; eexists; split; [eexists; split; vm_compute; reflexivity|]; split; vm_compute; reflexivity|]. split; [discriminate|].
  eexists; eexists; split; [eexists; split; vm_compute; reflexivity|]. split; vm_compute; reflexivity.
Qed.
Print Assumptions C75_element_refuted.
Print Assumptions C75_lost_refuted.
Print Assumptions C75_write_refuted.
