(** * C41: releases of the patcher storage *)

From Verif Require Import Base.Py Base.Text Base.PyFacts Base.TextFacts Base.Fs Base.FsDir Spec.FsSpec Base.FsFacts Base.FsLinks Spec.FilesSpec Model.Files Model.Releases Spec.ReleasesSpec Proofs.ReleasesProofs Spec.PatcherTotalSpec Proofs.ReleasesTotalProofs.
Require Import Coq.Sorting.Permutation Coq.Sorting.Sorted.

Section Releases.
  Variable cwd : path.
  Variable base patchline : str.
  Variable load : bytes -> result json.
  Variable dump : json -> list bytes.
  Variable same : json -> json -> bool.
  Variable order : list str -> list str.
  Hypothesis order_perm : forall l, Permutation (order l) l.
  Notation ready_ := (releases_ready cwd base patchline).
  Notation fetch := (fun conf get => fetch_latest_update cwd base patchline conf get load dump same).
  Notation iter := (iter_releases cwd base patchline load order).
  Notation release_at := (release_at cwd base patchline load).
  Notation stored := (stored cwd base patchline).
  Notation stamped := (stamped cwd base patchline).
  Notation answers := (answers cwd patchline load).

  (** The list of releases holds the releases of the storage, from the most recent one. *)
  Theorem C41_list f pl l pl' f' : ready_ f -> run iter pl f = (Done l, pl', f') ->
    f' = f /\ StronglySorted (fun a b => (b <= a)%Z) (map fst l) /\ forall v d, In (v, d) l <-> release_at f v d.
  Proof.
    intros R E. apply iter_reading in E as [-> E]. specialize (E l eq_refl). split; [reflexivity|]. split; [eapply list_sorted; eassumption | eapply list_In; eassumption].
  Qed.
  (** Each release is listed once if all names of directories are the usual decimal numbers, *)
  Theorem C41_list_once f pl l pl' f' : ready_ f ->
    (forall n v, look f (n :: rel_dir cwd base patchline) <> None -> int10 n = Ok v -> n = decZ v) ->
    run iter pl f = (Done l, pl', f') -> StronglySorted (fun a b => (b < a)%Z) (map fst l).
  Proof. intros R Hc E. apply iter_reading in E as [-> E]. specialize (E l eq_refl). eapply list_strict; eassumption. Qed.
  (** and listing succeeds if all stored releases can be read. *)
  Theorem C41_list_total f : ready_ f -> (forall v, stored f v -> exists d, release_at f v d) -> exists l, run iter [] f = (Done l, [], f).
  Proof. apply list_total. Qed.

  (** A successful fetch either finds that the last release is already the one given by the servers,
      or adds it under the current time and makes it the last one. *)
  Theorem C41_fetch conf get now f pl u pl' f' info : ready_ f -> answers conf get f info ->
    run (fetch conf get now) pl f = (Done u, pl', f') ->
    (exists t d, stamped f t /\ release_at f t d /\ same info d = true /\ f' = f) \/
    ((look f (stamp_file cwd base patchline) = None \/ exists t d, stamped f t /\ release_at f t d /\ same info d = false) /\
     look f' (release_file cwd base patchline now) = Some (NFile (concat (dump info))) /\ stamped f' now).
  Proof. apply fetch_done. Qed.
  (** Without failures of the system, a fetch succeeds if the servers answer, if the last release, when
      there is one, can be read, and if there is room for the two files. *)
  Theorem C41_fetch_succeeds conf get now f info : ready_ f -> answers conf get f info ->
    look f (stamp_file cwd base patchline) = None \/ (exists t d, stamped f t /\ release_at f t d) ->
    room f (release_file cwd base patchline now) -> room f (stamp_file cwd base patchline) ->
    exists f', run (fetch conf get now) [] f = (Done tt, [], f').
  Proof. apply fetch_total. Qed.
  (** Whatever happens during a fetch, the other releases do not change. *)
  Theorem C41_others conf get now f pl o pl' f' v b : ready_ f -> run (fetch conf get now) pl f = (o, pl', f') -> v <> now ->
    look f' (release_file cwd base patchline v) = Some (NFile b) <-> look f (release_file cwd base patchline v) = Some (NFile b).
  Proof. intros R E Hv. apply fetch_others in E as [_ H]; [|assumption]. apply H. assumption. Qed.
  (** When the servers give the same answers, a fetch after a successful one changes nothing. *)
  Theorem C41_twice conf get conf2 get2 now now2 f pl u pl' f1 info d pl2 o2 pl3 f2 : ready_ f ->
    answers conf get f info -> answers conf2 get2 f1 info -> load (concat (dump info)) = Ok d -> same info d = true ->
    run (fetch conf get now) pl f = (Done u, pl', f1) -> run (fetch conf2 get2 now2) pl2 f1 = (o2, pl3, f2) -> f2 = f1.
  Proof.
    intros R Ha Ha2 Hd Hs E E2. pose proof E as E'. apply fetch_others in E' as [R1 _]; [|assumption].
    eapply fetch_settled in E as (t & d' & H1 & H2 & H3); [|assumption | eassumption | eassumption | eassumption].
    eapply fetch_settled_same; [exact R1 | exact Ha2 | exact H1 | exact H2 | exact H3 | exact E2].
  Qed.
  (** With a clock that never goes back, after any sequence of fetches followed by a successful one,
      the first release of the list is the one given by the servers. *)
  Theorem C41_first t0 f0 t f conf get now pl u pl' f' info d pl2 l pl3 f3 : ready_ f0 -> consistent cwd base patchline t0 f0 ->
    fetches cwd base patchline load dump same t0 f0 t f -> (t <= now)%Z ->
    answers conf get f info -> load (concat (dump info)) = Ok d -> same info d = true ->
    run (fetch conf get now) pl f = (Done u, pl', f') -> run iter pl2 f' = (Done l, pl3, f3) ->
    exists v d' l', l = (v, d') :: l' /\ same info d' = true.
  Proof.
    intros R0 C0 H Ht Ha Hd Hs E El. destruct (fetches_consistent _ _ _ _ _ _ _ _ _ _ H R0 C0) as [R C].
    eapply (last_first cwd base patchline load dump same order order_perm); eassumption.
  Qed.
  (** With a clock that increases between fetches, no release is lost or changed, whatever failures
      and crashes happen. *)
  Theorem C41_kept t f t' f' v d : ready_ f -> (forall v, stored f v -> (v <= t)%Z) ->
    attempts cwd base patchline load dump same t f t' f' -> release_at f v d -> release_at f' v d.
  Proof.
    intros R C H (b & Hb & Hd). destruct (attempts_kept _ _ _ _ _ _ _ _ _ _ H R C) as (_ & _ & _ & K). exists b. split; [|exact Hd]. apply K; [|exact Hb].
    apply C. exists b. exact Hb.
  Qed.
End Releases.
Print Assumptions C41_list.
Print Assumptions C41_list_once.
Print Assumptions C41_list_total.
Print Assumptions C41_fetch.
Print Assumptions C41_fetch_succeeds.
Print Assumptions C41_others.
Print Assumptions C41_twice.
Print Assumptions C41_first.
Print Assumptions C41_kept.

Lemma find_first region before c after : (forall x, In x before -> exists i, jget (lit "id") x = Ok i /\ i <> JStr region) ->
  jget (lit "id") c = Ok (JStr region) -> find_config region (before ++ c :: after) = jget (lit "patch_url") c.
Proof.
  intros Hb Hc. induction before as [|x before IH]; cbn [app find_config].
  - rewrite Hc. cbn [rbind jis]. rewrite eqbR. reflexivity.
  - destruct (Hb x (or_introl eq_refl)) as (i & Ei & Hi). rewrite Ei. cbn [rbind].
    assert (jis region i = false) as ->; [|apply IH; intros y Hy; apply Hb; right; assumption].
    destruct i; try reflexivity. cbn [jis]. apply eqbF. intros ->. apply Hi. reflexivity.
Qed.
(** The URL of the client is the one of the first configuration of the region. *)
Theorem C41_client patchline data v1 v2 v3 before c after :
  jget (lit "keystone.products.league_of_legends.patchlines." ++ patchline) data = Ok v1 ->
  jget (lit "platforms") v1 = Ok v2 -> jget (lit "win") v2 = Ok v3 -> jget (lit "configurations") v3 = Ok (JArr (before ++ c :: after)) ->
  let region := if eqb patchline (lit "pbe") then lit "PBE" else lit "EUW" in
  (forall x, In x before -> exists i, jget (lit "id") x = Ok i /\ i <> JStr region) ->
  jget (lit "id") c = Ok (JStr region) -> client_url patchline data = jget (lit "patch_url") c.
Proof.
  intros E1 E2 E3 E4 region Hb Hc. unfold client_url. rewrite E1. cbn [rbind]. rewrite E2. cbn [rbind]. rewrite E3. cbn [rbind]. rewrite E4. cbn [rbind jiter].
  fold region. apply find_first; assumption.
Qed.
Print Assumptions C41_client.
(** The URL of the game is the one of the only release. *)
Theorem C41_game data u : game_url data = Ok u <->
  exists r d, jget (lit "releases") data = Ok (JArr [r]) /\ jget (lit "download") r = Ok d /\ jget (lit "url") d = Ok u.
Proof.
  unfold game_url. destruct (jget (lit "releases") data) as [v|]; cbn [rbind]; [|split; [discriminate | intros (r & d & E & _); discriminate]].
  split.
  - destruct v as [|b|z| |s|l|d]; try discriminate.
    + destruct (lenN s =? 1); discriminate.
    + destruct l as [|r [|]]; try discriminate. destruct (jget (lit "download") r) as [d|] eqn:Ed; cbn [rbind]; [|discriminate]. intros E. exists r, d. auto.
    + destruct (lenN d =? 1); discriminate.
  - intros (r & d & E & Ed & Eu). injection E as ->. rewrite Ed. cbn [rbind]. exact Eu.
Qed.
Print Assumptions C41_game.

(** The answers of the servers, for the patchline [pbe] and for the others: the document of the client is the local
    file given if there is one, the URL given, or the default one. *)
Definition pbe (patchline a b : str) : str := if eqb patchline (lit "pbe") then a else b.
Inductive client_document (cwd : path) (load : bytes -> result json) (get : str -> result json) (f : fs) : option str -> json -> Prop :=
| cd_default u data : u = None \/ u = Some [] ->
    get (lit "https://clientconfig.rpg.riotgames.com/api/v1/config/public?namespace=keystone.products.league_of_legends.patchlines") = Ok data -> client_document cwd load get f u data
| cd_url u data : u <> [] -> (exists r, u = lit "http://" ++ r) \/ (exists r, u = lit "https://" ++ r) \/ f_exists cwd u f = false -> get u = Ok data -> client_document cwd load get f (Some u) data
| cd_file u b data : u <> [] -> (forall r, u <> lit "http://" ++ r) -> (forall r, u <> lit "https://" ++ r) -> f_exists cwd u f = true ->
    run (read_file cwd u) [] f = (Done b, [], f) -> load b = Ok data -> client_document cwd load get f (Some u) data.
Lemma client_document_some cwd load get f u data : u <> [] -> client_document cwd load get f (Some u) data ->
  (((exists r, u = lit "http://" ++ r) \/ (exists r, u = lit "https://" ++ r) \/ f_exists cwd u f = false) /\ get u = Ok data) \/
  ((forall r, u <> lit "http://" ++ r) /\ (forall r, u <> lit "https://" ++ r) /\ f_exists cwd u f = true /\ exists b, run (read_file cwd u) [] f = (Done b, [], f) /\ load b = Ok data).
Proof.
  intros Hu H. remember (Some u) as cf eqn:Ec. destruct H as [v data [->| ->] Hg|v data Hv Ho Hg|v b data Hv H1 H2 He Hb Hl]; try discriminate Ec; injection Ec; intros; subst; [congruence | auto | right; eauto 7].
Qed.
Theorem C41_answers cwd patchline load conf get f info : answers cwd patchline load conf get f info <->
  exists client cu game gu, client_document cwd load get f conf client /\ client_url patchline client = Ok cu /\
    get (lit "https://sieve.services.riotcdn.net/api/v1/products/lol/version-sets/" ++ pbe patchline (lit "PBE1") (lit "EUW1") ++ lit "?q[platform]=windows&q[published]=true") = Ok game /\
    game_url game = Ok gu /\ info = JObj [(lit "client_patch_url", cu); (lit "game_patch_url", gu)].
Proof.
  assert (HC : forall data, result_of (client_doc cwd conf get load) f = Done data <-> client_document cwd load get f conf data).
  { intros data. unfold client_doc. assert (HL : forall r : result json, result_of (lift r) f = Done data <-> r = Ok data) by (intros [x|e]; cbn; split; congruence).
    assert (HD : conf = None \/ conf = Some [] -> get (lit "https://clientconfig.rpg.riotgames.com/api/v1/config/public?namespace=keystone.products.league_of_legends.patchlines") = Ok data <-> client_document cwd load get f conf data).
    { intros Hc. split; [intros H; apply cd_default; assumption|]. intros H. destruct H as [v x _ Hg|v x Hv _ _|v b x Hv _ _ _ _ _]; [exact Hg| |]; destruct Hc as [Hc|Hc]; try discriminate Hc; injection Hc as ->; congruence. }
    destruct conf as [[|c u]|]; [rewrite HL; apply HD; auto | | rewrite HL; apply HD; auto]. clear HD. set (u' := c :: u) in *.
    assert (Hu : u' <> []) by discriminate. clearbody u'. rewrite result_bind by reads.
    destruct (startswith u' (lit "http://")) eqn:E1; cbn [orb].
    { rewrite startswith_iff in E1. change (result_of (Ret false) f) with (Done false). cbn iota beta. rewrite HL. split; [intros H; apply cd_url; auto|].
      intros H. apply client_document_some in H as [[_ H]|(N1 & N2 & _)]; [exact H| |exact Hu]. destruct E1 as [r E]. exfalso. exact (N1 r E). }
    destruct (startswith u' (lit "https://")) eqn:E2; cbn [orb].
    { rewrite startswith_iff in E2. change (result_of (Ret false) f) with (Done false). cbn iota beta. rewrite HL. split; [intros H; apply cd_url; auto|].
      intros H. apply client_document_some in H as [[_ H]|(N1 & N2 & _)]; [exact H| |exact Hu]. destruct E2 as [r E]. exfalso. exact (N2 r E). }
    assert (N1 : forall r, u' <> lit "http://" ++ r) by (intros r ->; rewrite (proj2 (startswith_iff _ _)) in E1; [discriminate | eauto]).
    assert (N2 : forall r, u' <> lit "https://" ++ r) by (intros r ->; rewrite (proj2 (startswith_iff _ _)) in E2; [discriminate | eauto]).
    change (result_of (exists_ cwd u') f) with (Done (f_exists cwd u' f)). cbn iota beta. destruct (f_exists cwd u' f) eqn:E3.
    - rewrite result_bind by reads. split.
      + destruct (result_of (read_file cwd u') f) as [b| |] eqn:Eb; try discriminate. intros H. apply HL in H. eapply cd_file; eauto. apply result_run; [reads | exact Eb].
      + intros H. apply client_document_some in H as [[[[r Hn]|[[r Hn]|Hn]] _]|(_ & _ & _ & b & Hb & Hl)]; [exfalso; exact (N1 r Hn) | exfalso; exact (N2 r Hn) | congruence | | exact Hu].
        unfold result_of at 1. rewrite Hb. cbn [fst]. apply HL. exact Hl.
    - rewrite HL. split; [intros H; apply cd_url; auto|]. intros H. apply client_document_some in H as [[_ H]|(_ & _ & Hf & _)]; [exact H | congruence | exact Hu]. }
  unfold answers, latest_info. fold (result_of (A:=json)). change (fst (fst (run ?p [] f))) with (result_of p f).
  rewrite result_bind by (unfold get_latest_client_manifest, client_doc; reads). unfold get_latest_client_manifest. rewrite result_bind by (unfold client_doc; reads). split.
  - destruct (result_of (client_doc cwd conf get load) f) as [data| |] eqn:Ed; try discriminate. pose proof (proj1 (HC data) eq_refl) as Hdoc. destruct (client_url patchline data) as [cu|] eqn:Ec; [|discriminate]. cbn [lift result_of run fst].
    rewrite result_bind by (unfold get_latest_game_manifest; reads). unfold get_latest_game_manifest. rewrite result_bind by reads. unfold pbe.
    set (q := _ ++ _ ++ _). destruct (get q) as [g|] eqn:Eg; [|discriminate]. cbn. destruct (game_url g) as [gu|] eqn:Eu; [|discriminate]. cbn. intros H. injection H as <-.
    exists data, cu, g, gu. subst q. destruct (eqb patchline (lit "pbe")); auto 6.
  - intros (data & cu & g & gu & Hd & Hc & Hg & Hu & ->). apply HC in Hd. rewrite Hd, Hc. cbn [lift result_of run fst].
    rewrite result_bind by (unfold get_latest_game_manifest; reads). unfold get_latest_game_manifest. rewrite result_bind by reads. unfold pbe in Hg.
    destruct (eqb patchline (lit "pbe")); rewrite Hg; cbn; rewrite Hu; reflexivity.
Qed.
Print Assumptions C41_answers.

(** ** Examples *)

Local Definition d (p : String.string) : str := lit p.
Arguments d p%string_scope.
Local Definition w : path := [d "w"].
Local Definition s_ : str := d "s".
(** Texts written for the releases: the two URLs, separated by a bar. *)
Local Definition dump_ex (j : json) : list bytes :=
  match j with JObj [(_, JStr c); (_, JStr g)] => [map n2b c; bl "|"; map n2b g] | _ => [] end.
Local Definition load_ex (b : bytes) : result json :=
  match split_ch 124 (map b2n b) with [c; g] => Ok (release_info (JStr c) (JStr g)) | _ => Err ValueError end.
Local Definition same_ex (a b : json) : bool :=
  match a, b with
  | JObj [(_, JStr c); (_, JStr g)], JObj [(_, JStr c'); (_, JStr g')] => eqb c c' && eqb g g'
  | _, _ => false
  end.
Local Definition get_ex (game : String.string) (u : str) : result json :=
  if startswith u (lit "https://clientconfig") then
    Ok (JObj [(lit "keystone.products.league_of_legends.patchlines.pbe",
               JObj [(lit "platforms", JObj [(lit "win", JObj [(lit "configurations",
                 JArr [JObj [(lit "id", JStr (lit "NA")); (lit "patch_url", JStr (lit "na"))];
                       JObj [(lit "id", JStr (lit "PBE")); (lit "patch_url", JStr (lit "client"))]])])])])])
  else Ok (JObj [(lit "releases", JArr [JObj [(lit "download", JObj [(lit "url", JStr (lit game))])]])]).
Arguments get_ex game%string_scope u.
Local Definition f0 : fs := [([d "w"], NDir); ([d "s"; d "w"], NDir)].
Local Definition fetch_ex (game : String.string) (now : Z) : prog unit := fetch_latest_update w s_ (d "pbe") None (get_ex game) load_ex dump_ex same_ex now.
Arguments fetch_ex game%string_scope now%Z_scope.
Local Definition iter_ex : prog (list (Z * json)) := iter_releases w s_ (d "pbe") load_ex (fun l => l).
Local Definition after (p : prog unit) (pl : plan) (f : fs) : fs := snd (run p pl f).
Local Definition listed (f : fs) : outcome (list (Z * str)) :=
  match fst (fst (run iter_ex [] f)) with
  | Done l => Done (map (fun vd => (fst vd, match snd vd with JObj [_; (_, JStr g)] => g | _ => [] end)) l)
  | Raised e => Raised e
  | Crashed => Crashed
  end.
Lemma ready_ex f : wf_check f = true -> no_links f = true -> look f w = Some NDir -> releases_ready w s_ (d "pbe") f.
Proof.
  intros H1 H2 H3. split; [split; [discriminate | vm_compute; intuition discriminate] | | apply wf_check_ok; exact H1 | exact H3 | intros v; apply no_links_ok; exact H2 | apply no_links_ok; exact H2].
  repeat split; try discriminate. vm_compute. intuition discriminate.
Qed.

(** Three fetches with two different answers. *)
Local Definition f1 : fs := after (fetch_ex "A" 100) [] f0.
Local Definition f2 : fs := after (fetch_ex "A" 200) [] f1.
Local Definition f3 : fs := after (fetch_ex "B" 300) [] f2.
Example C41_ex : releases_ready w s_ (d "pbe") f0 /\ answers w (d "pbe") load_ex None (get_ex "A") f0 (release_info (JStr (d "client")) (JStr (d "A"))) /\
  listed f0 = Done [] /\ listed f1 = Done [(100%Z, d "A")] /\ f2 = f1 /\ listed f3 = Done [(300%Z, d "B"); (100%Z, d "A")].
Proof. split; [apply ready_ex; reflexivity|]. vm_compute. repeat split; reflexivity. Qed.
Example C41_fetch_succeeds_ex : look f0 (stamp_file w s_ (d "pbe")) = None /\ room f0 (release_file w s_ (d "pbe") 100) /\ room f0 (stamp_file w s_ (d "pbe")) /\
  (exists t r, stamped w s_ (d "pbe") f2 t /\ release_at w s_ (d "pbe") load_ex f2 t r) /\ room f2 (release_file w s_ (d "pbe") 300) /\ room f2 (stamp_file w s_ (d "pbe")).
Proof.
  assert (Hr : forall (f : fs) p, forallb (fun n => match look f (skipn n p) with Some NDir => negb (Nat.eqb n 0) | None => true | _ => Nat.eqb n 0 end) (seq 0 (S (length p))) = true -> room f p).
  { intros f p H. rewrite forallb_forall in H. split.
    - intros E. specialize (H 0%nat). lapply H; [clear H; intros H | apply in_seq; lia]. cbn [skipn] in H. rewrite E in H. discriminate H.
    - intros q (x & l & ->). specialize (H (S (length l))). lapply H; [clear H; intros H | apply in_seq; cbn [length]; rewrite app_length; lia]. cbn [skipn] in H.
      assert (Es : skipn (length l) (l ++ q) = q) by (clear; induction l as [|y l IH]; [reflexivity | exact IH]). rewrite Es in H.
      destruct (look f q) as [[| |]|]; auto; discriminate H. }
  split; [vm_compute; reflexivity|]. split; [apply Hr; vm_compute; reflexivity|]. split; [apply Hr; vm_compute; reflexivity|].
  split; [|split; apply Hr; vm_compute; reflexivity].
  exists 100%Z, (release_info (JStr (d "client")) (JStr (d "A"))). split; [do 2 eexists; split; [vm_compute; reflexivity | split; vm_compute; reflexivity] | eexists; split; vm_compute; reflexivity].
Qed.
Example C41_consistent_ex : consistent w s_ (d "pbe") 0 f0.
Proof.
  assert (H : forall v, ~ stored w s_ (d "pbe") f0 v).
  { intros v [b E]. apply (dget_some_In f0) in E. unfold f0 in E. cbn [In] in E. destruct E as [E|[E|[]]]; apply (f_equal (fun x => length (fst x))) in E; discriminate E. }
  split; [intros v Hv; exfalso; exact (H v Hv) | intros u v _ Hv; exfalso; exact (H v Hv)].
Qed.
Example C41_fetches_ex : fetches w s_ (d "pbe") load_ex dump_ex same_ex 0 f0 300 f3.
Proof.
  apply (fs_fetch _ _ _ _ _ _ None (get_ex "A") 0 100 [] f0 (Done tt) [] f1); [lia | vm_compute; reflexivity | left; exact I|].
  apply (fs_fetch _ _ _ _ _ _ None (get_ex "A") 100 200 [] f1 (Done tt) [] f2); [lia | vm_compute; reflexivity | left; exact I|].
  apply (fs_fetch _ _ _ _ _ _ None (get_ex "B") 200 300 [] f2 (Done tt) [] f3); [lia | vm_compute; reflexivity | left; exact I|].
  apply fs_nil.
Qed.
(** A crash between the two writes: the release is there, and the older one too. *)
Local Definition crash_at (n : nat) : plan := repeat None n ++ [Some (FCrash 0)].
Local Definition fc : fs := after (fetch_ex "B" 300) (crash_at 10) f1.
Example C41_attempts_ex : attempts w s_ (d "pbe") load_ex dump_ex same_ex 0 f0 300 fc /\ listed fc = Done [(300%Z, d "B"); (100%Z, d "A")].
Proof.
  split; [|vm_compute; reflexivity].
  apply (at_fetch _ _ _ _ _ _ None (get_ex "A") 0 100 [] f0 (Done tt) [] f1); [lia | vm_compute; reflexivity|].
  apply (at_fetch _ _ _ _ _ _ None (get_ex "B") 100 300 (crash_at 10) f1 Crashed [] fc); [lia | vm_compute; reflexivity|].
  apply at_nil.
Qed.

(** *** Limits *)

(** After a crash between the two writes, the next fetch adds a second release with the same data. *)
Theorem C41_crash_duplicate_refuted : exists f conf get load dump same t1 t2 pl f1 f2,
  releases_ready w s_ (d "pbe") f /\ (t1 < t2)%Z /\
  run (fetch_latest_update w s_ (d "pbe") conf get load dump same t1) pl f = (Crashed, [], f1) /\
  run (fetch_latest_update w s_ (d "pbe") conf get load dump same t2) [] f1 = (Done tt, [], f2) /\
  (forall v, ~ stored w s_ (d "pbe") f v) /\
  exists i, release_at w s_ (d "pbe") load f2 t1 i /\ release_at w s_ (d "pbe") load f2 t2 i.
Proof.
  exists f0, None, (get_ex "A"), load_ex, dump_ex, same_ex, 100%Z, 200%Z, (crash_at 16), (after (fetch_ex "A" 100) (crash_at 16) f0), (after (fetch_ex "A" 200) [] (after (fetch_ex "A" 100) (crash_at 16) f0)).
  split; [apply ready_ex; reflexivity|]. split; [lia|]. split; [vm_compute; reflexivity|]. split; [vm_compute; reflexivity|]. split.
  - intros v [b E]. apply (dget_some_In f0) in E. unfold f0 in E. cbn [In] in E. destruct E as [E|[E|[]]]; apply (f_equal (fun x => length (fst x))) in E; discriminate E.
  - exists (release_info (JStr (d "client")) (JStr (d "A"))). split; exists (bl "client|A"); vm_compute; split; reflexivity.
Qed.
Print Assumptions C41_crash_duplicate_refuted.
(** After a crash while the description of a release is written, releases cannot be listed. *)
Theorem C41_crash_list_refuted : exists f conf get load dump same t pl f1,
  releases_ready w s_ (d "pbe") f /\
  run (fetch_latest_update w s_ (d "pbe") conf get load dump same t) pl f = (Crashed, [], f1) /\
  (exists l, fst (fst (run (iter_releases w s_ (d "pbe") load (fun l => l)) [] f)) = Done l) /\
  fst (fst (run (iter_releases w s_ (d "pbe") load (fun l => l)) [] f1)) = Raised ValueError.
Proof.
  exists f1, None, (get_ex "B"), load_ex, dump_ex, same_ex, 300%Z, (crash_at 7), (after (fetch_ex "B" 300) (crash_at 7) f1).
  split; [apply ready_ex; vm_compute; reflexivity|]. split; [vm_compute; reflexivity|]. split; [eexists; vm_compute; reflexivity | vm_compute; reflexivity].
Qed.
Print Assumptions C41_crash_list_refuted.
(** After a crash while the version of the last release is written, nothing can be fetched any more. *)
Theorem C41_crash_stamp_refuted : exists f conf get load dump same t pl f1,
  releases_ready w s_ (d "pbe") f /\
  run (fetch_latest_update w s_ (d "pbe") conf get load dump same t) pl f = (Crashed, [], f1) /\
  forall now, run (fetch_latest_update w s_ (d "pbe") conf get load dump same now) [] f1 = (Raised ValueError, [], f1).
Proof.
  exists f1, None, (get_ex "B"), load_ex, dump_ex, same_ex, 300%Z, (crash_at 14), (after (fetch_ex "B" 300) (crash_at 14) f1).
  split; [apply ready_ex; vm_compute; reflexivity|]. split; [vm_compute; reflexivity|]. intros now. vm_compute. reflexivity.
Qed.
Print Assumptions C41_crash_stamp_refuted.
(** Two fetches in the same second with different answers: the second one replaces the release, and
    loses it if it fails. *)
Theorem C41_same_second_refuted : exists f conf get load dump same t pl pl' e f1 i,
  releases_ready w s_ (d "pbe") f /\ release_at w s_ (d "pbe") load f t i /\
  run (fetch_latest_update w s_ (d "pbe") conf get load dump same t) pl f = (Raised e, pl', f1) /\ clean (Raised e : outcome unit) pl pl' /\
  ~ stored w s_ (d "pbe") f1 t.
Proof.
  exists f1, None, (get_ex "B"), load_ex, dump_ex, same_ex, 100%Z, (repeat None 7 ++ [Some (FErr (OSError EIO) 0); None; None]), [], (OSError EIO),
    (after (fetch_ex "B" 100) (repeat None 7 ++ [Some (FErr (OSError EIO) 0); None; None]) f1), (release_info (JStr (d "client")) (JStr (d "A"))).
  split; [apply ready_ex; vm_compute; reflexivity|]. split; [exists (bl "client|A"); vm_compute; split; reflexivity|]. split; [vm_compute; reflexivity|]. split.
  - cbn [clean]. intros u x E. change (repeat None 7 ++ [Some (FErr (OSError EIO) 0); None; None]) with ((repeat None 7 ++ [Some (FErr (OSError EIO) 0); None]) ++ [None]) in E.
    apply app_inj_tail in E as [_ E]. discriminate.
  - intros [b E]. vm_compute in E. discriminate.
Qed.
Print Assumptions C41_same_second_refuted.
(** When the clock goes back, the first release of the list is not the last one fetched. *)
Theorem C41_clock_refuted : exists f conf get load dump same t f1 l v x,
  releases_ready w s_ (d "pbe") f /\ answers w (d "pbe") load conf get f x /\
  run (fetch_latest_update w s_ (d "pbe") conf get load dump same t) [] f = (Done tt, [], f1) /\
  fst (fst (run (iter_releases w s_ (d "pbe") load (fun l => l)) [] f1)) = Done ((v, l) :: [(t, x)]) /\ (t < v)%Z /\ same x l = false.
Proof.
  exists f1, None, (get_ex "B"), load_ex, dump_ex, same_ex, 50%Z, (after (fetch_ex "B" 50) [] f1),
    (release_info (JStr (d "client")) (JStr (d "A"))), 100%Z, (release_info (JStr (d "client")) (JStr (d "B"))).
  split; [apply ready_ex; vm_compute; reflexivity|]. split; [vm_compute; reflexivity|]. split; [vm_compute; reflexivity|]. split; [vm_compute; reflexivity|]. split; [lia | reflexivity].
Qed.
Print Assumptions C41_clock_refuted.
(** The directories "5" and "05" make the release 5 appear twice. *)
Theorem C41_names_refuted : exists f load v i,
  releases_ready w s_ (d "pbe") f /\ fst (fst (run (iter_releases w s_ (d "pbe") load (fun l => l)) [] f)) = Done [(v, i); (v, i)].
Proof.
  exists ([([d "w"], NDir); ([d "s"; d "w"], NDir); ([d "cdtb"; d "s"; d "w"], NDir); ([d "releases"; d "cdtb"; d "s"; d "w"], NDir);
           ([d "pbe"; d "releases"; d "cdtb"; d "s"; d "w"], NDir); ([d "5"; d "pbe"; d "releases"; d "cdtb"; d "s"; d "w"], NDir);
           ([d "release.json"; d "5"; d "pbe"; d "releases"; d "cdtb"; d "s"; d "w"], NFile (bl "c|g")); ([d "05"; d "pbe"; d "releases"; d "cdtb"; d "s"; d "w"], NDir)]),
    load_ex, 5%Z, (release_info (JStr (d "c")) (JStr (d "g"))).
  split; [apply ready_ex; vm_compute; reflexivity | vm_compute; reflexivity].
Qed.
Print Assumptions C41_names_refuted.
