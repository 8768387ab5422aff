(** * C77: elements of the releases of a patcher storage *)

From Verif Require Import Base.Py Base.Text Base.PyFacts Base.TextFacts Base.Utf8 Base.Fs Base.FsDir Spec.FsSpec Base.FsFacts Base.FsLinks Spec.FilesSpec Model.Version Model.Files Model.Rman Model.Patcher
  Model.Releases Spec.ReleasesSpec Proofs.ReleasesProofs Props.ReleasesProps Spec.PatcherSpec Props.PatcherProps Model.PatchCache Spec.PatchCacheSpec Proofs.PatchCacheProofs Model.PatcherList Spec.PatcherListSpec Proofs.PatcherListProofs.
Require Import Coq.Sorting.Permutation Coq.Sorting.Sorted.

(** C77: the available elements of a release are those with a URL. *)
Theorem C77_available m : exists l, available_elements element_names (JObj m) = Ok l /\ NoDup l /\ forall n, In n l <-> element_name n /\ exists u, has_element (JObj m) n u.
Proof.
  destruct (available_dict m element_names) as [l E]. exists l. split; [exact E|]. split.
  - cbn [element_names available_elements data_get rbind] in E. injection E as <-.
    repeat match goal with |- context [truthy ?x] => destruct (truthy x) end; repeat constructor; cbn [In]; intuition discriminate.
  - intros n. rewrite (available_ok _ _ _ E n). assert (In n element_names <-> element_name n) as ->; [|reflexivity].
    unfold element_name. cbn [element_names In]. intuition.
Qed.
Print Assumptions C77_available.
(** C77: other descriptions are refused. *)
Theorem C77_not_dict d : (forall m, d <> JObj m) -> available_elements element_names d = Err AttributeError.
Proof. intros H. destruct d; try reflexivity. exfalso. exact (H _ eq_refl). Qed.
Print Assumptions C77_not_dict.

Section List.
  Variable cwd : path.
  Variable enc : str -> bytes.
  Variable base patchline : str.
  Variable load : bytes -> result json.
  Variable dump : json -> list bytes.
  Variable same : json -> json -> bool.
  Variable order : list str -> list str.
  Hypothesis order_perm : forall l, Permutation (order l) l.
  Notation ready_ := (releases_ready cwd base patchline).
  Notation release_at := (release_at cwd base patchline load).
  Notation stored := (stored cwd base patchline).
  (** [patch_elements], with the answers of servers for the last release, the files of servers, ... *)
  Notation elements := (fun conf getj get zstd sha1 symlinks parse sets => patcher_patch_elements cwd enc base patchline conf getj get zstd sha1 symlinks load dump same parse order sets).

  (** C77: when the versions of all elements are in cache files, the list holds the elements of the stored releases, from the last
      release, with these versions; nothing is changed, even if the listing fails. *)
  Theorem C77_list conf getj get zstd sha1 symlinks parse sets now f pl o pl' f' : ready_ f -> all_cached cwd base patchline load f ->
    run (elements conf getj get zstd sha1 symlinks parse sets true now) pl f = (o, pl', f') ->
    f' = f /\ forall l, o = Done l ->
      StronglySorted (fun a b => (b <= a)%Z) (map ls_release l) /\
      (forall x, In x l -> exists d, release_at f (ls_release x) d /\ element_name (ls_name x) /\ has_element d (ls_name x) (ls_url x) /\ known cwd base patchline f (ls_release x) (ls_name x) (ls_version x)) /\
      (forall v d n u, release_at f v d -> element_name n -> has_element d n u -> exists w, In {| ls_release := v; ls_name := n; ls_url := u; ls_version := w |} l).
  Proof.
    intros R Hc E. unfold patcher_patch_elements in E. cbn [bind] in E. eapply (listing_gives cwd base patchline load _ (known cwd base patchline f) f R) in E as [-> E].
    - split; [reflexivity|]. intros l ->. destruct (E l eq_refl) as (rs & Er & Hl). pose proof (list_In cwd base patchline load dump same order order_perm f rs R Er) as HI. repeat split.
      + eapply from_sorted; [exact Hl|]. eapply (list_sorted cwd base patchline load dump same order order_perm); eassumption.
      + intros x Hx. destruct (from_In _ _ _ _ _ _ _ _ Hl x Hx) as (d & Hd & _ & Hn & Hu & Hk). exists d. repeat split; [apply HI; exact Hd | apply names_are; exact Hn | exact Hu | exact Hk].
      + intros v d n u Hd Hn Hu. destruct (from_all _ _ _ _ _ _ _ _ Hl v d n u (proj2 (HI v d) Hd) Hn Hu) as (w & Hw & _). exists w. exact Hw.
    - intros v d n u Hd Hn Hu. apply version_gives. eapply Hc; eassumption.
  Qed.
  (** C77: each element is listed once, the game of a release before its client, if all names of directories are the usual decimal numbers, *)
  Theorem C77_order conf getj get zstd sha1 symlinks parse sets now f pl l pl' f' : ready_ f -> all_cached cwd base patchline load f ->
    (forall n v, look f (n :: rel_dir cwd base patchline) <> None -> int10 n = Ok v -> n = decZ v) ->
    run (elements conf getj get zstd sha1 symlinks parse sets true now) pl f = (Done l, pl', f') ->
    StronglySorted listed_before (map (fun x => (ls_release x, ls_name x)) l).
  Proof.
    intros R Hc Hn E. unfold patcher_patch_elements in E. cbn [bind] in E. eapply (listing_gives cwd base patchline load _ (known cwd base patchline f) f R) in E as [_ E].
    - destruct (E l eq_refl) as (rs & Er & Hl). eapply from_strict; [exact Hl|]. eapply (list_strict cwd base patchline load dump same order order_perm); eassumption.
    - intros v d n u Hd Hn' Hu. apply version_gives. eapply Hc; eassumption.
  Qed.
  (** C77: and listing succeeds if the caches hold valid versions and all stored releases are described by dicts. *)
  Theorem C77_total conf getj get zstd sha1 symlinks parse sets now f : ready_ f -> all_known cwd base patchline load f ->
    (forall v, stored f v -> exists m, release_at f v (JObj m)) ->
    exists l, run (elements conf getj get zstd sha1 symlinks parse sets true now) [] f = (Done l, [], f).
  Proof.
    intros R Hk Hs. unfold patcher_patch_elements. cbn [bind]. eapply (listing_total cwd base patchline load _ (known cwd base patchline f) f R).
    - intros v d n u Hd Hn Hu. apply version_gives. destruct (Hk v d n u Hd Hn Hu) as [w Hw]. eapply known_cached. exact Hw.
    - intros v d n u Hd Hn Hu. destruct (Hk v d n u Hd Hn Hu) as [w Hw]. exists w. apply version_total. exact Hw.
    - exact Hs.
  Qed.
  (** C77: then the listing does not use what servers answer. *)
  Theorem C77_offline conf getj get zstd sha1 symlinks parse sets now conf' getj' get' zstd' sha1' symlinks' parse' sets' now' f pl : ready_ f -> all_cached cwd base patchline load f ->
    run (elements conf getj get zstd sha1 symlinks parse sets true now) pl f = run (elements conf' getj' get' zstd' sha1' symlinks' parse' sets' true now') pl f.
  Proof.
    intros R Hc. unfold patcher_patch_elements. cbn [bind]. apply (listing_agree cwd base patchline load _ (known cwd base patchline f) f R).
    - intros v d n u Hd Hn Hu. apply version_gives. eapply Hc; eassumption.
    - intros v d n u Hd Hn Hu. apply version_agree. eapply Hc; eassumption.
  Qed.
  (** C77: with a clock that never goes back, when the last release is asked for, the first element of the list is that of the release given
      by the servers, whatever the caches. *)
  Theorem C77_latest conf getj get zstd sha1 symlinks parse sets t0 f0 t f now pl l pl' f' info d : ready_ f0 -> consistent cwd base patchline t0 f0 ->
    fetches cwd base patchline load dump same t0 f0 t f -> (t <= now)%Z ->
    answers cwd patchline load conf getj f info -> load (concat (dump info)) = Ok d -> same info d = true ->
    run (elements conf getj get zstd sha1 symlinks parse sets false now) pl f = (Done l, pl', f') ->
    exists d', same info d' = true /\ forall n u, first_element d' n u -> exists x l', l = x :: l' /\ ls_name x = n /\ ls_url x = u.
  Proof.
    intros R0 C0 Hf Ht Ha Hd Hs E. destruct (fetches_consistent _ _ _ _ _ _ _ _ _ _ Hf R0 C0) as [R C].
    unfold patcher_patch_elements in E. rewrite run_bind in E.
    destruct (run (fetch_latest_update cwd base patchline conf getj load dump same now) pl f) as [[[u0|e|] pl1] f1] eqn:E1; try discriminate.
    pose proof E1 as E'. apply fetch_others in E' as [R' _]; [|exact R].
    pose proof (fetch_consistent cwd base patchline load dump same conf getj t now pl f (Done u0) pl1 f1 R C Ht E1 (or_introl I)) as [_ C'].
    eapply fetch_settled in E1 as (v & d' & H1 & H2 & H3); [|exact R | exact Ha | exact Hd | exact Hs].
    exists d'. split; [exact H3|]. intros n u Hn.
    eapply listing_first in E as (x & l' & -> & _ & H); [|exact order_perm | exact R' | exact H2 | exact Hn | intros v'; apply C'; exact H1].
    exists x, l'. split; [reflexivity | exact H].
  Qed.
End List.
Print Assumptions C77_list.
Print Assumptions C77_order.
Print Assumptions C77_total.
Print Assumptions C77_offline.
Print Assumptions C77_latest.

(** ** Examples *)

Local Definition d (p : String.string) : str := lit p.
Arguments d p%string_scope.
Local Definition w : path := [d "w"].
Local Definition s_ : str := d "s".
Local Definition live : path := [d "live"; d "releases"; d "cdtb"; d "s"; d "w"].
Local Definition dirs : fs := [([d "w"], NDir); ([d "s"; d "w"], NDir); ([d "cdtb"; d "s"; d "w"], NDir); ([d "releases"; d "cdtb"; d "s"; d "w"], NDir); (live, NDir)].
Local Definition load_ex : bytes -> result json := ReleasesProps.load_ex.
Local Definition enc0 (s : str) : bytes := map n2b s.
(** Two releases; the first one has no client. *)
Local Definition rel (v : String.string) (urls : bytes) : fs := [(d v :: live, NDir); (d "release.json" :: d v :: live, NFile urls)].
Local Definition cache (v name : String.string) (text : bytes) : fs := [(d (String.append "patch_version." name) :: d v :: live, NFile text)].
Arguments rel v%string_scope urls.
Arguments cache (v name)%string_scope text.
Local Definition f1 : fs := dirs ++ rel "100" (bl "|g1") ++ cache "100" "game" (bl "9.1") ++ rel "200" (bl "c2|g2") ++ cache "200" "game" (bl " 9.2 ") ++ cache "200" "client" (bl "9.1").
Local Definition no_get {A} (u : str) : result A := Err HTTPError.
Local Definition elements_ex (f : fs) (get : str -> result bytes) : outcome (list listed) :=
  fst (fst (run (patcher_patch_elements w enc0 s_ (d "live") None no_get get (fun b => Ok b) (fun s => s) true load_ex ReleasesProps.dump_ex ReleasesProps.same_ex (fun _ => Err ValueError) (fun l => l) (fun l => l) true 300%Z) [] f)).
Local Definition shown (o : outcome (list listed)) : outcome (list (Z * str * json * option str)) :=
  match o with Done l => Done (map (fun x => (ls_release x, ls_name x, ls_url x, option_map v_s (ls_version x))) l) | Raised e => Raised e | Crashed => Crashed end.
Example C77_ex : shown (elements_ex f1 no_get) =
  Done [(200%Z, d "game", JStr (d "g2"), Some (d "9.2")); (200%Z, d "client", JStr (d "c2"), Some (d "9.1")); (100%Z, d "game", JStr (d "g1"), Some (d "9.1"))].
Proof. vm_compute. reflexivity. Qed.
Example C77_available_ex : available_elements element_names (release_info (JStr []) (JStr (d "g"))) = Ok [d "game"] /\ first_element (release_info (JStr []) (JStr (d "g"))) (d "game") (JStr (d "g")) /\
  first_element (release_info (JStr (d "c")) JNull) (d "client") (JStr (d "c")).
Proof.
  split; [reflexivity|]. split.
  - left. split; [reflexivity|]. eexists. split; [reflexivity|]. split; [reflexivity|]. intros H. inversion H.
  - right. split; [reflexivity|]. split.
    + eexists. split; [reflexivity|]. split; [reflexivity|]. intros H. inversion H.
    + intros g (m & E & Eg & H). injection E as <-. cbn in Eg. injection Eg as <-. apply H. constructor.
Qed.
Lemma ready_live f : wf_check f = true -> no_links f = true -> look f w = Some NDir -> releases_ready w s_ (d "live") f.
Proof.
  intros H1 H2 H3. split; [split; [discriminate | vm_compute; intuition discriminate] | | apply wf_check_ok; exact H1 | exact H3 | intros v; apply no_links_ok; exact H2 | apply no_links_ok; exact H2].
  repeat split; try discriminate. vm_compute. intuition discriminate.
Qed.
Lemma number v n z : decZ v = n -> int10 n = Ok z -> v = z.
Proof. intros <- E. rewrite int10_decZ in E. injection E as ->. reflexivity. Qed.
(** The releases of [f1]. *)
Lemma stored1 v b : look f1 (release_file w s_ (d "live") v) = Some (NFile b) -> v = 100%Z /\ b = bl "|g1" \/ v = 200%Z /\ b = bl "c2|g2".
Proof.
  intros E. apply (dget_some_In f1) in E. unfold f1, dirs, rel, cache in E. cbn [app In] in E.
  repeat (destruct E as [E|E]; [try discriminate E; try (apply (f_equal (fun x => length (fst x))) in E; discriminate E)|]); [| | destruct E].
  - left. injection E as E1 E2. split; [exact (number v _ 100%Z (eq_sym E1) eq_refl) | symmetry; exact E2].
  - right. injection E as E1 E2. split; [exact (number v _ 200%Z (eq_sym E1) eq_refl) | symmetry; exact E2].
Qed.
Lemma cached1 f v n data text s ver : has_content w f (cache_file s_ (d "live") v n) data -> text_of data = Ok text -> strip is_space text = s -> cached_result s (Done ver) ->
  known w s_ (d "live") f v n ver.
Proof.
  intros Hc Ht Hs Hr. right. split; [discriminate|]. exists s. split; [|exact Hr]. exists data, text. split; [exact Hc|]. split; [apply text_of_ok; exact Ht | apply stripped_ok; exact Hs].
Qed.
Local Definition the_version (s : str) : version := match patch_version (ArgStr s) with Ok v => v | Err _ => main_version end.
Lemma known1 : all_known w s_ (d "live") load_ex f1.
Proof.
  intros v dd n u (b & Hb & Hl) Hn (m & -> & Hu & Hf). apply stored1 in Hb as [[-> ->]|[-> ->]]; vm_compute in Hl; injection Hl as <-; destruct Hn as [-> | ->].
  - exists (Some (the_version (d "9.1"))). eapply (cached1 _ _ _ (bl "9.1") (d "9.1") (d "9.1")); [eexists; vm_compute; split; reflexivity | reflexivity | reflexivity | apply cr_some; [discriminate | reflexivity]].
  - vm_compute in Hu. injection Hu as <-. exfalso. apply Hf. constructor.
  - exists (Some (the_version (d "9.2"))). eapply (cached1 _ _ _ (bl " 9.2 ") (d " 9.2 ") (d "9.2")); [eexists; vm_compute; split; reflexivity | reflexivity | reflexivity | apply cr_some; [discriminate | reflexivity]].
  - exists (Some (the_version (d "9.1"))). eapply (cached1 _ _ _ (bl "9.1") (d "9.1") (d "9.1")); [eexists; vm_compute; split; reflexivity | reflexivity | reflexivity | apply cr_some; [discriminate | reflexivity]].
Qed.
(** The hypotheses of the claims hold for [f1]. *)
Example C77_hyps : releases_ready w s_ (d "live") f1 /\ all_known w s_ (d "live") load_ex f1 /\ all_cached w s_ (d "live") load_ex f1 /\
  (forall v, stored w s_ (d "live") f1 v -> exists m, release_at w s_ (d "live") load_ex f1 v (JObj m)) /\
  (forall n v, look f1 (n :: rel_dir w s_ (d "live")) <> None -> int10 n = Ok v -> n = decZ v).
Proof.
  split; [apply ready_live; reflexivity|]. split; [exact known1|]. split.
  { intros v dd n u Hd Hn Hu. destruct (known1 v dd n u Hd Hn Hu) as [x Hx]. eapply known_cached. exact Hx. }
  split.
  - intros v [b Hb]. pose proof Hb as Hb'. apply stored1 in Hb' as [[-> ->]|[-> ->]]; eexists; eexists; (split; [vm_compute; reflexivity | vm_compute; reflexivity]).
  - intros n v Hn E. destruct (look f1 (n :: rel_dir w s_ (d "live"))) as [x|] eqn:El; [|contradiction]. apply (dget_some_In f1) in El. unfold f1, dirs, rel, cache in El. cbn [app In] in El.
    repeat (destruct El as [El|El]; [try (apply (f_equal (fun x => length (fst x))) in El; discriminate El); injection El as En Ex; rewrite <- En in E |- *; vm_compute in E; injection E as <-; reflexivity|]). destruct El.
Qed.

(** Asking for the last release, from an empty storage. *)
Local Definition f0 : fs := [([d "w"], NDir); ([d "s"; d "w"], NDir)].
Local Definition latest_ex (patchline : str) (f : fs) : outcome (list listed) :=
  fst (fst (run (patcher_patch_elements w enc0 s_ patchline None (ReleasesProps.get_ex "g") no_get (fun b => Ok b) (fun s => s) true load_ex ReleasesProps.dump_ex ReleasesProps.same_ex (fun _ => Err ValueError) (fun l => l) (fun l => l) false 300%Z) [] f)).
Example C77_latest_ex : shown (latest_ex (d "pbe") f0) = Done [(300%Z, d "game", JStr (d "g"), Some (d "main")); (300%Z, d "client", JStr (d "client"), Some (d "main"))] /\
  releases_ready w s_ (d "pbe") f0 /\ consistent w s_ (d "pbe") 0 f0 /\ answers w (d "pbe") load_ex None (ReleasesProps.get_ex "g") f0 (release_info (JStr (d "client")) (JStr (d "g"))).
Proof.
  split; [vm_compute; reflexivity|]. split; [apply ReleasesProps.ready_ex; reflexivity|]. split; [exact C41_consistent_ex|]. vm_compute. reflexivity.
Qed.

(** ** Refuted claims *)

(** C77: listing stored elements may download files, when a version is not in a cache file. *)
Local Definition f2 : fs := dirs ++ rel "100" (bl "|g1") ++ cache "100" "game" (bl "9.1") ++ rel "200" (bl "|https://lol.dyn.riotcdn.net/channels/public/releases/0123456789ABCDEF.manifest").
Local Definition manifest_at : path := [d "0123456789ABCDEF.manifest"; d "releases"; d "public"; d "channels"; d "s"; d "w"].
Theorem C77_stored_refuted : exists get f o f' data, releases_ready w s_ (d "live") f /\
  run (patcher_patch_elements w enc0 s_ (d "live") None no_get get (fun b => Ok b) (fun s => s) true load_ex ReleasesProps.dump_ex ReleasesProps.same_ex (fun _ => Err ValueError) (fun l => l) (fun l => l) true 300%Z) [] f = (o, [], f') /\
  look f manifest_at = None /\ look f' manifest_at = Some (NFile data) /\ get (lit "channels/public/releases/0123456789ABCDEF.manifest") = Ok data.
Proof.
  exists (fun _ => Ok (bl "RMAN")), f2. eexists _, _, (bl "RMAN"). split; [apply ready_live; reflexivity|]. split; [vm_compute; reflexivity|]. vm_compute. repeat split.
Qed.
Print Assumptions C77_stored_refuted.
(** C77: then an element whose version is in a cache file is not listed, if the version of a more recent one cannot be retrieved. *)
Theorem C77_others_refuted : exists f ver, releases_ready w s_ (d "live") f /\ release_at w s_ (d "live") load_ex f 100 (release_info (JStr []) (JStr (d "g1"))) /\
  known w s_ (d "live") f 100 (d "game") ver /\ elements_ex f no_get = Raised HTTPError.
Proof.
  exists f2, (Some (the_version (d "9.1"))). split; [apply ready_live; reflexivity|]. split; [exists (bl "|g1"); vm_compute; split; reflexivity|]. split; [|vm_compute; reflexivity].
  eapply (cached1 _ _ _ (bl "9.1") (d "9.1") (d "9.1")); [eexists; vm_compute; split; reflexivity | reflexivity | reflexivity | apply cr_some; [discriminate | reflexivity]].
Qed.
Print Assumptions C77_others_refuted.
(** C77: an element whose cache file is empty is listed without version. *)
Theorem C77_version_refuted : exists f l, releases_ready w s_ (d "live") f /\ elements_ex f no_get = Done l /\ exists x, In x l /\ ls_version x = None.
Proof.
  exists (dirs ++ rel "100" (bl "|g1") ++ cache "100" "game" []). eexists. split; [apply ready_live; reflexivity|]. split; [vm_compute; reflexivity|]. eexists. split; [left; reflexivity | reflexivity].
Qed.
Print Assumptions C77_version_refuted.

(** C42: a manifest given by its identifier is the one given by a URL with this identifier. *)
Theorem C42_element cwd base get parse (u h : str) : hex16 h -> manifest_url u h ->
  element_manifest cwd base get parse (JStr u) = element_manifest cwd base get parse (JInt (Z.of_N (hex_value h))).
Proof. intros Hh Hu. unfold element_manifest. cbn [url_ref lift bind]. rewrite (proj1 (C42_same_path cwd base get u h Hh Hu)). reflexivity. Qed.
Print Assumptions C42_element.
Example C42_element_ex :
  let u := lit "https://lol.secure.dyn.riotcdn.net/channels/public/releases/00AF12BB34CC56DD.manifest" in
  manifest_url u (lit "00AF12BB34CC56DD") /\ hex16 (lit "00AF12BB34CC56DD") /\ url_ref (JStr u) = Ok (MUrl u) /\ hex_value (lit "00AF12BB34CC56DD") = 49278716178355933.
Proof. split; [exact (proj1 C42_url_ex)|]. split; [exact (proj2 C42_url_ex)|]. split; vm_compute; reflexivity. Qed.
