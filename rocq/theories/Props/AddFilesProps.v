(** * C56: files of a patch *)

From Verif Require Import Base.Py Base.Text Base.PyFacts Base.TextFacts Base.Bin Model.Version Model.Wad Spec.WadSpec Model.Exporter Spec.ExportTreeSpec Spec.ExporterSpec Spec.ConvertSpec Spec.ProcessSpec Model.AddFiles Spec.AddFilesSpec
  Proofs.WadPathProofs Proofs.AddFilesProofs.
From Verif Require Props.ExporterProps.

Section C56.
  Variable gunzip unzstd : bytes -> result bytes.
  Variable xxh3 : bytes -> N.
  Variable json_loads : bytes -> result unit.
  Variable content : str -> result bytes.
  Variable hashes : str -> result (list (N * str)).
  Notation opened := (opened gunzip unzstd xxh3 content hashes).
  Notation data_extension := (data_extension gunzip unzstd xxh3 json_loads).
  Notation added := (added gunzip unzstd xxh3 json_loads content hashes).
  Notation consistent := (consistent gunzip unzstd xxh3 json_loads content hashes).
  Notation add_patch_files := (add_patch_files gunzip unzstd xxh3 json_loads content hashes).
  Notation built := (built gunzip unzstd xxh3 json_loads content hashes).
  Notation seen := (seen_extension gunzip unzstd xxh3 json_loads content hashes).

  (** Sources [before] have been added earlier, by the same process. *)
  Variables (before : list (str * str)) (e0 : exporter) (c : cache).
  Hypothesis Hbefore : add_patch_files [] before = Ok (c, e0).

  Lemma start_justified P : justified P [].
  Proof. intros h o E. discriminate. Qed.
  Lemma add_run L l c1 c2 e : (forall x, In x l -> In x L) -> justified (seen L) c1 -> add_patch_files c1 l = Ok (c2, e) ->
    justified (seen L) c2 /\ (forall k w, In (k, w) (ex_wads e) -> built L w) /\ dicts e /\
    (forall dst, match dget dst (ex_wads e) with Some w => last_source archive_name l dst (ew_src w) | None => forall s, In (s, dst) l -> ~ archive_name s end) /\
    (forall dst, match dget dst (ex_plain e) with Some s => last_source (fun s => ~ archive_name s) l dst s | None => forall s, In (s, dst) l -> archive_name s end).
  Proof.
    intros Hs HJ E. eapply (add_paths_ok gunzip unzstd xxh3 json_loads content hashes L) in E as (H1 & H2 & H3 & H4 & H5); [|exact Hs | exact HJ | intros k w [] | split; constructor].
    split; [exact H1|]. split; [exact H2|]. split; [exact H3|]. split; intros dst; [specialize (H4 dst) | specialize (H5 dst)]; cbn [ex_wads ex_plain dget] in *.
    - destruct (dget dst (ex_wads e)); [destruct H4 as [H|[H _]]; [exact H | discriminate] | apply H4].
    - destruct (dget dst (ex_plain e)); [destruct H5 as [H|[H _]]; [exact H | discriminate] | apply H5].
  Qed.
  Lemma seen_justified l l' c1 : (forall x, In x l -> In x l') -> justified (seen l) c1 -> justified (seen l') c1.
  Proof. intros H HJ h o E. apply HJ in E. destruct o as [e|]; [|exact Logic.I]. destruct E as [H1 H2]. split; [exact H1 | eapply seen_mono; eassumption]. Qed.
  Lemma before_justified l : justified (seen (before ++ l)) c.
  Proof. eapply seen_justified; [|eapply (add_run before before); [auto | apply start_justified | exact Hbefore]]. intros x Hx. apply in_or_app. auto. Qed.
  Lemma incl_r (l : list (str * str)) : forall x, In x l -> In x (before ++ l).
  Proof. intros x Hx. apply in_or_app. auto. Qed.

  (** Each export path has the last of its sources, archives and other files apart. *)
  Theorem C56_plain l c' e : add_patch_files c l = Ok (c', e) -> forall dst s, dget dst (ex_plain e) = Some s <-> last_source (fun s => ~ archive_name s) l dst s.
  Proof.
    intros E dst s. destruct (add_run (before ++ l) l c c' e (incl_r l) (before_justified l) E) as (_ & _ & _ & _ & H). specialize (H dst). destruct (dget dst (ex_plain e)) as [s'|].
    - split; [intros G; injection G as <-; exact H|]. intros G. f_equal. destruct H as (a & b & E1 & P1 & N1), G as (a' & b' & E2 & P2 & N2). rewrite E1 in E2. clear -E2 P1 P2 N1 N2.
      revert a' E2. induction a as [|x a IH]; intros [|y a'] E2; cbn [app] in E2; [congruence | | |].
      + injection E2 as <- ->. destruct (N1 s); [apply in_or_app; right; left; reflexivity | exact P2].
      + injection E2 as -> <-. destruct (N2 s'); [apply in_or_app; right; left; reflexivity | exact P1].
      + injection E2 as _ E2. exact (IH a' E2).
    - split; [discriminate|]. intros (a & b & -> & P & _). destruct (P (H s ltac:(apply in_or_app; right; left; reflexivity))).
  Qed.
  Theorem C56_archives l c' e : add_patch_files c l = Ok (c', e) -> forall dst s, (exists w, dget dst (ex_wads e) = Some w /\ ew_src w = s) <-> last_source archive_name l dst s.
  Proof.
    intros E dst s. destruct (add_run (before ++ l) l c c' e (incl_r l) (before_justified l) E) as (_ & _ & _ & H & _). specialize (H dst). destruct (dget dst (ex_wads e)) as [w|].
    - split; [intros (w' & G & <-); injection G as <-; exact H|]. intros G. exists w. split; [reflexivity|]. destruct H as (a & b & E1 & P1 & N1), G as (a' & b' & E2 & P2 & N2). rewrite E1 in E2. clear -E2 P1 P2 N1 N2.
      revert a' E2. induction a as [|x a IH]; intros [|y a'] E2; cbn [app] in E2; [congruence | | |].
      + injection E2 as <- ->. destruct (N1 s); [apply in_or_app; right; left; reflexivity | exact P2].
      + injection E2 as -> <-. destruct (N2 (ew_src w)); [apply in_or_app; right; left; reflexivity | exact P1].
      + injection E2 as _ E2. exact (IH a' E2).
    - split; [intros (w' & G & _); discriminate|]. intros (a & b & -> & P & _). destruct (H s ltac:(apply in_or_app; right; left; reflexivity) P).
  Qed.
  (** The entries of an archive are those of its file, in the same order, redirections excepted; see [added] for their
      extensions, and C16 for their paths. *)
  Theorem C56_entries l c' e : add_patch_files c l = Ok (c', e) -> dicts e /\ forall k w, In (k, w) (ex_wads e) ->
    exists f wd, opened (ew_src w) f wd /\ ew_toc w = wad_toc wd /\ Forall2 (added (before ++ l) f (wad_toc wd)) (filter (fun x => negb (w_type x =? 2)) (wad_files wd)) (ew_files w).
  Proof. intros E. destruct (add_run (before ++ l) l c c' e (incl_r l) (before_justified l) E) as (_ & H & D & _). split; [exact D | exact H]. Qed.
  (** When the data of all files with the same hash gives the same extension, it is the one given by the data of the file. *)
  Theorem C56_extensions l c' e : add_patch_files c l = Ok (c', e) -> consistent (before ++ l) -> forall k w y, In (k, w) (ex_wads e) -> In y (ew_files w) ->
    exists f wd x, opened (ew_src w) f wd /\ In x (wad_files wd) /\ w_type x <> 2 /\ y = sanitize_path (set_ext x (w_ext y)) /\
      (bare x -> forall t, w_ext y = Some t <-> data_extension f (wad_toc wd) x t) /\ (~ bare x -> w_ext y = w_ext x).
  Proof.
    intros E HC k w y Hw Hy. destruct (add_run (before ++ l) l c c' e (incl_r l) (before_justified l) E) as (_ & H & D & HA & _). pose proof (H k w Hw) as (f & wd & Ho & Et & HF).
    apply (Forall2_in_r _ _ _ _ HF) in Hy as (x & Hx & (g & Ey & Hg)). exists f, wd, x. split; [exact Ho|]. apply filter_In in Hx as [Hx Ht]. split; [exact Hx|]. apply negb_true_iff, N.eqb_neq in Ht. split; [exact Ht|].
    assert (Eg : w_ext y = g) by (rewrite Ey; exact (proj1 (sanitize_ext (set_ext x g)))). rewrite Eg. split; [exact Ey|]. clear Eg Ey.
    assert (Hsrc : archive_name (ew_src w) /\ In (ew_src w, k) (before ++ l)).
    { specialize (HA k). rewrite (dget_In_NoDup _ _ _ (proj1 D) Hw) in HA. destruct HA as (a & b & -> & P & _). split; [exact P|]. apply in_or_app. right. apply in_or_app. right. left. reflexivity. }
    destruct Hsrc as [Ha Hi]. split.
    - intros Hb t. split.
      + intros ->. destruct Hg as [Hne [G|[_ G]]]; [destruct (not_bare _ _ G Hne Hb)|]. exact (HC _ k f wd x (w_hash x) t Hi Ha Ho Hx Ht Hb eq_refl G).
      + intros Hd. assert (Hs : seen (before ++ l) (w_hash x) t) by (exists (ew_src w), k, f, wd, x; auto 10). destruct g as [t'|]; [|destruct Hg as [_ Hg]; destruct (Hg _ Hd)].
        destruct Hg as [Hne [G|[_ G]]]; [destruct (not_bare _ _ G Hne Hb)|]. f_equal. apply (HC _ k f wd x (w_hash x) t' Hi Ha Ho Hx Ht Hb eq_refl) in G. eapply data_extension_unique; eassumption.
    - intros Hb. destruct g as [t'|]; [destruct Hg as [_ [G|[B _]]]; [symmetry; exact G | contradiction] | destruct Hg; contradiction].
  Qed.
  (** The files of a patch and of the previous one can be compared: the hypotheses of C26. *)
  Theorem C56_same l lp c1 c2 e p : add_patch_files c l = Ok (c1, e) -> add_patch_files c1 lp = Ok (c2, p) -> consistent (before ++ l ++ lp) ->
    (forall k w o, In (k, w) (ex_wads e) -> In (k, o) (ex_wads p) -> hashes (ew_src w) = hashes (ew_src o)) -> same_entries e p.
  Proof.
    intros E Ep HC Hh k w o Hw Ho. set (L := before ++ l ++ lp) in *.
    assert (S1 : forall x, In x l -> In x L) by (intros x Hx; apply in_or_app; right; apply in_or_app; auto).
    assert (S2 : forall x, In x lp -> In x L) by (intros x Hx; apply in_or_app; right; apply in_or_app; auto).
    destruct (add_run L l c c1 e S1 (before_justified (l ++ lp)) E) as (J & B & D & A & _). destruct (add_run L lp c1 c2 p S2 J Ep) as (_ & Bp & Dp & Ap & _).
    specialize (A k). rewrite (dget_In_NoDup _ _ _ (proj1 D) Hw) in A. specialize (Ap k). rewrite (dget_In_NoDup _ _ _ (proj1 Dp) Ho) in Ap.
    assert (G : forall l0 s, (forall x, In x l0 -> In x L) -> last_source archive_name l0 k s -> archive_name s /\ In (s, k) L) by (intros l0 s Hs (a & b & -> & P & _); split; [exact P | apply Hs, in_or_app; right; left; reflexivity]).
    destruct (G _ _ S1 A) as [G1 G2], (G _ _ S2 Ap) as [G3 G4].
    destruct (built_same gunzip unzstd xxh3 json_loads content hashes L k _ _ w o HC eq_refl eq_refl G1 G3 G2 G4 (B k w Hw) (Bp k o Ho) (Hh k w o Hw Ho)) as [H1 H2]. split; [exact H1|]. intros f g Hf Hg Eh _. exact (H2 f g Hf Hg Eh).
  Qed.
  Theorem C56_summed l c' e : add_patch_files c l = Ok (c', e) -> (forall k w f wd, In (k, w) (ex_wads e) -> opened (ew_src w) f wd -> fst (wad_version wd) <> 1) -> summed e.
  Proof.
    intros E HV k w y Hw Hy. destruct (add_run (before ++ l) l c c' e (incl_r l) (before_justified l) E) as (_ & H & _). destruct (H k w Hw) as (f & wd & Ho & _ & HF).
    apply (Forall2_in_r _ _ _ _ HF) in Hy as (x & Hx & (g & -> & _)). rewrite (proj2 (proj2 (sanitize_ext _))). apply filter_In in Hx as [Hx _]. pose proof Ho as [_ (h & _ & Hop)].
    apply (proj1 (opened_entry _ _ _ _ _ _ _ Hop Hx)). exact (HV k w f wd Hw Ho).
  Qed.
  Theorem C56_unique l c' e : add_patch_files c l = Ok (c', e) -> (forall k w f wd, In (k, w) (ex_wads e) -> opened (ew_src w) f wd -> NoDup (map w_hash (wad_files wd))) -> unique_hashes e.
  Proof.
    intros E HU k w Hw. destruct (add_run (before ++ l) l c c' e (incl_r l) (before_justified l) E) as (_ & H & _). destruct (H k w Hw) as (f & wd & Ho & _ & HF). specialize (HU k w f wd Hw Ho).
    assert (G : map w_hash (ew_files w) = map w_hash (filter not_redirect (wad_files wd))).
    { clear -HF. induction HF as [|x y xs ys (g & -> & _) HF IH]; [reflexivity|]. cbn [map]. rewrite IH. f_equal. exact (proj1 (proj2 (sanitize_ext (set_ext x g)))). }
    rewrite G. clear -HU. induction (wad_files wd) as [|x xs IH]; cbn [map filter] in *; [constructor|]. apply NoDup_cons_iff in HU as [H1 H2]. destruct (not_redirect x); [|apply IH, H2]. cbn [map]. constructor; [|apply IH, H2].
    intros Hi. apply H1. apply in_map_iff in Hi as (z & Ez & Hz). apply filter_In in Hz as [Hz _]. apply in_map_iff. eauto.
  Qed.
  (** From the sources of two patches to a plan (see C26 and C55). *)
  Theorem C56_plannable cs v vp l lp c1 c2 a p e q : add_patch_files c l = Ok (c1, a) -> add_patch_files c1 lp = Ok (c2, p) -> consistent (before ++ l ++ lp) ->
    (forall k w o, In (k, w) (ex_wads a) -> In (k, o) (ex_wads p) -> hashes (ew_src w) = hashes (ew_src o)) ->
    (forall k w f wd, In (k, w) (ex_wads a) -> opened (ew_src w) f wd -> fst (wad_version wd) <> 1) ->
    (forall k w f wd, In (k, w) (ex_wads p) -> opened (ew_src w) f wd -> NoDup (map w_hash (wad_files wd))) ->
    by_lang v = by_lang vp -> transform cs v a = Ok e -> transform cs vp p = Ok q -> no_nesting (produces cs q) -> plannable cs true e (Some q).
  Proof.
    intros E Ep HC Hh HV HU HL T Tp HN. destruct (C56_entries l c1 a E) as [D _].
    assert (J : justified (seen (before ++ l ++ lp)) c1) by (eapply (add_run (before ++ l ++ lp) l c c1 a); [intros x Hx; apply in_or_app; right; apply in_or_app; auto | apply before_justified | exact E]).
    assert (S2 : forall x, In x lp -> In x (before ++ l ++ lp)) by (intros x Hx; apply in_or_app; right; apply in_or_app; auto).
    destruct (add_run _ lp c1 c2 p S2 J Ep) as (_ & Bp & Dp & _).
    assert (U : unique_hashes p).
    { intros k w Hw. destruct (Bp k w Hw) as (f & wd & Ho & _ & HF). specialize (HU k w f wd Hw Ho).
      assert (G : map w_hash (ew_files w) = map w_hash (filter not_redirect (wad_files wd))) by (clear -HF; induction HF as [|x y xs ys (g & -> & _) HF IH]; [reflexivity|]; cbn [map]; rewrite IH; f_equal; exact (proj1 (proj2 (sanitize_ext (set_ext x g))))).
      rewrite G. clear -HU. induction (wad_files wd) as [|x xs IH]; cbn [map filter] in *; [constructor|]. apply NoDup_cons_iff in HU as [H1 H2]. destruct (not_redirect x); [|apply IH, H2]. cbn [map]. constructor; [|apply IH, H2].
      intros Hi. apply H1. apply in_map_iff in Hi as (z & Ez & Hz). apply filter_In in Hz as [Hz _]. apply in_map_iff. eauto. }
    destruct (ExporterProps.C26_selected cs v vp a p e q D Dp (C56_summed l c1 a E HV) U (C56_same l lp c1 c2 a p E Ep HC Hh) HL T Tp) as (H1 & H2 & H3 & H4 & H5 & H6 & H7).
    split; [exact H1|]. split; [exact H3|]. split; [exact H2|]. split; [exact H4|]. intros _. split; [exact H5|]. split; [exact H6|]. split; [exact H7 | exact HN].
  Qed.
End C56.
Print Assumptions C56_plain.
Print Assumptions C56_archives.
Print Assumptions C56_entries.
Print Assumptions C56_extensions.
Print Assumptions C56_same.
Print Assumptions C56_summed.
Print Assumptions C56_unique.
Print Assumptions C56_plannable.

(** ** Examples *)

Section Check.
  Variable gunzip unzstd : bytes -> result bytes.
  Variable xxh3 : bytes -> N.
  Variable json_loads : bytes -> result unit.
  Variable content : str -> result bytes.
  Variable hashes : str -> result (list (N * str)).
  Local Definition open_entries (src : str) : list (bytes * option bytes * wfile) :=
    match content src, hashes src with
    | Ok f, Ok h => match open_wad gunzip unzstd xxh3 h f with Ok wd => map (fun w => (f, wad_toc wd, w)) (wad_files wd) | Err _ => [] end
    | _, _ => []
    end.
  Local Definition all_entries (L : list (str * str)) : list (bytes * option bytes * wfile) := flat_map (fun sd => if is_wad (fst sd) then open_entries (fst sd) else []) L.
  Local Lemma all_entries_in L src dst f wd w : In (src, dst) L -> archive_name src -> opened gunzip unzstd xxh3 content hashes src f wd -> In w (wad_files wd) -> In (f, wad_toc wd, w) (all_entries L).
  Proof.
    intros Hi Ha [Ef (h & Eh & Eo)] Hw. apply in_flat_map. exists (src, dst). split; [exact Hi|]. cbn [fst]. rewrite (proj2 (is_wad_iff src) Ha). unfold open_entries. rewrite Ef, Eh, Eo. apply in_map_iff. eauto.
  Qed.
  Local Definition dext (x : bytes * option bytes * wfile) : option str :=
    match read_file_data gunzip unzstd xxh3 (fst (fst x)) (snd (fst x)) (snd x) with
    | Ok (Some (b :: d)) => match guess_extension json_loads (b :: d) with Ok o => o | Err _ => None end
    | _ => None
    end.
  Local Lemma dext_iff f toc w e : data_extension gunzip unzstd xxh3 json_loads f toc w e <-> dext (f, toc, w) = Some e.
  Proof.
    unfold dext. cbn [fst snd]. split.
    - intros (d & E & Hne & Eg). rewrite E. destruct d as [|b d]; [congruence|]. rewrite Eg. reflexivity.
    - intros E. destruct (read_file_data gunzip unzstd xxh3 f toc w) as [[[|b d]|]|] eqn:Er; try discriminate. exists (b :: d). split; [exact Er|]. split; [discriminate|]. destruct (guess_extension json_loads (b :: d)) as [o|]; [rewrite E; reflexivity | discriminate].
  Qed.
  Local Definition agree_b (x y : bytes * option bytes * wfile) : bool := negb (w_hash (snd x) =? w_hash (snd y)) || match dext y with Some e => eqb (dext x) (Some e) | None => true end.
  Local Lemma consistent_check L : forallb (fun x => forallb (agree_b x) (all_entries L)) (all_entries L) = true -> consistent gunzip unzstd xxh3 json_loads content hashes L.
  Proof.
    intros H src dst f wd w h e Hi Ha Ho Hw Ht Hb Eh (src' & dst' & f' & wd' & w' & Hi' & Ha' & Ho' & Hw' & Ht' & Eh' & Hd). apply dext_iff in Hd. apply dext_iff.
    pose proof (all_entries_in L src dst f wd w Hi Ha Ho Hw) as G. pose proof (all_entries_in L src' dst' f' wd' w' Hi' Ha' Ho' Hw') as G'.
    apply (proj1 (forallb_forall _ _) H) in G. apply (proj1 (forallb_forall _ _) G) in G'. unfold agree_b in G'. cbn [snd] in G'. rewrite Eh, Eh', N.eqb_refl, Hd in G'. cbn [negb orb] in G'. destruct (eqbP (dext (f, wad_toc wd, w)) (Some e)) as [Ed|Ed]; [exact Ed | discriminate G'].
  Qed.
  Local Definition same_b (y z : bytes * option bytes * wfile) : bool :=
    (w_type (snd y) =? 2) || negb (w_hash (snd y) =? w_hash (snd z)) || negb (eqb (w_sha (snd y)) (w_sha (snd z)))
    || match read_file_data gunzip unzstd xxh3 (fst (fst y)) (snd (fst y)) (snd y), read_file_data gunzip unzstd xxh3 (fst (fst z)) (snd (fst z)) (snd z) with Ok a, Ok b => eqb a b | _, _ => false end.
  Local Lemma same_b_ok y z : same_b y z = true -> w_type (snd y) <> 2 -> w_hash (snd y) = w_hash (snd z) -> w_sha (snd y) = w_sha (snd z) ->
    read_file_data gunzip unzstd xxh3 (fst (fst y)) (snd (fst y)) (snd y) = read_file_data gunzip unzstd xxh3 (fst (fst z)) (snd (fst z)) (snd z).
  Proof.
    unfold same_b. intros H Ht E1 E2. apply N.eqb_neq in Ht. rewrite Ht, E1, E2, N.eqb_refl in H. destruct (eqbP (w_sha (snd z)) (w_sha (snd z))) as [_|Hn]; [|congruence]. cbn [negb orb] in H.
    destruct (read_file_data gunzip unzstd xxh3 (fst (fst y)) (snd (fst y)) (snd y)) as [a|]; [|discriminate]. destruct (read_file_data gunzip unzstd xxh3 (fst (fst z)) (snd (fst z)) (snd z)) as [b|]; [|discriminate]. destruct (eqbP a b) as [->|]; [reflexivity | discriminate].
  Qed.
End Check.

Local Notation t := lit.
Local Definition entry (ty h size sum : N) : wentry := {| we_hash := h; we_off := 168; we_csize := size; we_size := size; we_type := ty; we_count := 0; we_high := 0; we_dup := 0; we_first := 0; we_sum := sum |}.
(** An archive with a file and a redirection. *)
Local Definition archive (h size sum : N) (data rest : String.string) : bytes := wad_layout 2 0 WF2 (repeat x00 96) [entry 0 h size sum; entry 2 9 0 0] (bl data ++ bl rest).
Arguments archive h size sum (data rest)%string_scope.
Local Definition none : bytes -> result bytes := fun _ => Err ValueError.
Local Definition nojson : bytes -> result unit := fun _ => Err ValueError.
Local Definition k1 := t "plugins/rcp-a/assets.wad".
Local Definition k2 := t "plugins/rcp-b/assets.wad".
Local Definition l1 := [(t "/1/a.wad", k1); (t "/1/b.wad", k2); (t "/1/c.txt", t "c.txt")].
Local Definition l2 := [(t "/0/a.wad", k1); (t "/0/b.wad", k2)].
Local Definition files (x : bool) (s : str) : result bytes :=
  if eqb s (t "/1/a.wad") then Ok (archive 1 2 70 "zz" "new") else if eqb s (t "/1/b.wad") then Ok (archive (if x then 1 else 2) 6 80 "PROPxx" "new")
  else if eqb s (t "/0/a.wad") then Ok (archive 1 2 70 "zz" "old") else if eqb s (t "/0/b.wad") then Ok (archive (if x then 1 else 2) 6 80 "PROPxx" "old") else Err (OSError ENOENT).
Local Definition names : list (N * str) := [(1, t "a/b/c.png")].
Local Definition ver (s : String.string) : version := match patch_version (ArgStr (lit s)) with Ok v => v | Err _ => {| v_s := []; v_t := VMain |} end.
Arguments ver s%string_scope.
Local Definition add (x : bool) (h : list (N * str)) := add_patch_files none none (fun _ => 0) nojson (files x) (fun _ => Ok h).
Local Definition res {A} (r : result A) (d : A) : A := match r with Ok a => a | Err _ => d end.
Local Definition empty : exporter := {| ex_wads := []; ex_plain := [] |}.
Local Definition a0 x h := res (add x h [] l1) ([], empty).
Local Definition p0 x h := res (add x h (fst (a0 x h)) l2) ([], empty).
Local Definition e0 x h := res (transform raw_converters (ver "14.2") (snd (a0 x h))) empty.
Local Definition q0 x h := res (transform raw_converters (ver "14.1") (snd (p0 x h))) empty.
Example C56_ex : add false names [] l1 = Ok (a0 false names) /\ ex_plain (snd (a0 false names)) = [(t "c.txt", t "/1/c.txt")]
  /\ map (fun kw => (fst kw, ew_src (snd kw), map (fun w => (w_path w, w_ext w)) (ew_files (snd kw)))) (ex_wads (snd (a0 false names)))
     = [(k1, t "/1/a.wad", [(Some (t "a/b/c.png"), Some (t "png"))]); (k2, t "/1/b.wad", [(None, Some (t "bin"))])]
  /\ consistent none none (fun _ => 0) nojson (files false) (fun _ => Ok names) (l1 ++ l2)
  /\ plannable raw_converters true (e0 false names) (Some (q0 false names)).
Proof.
  split; [vm_compute; reflexivity|]. split; [vm_compute; reflexivity|]. split; [vm_compute; reflexivity|]. assert (HC : consistent none none (fun _ => 0) nojson (files false) (fun _ => Ok names) (l1 ++ l2)) by (apply consistent_check; vm_compute; reflexivity).
  split; [exact HC|].
  assert (Ho : forall k w f wd, In (k, w) (ex_wads (snd (a0 false names)) ++ ex_wads (snd (p0 false names))) -> opened none none (fun _ => 0) (files false) (fun _ => Ok names) (ew_src w) f wd -> wad_version wd = (2, 0) /\ map w_hash (wad_files wd) = [if eqb k k1 then 1 else 2; 9]).
  { intros k w f wd Hw [Ef (h & Eh & Eo)]. injection Eh as <-. vm_compute in Hw. destruct Hw as [E|[E|[E|[E|[]]]]]; injection E as <- <-; cbn [ew_src] in Ef; vm_compute in Ef; injection Ef as <-; vm_compute in Eo; injection Eo as <-; split; vm_compute; reflexivity. }
  eapply (C56_plannable none none (fun _ => 0) nojson (files false) (fun _ => Ok names) [] empty [] eq_refl raw_converters (ver "14.2") (ver "14.1") l1 l2 (fst (a0 false names)) (fst (p0 false names)) (snd (a0 false names)) (snd (p0 false names))).
  - vm_compute; reflexivity.
  - vm_compute; reflexivity.
  - exact HC.
  - reflexivity.
  - intros k w f wd Hw O. destruct (Ho k w f wd (in_or_app _ _ _ (or_introl Hw)) O) as [-> _]. discriminate.
  - intros k w f wd Hw O. destruct (Ho k w f wd (in_or_app _ _ _ (or_intror Hw)) O) as [_ ->]. destruct (eqb k k1); repeat constructor; cbn; intuition discriminate.
  - vm_compute; reflexivity.
  - vm_compute; reflexivity.
  - vm_compute; reflexivity.
  - eapply ExporterProps.nesting_check; [|vm_compute; reflexivity | vm_compute; reflexivity].
    intros k w f Hw Hf. vm_compute in Hw. destruct Hw as [E|[E|[]]]; injection E as <- <-; cbn [ew_files] in Hf; destruct Hf as [<-|[]]; discriminate.
Qed.

(** An export fails although equal checksums go with equal data: the extension guessed for a file of another archive is
    used for the files of the previous patch, but not for those of the new one. *)
Theorem C56_guess_refuted : exists gunzip unzstd xxh3 json_loads content hashes cs v vp l lp c1 c2 a p e q,
  add_patch_files gunzip unzstd xxh3 json_loads content hashes [] l = Ok (c1, a) /\ add_patch_files gunzip unzstd xxh3 json_loads content hashes c1 lp = Ok (c2, p)
  /\ (forall src dst f wd x src' dst' f' wd' x', In (src, dst) (l ++ lp) -> opened gunzip unzstd xxh3 content hashes src f wd -> In x (wad_files wd) -> In (src', dst') (l ++ lp) -> opened gunzip unzstd xxh3 content hashes src' f' wd' -> In x' (wad_files wd') ->
      archive_name src -> archive_name src' -> w_type x <> 2 -> w_hash x = w_hash x' -> w_sha x = w_sha x' -> read_file_data gunzip unzstd xxh3 f (wad_toc wd) x = read_file_data gunzip unzstd xxh3 f' (wad_toc wd') x')
  /\ by_lang v = by_lang vp /\ transform cs v a = Ok e /\ transform cs vp p = Ok q /\ plan_links cs e q = Err KeyError.
Proof.
  exists none, none, (fun _ => 0), nojson, (files true), (fun _ => Ok []), raw_converters, (ver "14.2"), (ver "14.1"), l1, l2, (fst (a0 true [])), (fst (p0 true [])), (snd (a0 true [])), (snd (p0 true [])), (e0 true []), (q0 true []).
  split; [vm_compute; reflexivity|]. split; [vm_compute; reflexivity|]. split.
  - intros src dst f wd x src' dst' f' wd' x' Hi Ho Hx Hi' Ho' Hx' Ha Ha' Ht Eh Es.
    pose proof (all_entries_in _ _ _ _ _ _ src dst f wd x Hi Ha Ho Hx) as G. pose proof (all_entries_in _ _ _ _ _ _ src' dst' f' wd' x' Hi' Ha' Ho' Hx') as G'. clear - G G' Ht Eh Es.
    assert (H : forall y z, In y (all_entries none none (fun _ => 0) (files true) (fun _ => Ok []) (l1 ++ l2)) -> In z (all_entries none none (fun _ => 0) (files true) (fun _ => Ok []) (l1 ++ l2)) -> w_type (snd y) <> 2 ->
      w_hash (snd y) = w_hash (snd z) -> w_sha (snd y) = w_sha (snd z) -> read_file_data none none (fun _ => 0) (fst (fst y)) (snd (fst y)) (snd y) = read_file_data none none (fun _ => 0) (fst (fst z)) (snd (fst z)) (snd z)).
    { assert (C : let D := all_entries none none (fun _ => 0) (files true) (fun _ => Ok []) (l1 ++ l2) in forallb (fun y => forallb (same_b none none (fun _ => 0) y) D) D = true) by (vm_compute; reflexivity).
      intros y z Hy Hz E0 E1 E2. apply (proj1 (forallb_forall _ _) C) in Hy. apply (proj1 (forallb_forall _ _) Hy) in Hz. exact (same_b_ok _ _ _ y z Hz E0 E1 E2). }
    exact (H _ _ G G' Ht Eh Es).
  - split; [vm_compute; reflexivity|]. split; [vm_compute; reflexivity|]. split; [vm_compute; reflexivity|]. vm_compute. reflexivity.
Qed.
Print Assumptions C56_guess_refuted.
