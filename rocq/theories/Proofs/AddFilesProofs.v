(** * Proofs about the files of a patch *)

From Verif Require Import Base.Py Base.Text Base.PyFacts Base.TextFacts Model.Wad Model.Exporter Spec.WadSpec Proofs.WadProofs Proofs.WadPathProofs Model.AddFiles Spec.AddFilesSpec Spec.ExporterSpec.

Lemma is_wad_iff s : is_wad s = true <-> archive_name s.
Proof.
  unfold is_wad, archive_name. rewrite orb_true_iff, !endswith_iff. split.
  - intros [[p ->]|[p ->]]; exists p; auto.
  - intros [p [-> | ->]]; [left | right]; exists p; reflexivity.
Qed.
Lemma is_wad_not s : is_wad s = false <-> ~ archive_name s.
Proof. rewrite <- is_wad_iff. destruct (is_wad s); split; congruence. Qed.

(** Guessed extensions are never empty. *)
Lemma first_match_nonempty t d e : Forall (fun me : matcher * str => snd me <> []) t -> first_match t d = Some e -> e <> [].
Proof. induction 1 as [|[m x] t Hx HF IH]; cbn [first_match]; [discriminate|]. destruct (matches m d); [|exact IH]. intros E. injection E as <-. exact Hx. Qed.
Lemma guess_nonempty jl d e : guess_extension jl d = Ok (Some e) -> e <> [].
Proof.
  unfold guess_extension. destruct (first_match magic_table d) as [x|] eqn:E.
  - intros H. injection H as <-. eapply first_match_nonempty; [|exact E]. repeat constructor; discriminate.
  - destruct (jl d) as [|x]; [|destruct x; discriminate]. intros H. injection H as <-. discriminate.
Qed.

Section Cache.
  Variable gunzip unzstd : bytes -> result bytes.
  Variable xxh3 : bytes -> N.
  Variable json_loads : bytes -> result unit.
  Notation loop := (guess_loop gunzip unzstd xxh3 json_loads).
  Notation guess := (guess_extensions gunzip unzstd xxh3 json_loads).
  Notation data_extension := (data_extension gunzip unzstd xxh3 json_loads).
  (** Extensions of the cache have a reason. *)
  Definition justified (P : N -> str -> Prop) (c : cache) : Prop := forall h o, dget h c = Some o -> match o with Some e => e <> [] /\ P h e | None => True end.

  Lemma loop_cache P f toc : forall files c c' files', justified P c -> (forall w e, In w files -> bare w -> data_extension f toc w e -> P (w_hash w) e) ->
    loop f toc c files = Ok (c', files') ->
    justified P c' /\ Forall2 (fun w w' => exists g, w' = set_ext w g /\ match g with
      | Some e => w_ext w = Some e \/ bare w /\ P (w_hash w) e
      | None => bare w /\ forall e, ~ data_extension f toc w e
      end /\ (g = Some [] -> w_ext w = Some [] /\ forall e, ~ data_extension f toc w e)) files files'.
  Proof.
    induction files as [|w files IH]; intros c c' files' HP Hd; cbn [guess_loop].
    { intros E. injection E as <- <-. split; [exact HP | constructor]. }
    assert (Hd' : forall w e, In w files -> bare w -> data_extension f toc w e -> P (w_hash w) e) by (intros; apply Hd; [right|..]; assumption).
    destruct (truthy (w_ext w)) as [e|] eqn:Et.
    - intros E. apply rbind_Ok in E as ([c1 t1] & E & E'). injection E' as <- <-. apply (IH _ _ _ HP Hd') in E as [H1 H2]. split; [exact H1|]. constructor; [|exact H2].
      apply truthy_some in Et as [Ee Hne]. exists (Some e). split; [rewrite <- Ee; symmetry; apply set_ext_id|]. split; [left; exact Ee | intros G; injection G as ->; contradiction].
    - intros E. apply rbind_Ok in E as (data & Ed & E).
      assert (Hb : bare w) by (apply truthy_none in Et; exact Et).
      assert (Hno : match data with Some (_ :: _) => False | _ => True end -> forall e, ~ data_extension f toc w e).
      { intros Hdata e (d & Er & Hne & _). rewrite Ed in Er. injection Er as ->. destruct d; [congruence | exact Hdata]. }
      assert (Hskip : match data with Some (_ :: _) => False | _ => True end -> forall t1, loop f toc c files = Ok (c', t1) -> files' = w :: t1 -> 
        justified P c' /\ Forall2 (fun w w' => exists g, w' = set_ext w g /\ match g with Some e => w_ext w = Some e \/ bare w /\ P (w_hash w) e | None => bare w /\ forall e, ~ data_extension f toc w e end
          /\ (g = Some [] -> w_ext w = Some [] /\ forall e, ~ data_extension f toc w e)) (w :: files) files').
      { intros Hdata t1 El ->. apply (IH _ _ _ HP Hd') in El as [H1 H2]. split; [exact H1|]. constructor; [|exact H2]. exists (w_ext w). split; [symmetry; apply set_ext_id|].
        split; [|intros G; split; [exact G | apply Hno, Hdata]]. destruct Hb as [Eb|Eb]; rewrite Eb; [split; [left; exact Eb | apply Hno, Hdata] | left; reflexivity]. }
      destruct data as [[|b d]|].
      + apply rbind_Ok in E as ([c1 t1] & E & E'). injection E' as <- <-. exact (Hskip Logic.I _ E eq_refl).
      + apply rbind_Ok in E as (ext & Ee & E). apply rbind_Ok in E as ([c1 t1] & E & E'). injection E' as <- <-.
        assert (HE : match ext with Some e => e <> [] /\ P (w_hash w) e | None => True end).
        { destruct ext as [e|]; [|exact Logic.I]. split; [eapply guess_nonempty, Ee|]. apply Hd; [left; reflexivity | exact Hb|]. exists (b :: d). split; [exact Ed|]. split; [discriminate | exact Ee]. }
        apply (IH (dset (w_hash w) ext c)) in E as [H1 H2]; [| |exact Hd'].
        * split; [exact H1|]. constructor; [|exact H2]. exists ext. split; [reflexivity|]. destruct ext as [e|].
          -- split; [right; split; [exact Hb | apply HE] | intros G; injection G as ->; destruct HE; congruence].
          -- split; [|discriminate]. split; [exact Hb|]. intros e (d' & Er & _ & Eg). rewrite Ed in Er. injection Er as <-. congruence.
        * intros h o. rewrite dget_dset. destruct (eqbP h (w_hash w)) as [->|]; [intros G; injection G as <-; exact HE | apply HP].
      + apply rbind_Ok in E as ([c1 t1] & E & E'). injection E' as <- <-. exact (Hskip Logic.I _ E eq_refl).
  Qed.
  Lemma data_set_ext f toc w g e : data_extension f toc (set_ext w g) e <-> data_extension f toc w e.
  Proof. reflexivity. Qed.
  Lemma set_set_ext w a b : set_ext (set_ext w a) b = set_ext w b.
  Proof. reflexivity. Qed.
  (** [guess_extensions] *)
  Definition given (P : N -> str -> Prop) (f : bytes) (toc : option bytes) (x y : wfile) : Prop := exists g, y = set_ext x g /\ match g with
    | Some e => e <> [] /\ (w_ext x = Some e \/ bare x /\ P (w_hash x) e)
    | None => bare x /\ forall e, ~ data_extension f toc x e
    end.
  Lemma guess_given P f toc files c c' files' : justified P c -> (forall w e, In w files -> data_extension f toc w e -> P (w_hash w) e) ->
    guess f toc c files = Ok (c', files') -> justified P c' /\ Forall2 (given P f toc) files files'.
  Proof.
    intros HP Hd. unfold guess_extensions.
    assert (Hc : forall w, exists g, ext_from_cache c w = set_ext w g /\ g <> Some [] /\ (match g with Some e => w_ext w = Some e \/ bare w /\ P (w_hash w) e | None => bare w end)).
    { intros w. unfold ext_from_cache. destruct (truthy (w_ext w)) as [e|] eqn:Et.
      - apply truthy_some in Et as [E Hne]. exists (Some e). split; [rewrite <- E; symmetry; apply set_ext_id|]. split; [congruence | left; exact E].
      - apply truthy_none in Et. eexists. split; [reflexivity|]. destruct (dget (w_hash w) c) as [[e|]|] eqn:E; [|split; [discriminate | exact Et]..].
        apply HP in E. cbn beta iota in E. split; [destruct E; congruence | right; split; [exact Et | apply E]]. }
    destruct (existsb _ _) eqn:Eex.
    - intros E. apply (loop_cache P) in E as [H1 H2]; [|exact HP|].
      + split; [exact H1|]. clear -H2 Hc. revert files' H2. induction files as [|w files IH]; intros files' HF; cbn [map] in HF; inversion HF as [|? w' ? t' Hw HF']; subst; constructor; [|apply IH, HF'].
        destruct (Hc w) as (g & Eg & Hg & Hr). rewrite Eg in Hw. destruct Hw as (g' & -> & Hw & He). rewrite set_set_ext. exists g'. split; [reflexivity|].
        change (w_ext (set_ext w g)) with g in *. change (w_hash (set_ext w g)) with (w_hash w) in *. destruct g' as [e|].
        * split; [intros ->; destruct (He eq_refl); congruence|]. destruct Hw as [-> |[Hb HPe]]; [exact Hr|]. destruct Hb as [Eb|Eb]; change (w_ext (set_ext w g)) with g in Eb; [|congruence]. subst g. right. auto.
        * destruct Hw as [Hb Hw]. split; [|intros e G; apply (Hw e); exact G]. destruct Hb as [Eb|Eb]; change (w_ext (set_ext w g)) with g in Eb; [subst g; exact Hr | congruence].
      + intros w e Hw Hb He. apply in_map_iff in Hw as (w0 & Ew & Hw0). destruct (Hc w0) as (g & Eg & _). rewrite Eg in Ew. subst w. exact (Hd w0 e Hw0 He).
    - intros E. injection E as <- <-. split; [exact HP|]. clear -Hc Eex. induction files as [|w files IH]; cbn [map existsb] in *; constructor; apply orb_false_iff in Eex as [E1 E2]; [|apply IH, E2].
      destruct (Hc w) as (g & Eg & Hg & Hr). rewrite Eg in *. change (w_ext (set_ext w g)) with g in E1. exists g. split; [reflexivity|]. destruct g as [[|a e]|]; [destruct (Hg eq_refl) | | discriminate]. split; [discriminate | exact Hr].
  Qed.
End Cache.

Section Add.
  Variable gunzip unzstd : bytes -> result bytes.
  Variable xxh3 : bytes -> N.
  Variable json_loads : bytes -> result unit.
  Variable content : str -> result bytes.
  Variable hashes : str -> result (list (N * str)).
  Notation opened := (opened gunzip unzstd xxh3 content hashes).
  Notation data_extension := (data_extension gunzip unzstd xxh3 json_loads).
  Notation seen := (seen_extension gunzip unzstd xxh3 json_loads content hashes).
  Notation added := (added gunzip unzstd xxh3 json_loads content hashes).
  Notation load_wad := (load_wad gunzip unzstd xxh3 json_loads content hashes).
  Notation add_path := (add_path gunzip unzstd xxh3 json_loads content hashes).
  Notation add_paths := (add_paths gunzip unzstd xxh3 json_loads content hashes).
  Definition not_redirect (w : wfile) : bool := negb (w_type w =? 2).

  Lemma seen_mono l l' h e : (forall x, In x l -> In x l') -> seen l h e -> seen l' h e.
  Proof. intros H (src & dst & f & wd & w & Hi & R). exists src, dst, f, wd, w. split; [apply H, Hi | exact R]. Qed.

  Lemma load_wad_ok l c src dst c' w : In (src, dst) l -> archive_name src -> justified (seen l) c -> load_wad c src = Ok (c', w) ->
    justified (seen l) c' /\ ew_src w = src /\ exists f wd, opened src f wd /\ ew_toc w = wad_toc wd /\ Forall2 (added l f (wad_toc wd)) (filter not_redirect (wad_files wd)) (ew_files w).
  Proof.
    intros Hi Ha HJ E. unfold load_wad in E. apply rbind_Ok in E as (f & Ef & E). apply rbind_Ok in E as (h & Eh & E). apply rbind_Ok in E as (wd & Ew & E). apply rbind_Ok in E as ([c1 files] & Eg & E). injection E as <- <-.
    assert (Ho : opened src f wd) by (split; [exact Ef | exists h; auto]).
    apply (guess_given _ _ _ _ (seen l)) in Eg as [H1 H2]; [|exact HJ|].
    - split; [exact H1|]. split; [reflexivity|]. exists f, wd. split; [exact Ho|]. split; [reflexivity|]. cbn [ew_files]. unfold sanitize_paths.
      clear -H2. change (filter (fun w => negb (w_type w =? 2)) (wad_files wd)) with (filter not_redirect (wad_files wd)) in H2. induction H2 as [|x y xs ys (g & -> & Hg) HF IH]; cbn [map]; constructor; [exists g; split; [reflexivity | exact Hg] | exact IH].
    - intros x e Hx He. apply filter_In in Hx as [Hx Ht]. exists src, dst, f, wd, x. split; [exact Hi|]. split; [exact Ha|]. split; [exact Ho|]. split; [exact Hx|].
      split; [apply negb_true_iff, N.eqb_neq in Ht; exact Ht|]. split; [reflexivity | exact He].
  Qed.

  (** Archives of an exporter built from [l]. *)
  Definition built (l : list (str * str)) (w : ewad) : Prop := exists f wd, opened (ew_src w) f wd /\ ew_toc w = wad_toc wd /\ Forall2 (added l f (wad_toc wd)) (filter not_redirect (wad_files wd)) (ew_files w).
  Lemma add_paths_ok L : forall l c e c' e', (forall x, In x l -> In x L) -> justified (seen L) c -> (forall k w, In (k, w) (ex_wads e) -> built L w) -> dicts e ->
    add_paths (c, e) l = Ok (c', e') ->
    justified (seen L) c' /\ (forall k w, In (k, w) (ex_wads e') -> built L w) /\ dicts e' /\
    (forall dst, match dget dst (ex_wads e') with
      | Some w => last_source archive_name l dst (ew_src w) \/ dget dst (ex_wads e) = Some w /\ forall s, In (s, dst) l -> ~ archive_name s
      | None => dget dst (ex_wads e) = None /\ forall s, In (s, dst) l -> ~ archive_name s end) /\
    (forall dst, match dget dst (ex_plain e') with
      | Some s => last_source (fun s => ~ archive_name s) l dst s \/ dget dst (ex_plain e) = Some s /\ forall s, In (s, dst) l -> archive_name s
      | None => dget dst (ex_plain e) = None /\ forall s, In (s, dst) l -> archive_name s end).
  Proof.
    assert (Hcons : forall P (l : list (str * str)) x dst s, last_source P l dst s -> last_source P (x :: l) dst s) by (intros P l x dst s (l1 & l2 & -> & H); exists (x :: l1), l2; split; [reflexivity | exact H]).
    induction l as [|[src dst0] l IH]; intros c e c' e' Hsub HJ HB HD; cbn [AddFiles.add_paths].
    { intros E. injection E as <- <-. split; [exact HJ|]. split; [exact HB|]. split; [exact HD|]. split; intros dst.
      - destruct (dget dst (ex_wads e)) as [w|]; [right|]; split; try reflexivity; intros s [].
      - destruct (dget dst (ex_plain e)) as [w|]; [right|]; split; try reflexivity; intros s []. }
    intros E. apply rbind_Ok in E as ([c1 e1] & E1 & E). unfold AddFiles.add_path in E1. destruct (is_wad src) eqn:Ea.
    - apply is_wad_iff in Ea. apply rbind_Ok in E1 as ([c2 w0] & Ew & E1). injection E1 as <- <-.
      apply (load_wad_ok L) with (dst := dst0) in Ew as (HJ2 & Es & Hb); [|apply Hsub; left; reflexivity | exact Ea | exact HJ].
      assert (Hb0 : built L w0) by (unfold built; rewrite Es; exact Hb).
      apply IH in E as (I1 & I2 & I3 & I4 & I5); [|intros x Hx; apply Hsub; right; exact Hx | exact HJ2| |].
      + split; [exact I1|]. split; [exact I2|]. split; [exact I3|]. cbn [ex_wads ex_plain] in *. split; intros dst.
        * specialize (I4 dst). rewrite dget_dset in I4. destruct (dget dst (ex_wads e')) as [w|]; destruct (eqbP dst dst0) as [Hd|Hd].
          -- destruct I4 as [I4|[I4 I6]]; [left; apply Hcons, I4|]. injection I4 as ->. left. exists [], l. split; [rewrite Hd; rewrite Es; reflexivity|]. split; [rewrite Es; exact Ea | exact I6].
          -- destruct I4 as [I4|[I4 I6]]; [left; apply Hcons, I4|]. right. split; [exact I4|]. intros s [Hs|Hs]; [congruence | apply I6, Hs].
          -- destruct I4; discriminate.
          -- destruct I4 as [I4 I6]. split; [exact I4|]. intros s [Hs|Hs]; [congruence | apply I6, Hs].
        * specialize (I5 dst). destruct (dget dst (ex_plain e')) as [w|].
          -- destruct I5 as [I5|[I5 I6]]; [left; apply Hcons, I5|]. right. split; [exact I5|]. intros s [Hs|Hs]; [congruence | apply I6, Hs].
          -- destruct I5 as [I5 I6]. split; [exact I5|]. intros s [Hs|Hs]; [congruence | apply I6, Hs].
      + cbn [ex_wads]. intros k w Hi. assert (HN : NoDup (dkeys (dset dst0 w0 (ex_wads e)))) by (apply dset_NoDup, HD).
        apply (dget_In_NoDup _ _ _ HN) in Hi. rewrite dget_dset in Hi. destruct (eqbP k dst0) as [->|]; [injection Hi as <-; exact Hb0 | apply dget_Some_In in Hi; apply HB in Hi; exact Hi].
      + split; [apply dset_NoDup, HD | apply HD].
    - apply is_wad_not in Ea. injection E1 as <- <-.
      apply IH in E as (I1 & I2 & I3 & I4 & I5); [|intros x Hx; apply Hsub; right; exact Hx | exact HJ | exact HB | split; [apply HD | apply dset_NoDup, HD]].
      split; [exact I1|]. split; [exact I2|]. split; [exact I3|]. cbn [ex_wads ex_plain] in *. split; intros dst.
      + specialize (I4 dst). destruct (dget dst (ex_wads e')) as [w|].
        * destruct I4 as [I4|[I4 I6]]; [left; apply Hcons, I4|]. right. split; [exact I4|]. intros s [Hs|Hs]; [congruence | apply I6, Hs].
        * destruct I4 as [I4 I6]. split; [exact I4|]. intros s [Hs|Hs]; [congruence | apply I6, Hs].
      + specialize (I5 dst). rewrite dget_dset in I5. destruct (dget dst (ex_plain e')) as [w|]; destruct (eqbP dst dst0) as [Hd|Hd].
        * destruct I5 as [I5|[I5 I6]]; [left; apply Hcons, I5|]. injection I5 as ->. left. exists [], l. split; [rewrite Hd; reflexivity|]. split; [exact Ea|]. intros s Hs Hn. exact (Hn (I6 s Hs)).
        * destruct I5 as [I5|[I5 I6]]; [left; apply Hcons, I5|]. right. split; [exact I5|]. intros s [Hs|Hs]; [congruence | apply I6, Hs].
        * destruct I5; discriminate.
        * destruct I5 as [I5 I6]. split; [exact I5|]. intros s [Hs|Hs]; [congruence | apply I6, Hs].
  Qed.
End Add.

(** ** Opened archives *)

Lemma parsed_bare b v files : prun parse_headers b = Ok (v, files) -> Forall (fun w => w_path w = None /\ w_ext w = None /\ (fst v <> 1 -> w_sha w <> None)) files.
Proof.
  intros E. apply parse_headers_inv in E as (f & filler & es & rest & Hok & _ & ->). apply Forall_forall. intros w Hw. apply in_map_iff in Hw as (x & <- & _).
  split; [reflexivity|]. split; [reflexivity|]. intros Hv. destruct Hok as (Hma & Hmi & Hf & _). destruct f; try discriminate. exfalso. unfold format_of in Hf. destruct (fst v) as [|[[m|m|]|[m|m|]|]]; try discriminate Hf; [destruct (snd v <=? 3); discriminate Hf | exact (Hv eq_refl)].
Qed.
(** Path and extension of an entry when its archive is opened: given by its hash. *)
Lemma opened_entry gunzip unzstd xxh3 h f wd x : open_wad gunzip unzstd xxh3 h f = Ok wd -> In x (wad_files wd) ->
  (fst (wad_version wd) <> 1 -> w_sha x <> None) /\
  match dget (w_hash x) h with
  | Some p => w_path x = Some p /\ w_ext x = Some (dropN 1 (snd (splitext p)))
  | None => w_path x = None /\ w_ext x = None
  end.
Proof.
  intros E Hx. unfold open_wad in E. apply rbind_Ok in E as ([v files] & E1 & E). apply rbind_Ok in E as (toc & _ & E). injection E as <-. cbn [wad_files wad_version] in *.
  apply in_map_iff in Hx as (w & <- & Hw). apply parsed_bare in E1. rewrite Forall_forall in E1. apply E1 in Hw as (H1 & H2 & H3). unfold resolve_path. destruct (dget (w_hash w) h) as [p|] eqn:E.
  - split; [exact H3|]. change (w_hash (set_ext (set_path w (Some p)) (Some (dropN 1 (snd (splitext p)))))) with (w_hash w). rewrite E. split; reflexivity.
  - split; [exact H3|]. rewrite E. split; assumption.
Qed.
Lemma sanitize_ext w : w_ext (sanitize_path w) = w_ext w /\ w_hash (sanitize_path w) = w_hash w /\ w_sha (sanitize_path w) = w_sha w.
Proof.
  unfold sanitize_path. destruct (truthy (w_path w)) as [p|]; [|auto]. destruct (eqb (snd (splitext p)) []); cbv zeta iota beta; destruct (path_split _) as [dir fn]; destruct (250 <=? lenN fn); auto.
Qed.
Lemma sanitize_path_eq w w' : w_hash w = w_hash w' -> w_path w = w_path w' -> w_ext w = w_ext w' -> w_path (sanitize_path w) = w_path (sanitize_path w').
Proof.
  intros E1 E2 E3. unfold sanitize_path. rewrite <- E2. destruct (truthy (w_path w)) as [p|]; [|exact E2]. rewrite <- E3, <- E1. destruct (eqb (snd (splitext p)) []); cbv zeta iota beta; destruct (path_split _) as [dir fn]; destruct (250 <=? lenN fn); reflexivity.
Qed.

Section Same.
  Variable gunzip unzstd : bytes -> result bytes.
  Variable xxh3 : bytes -> N.
  Variable json_loads : bytes -> result unit.
  Variable content : str -> result bytes.
  Variable hashes : str -> result (list (N * str)).
  Notation opened := (opened gunzip unzstd xxh3 content hashes).
  Notation data_extension := (data_extension gunzip unzstd xxh3 json_loads).
  Notation seen := (seen_extension gunzip unzstd xxh3 json_loads content hashes).
  Notation added := (added gunzip unzstd xxh3 json_loads content hashes).
  Notation consistent := (consistent gunzip unzstd xxh3 json_loads content hashes).
  Notation built := (built gunzip unzstd xxh3 json_loads content hashes).
  Notation kept := (filter not_redirect).

  Lemma data_extension_unique f toc x e e' : data_extension f toc x e -> data_extension f toc x e' -> e = e'.
  Proof. intros (d & E1 & _ & E2) (d' & E3 & _ & E4). congruence. Qed.
  Lemma opened_unique src f wd f' wd' : opened src f wd -> opened src f' wd' -> f = f' /\ wd = wd'.
  Proof. intros [E1 (h & E2 & E3)] [E4 (h' & E5 & E6)]. assert (f = f') by congruence. subst f'. assert (h = h') by congruence. subst h'. split; congruence. Qed.
  Lemma added_mono l l' f toc x y : (forall z, In z l -> In z l') -> added l f toc x y -> added l' f toc x y.
  Proof.
    intros H (g & -> & Hg). exists g. split; [reflexivity|]. destruct g as [e|]; [|exact Hg]. destruct Hg as [Hne [Hg|[Hb Hs]]]; split; auto. right. split; [exact Hb|]. eapply seen_mono; eassumption.
  Qed.
  Lemma built_mono l l' w : (forall z, In z l -> In z l') -> built l w -> built l' w.
  Proof.
    intros H (f & wd & Ho & Et & HF). exists f, wd. split; [exact Ho|]. split; [exact Et|]. clear -HF H. induction HF; constructor; [eapply added_mono; eassumption | assumption].
  Qed.

  Lemma Forall2_in_r {A B} (R : A -> B -> Prop) l l' y : Forall2 R l l' -> In y l' -> exists x, In x l /\ R x y.
  Proof. induction 1 as [|a b l l' Hr HF IH]; [intros []|]. intros [<-|Hy]; [exists a; split; [left; reflexivity | exact Hr]|]. destruct (IH Hy) as (x & Hx & Hr'). exists x. split; [right; exact Hx | exact Hr']. Qed.
  Lemma not_bare x e : w_ext x = Some e -> e <> [] -> ~ bare x.
  Proof. intros E Hne [H|H]; congruence. Qed.

  (** Under [consistent], the extension given to an entry depends on its hash and initial extension only. *)
  Lemma same_ext L src dst f wd x y src' dst' f' wd' x' y' : consistent L -> In (src, dst) L -> archive_name src -> opened src f wd -> In x (kept (wad_files wd)) -> added L f (wad_toc wd) x y ->
    In (src', dst') L -> archive_name src' -> opened src' f' wd' -> In x' (kept (wad_files wd')) -> added L f' (wad_toc wd') x' y' ->
    w_hash x = w_hash x' -> w_ext x = w_ext x' -> forall g g', y = sanitize_path (set_ext x g) -> y' = sanitize_path (set_ext x' g') -> g = g'.
  Proof.
    intros HC Hi Ha Ho Hx (g1 & E1 & H1) Hi' Ha' Ho' Hx' (g2 & E2 & H2) Eh Ee g g' Eg Eg'.
    assert (g1 = g) by (apply (f_equal w_ext) in E1; rewrite Eg in E1; rewrite !(proj1 (sanitize_ext _)) in E1; symmetry; exact E1). subst g1.
    assert (g2 = g') by (apply (f_equal w_ext) in E2; rewrite Eg' in E2; rewrite !(proj1 (sanitize_ext _)) in E2; symmetry; exact E2). subst g2. clear E1 E2 Eg Eg'.
    apply filter_In in Hx as [Hx Ht]. apply filter_In in Hx' as [Hx' Ht']. apply negb_true_iff, N.eqb_neq in Ht, Ht'.
    assert (Hb : bare x <-> bare x') by (unfold bare; rewrite Ee; reflexivity).
    assert (D : forall e, bare x -> seen L (w_hash x) e -> data_extension f (wad_toc wd) x e) by (intros e B S; exact (HC src dst f wd x (w_hash x) e Hi Ha Ho Hx Ht B eq_refl S)).
    assert (D' : forall e, bare x' -> seen L (w_hash x') e -> data_extension f' (wad_toc wd') x' e) by (intros e B S; exact (HC src' dst' f' wd' x' (w_hash x') e Hi' Ha' Ho' Hx' Ht' B eq_refl S)).
    rewrite Eh in *. destruct g as [e|], g' as [e'|].
    - destruct H1 as [N1 H1], H2 as [N2 H2]. destruct H1 as [H1|[B1 S1]], H2 as [H2|[B2 S2]].
      + congruence.
      + rewrite Ee in H1. destruct (not_bare _ _ H1 N1 B2).
      + rewrite <- Ee in H2. destruct (not_bare _ _ H2 N2 B1).
      + f_equal. eapply data_extension_unique; [apply D' | apply D']; eassumption.
    - destruct H1 as [N1 H1], H2 as [B2 H2]. destruct H1 as [H1|[B1 S1]]; [rewrite Ee in H1; destruct (not_bare _ _ H1 N1 B2)|]. destruct (H2 _ (D' _ B2 S1)).
    - destruct H2 as [N2 H2], H1 as [B1 H1]. destruct H2 as [H2|[B2 S2]]; [rewrite <- Ee in H2; destruct (not_bare _ _ H2 N2 B1)|]. destruct (H1 _ (D _ B1 S2)).
    - reflexivity.
  Qed.

  (** Equal archives and equal entries get equal paths. *)
  Lemma built_same L k src src' w o : consistent L -> ew_src w = src -> ew_src o = src' -> archive_name src -> archive_name src' -> In (src, k) L -> In (src', k) L -> built L w -> built L o -> hashes src = hashes src' ->
    (src = src' -> ew_files w = ew_files o) /\
    (forall f g, In f (ew_files w) -> In g (ew_files o) -> w_hash g = w_hash f -> w_path g = w_path f /\ w_ext g = w_ext f).
  Proof.
    intros HC Es Es' Ha Ha' Hi Hi' (f & wd & Ho & Et & HF) (f' & wd' & Ho' & Et' & HF') Hh. rewrite Es in Ho. rewrite Es' in Ho'. split.
    - intros E. rewrite <- E in Ho', Hi', Ha'. destruct (opened_unique _ _ _ _ _ Ho Ho') as [<- <-].
      assert (G : forall l l1 l2, (forall x, In x l -> In x (kept (wad_files wd))) -> Forall2 (added L f (wad_toc wd)) l l1 -> Forall2 (added L f (wad_toc wd)) l l2 -> l1 = l2).
      { clear HF HF'. induction l as [|x l IH]; intros l1 l2 Hsub H1 H2; inversion H1 as [|? y ? l1' A1 T1]; inversion H2 as [|? y' ? l2' A2 T2]; subst; [reflexivity|]. f_equal; [|apply IH; [intros z Hz; apply Hsub; right; exact Hz | assumption..]].
        pose proof A1 as (g1 & E1 & _). pose proof A2 as (g2 & E2 & _). rewrite E1, E2. f_equal. f_equal. assert (Hx : In x (kept (wad_files wd))) by (apply Hsub; left; reflexivity).
        exact (same_ext L _ k f wd x y _ k f wd x y' HC Hi Ha Ho Hx A1 Hi Ha Ho Hx A2 eq_refl eq_refl g1 g2 E1 E2). }
      eapply G; [|exact HF | exact HF']. auto.
    - intros y y' Hy Hy' Eh. apply (Forall2_in_r _ _ _ _ HF) in Hy as (x & Hx & A). apply (Forall2_in_r _ _ _ _ HF') in Hy' as (x' & Hx' & A').
      pose proof A as (g & E & _). pose proof A' as (g' & E' & _).
      assert (Ex : w_hash x = w_hash x'). { rewrite E, E' in Eh. rewrite !(proj1 (proj2 (sanitize_ext _))) in Eh. symmetry. exact Eh. }
      destruct Ho as [Hf (h & Hh1 & Hop)]. destruct Ho' as [Hf' (h' & Hh1' & Hop')]. assert (h = h') by congruence. subst h'.
      assert (P1 : w_path x = w_path x' /\ w_ext x = w_ext x').
      { assert (Hx0 := proj1 (proj1 (filter_In _ _ _) Hx)). assert (Hx0' := proj1 (proj1 (filter_In _ _ _) Hx')). destruct (opened_entry _ _ _ _ _ _ _ Hop Hx0) as [_ Q]. destruct (opened_entry _ _ _ _ _ _ _ Hop' Hx0') as [_ Q'].
        rewrite Ex in Q. destruct (dget (w_hash x') h); destruct Q as [-> ->], Q' as [-> ->]; auto. }
      destruct P1 as [P1 P2]. assert (Eg : g = g').
      { refine (same_ext L src k f wd x y src' k f' wd' x' y' HC Hi Ha _ Hx A Hi' Ha' _ Hx' A' Ex P2 g g' E E'); (split; [assumption | exists h; auto]). }
      subst g'. rewrite E, E'. split; [|rewrite !(proj1 (sanitize_ext _)); reflexivity]. apply sanitize_path_eq; [symmetry; exact Ex | symmetry; exact P1 | reflexivity].
  Qed.
End Same.
