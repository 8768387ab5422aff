(** * C53: opening a WAD archive *)

From Verif Require Import Base.TextFacts Base.PathFacts Base.BinFacts Model.Wad Spec.WadSpec Proofs.WadProofs.

(** The extension [e] of the path [p]: what follows the last dot of its last component, when something else
    than dots precedes it there. *)
Local Definition extension_of (p e : str) : Prop :=
  exists d b, p = d ++ b ++ cDot :: e /\ (d = [] \/ exists d', d = d' ++ [cSlash]) /\
    ~ In cSlash b /\ ~ In cSlash e /\ ~ In cDot e /\ exists c, In c b /\ c <> cDot.

Lemma basename_split d b : (d = [] \/ exists d', d = d' ++ [cSlash]) -> ~ In cSlash b -> basename (d ++ b) = b.
Proof.
  intros Hd Hb. rewrite basename_cut. destruct Hd as [->|[d' ->]].
  - cbn [app]. rewrite (proj2 (cut_last_None cSlash b) Hb). reflexivity.
  - rewrite <- app_assoc. cbn [app]. rewrite cut_last_app by assumption. reflexivity.
Qed.
Lemma not_dots b : forallb (N.eqb cDot) b = false <-> exists c, In c b /\ c <> cDot.
Proof.
  split.
  - induction b as [|c b IH]; cbn [forallb]; [discriminate|]. destruct (N.eqb_spec cDot c) as [<-|Hc]; cbn [andb].
    + intros H. destruct (IH H) as (c & Hc & Hn). exists c. split; [right; assumption | assumption].
    + intros _. exists c. split; [left; reflexivity | congruence].
  - intros (c & Hc & Hn). destruct (forallb (N.eqb cDot) b) eqn:E; [|reflexivity].
    rewrite forallb_forall in E. specialize (E c Hc). apply N.eqb_eq in E. congruence.
Qed.
Lemma ext_spec p : (forall e, extension_of p e -> snd (splitext p) = cDot :: e) /\
  ((forall e, ~ extension_of p e) -> snd (splitext p) = []).
Proof.
  split.
  - intros e (d & b & -> & Hd & Hb & He & Hdot & Hc). rewrite splitext_snd_base, basename_split.
    + apply splitext_has_ext; [|assumption | apply not_dots; assumption].
      intros H. apply in_app_or in H as [H|[H|H]]; [contradiction | discriminate | contradiction].
    + assumption.
    + intros H. apply in_app_or in H as [H|[H|H]]; [contradiction | discriminate | contradiction].
  - intros Hno. rewrite splitext_snd_base. apply splitext_ext_iff; [apply basename_no_slash|]. left. split; [reflexivity|].
    intros b x Eb Hx. destruct (forallb (N.eqb cDot) b) eqn:E; [reflexivity|]. exfalso. apply (Hno x).
    pose proof (basename_no_slash p) as Hn. rewrite Eb in Hn.
    assert (Hp : exists d, p = d ++ basename p /\ (d = [] \/ exists d', d = d' ++ [cSlash])).
    { rewrite basename_cut. destruct (cut_last cSlash p) as [[h t]|] eqn:Ec.
      - apply cut_last_Some in Ec as [-> _]. exists (h ++ [cSlash]). rewrite <- app_assoc. eauto.
      - exists []. auto. }
    destruct Hp as (d & Ep & Hd). rewrite Eb in Ep. exists d, b.
    split; [exact Ep|]. split; [exact Hd|].
    split; [intros H; apply Hn, in_or_app; left; exact H|].
    split; [intros H; apply Hn, in_or_app; right; right; exact H|]. split; [exact Hx | apply not_dots; exact E].
Qed.

(** C53: a file whose hash is known gets this path and its extension, the others get neither; nothing else changes. *)
Theorem C53_resolve hashes w :
  let w' := resolve_path hashes w in
  (w_hash w', w_off w', w_csize w', w_size w', w_type w', w_count w', w_dup w', w_first w', w_sha w') =
  (w_hash w, w_off w, w_csize w, w_size w, w_type w, w_count w, w_dup w, w_first w, w_sha w) /\
  match dget (w_hash w) hashes with
  | Some p => w_path w' = Some p /\
              (forall e, extension_of p e -> w_ext w' = Some e) /\
              ((forall e, ~ extension_of p e) -> w_ext w' = Some [])
  | None => w_path w' = w_path w /\ w_ext w' = w_ext w
  end.
Proof.
  unfold resolve_path. destruct (dget (w_hash w) hashes) as [p|]; [|auto]. cbn.
  split; [reflexivity|]. split; [reflexivity|]. destruct (ext_spec p) as [H1 H2].
  split; [intros e He; rewrite (H1 e He) | intros He; rewrite (H2 He)]; cbn; rewrite ?dropN_0; reflexivity.
Qed.
Print Assumptions C53_resolve.
Local Definition ext_of (p : String.string) : option str :=
  w_ext (resolve_path [(1, lit p)] (view WF1 {| we_hash := 1; we_off := 0; we_csize := 0; we_size := 0; we_type := 0; we_count := 0;
     we_high := 0; we_dup := 0; we_first := 0; we_sum := 0 |})).
Arguments ext_of p%string_scope.
Example C53_resolve_ex :
  ext_of "a.b/c.d.tex" = Some (lit "tex") /\ ext_of "a.b/c" = Some [] /\ ext_of "a/.hidden" = Some [] /\ ext_of "a/x." = Some [] /\
  extension_of (lit "a.b/c.d.tex") (lit "tex").
Proof.
  do 4 (split; [vm_compute; reflexivity|]). exists (lit "a.b/"), (lit "c.d").
  split; [reflexivity|]. split; [right; exists (lit "a.b"); reflexivity|].
  do 3 (split; [vm_compute; intuition discriminate|]). exists 100. split; [cbn; auto | discriminate].
Qed.

(** C53: opening yields the entries of the header with their paths resolved, and as sub-chunk table the data of
    the first file named "….subchunktoc", if any. *)
Theorem C53_open gunzip unzstd xxh3 hashes f wd :
  open_wad gunzip unzstd xxh3 hashes f = Ok wd <->
  exists files, prun parse_headers f = Ok (wad_version wd, files) /\
    wad_files wd = map (resolve_path hashes) files /\
    (((forall w p, In w (wad_files wd) -> w_path w = Some p -> forall q, p <> q ++ lit ".subchunktoc") /\ wad_toc wd = None) \/
     exists pre w q post, wad_files wd = pre ++ w :: post /\ w_path w = Some (q ++ lit ".subchunktoc") /\
       (forall w' p, In w' pre -> w_path w' = Some p -> forall q, p <> q ++ lit ".subchunktoc") /\
       read_data gunzip unzstd xxh3 f w None = Ok (wad_toc wd)).
Proof.
  assert (Ht : forall files toc, load_subchunk_toc gunzip unzstd xxh3 f files = Ok toc <->
    ((forall w p, In w files -> w_path w = Some p -> forall q, p <> q ++ lit ".subchunktoc") /\ toc = None) \/
     exists pre w q post, files = pre ++ w :: post /\ w_path w = Some (q ++ lit ".subchunktoc") /\
       (forall w' p, In w' pre -> w_path w' = Some p -> forall q, p <> q ++ lit ".subchunktoc") /\
       read_data gunzip unzstd xxh3 f w None = Ok toc).
  { intros files toc. induction files as [|w files IH].
    - cbn [load_subchunk_toc]. split.
      + intros E. left. split; [intros w p []|]. congruence.
      + intros [[_ ->]|(pre & w & q & post & E & _)]; [reflexivity|]. destruct pre; discriminate E.
    - cbn [load_subchunk_toc].
      assert (Hskip : (forall p, w_path w = Some p -> forall q, p <> q ++ lit ".subchunktoc") ->
        load_subchunk_toc gunzip unzstd xxh3 f files = Ok toc <->
        ((forall w0 p, In w0 (w :: files) -> w_path w0 = Some p -> forall q, p <> q ++ lit ".subchunktoc") /\ toc = None) \/
         exists pre w0 q post, w :: files = pre ++ w0 :: post /\ w_path w0 = Some (q ++ lit ".subchunktoc") /\
           (forall w' p, In w' pre -> w_path w' = Some p -> forall q, p <> q ++ lit ".subchunktoc") /\
           read_data gunzip unzstd xxh3 f w0 None = Ok toc).
      { intros Hw. rewrite IH. split.
        - intros [[Hn ->]|(pre & w0 & q & post & -> & Hp & Hpre & Hr)].
          + left. split; [|reflexivity]. intros w0 p [<-|Hi]; [apply Hw | apply Hn; assumption].
          + right. exists (w :: pre), w0, q, post. split; [reflexivity|]. split; [exact Hp|]. split; [|exact Hr].
            intros w' p [<-|Hi]; [apply Hw | apply Hpre; assumption].
        - intros [[Hn ->]|(pre & w0 & q & post & E & Hp & Hpre & Hr)].
          + left. split; [|reflexivity]. intros w0 p Hi. apply Hn. right. assumption.
          + right. destruct pre as [|w1 pre]; cbn [app] in E.
            * assert (w = w0) by congruence. subst w0. exfalso. exact (Hw _ Hp q eq_refl).
            * exists pre, w0, q, post. split; [congruence|]. split; [exact Hp|]. split; [|exact Hr].
              intros w' p Hi. apply Hpre. right. assumption. }
      destruct (w_path w) as [p|] eqn:Ew; [|apply Hskip; discriminate].
      destruct (endswith p (lit ".subchunktoc")) eqn:Ee.
      + apply (proj1 (endswith_iff _ _)) in Ee as [q ->]. split.
        * intros E. right. exists [], w, q, files. split; [reflexivity|]. split; [exact Ew|]. split; [intros w' p []|exact E].
        * intros [[Hn _]|(pre & w0 & q0 & post & E & Hp & Hpre & Hr)].
          -- exfalso. exact (Hn w _ (or_introl eq_refl) Ew q eq_refl).
          -- destruct pre as [|w1 pre]; cbn [app] in E; [congruence|]. exfalso.
             assert (w = w1) by congruence. subst w1. exact (Hpre w _ (or_introl eq_refl) Ew q eq_refl).
      + apply Hskip. intros p0 E0 q ->. injection E0 as ->. 
        assert (endswith (q ++ lit ".subchunktoc") (lit ".subchunktoc") = true) by (apply endswith_iff; eauto). congruence. }
  unfold open_wad. split.
  - intros E. apply rbind_Ok in E as ([v files] & E1 & E). apply rbind_Ok in E as (toc & E2 & E).
    assert (wd = {| wad_version := v; wad_files := resolve_paths hashes files; wad_toc := toc |}) by congruence. subst wd.
    exists files. split; [exact E1|]. split; [reflexivity|]. apply Ht. exact E2.
  - intros (files & E1 & E2 & E3). rewrite E1. cbn [rbind]. fold (resolve_paths hashes files) in E2. rewrite E2 in E3.
    apply Ht in E3. rewrite E3. cbn [rbind]. rewrite <- E2. destruct wd. reflexivity.
Qed.
Print Assumptions C53_open.
Local Definition toc_entry : wentry :=
  {| we_hash := 7; we_off := 336; we_csize := 4; we_size := 4; we_type := 0; we_count := 0; we_high := 0;
     we_dup := 0; we_first := 0; we_sum := 77 |}.
Local Definition other_entry : wentry :=
  {| we_hash := 8; we_off := 340; we_csize := 2; we_size := 2; we_type := 0; we_count := 0; we_high := 0;
     we_dup := 0; we_first := 0; we_sum := 78 |}.
Example C53_open_ex :
  rmap (fun wd => (map (fun w => (w_path w, w_ext w)) (wad_files wd), wad_toc wd))
    (open_wad (fun _ => Err ValueError) (fun _ => Err ValueError) (fun _ => 0) [(7, lit "a/b.subchunktoc")]
      (wad_layout 3 4 WF34 (repeat x00 264) [other_entry; toc_entry] (bl "TABLEx")))
  = Ok ([(None, None); (Some (lit "a/b.subchunktoc"), Some (lit "subchunktoc"))], Some (bl "TABL")).
Proof. vm_compute. reflexivity. Qed.
