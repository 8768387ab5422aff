(** * C18: success of the extraction of WAD archives *)

From Verif Require Import Base.Py Base.Text Base.TextFacts Base.Fs Spec.FsSpec Base.FsFacts Model.Files Model.Wad Model.WadExtract
  Spec.WadExtractSpec Spec.PatcherTotalSpec Proofs.WadTotalProofs Props.WadExtractProps.

Section C18.
  Variable gunzip unzstd : bytes -> result bytes.
  Variable xxh3 : bytes -> N.
  Variable cwd : path.
  Variable wadf : bytes.
  Variable toc : option bytes.
  Variable output : str.
  Variable files : list wfile.
  Notation data w d := (read_data gunzip unzstd xxh3 wadf w toc = Ok (Some d)).
  Notation extract overwrite := (wad_extract gunzip unzstd xxh3 cwd wadf toc files output overwrite).
  Notation entries := (set_unknown_paths (lit "unknown") (sanitize_paths files)).

  (** Without failures of the system, the extraction succeeds if the data of all entries can be read
      (apart from malformed subchunks), if there is room for those that have data, and if none of
      these is in a directory with the path of another. *)
  Theorem C18_succeeds ow f :
    Forall (good cwd output f) entries ->
    (forall w e, In w entries -> read_data gunzip unzstd xxh3 wadf w toc = Err e -> exists m, e = MalformedSubchunkError m) ->
    (forall w d, In w entries -> data w d -> room f (dest cwd output w)) ->
    (forall w w' d d', In w entries -> In w' entries -> data w d -> data w' d' -> ~ strictly_below (dest cwd output w) (dest cwd output w')) ->
    exists f', run (extract ow) [] f = (Done tt, [], f').
  Proof.
    intros Hg Ha Hm Hb. apply loop_total.
    - exact Hg.
    - apply Forall_forall. intros w Hi e. apply Ha. exact Hi.
    - intros w Hi [d Hd]. eapply Hm; eassumption.
    - intros w w' Hi Hi' [d Hd] [d' Hd']. eapply Hb; eassumption.
  Qed.
End C18.
Print Assumptions C18_succeeds.

Local Notation arch := WadExtractProps.arch.
Local Notation sample := WadExtractProps.sample.
Local Notation disk := WadExtractProps.disk.
Local Notation wd := WadExtractProps.wd.
Local Notation sample_entries := (set_unknown_paths (lit "unknown") (sanitize_paths sample)).
Local Notation none := (fun _ : bytes => @Err bytes ValueError).
(** The hypotheses hold for the archive of [C18_runs_ex]. *)
Example C18_succeeds_ex : Forall (good wd (lit "/w") disk) sample_entries /\
  (forall w e, In w sample_entries -> read_data none none (fun _ => 0) arch w None = Err e -> exists m, e = MalformedSubchunkError m) /\
  (forall w d, In w sample_entries -> read_data none none (fun _ => 0) arch w None = Ok (Some d) -> room disk (dest wd (lit "/w") w)) /\
  (forall w w' d d', In w sample_entries -> In w' sample_entries -> read_data none none (fun _ => 0) arch w None = Ok (Some d) ->
     read_data none none (fun _ => 0) arch w' None = Ok (Some d') -> ~ strictly_below (dest wd (lit "/w") w) (dest wd (lit "/w") w')).
Proof.
  split; [exact C18_good_ex|].
  assert (He : forall w, In w sample_entries -> read_data none none (fun _ => 0) arch w None = Ok None \/
    (exists d, read_data none none (fun _ => 0) arch w None = Ok (Some d)) /\ In (dest wd (lit "/w") w) [[lit "hello.txt"; lit "a"; lit "w"]; [lit "0000000000000002"; lit "unknown"; lit "w"]]).
  { refine (proj1 (Forall_forall _ _) _).
    repeat (apply Forall_cons; [first [left; vm_compute; reflexivity | right; split; [eexists; vm_compute; reflexivity | first [left; vm_compute; reflexivity | right; left; vm_compute; reflexivity]]]|]). apply Forall_nil. }
  split; [|split].
  - intros w e Hi E. destruct (He w Hi) as [H|[[d H] _]]; congruence.
  - intros w d Hi E. destruct (He w Hi) as [H|[_ [H|[H|[]]]]]; [congruence | |]; rewrite <- H; (split; [vm_compute; discriminate|]).
    all: intros q (x & l & Eq); injection Eq as _ Eq; destruct l as [|y [|z [|t l]]]; cbn [app] in Eq; [subst q | injection Eq as _ <- | injection Eq as _ _ <- | discriminate Eq]; vm_compute; auto.
  - intros w w' d d' Hi Hi' E E' (x & l & B). destruct (He w Hi) as [H|[_ H]]; [congruence|]. destruct (He w' Hi') as [H'|[_ H']]; [congruence|].
    assert (Hlen : length (dest wd (lit "/w") w) = 3%nat) by (destruct H as [<-|[<-|[]]]; reflexivity).
    assert (Hlen' : length (dest wd (lit "/w") w') = 3%nat) by (destruct H' as [<-|[<-|[]]]; reflexivity).
    rewrite B in Hlen. cbn [length] in Hlen. rewrite app_length, Hlen' in Hlen. lia.
Qed.
