(** * Proofs about atlas infos and champion skins *)

From Verif Require Import Base.Py Base.Text Base.Bin Base.Utf8 Base.PyFacts Base.TextFacts Base.PathFacts Base.BinFacts Model.Tools Model.Tables
  Spec.Utf8Spec Spec.DictSpec Spec.TablesSpec Proofs.Utf8Proofs Proofs.DictProofs.

Lemma built_dict_of {K V} `{EqDec K} (l : list (K * V)) : built_from l (dict_of l).
Proof. split; [apply dict_of_NoDup|]. intros k. apply dict_of_last. Qed.

(** ** Parser triples *)
Lemma parses_plist_map {A B} (m : P A) (enc : B -> bytes) (g : B -> A) vs n :
  lenN vs = n -> (forall v, In v vs -> parses m (enc v) (g v)) -> parses (plist n m) (flat_map enc vs) (map g vs).
Proof.
  intros <- H. unfold plist. rewrite lenN_length, Nat2N.id. induction vs as [|v vs IH]; cbn [length prep flat_map map].
  - apply parses_ret.
  - eapply parses_bind; [apply H; left; reflexivity|]. eapply parses_bind_last; [apply IH; intros; apply H; right; assumption | apply parses_ret].
Qed.
(** [m] fails with [e] on [bs], wherever it is. *)
Definition fails {A} (m : P A) (bs : bytes) (e : exn) : Prop := forall pre post, m (pre ++ bs ++ post) (lenN pre) = Err e.
Lemma fails_here {A B} (m : P A) (k : A -> P B) bs e : fails m bs e -> fails (pbind m k) bs e.
Proof. intros H pre post. unfold pbind. rewrite H. reflexivity. Qed.
Lemma fails_bind {A B} (m : P A) (k : A -> P B) b1 b2 a e : parses m b1 a -> fails (k a) b2 e -> fails (pbind m k) (b1 ++ b2) e.
Proof.
  intros H1 H2 pre post. unfold pbind. rewrite <- !app_assoc, H1. specialize (H2 (pre ++ b1) post). rewrite lenN_app, <- app_assoc in H2. exact H2.
Qed.
Lemma fails_raise {A} e : fails (@praise A e) [] e.
Proof. intros pre post. reflexivity. Qed.
Lemma fails_app {A} (m : P A) b1 b2 e : fails m b1 e -> fails m (b1 ++ b2) e.
Proof. intros H pre post. rewrite <- app_assoc. apply H. Qed.
Lemma fails_plist {A B} (m : P A) (enc : B -> bytes) (g : B -> A) good bad rest n e :
  lenN (good ++ bad :: rest) = n -> (forall v, In v good -> parses m (enc v) (g v)) -> fails m (enc bad) e ->
  fails (plist n m) (flat_map enc (good ++ bad :: rest)) e.
Proof.
  intros <- H Hb. unfold plist. rewrite lenN_length, Nat2N.id. induction good as [|v vs IH]; cbn [length prep flat_map app].
  - apply fails_app, fails_here, Hb.
  - eapply fails_bind; [apply H; left; reflexivity|]. apply fails_here. apply IH. intros w Hw. apply H. right. exact Hw.
Qed.
Lemma fails_run {A} (m : P A) bs e : fails m bs e -> prun m bs = Err e.
Proof. intros H. specialize (H [] []). rewrite app_nil_r in H. cbn [app] in H. unfold prun. change (lenN (@nil byte)) with 0 in H. rewrite H. reflexivity. Qed.

Lemma parses_text s : text_ok s -> parses unpack_string (sized s) s.
Proof.
  intros [HF Hl]. unfold unpack_string, sized. eapply parses_bind; [apply parses_u32; assumption|].
  eapply parses_bind_last; [apply parses_read; reflexivity|]. rewrite utf8_dec_enc by assumption. apply parses_ret.
Qed.

(** ** Paths *)
Lemma splitext_fst_eq p : fst (splitext p) ++ snd (splitext p) = p.
Proof. apply splitext_concat. Qed.
Lemma base_split p : exists dir, p = dir ++ basename p /\ (dir = [] \/ exists d, dir = d ++ [cSlash]).
Proof.
  rewrite basename_cut. destruct (cut_last cSlash p) as [[h t]|] eqn:E.
  - apply cut_last_Some in E as [-> _]. exists (h ++ [cSlash]). rewrite <- app_assoc. split; [reflexivity|]. right. eauto.
  - exists []. auto.
Qed.
Lemma base_unique dir name : (dir = [] \/ exists d, dir = d ++ [cSlash]) -> ~ In cSlash name -> basename (dir ++ name) = name.
Proof.
  intros Hd Hn. rewrite basename_cut. destruct Hd as [->|[d ->]].
  - cbn [app]. rewrite (proj2 (cut_last_None cSlash name) Hn). reflexivity.
  - rewrite <- app_assoc. cbn [app]. rewrite cut_last_app by assumption. reflexivity.
Qed.
Lemma has_name_iff stem : has_name stem <-> forallb (N.eqb cDot) (basename stem) = false.
Proof.
  split.
  - intros (dir & name & -> & Hd & Hn & c & Hc & Hcd). rewrite base_unique by assumption. destruct (forallb (N.eqb cDot) name) eqn:E; [|reflexivity].
    rewrite forallb_forall in E. specialize (E c Hc). apply N.eqb_eq in E. congruence.
  - intros E. destruct (base_split stem) as (dir & Ed & Hd). exists dir, (basename stem). split; [exact Ed|]. split; [exact Hd|]. split; [apply basename_no_slash|].
    destruct (existsb (fun c => negb (cDot =? c)) (basename stem)) eqn:Ex.
    + apply existsb_exists in Ex as (c & Hc & E'). exists c. split; [exact Hc|]. apply negb_true_iff, N.eqb_neq in E'. congruence.
    + exfalso. assert (F : forallb (N.eqb cDot) (basename stem) = true); [|congruence]. apply forallb_forall. intros c Hc.
      destruct (N.eqb_spec cDot c) as [|Hne]; [reflexivity|]. exfalso. assert (existsb (fun c => negb (cDot =? c)) (basename stem) = true); [|congruence].
      apply existsb_exists. exists c. split; [exact Hc|]. apply negb_true_iff, N.eqb_neq. exact Hne.
Qed.
(** Extension of a path made of a stem and an extension. *)
Lemma splitext_stem stem x : ~ In cSlash x -> ~ In cDot x -> has_name stem -> splitext (stem ++ cDot :: x) = (stem, cDot :: x).
Proof.
  intros Hs Hd Hn. apply has_name_iff in Hn. pose proof (splitext_concat (stem ++ cDot :: x)) as E. destruct (splitext (stem ++ cDot :: x)) as [a e] eqn:Es.
  assert (Ee : e = cDot :: x).
  { change e with (snd (a, e)). rewrite <- Es, splitext_snd_base. destruct (base_split stem) as (dir & Ed & Hdir). rewrite Ed, <- app_assoc.
    assert (Hb : ~ In cSlash (basename stem ++ cDot :: x)).
    { rewrite in_app_iff. intros [H|[H|H]]; [exact (basename_no_slash stem H) | discriminate | exact (Hs H)]. }
    rewrite base_unique by assumption. apply splitext_has_ext; assumption. }
  cbn [fst snd] in E. rewrite Ee in E |- *. f_equal. eapply app_inv_tail. exact E.
Qed.
Lemma splitext_dot p a x : splitext p = (a, cDot :: x) -> p = a ++ cDot :: x /\ has_name a.
Proof.
  intros E. pose proof (splitext_concat p) as Ec. rewrite E in Ec. cbn [fst snd] in Ec. split; [congruence|].
  assert (Es : snd (splitext p) = cDot :: x) by (rewrite E; reflexivity). rewrite splitext_snd_base in Es.
  apply (splitext_ext_iff _ _ (basename_no_slash p)) in Es. destruct Es as [[Hx _]|(b & x' & Eb & Hx & Hf & Ex)]; [discriminate|]. injection Ex as <-.
  apply has_name_iff. destruct (base_split p) as (dir & Ed & Hdir). rewrite Eb in Ed. assert (Ea : a = dir ++ b).
  { apply (app_inv_tail (cDot :: x)). rewrite <- app_assoc. congruence. }
  rewrite Ea, base_unique; [exact Hf | exact Hdir|]. intros Hi. apply (basename_no_slash p). rewrite Eb. apply in_or_app. left. exact Hi.
Qed.

Section Tables.
Variable lower : str -> str.

Lemma convert_image p : image_path lower p (convert_cdragon_path lower p).
Proof.
  unfold convert_cdragon_path, image_path. generalize (lower p) as q. intros q. pose proof (splitext_concat q) as Ec. destruct (splitext q) as [a e] eqn:E. cbn [fst snd] in Ec.
  destruct (eqb e (lit ".dds") || eqb e (lit ".tex")) eqn:Ee.
  - left. exists a. apply orb_true_iff in Ee. split.
    + destruct Ee as [Ee|Ee]; apply eqb_true in Ee; subst e; [left|right]; congruence.
    + split; [|reflexivity]. destruct Ee as [Ee|Ee]; apply eqb_true in Ee; subst e; apply (splitext_dot q a) in E as [_ Hn]; exact Hn.
  - right. split; [exact Ec|]. apply orb_false_iff in Ee as [E1 E2]. apply eqb_false in E1, E2. intros stem Hst Hn.
    assert (Hno : forall x : str, ~ In cSlash x -> ~ In cDot x -> q = stem ++ cDot :: x -> e = cDot :: x).
    { intros x H1 H2 Eq. rewrite Eq, (splitext_stem stem x H1 H2 Hn) in E. injection E as _ <-. reflexivity. }
    destruct Hst as [Eq|Eq].
    + apply E1. apply (Hno (lit "dds")); [| |exact Eq]; vm_compute; intuition discriminate.
    + apply E2. apply (Hno (lit "tex")); [| |exact Eq]; vm_compute; intuition discriminate.
Qed.
Lemma image_path_fun p q q' : image_path lower p q -> image_path lower p q' -> q = q'.
Proof.
  assert (L : forall a b : str, (lower p = a ++ lit ".dds" \/ lower p = a ++ lit ".tex") -> (lower p = b ++ lit ".dds" \/ lower p = b ++ lit ".tex") -> a = b).
  { intros a b Ha Hb. assert (G : forall (a b c d : str), length c = length d -> a ++ c = b ++ d -> a = b).
    { intros a0 b0 c d Hl E. assert (El : length a0 = length b0) by (apply (f_equal (@length N)) in E; rewrite !app_length in E; lia).
      revert b0 El E. induction a0 as [|x a0 IH]; intros [|y b0] El E; try discriminate; [reflexivity|]. cbn in E. injection E as -> E. f_equal. apply IH; [now injection El | exact E]. }
    destruct Ha as [Ha|Ha], Hb as [Hb|Hb]; rewrite Ha in Hb; eapply G; try exact Hb; reflexivity. }
  intros [(s1 & E1 & N1 & ->)|[-> F1]] [(s2 & E2 & N2 & ->)|[-> F2]].
  - rewrite (L s1 s2 E1 E2). reflexivity.
  - destruct (F2 s1 E1 N1).
  - destruct (F1 s2 E2 N2).
  - reflexivity.
Qed.

(** ** Rows *)
Definition entry {A} (paths : list str) (t : texture A) : atlas_entry :=
  {| ae_atlas := nth (N.to_nat (t_atlas t)) paths []; ae_startx := t_x0 t; ae_starty := t_y0 t; ae_endx := t_x1 t; ae_endy := t_y1 t |}.
Lemma parses_row {A} (enc : A -> bytes) (m : P str) (g : A -> str) paths t : parses m (enc (t_name t)) (g (t_name t)) -> area_ok t -> t_atlas t < lenN paths ->
  parses (atlas_row paths m) (texture_layout enc t) (g (t_name t), entry paths t).
Proof.
  intros Hm (H0 & H1 & H2 & H3 & H4) Hi. unfold atlas_row, texture_layout. eapply parses_bind; [exact Hm|].
  eapply parses_bind; [apply parses_u32; assumption|]. eapply parses_bind; [apply parses_u32; assumption|]. eapply parses_bind; [apply parses_u32; assumption|].
  eapply parses_bind; [apply parses_u32; assumption|]. eapply parses_bind_last; [apply parses_u32; assumption|].
  rewrite (nth_error_nth' paths []) by (rewrite lenN_length in Hi; lia). cbn [of_opt plift]. eapply parses_bind_nil; [apply parses_ret|]. apply parses_ret.
Qed.
Lemma fails_row {A} (enc : A -> bytes) (m : P str) (g : A -> str) paths t : parses m (enc (t_name t)) (g (t_name t)) -> area_ok t -> lenN paths <= t_atlas t ->
  fails (atlas_row paths m) (texture_layout enc t) IndexError.
Proof.
  intros Hm (H0 & H1 & H2 & H3 & H4) Hi. unfold atlas_row, texture_layout. eapply fails_bind; [exact Hm|].
  eapply fails_bind; [apply parses_u32; assumption|]. eapply fails_bind; [apply parses_u32; assumption|]. eapply fails_bind; [apply parses_u32; assumption|].
  eapply fails_bind; [apply parses_u32; assumption|]. rewrite <- (app_nil_r (leenc 4 (t_atlas t))). eapply fails_bind; [apply parses_u32; assumption|].
  rewrite (proj2 (nth_error_None paths _)) by (rewrite lenN_length in Hi; lia). apply fails_here. exact (fails_raise IndexError).
Qed.

Definition str_paths (atlases : list str) : list str := map (convert_cdragon_path lower) atlases.
Definition str_rows (atlases : list str) (ts : list (texture str)) := map (fun t => (t_name t, entry (str_paths atlases) t)) ts.
Definition hash_path (hashes : list (N * str)) (h : N) : str :=
  match dget h hashes with Some p => convert_cdragon_path lower p | None => hash_name h end.
Definition hash_rows (hashes : list (N * str)) (atlases : list N) (ts : list (texture N)) :=
  map (fun t => (shown hashes (t_name t), entry (map (hash_path hashes) atlases) t)) ts.

Lemma magic_ne n : n < 2 ^ 32 -> n <> ledec (bl "IMAA") -> eqb (leenc 4 n) (bl "IMAA") = false.
Proof. intros Hn H. apply eqbF. intros E. apply H. rewrite <- E, ledec_enc; [reflexivity | exact Hn]. Qed.

Lemma atlas_parses hashes atlases ts : atlas_ok atlases ts -> Forall (fun t => t_atlas t < lenN atlases) ts ->
  parses (parse_atlasinfo lower hashes) (atlas_layout atlases ts) (dict_of (str_rows atlases ts)).
Proof.
  intros (Hn & Hne & HA & Ht & HT) HI. rewrite Forall_forall in HA, HT, HI. unfold parse_atlasinfo, atlas_layout.
  eapply parses_bind; [apply parses_read; apply leenc_len|]. rewrite magic_ne by assumption. rewrite leenc_len, ledec_enc by exact Hn. change (N.of_nat 4 =? 4) with true. cbn iota.
  eapply parses_bind_nil; [apply parses_ret|]. eapply parses_bind.
  { apply (parses_plist_map _ sized (convert_cdragon_path lower) atlases); [reflexivity|]. intros s Hs. eapply parses_bind_last; [apply parses_text, HA, Hs|]. apply parses_ret. }
  cbn beta. eapply parses_bind; [apply parses_u32; assumption|]. eapply parses_bind_last; [|apply parses_ret].
  apply parses_plist_map; [reflexivity|]. intros t Hin. destruct (HT t Hin) as [Hx Ha]. apply (parses_row sized unpack_string (fun s => s)); [apply parses_text, Hx | exact Ha|].
  unfold str_paths. rewrite lenN_map. apply HI, Hin.
Qed.
Lemma atlas_index hashes atlases good bad rest : atlas_ok atlases (good ++ bad :: rest) -> Forall (fun t => t_atlas t < lenN atlases) good -> lenN atlases <= t_atlas bad ->
  fails (parse_atlasinfo lower hashes) (atlas_layout atlases (good ++ bad :: rest)) IndexError.
Proof.
  intros (Hn & Hne & HA & Ht & HT) HI Hb. rewrite Forall_forall in HA, HT, HI. unfold parse_atlasinfo, atlas_layout.
  eapply fails_bind; [apply parses_read; apply leenc_len|]. rewrite magic_ne by assumption. rewrite leenc_len, ledec_enc by exact Hn. change (N.of_nat 4 =? 4) with true. cbn iota.
  change (flat_map sized atlases ++ ?x) with ([] ++ flat_map sized atlases ++ x). eapply fails_bind; [apply parses_ret|]. eapply fails_bind.
  { apply (parses_plist_map _ sized (convert_cdragon_path lower) atlases); [reflexivity|]. intros s Hs. eapply parses_bind_last; [apply parses_text, HA, Hs|]. apply parses_ret. }
  cbn beta. eapply fails_bind; [apply parses_u32; assumption|]. apply fails_here.
  apply fails_plist with (g := fun t => (t_name t, entry (map (convert_cdragon_path lower) atlases) t)); [reflexivity| |].
  - intros t Hin. destruct (HT t) as [Hx Ha]; [apply in_or_app; left; exact Hin|]. apply (parses_row sized unpack_string (fun s => s)); [apply parses_text, Hx | exact Ha|].
    unfold str_paths. rewrite lenN_map. apply HI, Hin.
  - destruct (HT bad) as [Hx Ha]; [apply in_or_app; right; left; reflexivity|]. apply (fails_row sized unpack_string (fun s => s)); [apply parses_text, Hx | exact Ha|]. unfold str_paths. rewrite lenN_map. exact Hb.
Qed.

Lemma hash_row_name hashes h : h < 2 ^ 64 -> parses (let* h := u64 in pret (match dget h hashes with Some p => p | None => hash_name h end)) (leenc 8 h) (shown hashes h).
Proof. intros H. eapply parses_bind_last; [apply parses_u64; exact H|]. apply parses_ret. Qed.
Lemma imaa_parses hashes atlases ts : imaa_ok atlases ts -> Forall (fun t => t_atlas t < lenN atlases) ts ->
  parses (parse_atlasinfo lower hashes) (imaa_layout atlases ts) (dict_of (hash_rows hashes atlases ts)).
Proof.
  intros (Hn & HA & Ht & HT) HI. rewrite Forall_forall in HA, HT, HI. unfold parse_atlasinfo, imaa_layout.
  eapply parses_bind; [apply parses_read; reflexivity|]. rewrite eqbR. eapply parses_bind; [apply parses_u32; assumption|].
  eapply parses_bind; [apply parses_plist; [reflexivity|]; intros h Hh; apply parses_u64, HA, Hh|]. cbn beta zeta.
  eapply parses_bind; [apply parses_u32; assumption|]. eapply parses_bind_last; [|apply parses_ret].
  apply parses_plist_map; [reflexivity|]. intros t Hin. destruct (HT t Hin) as [Hx Ha]. apply (parses_row (leenc 8)); [apply hash_row_name, Hx | exact Ha|].
  unfold str_paths. rewrite lenN_map. apply HI, Hin.
Qed.
Lemma imaa_index hashes atlases good bad rest : imaa_ok atlases (good ++ bad :: rest) -> Forall (fun t => t_atlas t < lenN atlases) good -> lenN atlases <= t_atlas bad ->
  fails (parse_atlasinfo lower hashes) (imaa_layout atlases (good ++ bad :: rest)) IndexError.
Proof.
  intros (Hn & HA & Ht & HT) HI Hb. rewrite Forall_forall in HA, HT, HI. unfold parse_atlasinfo, imaa_layout.
  eapply fails_bind; [apply parses_read; reflexivity|]. rewrite eqbR. eapply fails_bind; [apply parses_u32; assumption|].
  eapply fails_bind; [apply parses_plist; [reflexivity|]; intros h Hh; apply parses_u64, HA, Hh|]. cbn beta zeta.
  eapply fails_bind; [apply parses_u32; assumption|]. apply fails_here.
  apply fails_plist with (g := fun t => (shown hashes (t_name t), entry (map (hash_path hashes) atlases) t)); [reflexivity| |].
  - intros t Hin. destruct (HT t) as [Hx Ha]; [apply in_or_app; left; exact Hin|]. apply (parses_row (leenc 8)); [apply hash_row_name, Hx | exact Ha|]. unfold str_paths. rewrite lenN_map. apply HI, Hin.
  - destruct (HT bad) as [Hx Ha]; [apply in_or_app; right; left; reflexivity|]. apply (fails_row (leenc 8) _ (shown hashes)); [apply hash_row_name, Hx | exact Ha|]. unfold str_paths. rewrite lenN_map. exact Hb.
Qed.

(** ** Champions *)
Definition skin_value (s : skin) : N * (str * bool) := let '(id, kind, name) := s in (id, (name, kind =? 4)).
Lemma parses_skin s : skin_ok s -> parses skin_row (skin_layout s) (skin_value s).
Proof.
  destruct s as [[id kind] name]. intros (H1 & H2 & H3). cbn [skin_layout skin_value]. unfold skin_row. eapply parses_bind; [apply parses_u32; exact H1|].
  eapply parses_bind; [apply parses_u8; exact H2|]. eapply parses_bind_last; [apply parses_text; exact H3|]. apply parses_ret.
Qed.
Lemma skins_parse l : lenN l < 2 ^ 32 -> Forall champion_ok l ->
  parses parse_championskininfo (skins_layout l) (dict_of (map (fun c => (fst c, dict_of (map skin_value (snd c)))) l)).
Proof.
  intros Hn HF. rewrite Forall_forall in HF. unfold parse_championskininfo, skins_layout. eapply parses_bind; [apply parses_unpack; reflexivity|]. rewrite eqbR. cbn [negb].
  eapply parses_bind; [apply parses_u32; reflexivity|]. change (negb (2 =? 2)) with false. cbn iota. eapply parses_bind; [apply parses_u32; exact Hn|].
  eapply parses_bind_last; [|apply parses_ret]. apply parses_plist_map; [reflexivity|]. intros [name skins] Hin. destruct (HF _ Hin) as (H1 & H2 & H3). cbn [fst snd] in *.
  unfold champion_layout. cbn [fst snd]. eapply parses_bind; [apply parses_text; exact H1|]. eapply parses_bind; [apply parses_u32; exact H2|]. eapply parses_bind_last; [|apply parses_ret].
  apply parses_plist_map; [reflexivity|]. intros s Hs. apply parses_skin. rewrite Forall_forall in H3. apply H3, Hs.
Qed.
Lemma skins_magic b : lenN (takeN 4 b) = 4 -> takeN 4 b <> bl "mahC" -> prun parse_championskininfo b = Err ValueError.
Proof.
  intros Hl H. assert (F : fails parse_championskininfo (takeN 4 b) ValueError).
  { unfold parse_championskininfo. rewrite <- (app_nil_r (takeN 4 b)). eapply fails_bind; [apply parses_unpack; exact Hl|]. assert (E : @eqb bytes _ (takeN 4 b) (bl "mahC") = false) by (apply eqbF; exact H). rewrite E. exact (fails_raise ValueError). }
  apply fails_run. rewrite <- (takeN_dropN 4 b). apply fails_app. exact F.
Qed.
Lemma skins_version v rest : v < 2 ^ 32 -> v <> 2 -> prun parse_championskininfo (bl "mahC" ++ leenc 4 v ++ rest) = Err ValueError.
Proof.
  intros Hv H. assert (F : fails parse_championskininfo (bl "mahC" ++ leenc 4 v) ValueError).
  { unfold parse_championskininfo. eapply fails_bind; [apply parses_unpack; reflexivity|]. rewrite eqbR. cbn [negb]. rewrite <- (app_nil_r (leenc 4 v)).
    eapply fails_bind; [apply parses_u32; exact Hv|]. apply N.eqb_neq in H. rewrite H. exact (fails_raise ValueError). }
  apply fails_run. rewrite app_assoc. apply fails_app. exact F.
Qed.

End Tables.
