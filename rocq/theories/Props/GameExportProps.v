(** * C63: files of TFT and Arena data *)

From Verif Require Import Base.Py Base.Text Base.PyFacts Base.TextFacts Base.Bin Base.Fs Spec.FsSpec Base.FsFacts Base.FsLinks Base.FsRealFacts Model.Version Spec.VersionSpec Proofs.VersionProofs
  Model.Rst Model.Stringtables Model.GameExport Spec.GameExportSpec Proofs.GameExportProofs.

Section Files.
Context {T L I : Type}.
Variable order : list str -> list str.
Variable cwd : path.
Variable template : fs -> result T.
Variable load : bytes -> result L.
Variable instance : T -> L -> result I.
Variable dump : I -> list bytes * option exn.
Variable game input output : str.
Variable langs : option (list str).
Variable f : fs.
Variable tables : list (str * str).

(** C63: after an export there is one file for each language, with the data translated by the string table of this language. *)
Theorem C63_files pl pl' f' : stringtable_paths order cwd f input game = Ok tables -> exportable cwd f output (langs_of langs tables) ->
  readable cwd f output (langs_of langs tables) tables -> run (export_langs order cwd template load instance dump game input output langs) pl f = (Done tt, pl', f') ->
  exists g t, more_dirs (target cwd output) f g /\ template g = Ok t /\
    forall l, In l (langs_of langs tables) -> exists text, data_in load instance dump cwd f tables t l text /\ look f' (lang_file cwd output l) = Some (NFile text).
Proof. intros H1 H2 H3. apply exports_done; assumption. Qed.
(** C63: even if it fails or is interrupted, nothing else changes. *)
Theorem C63_frame pl o pl' f' : stringtable_paths order cwd f input game = Ok tables -> exportable cwd f output (langs_of langs tables) ->
  run (export_langs order cwd template load instance dump game input output langs) pl f = (o, pl', f') -> only_langs cwd output (langs_of langs tables) f f'.
Proof. intros H1 H2. apply exports_frame; assumption. Qed.
(** C63: it succeeds when the data of all languages can be computed. *)
Theorem C63_succeeds t : stringtable_paths order cwd f input game = Ok tables -> exportable cwd f output (langs_of langs tables) ->
  readable cwd f output (langs_of langs tables) tables -> unobstructed cwd f output (langs_of langs tables) -> NoDup (map fst tables) ->
  (forall g, more_dirs (target cwd output) f g -> template g = Ok t) -> (forall l, In l (langs_of langs tables) -> exists text, data_in load instance dump cwd f tables t l text) ->
  exists f', run (export_langs order cwd template load instance dump game input output langs) [] f = (Done tt, [], f').
Proof. intros H1 H2 H3 H4 H5. apply (exports_total order cwd template load instance dump game input output langs f tables); assumption. Qed.
(** C63: it stops at a language without string table, the files of the languages before are kept. *)
Theorem C63_missing t a l b : stringtable_paths order cwd f input game = Ok tables -> langs = Some (a ++ l :: b) -> exportable cwd f output (a ++ l :: b) ->
  readable cwd f output (a ++ l :: b) tables -> unobstructed cwd f output (a ++ l :: b) -> NoDup (map fst tables) ->
  (forall g, more_dirs (target cwd output) f g -> template g = Ok t) -> (forall x, In x a -> exists text, data_in load instance dump cwd f tables t x text) -> ~ In l (map fst tables) ->
  exists f', run (export_langs order cwd template load instance dump game input output langs) [] f = (Raised KeyError, [], f') /\ only_langs cwd output a f f' /\
    forall x, In x a -> exists text, data_in load instance dump cwd f tables t x text /\ look f' (lang_file cwd output x) = Some (NFile text).
Proof.
  intros H1 E H2 H3 H4 H5 H6 H7 H8. assert (El : langs_of langs tables = a ++ l :: b) by (rewrite E; reflexivity).
  apply (exports_missing order cwd template load instance dump game input output langs f tables H1) with (l := l) (b := b); rewrite ?El; assumption.
Qed.
End Files.
Print Assumptions C63_files.
Print Assumptions C63_frame.
Print Assumptions C63_succeeds.
Print Assumptions C63_missing.

(** When a version is too old: it has numbers which come before. PBE is never too old. *)
Lemma too_old_spec arg v oldest o y : patch_version arg = Ok v -> patch_version (ArgStr oldest) = Ok o -> v_t o = VNum y ->
  exists b, too_old v oldest = Ok b /\ (b = true <-> exists z, v_t v = VNum z /\ comps_before z y).
Proof.
  intros E Eo Ey. unfold too_old. rewrite Eo. cbn [rbind].
  destruct (v_main arg v {| v_s := lit "main"; v_t := VMain |} eq_refl E) as (_ & Hm & _). unfold v_eq in Hm. cbn [v_s] in Hm. change (eqb (v_s v) (lit "main")) with (v_eq_str v (lit "main")) in Hm.
  apply patch_version_Ok in E as [[-> ->]|(s & a & b & rest & Eb & ->)].
  - exists false. split; [reflexivity|]. split; [discriminate|]. intros (z & Ez & _). discriminate.
  - match goal with |- context [v_eq_str ?x ?m] => destruct (v_eq_str x m) eqn:Em end; [rewrite (proj1 Hm eq_refl) in Eb; discriminate|].
    match goal with |- context [v_lt ?x o] => destruct (v_cmp_spec x o [a; b] y eq_refl Ey) as (lt & _ & _ & _ & El & _ & _ & _ & Hl & _) end.
    exists lt. split; [exact El|]. rewrite Hl. cbn [v_t]. split; [intros H; eexists; split; [reflexivity | exact H] | intros (z & Ez & H); injection Ez as <-; exact H].
Qed.

Section Games.
Variable order : list str -> list str.
Variable cwd : path.
Variable limit : nat.
Variable nm : names.
Variable repr : pyres -> str.
Variable plower : str -> str.
Variable set_order : list N -> list N.
Variable fdiv : N -> bval.
Variable xxh3 xxh64 : str -> N.

(** C63: nothing is done for older patches: before 9.14 for TFT, before 13.14 for Arena. *)
Theorem C63_old arg v z out pl f : patch_version arg = Ok v -> v_t v = VNum z ->
  (forall dump, comps_before z [9; 14]%Z -> run (export_tft_data order cwd limit nm repr plower set_order fdiv xxh3 xxh64 dump v out) pl f = (Done tt, pl, f)) /\
  (forall dump, comps_before z [13; 14]%Z -> run (export_arena_data order cwd limit nm repr plower xxh3 xxh64 dump v out) pl f = (Done tt, pl, f)).
Proof.
  intros E Ez. split; intros dump Hb.
  - destruct (too_old_spec arg v (lit "9.14") _ [9; 14]%Z E eq_refl eq_refl) as (b & Eb & Hx). unfold export_tft_data. rewrite Eb. rewrite (proj2 Hx) by eauto. reflexivity.
  - destruct (too_old_spec arg v (lit "13.14") _ [13; 14]%Z E eq_refl eq_refl) as (b & Eb & Hx). unfold export_arena_data. rewrite Eb. rewrite (proj2 Hx) by eauto. reflexivity.
Qed.

(** C63: from patch 9.14 on, and for PBE, the TFT data are in every language of the string tables. *)
Theorem C63_tft dump arg v out f pl o pl' f' tables : patch_version arg = Ok v -> (forall z, v_t v = VNum z -> ~ comps_before z [9; 14]%Z) ->
  let game := path_join out (lit "game") in let tft := path_join out (lit "cdragon/tft") in
  stringtable_paths order cwd f game (lit "tft") = Ok tables -> exportable cwd f tft (map fst tables) ->
  run (export_tft_data order cwd limit nm repr plower set_order fdiv xxh3 xxh64 dump v out) pl f = (o, pl', f') ->
  only_langs cwd tft (map fst tables) f f' /\
  (o = Done tt -> readable cwd f tft (map fst tables) tables -> exists n g t,
    (v_t v = VMain /\ n = 9999 \/ exists a b, v_t v = VNum [a; b] /\ n = Z.to_N (100 * a + b)) /\ more_dirs (target cwd tft) f g /\
    tft_template cwd limit nm repr plower set_order fdiv game g = Ok t /\
    forall l, In l (map fst tables) -> exists text,
      data_in (load_translations n) (fun t tr => rmap show (translate xxh3 xxh64 plower tr t)) dump cwd f tables t l text /\
      look f' (lang_file cwd tft l) = Some (NFile text)).
Proof.
  intros E Hv game tft Hst Hex. destruct (too_old_spec arg v (lit "9.14") _ [9; 14]%Z E eq_refl eq_refl) as (b & Eb & Hx). unfold export_tft_data. rewrite Eb.
  destruct b; [destruct (proj1 Hx eq_refl) as (z & Ez & Hb); apply Hv in Hb; tauto|].
  assert (Hn : exists n, as_int v = Ok n /\ (v_t v = VMain /\ Z.to_N n = 9999 \/ exists a b, v_t v = VNum [a; b] /\ Z.to_N n = Z.to_N (100 * a + b))).
  { apply patch_version_Ok in E as [[-> ->]|(s & a & b & rest & Eb' & ->)]; eexists; (split; [reflexivity|]); [left; split; reflexivity|].
    right. exists a, b. split; [reflexivity|]. f_equal. lia. }
  destruct Hn as (n & En & Hn). rewrite En. cbn [lift pbind]. intros Hr. fold game tft in Hr. unfold tft_export in Hr. split; [exact (C63_frame _ _ _ _ _ _ _ _ _ None _ _ _ _ _ _ Hst Hex Hr)|].
  intros -> Hread. destruct (C63_files _ _ _ _ _ _ _ _ _ None _ _ _ _ _ Hst Hex Hread Hr) as (g & t & Hg & Ht & Hl). exists (Z.to_N n), g, t. split; [exact Hn|]. split; [exact Hg|]. split; [exact Ht|]. exact Hl.
Qed.

(** C63: from patch 13.14 on, and for PBE, the Arena data are in every language of the string tables. *)
Theorem C63_arena dump arg v out f pl o pl' f' tables : patch_version arg = Ok v -> (forall z, v_t v = VNum z -> ~ comps_before z [13; 14]%Z) ->
  let game := path_join out (lit "game") in let arena := path_join out (lit "cdragon/arena") in
  stringtable_paths order cwd f game (lit "lol") = Ok tables -> exportable cwd f arena (map fst tables) ->
  run (export_arena_data order cwd limit nm repr plower xxh3 xxh64 dump v out) pl f = (o, pl', f') ->
  only_langs cwd arena (map fst tables) f f' /\
  (o = Done tt -> readable cwd f arena (map fst tables) tables -> exists g t, more_dirs (target cwd arena) f g /\
    arena_template cwd limit nm repr plower game g = Ok t /\
    forall l, In l (map fst tables) -> exists text,
      data_in (prun (parse_rst 1502)) (fun l r => augments_in plower xxh3 xxh64 r l) dump cwd f tables t l text /\
      look f' (lang_file cwd arena l) = Some (NFile text)).
Proof.
  intros E Hv game arena Hst Hex. destruct (too_old_spec arg v (lit "13.14") _ [13; 14]%Z E eq_refl eq_refl) as (b & Eb & Hx). unfold export_arena_data. rewrite Eb.
  destruct b; [destruct (proj1 Hx eq_refl) as (z & Ez & Hb); apply Hv in Hb; tauto|]. cbn [lift pbind]. intros Hr. fold game arena in Hr. unfold arena_export in Hr.
  split; [exact (C63_frame _ _ _ _ _ _ _ _ _ None _ _ _ _ _ _ Hst Hex Hr)|].
  intros -> Hread. exact (C63_files _ _ _ _ _ _ _ _ _ None _ _ _ _ _ Hst Hex Hread Hr).
Qed.
End Games.
Print Assumptions C63_old.
Print Assumptions C63_tft.
Print Assumptions C63_arena.

(** An Arena export of two languages. *)
Local Notation t := lit.
Local Definition bh (s : String.string) : N := match compute_binhash (lit s) with Ok h => h | Err _ => 0 end.
Arguments bh s%string_scope.
Local Definition nm0 : names := {| n_field := fun _ => None; n_type := fun _ => None; n_hash := fun _ => None; n_entry := fun _ => None; n_path := fun _ => None |}.
Local Definition repr0 (_ : pyres) : str := lit "?".
Local Definition low (s : str) : str := map (fun c => if (65 <=? c) && (c <=? 90) then c + 32 else c) s.
Local Definition hash0 (s : str) : N := fold_left (fun a c => a * 7 + c) s 0.
Local Definition text (k v : String.string) : bytes := leenc 4 (bh k) ++ leenc 1 16 ++ leenc 2 (lenN (bl v)) ++ bl v.
Arguments text k%string_scope v%string_scope.
Local Definition entry (path : N) (fs : list bytes) : bytes := let b := leenc 4 path ++ leenc 2 (lenN fs) ++ concat fs in leenc 4 (lenN b) ++ b.
Local Definition bin (es : list (N * bytes)) : bytes := bl "PROP" ++ leenc 4 3 ++ leenc 4 0 ++ leenc 4 (lenN es) ++ flat_map (fun e => leenc 4 (fst e)) es ++ flat_map snd es.
Local Definition map30 : bytes := bin [(bh "AugmentData", entry 1 [text "AugmentNameId" "One"; text "NameTra" "k1"]); (bh "AugmentData", entry 2 [text "NameTra" "k2"])].
Local Definition rst0 (a b : bytes) : bytes :=
  bl "RST" ++ leenc 1 5 ++ leenc 4 2 ++ leenc 8 (hash0 (t "k1")) ++ leenc 8 (N.shiftl (lenN a + 1) 38 + hash0 (t "k2")) ++ a ++ leenc 1 0 ++ b ++ leenc 1 0.
Local Definition g0 : path := [t "game"; t "x"].
Local Definition table (l : str) (b : bytes) : fs :=
  [(l :: g0, NDir); ([t "data"; l] ++ g0, NDir); ([t "menu"; t "data"; l] ++ g0, NDir); ([t "en_us"; t "menu"; t "data"; l] ++ g0, NDir);
   ([t "lol.stringtable"; t "en_us"; t "menu"; t "data"; l] ++ g0, NFile b)].
Local Definition f0 : fs :=
  [([t "x"], NDir); (g0, NDir)] ++ table (t "en_us") (rst0 (bl "Foo") (bl "Bar")) ++ table (t "fr_fr") (rst0 (bl "Fou") (bl "Barre")) ++
  [([t "data"] ++ g0, NDir); ([t "maps"; t "data"] ++ g0, NDir); ([t "shipping"; t "maps"; t "data"] ++ g0, NDir); ([t "map30"; t "shipping"; t "maps"; t "data"] ++ g0, NDir);
   ([t "map30.bin"; t "map30"; t "shipping"; t "maps"; t "data"] ++ g0, NFile map30)].
Local Definition dump0 (l : list augment) : list bytes * option exn :=
  (flat_map (fun a => [match au_name a with RVal (VStr s) => flat_map (fun c => leenc 1 c) s | _ => bl "null" end; bl ","]) l, None).
Local Definition tables0 : list (str * str) := [(t "en_us", t "/x/game/en_us/data/menu/en_us/lol.stringtable"); (t "fr_fr", t "/x/game/fr_fr/data/menu/en_us/lol.stringtable")].
Local Definition ex (v : String.string) (pl : plan) := match patch_version (ArgStr (t v)) with
  | Ok v => Some (run (export_arena_data (fun l => l) [] 100 nm0 repr0 low hash0 hash0 dump0 v (t "/x")) pl f0) | Err _ => None end.
Arguments ex v%string_scope pl.
Local Definition langs0 : path := [t "arena"; t "cdragon"; t "x"].
Example C63_ex : match ex "13.14" [] with
  | Some (o, _, f) => o = Done tt /\ look f (t "en_us.json" :: langs0) = Some (NFile (bl "Foo,Bar,")) /\ look f (t "fr_fr.json" :: langs0) = Some (NFile (bl "Fou,Barre,"))
  | None => False
  end.
Proof. vm_compute. auto. Qed.
Example C63_hyps : stringtable_paths (fun l => l) [] f0 (t "/x/game") (t "lol") = Ok tables0 /\ exportable [] f0 (t "/x/cdragon/arena") (map fst tables0) /\
  readable [] f0 (t "/x/cdragon/arena") (map fst tables0) tables0 /\ unobstructed [] f0 (t "/x/cdragon/arena") (map fst tables0) /\ NoDup (map fst tables0).
Proof.
  assert (Hl : forall l, In l (map fst tables0) -> look f0 (lang_file [] (t "/x/cdragon/arena") l) = None).
  { intros l [<-|[<-|[]]]; vm_compute; reflexivity. }
  split; [vm_compute; reflexivity|]. split; [|split; [|split]].
  - split; [discriminate|]. split; [vm_compute; intuition discriminate|]. split; [apply wf_check_ok; reflexivity|]. split; [reflexivity|]. split; [apply nolink_check_ok; vm_compute; reflexivity|].
    intros l Hi. split; [destruct Hi as [<-|[<-|[]]]; vm_compute; intuition discriminate|]. intros z. rewrite Hl by exact Hi. discriminate.
  - intros l p [E|[E|[]]]; injection E as <- <-; eexists _, _; (split; [vm_compute; reflexivity|]; split; [vm_compute; reflexivity|]); intros l' [<-|[<-|[]]]; discriminate.
  - split; [|intros l Hi; rewrite Hl by exact Hi; discriminate]. intros q (u & Hq). vm_compute in Hq.
    destruct u as [|a [|b [|c [|? u]]]]; cbn [app] in Hq; [subst q; left; vm_compute; reflexivity | injection Hq as _ <-; left; vm_compute; reflexivity | injection Hq as _ _ <-; right; vm_compute; reflexivity
      | injection Hq as _ _ _ <-; right; reflexivity | discriminate].
  - constructor; [intros [H|[]]; discriminate|]. constructor; [intros [] | constructor].
Qed.

(** C63: an interrupted export leaves an incomplete file in place of the data. *)
Theorem C63_crash_refuted : exists pl f b rest, ex "main" pl = Some (Crashed, [], f) /\ look f (t "en_us.json" :: langs0) = Some (NFile b) /\
  (exists f', ex "main" [] = Some (Done tt, [], f') /\ look f' (t "en_us.json" :: langs0) = Some (NFile (b ++ rest))) /\ rest <> [].
Proof.
  exists (repeat None 9 ++ [Some (FCrash 0)]). eexists _, (bl "Foo"), (bl ",Bar,"). split; [vm_compute; reflexivity|]. split; [vm_compute; reflexivity|]. split; [|discriminate].
  eexists. split; vm_compute; reflexivity.
Qed.
Print Assumptions C63_crash_refuted.

(** C63: the types of values are always read as in the latest patches, the data of older ones are refused. *)
Local Definition map22 : bytes := bin [(7, entry 1 [leenc 4 5 ++ leenc 1 18 ++ leenc 1 7 ++ leenc 4 8 ++ leenc 4 1 ++ leenc 4 9]); (bh "TFTSetData", entry 2 [])].
Local Definition f22 : fs := map (fun kv => (map (fun n => if eqb n (t "map30") then t "map22" else if eqb n (t "map30.bin") then t "map22.bin" else if eqb n (t "lol.stringtable") then t "tft.stringtable" else n) (fst kv),
  match snd kv with NFile b => NFile (if eqb b map30 then map22 else b) | n => n end)) f0.
Theorem C63_types_refuted : exists f v n es tpl, patch_version (ArgStr (t "9.14")) = Ok v /\ as_int v = Ok n /\
  look f ([t "map22.bin"; t "map22"; t "shipping"; t "maps"; t "data"] ++ g0) = Some (NFile map22) /\ rmap bf_entries (prun (read_binfile (reader_version (Some n)) 100) map22) = Ok es /\
  build_template nm0 repr0 low (fun l => l) (fun s => f_exists [] s f) (bin_entries [] 100 f) (fun n => VFloat n) (t "/x/game") es = Ok tpl /\
  forall dump, exists f', run (export_tft_data (fun l => l) [] 100 nm0 repr0 low (fun l => l) (fun n => VFloat n) hash0 hash0 dump v (t "/x")) [] f = (Raised AssertionError, [], f').
Proof.
  exists f22. do 4 eexists. split; [reflexivity|]. split; [reflexivity|]. split; [vm_compute; reflexivity|]. split; [vm_compute; reflexivity|]. split; [vm_compute; reflexivity|].
  intros dump. eexists. vm_compute. reflexivity.
Qed.
Print Assumptions C63_types_refuted.
