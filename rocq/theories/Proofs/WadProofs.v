(** * Proofs about WAD headers and data *)

From Verif Require Import Base.TextFacts Base.BinFacts Model.Wad Spec.WadSpec Proofs.Utf8Proofs.

Ltac Zify.zify_post_hook ::= Z.div_mod_to_equations.

(** ** Headers *)

(** The file object for an entry, as described by the format. *)
Definition view (f : wformat) (e : wentry) : wfile :=
  {| w_hash := we_hash e; w_off := we_off e; w_csize := we_csize e; w_size := we_size e;
     w_type := we_type e; w_count := we_count e;
     w_dup := match f with WF2 => negb (we_dup e =? 0) | _ => false end;
     w_first := match f with WF1 => None | _ => Some (we_first e) end;
     w_sha := match f with WF1 => None | _ => Some (we_sum e) end;
     w_path := None; w_ext := None |}.

Lemma land15 n : N.land n 15 = n mod 16.
Proof. change 15 with (N.ones 4). rewrite N.land_ones. reflexivity. Qed.
Lemma land240 n : N.shiftr (N.land n 240) 4 = n / 16 mod 16.
Proof.
  rewrite N.shiftr_land. change (N.shiftr 240 4) with (N.ones 4). rewrite N.land_ones, N.shiftr_div_pow2. reflexivity.
Qed.
Lemma shiftl16 n : N.shiftl n 16 = n * 65536.
Proof. rewrite N.shiftl_mul_pow2. reflexivity. Qed.

Lemma type_fields t c h : t < 16 -> c < 16 ->
  N.land (t + 16 * c + 256 * h) 15 = t /\ N.shiftr (N.land (t + 16 * c + 256 * h) 240) 4 = c.
Proof. intros Ht Hc. rewrite land15, land240. split; lia. Qed.
Lemma type_fields' t c : t < 16 -> c < 16 ->
  N.land (t + 16 * c) 15 = t /\ N.shiftr (N.land (t + 16 * c) 240) 4 = c.
Proof. intros Ht Hc. rewrite land15, land240. split; lia. Qed.

Definition entry_parser (f : wformat) : P wfile :=
  match f with WF1 => entry_v1 | WF2 => entry_v2 | WF34 => entry_v34 end.

Lemma entry_parses f e : entry_ok f e -> parses (entry_parser f) (entry_bytes f e) (view f e).
Proof.
  intros (Hh & Ho & Hc & Hs & Ht & Hn & Hf). unfold entry_bytes, entry_parser.
  destruct f; cbn [view] in *.
  - unfold entry_v1.
    do 4 (eapply parses_bind; [first [apply parses_u64 | apply parses_u32]; assumption|]).
    eapply parses_bind_last; [apply parses_u32; lia|].
    destruct (type_fields (we_type e) (we_count e) (we_high e) Ht Hn) as [E1 E2].
    unfold mk_header. rewrite E1, E2. apply parses_ret.
  - destruct Hf as (Hd & Hfi & Hsum). unfold entry_v2.
    do 4 (eapply parses_bind; [first [apply parses_u64 | apply parses_u32]; assumption|]).
    eapply parses_bind; [apply parses_u8; lia|].
    eapply parses_bind. { unfold ubool. eapply parses_bind_last; [apply parses_u8; assumption | apply parses_ret]. }
    eapply parses_bind; [apply parses_u16; assumption|].
    eapply parses_bind_last; [apply parses_u64; assumption|].
    destruct (type_fields' (we_type e) (we_count e) Ht Hn) as [E1 E2].
    unfold mk_header. rewrite E1, E2. apply parses_ret.
  - destruct Hf as (Hfi & Hsum). unfold entry_v34.
    do 4 (eapply parses_bind; [first [apply parses_u64 | apply parses_u32]; assumption|]).
    eapply parses_bind; [apply parses_u8; lia|].
    eapply parses_bind; [apply parses_u8; lia|].
    eapply parses_bind; [apply parses_u16; lia|].
    eapply parses_bind_last; [apply parses_u64; assumption|].
    destruct (type_fields' (we_type e) (we_count e) Ht Hn) as [E1 E2].
    unfold mk_header. rewrite E1, E2, shiftl16.
    replace (we_first e mod 2 ^ 16 + we_first e / 2 ^ 16 * 65536) with (we_first e) by lia. apply parses_ret.
Qed.

Lemma entry_reads f : reads (entry_parser f) (fun bs w => exists e, entry_ok f e /\ bs = entry_bytes f e /\ w = view f e).
Proof.
  unfold entry_parser. destruct f.
  - unfold entry_v1.
    eapply reads_bind; [apply reads_u64|]. intros b1 h [Hh ->].
    eapply reads_bind; [apply reads_u32|]. intros b2 off [Ho ->].
    eapply reads_bind; [apply reads_u32|]. intros b3 cs [Hc ->].
    eapply reads_bind; [apply reads_u32|]. intros b4 sz [Hs ->].
    eapply reads_bind; [apply reads_u32|]. intros b5 t [Ht ->].
    apply reads_ret.
    exists {| we_hash := h; we_off := off; we_csize := cs; we_size := sz; we_type := t mod 16; we_count := t / 16 mod 16;
              we_high := t / 256; we_dup := 0; we_first := 0; we_sum := 0 |}.
    split; [unfold entry_ok; cbn; lia|]. split.
    + unfold entry_bytes. cbn [we_hash we_off we_csize we_size we_type we_count we_high].
      rewrite app_nil_r. do 4 f_equal. f_equal. lia.
    + unfold view, mk_header. cbn [we_hash we_off we_csize we_size we_type we_count we_high]. rewrite land15, land240. reflexivity.
  - unfold entry_v2.
    eapply reads_bind; [apply reads_u64|]. intros b1 h [Hh ->].
    eapply reads_bind; [apply reads_u32|]. intros b2 off [Ho ->].
    eapply reads_bind; [apply reads_u32|]. intros b3 cs [Hc ->].
    eapply reads_bind; [apply reads_u32|]. intros b4 sz [Hs ->].
    eapply reads_bind; [apply reads_u8|]. intros b5 t [Ht ->].
    eapply reads_bind with (R1 := fun bs v => exists d, d < 2 ^ 8 /\ bs = leenc 1 d /\ v = negb (d =? 0)).
    { unfold ubool. eapply reads_bind; [apply reads_u8|]. intros b6 d [Hd ->]. apply reads_ret. exists d. rewrite app_nil_r. auto. }
    intros b6 dup (d & Hd & -> & ->).
    eapply reads_bind; [apply reads_u16|]. intros b7 fi [Hfi ->].
    eapply reads_bind; [apply reads_u64|]. intros b8 sum [Hsum ->].
    apply reads_ret.
    exists {| we_hash := h; we_off := off; we_csize := cs; we_size := sz; we_type := t mod 16; we_count := t / 16;
              we_high := 0; we_dup := d; we_first := fi; we_sum := sum |}.
    split; [unfold entry_ok; cbn [we_hash we_off we_csize we_size we_type we_count we_dup we_first we_sum]; lia|]. split.
    + unfold entry_bytes. cbn [we_hash we_off we_csize we_size we_type we_count we_high we_dup we_first we_sum].
      rewrite app_nil_r. do 4 f_equal. f_equal. f_equal. lia.
    + unfold view, mk_header. cbn [we_hash we_off we_csize we_size we_type we_count we_high we_dup we_first we_sum].
      rewrite land15, land240. replace (t / 16 mod 16) with (t / 16) by lia. reflexivity.
  - unfold entry_v34.
    eapply reads_bind; [apply reads_u64|]. intros b1 h [Hh ->].
    eapply reads_bind; [apply reads_u32|]. intros b2 off [Ho ->].
    eapply reads_bind; [apply reads_u32|]. intros b3 cs [Hc ->].
    eapply reads_bind; [apply reads_u32|]. intros b4 sz [Hs ->].
    eapply reads_bind; [apply reads_u8|]. intros b5 t [Ht ->].
    eapply reads_bind; [apply reads_u8|]. intros b6 hi [Hhi ->].
    eapply reads_bind; [apply reads_u16|]. intros b7 lo [Hlo ->].
    eapply reads_bind; [apply reads_u64|]. intros b8 sum [Hsum ->].
    apply reads_ret.
    exists {| we_hash := h; we_off := off; we_csize := cs; we_size := sz; we_type := t mod 16; we_count := t / 16;
              we_high := 0; we_dup := 0; we_first := lo + hi * 2 ^ 16; we_sum := sum |}.
    split; [unfold entry_ok; cbn [we_hash we_off we_csize we_size we_type we_count we_dup we_first we_sum]; lia|]. split.
    + unfold entry_bytes. cbn [we_hash we_off we_csize we_size we_type we_count we_high we_dup we_first we_sum].
      rewrite app_nil_r. do 4 f_equal.
      replace ((lo + hi * 2 ^ 16) / 2 ^ 16) with hi by lia. replace ((lo + hi * 2 ^ 16) mod 2 ^ 16) with lo by lia.
      f_equal. f_equal. lia.
    + unfold view, mk_header. cbn [we_hash we_off we_csize we_size we_type we_count we_high we_dup we_first we_sum].
      rewrite land15, land240, shiftl16. replace (t / 16 mod 16) with (t / 16) by lia. reflexivity.
Qed.

Lemma flat_map_map_concat {A} (f : A -> bytes) l : flat_map f l = concat (map f l).
Proof. apply flat_map_concat_map. Qed.

Lemma Forall2_entries f bss files :
  Forall2 (fun bs w => exists e, entry_ok f e /\ bs = entry_bytes f e /\ w = view f e) bss files ->
  exists es, Forall (entry_ok f) es /\ concat bss = flat_map (entry_bytes f) es /\ files = map (view f) es.
Proof.
  induction 1 as [|bs w bss files (e & He & -> & ->) HF (es & Hes & E1 & ->)].
  - exists []. auto.
  - exists (e :: es). split; [constructor; assumption|]. cbn [concat flat_map map]. rewrite E1. auto.
Qed.

Lemma format_parser major minor f : format_of major minor = Some f ->
  forall n, (if major =? 1 then plist n entry_v1
     else if (major <=? 2) || ((major =? 3) && (minor <=? 3)) then plist n entry_v2
     else plist n entry_v34) = plist n (entry_parser f).
Proof.
  intros E n. unfold format_of in E.
  destruct (N.eqb_spec major 1) as [->|H1]; [injection E as <-; reflexivity|].
  destruct (N.eqb_spec major 2) as [->|H2]; [injection E as <-; reflexivity|].
  destruct (N.eqb_spec major 3) as [->|H3].
  - injection E as <-. destruct (minor <=? 3); reflexivity.
  - exfalso. destruct major as [|[[?|?|]|[?|?|]|]]; try discriminate E; lia.
Qed.

Lemma parse_headers_layout major minor f filler entries rest :
  layout_ok major minor f filler entries ->
  prun parse_headers (wad_layout major minor f filler entries rest) = Ok ((major, minor), map (view f) entries).
Proof.
  intros (Hma & Hmi & Hf & Hfl & Hn & HF).
  unfold prun, wad_layout, parse_headers.
  set (tail := filler ++ leenc 4 (lenN entries) ++ flat_map (entry_bytes f) entries ++ rest).
  set (b := bl "RW" ++ leenc 1 major ++ leenc 1 minor ++ tail).
  assert (E1 : punpack 2 b 0 = Ok (bl "RW", 2)) by apply (parses_unpack (bl "RW") 2 eq_refl []).
  assert (E2 : u8 b 2 = Ok (major, 3)) by apply (parses_u8 major Hma (bl "RW") (leenc 1 minor ++ tail)).
  assert (E3 : u8 b 3 = Ok (minor, 4)).
  { pose proof (parses_u8 minor Hmi (bl "RW" ++ leenc 1 major) tail) as H. rewrite lenN_app, leenc_len in H.
    rewrite <- app_assoc in H. exact H. }
  unfold pbind at 1. rewrite E1. unfold pbind at 1. rewrite E2. unfold pbind at 1. rewrite E3.
  change (negb (eqb (bl "RW") (bl "RW"))) with false. cbn iota.
  set (off := 4 + filler_size major).
  assert (Hoff : off = lenN (bl "RW" ++ leenc 1 major ++ leenc 1 minor ++ filler)).
  { rewrite !lenN_app, !leenc_len, Hfl. unfold off. change (lenN (bl "RW")) with 2. lia. }
  assert (Eseek : (if major =? 1 then pseek 8
             else if major =? 2 then pseek 100
             else if major =? 3 then pseek 268
             else praise ValueError) b 4 = Ok (tt, off)).
  { unfold off, filler_size, format_of in *.
    destruct (N.eqb_spec major 1) as [->|H1]; [reflexivity|].
    destruct (N.eqb_spec major 2) as [->|H2]; [reflexivity|].
    destruct (N.eqb_spec major 3) as [->|H3]; [reflexivity|].
    exfalso. destruct major as [|[[?|?|]|[?|?|]|]]; try discriminate Hf; lia. }
  unfold pbind at 1. rewrite Eseek.
  assert (E4 : u32 b off = Ok (lenN entries, off + 4)).
  { pose proof (parses_u32 (lenN entries) Hn (bl "RW" ++ leenc 1 major ++ leenc 1 minor ++ filler)
                  (flat_map (entry_bytes f) entries ++ rest)) as H.
    rewrite <- Hoff, leenc_len, <- !app_assoc in H. exact H. }
  unfold pbind at 1. rewrite E4. rewrite (format_parser major minor f Hf).
  assert (HP : parses (plist (lenN entries) (entry_parser f)) (flat_map (entry_bytes f) entries) (map (view f) entries)).
  { clear -HF. unfold plist. rewrite lenN_length, Nat2N.id.
    induction HF as [|e es He HF IH]; [apply parses_ret|]. cbn [length prep flat_map map].
    eapply parses_bind; [apply entry_parses; assumption|]. eapply parses_bind_last; [exact IH | apply parses_ret]. }
  assert (E5 : plist (lenN entries) (entry_parser f) b (off + 4) =
               Ok (map (view f) entries, off + 4 + lenN (flat_map (entry_bytes f) entries))).
  { specialize (HP (bl "RW" ++ leenc 1 major ++ leenc 1 minor ++ filler ++ leenc 4 (lenN entries)) rest).
    replace (lenN (bl "RW" ++ leenc 1 major ++ leenc 1 minor ++ filler ++ leenc 4 (lenN entries))) with (off + 4) in HP
      by (rewrite Hoff, !lenN_app, !leenc_len; lia).
    rewrite <- !app_assoc in HP. exact HP. }
  unfold pbind. rewrite E5. reflexivity.
Qed.

Lemma takeN_split {A} n (l : list A) d : takeN n l = d -> lenN d = n -> exists r, l = d ++ r /\ r = dropN n l.
Proof. intros <- _. exists (dropN n l). rewrite takeN_dropN. auto. Qed.

Lemma parse_headers_inv b v files :
  prun parse_headers b = Ok (v, files) ->
  exists f filler entries rest, layout_ok (fst v) (snd v) f filler entries /\
    b = wad_layout (fst v) (snd v) f filler entries rest /\ files = map (view f) entries.
Proof.
  unfold prun. destruct (parse_headers b 0) as [[r p]|] eqn:E; [|discriminate]. cbn [rmap fst]. intros Er. injection Er as ->.
  unfold parse_headers in E.
  apply pbind_Ok in E as (magic & p1 & E1 & E). apply pbind_Ok in E as (major & p2 & E2 & E). apply pbind_Ok in E as (minor & p3 & E3 & E).
  apply unpack_inv in E1 as (El1 & -> & Hb1 & Et1).
  assert (Hb2 : 2 <= lenN b) by (apply Hb1; lia).
  destruct (reads_u8 b (0 + 2) major p2 ltac:(lia) E2) as (b2 & [Hma ->] & -> & Hp2 & Et2).
  rewrite ?leenc_len in *.
  destruct (reads_u8 b _ minor p3 Hp2 E3) as (b3 & [Hmi ->] & -> & Hp3 & Et3).
  rewrite ?leenc_len in *.
  destruct (eqbP magic (bl "RW")) as [->|]; [cbn [negb] in E | discriminate E].
  apply pbind_Ok in E as ([] & p4 & E4 & E). apply pbind_Ok in E as (count & p5 & E5 & E).
  apply pbind_Ok in E as (files' & p6 & E6 & E). injection E as <- <- Ep.
  assert (Hfmt : exists f, format_of major minor = Some f /\ p4 = 4 + filler_size major).
  { destruct (N.eqb_spec major 1) as [->|]; [injection E4 as <-; eexists; split; reflexivity|].
    destruct (N.eqb_spec major 2) as [->|]; [injection E4 as <-; eexists; split; reflexivity|].
    destruct (N.eqb_spec major 3) as [->|]; [injection E4 as <-; eexists; split; reflexivity|]. discriminate E4. }
  destruct Hfmt as (f & Hf & ->). rewrite (format_parser major minor f Hf) in E6.
  assert (Hp4 : 4 + filler_size major <= lenN b).
  { unfold u32 in E5. apply pbind_Ok in E5 as (d & p5' & E5 & _). apply unpack_inv in E5 as (_ & _ & H & _).
    specialize (H ltac:(lia)). lia. }
  destruct (reads_u32 b _ count p5 Hp4 E5) as (b5 & [Hn ->] & -> & Hp5 & Et5). rewrite ?leenc_len in *.
  destruct (reads_plist _ _ count (entry_reads f) b _ files' p6 Hp5 E6) as (b6 & (Hcount & bss & -> & HF2) & -> & Hp6 & Et6).
  apply Forall2_entries in HF2 as (es & Hes & Ec & ->). rewrite Ec in *. rewrite lenN_map in Hcount.
  change (N.of_nat 1) with 1 in *. change (N.of_nat 4) with 4 in *. change (0 + 2) with 2 in *. change (2 + 1) with 3 in *.
  set (filler := takeN (filler_size major) (dropN 4 b)).
  exists f, filler, es, (dropN (lenN (flat_map (entry_bytes f) es)) (dropN (4 + filler_size major + 4) b)).
  assert (Hfl : lenN filler = filler_size major) by (unfold filler; rewrite lenN_takeN, lenN_dropN; lia).
  split; [unfold layout_ok; cbn [fst snd]; subst count; repeat (split; [assumption|]); assumption|].
  split; [|reflexivity]. cbn [fst snd]. unfold wad_layout.
  rewrite <- (takeN_dropN 2 b) at 1. replace (dropN 0 b) with b in Et1 by (rewrite dropN_0; reflexivity). rewrite Et1. f_equal.
  rewrite <- (takeN_dropN 1 (dropN 2 b)) at 1. rewrite Et2. f_equal.
  rewrite dropN_dropN. change (2 + 1) with 3.
  rewrite <- (takeN_dropN 1 (dropN 3 b)) at 1. rewrite Et3. f_equal.
  rewrite dropN_dropN. change (3 + 1) with 4.
  rewrite <- (takeN_dropN (filler_size major) (dropN 4 b)) at 1. fold filler. f_equal.
  rewrite dropN_dropN.
  rewrite <- (takeN_dropN 4 (dropN (4 + filler_size major) b)) at 1. rewrite Et5. subst count. f_equal.
  rewrite dropN_dropN.
  rewrite <- (takeN_dropN (lenN (flat_map (entry_bytes f) es)) (dropN (4 + filler_size major + 4) b)) at 1. rewrite Et6. reflexivity.
Qed.

Lemma parse_headers_iff b major minor files :
  prun parse_headers b = Ok ((major, minor), files) <->
  exists f filler entries rest, layout_ok major minor f filler entries /\
    b = wad_layout major minor f filler entries rest /\ files = map (view f) entries.
Proof.
  split.
  - intros E. apply parse_headers_inv in E. exact E.
  - intros (f & filler & es & rest & Hok & -> & ->). apply parse_headers_layout. assumption.
Qed.

(** ** Sub-chunks *)

Lemma ledec_fixed w n post : n < 256 ^ N.of_nat w -> ledec (takeN (N.of_nat w) (leenc w n ++ post)) = n.
Proof. intros H. rewrite <- (leenc_len w n), takeN_app_exact. apply ledec_enc. assumption. Qed.

Lemma subchunk_len s : lenN (subchunk_bytes s) = 16.
Proof. unfold subchunk_bytes. rewrite !lenN_app, !leenc_len. reflexivity. Qed.
Lemma subchunks_len scs : lenN (flat_map subchunk_bytes scs) = 16 * lenN scs.
Proof.
  induction scs as [|s scs IH]; cbn [flat_map]; [reflexivity|]. rewrite lenN_app, lenN_cons, IH, subchunk_len. lia.
Qed.
Lemma subchunk_fields s : subchunk_ok s ->
  ledec (takeN 4 (subchunk_bytes s)) = sc_csize s /\ ledec (sliceN (subchunk_bytes s) 4 8) = sc_usize s /\
  ledec (dropN 8 (subchunk_bytes s)) = sc_hash s.
Proof.
  intros (H1 & H2 & H3). unfold subchunk_bytes, sliceN. split; [|split].
  - apply (ledec_fixed 4). assumption.
  - rewrite (dropN_app_n (leenc 4 (sc_csize s))) by apply leenc_len. apply (ledec_fixed 4). assumption.
  - change 8 with (4 + 4). rewrite <- dropN_dropN.
    rewrite (dropN_app_n (leenc 4 (sc_csize s))) by apply leenc_len.
    rewrite (dropN_app_n (leenc 4 (sc_usize s))) by apply leenc_len. apply ledec_enc. assumption.
Qed.
Lemma subchunk_of_bytes b : lenN b = 16 -> exists s, subchunk_ok s /\ b = subchunk_bytes s.
Proof.
  intros H.
  exists {| sc_csize := ledec (takeN 4 b); sc_usize := ledec (takeN 4 (dropN 4 b)); sc_hash := ledec (dropN 8 b) |}.
  assert (L1 : lenN (takeN 4 b) = 4) by (rewrite lenN_takeN; lia).
  assert (L2 : lenN (takeN 4 (dropN 4 b)) = 4) by (rewrite lenN_takeN, lenN_dropN; lia).
  assert (L3 : lenN (dropN 8 b) = 8) by (rewrite lenN_dropN; lia).
  destruct (ledec_leenc_reads 4 (takeN 4 b) L1) as [B1 E1].
  destruct (ledec_leenc_reads 4 (takeN 4 (dropN 4 b)) L2) as [B2 E2].
  destruct (ledec_leenc_reads 8 (dropN 8 b) L3) as [B3 E3].
  split; [split; [exact B1 | split; [exact B2 | exact B3]]|].
  unfold subchunk_bytes. cbn [sc_csize sc_usize sc_hash]. rewrite <- E1, <- E2, <- E3.
  change (dropN 8 b) with (dropN (4 + 4) b). rewrite <- dropN_dropN, !takeN_dropN. reflexivity.
Qed.

Section Sub.
  Variable unzstd : bytes -> result bytes.
  Variable xxh3 : bytes -> N.
  Notation rs := (read_subchunks unzstd xxh3).

  Lemma toc_nil toc i : toc_has toc i [].
  Proof. split; [constructor|]. apply takeN_0. Qed.
  Lemma toc_cons toc i s scs :
    toc_has toc i (s :: scs) <->
    subchunk_ok s /\ sliceN toc (16 * i) (16 * (i + 1)) = subchunk_bytes s /\ toc_has toc (i + 1) scs.
  Proof.
    unfold toc_has, sliceN. replace (16 * (i + 1) - 16 * i) with 16 by lia.
    rewrite lenN_cons. replace (16 * N.succ (lenN scs)) with (16 + 16 * lenN scs) by lia.
    rewrite takeN_add, dropN_dropN. replace (16 * i + 16) with (16 * (i + 1)) by lia. cbn [flat_map]. split.
    - intros (HF & E). inversion HF; subst. split; [assumption|].
      assert (L : lenN (takeN 16 (dropN (16 * i) toc)) = 16).
      { apply (f_equal lenN) in E. rewrite !lenN_app, subchunk_len, subchunks_len in E.
        rewrite !lenN_takeN in *. lia. }
      pose proof (f_equal (takeN 16) E) as E1. pose proof (f_equal (dropN 16) E) as E2.
      rewrite (takeN_app_n _ _ 16 L), (takeN_app_n _ _ 16 (subchunk_len s)) in E1.
      rewrite (dropN_app_n _ _ 16 L), (dropN_app_n _ _ 16 (subchunk_len s)) in E2. auto.
    - intros (Hs & Es & HF & Et). split; [constructor; assumption|]. rewrite Es, Et. reflexivity.
  Qed.

  Lemma verified_nil data : verified xxh3 data [] [].
  Proof. split; [exists data; reflexivity | constructor]. Qed.
  Lemma verified_cons data s scs chunks :
    verified xxh3 data (s :: scs) chunks <->
    sc_csize s <= lenN data /\ xxh3 (takeN (sc_csize s) data) = sc_hash s /\
    exists chunks', chunks = takeN (sc_csize s) data :: chunks' /\ verified xxh3 (dropN (sc_csize s) data) scs chunks'.
  Proof.
    unfold verified. split.
    - intros ((rest & E) & HF). inversion HF as [|? c ? cs [Hl Hx] HF']; subst. cbn [concat].
      rewrite <- Hl, <- app_assoc, takeN_app_exact, dropN_app_exact, lenN_app. split; [lia|]. split; [assumption|].
      exists cs. split; [reflexivity|]. split; [exists rest; reflexivity | assumption].
    - intros (Hl & Hx & cs & -> & (rest & E) & HF). split.
      + exists rest. cbn [concat]. rewrite <- app_assoc, <- E, takeN_dropN. reflexivity.
      + constructor; [|assumption]. rewrite lenN_takeN. split; [lia | assumption].
  Qed.

  Lemma slice_chunk (data : bytes) off n : sliceN data off (off + n) = takeN n (dropN off data).
  Proof. unfold sliceN. f_equal. lia. Qed.

  (** Full description of the loop from a given state. *)
  Lemma read_sub_ok data toc : forall n i off out,
    off <= lenN data ->
    rs data toc i off n = Ok out <->
    exists scs chunks ds, length scs = n /\ toc_has toc i scs /\
      verified xxh3 (dropN off data) scs chunks /\
      Forall2 (fun sc d => unchunk unzstd (fst sc) (snd sc) d) (combine scs chunks) ds /\ out = concat ds.
  Proof.
    induction n as [|n IH]; intros i off out Hoff; cbn [read_subchunks].
    - split.
      + intros E. injection E as <-. exists [], [], []. split; [reflexivity|]. split; [apply toc_nil|].
        split; [apply verified_nil|]. split; [constructor | reflexivity].
      + intros (scs & chunks & ds & Hl & _ & Hv & HF & ->). destruct scs; [|discriminate Hl].
        inversion HF; subst. reflexivity.
    - set (rec := sliceN toc (16 * i) (16 * (i + 1))). split.
      + destruct (N.eqb_spec (lenN rec) 16) as [Hr|Hr]; cbn [negb]; [|discriminate].
        destruct (subchunk_of_bytes rec Hr) as (s & Hs & Er). rewrite Er.
        destruct (subchunk_fields s Hs) as (-> & -> & ->). rewrite slice_chunk.
        destruct (N.ltb_spec (lenN data) (off + sc_csize s)) as [Hlt|Hge]; [discriminate|].
        destruct (N.eqb_spec (xxh3 (takeN (sc_csize s) (dropN off data))) (sc_hash s)) as [Hx|Hx]; [|discriminate].
        cbn [orb negb]. intros E. apply rbind_Ok in E as (d & Ed & E). apply rbind_Ok in E as (r & Erec & E). injection E as <-.
        apply IH in Erec as (scs & chunks & ds & Hl & Ht & Hv & HF & ->); [|lia].
        exists (s :: scs), (takeN (sc_csize s) (dropN off data) :: chunks), (d :: ds).
        split; [cbn; congruence|]. split; [apply toc_cons; fold rec; auto|].
        split. { apply verified_cons. rewrite lenN_dropN. split; [lia|]. split; [assumption|]. exists chunks. rewrite dropN_dropN. auto. }
        split; [|reflexivity]. cbn [combine]. constructor; [|assumption]. cbn [fst snd]. unfold unchunk.
        destruct (N.eqb_spec (sc_csize s) (sc_usize s)); [left; split; congruence | right; auto].
      + intros (scs & chunks & ds & Hl & Ht & Hv & HF & ->). destruct scs as [|s scs]; [discriminate Hl|].
        apply toc_cons in Ht as (Hs & Er & Ht). fold rec in Er. rewrite Er, subchunk_len. cbn [negb N.eqb].
        change (negb (16 =? 16)) with false. cbn iota.
        destruct (subchunk_fields s Hs) as (-> & -> & ->). rewrite slice_chunk.
        apply verified_cons in Hv as (Hc & Hx & cs & -> & Hv). rewrite lenN_dropN in Hc. rewrite dropN_dropN in Hv.
        destruct (N.ltb_spec (lenN data) (off + sc_csize s)) as [Hlt|Hge]; [lia|].
        rewrite Hx, N.eqb_refl. cbn [orb negb]. cbn [combine] in HF. inversion HF as [|? d ? ds' Hd HF']; subst. cbn [fst snd] in Hd.
        replace (if sc_csize s =? sc_usize s then Ok (takeN (sc_csize s) (dropN off data)) else unzstd (takeN (sc_csize s) (dropN off data)))
          with (@Ok bytes d).
        2:{ destruct Hd as [[E ->]|[E ->]]; destruct (N.eqb_spec (sc_csize s) (sc_usize s)); first [reflexivity | congruence]. }
        cbn [rbind]. replace (rs data toc (i + 1) (off + sc_csize s) n) with (@Ok bytes (concat ds')); [reflexivity|].
        symmetry. apply IH; [lia|]. exists scs, cs, ds'. cbn in Hl. split; [congruence | auto].
  Qed.

  Lemma read_sub_err data toc : forall n i off e scs,
    off <= lenN data -> toc_has toc i scs -> length scs = n ->
    rs data toc i off n = Err e ->
    (e = MalformedSubchunkError data /\ forall chunks, ~ verified xxh3 (dropN off data) scs chunks) \/
    (exists s c, In s scs /\ lenN c = sc_csize s /\ xxh3 c = sc_hash s /\ unzstd c = Err e).
  Proof.
    induction n as [|n IH]; intros i off e scs Hoff Ht Hl; cbn [read_subchunks]; [discriminate|].
    destruct scs as [|s scs]; [discriminate Hl|]. injection Hl as Hl.
    apply toc_cons in Ht as (Hs & Er & Ht). rewrite Er, subchunk_len. change (negb (16 =? 16)) with false. cbn iota.
    destruct (subchunk_fields s Hs) as (-> & -> & ->). rewrite slice_chunk.
    destruct (N.ltb_spec (lenN data) (off + sc_csize s)) as [Hlt|Hge].
    { intros E. injection E as <-. left. split; [reflexivity|]. intros chunks Hv. apply verified_cons in Hv as (Hc & _).
      rewrite lenN_dropN in Hc. lia. }
    destruct (N.eqb_spec (xxh3 (takeN (sc_csize s) (dropN off data))) (sc_hash s)) as [Hx|Hx].
    2:{ intros E. injection E as <-. left. split; [reflexivity|]. intros chunks Hv. apply verified_cons in Hv as (_ & Hc & _). congruence. }
    cbn [orb negb].
    destruct (if sc_csize s =? sc_usize s then _ else _) as [d|e'] eqn:Ed; cbn [rbind].
    - destruct (rs data toc (i + 1) (off + sc_csize s) n) as [r|e'] eqn:Erec; cbn [rbind]; [discriminate|].
      intros E. injection E as ->. eapply (IH _ _ _ scs) in Erec; [|lia|assumption|assumption].
      destruct Erec as [[-> Hn]|(s' & c & Hi & Hrest)].
      + left. split; [reflexivity|]. intros chunks Hv. apply verified_cons in Hv as (_ & _ & cs & -> & Hv).
        rewrite dropN_dropN in Hv. exact (Hn cs Hv).
      + right. exists s', c. split; [right; assumption | assumption].
    - intros E. injection E as ->. right. destruct (sc_csize s =? sc_usize s); [discriminate|].
      exists s, (takeN (sc_csize s) (dropN off data)). split; [left; reflexivity|]. rewrite lenN_takeN, lenN_dropN. split; [lia | auto].
  Qed.

  Lemma toc_short_err data toc : forall n i off,
    lenN toc < 16 * (i + N.of_nat n) -> (0 < n)%nat -> exists e, rs data toc i off n = Err e.
  Proof.
    induction n as [|n IH]; intros i off Ht Hn; [lia|]. cbn [read_subchunks].
    destruct (N.eqb_spec (lenN (sliceN toc (16 * i) (16 * (i + 1)))) 16) as [Hr|Hr]; cbn [negb]; [|eauto].
    destruct (_ || _); [eauto|]. destruct (if _ =? _ then _ else _) as [d|]; cbn [rbind]; [|eauto].
    assert (Hn' : (0 < n)%nat).
    { destruct n; [|lia]. unfold sliceN in Hr. rewrite lenN_takeN, lenN_dropN in Hr. lia. }
    destruct (IH (i + 1) (off + ledec (takeN 4 (sliceN toc (16 * i) (16 * (i + 1))))) ltac:(lia) Hn') as [e ->]. cbn [rbind]. eauto.
  Qed.
End Sub.

(** ** Truncation of the table *)

Lemma layout_len major minor f filler es rest :
  wad_layout major minor f filler es rest = wad_layout major minor f filler es [] ++ rest.
Proof. unfold wad_layout. rewrite <- !app_assoc. cbn [app]. reflexivity. Qed.

Definition entry_len (f : wformat) : N := match f with WF1 => 24 | _ => 32 end.
Lemma entry_bytes_len f e : lenN (entry_bytes f e) = entry_len f.
Proof. unfold entry_bytes. destruct f; rewrite !lenN_app, !leenc_len; reflexivity. Qed.
Lemma entries_len f es : lenN (flat_map (entry_bytes f) es) = entry_len f * lenN es.
Proof. induction es as [|e es IH]; cbn [flat_map]; [destruct f; reflexivity|]. rewrite lenN_app, lenN_cons, IH, entry_bytes_len, N.mul_succ_r. lia. Qed.

Lemma truncated_err major minor f filler es cut rem :
  layout_ok major minor f filler es -> cut ++ rem = wad_layout major minor f filler es [] -> rem <> [] ->
  exists e, prun parse_headers cut = Err e.
Proof.
  intros Hok Ec Hrem. destruct (prun parse_headers cut) as [[[ma mi] files]|e] eqn:E; [|eauto]. exfalso.
  apply parse_headers_iff in E as (f' & fi' & es' & rest' & Hok' & -> & ->).
  pose proof (parse_headers_layout _ _ _ _ _ (rest' ++ rem) Hok') as P1.
  rewrite layout_len in P1. rewrite layout_len in Ec. rewrite <- app_assoc in Ec. rewrite Ec in P1.
  rewrite (parse_headers_layout _ _ _ _ _ [] Hok) in P1. injection P1 as -> -> Hv.
  assert (f' = f) as -> by (destruct Hok as (_ & _ & H & _); destruct Hok' as (_ & _ & H' & _); congruence).
  apply (f_equal lenN) in Hv. rewrite !lenN_map in Hv.
  apply (f_equal lenN) in Ec. unfold wad_layout in Ec. rewrite !lenN_app, !leenc_len, !entries_len, Hv, lenN_nil in Ec.
  destruct Hok as (_ & _ & _ & H & _). destruct Hok' as (_ & _ & _ & H' & _). rewrite H, H' in Ec.
  apply Hrem. apply lenN_0. lia.
Qed.

Lemma bad_magic b : 4 <= lenN b -> takeN 2 b <> bl "RW" -> prun parse_headers b = Err ValueError.
Proof.
  intros Hl Hm. unfold prun, parse_headers.
  assert (E1 : punpack 2 b 0 = Ok (takeN 2 b, 2)).
  { unfold punpack, pbind, pread. rewrite dropN_0, lenN_takeN. replace (N.min 2 (lenN b)) with 2 by lia. reflexivity. }
  assert (E2 : forall p, p < lenN b -> exists v, u8 b p = Ok (v, p + 1)).
  { intros p Hp. unfold u8, punpack, pbind, pread. rewrite lenN_takeN, lenN_dropN. replace (N.min 1 (lenN b - p)) with 1 by lia.
    cbn [N.eqb]. change (1 =? 1) with true. eexists. reflexivity. }
  unfold pbind at 1. rewrite E1. destruct (E2 2 ltac:(lia)) as [ma Ema]. destruct (E2 3 ltac:(lia)) as [mi Emi].
  unfold pbind at 1. rewrite Ema. change (2 + 1) with 3. unfold pbind at 1. rewrite Emi.
  match goal with |- context [if negb ?x then _ else _] => destruct x eqn:E end; [|reflexivity].
  apply (proj1 (eqbT _ _)) in E. exfalso; exact (Hm E).
Qed.
Lemma bad_version ma mi rest : ma < 256 -> mi < 256 -> format_of ma mi = None ->
  prun parse_headers (bl "RW" ++ leenc 1 ma ++ leenc 1 mi ++ rest) = Err ValueError.
Proof.
  intros Hma Hmi Hf. unfold prun, parse_headers.
  set (b := bl "RW" ++ leenc 1 ma ++ leenc 1 mi ++ rest).
  assert (E1 : punpack 2 b 0 = Ok (bl "RW", 2)) by apply (parses_unpack (bl "RW") 2 eq_refl []).
  assert (E2 : u8 b 2 = Ok (ma, 3)) by apply (parses_u8 ma Hma (bl "RW") (leenc 1 mi ++ rest)).
  assert (E3 : u8 b 3 = Ok (mi, 4)).
  { pose proof (parses_u8 mi Hmi (bl "RW" ++ leenc 1 ma) rest) as H. rewrite lenN_app, leenc_len in H.
    rewrite <- app_assoc in H. exact H. }
  unfold pbind at 1. rewrite E1. unfold pbind at 1. rewrite E2. unfold pbind at 1. rewrite E3.
  change (negb (eqb (bl "RW") (bl "RW"))) with false. cbn iota. unfold pbind.
  unfold format_of in Hf.
  destruct (N.eqb_spec ma 1) as [->|H1]; [discriminate|].
  destruct (N.eqb_spec ma 2) as [->|H2]; [discriminate|].
  destruct (N.eqb_spec ma 3) as [->|H3]; [discriminate|]. reflexivity.
Qed.

(** ** Entry data *)

Section Data.
  Variable gunzip unzstd : bytes -> result bytes.
  Variable xxh3 : bytes -> N.
  Notation rd := (read_data gunzip unzstd xxh3).

  Lemma read_data_plain f w toc pre data post :
    f = pre ++ data ++ post -> lenN pre = w_off w -> lenN data = w_csize w ->
    (w_type w = 0 -> rd f w toc = Ok (Some data)) /\
    (w_type w = 1 -> rd f w toc = rmap Some (gunzip data)) /\
    (w_type w = 3 -> rd f w toc = rmap Some (unzstd data)) /\
    (5 <= w_type w -> rd f w toc = Err ValueError).
  Proof.
    intros -> Hp Hd. unfold read_data.
    rewrite (dropN_app_n pre _ _ Hp), (takeN_app_n data _ _ Hd).
    split; [|split; [|split]].
    - intros ->. reflexivity.
    - intros ->. reflexivity.
    - intros ->. reflexivity.
    - intros H. replace (w_type w =? 0) with false by lia. replace (w_type w =? 1) with false by lia.
      replace (w_type w =? 2) with false by lia. replace (w_type w =? 3) with false by lia.
      replace (w_type w =? 4) with false by lia. reflexivity.
  Qed.

  Lemma read_data_redirect f w toc : w_type w = 2 ->
    match rd f w toc with Ok r => r = None | Err e => e = StructError \/ e = UnicodeDecodeError end.
  Proof.
    intros Ht. unfold read_data. rewrite Ht. change (2 =? 0) with false. change (2 =? 1) with false. change (2 =? 2) with true. cbn iota.
    destruct (negb _); [left; reflexivity|]. destruct (utf8_dec _) as [s|e] eqn:E; cbn [rbind]; [reflexivity|].
    right. eapply Utf8Proofs.utf8_dec_error. exact E.
  Qed.

  Lemma read_data_sub f w toc first : w_type w = 4 -> w_first w = Some first ->
    rd f w (Some toc) = rmap Some (read_subchunks unzstd xxh3 (takeN (w_csize w) (dropN (w_off w) f)) toc first 0 (N.to_nat (w_count w))).
  Proof. intros Ht Hf. unfold read_data. rewrite Ht, Hf. reflexivity. Qed.

  (** Type 4 with a table: exact characterisation. *)
  Lemma read_data_sub_ok f w toc first out : w_type w = 4 -> w_first w = Some first ->
    rd f w (Some toc) = Ok out <->
    exists scs chunks ds, lenN scs = w_count w /\ toc_has toc first scs /\
      verified xxh3 (takeN (w_csize w) (dropN (w_off w) f)) scs chunks /\
      Forall2 (fun sc d => unchunk unzstd (fst sc) (snd sc) d) (combine scs chunks) ds /\ out = Some (concat ds).
  Proof.
    intros Ht Hf. rewrite (read_data_sub f w toc first Ht Hf). set (data := takeN _ _).
    pose proof (read_sub_ok unzstd xxh3 data toc (N.to_nat (w_count w)) first 0) as H. rewrite dropN_0 in H.
    split.
    - destruct (read_subchunks _ _ _ _ _ _ _) as [o|] eqn:E; [|discriminate]. intros Eo. injection Eo as <-.
      destruct (proj1 (H o ltac:(lia)) eq_refl) as (scs & chunks & ds & Hl & Hr). exists scs, chunks, ds. rewrite lenN_length. split; [lia|].
      destruct Hr as (? & ? & ? & ->). auto.
    - intros (scs & chunks & ds & Hl & Htoc & Hv & HF & ->).
      assert (E : read_subchunks unzstd xxh3 data toc first 0 (N.to_nat (w_count w)) = Ok (concat ds)).
      { apply H; [lia|]. exists scs, chunks, ds. rewrite lenN_length in Hl. split; [lia | auto]. }
      rewrite E. reflexivity.
  Qed.
  Lemma read_data_sub_err f w toc first scs e : w_type w = 4 -> w_first w = Some first ->
    lenN scs = w_count w -> toc_has toc first scs ->
    rd f w (Some toc) = Err e ->
    let data := takeN (w_csize w) (dropN (w_off w) f) in
    (e = MalformedSubchunkError data /\ forall chunks, ~ verified xxh3 data scs chunks) \/
    (exists s c, In s scs /\ lenN c = sc_csize s /\ xxh3 c = sc_hash s /\ unzstd c = Err e).
  Proof.
    intros Ht Hf Hl Htoc. rewrite (read_data_sub f w toc first Ht Hf). cbn zeta. set (data := takeN _ _).
    destruct (read_subchunks _ _ _ _ _ _ _) as [o|e'] eqn:E; [discriminate|]. intros Ee. injection Ee as ->.
    eapply (read_sub_err unzstd xxh3 data toc) in E; [|lia|exact Htoc|rewrite lenN_length in Hl; lia].
    rewrite dropN_0 in E. exact E.
  Qed.
  Lemma read_data_sub_malformed f w toc first scs : w_type w = 4 -> w_first w = Some first ->
    lenN scs = w_count w -> toc_has toc first scs ->
    (forall c, exists d, unzstd c = Ok d) ->
    let data := takeN (w_csize w) (dropN (w_off w) f) in
    (forall chunks, ~ verified xxh3 data scs chunks) ->
    rd f w (Some toc) = Err (MalformedSubchunkError data).
  Proof.
    intros Ht Hf Hl Htoc Hz. cbn zeta. intros Hn. destruct (rd f w (Some toc)) as [o|e] eqn:E.
    - exfalso. apply (read_data_sub_ok f w toc first o Ht Hf) in E as (scs' & chunks & ds & Hl' & Htoc' & Hv & _).
      assert (scs' = scs).
      { destruct Htoc as [F1 T1]. destruct Htoc' as [F2 T2]. rewrite Hl in T1. rewrite Hl' in T2. rewrite T1 in T2.
        clear -F1 F2 T2 Hl Hl'. assert (Hl2 : lenN scs = lenN scs') by congruence. clear Hl Hl'.
        revert scs' F2 T2 Hl2. induction F1 as [|s scs Hs F1 IH]; intros [|s' scs'] F2 T2 Hl2; try reflexivity;
          rewrite ?lenN_cons, ?lenN_nil in Hl2; try lia.
        inversion F2 as [|? ? Hs' F2']; subst. cbn [flat_map] in T2.
        pose proof (f_equal (takeN 16) T2) as T3. pose proof (f_equal (dropN 16) T2) as T4.
        rewrite !(takeN_app_n _ _ 16) in T3 by apply subchunk_len. rewrite !(dropN_app_n _ _ 16) in T4 by apply subchunk_len.
        f_equal; [|apply IH; [assumption | assumption | lia]].
        destruct (subchunk_fields s Hs) as (A1 & A2 & A3). destruct (subchunk_fields s' Hs') as (B1 & B2 & B3).
        rewrite T3 in A1, A2, A3. destruct s, s'; cbn in A1, A2, A3, B1, B2, B3. congruence. }
      subst. exact (Hn chunks Hv).
    - apply (read_data_sub_err f w toc first scs e Ht Hf Hl Htoc) in E as [[-> _]|(s & c & _ & _ & _ & Ec)]; [reflexivity|].
      destruct (Hz c) as [d Hd]. congruence.
  Qed.

  Lemma read_data_sub_notoc f w : w_type w = 4 ->
    let data := takeN (w_csize w) (dropN (w_off w) f) in
    rd f w None = match unzstd data with Ok d => Ok (Some d) | Err _ => Err (MalformedSubchunkError data) end.
  Proof. intros Ht. unfold read_data. rewrite Ht. reflexivity. Qed.

  Lemma read_file_data_spec f toc w :
    match rd f w toc with
    | Err (MalformedSubchunkError _) => read_file_data gunzip unzstd xxh3 f toc w = Ok None
    | r => read_file_data gunzip unzstd xxh3 f toc w = r
    end.
  Proof. unfold read_file_data. destruct (rd f w toc) as [r|[]]; reflexivity. Qed.
End Data.
