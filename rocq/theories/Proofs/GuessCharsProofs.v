(** * Proofs about the guessing of the files of characters and shaders *)

From Coq Require Import Permutation Sorted.
From Verif Require Import Base.Py Base.PyFacts Base.Text Base.TextFacts Base.PathFacts Model.Hashes Model.Patcher Model.Rads Model.Guess Model.GuessPaths Model.GuessChars.
From Verif Require Import Spec.HashesSpec Spec.StorageSpec Spec.GuessSpec Spec.GuessPathsSpec Spec.GuessCharsSpec Proofs.HashesProofs Proofs.GuessProofs Proofs.GuessPathsProofs.

(** ** Combinations *)

Lemma subseq_empty {A} (l : list A) : subseq [] l.
Proof. induction l; constructor; assumption. Qed.
Lemma subseq_of {A} (a b : list A) x : subseq a b -> In x a -> In x b.
Proof. induction 1 as [|y a b _ IH|y a b _ IH]; intros Hx; [assumption | right; auto|]. destruct Hx as [<-|Hx]; [left; reflexivity | right; auto]. Qed.
Lemma subseq_len {A} (a b : list A) : subseq a b -> (length a <= length b)%nat.
Proof. induction 1; cbn [length]; lia. Qed.
Lemma subseq_nodup {A} (a b : list A) : subseq a b -> NoDup b -> NoDup a.
Proof.
  induction 1 as [|y a b Hs IH|y a b Hs IH]; intros Hn; [constructor| |]; inversion Hn as [|? ? Hy Hn']; subst; [auto|]. constructor; [|auto].
  intros Hi. apply Hy. eapply subseq_of; eassumption.
Qed.
Lemma subseq_filter {A} (f : A -> bool) l : subseq (filter f l) l.
Proof. induction l as [|x l IH]; cbn [filter]; [constructor|]. destruct (f x); constructor; assumption. Qed.
Lemma subseq_of_map {A B} (f : A -> B) x l : subseq x (map f l) <-> exists y, subseq y l /\ x = map f y.
Proof.
  split.
  - revert x. induction l as [|a l IH]; intros x Hx; cbn [map] in Hx; inversion Hx; subst.
    + exists []. split; [constructor | reflexivity].
    + destruct (IH x) as (y & Hy & ->); [assumption|]. exists y. split; [constructor; assumption | reflexivity].
    + destruct (IH a0) as (y & Hy & ->); [assumption|]. exists (a :: y). split; [constructor; assumption | reflexivity].
  - intros (y & Hy & ->). induction Hy; cbn [map]; constructor; assumption.
Qed.
Lemma subseq_of_filter {A} (f : A -> bool) x l : subseq x (filter f l) <-> subseq x l /\ Forall (fun a => f a = true) x.
Proof.
  split.
  - revert x. induction l as [|a l IH]; intros x Hx; cbn [filter] in Hx.
    + inversion Hx; subst. split; constructor.
    + destruct (f a) eqn:E; [inversion Hx; subst|].
      * destruct (IH x) as [I1 I2]; [assumption|]. split; [constructor; assumption | assumption].
      * destruct (IH a0) as [I1 I2]; [assumption|]. split; constructor; assumption.
      * destruct (IH x Hx) as [I1 I2]. split; [constructor; assumption | assumption].
  - intros [Hx Hf]. induction Hx as [|y a b Hs IH|y a b Hs IH]; cbn [filter]; [constructor| |].
    + destruct (f y); [constructor|]; auto.
    + inversion Hf; subst. destruct (f y) eqn:E; [apply sub_keep; auto | congruence].
Qed.
Lemma subseq_snoc {A} (r : A) x l : subseq x (l ++ [r]) <-> exists y, subseq y l /\ (x = y \/ x = y ++ [r]).
Proof.
  split.
  - revert x. induction l as [|a l IH]; intros x Hx; cbn [app] in Hx; inversion Hx as [|? ? ? Hs|? ? ? Hs]; subst.
    + inversion Hs; subst. exists []. split; [constructor | auto].
    + inversion Hs; subst. exists []. split; [constructor | auto].
    + destruct (IH _ Hs) as (y & Hy & E). exists y. split; [constructor; assumption | assumption].
    + destruct (IH _ Hs) as (y & Hy & [->| ->]); exists (a :: y); (split; [constructor; assumption|]); auto.
  - intros (y & Hy & [->| ->]).
    + induction Hy; cbn [app]; try (constructor; assumption). apply subseq_empty.
    + induction Hy; cbn [app]; [apply sub_keep; constructor | apply sub_skip; assumption | apply sub_keep; assumption].
Qed.
Lemma combinations_In {A} (l : list A) : forall n x, In x (combinations l n) <-> length x = n /\ subseq x l.
Proof.
  induction l as [|a l IH]; intros [|n] x; cbn [combinations].
  - cbn [In]. split; [intros [<-|[]]; split; [reflexivity | constructor]|]. intros [Hl _]. destruct x; [auto | discriminate].
  - split; [intros []|]. intros [Hl Hs]. inversion Hs; subst. discriminate.
  - cbn [In]. split; [intros [<-|[]]; split; [reflexivity | apply subseq_empty]|]. intros [Hl _]. destruct x; [auto | discriminate].
  - rewrite in_app_iff, in_map_iff, IH. split.
    + intros [(y & <- & Hy)|[Hl Hs]]; [apply IH in Hy as [Hl Hs]; split; [cbn [length]; lia | constructor; assumption] | split; [assumption | constructor; assumption]].
    + intros [Hl Hs]. inversion Hs; subst; [right; auto|]. left. eexists. split; [reflexivity|]. apply IH. split; [cbn [length] in Hl; lia | assumption].
Qed.
Lemma nonempty_combinations {A B} (f : list A -> B) (l : list A) q :
  In q (flat_map (fun n => map f (combinations l (S n))) (seq 0 (length l))) <-> exists x, x <> [] /\ subseq x l /\ q = f x.
Proof.
  rewrite in_flat_map. split.
  - intros (n & _ & Hq). apply in_map_iff in Hq as (x & <- & Hx). apply combinations_In in Hx as [Hl Hs]. exists x. split; [destruct x; discriminate | auto].
  - intros (x & Hx & Hs & ->). pose proof (subseq_len x l Hs) as Hl. destruct x as [|a x]; [congruence|]. cbn [length] in Hl. exists (length x). split; [apply in_seq; lia|].
    apply in_map. apply combinations_In. auto.
Qed.
(** Parts of a sorted list are the sorted lists of its elements. *)
Definition slt (a b : str) : Prop := str_lt a b = true.
Lemma sorted_subseq (l x : list str) : StronglySorted slt l -> (subseq x l <-> StronglySorted slt x /\ forall a, In a x -> In a l).
Proof.
  intros Hl. split.
  - intros Hs. split; [|intros a; apply subseq_of; assumption]. induction Hs as [|y a b Hs IH|y a b Hs IH]; [constructor| |]; inversion Hl as [|? ? Hl' Hf]; subst; [auto|].
    constructor; [auto|]. rewrite Forall_forall in *. intros z Hz. apply Hf. eapply subseq_of; eassumption.
  - revert x. induction Hl as [|y l Hl IH Hf]; intros x [Hx Hi].
    + destruct x as [|a x]; [constructor | destruct (Hi a (or_introl eq_refl))].
    + destruct x as [|a x]; [apply subseq_empty|]. inversion Hx as [|? ? Hx' Hfx]; subst. rewrite Forall_forall in Hf, Hfx. destruct (Hi a (or_introl eq_refl)) as [<-|Ha].
      * apply sub_keep. apply IH. split; [assumption|]. intros b Hb. destruct (Hi b (or_intror Hb)) as [<-|Hb']; [|assumption].
        exfalso. specialize (Hfx _ Hb). unfold slt in Hfx. rewrite str_lt_irrefl in Hfx. discriminate.
      * apply sub_skip. apply IH. split; [assumption|]. intros b [<-|Hb]; [assumption|]. destruct (Hi b (or_intror Hb)) as [<-|Hb']; [|assumption].
        exfalso. specialize (Hfx _ Hb). specialize (Hf _ Ha). unfold slt in *. pose proof (str_lt_trans _ _ _ Hfx Hf) as E. rewrite str_lt_irrefl in E. discriminate.
Qed.

(** ** Names *)

Lemma span_name_spec s a b : span_name s = (a, b) <-> s = a ++ b /\ (~ In cSlash a /\ ~ In cDot a) /\ match b with c :: _ => c = cSlash \/ c = cDot | [] => True end.
Proof.
  revert a b. induction s as [|c t IH]; intros a b; cbn [span_name].
  - split; [intros E; assert (a = [] /\ b = []) as [-> ->] by (split; congruence); auto|]. intros (E & _). symmetry in E. apply app_eq_nil in E as [-> ->]. reflexivity.
  - destruct ((c =? cSlash) || (c =? cDot)) eqn:Ec.
    + apply orb_prop in Ec. rewrite !N.eqb_eq in Ec. split.
      * intros E. assert (a = [] /\ b = c :: t) as [-> ->] by (split; congruence). auto.
      * intros (E & [H1 H2] & _). destruct a as [|x a]; [cbn [app] in E; subst b; reflexivity|]. cbn [app] in E. assert (x = c) as -> by congruence. exfalso. destruct Ec as [->| ->]; [apply H1 | apply H2]; left; reflexivity.
    + apply orb_false_iff in Ec as [E1 E2]. apply N.eqb_neq in E1, E2. destruct (span_name t) as [a' b'] eqn:Es. destruct (proj1 (IH a' b') eq_refl) as (-> & [H1 H2] & H3). split.
      * intros E. assert (a = c :: a' /\ b = b') as [-> ->] by (split; congruence). split; [reflexivity|]. split; [|assumption]. split; intros [F|F]; auto.
      * intros (E & [H4 H5] & H6). destruct a as [|x a].
        { exfalso. cbn [app] in E. subst b. destruct H6; congruence. }
        cbn [app] in E. assert (x = c /\ a ++ b = a' ++ b') as [-> E'] by (split; congruence). assert (F : (a', b') = (a, b)); [|inversion F; reflexivity].
        apply IH. split; [congruence|]. split; [|assumption]. split; intros F; [apply H4 | apply H5]; right; assumption.
Qed.
Lemma char_name_Some p c : char_name p = Some c <-> of_character p c.
Proof.
  unfold char_name, of_character.
  assert (HN : forall s, match span_name s with ([], _) => None | (c, []) => Some c | (c, x :: _) => if x =? cSlash then Some c else None end = Some c <->
    (c <> [] /\ ~ In cSlash c /\ ~ In cDot c) /\ (s = c \/ exists r, s = c ++ lit "/" ++ r)).
  { intros s. destruct (span_name s) as [a b] eqn:E. pose proof (proj1 (span_name_spec s a b) E) as (-> & [H1 H2] & H3). split.
    - destruct a as [|x a]; [discriminate|]. destruct b as [|y b].
      + intros F. assert (c = x :: a) as -> by congruence. split; [split; [discriminate | auto]|]. left. apply app_nil_r.
      + destruct (y =? cSlash) eqn:Ey; [|discriminate]. apply N.eqb_eq in Ey as ->. intros F. assert (c = x :: a) as -> by congruence. split; [split; [discriminate | auto]|]. right. exists b. reflexivity.
    - intros [(Hc & Hc1 & Hc2) Hs].
      assert (F : exists r, span_name (a ++ b) = (c, r) /\ (r = [] \/ exists r', r = cSlash :: r')).
      { destruct Hs as [->|[r ->]]; [exists [] | exists (cSlash :: r)]; (split; [|eauto]); apply span_name_spec.
        - rewrite app_nil_r. auto.
        - split; [reflexivity|]. auto. }
      destruct F as (r & F & Hr). rewrite E in F. assert (a = c /\ b = r) as [-> ->] by (split; congruence). destruct c as [|x c]; [congruence|]. destruct Hr as [->|[r' ->]]; reflexivity. }
  rewrite opt_bind_Some. split.
  - intros (s & E1 & E2). apply HN in E2 as [Hc E2]. apply after_Some in E1. split; [assumption|].
    destruct (after (lit "assets/") p) as [r|] eqn:Ea; [apply after_Some in Ea; exists (lit "assets/"); split; [left; reflexivity|]|
      destruct (after (lit "data/") p) as [r|] eqn:Ed; [apply after_Some in Ed; exists (lit "data/"); split; [right; left; reflexivity|] | exists []; split; [right; right; left; reflexivity|]]];
      subst; destruct E2 as [->|[r' ->]]; [left | right; exists r' | left | right; exists r' | left | right; exists r']; reflexivity.
  - intros (Hc & pre & Hp & E).
    assert (HE : exists s, p = pre ++ lit "characters/" ++ s /\ (s = c \/ exists r, s = c ++ lit "/" ++ r)).
    { destruct E as [->|[r ->]]; eexists; (split; [reflexivity|]); eauto. }
    destruct HE as (s & -> & Hs). exists s. split; [|apply HN; auto]. apply after_Some.
    destruct Hp as [<-|[<-|[<-|[]]]]; [| |reflexivity].
    + rewrite (proj2 (after_Some _ _ _) eq_refl). reflexivity.
    + assert (E1 : after (lit "assets/") (lit "data/" ++ lit "characters/" ++ s) = None) by reflexivity. rewrite E1, (proj2 (after_Some _ _ _) eq_refl). reflexivity.
Qed.

(** ** Skins *)

Lemma digits_forall d : forallb is_digit d = true <-> Forall digit d.
Proof. rewrite forallb_forall, Forall_forall. split; intros Hd c Hc; apply is_digit_iff; auto. Qed.
Lemma skin_name_iff k : skin_name k = true <-> skin k.
Proof.
  unfold skin_name, skin. rewrite orb_true_iff. split.
  - intros [E|E]; [left; destruct (eqbP k (lit "base")); [assumption | discriminate]|]. right. destruct (after (lit "skin") k) as [[|c t]|] eqn:Ea; try discriminate. apply after_Some in Ea as ->.
    exists (c :: t). split; [discriminate|]. split; [apply digits_forall; assumption | reflexivity].
  - intros [->|(d & Hd & Hf & ->)]; [left; reflexivity|]. right. rewrite (proj2 (after_Some _ _ _) eq_refl). destruct d; [congruence|]. apply digits_forall. assumption.
Qed.
Lemma skin_part k : skin k -> part k.
Proof.
  intros [->|(d & _ & Hd & ->)]; [split; [discriminate | vm_compute; intuition discriminate]|]. split; [discriminate|]. rewrite in_app_iff. intros [F|F]; [vm_compute in F; intuition discriminate|].
  rewrite Forall_forall in Hd. specialize (Hd _ F). vm_compute in Hd. intuition congruence.
Qed.
Lemma skin_here_Some s c k : skin_here s = Some (c, k) <-> exists b, skin_at [] c k b s.
Proof.
  unfold skin_here, skin_at. rewrite opt_bind_Some. split.
  - intros (s1 & E1 & E2). apply after_Some in E1 as ->. apply opt_bind_Some in E2 as ([c' r] & E2 & E3). apply split_part_Some in E2 as [Hc ->]. apply opt_bind_Some in E3 as (s2 & E3 & E4). cbn [snd] in E3.
    apply after_Some in E3 as ->. apply opt_bind_Some in E4 as ([k' b] & E4 & E5). apply split_part_Some in E4 as [Hk ->]. cbn [fst] in E5. destruct (skin_name k') eqn:Es; [|discriminate].
    assert (c' = c /\ k' = k) as [-> ->] by (split; congruence). exists b. split; [assumption|]. split; [apply skin_name_iff; assumption | reflexivity].
  - intros (b & Hc & Hk & ->). eexists. split; [apply after_Some; reflexivity|]. apply opt_bind_Some. exists (c, lit "skins/" ++ k ++ lit "/" ++ b). split; [apply split_part_Some; split; [assumption | reflexivity]|].
    apply opt_bind_Some. eexists. split; [apply after_Some; reflexivity|]. apply opt_bind_Some. exists (k, b). split; [apply split_part_Some; split; [apply skin_part; assumption | reflexivity]|].
    cbn [fst]. apply skin_name_iff in Hk. rewrite Hk. reflexivity.
Qed.
Lemma skin_at_cons x a c k b s : skin_at a c k b s <-> skin_at (x :: a) c k b (x :: s).
Proof. unfold skin_at. split; intros (H1 & H2 & E); (split; [assumption|]); (split; [assumption|]); cbn [app] in *; congruence. Qed.
Lemma skin_match_Some s c k : skin_match s = Some (c, k) <-> first_skin s c k.
Proof.
  revert c k. induction s as [|x t IH]; intros c k.
  - cbn [skin_match]. change (skin_here []) with (@None (str * str)). cbn iota. split; [discriminate|]. intros (a & b & (_ & _ & E) & _). symmetry in E. apply app_eq_nil in E as [_ E]. discriminate.
  - cbn [skin_match]. destruct (skin_here (x :: t)) as [[c0 k0]|] eqn:E.
    + apply skin_here_Some in E as (b0 & E). split.
      * intros F. assert (c0 = c /\ k0 = k) as [-> ->] by (split; congruence). exists [], b0. split; [assumption|]. intros. cbn [length]. lia.
      * intros (a & b & Ha & Hm). specialize (Hm [] c0 k0 b0 E). cbn [length] in Hm. destruct a; [|cbn [length] in Hm; lia].
        assert (F : skin_here (x :: t) = Some (c, k)) by (apply skin_here_Some; eauto). assert (F0 : skin_here (x :: t) = Some (c0, k0)) by (apply skin_here_Some; eauto). congruence.
    + assert (HN : forall c k b, ~ skin_at [] c k b (x :: t)).
      { intros c' k' b' Hs. assert (F : skin_here (x :: t) = Some (c', k')) by (apply skin_here_Some; eauto). congruence. }
      rewrite IH. split.
      * intros (a & b & Ha & Hm). exists (x :: a), b. split; [apply skin_at_cons; assumption|]. intros [|y a'] c' k' b' Hs; [destruct (HN _ _ _ Hs)|].
        assert (y = x) as -> by (destruct Hs as (_ & _ & Es); cbn [app] in Es; congruence). apply skin_at_cons in Hs. cbn [length]. specialize (Hm _ _ _ _ Hs). lia.
      * intros (a & b & Ha & Hm). destruct a as [|y a]; [destruct (HN _ _ _ Ha)|]. assert (y = x) as -> by (destruct Ha as (_ & _ & Es); cbn [app] in Es; congruence).
        apply skin_at_cons in Ha. exists a, b. split; [assumption|]. intros a' c' k' b' Hs. apply (proj1 (skin_at_cons x _ _ _ _ _)) in Hs. specialize (Hm _ _ _ _ Hs). cbn [length] in Hm. lia.
Qed.

Definition whole_skin (k s : str) : Prop := skin k /\ (k = lit "base" \/ forall c r, s = c :: r -> ~ digit c).
Lemma span_digits_spec s : let '(a, b) := span_digits s in s = a ++ b /\ Forall digit a /\ forall c r, b = c :: r -> ~ digit c.
Proof.
  induction s as [|c t IH]; cbn [span_digits]; [split; [reflexivity|]; split; [constructor | discriminate]|].
  destruct (is_digit c) eqn:E.
  - destruct (span_digits t) as [a b]. destruct IH as (-> & Ha & Hb). split; [reflexivity|]. split; [constructor; [apply is_digit_iff; assumption | assumption] | assumption].
  - split; [reflexivity|]. split; [constructor|]. intros x r F. assert (c = x) as -> by congruence. rewrite <- is_digit_iff. congruence.
Qed.
Lemma skin_len_0 s : skin_len s = 0%nat -> forall k r, skin k -> s <> k ++ r.
Proof.
  unfold skin_len. intros E k r Hk ->. destruct Hk as [->|(d & Hd & Hf & ->)].
  - rewrite startswith_app in E. discriminate.
  - rewrite <- app_assoc in E. change (startswith (lit "skin" ++ d ++ r) (lit "base")) with false in E. cbv iota in E. rewrite (proj2 (after_Some _ _ _) eq_refl) in E.
    destruct d as [|c d]; [congruence|]. inversion Hf as [|? ? Hc _]; subst. apply is_digit_iff in Hc. cbn [app span_digits] in E. rewrite Hc in E. destruct (span_digits (d ++ r)). cbn [fst] in E. discriminate.
Qed.
Lemma skin_len_S s n : skin_len s = S n -> exists k r, s = k ++ r /\ length k = S n /\ whole_skin k r.
Proof.
  unfold skin_len. destruct (startswith s (lit "base")) eqn:E.
  - intros F. apply startswith_iff in E as [r ->]. exists (lit "base"), r. split; [reflexivity|]. split; [cbn; congruence|]. split; left; reflexivity.
  - destruct (after (lit "skin") s) as [t|] eqn:Ea; [|discriminate]. apply after_Some in Ea as ->. pose proof (span_digits_spec t) as Hs. destruct (span_digits t) as [d r]. destruct Hs as (-> & Hd & Hr). cbn [fst].
    destruct d as [|c d]; [discriminate|]. intros F. exists (lit "skin" ++ c :: d), r. split; [rewrite <- app_assoc; reflexivity|]. split; [rewrite app_length; exact F|]. split; [|right; assumption].
    right. exists (c :: d). split; [discriminate | auto].
Qed.
Lemma whole_skin_one k r k' r' : k ++ r = k' ++ r' -> whole_skin k r -> whole_skin k' r' -> k = k' /\ r = r'.
Proof.
  intros E [Hk Hw] [Hk' Hw'].
  assert (HB : forall d x y, lit "base" ++ x = (lit "skin" ++ d) ++ y -> False) by (intros d x y F; cbn in F; discriminate).
  destruct Hk as [->|(d & Hd & Hf & ->)], Hk' as [->|(d' & Hd' & Hf' & ->)].
  - split; [reflexivity|]. eapply app_inv_head. exact E.
  - destruct (HB _ _ _ E).
  - symmetry in E. destruct (HB _ _ _ E).
  - assert (Hr : forall c x, r = c :: x -> ~ digit c) by (destruct Hw as [F|Hw]; [discriminate F | assumption]).
    assert (Hr' : forall c x, r' = c :: x -> ~ digit c) by (destruct Hw' as [F|Hw']; [discriminate F | assumption]).
    rewrite <- !app_assoc in E. apply app_inv_head in E.
    assert (G : forall d r, Forall digit d -> (forall c x, r = c :: x -> ~ digit c) -> span_digits (d ++ r) = (d, r)).
    { intros d0 r0 H1 H2. apply span_digits_app; [eapply Forall_impl; [|exact H1]; intros c; apply is_digit_iff|]. destruct r0 as [|c r0]; [exact I|]. specialize (H2 c r0 eq_refl). rewrite <- is_digit_iff in H2. destruct (is_digit c); congruence. }
    pose proof (G d r Hf Hr) as G1. rewrite E, (G d' r' Hf' Hr') in G1. split; [f_equal|]; congruence.
Qed.
Lemma skin_format_skip a b : skin_format (a ++ b) (length a) = skin_format b 0.
Proof. induction a as [|x a IH]; cbn [app length skin_format]; [reflexivity | apply IH]. Qed.
Lemma skin_format_here k r : whole_skin k r -> skin_format (k ++ r) 0 = (lit "%s" ++ fst (skin_format r 0), S (snd (skin_format r 0))).
Proof.
  intros Hw. destruct (skin_len (k ++ r)) as [|n] eqn:E; [exfalso; eapply skin_len_0; [exact E | apply Hw | reflexivity]|].
  destruct (skin_len_S _ _ E) as (k' & r' & E' & Hl & Hw'). destruct (whole_skin_one _ _ _ _ E' Hw Hw') as [<- <-].
  destruct k as [|c k]; [discriminate|]. cbn [length] in Hl. assert (length k = n) as <- by lia. cbn [app] in *. cbn [skin_format]. rewrite E. rewrite skin_format_skip. destruct (skin_format r 0). reflexivity.
Qed.
Lemma skin_format_char c t : (forall k r, skin k -> c :: t <> k ++ r) -> skin_format (c :: t) 0 = (c :: fst (skin_format t 0), snd (skin_format t 0)).
Proof.
  intros Hn. cbn [skin_format]. destruct (skin_len (c :: t)) as [|n] eqn:E; [destruct (skin_format t 0); reflexivity|].
  destruct (skin_len_S _ _ E) as (k & r & E' & _ & [Hk _]). destruct (Hn k r Hk E').
Qed.
Lemma rmap_inv {A B} (f : A -> B) (r : result A) y : rmap f r = Ok y -> exists x, r = Ok x /\ y = f x.
Proof. destruct r; cbn [rmap]; intros E; [|discriminate]. eexists. split; [reflexivity | congruence]. Qed.
Lemma filled_format other p : ~ In 37 p -> forall q ks, filled p q ks <-> length ks = snd (skin_format p 0) /\ pct other (fst (skin_format p 0)) (map PStr ks) = Ok q.
Proof.
  remember (length p) as n eqn:En. revert p En. induction n as [n IH] using lt_wf_ind. intros p En Hp q ks. destruct p as [|c t].
  - cbn [skin_format fst snd]. split.
    + intros Hf. inversion Hf; subst; [split; reflexivity|]. exfalso. match goal with E : ?k ++ _ = [], Hk : skin ?k |- _ => apply app_eq_nil in E as [-> _]; apply skin_part in Hk; apply (proj1 Hk); reflexivity end.
    + intros [Hl E]. destruct ks; [|discriminate]. rewrite pct_nil in E. assert (q = []) as -> by congruence. constructor.
  - destruct (skin_len (c :: t)) as [|m] eqn:E.
    + pose proof (skin_len_0 _ E) as Hn. rewrite (skin_format_char c t Hn). cbn [fst snd]. rewrite pct_char by (intros ->; apply Hp; left; reflexivity).
      assert (IH' : forall q ks, filled t q ks <-> length ks = snd (skin_format t 0) /\ pct other (fst (skin_format t 0)) (map PStr ks) = Ok q).
      { eapply (IH (length t)); [subst n; cbn [length]; lia | reflexivity | intros F; apply Hp; right; assumption]. }
      split.
      * intros Hf. inversion Hf as [|k k' s t' ks' Hk Hw Hf' E1 E2 E3|c' s t' ks' Hc Hf']; subst; [exfalso; eapply Hn; [exact Hk | symmetry; exact E1]|].
        apply IH' in Hf' as [Hl Ev]. split; [assumption|]. rewrite Ev. reflexivity.
      * intros [Hl Ev]. apply rmap_inv in Ev as (x & Ev & ->). constructor; [assumption|]. apply IH'. auto.
    + destruct (skin_len_S _ _ E) as (k & r & Ek & Hlk & Hw). rewrite Ek in *. rewrite (skin_format_here k r Hw). cbn [fst snd].
      assert (IH' : forall q ks, filled r q ks <-> length ks = snd (skin_format r 0) /\ pct other (fst (skin_format r 0)) (map PStr ks) = Ok q).
      { eapply (IH (length r)); [subst n; rewrite app_length; lia | reflexivity | intros F; apply Hp; apply in_or_app; right; assumption]. }
      split.
      * intros Hf. inversion Hf as [E1|k0 k' s t' ks' Hk Hw0 Hf' E1 E2 E3|c' s t' ks' Hc Hf' E1].
        -- exfalso. symmetry in E1. apply app_eq_nil in E1 as [-> _]. discriminate.
        -- destruct (whole_skin_one _ _ _ _ E1 (conj Hk Hw0) Hw) as [-> ->]. apply IH' in Hf' as [Hl Ev]. split; [cbn [length]; lia|]. cbn [map]. rewrite pct_s, Ev. reflexivity.
        -- exfalso. eapply Hc; [apply Hw | exact E1].
      * intros [Hl Ev]. destruct ks as [|k' ks]; [discriminate|]. cbn [map] in Ev. rewrite pct_s in Ev. apply rmap_inv in Ev as (x & Ev & ->). cbn [length] in Hl.
        apply fi_here; [apply Hw | apply Hw|]. apply IH'. split; [lia | assumption].
Qed.
Lemma format_total other p ks : ~ In 37 p -> length ks = snd (skin_format p 0) -> exists q, pct other (fst (skin_format p 0)) (map PStr ks) = Ok q.
Proof.
  remember (length p) as n eqn:En. revert p En ks. induction n as [n IH] using lt_wf_ind. intros p En ks Hp Hl. destruct p as [|c t].
  - cbn [skin_format fst snd] in *. destruct ks; [|discriminate]. exists []. apply pct_nil.
  - destruct (skin_len (c :: t)) as [|m] eqn:E.
    + pose proof (skin_len_0 _ E) as Hn. rewrite (skin_format_char c t Hn) in *. cbn [fst snd] in *. rewrite pct_char by (intros ->; apply Hp; left; reflexivity).
      destruct (IH (length t)) with (p := t) (ks := ks) as [q Hq]; [subst n; cbn [length]; lia | reflexivity | intros F; apply Hp; right; assumption | assumption|]. rewrite Hq. eexists. reflexivity.
    + destruct (skin_len_S _ _ E) as (k & r & Ek & Hlk & Hw). rewrite Ek in *. rewrite (skin_format_here k r Hw) in *. cbn [fst snd] in *. destruct ks as [|k' ks]; [discriminate|]. cbn [length] in Hl. cbn [map]. rewrite pct_s.
      destruct (IH (length r)) with (p := r) (ks := ks) as [q Hq]; [subst n; rewrite app_length; lia | reflexivity | intros F; apply Hp; apply in_or_app; right; assumption | lia|]. rewrite Hq. eexists. reflexivity.
Qed.

(** ** Numbers of skins *)

Lemma number_undigits d : undigits 10 (map (fun c => c - 48) d) = number d.
Proof.
  unfold undigits, number. generalize 0 as n. induction d as [|c d IH]; intros n; cbn [map fold_left]; [reflexivity|]. rewrite IH. f_equal. lia.
Qed.
Lemma digits_part d : d <> [] -> Forall digit d -> part d.
Proof. intros Hd Hf. split; [assumption|]. intros F. rewrite Forall_forall in Hf. specialize (Hf _ F). vm_compute in Hf. intuition congruence. Qed.
Lemma skin_dir_Some p c n : skin_dir p = Some (c, n) <-> numbered_skin p c n.
Proof.
  unfold skin_dir, numbered_skin. rewrite opt_bind_Some. split.
  - intros (s1 & E1 & E2). apply after_Some in E1 as ->. apply opt_bind_Some in E2 as ([c' r] & E2 & E3). apply split_part_Some in E2 as [Hc ->]. apply opt_bind_Some in E3 as (s2 & E3 & E4). cbn [snd] in E3.
    apply after_Some in E3 as ->. apply opt_bind_Some in E4 as ([d b] & E4 & E5). apply split_part_Some in E4 as [Hd ->]. cbn [fst] in E5. destruct (forallb is_digit d) eqn:Ed; [|discriminate].
    assert (c' = c /\ undigits 10 (map (fun c => c - 48) d) = n) as [-> <-] by (split; congruence). split; [assumption|]. exists d, b. split; [apply Hd|]. split; [apply digits_forall; assumption|]. split; [apply number_undigits | reflexivity].
  - intros (Hc & d & r & Hd & Hf & -> & ->). eexists. split; [apply after_Some; reflexivity|]. apply opt_bind_Some. exists (c, lit "skins/skin" ++ d ++ lit "/" ++ r). split; [apply split_part_Some; split; [assumption | reflexivity]|].
    apply opt_bind_Some. eexists. split; [apply after_Some; reflexivity|]. apply opt_bind_Some. exists (d, r). split; [apply split_part_Some; split; [apply digits_part; assumption | reflexivity]|].
    cbn [fst]. rewrite (proj2 (digits_forall d) Hf), number_undigits. reflexivity.
Qed.
Lemma splash_char_Some p c : splash_char p = Some c <-> part c /\ exists r, p = lit "/lol-game-data/assets/assets/characters/" ++ c ++ lit "/skins/" ++ r.
Proof.
  unfold splash_char. rewrite opt_bind_Some. split.
  - intros (s1 & E1 & E2). apply after_Some in E1 as ->. apply opt_bind_Some in E2 as ([c' r] & E2 & E3). apply split_part_Some in E2 as [Hc ->]. cbn [fst snd] in E3. destruct (startswith r (lit "skins/")) eqn:Es; [|discriminate].
    assert (c' = c) as -> by congruence. apply startswith_iff in Es as [t ->]. split; [assumption|]. exists t. reflexivity.
  - intros (Hc & r & ->). eexists. split; [apply after_Some; reflexivity|]. apply opt_bind_Some. exists (c, lit "skins/" ++ r). split; [apply split_part_Some; split; [assumption | reflexivity]|].
    cbn [fst snd]. rewrite startswith_app. reflexivity.
Qed.

(** ** Shaders *)

Lemma shader_here_Some s y : shader_here s = Some y <-> exists rest, s = y ++ rest /\ shader_ext y rest.
Proof.
  split.
  - intros E. destruct s as [|a [|b [|c t]]]; try discriminate. cbn [shader_here] in E. destruct ((a =? cDot) && ((b =? 112) || (b =? 118)) && (c =? 115)) eqn:Ec; [|discriminate].
    apply andb_prop in Ec as [Ec Hc]. apply andb_prop in Ec as [Ha Hb]. apply N.eqb_eq in Ha, Hc. subst a c. apply orb_prop in Hb. rewrite !N.eqb_eq in Hb.
    assert (Hx : [cDot; b; 115] = lit ".ps" \/ [cDot; b; 115] = lit ".vs") by (destruct Hb as [->| ->]; [left | right]; reflexivity).
    destruct (startswith t (lit "_2_0") || startswith t (lit "_3_0")) eqn:Es.
    + assert (y = cDot :: b :: 115 :: takeN 4 t) as -> by congruence. apply orb_prop in Es as [Es|Es]; apply startswith_iff in Es as [r ->].
      * exists r. rewrite (takeN_app_exact (lit "_2_0") r : takeN 4 (lit "_2_0" ++ r) = lit "_2_0"). split; [reflexivity|]. exists [cDot; b; 115]. split; [assumption|]. right. left. reflexivity.
      * exists r. rewrite (takeN_app_exact (lit "_3_0") r : takeN 4 (lit "_3_0" ++ r) = lit "_3_0"). split; [reflexivity|]. exists [cDot; b; 115]. split; [assumption|]. right. right. reflexivity.
    + destruct t as [|x u].
      * assert (y = [cDot; b; 115]) as -> by congruence. exists []. split; [reflexivity|]. exists [cDot; b; 115]. split; [assumption|]. left. auto.
      * destruct ((x =? cDot) || (x =? cMinus) || ((x =? cNL) && match u with [] => true | _ => false end)) eqn:Ex; [|discriminate].
        assert (y = [cDot; b; 115]) as -> by congruence. exists (x :: u). split; [reflexivity|]. exists [cDot; b; 115]. split; [assumption|]. left. split; [reflexivity|]. right.
        apply orb_prop in Ex as [Ex|Ex].
        -- right. exists x, u. split; [reflexivity|]. apply orb_prop in Ex. rewrite !N.eqb_eq in Ex. assumption.
        -- left. apply andb_prop in Ex as [Ex Eu]. apply N.eqb_eq in Ex as ->. destruct u; [reflexivity | discriminate].
  - intros (rest & -> & x & Hx & Hy).
    assert (HX : exists b, (b = 112 \/ b = 118) /\ x = [cDot; b; 115]) by (destruct Hx as [->| ->]; [exists 112 | exists 118]; split; auto).
    destruct HX as (b & Hb & ->). assert (Ec : (cDot =? cDot) && ((b =? 112) || (b =? 118)) && (115 =? 115) = true) by (destruct Hb as [->| ->]; reflexivity).
    destruct Hy as [[-> Hr]|Hy].
    2: { assert (HY : exists v, (v = lit "_2_0" \/ v = lit "_3_0") /\ y = [cDot; b; 115] ++ v) by (destruct Hy as [->| ->]; eauto). destruct HY as (v & Hv & ->). cbn [app shader_here]. rewrite Ec.
      assert (Es : startswith (v ++ rest) (lit "_2_0") || startswith (v ++ rest) (lit "_3_0") = true) by (destruct Hv as [->| ->]; rewrite startswith_app, ?orb_true_r; reflexivity).
      rewrite Es. f_equal. f_equal. f_equal. f_equal. replace 4 with (lenN v) by (destruct Hv as [->| ->]; reflexivity). apply takeN_app_exact. }
    cbn [app shader_here]; rewrite Ec.
    destruct Hr as [->|[->|(c & r & -> & Hc)]]; [reflexivity | reflexivity|].
    destruct Hc as [->| ->]; reflexivity.
Qed.
Lemma shader_ext_dot y rest : shader_ext y rest -> exists t, y = cDot :: t.
Proof. intros (x & Hx & Hy). assert (Hd : exists t, x = cDot :: t) by (destruct Hx as [->| ->]; eexists; reflexivity). destruct Hd as [t ->]. destruct Hy as [[-> _]|[->| ->]]; eexists; reflexivity. Qed.
Lemma shader_path_None p : shader_path p = None -> forall x y rest, p = x ++ y ++ rest -> ~ In cNL x -> shader_ext y rest -> False.
Proof.
  induction p as [|c t IH]; intros E x y rest Ep Hx Hy.
  - symmetry in Ep. apply app_eq_nil in Ep as [_ Ep]. apply app_eq_nil in Ep as [-> _]. apply shader_ext_dot in Hy as [u Hy]. discriminate.
  - cbn [shader_path] in E. destruct (c =? cNL) eqn:Ec.
    + apply N.eqb_eq in Ec as ->. destruct x as [|a x]; cbn [app] in Ep; [|apply Hx; left; congruence]. pose proof (shader_ext_dot _ _ Hy) as [u ->]. cbn [app] in Ep. discriminate.
    + destruct (shader_path t) as [r|]; [discriminate|]. destruct x as [|a x]; cbn [app] in Ep.
      * assert (F : shader_here (c :: t) = Some y) by (apply shader_here_Some; eauto). congruence.
      * eapply (IH eq_refl x y rest); [congruence | intros F; apply Hx; right; assumption | assumption].
Qed.
Lemma shader_path_Some p s : shader_path p = Some s <-> shader p s.
Proof.
  revert s. induction p as [|c t IH]; intros s.
  - split; [discriminate|]. intros (x & y & rest & Ep & _ & Hx & Hy & _). exfalso. exact (shader_path_None [] eq_refl x y rest Ep Hx Hy).
  - cbn [shader_path]. destruct (c =? cNL) eqn:Ec.
    { split; [discriminate|]. intros (x & y & rest & Ep & _ & Hx & Hy & _). exfalso. refine (shader_path_None (c :: t) _ x y rest Ep Hx Hy). cbn [shader_path]. rewrite Ec. reflexivity. }
    apply N.eqb_neq in Ec. destruct (shader_path t) as [r|] eqn:Er.
    + pose proof (proj1 (IH r) eq_refl) as (x0 & y0 & rest0 & Et & Es & Hx0 & Hy0 & Hm). split.
      * intros F. assert (s = c :: r) as -> by congruence. exists (c :: x0), y0, rest0. split; [cbn [app]; congruence|]. split; [cbn [app]; congruence|]. split; [intros [F'|F']; [congruence | contradiction]|]. split; [assumption|].
        intros [|a x'] y' rest' Ep' Hx' Hy'; [cbn [length]; lia|]. cbn [app] in Ep'. cbn [length]. assert (Et' : t = x' ++ y' ++ rest') by congruence.
        specialize (Hm x' y' rest' Et' (fun F' => Hx' (or_intror F')) Hy'). lia.
      * intros (x & y & rest & Ep & -> & Hx & Hy & Hmm). assert (HL : (length (c :: x0) <= length x)%nat).
        { apply (Hmm (c :: x0) y0 rest0); [cbn [app]; congruence | intros [F'|F']; [congruence | contradiction] | assumption]. }
        destruct x as [|a x]; [cbn [length] in HL; lia|]. cbn [app] in Ep. assert (c = a /\ t = x ++ y ++ rest) as [<- Et'] by (split; congruence).
        assert (F : Some r = Some (x ++ y)).
        { apply IH. exists x, y, rest. split; [assumption|]. split; [reflexivity|]. split; [intros F; apply Hx; right; assumption|]. split; [assumption|].
          intros x' y' rest' Ep' Hx' Hy'. assert (HL' : (length (c :: x') <= length (c :: x))%nat); [|cbn [length] in HL'; lia].
          apply (Hmm (c :: x') y' rest'); [cbn [app]; congruence | intros [F'|F']; [congruence | contradiction] | assumption]. }
        assert (r = x ++ y) as -> by (inversion F; reflexivity). reflexivity.
    + split.
      * intros F. apply shader_here_Some in F as (rest & Ep & Hy). exists [], s, rest. split; [assumption|]. split; [reflexivity|]. split; [intros []|]. split; [assumption|].
        intros [|a x'] y' rest' Ep' Hx' Hy'; [cbn [length]; lia|]. exfalso. cbn [app] in Ep'. eapply (shader_path_None t Er x' y' rest'); [congruence | intros F; apply Hx'; right; assumption | assumption].
      * intros (x & y & rest & Ep & -> & Hx & Hy & _). destruct x as [|a x]; [apply shader_here_Some; eauto|].
        exfalso. cbn [app] in Ep. eapply (shader_path_None t Er x y rest); [congruence | intros F; apply Hx; right; assumption | assumption].
Qed.

(** ** Guesses *)

Section Guess.
  Variable H : str -> Z.
  Variable other : str -> list parg -> result str.

  Lemma found_skins_In g c k p : In (c, (k, p)) (found_skins g) <-> In p (dvals (g_known g)) /\ first_skin p c k /\ c <> lit "sightward".
  Proof. clear H other.
    unfold found_skins. rewrite in_flat_map. split.
    - intros (p' & Hp & Hi). destruct (skin_match p') as [[c' k']|] eqn:E; [|destruct Hi]. destruct (eqbP c' (lit "sightward")) as [|Hn]; [destruct Hi|]. destruct Hi as [Hi|[]].
      assert (c' = c /\ k' = k /\ p' = p) as (-> & -> & ->) by (repeat split; congruence). apply skin_match_Some in E. auto.
    - intros (Hp & Hf & Hn). exists p. split; [assumption|]. apply skin_match_Some in Hf. rewrite Hf. destruct (eqbP c (lit "sightward")); [contradiction|]. left. reflexivity.
  Qed.
  Definition skins_of (found : list (str * (str * str))) (c : str) : list str := set_of (map fst (map snd (filter (fun f => eqb (fst f) c) found))).
  Lemma skins_of_In found c k : In k (skins_of found c) <-> exists p, In (c, (k, p)) found.
  Proof. clear H other.
    unfold skins_of. rewrite set_of_In, map_map, in_map_iff. split.
    - intros ([c' [k' p]] & <- & Hf). apply filter_In in Hf as [Hf Ec]. cbn [fst snd] in *. destruct (eqbP c' c) as [->|]; [eauto | discriminate].
    - intros (p & Hp). exists (c, (k, p)). split; [reflexivity|]. apply filter_In. split; [assumption|]. cbn [fst]. destruct (eqbP c c); [reflexivity | congruence].
  Qed.
  Lemma skin_tries_In order found x : In x (skin_tries other order found) <->
    exists c k p ks, In (c, (k, p)) found /\ length ks = snd (skin_format p 0) /\ subseq ks (order (skins_of found c)) /\ x = pct other (fst (skin_format p 0)) (map PStr ks).
  Proof.
    unfold skin_tries. rewrite in_flat_map. split.
    - intros (c & Hc & Hx). apply in_flat_map in Hx as ([f n] & Hf & Hx). apply (proj1 (set_of_In _ _)), in_map_iff in Hf as ([k p] & E & Hf). apply in_map_iff in Hf as ([c' [k' p']] & E' & Hf). apply filter_In in Hf as [Hf Ec].
      cbn [fst snd] in *. destruct (eqbP c' c) as [->|]; [|discriminate]. assert (k' = k /\ p' = p) as [-> ->] by (split; congruence). apply in_map_iff in Hx as (ks & <- & Hk). apply combinations_In in Hk as [Hl Hs].
      exists c, k, p, ks. rewrite E. cbn [fst snd]. auto.
    - intros (c & k & p & ks & Hf & Hl & Hs & ->). exists c. split; [apply (proj2 (set_of_In _ _)), in_map_iff; exists (c, (k, p)); auto|].
      apply in_flat_map. exists (skin_format p 0). split.
      + apply (proj2 (set_of_In _ _)), in_map_iff. exists (k, p). split; [reflexivity|]. apply in_map_iff. exists (c, (k, p)). split; [reflexivity|]. apply filter_In. split; [assumption|]. cbn [fst]. destruct (eqbP c c); [reflexivity | congruence].
      + apply in_map_iff. exists ks. split; [reflexivity|]. apply combinations_In. auto.
  Qed.
  Lemma skins_spec order g : guesser_ok g -> (forall l, Permutation l (order l)) -> (forall p c k, In p (dvals (g_known g)) -> first_skin p c k -> ~ In 37 p) ->
    let skin_known c k := exists p, In p (dvals (g_known g)) /\ first_skin p c k in
    exists g', substitute_skin_numbers H other order g = (g', Ok tt) /\
      grows H (fun q => exists p c k ks, In p (dvals (g_known g)) /\ first_skin p c k /\ c <> lit "sightward" /\ filled p q ks /\ NoDup ks /\ Forall (skin_known c) ks) g g' /\
      forall p c k ks q, In p (dvals (g_known g)) -> first_skin p c k -> c <> lit "sightward" -> filled p q ks -> NoDup ks -> Forall (skin_known c) ks ->
        exists ks' q', Permutation ks ks' /\ filled p q' ks' /\ ~ In (H q') (g_unknown g').
  Proof.
    intros Hg Ho Hk skin_known. unfold substitute_skin_numbers. set (found := found_skins g). set (l := skin_tries other order found).
    assert (HO : forall x, In x l -> exists p, x = Ok p).
    { intros x Hx. apply skin_tries_In in Hx as (c & k & p & ks & Hf & Hl & _ & ->). apply found_skins_In in Hf as (Hp & Hs & _). destruct (format_total other p ks (Hk _ _ _ Hp Hs) Hl) as [q Hq]. eauto. }
    pose proof (check_gen_grows H l g Hg) as HG. destruct (check_gen_all H l g Hg HO) as [HE HT]. destruct (check_gen H l g) as [g' r]. cbn [fst snd] in *. subst r. exists g'. split; [reflexivity|].
    assert (HS : forall c k, In k (skins_of found c) -> skin_known c k).
    { intros c k Hi. apply skins_of_In in Hi as (p & Hi). apply found_skins_In in Hi as (Hp & Hs & _). exists p. auto. }
    split.
    - eapply grows_weaken; [|exact HG]. intros q Hq. apply skin_tries_In in Hq as (c & k & p & ks & Hf & Hl & Hs & E). apply found_skins_In in Hf as (Hp & Hfs & Hn).
      exists p, c, k, ks. split; [assumption|]. split; [assumption|]. split; [assumption|]. split; [apply (filled_format other); [eapply Hk; eassumption | auto]|]. split.
      + eapply subseq_nodup; [exact Hs|]. eapply Permutation_NoDup; [apply Ho|]. apply set_of_NoDup.
      + apply Forall_forall. intros k' Hk'. apply HS. eapply Permutation_in; [apply Permutation_sym, Ho|]. eapply subseq_of; eassumption.
    - intros p c k ks q Hp Hfs Hn Hfi Hnd Hall. pose proof (Hk _ _ _ Hp Hfs) as Hpl. apply (filled_format other p Hpl) in Hfi as [Hl _].
      set (all := order (skins_of found c)). set (ks' := filter (fun x => mem x ks) all).
      assert (HN : NoDup all) by (eapply Permutation_NoDup; [apply Ho | apply set_of_NoDup]).
      assert (HP : Permutation ks ks').
      { apply NoDup_Permutation; [assumption | apply NoDup_filter; assumption|]. intros x. unfold ks'. rewrite filter_In, mem_In. split; [|tauto]. intros Hx. split; [|assumption].
        eapply Permutation_in; [apply Ho|]. rewrite Forall_forall in Hall. destruct (Hall x Hx) as (p' & Hp' & Hf'). apply skins_of_In. exists p'. apply found_skins_In. auto. }
      assert (Hl' : length ks' = snd (skin_format p 0)) by (rewrite <- (Permutation_length HP); assumption).
      destruct (format_total other p ks' Hpl Hl') as [q' Hq']. exists ks', q'. split; [assumption|]. split; [apply (filled_format other p Hpl); auto|].
      apply HT. apply skin_tries_In. exists c, k, p, ks'. split; [apply found_skins_In; auto|]. split; [assumption|]. split; [apply subseq_filter|]. symmetry. assumption.
  Qed.

  Lemma characters_In g c : In c (get_characters g) <-> exists p, In p (dvals (g_known g)) /\ of_character p c.
  Proof. clear H other.
    unfold get_characters. rewrite (sorted_set_In (flat_map (fun p => match char_name p with Some c => [c] | None => [] end) (known g)) c), in_flat_map. split.
    - intros (p & Hp & Hi). destruct (char_name p) as [c'|] eqn:E; [|destruct Hi]. destruct Hi as [<-|[]]. exists p. split; [assumption | apply char_name_Some; assumption].
    - intros (p & Hp & Hc). exists p. split; [assumption|]. apply char_name_Some in Hc. rewrite Hc. left. reflexivity.
  Qed.
  Lemma skin_text_inj a b : skin_text a = skin_text b -> a = b.
  Proof. clear H other. unfold skin_text. intros E. apply app_inv_head in E. rewrite <- (dec_value a), <- (dec_value b), E. reflexivity. Qed.
  Lemma groups_In c (ns : list N) q : NoDup ns ->
    In q (group_paths c (py_sorted str_lt (map skin_text ns))) <-> exists l, l <> [] /\ (forall n, In n l -> In n ns) /\ StronglySorted slt (map skin_text l) /\ q = lit "data/" ++ c ++ concat (map skin_text l) ++ lit ".bin".
  Proof. clear H other.
    intros Hn. unfold group_paths. rewrite (nonempty_combinations (fun p => lit "data/" ++ c ++ concat p ++ lit ".bin")).
    assert (HS : StronglySorted slt (py_sorted str_lt (map skin_text ns))) by (apply str_sorted_strict, FinFun.Injective_map_NoDup; [intros a b; apply skin_text_inj | assumption]).
    assert (HI : forall t, In t (py_sorted str_lt (map skin_text ns)) <-> exists n, In n ns /\ t = skin_text n).
    { intros t. assert (HI : In t (py_sorted str_lt (map skin_text ns)) <-> In t (map skin_text ns)) by (split; apply Permutation_in; [apply Permutation_sym|]; apply py_sorted_perm).
      rewrite HI, in_map_iff. split; intros (n & H1 & H2); eauto. }
    split.
    - intros (x & Hx & Hs & ->). apply (sorted_subseq _ _ HS) in Hs as [Hs Hi].
      assert (HL : exists l, x = map skin_text l /\ forall n, In n l -> In n ns).
      { clear Hx Hs. induction x as [|t x IH]; [exists []; split; [reflexivity | intros n []]|]. destruct IH as (l & -> & Hl); [intros a Ha; apply Hi; right; assumption|].
        destruct (proj1 (HI t) (Hi t (or_introl eq_refl))) as (n & Hn' & ->). exists (n :: l). split; [reflexivity|]. intros m [<-|Hm]; auto. }
      destruct HL as (l & -> & Hl). exists l. split; [intros ->; apply Hx; reflexivity|]. auto.
    - intros (l & Hl & Hi & Hs & ->). exists (map skin_text l). split; [destruct l; [congruence | discriminate]|]. split; [|reflexivity]. apply (sorted_subseq _ _ HS). split; [assumption|].
      intros t Ht. apply in_map_iff in Ht as (n & <- & Hn'). apply HI. eauto.
  Qed.
  Lemma skin_groups_spec g : guesser_ok g ->
    explored H (fun q => exists c l, (exists p n, In p (dvals (g_known g)) /\ numbered_skin p c n) /\ c <> lit "sightward" /\ l <> [] /\
      (forall n, In n l -> n = 0 \/ exists p, In p (dvals (g_known g)) /\ numbered_skin p c n) /\ StronglySorted slt (map skin_text l) /\ q = lit "data/" ++ c ++ concat (map skin_text l) ++ lit ".bin") g (guess_skin_groups_bin H g).
  Proof. clear other.
    intros Hg. unfold guess_skin_groups_bin. set (found := flat_map _ (known g)).
    assert (HF : forall c n, In (c, n) found <-> (exists p, In p (dvals (g_known g)) /\ numbered_skin p c n) /\ c <> lit "sightward").
    { intros c n. unfold found. rewrite in_flat_map. split.
      - intros (p & Hp & Hi). destruct (skin_dir p) as [[c' n']|] eqn:E; [|destruct Hi]. destruct (eqbP c' (lit "sightward")) as [|Hn]; [destruct Hi|]. destruct Hi as [Hi|[]].
        assert (c' = c /\ n' = n) as [-> ->] by (split; congruence). apply skin_dir_Some in E. split; [eauto | assumption].
      - intros [(p & Hp & Hs) Hn]. exists p. split; [assumption|]. apply skin_dir_Some in Hs. rewrite Hs. destruct (eqbP c (lit "sightward")); [contradiction|]. left. reflexivity. }
    eapply explored_iff; [|apply explored_all; assumption]. intros q. cbv beta. rewrite in_flat_map.
    assert (HN : forall c n, In n (set_of (0 :: map snd (filter (fun f => eqb (fst f) c) found))) <-> n = 0 \/ In (c, n) found).
    { intros c n. rewrite (set_of_In n). cbn [In]. rewrite in_map_iff. split.
      - intros [<-|([c' n'] & <- & Hf)]; [auto|]. apply filter_In in Hf as [Hf Ec]. cbn [fst snd] in *. destruct (eqbP c' c) as [->|]; [auto | discriminate].
      - intros [->|Hf]; [auto|]. right. exists (c, n). split; [reflexivity|]. apply filter_In. split; [assumption|]. cbn [fst]. destruct (eqbP c c); [reflexivity | congruence]. }
    split.
    - intros (c & Hc & Hq). apply (proj1 (set_of_In _ _)), in_map_iff in Hc as ([c' n] & <- & Hf). cbn [fst] in *. apply groups_In in Hq as (l & Hl & Hi & Hs & ->); [|apply set_of_NoDup].
      pose proof (proj1 (HF _ _) Hf) as [(p & Hp & Hs') Hn]. exists c', l. split; [eauto|]. split; [assumption|]. split; [assumption|]. split; [|auto].
      intros m Hm. apply Hi, HN in Hm as [->|Hm]; [auto|]. right. apply HF in Hm as [Hm _]. assumption.
    - intros (c & l & (p & n & Hp & Hs') & Hn & Hl & Hi & Hs & ->). exists c. split; [apply (proj2 (set_of_In _ _)), in_map_iff; exists (c, n); split; [reflexivity | apply HF; eauto]|].
      apply groups_In; [apply set_of_NoDup|]. exists l. split; [assumption|]. split; [|auto]. intros m Hm. apply HN. destruct (Hi m Hm) as [->|Hm']; [auto|]. right. apply HF. auto.
  Qed.

  Definition sle (a b : str) : Prop := str_lt b a = false.
  Lemma sorted_concat (l names : list str) : Permutation names l -> StronglySorted sle names -> names = py_sorted str_lt l.
  Proof. clear H other.
    intros Hp Hs. apply (sorted_unique sle); [| assumption | apply str_sorted | eapply Permutation_trans; [exact Hp | apply py_sorted_perm]].
    intros a b _ _ H1 H2. unfold sle in *. destruct (str_lt_total a b) as [E|[E|E]]; congruence.
  Qed.
  Lemma rmapM_chars data : (exists d, In d data /\ splash_char (sk_path d) = None) \/
    exists found, rmapM (fun d => match splash_char (sk_path d) with Some c => Ok (c, group_names d) | None => Err AttributeError end) data = Ok found /\
      Forall2 (fun d f => splash_char (sk_path d) = Some (fst f) /\ snd f = group_names d) data found.
  Proof. clear H other.
    induction data as [|d data IH]; [right; exists []; split; [reflexivity | constructor]|].
    destruct (splash_char (sk_path d)) as [c|] eqn:E; [|left; exists d; split; [left; reflexivity | assumption]].
    destruct IH as [(d' & Hd & Hn)|(found & Ef & Hf)]; [left; exists d'; split; [right; assumption | assumption]|].
    right. exists ((c, group_names d) :: found). split; [cbn [rmapM]; rewrite E, Ef; reflexivity | constructor; auto].
  Qed.
  Lemma rmapM_chars_err data : (exists d, In d data /\ splash_char (sk_path d) = None) ->
    rmapM (fun d => match splash_char (sk_path d) with Some c => Ok (c, group_names d) | None => Err AttributeError end) data = Err AttributeError.
  Proof. clear H other.
    induction data as [|d data IH]; intros (d' & Hd & Hn); [destruct Hd|]. cbn [rmapM]. destruct Hd as [->|Hd]; [rewrite Hn; reflexivity|].
    destruct (splash_char (sk_path d)); [|reflexivity]. cbn [rbind]. rewrite IH by eauto. reflexivity.
  Qed.
  Lemma chromas_fail data g : (exists d, In d data /\ forall c r, part c -> sk_path d <> lit "/lol-game-data/assets/assets/characters/" ++ c ++ lit "/skins/" ++ r) -> guess_using_chromas H data g = (g, Err AttributeError).
  Proof. clear other.
    intros (d & Hd & Hn). unfold guess_using_chromas. rewrite rmapM_chars_err; [reflexivity|]. exists d. split; [assumption|]. destruct (splash_char (sk_path d)) as [c|] eqn:E; [|reflexivity].
    apply splash_char_Some in E as (Hc & r & E). destruct (Hn c r Hc E).
  Qed.
  Definition of_char (c : str) (d : skin_data) : Prop := part c /\ exists r, sk_path d = lit "/lol-game-data/assets/assets/characters/" ++ c ++ lit "/skins/" ++ r.
  Lemma chromas_spec data g : guesser_ok g -> (forall d, In d data -> exists c, of_char c d) ->
    exists g', guess_using_chromas H data g = (g', Ok tt) /\
    explored H (fun q => exists c groups root names, (exists d, In d data /\ of_char c d) /\ subseq groups data /\ Forall (of_char c) groups /\ (root = [] /\ groups <> [] \/ root = [lit "_skins_root"]) /\
      Permutation names (concat (map group_names groups) ++ root) /\ StronglySorted sle names /\ q = lit "data/" ++ c ++ concat names ++ lit ".bin") g g'.
  Proof. clear other.
    intros Hg Hd. unfold guess_using_chromas. destruct (rmapM_chars data) as [(d & Hi & Hn)|(found & -> & Hf)].
    { exfalso. destruct (Hd d Hi) as (c & Hc). apply splash_char_Some in Hc. congruence. }
    eexists. split; [reflexivity|]. eapply explored_iff; [|apply explored_all; assumption]. intros q. cbv beta. rewrite in_flat_map.
    assert (HC : forall c, In c (set_of (map fst found)) <-> exists d, In d data /\ of_char c d).
    { intros c. rewrite (set_of_In c). clear -Hf. induction Hf as [|d f data found [H1 H2] Hf IH]; cbn [map In]; [split; [intros [] | intros (? & [] & _)]|]. rewrite IH. split.
      - intros [<-|(d' & Hi & Hc)]; [exists d; split; [auto | apply splash_char_Some; assumption] | exists d'; auto].
      - intros (d' & [<-|Hi] & Hc); [left; apply splash_char_Some in Hc; congruence | right; eauto]. }
    assert (HM : forall c, map snd (filter (fun f => eqb (fst f) c) found) = map group_names (filter (fun d => match splash_char (sk_path d) with Some c' => eqb c' c | None => false end) data)).
    { intros c. clear -Hf. induction Hf as [|d f data found [H1 H2] Hf IH]; [reflexivity|]. cbn [filter]. rewrite H1. destruct (eqb (fst f) c); cbn [map]; [f_equal; assumption | assumption]. }
    assert (HO : forall c d, match splash_char (sk_path d) with Some c' => eqb c' c | None => false end = true <-> of_char c d).
    { intros c d. unfold of_char. rewrite <- splash_char_Some. destruct (splash_char (sk_path d)) as [c'|]; [|split; discriminate]. destruct (eqbP c' c) as [->|Hn]; split; congruence. }
    assert (HQ : forall c, In q (chroma_paths c (map snd (filter (fun f => eqb (fst f) c) found) ++ [[lit "_skins_root"]])) <->
      exists groups root names, subseq groups data /\ Forall (of_char c) groups /\ (root = [] /\ groups <> [] \/ root = [lit "_skins_root"]) /\
        Permutation names (concat (map group_names groups) ++ root) /\ StronglySorted sle names /\ q = lit "data/" ++ c ++ concat names ++ lit ".bin").
    { intros c. unfold chroma_paths. rewrite (nonempty_combinations (fun p => lit "data/" ++ c ++ concat (py_sorted str_lt (concat p)) ++ lit ".bin")). rewrite HM. split.
      - intros (x & Hx & Hs & ->). apply subseq_snoc in Hs as (y & Hy & Ex). apply subseq_of_map in Hy as (gs & Hy & ->). apply subseq_of_filter in Hy as [Hy Ha].
        assert (Ha' : Forall (of_char c) gs) by (eapply Forall_impl; [|exact Ha]; intros d; apply HO).
        destruct Ex as [->| ->].
        + exists gs, [], (py_sorted str_lt (concat (map group_names gs))). split; [assumption|]. split; [assumption|]. split; [left; split; [reflexivity | intros ->; apply Hx; reflexivity]|].
          split; [rewrite app_nil_r; apply Permutation_sym, py_sorted_perm|]. split; [apply str_sorted | reflexivity].
        + exists gs, [lit "_skins_root"], (py_sorted str_lt (concat (map group_names gs ++ [[lit "_skins_root"]]))). split; [assumption|]. split; [assumption|]. split; [auto|].
          split; [rewrite concat_app; cbn [concat]; rewrite app_nil_r; apply Permutation_sym, py_sorted_perm|]. split; [apply str_sorted | reflexivity].
      - intros (gs & root & names & Hs & Ha & Hr & Hp & Hso & ->).
        assert (Ha' : subseq (map group_names gs) (map group_names (filter (fun d => match splash_char (sk_path d) with Some c' => eqb c' c | None => false end) data))).
        { apply subseq_of_map. exists gs. split; [|reflexivity]. apply subseq_of_filter. split; [assumption|]. eapply Forall_impl; [|exact Ha]. intros d. apply HO. }
        destruct Hr as [[-> Hne]| ->].
        + exists (map group_names gs). split; [destruct gs; [congruence | discriminate]|]. split; [apply subseq_snoc; eauto|]. rewrite app_nil_r in Hp. rewrite (sorted_concat _ _ Hp Hso). reflexivity.
        + exists (map group_names gs ++ [[lit "_skins_root"]]). split; [destruct (map group_names gs); discriminate|]. split; [apply subseq_snoc; eauto|].
          rewrite concat_app. cbn [concat]. rewrite app_nil_r. rewrite (sorted_concat _ _ Hp Hso). reflexivity. }
    split.
    - intros (c & Hc & Hq). apply HC in Hc. apply HQ in Hq as (gs & root & names & Hr). exists c, gs, root, names. auto.
    - intros (c & gs & root & names & Hc & Hr). exists c. split; [apply HC; assumption|]. apply HQ. eauto.
  Qed.

  Lemma shaders_spec g : guesser_ok g ->
    explored H (fun q => exists p s v, In p (dvals (g_known g)) /\ shader p s /\ In v shader_variants /\ (q = s ++ v \/ exists n, n < 200 /\ q = s ++ v ++ lit "_" ++ dec (100 * n))) g (guess_shader_variants H g).
  Proof. clear other.
    intros Hg. unfold guess_shader_variants. eapply explored_iff; [|apply explored_all; assumption]. intros q. cbv beta. rewrite in_flat_map.
    assert (HS : forall s, In s (py_sorted str_lt (set_of (flat_map (fun p => match shader_path p with Some s => [s] | None => [] end) (known g)))) <-> exists p, In p (dvals (g_known g)) /\ shader p s).
    { intros s. rewrite (sorted_set_In _ s), in_flat_map. split.
      - intros (p & Hp & Hi). destruct (shader_path p) as [s'|] eqn:E; [|destruct Hi]. destruct Hi as [<-|[]]. exists p. split; [assumption | apply shader_path_Some; assumption].
      - intros (p & Hp & Hs). exists p. split; [assumption|]. apply shader_path_Some in Hs. rewrite Hs. left. reflexivity. }
    split.
    - intros (s & Hs & Hq). apply HS in Hs as (p & Hp & Hs). apply in_app_or in Hq as [Hq|Hq].
      + apply in_map_iff in Hq as (v & <- & Hv). exists p, s, v. auto 6.
      + apply in_flat_map in Hq as (v & Hv & Hq). apply in_map_iff in Hq as (n & <- & Hn). apply rangeN_In in Hn. exists p, s, v. split; [assumption|]. split; [assumption|]. split; [assumption|]. right. eauto.
    - intros (p & s & v & Hp & Hs & Hv & Hq). exists s. split; [apply HS; eauto|]. apply in_or_app. destruct Hq as [->|(n & Hn & ->)].
      + left. apply in_map_iff. eauto.
      + right. apply in_flat_map. exists v. split; [assumption|]. apply in_map_iff. exists n. split; [reflexivity | apply rangeN_In; assumption].
  Qed.

  Lemma replaced_png p q : replaced (eq (lit ".png")) (lit "_splash.png") p q <-> q = str_replace (lit ".png") (lit "_splash.png") p.
  Proof. clear H other.
    assert (HR : replaced (eq (lit ".png")) (lit "_splash.png") p (str_replace (lit ".png") (lit "_splash.png") p)) by (apply (str_replace_replaced (lit ".png") (lit "_splash.png")) with (n := length p); [discriminate | lia]).
    split; [|intros ->; assumption]. intros Hq. eapply (replaced_fun (eq (lit ".png"))); [intros o <-; discriminate | congruence | exact Hq | exact HR].
  Qed.
  Definition splash_of (paths : list str) (q : str) : Prop := exists p, In p paths /\ loot_splash (replaced (eq (lit ".png")) (lit "_splash.png")) p q.
  Lemma loot_start p : startswith p loot_icons = true <-> exists r, p = lit "plugins/rcp-fe-lol-loot/global/default/assets/loot_item_icons/" ++ r.
  Proof. clear H other. unfold loot_icons. apply startswith_iff. Qed.
  Lemma check_same q g : ~ In (H q) (g_unknown g) -> check H q g = g.
  Proof. clear other. intros Hn. unfold check. destruct (mem (H q) (g_unknown g)) eqn:E; [apply mem_In in E; contradiction | reflexivity]. Qed.
  Lemma check_found q g : guesser_ok g -> In (H q) (g_unknown g) -> length (g_known (check H q g)) = S (length (g_known g)).
  Proof. clear other.
    intros Hg Hi. unfold check. rewrite (proj2 (mem_In _ _) Hi). unfold add_known. cbn [g_known].
    destruct Hg as (_ & _ & Hd). rewrite dset_new by (apply Hd; assumption). rewrite app_length. cbn [length]. lia.
  Qed.
  Lemma splash_loop_none paths g : (forall q, splash_of paths q -> ~ In (H q) (g_unknown g)) -> splash_loop H paths (length (g_known g)) g = (g, Ok tt).
  Proof. clear other.
    induction paths as [|p t IH]; intros Hn; cbn [splash_loop]; rewrite Nat.eqb_refl; cbn [negb]; [reflexivity|].
    destruct (startswith p loot_icons) eqn:E.
    - rewrite check_same; [apply IH; intros q (p' & Hp & Hs); apply Hn; exists p'; split; [right; assumption | assumption]|]. apply Hn. exists p. split; [left; reflexivity|]. split; [apply loot_start; assumption | apply replaced_png; reflexivity].
    - apply IH. intros q (p' & Hp & Hs). apply Hn. exists p'. split; [right; assumption | assumption].
  Qed.
  Lemma splash_loop_some paths g : guesser_ok g -> (exists q, splash_of paths q /\ In (H q) (g_unknown g)) ->
    exists q, splash_of paths q /\ In (H q) (g_unknown g) /\ splash_loop H paths (length (g_known g)) g = (check H q g, Err RuntimeError).
  Proof. clear other.
    intros Hg. induction paths as [|p t IH]; intros (q & (p0 & Hp & Hs) & Hu); [destruct Hp|]. cbn [splash_loop]. rewrite Nat.eqb_refl. cbn [negb].
    assert (HW : (exists q, splash_of t q /\ In (H q) (g_unknown g)) -> (if startswith p loot_icons then check H (str_replace (lit ".png") (lit "_splash.png") p) g else g) = g ->
      exists q, splash_of (p :: t) q /\ In (H q) (g_unknown g) /\ splash_loop H t (length (g_known g)) (if startswith p loot_icons then check H (str_replace (lit ".png") (lit "_splash.png") p) g else g) = (check H q g, Err RuntimeError)).
    { intros He ->. destruct (IH He) as (q' & (p' & Hp' & Hs') & Hu' & E'). exists q'. split; [exists p'; split; [right; assumption | assumption]|]. auto. }
    destruct (startswith p loot_icons) eqn:E.
    - destruct (in_dec Z.eq_dec (H (str_replace (lit ".png") (lit "_splash.png") p)) (g_unknown g)) as [Hi|Hn].
      + exists (str_replace (lit ".png") (lit "_splash.png") p). split; [exists p; split; [left; reflexivity|]; split; [apply loot_start; assumption | apply replaced_png; reflexivity]|]. split; [assumption|].
        pose proof (check_found _ _ Hg Hi) as Hl. assert (Eq : Nat.eqb (length (g_known (check H (str_replace (lit ".png") (lit "_splash.png") p) g))) (length (g_known g)) = false) by (apply Nat.eqb_neq; lia).
        destruct t; cbn [splash_loop]; rewrite Eq; reflexivity.
      + apply HW; [|apply check_same; assumption]. destruct Hp as [<-|Hp]; [|exists q; split; [exists p0; auto | assumption]]. exfalso. apply Hn. destruct Hs as [_ Hs]. apply replaced_png in Hs as <-. assumption.
    - apply HW; [|reflexivity]. destruct Hp as [<-|Hp]; [|exists q; split; [exists p0; auto | assumption]]. exfalso. destruct Hs as [Hs _]. apply loot_start in Hs. congruence.
  Qed.

  Lemma primary_In i : In i perk_primary <-> primary i.
  Proof. clear H other.
    unfold perk_primary, primary. rewrite in_map_iff. split; intros (a & H1 & H2); exists a; [apply rangeN_In in H2 | split; [|apply rangeN_In]]; auto.
  Qed.
  Lemma perk_paths_In q : In q perk_paths <-> perk_path q.
  Proof. clear H other.
    unfold perk_paths, perk_path. rewrite in_flat_map.
    assert (HS : forall i j, In j (map (fun n => i + n) (rangeN 100)) <-> i <= j < i + 100).
    { intros i j. rewrite in_map_iff. split; [intros (n & <- & Hn); apply rangeN_In in Hn; lia|]. intros Hj. exists (j - i). split; [lia | apply rangeN_In; lia]. }
    split.
    - intros (i & Hi & Hq). apply primary_In in Hi. exists i. split; [assumption|]. apply in_app_or in Hq as [Hq|Hq].
      + left. apply in_flat_map in Hq as (j & Hj & Hq). apply in_map_iff in Hq as (k & <- & Hk). exists j, k. split; [destruct Hj as [<-|Hj]; [auto | right; apply primary_In; assumption]|].
        split; [destruct Hk as [<-|Hk]; [auto | right; apply HS; assumption] | reflexivity].
      + right. apply in_map_iff in Hq as (name & <- & Hn). exists name. split; [reflexivity|]. rewrite !in_app_iff, !in_map_iff in Hn. cbn [In] in Hn.
        destruct Hn as [[<-|[<-|[]]]|[(j & <- & Hj)|(j & <- & Hj)]]; [auto | auto | right; right; left; exists j; split; [apply HS; assumption | reflexivity] | right; right; right; exists j; split; [apply primary_In; assumption | reflexivity]].
    - intros (i & Hi & Hq). exists i. split; [apply primary_In; assumption|]. apply in_or_app. destruct Hq as [(j & k & Hj & Hk & ->)|(name & -> & Hn)].
      + left. apply in_flat_map. exists j. split; [destruct Hj as [->|Hj]; [left; reflexivity | right; apply primary_In; assumption]|]. apply in_map_iff. exists k. split; [reflexivity|]. destruct Hk as [->|Hk]; [left; reflexivity | right; apply HS; assumption].
      + right. apply in_map_iff. exists name. split; [reflexivity|]. rewrite !in_app_iff, !in_map_iff. cbn [In].
        destruct Hn as [->|[->|[(j & Hj & ->)|(j & Hj & ->)]]]; [auto | auto | right; left; exists j; split; [reflexivity | apply HS; assumption] | right; right; exists j; split; [reflexivity | apply primary_In; assumption]].
  Qed.
  Lemma lang_parts l : In l languages -> l = lang_part 0 l ++ lit "_" ++ lang_part 1 l /\ ~ In cUnder (lang_part 0 l).
  Proof. clear H other.
    intros Hl. assert (E : eqb l (lang_part 0 l ++ lit "_" ++ lang_part 1 l) && negb (mem cUnder (lang_part 0 l)) = true) by (revert l Hl; apply forallb_forall; vm_compute; reflexivity).
    apply andb_prop in E as [E1 E2]. split; [destruct (eqbP l (lang_part 0 l ++ lit "_" ++ lang_part 1 l)); [assumption | discriminate] | apply mem_false, negb_true_iff; assumption].
  Qed.
  Lemma lang_parts_of a b : In (a ++ lit "_" ++ b) languages -> ~ In cUnder a -> lang_part 0 (a ++ lit "_" ++ b) = a /\ lang_part 1 (a ++ lit "_" ++ b) = b.
  Proof. clear H other.
    intros Hl Ha. destruct (lang_parts _ Hl) as [E Hn]. assert (E1 : cut_first cUnder (a ++ lit "_" ++ b) = Some (a, b)) by (apply cut_first_app; assumption).
    assert (E2 : cut_first cUnder (a ++ lit "_" ++ b) = Some (lang_part 0 (a ++ lit "_" ++ b), lang_part 1 (a ++ lit "_" ++ b))) by (rewrite E at 1; apply cut_first_app; assumption).
    rewrite E1 in E2. split; congruence.
  Qed.
  Lemma sanitizer_In q : In q sanitizer_paths <-> sanitizer_path languages regions q.
  Proof. clear H other.
    unfold sanitizer_paths, sanitizer_path. rewrite in_map_iff.
    assert (HN : forall name, In name sanitizer_names <->
      ((exists i action, i < 5 /\ In action [lit "filter"; lit "unfilter"; lit "whitelist"] /\
       exists x, name = dec i ++ lit "." ++ action ++ x ++ lit ".csv" /\
         (x = [] \/ (exists r, In r regions /\ x = lit ".region." ++ r) \/ (exists l, In l languages /\ x = lit ".locale." ++ l) \/
          exists a b, In (a ++ lit "_" ++ b) languages /\ ~ In cUnder a /\ (x = lit ".language." ++ a \/ x = lit ".country." ++ b))) \/
     exists p, In p [lit "allowedchars"; lit "breakingchars"; lit "projectedchars"; lit "projectedchars1337"; lit "punctuationchars"; lit "variantaliases"] /\
       ((exists l, In l languages /\ name = p ++ lit ".locale." ++ l ++ lit ".txt") \/ exists a b, In (a ++ lit "_" ++ b) languages /\ ~ In cUnder a /\ name = p ++ lit ".language." ++ a ++ lit ".txt"))).
    { intros name. unfold sanitizer_names. rewrite in_app_iff. apply Morphisms_Prop.or_iff_morphism.
      - rewrite in_flat_map. split.
        + intros (i & Hi & Hq). apply rangeN_In in Hi. apply in_flat_map in Hq as (action & Ha & Hq). exists i, action. split; [assumption|]. split; [assumption|]. rewrite !in_app_iff, !in_map_iff in Hq. cbn [In] in Hq.
          destruct Hq as [[<-|[]]|[(l & <- & Hl)|[(l & <- & Hl)|[(r & <- & Hr)|(l & <- & Hl)]]]].
          * exists []. split; [rewrite <- !app_assoc; reflexivity | auto].
          * exists (lit ".language." ++ lang_part 0 l). split; [rewrite <- !app_assoc; reflexivity|]. right. right. right. destruct (lang_parts l Hl) as [E Hn]. exists (lang_part 0 l), (lang_part 1 l). rewrite <- E. auto.
          * exists (lit ".country." ++ lang_part 1 l). split; [rewrite <- !app_assoc; reflexivity|]. right. right. right. destruct (lang_parts l Hl) as [E Hn]. exists (lang_part 0 l), (lang_part 1 l). rewrite <- E. auto.
          * exists (lit ".region." ++ r). split; [rewrite <- !app_assoc; reflexivity | eauto 6].
          * exists (lit ".locale." ++ l). split; [rewrite <- !app_assoc; reflexivity | eauto 7].
        + intros (i & action & Hi & Ha & x & -> & Hx). exists i. split; [apply rangeN_In; assumption|]. apply in_flat_map. exists action. split; [assumption|]. rewrite !in_app_iff, !in_map_iff. cbn [In].
          destruct Hx as [->|[(r & Hr & ->)|[(l & Hl & ->)|(a & b & Hl & Hn & [->| ->])]]].
          * left. left. rewrite <- !app_assoc. reflexivity.
          * right. right. right. left. exists r. split; [rewrite <- !app_assoc; reflexivity | assumption].
          * right. right. right. right. exists l. split; [rewrite <- !app_assoc; reflexivity | assumption].
          * right. left. exists (a ++ lit "_" ++ b). split; [rewrite (proj1 (lang_parts_of _ _ Hl Hn)), <- !app_assoc; reflexivity | assumption].
          * right. right. left. exists (a ++ lit "_" ++ b). split; [rewrite (proj2 (lang_parts_of _ _ Hl Hn)), <- !app_assoc; reflexivity | assumption].
      - rewrite in_flat_map. split.
        + intros (p & Hp & Hq). exists p. split; [assumption|]. rewrite in_app_iff, !in_map_iff in Hq. destruct Hq as [(l & <- & Hl)|(l & <- & Hl)]; [left; eauto|]. right. destruct (lang_parts l Hl) as [E Hn]. exists (lang_part 0 l), (lang_part 1 l). rewrite <- E. auto.
        + intros (p & Hp & Hq). exists p. split; [assumption|]. rewrite in_app_iff, !in_map_iff. destruct Hq as [(l & Hl & ->)|(a & b & Hl & Hn & ->)]; [left; eauto|]. right. exists (a ++ lit "_" ++ b). split; [rewrite (proj1 (lang_parts_of _ _ Hl Hn)); reflexivity | assumption]. }
    split; intros (name & H1 & H2); exists name; [split; [congruence | apply HN; assumption] | split; [congruence | apply HN; assumption]].
  Qed.
End Guess.
