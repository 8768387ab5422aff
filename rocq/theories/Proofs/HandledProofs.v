(** * Proofs about the converters used to export patches *)

From Verif Require Import Base.Py Base.Text Base.Regex Base.PyFacts Base.TextFacts Base.PathFacts Model.Exporter Spec.TablesSpec Proofs.TablesProofs Spec.HandledSpec.

(** ** Regular expressions *)

Lemma eqb_str (a b : str) : eqb a b = true <-> a = b.
Proof. destruct (eqbP a b); split; congruence. Qed.

Lemma rmatch_lit a r : forall s, rmatch (rlit a ++ r) s = true <-> exists t, s = a ++ t /\ rmatch r t = true.
Proof.
  induction a as [|c a IH]; intros s; cbn [rlit map app].
  - split; [eauto | intros (t & -> & H); exact H].
  - change (map RChr a) with (rlit a). cbn [rmatch]. destruct s as [|x s].
    + split; [discriminate | intros (t & E & _); discriminate E].
    + rewrite andb_true_iff, N.eqb_eq, IH. split.
      * intros (-> & t & -> & H). exists t. auto.
      * intros (t & E & H). injection E as -> ->. eauto.
Qed.
Lemma rmatch_star r : forall s, rmatch (RStar :: r) s = true <-> exists b t, s = b ++ t /\ one_line b /\ rmatch r t = true.
Proof.
  induction s as [|x s IH]; cbn [rmatch] in *; rewrite orb_true_iff.
  - split; [intros [H|H]; [exists [], []; repeat split; [intros []|exact H] | discriminate H] | intros ([|y b] & t & E & _ & H); [cbn in E; subst t; auto | discriminate E]].
  - rewrite andb_true_iff, negb_true_iff, N.eqb_neq, IH. split.
    + intros [H|(Hx & b & t & -> & Hb & H)]; [exists [], (x :: s); repeat split; [intros [] | exact H]|].
      exists (x :: b), t. repeat split; [intros [E|E]; [exact (Hx E) | exact (Hb E)] | exact H].
    + intros ([|y b] & t & E & Hb & H); [cbn in E; subst t; auto|]. injection E as -> ->. right. split; [intros E; apply Hb; left; exact E|].
      exists b, t. repeat split; [intros E; apply Hb; right; exact E | exact H].
Qed.
Lemma rmatch_end s : rmatch [REnd] s = true <-> s = [] \/ s = [cNL].
Proof. cbn [rmatch]. rewrite andb_true_r, orb_true_iff, !eqb_str. reflexivity. Qed.
Lemma rsearch_iff r : forall s, rsearch r s = true <-> exists a t, s = a ++ t /\ rmatch r t = true.
Proof.
  unfold rsearch. induction s as [|x s IH]; cbn [rfind].
  - destruct (rmatch r []) eqn:E; split; try discriminate; [intros _; exists [], []; auto | intros _; reflexivity|].
    intros (a & t & Ea & H). symmetry in Ea. apply app_eq_nil in Ea as [_ ->]. congruence.
  - destruct (rmatch r (x :: s)) eqn:E; [split; [intros _; exists [], (x :: s); auto | reflexivity]|]. rewrite IH. split.
    + intros (a & t & -> & H). exists (x :: a), t. auto.
    + intros ([|y a] & t & Ea & H); [cbn in Ea; subst t; congruence|]. injection Ea as -> ->. eauto.
Qed.
Lemma ends_iff p q : ends p q <-> exists t, p = q ++ t /\ (t = [] \/ t = [cNL]).
Proof.
  unfold ends. split; [intros [-> | ->]; [exists []; rewrite app_nil_r | exists [cNL]]; auto | intros (t & -> & [-> | ->]); [left; apply app_nil_r | auto]].
Qed.
Lemma search_between p a b : rsearch (rlit a ++ [RStar] ++ rlit b ++ [REnd]) p = true <-> between p a b.
Proof.
  rewrite rsearch_iff. unfold between. split.
  - intros (x & t & -> & H). apply rmatch_lit in H as (t1 & -> & H). apply (rmatch_star (rlit b ++ [REnd])) in H as (m & t2 & -> & Hm & H). apply rmatch_lit in H as (t3 & -> & H). apply rmatch_end in H.
    exists x, m. split; [|exact Hm]. apply ends_iff. exists t3. rewrite <- !app_assoc. auto.
  - intros (x & m & H & Hm). apply ends_iff in H as (t & -> & H). exists x, (a ++ m ++ b ++ t). rewrite <- !app_assoc. split; [reflexivity|].
    apply rmatch_lit. eexists. split; [reflexivity|]. apply (rmatch_star (rlit b ++ [REnd])). exists m, (b ++ t). split; [reflexivity|]. split; [exact Hm|]. apply rmatch_lit. exists t. split; [reflexivity|]. apply rmatch_end. exact H.
Qed.
Lemma search_between2 p a b c : rsearch (rlit a ++ [RStar] ++ rlit b ++ [RStar] ++ rlit c ++ [REnd]) p = true <->
  exists x m n, ends p (x ++ a ++ m ++ b ++ n ++ c) /\ one_line m /\ one_line n.
Proof.
  rewrite rsearch_iff. split.
  - intros (x & t & -> & H). apply rmatch_lit in H as (t1 & -> & H). apply (rmatch_star (rlit b ++ [RStar] ++ rlit c ++ [REnd])) in H as (m & t2 & -> & Hm & H). apply rmatch_lit in H as (t3 & -> & H).
    apply (rmatch_star (rlit c ++ [REnd])) in H as (n & t4 & -> & Hn & H). apply rmatch_lit in H as (t5 & -> & H). apply rmatch_end in H.
    exists x, m, n. split; [|auto]. apply ends_iff. exists t5. rewrite <- !app_assoc. auto.
  - intros (x & m & n & H & Hm & Hn). apply ends_iff in H as (t & -> & H). exists x, (a ++ m ++ b ++ n ++ c ++ t). rewrite <- !app_assoc. split; [reflexivity|].
    apply rmatch_lit. eexists. split; [reflexivity|]. apply (rmatch_star (rlit b ++ [RStar] ++ rlit c ++ [REnd])). exists m, (b ++ n ++ c ++ t). split; [reflexivity|]. split; [exact Hm|].
    apply rmatch_lit. eexists. split; [reflexivity|]. apply (rmatch_star (rlit c ++ [REnd])). exists n, (c ++ t). split; [reflexivity|]. split; [exact Hn|]. apply rmatch_lit. exists t. split; [reflexivity|]. apply rmatch_end. exact H.
Qed.

(** ** Converters *)

Lemma ext_iff p x : ~ In cSlash x -> ~ In cDot x -> snd (splitext p) = cDot :: x <-> has_ext p (cDot :: x).
Proof.
  intros H1 H2. unfold has_ext. split.
  - intros E. destruct (splitext p) as [a e] eqn:Ep. cbn [snd] in E. subst e. apply splitext_dot in Ep as [-> Ep]. eauto.
  - intros (s & -> & Hs). rewrite splitext_stem by assumption. reflexivity.
Qed.
Lemma handled_iff c p : In c (raw_converters ++ [CopyConv]) -> is_handled c p = true <-> kind_path (kind_of c) p.
Proof.
  intros H. cbn [raw_converters app In] in H. destruct H as [<-|[<-|[<-|[<-|[<-|[<-|[<-|[<-|[]]]]]]]]]; cbn [is_handled kind_of kind_path].
  - rewrite mem_In. cbn [In]. assert (Hd : snd (splitext p) = lit ".dds" <-> has_ext p (lit ".dds")) by (apply (ext_iff p (lit "dds")); vm_compute; intuition discriminate).
    assert (Ht : snd (splitext p) = lit ".tga" <-> has_ext p (lit ".tga")) by (apply (ext_iff p (lit "tga")); vm_compute; intuition discriminate).
    rewrite <- Hd, <- Ht. intuition congruence.
  - apply endswith_iff.
  - unfold rsearch_any, atlas_regex. cbn [existsb]. rewrite orb_false_r, orb_true_iff, <- !search_between. reflexivity.
  - unfold rsearch_any, bin_regex. cbn [existsb]. rewrite orb_false_r, <- search_between. reflexivity.
  - apply endswith_iff.
  - unfold rsearch_any, rst_regex. cbn [existsb flat_map app]. rewrite !orb_true_iff. split.
    + intros [H|[H|[H|[H|H]]]]; [exists (lit ".txt") | exists (lit ".txt") | exists (lit ".stringtable") | exists (lit ".stringtable") | discriminate H]; (split; [auto|]);
        [left; apply search_between, H | right; apply search_between2, H | left; apply search_between, H | right; apply search_between2, H].
    + intros (ext & [-> | ->] & [H|H]); [left; apply search_between, H | right; left; apply search_between2, H | do 2 right; left; apply search_between, H | do 3 right; left; apply search_between2, H].
  - apply eqb_str.
  - split; auto.
Qed.
Lemma kinds_eq : kinds = map kind_of (raw_converters ++ [CopyConv]).
Proof. reflexivity. Qed.
Lemma get_converter_first : forall cs p, exists l1 l2, cs ++ [CopyConv] = l1 ++ get_converter cs p :: l2 /\ is_handled (get_converter cs p) p = true /\ forall x, In x l1 -> is_handled x p = false.
Proof.
  induction cs as [|c cs IH]; intros p; cbn [get_converter app]; [exists [], []; repeat split; intros x []|].
  destruct (is_handled c p) eqn:E; [exists [], (cs ++ [CopyConv]); repeat split; [exact E | intros x []]|].
  destruct (IH p) as (l1 & l2 & E1 & H1 & H2). exists (c :: l1), l2. rewrite E1. repeat split; [exact H1|]. intros x [<-|Hx]; auto.
Qed.
Lemma kind_used_get p : kind_used p (kind_of (get_converter raw_converters p)).
Proof.
  destruct (get_converter_first raw_converters p) as (l1 & l2 & E & H1 & H2). exists (map kind_of l1), (map kind_of l2). split; [rewrite kinds_eq, E, map_app; reflexivity|].
  split; [apply handled_iff; [rewrite E; apply in_elt | exact H1]|].
  intros k Hk. apply in_map_iff in Hk as (c & <- & Hc). rewrite <- handled_iff by (rewrite E; apply in_app_iff; auto). rewrite H2 by exact Hc. discriminate.
Qed.
Lemma kind_used_unique p k k' : kind_used p k -> kind_used p k' -> k = k'.
Proof.
  intros (b & a & E & H & Hn) (b' & a' & E' & H' & Hn'). rewrite E in E'. clear E. revert b' E' Hn'. induction b as [|x b IH]; intros [|x' b'] E' Hn'; cbn [app] in E'.
  - congruence.
  - injection E' as -> _. exfalso. apply (Hn' x'); [left; reflexivity | exact H].
  - injection E' as -> _. exfalso. apply (Hn k'); [left; reflexivity | exact H'].
  - injection E' as -> E'. eapply IH; [intros y Hy; apply Hn; right; exact Hy | exact E' | intros y Hy; apply Hn'; right; exact Hy].
Qed.
