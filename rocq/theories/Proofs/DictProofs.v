(** * Dictionaries built from a list of pairs: the last pair wins *)

From Verif Require Import Base.PyFacts Spec.DictSpec.

Lemma dict_of_last {K V} `{EqDec K} (h : K) (l : list (K * V)) : last_value h l (dget h (dict_of l)).
Proof.
  rewrite dict_of_get. rewrite <- (rev_involutive l) at 1. generalize (rev l) as r. clear l.
  induction r as [|[k v] r IH]; [cbn; constructor; intros v []|].
  cbn [dget rev]. destruct (eqbP h k) as [<-|Hk].
  - apply LV_some. intros w [].
  - destruct IH as [l Hn|pre w post Hp].
    + apply LV_none. intros w Hw. apply in_app_or in Hw as [Hw|[Hw|[]]]; [exact (Hn w Hw) | congruence].
    + rewrite <- app_assoc. cbn [app]. apply LV_some. intros u Hu.
      apply in_app_or in Hu as [Hu|[Hu|[]]]; [exact (Hp u Hu) | congruence].
Qed.
Lemma last_value_fun {A B} (h : A) (l : list (A * B)) x y : last_value h l x -> last_value h l y -> x = y.
Proof.
  intros Hx. destruct Hx as [l Hn|pre v post Hp]; intros Hy.
  - destruct Hy as [l Hn2|pre v post Hp]; [reflexivity|].
    exfalso. apply (Hn v). apply in_or_app. right. left. reflexivity.
  - remember (pre ++ (h, v) :: post) as l eqn:E. destruct Hy as [l Hn2|pre2 v2 post2 Hp2].
    + subst l. exfalso. apply (Hn2 v). apply in_or_app. right. left. reflexivity.
    + f_equal. revert pre2 E. induction pre as [|a pre IH]; intros [|b pre2] E; cbn [app] in E.
      * congruence.
      * injection E as _ E. exfalso. apply (Hp v2). rewrite <- E. apply in_or_app. right. left. reflexivity.
      * injection E as _ E. exfalso. apply (Hp2 v). rewrite E. apply in_or_app. right. left. reflexivity.
      * injection E as _ E. exact (IH pre2 E).
Qed.
