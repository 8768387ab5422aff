(** * C39, C40: order of the bundles and files of an element, and place of its files *)

From Coq Require Import Permutation Sorted.
From Verif Require Import Base.Py Base.Text Base.PyFacts Base.TextFacts Base.Fs Spec.FsSpec Base.FsFacts Model.Files Model.Rman Model.Patcher Proofs.PatcherBundleProofs.

(** The bundles are given to the threads by increasing identifiers.  The only list with None is the
    one of a manifest whose selected files all use a single bundle without identifier. *)
Theorem C40_order cwd sdir manif lower langs skip pl f ids pl' f' :
  run (bundle_ids cwd sdir manif lower langs skip) pl f = (Done ids, pl', f') ->
  ids = [None] \/ exists ns, ids = map Some ns /\ StronglySorted N.lt ns.
Proof.
  intros E. pose proof (ids_NoDup _ _ _ _ _ _ _ _ _ _ _ E) as Hnd. revert E. unfold bundle_ids. intros E.
  apply run_bind_done in E as (l1 & pl1 & f1 & _ & E). apply run_bind_done in E as (l2 & pl2 & f2 & _ & E).
  destruct (sort_ids (ids_of l2)) as [l3|e] eqn:Es; cbn [lift run] in E; [|discriminate].
  pose proof (f_equal (fun r => match r with (Done x, _, _) => x | _ => ids end) E) as E3. cbn in E3. subst l3. clear E.
  unfold sort_ids in Es. set (l := ids_of l2) in *. destruct (mem None l && (1 <? lenN l)) eqn:Ec; [discriminate|].
  injection Es as Es. pose proof (py_sorted_perm opt_lt l) as HP. rewrite Es in HP.
  destruct (mem None l) eqn:Em; cbn [andb] in Ec.
  - left. apply mem_In in Em. apply N.ltb_ge in Ec. destruct l as [|x [|y t]]; [destruct Em | | rewrite !lenN_cons in Ec; lia].
    destruct Em as [->|[]]. apply Permutation_length_1_inv in HP. exact HP.
  - right. assert (Hs : forall o, In o ids -> exists n, o = Some n).
    { intros [n|] Ho; [exists n; reflexivity|]. exfalso. apply (Permutation_in _ (Permutation_sym HP)) in Ho. apply mem_In in Ho. congruence. }
    assert (Hm : exists ns, ids = map Some ns).
    { clear -Hs. induction ids as [|o t IH]; [exists []; reflexivity|]. destruct (Hs o (or_introl eq_refl)) as [n ->].
      destruct IH as [ns ->]; [intros o Ho; apply Hs; right; exact Ho|]. exists (n :: ns). reflexivity. }
    destruct Hm as [ns ->]. exists ns. split; [reflexivity|].
    assert (Hl : exists ms, l = map Some ms).
    { clear -Em. induction l as [|o t IH]; [exists []; reflexivity|]. cbn [mem existsb] in Em. destruct o as [n|]; [|cbn in Em; discriminate].
      destruct IH as [ms ->]; [exact Em|]. exists (n :: ms). reflexivity. }
    destruct Hl as [ms El]. assert (Ens : ns = py_sorted N.ltb ms).
    { assert (Hi : forall x t, insert_sorted opt_lt (Some x) (map Some t) = map Some (insert_sorted N.ltb x t)).
      { intros x t. induction t as [|y t IH]; [reflexivity|]. cbn [map insert_sorted opt_lt]. destruct (y <? x); [rewrite IH|]; reflexivity. }
      assert (Hp : forall t, py_sorted opt_lt (map Some t) = map Some (py_sorted N.ltb t)).
      { induction t as [|y t IH]; [reflexivity|]. cbn [map py_sorted fold_right]. fold (py_sorted opt_lt (map Some t)). fold (py_sorted N.ltb t). rewrite IH. apply Hi. }
      rewrite El, Hp in Es. clear -Es. revert Es. generalize (py_sorted N.ltb ms). intros l E. revert ns E. induction l as [|x l IH]; intros [|y ns] E; try discriminate; [reflexivity|].
      injection E as -> E. f_equal. apply IH. exact E. }
    assert (HS : StronglySorted (nlt_rev N.ltb) ns).
    { rewrite Ens. apply py_sorted_sorted; intros; rewrite ?N.ltb_lt, ?N.ltb_ge in *; lia. }
    apply NoDup_map_inv in Hnd. clear -HS Hnd. induction HS as [|x t _ IH HF]; constructor.
    + apply IH. inversion Hnd. assumption.
    + apply Forall_forall. intros y Hy. rewrite Forall_forall in HF. specialize (HF y Hy). unfold nlt_rev in HF. apply N.ltb_ge in HF.
      inversion Hnd as [|? ? Hx]; subst. assert (x <> y) by (intros ->; contradiction). lia.
Qed.
Print Assumptions C40_order.

(** The selected files are extracted by increasing names, each of them once. *)
Theorem C39_order l r : sort_files l = Ok r ->
  Permutation r l /\ StronglySorted (fun a b => forall x y, f_name a = Some x -> f_name b = Some y -> x = y \/ str_lt x y = true) r.
Proof.
  unfold sort_files. destruct (existsb _ l && (1 <? lenN l)) eqn:Ec; [discriminate|]. intros [= <-].
  split; [symmetry; apply py_sorted_perm|]. apply andb_false_iff in Ec as [Ec|Ec].
  - set (lt' := fun a b : mfile => str_lt match f_name a with Some x => x | None => [] end match f_name b with Some x => x | None => [] end).
    assert (Hi : forall x t, f_name x <> None -> Forall (fun m => f_name m <> None) t -> insert_sorted name_lt x t = insert_sorted lt' x t).
    { intros x t Hx. induction t as [|y t IH]; intros Ht; [reflexivity|]. inversion_clear Ht as [|? ? Hy Ht']. cbn [insert_sorted].
      replace (name_lt y x) with (lt' y x); [rewrite IH by exact Ht'; reflexivity|]. unfold name_lt, lt'. destruct (f_name y), (f_name x); congruence. }
    assert (Hn : Forall (fun m => f_name m <> None) l).
    { apply Forall_forall. intros m Hm En. apply not_true_iff_false in Ec. apply Ec. apply existsb_exists. exists m. rewrite En. auto. }
    assert (Hp : py_sorted name_lt l = py_sorted lt' l).
    { clear Ec. induction Hn as [|x t Hx Ht IH]; [reflexivity|]. cbn [py_sorted fold_right]. fold (py_sorted name_lt t). fold (py_sorted lt' t). rewrite IH.
      apply Hi; [exact Hx|]. eapply Permutation_Forall; [apply py_sorted_perm | exact Ht]. }
    rewrite Hp. assert (HS : StronglySorted (nlt_rev lt') (py_sorted lt' l)).
    { apply py_sorted_sorted; unfold lt'; intros a b; generalize (match f_name a with Some x => x | None => [] end) (match f_name b with Some x => x | None => [] end).
      - intros x y H. apply not_true_is_false. intros H'. pose proof (str_lt_trans _ _ _ H H') as Hxx. rewrite str_lt_irrefl in Hxx. discriminate.
      - intros x y c. generalize (match f_name c with Some x => x | None => [] end). intros z H1 H2. apply not_true_is_false. intros H3.
        destruct (str_lt_total x y) as [H|[->|H]]; [congruence | congruence|]. pose proof (str_lt_trans _ _ _ H H3). congruence. }
    clear -HS. induction HS as [|x t _ IH HF]; constructor; [exact IH|]. eapply Forall_impl; [|exact HF]. intros y Hy a b Ea Eb. unfold nlt_rev, lt' in Hy. rewrite Ea, Eb in Hy.
    destruct (str_lt_total a b) as [H|[H|H]]; auto. congruence.
  - apply N.ltb_ge in Ec. destruct l as [|x [|y t]]; [constructor | repeat constructor | rewrite !lenN_cons in Ec; lia].
Qed.
Print Assumptions C39_order.

(** A file is extracted below the directory [files] of the release, under its own name. *)
Theorem C39_place cwd sdir m n : sdir <> [] -> f_name m = Some n ->
  target cwd (extract_path sdir m) = rev (comps n) ++ lit "files" :: target cwd sdir.
Proof.
  intros Hs En. unfold extract_path. rewrite En. unfold target.
  replace (sdir ++ lit "/files/" ++ n) with (sdir ++ cSlash :: (lit "files" ++ cSlash :: n)) by (cbn; reflexivity).
  rewrite !comps_app. replace (is_abs (sdir ++ cSlash :: _)) with (is_abs sdir) by (destruct sdir; [congruence | reflexivity]).
  rewrite !rev_app_distr. change (rev (comps (lit "files"))) with [lit "files"]. rewrite <- !app_assoc. reflexivity.
Qed.
Print Assumptions C39_place.

(** *** Examples *)

Local Definition ck (b : N) : chunk := {| c_id := Some b; c_bundle := Some b; c_offset := 0; c_size := Some 3; c_target := None |}.
Local Definition mf (name : String.string) (cs : list chunk) : mfile := {| f_name := Some (lit name); Rman.f_size := Some 3; f_link := None; f_flags := None; f_chunks := cs |}.
Arguments mf name%string_scope cs.
Local Definition files : list mfile := [mf "d/c" [ck 179; ck 20]; mf "b" [ck 178; ck 179]; mf "a" [ck 1000]].
Local Definition man : manifest := {| m_bundles := []; m_chunks := []; m_flags := []; m_files := map (fun m => (Rman.f_name m, m)) files |}.
Example C40_order_ex : run (bundle_ids [lit "w"] (lit "s") man (fun s => s) LTrue false) [] [] = (Done [Some 20; Some 178; Some 179; Some 1000], [], []).
Proof. vm_compute. reflexivity. Qed.
Example C39_order_ex : match sort_files files with Ok r => map f_name r | Err _ => [] end = [Some (lit "a"); Some (lit "b"); Some (lit "d/c")].
Proof. vm_compute. reflexivity. Qed.
Example C39_place_ex : target [lit "w"] (extract_path (lit "s/pbe/5") (mf "d/c" [])) = [lit "c"; lit "d"; lit "files"; lit "5"; lit "pbe"; lit "s"; lit "w"].
Proof. vm_compute. reflexivity. Qed.
