(** * C18: the split of a node is the best admissible cut

    Exact arithmetic (the reals), positive weights. *)

Require Import List Arith Lia NArith Reals Lra Sorted Permutation.
Require Import Verif.Base Verif.Num Verif.M_Bitarray Verif.P_Bitarray Verif.M_Utils Verif.M_Impurity
  Verif.M_Context Verif.M_Node Verif.M_Split Verif.M_Grow Verif.P_Utils Verif.P_List Verif.P_Task Verif.P_Node
  Verif.P_Bins Verif.P_Scan Verif.P_Split Verif.P_Find Verif.S_Impurity Verif.P_Impurity
  Verif.S_Fit Verif.P_Fit Verif.S_Node Verif.S_Split Verif.P_SplitR Verif.P_SplitTasks Verif.P_Cuts
  Verif.Ex_Data Verif.Ex_Valid Verif.Ex_R.
Import ListNotations.
Local Open Scope res_scope.

(** ** Classification *)

Theorem C18_classification : forall (E : env R_arith) K dirichlet crit st p fb y train0 valid0 weights tc,
  good_env E -> sorts E -> valid_fit p fb y train0 valid0 weights -> positive_weights weights ->
  valid_labels K st (tp_is_categorical p) y -> (0 <= dirichlet)%R ->
  init_tree_context (clf_task E K dirichlet crit st) p fb y weights = Ok tc ->
  (* any node: any samples, any tried features, any state of the generator *)
  forall features train valid s, features <> [] -> (forall j, In j features -> j < fb_n_features fb) ->
  train <> [] -> (forall i, In i train -> i < fb_n_samples fb) -> (forall i, In i valid -> i < fb_n_samples fb) ->
  (tp_aggregation p = true -> valid <> []) ->
  exists nc sp s',
    node_stats (clf_task E K dirichlet crit st) tc features train valid = Ok nc /\
    find_node_split (clf_task E K dirichlet crit st) tc nc s = Ok (sp, s') /\
    let impurity := clf_impurity weights crit K y in
    let good := at_least_as_good fb weights (tp_min_samples_leaf p) (tp_aggregation p) train valid impurity sp in
    (sp_found sp = true ->
       describes_its_cut fb (tp_is_categorical p) weights (tp_min_samples_leaf p) (tp_aggregation p)
         features train valid impurity sp) /\
    (* no threshold on a tried continuous feature is better *)
    (forall j t, In j features -> nth_error (tp_is_categorical p) j = Some false ->
       bin_present fb j train t -> good j (fun b => b <=? t)) /\
    (* on a tried categorical feature, no initial part of the bins sorted by the proportion of
       a class is better *)
    (forall j, In j features -> nth_error (tp_is_categorical p) j = Some true ->
       (exists t, bin_present fb j train t /\ exists t', bin_present fb j train t' /\ t <> t') ->
       exists ks, ordering_classes st K ks /\
       forall k, In k ks -> exists order, sorted_bins fb j train (class_proportion fb weights y train j k) order /\
       forall q r, order = q ++ r -> good j (bins_in q)).
Proof.
  intros E K d crit st p fb y train0 valid0 weights tc HE HS V HW HL Hd Htc features train valid s Hne Hf Hnt Ht Hv Hagg.
  destruct (clf_labels_ok E K d crit st _ y HE HL) as [Hy Hc].
  destruct (valid_data_ok (clf_shape E K d crit st) p fb y train0 valid0 weights tc V Hy Hc Htc)
    as (HD & Efb & Ey & Ew & _ & _ & Emsl & _ & Eag & _ & Ecat).
  pose proof (vf_msl _ _ _ _ _ _ V) as Hmsl. pose proof (vf_w _ _ _ _ _ _ V) as Hlw.
  rewrite <- Emsl in *. rewrite <- Eag in *. rewrite <- Ecat in *. clear Htc V.
  subst fb. subst weights.
  assert (Hir : in_range tc train) by exact Ht. assert (Hiv : in_range tc valid) by exact Hv.
  assert (Hwp : forall i, In i train -> (0 < wt tc i)%R).
  { intros i Hi. unfold wt. apply HW. apply nth_In. rewrite Hlw. auto. }
  pose proof (node_stats_spec (clf_shape E K d crit st) tc HD features train valid Hne Hf Hir Hiv) as Hns.
  rewrite clf_pred_end in Hns.
  2:{ unfold pred_spec. cbn [ts_pred clf_shape]. unfold clf_pred. rewrite map_length, seq_length. auto. }
  assert (Hpos : (0 < Rsum (map (wt tc) train))%R) by (apply Rsum_pos; auto).
  rewrite asum_R in Hns.
  assert (Hz : aisz (aadd (Rsum (map (wt tc) train)) (amul (aofnat K) d) : num R_arith) = false).
  { apply aisz_R_false. assert (0 <= INR K * d)%R by (apply Rmult_le_pos; [apply pos_INR|auto]).
    change (Rsum (map (wt tc) train) + INR K * d <> 0)%R. lra. }
  rewrite Hz, Bool.andb_false_r in Hns. cbn [bind] in Hns.
  eexists. 
  assert (Himp : forall l, clf_impurity (tc_weights tc) crit K y l = clf_imp K d crit st tc l).
  { intro l. unfold clf_impurity, clf_imp, class_weights, cw. rewrite <- Ey.
    assert (EC : map (fun k : nat => total_weight (tc_weights tc) (of_class (tc_y tc) k l)) (seq 0 K) =
      map (fun k => Rsum (map (wt tc) (filter (fun i => lab (clf_shape E K d crit st) tc i =? k) l))) (seq 0 K)).
    { apply map_ext. intro k. unfold total_weight. rewrite asum_R. reflexivity. }
    rewrite EC. reflexivity. }
  destruct (best_split_cuts (clf_shape E K d crit st) tc HD train valid Hir Hiv features Hf Hagg Hmsl (clf_impurity (tc_weights tc) crit K y))
    with (s := s) (p := map (fun x => @adiv R_arith (aadd x d) (aadd (Rsum (map (wt tc) train)) (amul (aofnat K) d)))
            (pred_spec (clf_shape E K d crit st) tc train)) as (sp & s' & os & H1 & H2 & H3 & H4 & H5).
  { intros j o q Hj Ho H. rewrite !Himp. apply clf_imp_of; auto. }
  exists sp, s'. split; [exact Hns|]. split; [exact H1|]. cbv zeta. split; [exact H3|].
  assert (Hcat : forall j b, nth_error (tc_is_categorical tc) j = Some b -> cat tc j = b).
  { intros j b Hj. unfold cat. apply nth_error_nth. auto. }
  split.
  - intros j t Hin Hj Hp. apply H4; auto.
  - intros j Hin Hj (t & Pt & t' & Pt' & Hneq). apply Hcat in Hj.
    pose proof (many_bins tc train j t t' Pt Pt' Hneq) as H12.
    destruct (tried_all (clf_shape E K d crit st) tc train features s os s' H2 j Hin) as (s1 & oj & s2 & Ho & Hall).
    destruct (clf_orders_sorted K d crit st tc HD train Hir HE HS s1 j oj s2 (Hf j Hin) Hj H12 Ho) as (ks & Hks & Hsort).
    exists ks. split; auto. intros k Hk. destruct (Hsort k Hk) as (o & Ho1 & Ho2).
    exists o. apply (H5 j o (class_proportion (tc_fb tc) (tc_weights tc) y train j k)); auto.
    eapply StronglySorted_ext_in; [|exact Ho2]. intros b b' _ _ Hle.
    unfold class_proportion, total_weight. rewrite !asum_R, <- Ey. exact Hle.
Qed.
Print Assumptions C18_classification.

(** ** Regression *)

Theorem C18_regression : forall (E : env R_arith) p fb y train0 valid0 weights tc,
  good_env E -> sorts E -> valid_fit p fb y train0 valid0 weights -> positive_weights weights ->
  init_tree_context (reg_task E) p fb y weights = Ok tc ->
  forall features train valid s, features <> [] -> (forall j, In j features -> j < fb_n_features fb) ->
  train <> [] -> (forall i, In i train -> i < fb_n_samples fb) -> (forall i, In i valid -> i < fb_n_samples fb) ->
  (tp_aggregation p = true -> valid <> []) ->
  exists nc sp s',
    node_stats (reg_task E) tc features train valid = Ok nc /\
    find_node_split (reg_task E) tc nc s = Ok (sp, s') /\
    let impurity := reg_impurity weights y in
    let good := at_least_as_good fb weights (tp_min_samples_leaf p) (tp_aggregation p) train valid impurity sp in
    (sp_found sp = true ->
       describes_its_cut fb (tp_is_categorical p) weights (tp_min_samples_leaf p) (tp_aggregation p)
         features train valid impurity sp) /\
    (forall j t, In j features -> nth_error (tp_is_categorical p) j = Some false ->
       bin_present fb j train t -> good j (fun b => b <=? t)) /\
    (* categorical features: bins sorted by the sum of the labels *)
    (forall j, In j features -> nth_error (tp_is_categorical p) j = Some true ->
       (exists t, bin_present fb j train t /\ exists t', bin_present fb j train t' /\ t <> t') ->
       exists order, sorted_bins fb j train (bin_label_sum fb weights y train j) order /\
       forall q r, order = q ++ r -> good j (bins_in q)).
Proof.
  intros E p fb y train0 valid0 weights tc HE HS V HW Htc features train valid s Hne Hf Hnt Ht Hv Hagg.
  destruct (reg_labels_ok E (tp_is_categorical p) y HE) as [Hy Hc].
  destruct (valid_data_ok (reg_shape E) p fb y train0 valid0 weights tc V Hy Hc Htc)
    as (HD & Efb & Ey & Ew & _ & _ & Emsl & _ & Eag & _ & Ecat).
  pose proof (vf_msl _ _ _ _ _ _ V) as Hmsl. pose proof (vf_w _ _ _ _ _ _ V) as Hlw.
  rewrite <- Emsl in *. rewrite <- Eag in *. rewrite <- Ecat in *. clear Htc V.
  subst fb. subst weights.
  assert (Hir : in_range tc train) by exact Ht. assert (Hiv : in_range tc valid) by exact Hv.
  assert (Hwp : forall i, In i train -> (0 < wt tc i)%R).
  { intros i Hi. unfold wt. apply HW. apply nth_In. rewrite Hlw. auto. }
  pose proof (node_stats_spec (reg_shape E) tc HD features train valid Hne Hf Hir Hiv) as Hns.
  cbn [tk_pred_end reg_task] in Hns. unfold divM in Hns.
  assert (Hpos : (0 < Rsum (map (wt tc) train))%R) by (apply Rsum_pos; auto).
  rewrite asum_R in Hns.
  assert (Hz : aisz (Rsum (map (wt tc) train) : num R_arith) = false).
  { apply aisz_R_false. lra. }
  rewrite Hz in Hns. cbn [bind] in Hns.
  eexists.
  assert (Himp : forall l, reg_impurity (tc_weights tc) y l = reg_imp tc l).
  { intro l. unfold reg_impurity, reg_imp, rpairs. rewrite <- Ey. reflexivity. }
  destruct (best_split_cuts (reg_shape E) tc HD train valid Hir Hiv features Hf Hagg Hmsl (reg_impurity (tc_weights tc) y))
    with (s := s) (p := @adiv R_arith (pred_spec (reg_shape E) tc train) (Rsum (map (wt tc) train))) as (sp & s' & os & H1 & H2 & H3 & H4 & H5).
  { intros j o q Hj Ho H. rewrite !Himp. apply reg_imp_of; auto. }
  exists sp, s'. split; [exact Hns|]. split; [exact H1|]. cbv zeta. split; [exact H3|].
  assert (Hcat : forall j b, nth_error (tc_is_categorical tc) j = Some b -> cat tc j = b).
  { intros j b Hj. unfold cat. apply nth_error_nth. auto. }
  split.
  - intros j t Hin Hj Hp. apply H4; auto.
  - intros j Hin Hj (t & Pt & t' & Pt' & Hneq). apply Hcat in Hj.
    pose proof (many_bins tc train j t t' Pt Pt' Hneq) as H12.
    destruct (tried_all (reg_shape E) tc train features s os s' H2 j Hin) as (s1 & oj & s2 & Ho & Hall).
    destruct (reg_orders_sorted tc HD train Hir HE HS s1 j oj s2 (Hf j Hin) Hj H12 Ho) as (o & Ho1 & Ho2).
    exists o. apply (H5 j o (bin_label_sum (tc_fb tc) (tc_weights tc) y train j)); auto.
    eapply StronglySorted_ext_in; [|exact Ho2]. intros b b' _ _ Hle.
    unfold bin_label_sum, label_sum. rewrite !asum_R, <- Ey. exact Hle.
Qed.
Print Assumptions C18_regression.

(** ** The hypotheses are met, and a split is found on the example data *)

Lemma ex_cut : admissible_cut ex_fb 1 true ex_train ex_valid 0 (fun b => b <=? 0) /\
  bin_present ex_fb 0 ex_train 0.
Proof.
  split; [vm_compute; repeat split; lia|]. exists 0. split; [simpl; auto|reflexivity].
Qed.

(** The categorical feature has several bins, and its cuts can be admissible. *)
Lemma ex_cat_cut : bin_present ex_fb 1 ex_train 0 /\ bin_present ex_fb 1 ex_train 1 /\
  admissible_cut ex_fb 1 true ex_train ex_valid 1 (bins_in [1]).
Proof.
  split; [exists 4; split; [simpl; auto|reflexivity]|]. split; [exists 2; split; [simpl; auto|reflexivity]|].
  vm_compute. repeat split; lia.
Qed.

Example C18_classification_applies : exists tc nc sp s',
  init_tree_context (clf_task env_R 3 (/ 2)%R Gini AllMods) (exR_params true 2) ex_fb ex_labels exR_w = Ok tc /\
  node_stats (clf_task env_R 3 (/ 2)%R Gini AllMods) tc [0; 1] ex_train ex_valid = Ok nc /\
  find_node_split (clf_task env_R 3 (/ 2)%R Gini AllMods) tc nc 5 = Ok (sp, s') /\ sp_found sp = true.
Proof.
  destruct (init_tree_context_ok (tk := clf_task env_R 3 (/ 2)%R Gini AllMods) (exR_params true 2) ex_fb ex_labels ex_train ex_valid exR_w)
    as (mb & _ & Hi).
  { apply exR_valid_fit; [reflexivity|lia]. }
  match type of Hi with _ = Ok ?t => remember t as tc eqn:Etc; clear Etc end.
  exists tc. destruct (C18_classification env_R 3 (/ 2)%R Gini AllMods (exR_params true 2) ex_fb ex_labels ex_train ex_valid exR_w tc)
    with (features := [0; 1]) (train := ex_train) (valid := ex_valid) (s := 5) as (nc & sp & s' & H1 & H2 & H3 & H4 & H5);
    try exact Hi; auto using env_R_good, env_R_sorts, exR_positive;
    try (apply exR_valid_fit; [reflexivity|lia]); try exact (exR_valid_labels true 2); try lra; try discriminate;
    try (intros H; discriminate H);
    try (destruct ex_fb_packed as (_ & Hns & Hnf); rewrite ?Hns, ?Hnf; unfold ex_train, ex_valid; simpl; lia).
  - exists nc, sp, s'. split; [exact Hi|]. split; [exact H1|]. split; [exact H2|].
    destruct ex_cut as [C1 C2]. apply (H4 0 0); simpl; auto.
Qed.

Example C18_regression_applies : exists tc nc sp s',
  init_tree_context (reg_task env_R) (exR_params true 2) ex_fb exR_y exR_w = Ok tc /\
  node_stats (reg_task env_R) tc [0; 1] ex_train ex_valid = Ok nc /\
  find_node_split (reg_task env_R) tc nc 5 = Ok (sp, s') /\ sp_found sp = true.
Proof.
  destruct (init_tree_context_ok (tk := reg_task env_R) (exR_params true 2) ex_fb exR_y ex_train ex_valid exR_w)
    as (mb & _ & Hi).
  { apply exR_valid_fit; [reflexivity|lia]. }
  match type of Hi with _ = Ok ?t => remember t as tc eqn:Etc; clear Etc end.
  exists tc. destruct (C18_regression env_R (exR_params true 2) ex_fb exR_y ex_train ex_valid exR_w tc)
    with (features := [0; 1]) (train := ex_train) (valid := ex_valid) (s := 5) as (nc & sp & s' & H1 & H2 & H3 & H4 & H5);
    try exact Hi; auto using env_R_good, env_R_sorts, exR_positive;
    try (apply exR_valid_fit; [reflexivity|lia]); try exact (exR_valid_labels true 2); try lra; try discriminate;
    try (intros H; discriminate H);
    try (destruct ex_fb_packed as (_ & Hns & Hnf); rewrite ?Hns, ?Hnf; unfold ex_train, ex_valid; simpl; lia).
  - exists nc, sp, s'. split; [exact Hi|]. split; [exact H1|]. split; [exact H2|].
    destruct ex_cut as [C1 C2]. apply (H4 0 0); simpl; auto.
Qed.
