(** * C47: weight k is the same as k copies (exact arithmetic) *)

Require Import List Arith Lia NArith Reals Lra Permutation Sorted QArith Qreals.
Require Import Verif.Base Verif.Num Verif.M_Bitarray Verif.P_Bitarray Verif.M_Utils Verif.M_Impurity
  Verif.M_Context Verif.M_Node Verif.M_Split Verif.M_Tree Verif.M_Grow Verif.P_Utils Verif.P_List Verif.P_Task Verif.P_Node
  Verif.P_Split Verif.P_Find Verif.P_Tree Verif.P_Grow Verif.P_Route Verif.S_Fit Verif.P_Fit Verif.P_FitTree Verif.S_Node Verif.S_Tree
  Verif.P_Nodes Verif.S_Impurity Verif.S_Split Verif.T_GrowR Verif.S_Repeat Verif.P_Repeat Verif.Ex_Data Verif.Ex_Valid Verif.Ex_R.
Import ListNotations.
Local Open Scope nat_scope.
Local Open Scope list_scope.
Local Open Scope res_scope.

(** ** Nodes *)

(** Whatever the parameters (they may differ, except for the aggregation), the statistics
    of a node are the same: weights, prediction, loss, and, for each tried feature, weights
    and class weights of each bin; and so are the impurities and the gain of every cut. *)
Theorem C47_classification : forall (E : env R_arith) K dirichlet crit st p p' fb fb' y y' weights weights' train0 valid0 train0' valid0' tc tc',
  valid_fit p fb y train0 valid0 weights -> valid_fit p' fb' y' train0' valid0' weights' ->
  good_env E -> valid_labels K st (tp_is_categorical p) y -> valid_labels K st (tp_is_categorical p') y' ->
  fb_max_values fb' = fb_max_values fb -> tp_aggregation p' = tp_aggregation p ->
  init_tree_context (clf_task E K dirichlet crit st) p fb y weights = Ok tc ->
  init_tree_context (clf_task E K dirichlet crit st) p' fb' y' weights' = Ok tc' ->
  forall orig times, integer_weights times weights -> unit_weights weights' ->
  (* any node, any tried features *)
  forall features train train' valid valid',
  features <> [] -> (forall j, In j features -> j < fb_n_features fb) ->
  (forall i, In i (train ++ valid) -> i < fb_n_samples fb) ->
  (forall i, In i (train' ++ valid') -> i < fb_n_samples fb') ->
  copies orig fb fb' y y' (train' ++ valid') ->
  repeated orig times train train' -> repeated orig times valid valid' ->
  match node_stats (clf_task E K dirichlet crit st) tc features train valid,
        node_stats (clf_task E K dirichlet crit st) tc' features train' valid' with
  | Ok nc, Ok nc' => same_stats nc nc'
  | Err e, Err e' => e = e'
  | _, _ => False
  end /\
  clf_impurity weights crit K y train = clf_impurity weights' crit K y' train' /\
  forall j cut, j < fb_n_features fb ->
    let L := side fb j cut train in let Q := other fb j cut train in
    let L' := side fb' j cut train' in let Q' := other fb' j cut train' in
    clf_impurity weights crit K y L = clf_impurity weights' crit K y' L' /\
    clf_impurity weights crit K y Q = clf_impurity weights' crit K y' Q' /\
    split_gain weights (clf_impurity weights crit K y) L Q = split_gain weights' (clf_impurity weights' crit K y') L' Q'.
Proof.
  intros E K d crit st p p' fb fb' y y' w w' train0 valid0 train0' valid0' tc tc' V V' HE HL HL' Hmv Hagg Htc Htc' orig times HI HU
    features train train' valid valid' Hne Hf Hr Hr' HC HRt HRv.
  destruct (clf_labels_ok E K d crit st _ y HE HL) as [Hy Hc]. destruct (clf_labels_ok E K d crit st _ y' HE HL') as [Hy' Hc'].
  set (ts := clf_shape E K d crit st) in *.
  destruct (call_context ts p fb y train0 valid0 w V Hy Hc) as (tc1 & Hi & C). rewrite Htc in Hi. injection Hi as <-.
  destruct (call_context ts p' fb' y' train0' valid0' w' V' Hy' Hc') as (tc1 & Hi & C'). rewrite Htc' in Hi. injection Hi as <-.
  pose proof (repeat_contexts ts p p' fb fb' y y' w w' train0 valid0 train0' valid0' tc tc' C C' V V' Htc Htc' Hmv) as (E1 & E2).
  destruct C as [HD C1 C2 C3 _ _ _ _ C5 _ _]. destruct C' as [HD' C1' C2' C3' _ _ _ _ C5' _ _].
  assert (MT : matching orig times fb fb' y y' w w' train train').
  { apply (matching_of _ _ _ _ _ _ _ _ _ _ _ _ (copies_left _ _ _ _ _ _ _ HC) HRt (vf_w _ _ _ _ _ _ V) (vf_w _ _ _ _ _ _ V'));
      intros; [apply Hr|apply Hr']; apply in_app_iff; auto. }
  assert (MV : matching orig times fb fb' y y' w w' valid valid').
  { apply (matching_of _ _ _ _ _ _ _ _ _ _ _ _ (copies_right _ _ _ _ _ _ _ HC) HRv (vf_w _ _ _ _ _ _ V) (vf_w _ _ _ _ _ _ V'));
      intros; [apply Hr|apply Hr']; apply in_app_iff; auto. }
  split; [|split].
  - subst fb y w fb' y' w'.
    apply (stats_same ts tc tc' HD HD' orig times HI HU E1 E2); auto; try congruence;
      try (intros i Hi; unfold nsamp; apply Hr || apply Hr'; apply in_app_iff; auto).
    + apply (clf_Lhist K d crit st tc tc' orig times HI HU).
    + apply (clf_Lpred K d crit st tc tc' orig times HI HU).
    + apply (clf_Lloss K d crit st tc tc' orig times HI HU).
  - apply (impurity_matching orig times fb fb' y y' w w' HI HU); auto.
  - intros j cut Hj L Q L' Q'. destruct (matching_side orig times fb fb' y y' w w' train train' j cut MT Hj) as [ML MQ].
    assert (E3 : clf_impurity w crit K y L = clf_impurity w' crit K y' L') by (apply (impurity_matching orig times fb fb' y y' w w' HI HU); auto).
    assert (E4 : clf_impurity w crit K y Q = clf_impurity w' crit K y' Q') by (apply (impurity_matching orig times fb fb' y y' w w' HI HU); auto).
    split; [auto|split; [auto|]]. unfold split_gain. rewrite E3, E4. unfold L, Q, L', Q'.
    rewrite (total_matching orig times fb fb' y y' w w' HI HU _ _ ML), (total_matching orig times fb fb' y y' w w' HI HU _ _ MQ). reflexivity.
Qed.
Print Assumptions C47_classification.

Theorem C47_regression : forall (E : env R_arith) p p' fb fb' y y' weights weights' train0 valid0 train0' valid0' tc tc',
  valid_fit p fb y train0 valid0 weights -> valid_fit p' fb' y' train0' valid0' weights' ->
  good_env E -> fb_max_values fb' = fb_max_values fb -> tp_aggregation p' = tp_aggregation p ->
  init_tree_context (reg_task E) p fb y weights = Ok tc ->
  init_tree_context (reg_task E) p' fb' y' weights' = Ok tc' ->
  forall orig times, integer_weights times weights -> unit_weights weights' ->
  forall features train train' valid valid',
  features <> [] -> (forall j, In j features -> j < fb_n_features fb) ->
  (forall i, In i (train ++ valid) -> i < fb_n_samples fb) ->
  (forall i, In i (train' ++ valid') -> i < fb_n_samples fb') ->
  copies orig fb fb' y y' (train' ++ valid') ->
  repeated orig times train train' -> repeated orig times valid valid' ->
  match node_stats (reg_task E) tc features train valid, node_stats (reg_task E) tc' features train' valid' with
  | Ok nc, Ok nc' => same_stats nc nc'
  | Err e, Err e' => e = e'
  | _, _ => False
  end /\
  reg_impurity weights y train = reg_impurity weights' y' train' /\
  forall j cut, j < fb_n_features fb ->
    let L := side fb j cut train in let Q := other fb j cut train in
    let L' := side fb' j cut train' in let Q' := other fb' j cut train' in
    reg_impurity weights y L = reg_impurity weights' y' L' /\
    reg_impurity weights y Q = reg_impurity weights' y' Q' /\
    split_gain weights (reg_impurity weights y) L Q = split_gain weights' (reg_impurity weights' y') L' Q'.
Proof.
  intros E p p' fb fb' y y' w w' train0 valid0 train0' valid0' tc tc' V V' HE Hmv Hagg Htc Htc' orig times HI HU
    features train train' valid valid' Hne Hf Hr Hr' HC HRt HRv.
  destruct (reg_labels_ok E (tp_is_categorical p) y HE) as [Hy Hc]. destruct (reg_labels_ok E (tp_is_categorical p') y' HE) as [Hy' Hc'].
  set (ts := reg_shape E) in *.
  destruct (call_context ts p fb y train0 valid0 w V Hy Hc) as (tc1 & Hi & C). rewrite Htc in Hi. injection Hi as <-.
  destruct (call_context ts p' fb' y' train0' valid0' w' V' Hy' Hc') as (tc1 & Hi & C'). rewrite Htc' in Hi. injection Hi as <-.
  pose proof (repeat_contexts ts p p' fb fb' y y' w w' train0 valid0 train0' valid0' tc tc' C C' V V' Htc Htc' Hmv) as (E1 & E2).
  destruct C as [HD C1 C2 C3 _ _ _ _ C5 _ _]. destruct C' as [HD' C1' C2' C3' _ _ _ _ C5' _ _].
  assert (MT : matching orig times fb fb' y y' w w' train train').
  { apply (matching_of _ _ _ _ _ _ _ _ _ _ _ _ (copies_left _ _ _ _ _ _ _ HC) HRt (vf_w _ _ _ _ _ _ V) (vf_w _ _ _ _ _ _ V'));
      intros; [apply Hr|apply Hr']; apply in_app_iff; auto. }
  assert (MV : matching orig times fb fb' y y' w w' valid valid').
  { apply (matching_of _ _ _ _ _ _ _ _ _ _ _ _ (copies_right _ _ _ _ _ _ _ HC) HRv (vf_w _ _ _ _ _ _ V) (vf_w _ _ _ _ _ _ V'));
      intros; [apply Hr|apply Hr']; apply in_app_iff; auto. }
  assert (HV : forall l l', matching orig times fb fb' y y' w w' l l' -> reg_impurity w y l = reg_impurity w' y' l').
  { intros l l' M. destruct l as [|i l]; [|apply (variance_matching orig times fb fb' y y' w w' HI HU); [auto|discriminate]].
    destruct M as (_ & HR & _). apply Permutation_sym, Permutation_nil in HR. apply map_eq_nil in HR. subst l'. reflexivity. }
  split; [|split].
  - subst fb y w fb' y' w'.
    apply (stats_same ts tc tc' HD HD' orig times HI HU E1 E2); auto; try congruence;
      try (intros i Hi; unfold nsamp; apply Hr || apply Hr'; apply in_app_iff; auto).
    + apply (reg_Lhist tc tc' orig times HI HU).
    + apply (reg_Lpred tc tc' orig times HI HU).
    + apply (reg_Lloss tc tc' orig times HI HU).
  - auto.
  - intros j cut Hj L Q L' Q'. destruct (matching_side orig times fb fb' y y' w w' train train' j cut MT Hj) as [ML MQ].
    split; [auto|split; [auto|]]. unfold split_gain. unfold L, Q, L', Q'. rewrite (HV _ _ ML), (HV _ _ MQ).
    rewrite (total_matching orig times fb fb' y y' w w' HI HU _ _ ML), (total_matching orig times fb fb' y y' w w' HI HU _ _ MQ). reflexivity.
Qed.
Print Assumptions C47_regression.

(** ** Trees *)

(** When one row is enough for a leaf and two for a split, and no feature is categorical,
    the whole fitted tree is the same (up to the numbers of rows it stores), and so are all
    its predictions. *)
Theorem C47_trees_classifier : forall (E : env R_arith) K dirichlet crit st p fb fb' y y' weights weights' train valid train' valid' s,
  good_env E -> valid_fit p fb y train valid weights -> valid_fit p fb' y' train' valid' weights' ->
  valid_labels K st (tp_is_categorical p) y -> valid_labels K st (tp_is_categorical p) y' ->
  (0 <= dirichlet)%R -> train <> [] -> fb_max_values fb' = fb_max_values fb ->
  tp_min_samples_split p = 2 -> tp_min_samples_leaf p = 1 -> ~ In true (tp_is_categorical p) ->
  forall orig times, integer_weights times weights -> unit_weights weights' ->
  copies orig fb fb' y y' (train' ++ valid') ->
  repeated orig times train train' -> repeated orig times valid valid' ->
  exists tc g tc' g',
    tree_fit (clf_task E K dirichlet crit st) p fb y train valid weights s = Ok (tc, g) /\
    tree_fit (clf_task E K dirichlet crit st) p fb' y' train' valid' weights' s = Ok (tc', g') /\
    same_tree (g_tree g) (g_tree g') /\
    forall fbx i agg step, fba_wf fbx -> i < fb_n_samples fbx -> fb_n_features fbx = fb_n_features fb ->
      predict_one mix_vec (g_tree g) fbx agg step i = predict_one mix_vec (g_tree g') fbx agg step i.
Proof.
  intros E K d crit st p fb fb' y y' w w' train valid train' valid' s HE V V' HL HL' Hd Htr Hmv Hmss Hmsl Hcat orig times HI HU HC HRt HRv.
  assert (Htr' : train' <> []).
  { apply (matching_empty orig times fb fb' y y' w w' HI train train'); [|exact Htr].
    apply (matching_of _ _ _ _ _ _ _ _ _ _ _ _ (copies_left _ _ _ _ _ _ _ HC) HRt (vf_w _ _ _ _ _ _ V) (vf_w _ _ _ _ _ _ V')
      (vf_train _ _ _ _ _ _ V) (vf_train _ _ _ _ _ _ V')). }
  destruct (C48_classifier E K d crit st p fb y train valid w s HE V HL (integer_positive _ _ HI) Hd Htr) as (tc & g & Hfit).
  destruct (C48_classifier E K d crit st p fb' y' train' valid' w' s HE V' HL' (unit_positive _ HU) Hd Htr') as (tc' & g' & Hfit').
  exists tc, g, tc', g'. split; [auto|split; [auto|]].
  destruct (clf_labels_ok E K d crit st _ y HE HL) as [Hy Hc]. destruct (clf_labels_ok E K d crit st _ y' HE HL') as [Hy' Hc'].
  destruct (trees_same (clf_shape E K d crit st) p fb fb' y y' w w' train valid train' valid' HE V V' Hy Hc Hy' Hc' Hmv Hmss Hmsl Hcat
    orig times HI HU HC HRt HRv) with (s := s) (tc := tc) (g := g) (tc' := tc') (g' := g') as [S1 S2]; auto.
  intros tc1 tc1' HI1 HU1. split; [|split].
  - apply (clf_Lhist K d crit st tc1 tc1' orig times HI1 HU1).
  - apply (clf_Lpred K d crit st tc1 tc1' orig times HI1 HU1).
  - apply (clf_Lloss K d crit st tc1 tc1' orig times HI1 HU1).
Qed.
Print Assumptions C47_trees_classifier.

Theorem C47_trees_regressor : forall (E : env R_arith) p fb fb' y y' weights weights' train valid train' valid' s,
  good_env E -> valid_fit p fb y train valid weights -> valid_fit p fb' y' train' valid' weights' ->
  train <> [] -> fb_max_values fb' = fb_max_values fb ->
  tp_min_samples_split p = 2 -> tp_min_samples_leaf p = 1 -> ~ In true (tp_is_categorical p) ->
  forall orig times, integer_weights times weights -> unit_weights weights' ->
  copies orig fb fb' y y' (train' ++ valid') ->
  repeated orig times train train' -> repeated orig times valid valid' ->
  exists tc g tc' g',
    tree_fit (reg_task E) p fb y train valid weights s = Ok (tc, g) /\
    tree_fit (reg_task E) p fb' y' train' valid' weights' s = Ok (tc', g') /\
    same_tree (g_tree g) (g_tree g') /\
    forall fbx i agg step, fba_wf fbx -> i < fb_n_samples fbx -> fb_n_features fbx = fb_n_features fb ->
      predict_one mix_num (g_tree g) fbx agg step i = predict_one mix_num (g_tree g') fbx agg step i.
Proof.
  intros E p fb fb' y y' w w' train valid train' valid' s HE V V' Htr Hmv Hmss Hmsl Hcat orig times HI HU HC HRt HRv.
  assert (Htr' : train' <> []).
  { apply (matching_empty orig times fb fb' y y' w w' HI train train'); [|exact Htr].
    apply (matching_of _ _ _ _ _ _ _ _ _ _ _ _ (copies_left _ _ _ _ _ _ _ HC) HRt (vf_w _ _ _ _ _ _ V) (vf_w _ _ _ _ _ _ V')
      (vf_train _ _ _ _ _ _ V) (vf_train _ _ _ _ _ _ V')). }
  destruct (C48_regressor E p fb y train valid w s HE V (integer_positive _ _ HI) Htr) as (tc & g & Hfit).
  destruct (C48_regressor E p fb' y' train' valid' w' s HE V' (unit_positive _ HU) Htr') as (tc' & g' & Hfit').
  exists tc, g, tc', g'. split; [auto|split; [auto|]].
  destruct (reg_labels_ok E (tp_is_categorical p) y HE) as [Hy Hc]. destruct (reg_labels_ok E (tp_is_categorical p) y' HE) as [Hy' Hc'].
  destruct (trees_same (reg_shape E) p fb fb' y y' w w' train valid train' valid' HE V V' Hy Hc Hy' Hc' Hmv Hmss Hmsl Hcat
    orig times HI HU HC HRt HRv) with (s := s) (tc := tc) (g := g) (tc' := tc') (g' := g') as [S1 S2]; auto.
  intros tc1 tc1' HI1 HU1. split; [|split].
  - apply (reg_Lhist tc1 tc1' orig times HI1 HU1).
  - apply (reg_Lpred tc1 tc1' orig times HI1 HU1).
  - apply (reg_Lloss tc1 tc1' orig times HI1 HU1).
Qed.
Print Assumptions C47_trees_regressor.

(** ** The hypotheses are met *)

(** The eight rows of the examples have weights 1, 1, 2, 1, 1, 3, 1, 1. Here they are
    repeated instead. *)
Definition rp_orig (i' : nat) : nat := nth i' [0; 1; 2; 2; 3; 4; 5; 5; 5; 6; 7] 0.
Definition rp_times (i : nat) : nat := nth i [1; 1; 2; 1; 1; 3; 1; 1] 1.
Definition rp_X : list (list N) := map (fun i' => nth (rp_orig i') ex_X []) (seq 0 11).
Definition rp_fb : fba :=
  match array_to_bitarray (fun _ => 54321%N) 2 rp_X with
  | Ok fb => fb
  | Err _ => mkFba 0 0 [] [] [] [] [] []
  end.
Definition rp_copy {Y} (d : Y) (y : list Y) : list Y := map (fun i' => nth (rp_orig i') y d) (seq 0 11).
Definition rp_train : list nat := [0; 2; 3; 4; 5; 9].
Definition rp_valid : list nat := [1; 6; 7; 8; 10].
Definition rp_w : list R := repeat 1%R 11.
Definition rp_params (agg : bool) (mf : nat) : @tree_params R_arith := @mkTP R_arith mf 2 1 100%N agg 1%R [false; false].

Lemma rp_fb_packed : packed rp_fb /\ fb_n_samples rp_fb = 11 /\ fb_n_features rp_fb = 2.
Proof.
  destruct (array_to_bitarray_packed (fun _ => 54321%N) 2 rp_X) as (fb & H1 & H2 & H3 & H4 & _).
  - discriminate.
  - intros row H. unfold rp_X in H. simpl in H. intuition (subst; reflexivity).
  - intros row x H Hx. unfold rp_X in H. simpl in H.
    repeat (destruct H as [<-|H]; [simpl in Hx; intuition (subst; reflexivity)|]). destruct H.
  - unfold rp_fb. rewrite H1. auto.
Qed.
Lemma rp_valid_fit : forall {Y} (y : list Y) agg mf, length y = 11 -> 1 <= mf <= 2 ->
  valid_fit (rp_params agg mf) rp_fb y rp_train rp_valid rp_w.
Proof.
  intros Y y agg mf Hy Hmf. destruct rp_fb_packed as (H1 & H2 & H3).
  constructor; cbn [tp_max_features tp_min_samples_split tp_min_samples_leaf tp_is_categorical rp_params]; rewrite ?H2, ?H3; try exact Hy; try exact Hmf; try reflexivity; try exact H1.
  - intros i H. unfold rp_train in H. simpl in H. lia.
  - intros i H. unfold rp_valid in H. simpl in H. lia.
  - unfold rp_train. simpl. lia.
  - unfold rp_valid. simpl. lia.
Qed.
Lemma ex_valid_fit_R : forall {Y} (y : list Y) agg mf, length y = 8 -> 1 <= mf <= 2 ->
  valid_fit (rp_params agg mf) ex_fb y ex_train ex_valid exR_w.
Proof. intros Y y agg mf Hy Hmf. destruct (exR_valid_fit y agg mf Hy Hmf). constructor; auto. Qed.
Lemma rp_max : fb_max_values rp_fb = fb_max_values ex_fb.
Proof. vm_compute. reflexivity. Qed.
Lemma rp_copies : forall {Y} (d : Y) (y : list Y), length y = 8 ->
  copies rp_orig ex_fb rp_fb y (rp_copy d y) (rp_train ++ rp_valid).
Proof.
  intros Y d y Hy i' Hi'. destruct ex_fb_packed as (_ & _ & H3). rewrite H3. split.
  - intros j Hj.
    assert (H : forallb (fun i' => forallb (fun j => bin_of rp_fb i' j =? bin_of ex_fb (rp_orig i') j) [0; 1]) (rp_train ++ rp_valid) = true)
      by (vm_compute; reflexivity).
    rewrite forallb_forall in H. specialize (H i' Hi'). rewrite forallb_forall in H. apply Nat.eqb_eq. apply H. simpl. lia.
  - destruct y as [|y0 [|y1 [|y2 [|y3 [|y4 [|y5 [|y6 [|y7 [|]]]]]]]]]; try discriminate Hy.
    simpl in Hi'. intuition (subst; reflexivity).
Qed.
Lemma rp_repeated : repeated rp_orig rp_times ex_train rp_train /\ repeated rp_orig rp_times ex_valid rp_valid.
Proof. split; apply Permutation_refl. Qed.
Lemma rp_weights : integer_weights rp_times exR_w /\ unit_weights rp_w.
Proof.
  split.
  - intros i w H. do 8 (destruct i as [|i]; [cbn in H; injection H as <-; split; [cbn; lia|unfold rp_times; cbn [nth]; simpl; lra]|]). destruct i; discriminate.
  - intros w H. apply repeat_spec in H. auto.
Qed.
Lemma rp_labels : forall agg mf y, (forall k, In k y -> k < 3) -> valid_labels 3 AllMods (tp_is_categorical (rp_params agg mf)) y.
Proof. intros agg mf y H. constructor; [auto|intros [G|[G|[]]]; discriminate G]. Qed.
Lemma rp_no_cat : forall agg mf, ~ In true (tp_is_categorical (rp_params agg mf)).
Proof. intros agg mf [G|[G|[]]]; discriminate. Qed.
Lemma ex_labels_3 : forall k, In k ex_labels -> k < 3.
Proof. intros k H. unfold ex_labels in H. simpl in H. lia. Qed.
Lemma rp_labels_3 : forall k, In k (rp_copy 0 ex_labels) -> k < 3.
Proof. intros k H. cbn in H. lia. Qed.

Lemma le12 : 1 <= 2 <= 2. Proof. lia. Qed.
Lemma half_pos : (0 <= / 2)%R. Proof. lra. Qed.
Lemma ex_train_ne : ex_train <> []. Proof. discriminate. Qed.

Example C47_trees_classifier_applies : exists tc g tc' g',
  tree_fit (clf_task env_R 3 (/ 2)%R Entropy AllMods) (rp_params true 2) ex_fb ex_labels ex_train ex_valid exR_w 5 = Ok (tc, g) /\
  tree_fit (clf_task env_R 3 (/ 2)%R Entropy AllMods) (rp_params true 2) rp_fb (rp_copy 0 ex_labels) rp_train rp_valid rp_w 5 = Ok (tc', g') /\
  same_tree (g_tree g) (g_tree g').
Proof.
  destruct (C47_trees_classifier env_R 3 (/ 2)%R Entropy AllMods (rp_params true 2) ex_fb rp_fb ex_labels (rp_copy 0 ex_labels) exR_w rp_w
    ex_train ex_valid rp_train rp_valid 5 env_R_good (ex_valid_fit_R ex_labels true 2 eq_refl le12) (rp_valid_fit (rp_copy 0 ex_labels) true 2 eq_refl le12)
    (rp_labels true 2 _ ex_labels_3) (rp_labels true 2 _ rp_labels_3) half_pos ex_train_ne rp_max eq_refl eq_refl (rp_no_cat true 2)
    rp_orig rp_times (proj1 rp_weights) (proj2 rp_weights) (rp_copies 0 ex_labels eq_refl) (proj1 rp_repeated) (proj2 rp_repeated))
    as (tc & g & tc' & g' & H1 & H2 & H3 & _).
  exists tc, g, tc', g'. split; [exact H1|split; [exact H2|exact H3]].
Qed.
Example C47_trees_regressor_applies : exists tc g tc' g',
  tree_fit (reg_task env_R) (rp_params true 2) ex_fb exR_y ex_train ex_valid exR_w 5 = Ok (tc, g) /\
  tree_fit (reg_task env_R) (rp_params true 2) rp_fb (rp_copy 0%R exR_y) rp_train rp_valid rp_w 5 = Ok (tc', g') /\
  same_tree (g_tree g) (g_tree g').
Proof.
  destruct (C47_trees_regressor env_R (rp_params true 2) ex_fb rp_fb exR_y (rp_copy 0%R exR_y) exR_w rp_w
    ex_train ex_valid rp_train rp_valid 5 env_R_good (ex_valid_fit_R exR_y true 2 eq_refl le12) (rp_valid_fit (rp_copy 0%R exR_y) true 2 eq_refl le12)
    ex_train_ne rp_max eq_refl eq_refl (rp_no_cat true 2)
    rp_orig rp_times (proj1 rp_weights) (proj2 rp_weights) (rp_copies 0%R exR_y eq_refl) (proj1 rp_repeated) (proj2 rp_repeated))
    as (tc & g & tc' & g' & H1 & H2 & H3 & _).
  exists tc, g, tc', g'. split; [exact H1|split; [exact H2|exact H3]].
Qed.

(** At the root, with the categorical feature and other minimum counts. *)
Lemma rp_context : forall {E : env R_arith} {tk : task R_arith E} (ts : task_shape tk) p fb y train valid (w : list R),
  valid_fit p fb y train valid w -> (forall k, In k y -> ts_Yok ts k) -> (In true (tp_is_categorical p) -> ts_cat ts) ->
  exists tc, init_tree_context tk p fb y w = Ok tc.
Proof. intros E tk ts p fb y train valid w V Hy Hc. destruct (call_context ts p fb y train valid w V Hy Hc) as (tc & H & _). eauto. Qed.
Lemma rp_in_train : (forall i, In i (ex_train ++ ex_valid) -> i < fb_n_samples ex_fb) /\ (forall i, In i (rp_train ++ rp_valid) -> i < fb_n_samples rp_fb).
Proof.
  destruct ex_fb_packed as (_ & H & _). destruct rp_fb_packed as (_ & H' & _). rewrite H, H'. split; intros i Hi; cbn in Hi; lia.
Qed.

Example C47_classification_applies : exists tc tc',
  init_tree_context (clf_task env_R 3 (/ 2)%R Gini AllMods) (exR_params true 2) ex_fb ex_labels exR_w = Ok tc /\
  init_tree_context (clf_task env_R 3 (/ 2)%R Gini AllMods) (rp_params true 2) rp_fb (rp_copy 0 ex_labels) rp_w = Ok tc' /\
  match node_stats (clf_task env_R 3 (/ 2)%R Gini AllMods) tc [0; 1] ex_train ex_valid,
        node_stats (clf_task env_R 3 (/ 2)%R Gini AllMods) tc' [0; 1] rp_train rp_valid with
  | Ok nc, Ok nc' => same_stats nc nc'
  | Err e, Err e' => e = e'
  | _, _ => False
  end.
Proof.
  pose proof (exR_valid_fit ex_labels true 2 eq_refl le12) as V.
  pose proof (rp_valid_fit (rp_copy 0 ex_labels) true 2 eq_refl le12) as V'.
  pose proof (exR_valid_labels true 2) as HL. pose proof (rp_labels true 2 _ rp_labels_3) as HL'.
  destruct (clf_labels_ok env_R 3 (/ 2)%R Gini AllMods _ _ env_R_good HL) as [Hy Hc].
  destruct (clf_labels_ok env_R 3 (/ 2)%R Gini AllMods _ _ env_R_good HL') as [Hy' Hc'].
  destruct (rp_context (clf_shape env_R 3 (/ 2)%R Gini AllMods) _ _ _ _ _ _ V Hy Hc) as [tc H]. destruct (rp_context (clf_shape env_R 3 (/ 2)%R Gini AllMods) _ _ _ _ _ _ V' Hy' Hc') as [tc' H'].
  exists tc, tc'. split; [exact H|split; [exact H'|]].
  destruct (C47_classification env_R 3 (/ 2)%R Gini AllMods (exR_params true 2) (rp_params true 2) ex_fb rp_fb ex_labels (rp_copy 0 ex_labels)
    exR_w rp_w ex_train ex_valid rp_train rp_valid tc tc' V V' env_R_good HL HL' rp_max eq_refl H H' rp_orig rp_times
    (proj1 rp_weights) (proj2 rp_weights) [0; 1] ex_train rp_train ex_valid rp_valid) as [G _].
  - discriminate.
  - destruct ex_fb_packed as (_ & _ & H3). rewrite H3. intros j Hj. cbn in Hj. lia.
  - apply rp_in_train.
  - apply rp_in_train.
  - apply rp_copies. reflexivity.
  - apply rp_repeated.
  - apply rp_repeated.
  - exact G.
Qed.
Example C47_regression_applies : exists tc tc',
  init_tree_context (reg_task env_R) (exR_params true 2) ex_fb exR_y exR_w = Ok tc /\
  init_tree_context (reg_task env_R) (rp_params true 2) rp_fb (rp_copy 0%R exR_y) rp_w = Ok tc' /\
  match node_stats (reg_task env_R) tc [0; 1] ex_train ex_valid, node_stats (reg_task env_R) tc' [0; 1] rp_train rp_valid with
  | Ok nc, Ok nc' => same_stats nc nc'
  | Err e, Err e' => e = e'
  | _, _ => False
  end.
Proof.
  pose proof (exR_valid_fit exR_y true 2 eq_refl le12) as V.
  pose proof (rp_valid_fit (rp_copy 0%R exR_y) true 2 eq_refl le12) as V'.
  destruct (reg_labels_ok env_R (tp_is_categorical (exR_params true 2)) exR_y env_R_good) as [Hy Hc].
  destruct (reg_labels_ok env_R (tp_is_categorical (rp_params true 2)) (rp_copy 0%R exR_y) env_R_good) as [Hy' Hc'].
  destruct (rp_context (reg_shape env_R) _ _ _ _ _ _ V Hy Hc) as [tc H]. destruct (rp_context (reg_shape env_R) _ _ _ _ _ _ V' Hy' Hc') as [tc' H'].
  exists tc, tc'. split; [exact H|split; [exact H'|]].
  destruct (C47_regression env_R (exR_params true 2) (rp_params true 2) ex_fb rp_fb exR_y (rp_copy 0%R exR_y)
    exR_w rp_w ex_train ex_valid rp_train rp_valid tc tc' V V' env_R_good rp_max eq_refl H H' rp_orig rp_times
    (proj1 rp_weights) (proj2 rp_weights) [0; 1] ex_train rp_train ex_valid rp_valid) as [G _].
  - discriminate.
  - destruct ex_fb_packed as (_ & _ & H3). rewrite H3. intros j Hj. cbn in Hj. lia.
  - apply rp_in_train.
  - apply rp_in_train.
  - apply rp_copies. reflexivity.
  - apply rp_repeated.
  - apply rp_repeated.
  - exact G.
Qed.

(** ** The minimum counts count rows *)

(** With a minimum of six rows to split a node, the five weighted training rows make a
    single leaf and the six rows they stand for are split. *)
Theorem C47_counts_refuted : exists (p : @tree_params QA) (weights weights' : list (num QA)) y y' tc g tc' g',
  good_env env_Q /\ valid_fit p ex_fb y ex_train ex_valid weights /\ valid_fit p rp_fb y' rp_train rp_valid weights' /\
  ~ In true (tp_is_categorical p) /\ fb_max_values rp_fb = fb_max_values ex_fb /\
  weights_of rp_times weights /\ (forall w, In w weights' -> w = 1%Q) /\
  copies rp_orig ex_fb rp_fb y y' (rp_train ++ rp_valid) /\
  repeated rp_orig rp_times ex_train rp_train /\ repeated rp_orig rp_times ex_valid rp_valid /\
  tree_fit (clf_task env_Q 3 (1 # 2)%Q Gini AllMods) p ex_fb y ex_train ex_valid weights 5 = Ok (tc, g) /\
  tree_fit (clf_task env_Q 3 (1 # 2)%Q Gini AllMods) p rp_fb y' rp_train rp_valid weights' 5 = Ok (tc', g') /\
  tr_node_count (g_tree g) = 1 /\ tr_node_count (g_tree g') = 3.
Proof.
  set (p := @mkTP QA 2 6 1 100%N false 1%Q [false; false]).
  assert (F : forall fb y train valid w n, match tree_fit (clf_task env_Q 3 (1 # 2)%Q Gini AllMods) p fb y train valid w 5 with
     | Ok (_, g) => tr_node_count (g_tree g) = n | Err _ => False end ->
     exists tc g, tree_fit (clf_task env_Q 3 (1 # 2)%Q Gini AllMods) p fb y train valid w 5 = Ok (tc, g) /\ tr_node_count (g_tree g) = n).
  { intros. destruct (tree_fit _ _ _ _ _ _ _ _) as [[tc g]|]; [eauto|destruct H]. }
  destruct (F ex_fb ex_labels ex_train ex_valid ex_w 1) as (tc & g & H1 & H2); [vm_compute; reflexivity|].
  destruct (F rp_fb (rp_copy 0 ex_labels) rp_train rp_valid (repeat 1%Q 11) 3) as (tc' & g' & H1' & H2'); [vm_compute; reflexivity|].
  exists p, ex_w, (repeat 1%Q 11), ex_labels, (rp_copy 0 ex_labels), tc, g, tc', g'.
  split; [exact ex_env_good|].
  split. { destruct (ex_valid_fit ex_labels false 2 eq_refl ltac:(lia)). constructor; auto; cbn; lia. }
  split. { destruct (rp_valid_fit (rp_copy 0 ex_labels) false 2 eq_refl ltac:(lia)). constructor; auto; cbn; lia. }
  split. { intros [G|[G|[]]]; discriminate. }
  split; [apply rp_max|].
  split. { intros i w H. do 8 (destruct i as [|i]; [cbn in H; injection H as <-; split; [cbn; lia|reflexivity]|]). destruct i; discriminate. }
  split. { intros w H. apply repeat_spec in H. auto. }
  split. { apply rp_copies. reflexivity. }
  split; [apply rp_repeated|]. split; [apply rp_repeated|]. auto.
Qed.
Print Assumptions C47_counts_refuted.
