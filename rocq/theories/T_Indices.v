(** * C21: splitting a node is a stable partition in place; C22: the test of categorical splits

    For any arithmetic. *)

Require Import List Arith Lia NArith Permutation Sorted QArith.
Require Import Verif.Base Verif.Num Verif.M_Bitarray Verif.P_Bitarray Verif.M_Utils
  Verif.M_Context Verif.M_Node Verif.M_Split Verif.M_Grow Verif.P_Utils Verif.P_List Verif.P_Task Verif.P_Node
  Verif.P_Bins Verif.P_Scan Verif.P_Split Verif.P_Find
  Verif.S_Fit Verif.P_Fit Verif.S_Node Verif.S_Split Verif.P_Cuts Verif.P_Indices Verif.Ex_Data Verif.Ex_Valid.
Import ListNotations.
Local Open Scope nat_scope.
Local Open Scope list_scope.
Local Open Scope res_scope.

(** The arrays before and after: the slice of the node holds [idx] before; after, it holds
    those that go left and then the others, each side in its order; nothing else moved. *)
Definition stably_partitioned (before after : list nat) (start end_ pos : nat) (left_of : nat -> bool) : Prop :=
  exists pre idx post,
    before = pre ++ idx ++ post /\ start = length pre /\ end_ = length pre + length idx /\
    after = pre ++ filter left_of idx ++ filter (fun i => negb (left_of i)) idx ++ post /\
    pos = start + length (filter left_of idx).

(** Consequences of the definition, in terms of positions. *)
Theorem C21_partition_meaning : forall before after start end_ pos left_of,
  stably_partitioned before after start end_ pos left_of ->
  start <= pos <= end_ /\ end_ <= length before /\ length after = length before /\
  Permutation (firstn (end_ - start) (skipn start after)) (firstn (end_ - start) (skipn start before)) /\
  (forall k, k < start \/ end_ <= k -> nth_error after k = nth_error before k) /\
  (forall k i, start <= k < pos -> nth_error after k = Some i -> left_of i = true) /\
  (forall k i, pos <= k < end_ -> nth_error after k = Some i -> left_of i = false).
Proof.
  intros before after start end_ pos left_of (pre & idx & post & -> & -> & -> & -> & ->).
  pose proof (filter_partition_length left_of idx) as HL. pose proof (filter_partition_perm left_of idx) as HP.
  set (L := filter left_of idx) in *. set (Q := filter (fun i => negb (left_of i)) idx) in *.
  assert (Hmid : forall a b c : list nat, firstn (length a + length b - length a) (skipn (length a) (a ++ b ++ c)) = b).
  { intros a b c. pose proof (slice_mid a b c) as S. apply slice_ok in S. destruct S as [_ S]. auto. }
  split; [lia|]. split; [rewrite !app_length; lia|]. split; [rewrite !app_length; lia|]. split.
  { rewrite Hmid. rewrite <- HL, <- app_length, app_assoc with (l := L), Hmid. exact HP. }
  split; [|split].
  - intros k [Hk|Hk].
    + rewrite !nth_error_app1 by lia. auto.
    + rewrite !nth_error_app2 by (rewrite ?app_length; lia). f_equal. lia.
  - intros k i Hk Hi. rewrite nth_error_app2 in Hi by lia. rewrite nth_error_app1 in Hi by lia.
    apply nth_error_In in Hi. apply filter_In in Hi. tauto.
  - intros k i Hk Hi. rewrite nth_error_app2 in Hi by lia. rewrite nth_error_app2 in Hi by lia.
    rewrite nth_error_app1 in Hi by lia.
    apply nth_error_In in Hi. apply filter_In in Hi. destruct Hi as [_ Hi]. apply Bool.negb_true_iff in Hi. auto.
Qed.
Print Assumptions C21_partition_meaning.

(** What a node split must announce. *)
Record split_done {A : arith} {E : env A} {tk : task A E} (fb : fba) (aggregation : bool) (min_leaf : nat)
  (ps ps' : parts) (sp : split tk) (start_train end_train start_valid end_valid pos_train pos_valid : nat)
  (cut : nat -> bool) : Prop := {
  sd_test : forall b, goes_left tk sp b = Ok (cut b);
  sd_train : stably_partitioned (p_train ps) (p_train ps') start_train end_train pos_train
               (fun i => cut (bin_of fb i (sp_feature sp)));
  sd_valid : stably_partitioned (p_valid ps) (p_valid ps') start_valid end_valid pos_valid
               (fun i => cut (bin_of fb i (sp_feature sp)));
  sd_counts : sp_n_train_left sp = pos_train - start_train /\ sp_n_train_right sp = end_train - pos_train;
  sd_counts_valid : aggregation = true ->
     sp_n_valid_left sp = pos_valid - start_valid /\ sp_n_valid_right sp = end_valid - pos_valid;
  sd_nonempty : start_train < pos_train < end_train;
  sd_min_leaf : min_leaf <= pos_train - start_train /\ min_leaf <= end_train - pos_train;
  sd_min_leaf_valid : aggregation = true ->
     min_leaf <= pos_valid - start_valid /\ min_leaf <= end_valid - pos_valid;
  sd_buffers : length (p_left ps') = length (p_left ps) /\ length (p_right ps') = length (p_right ps)
}.

(** Buffers and partition arrays as they are in a tree: the buffers have one cell per row. *)
Record arrays_ok (fb : fba) (ps : parts) : Prop := {
  ao_left : length (p_left ps) = fb_n_samples fb;
  ao_right : length (p_right ps) = fb_n_samples fb;
  ao_train : length (p_train ps) <= fb_n_samples fb;
  ao_valid : length (p_valid ps) <= fb_n_samples fb;
  ao_rows : forall i, In i (p_train ps) \/ In i (p_valid ps) -> i < fb_n_samples fb
}.

Section Generic.
Context {A : arith} {E : env A} {tk : task A E} (ts : task_shape tk).
Context (tc : tctx A (tk_Y tk)) (HD : data_ok ts tc).

(** Cuts a list at two positions. *)
Lemma cut_at : forall (l : list nat) a b, a <= b <= length l -> exists pre idx post,
  l = pre ++ idx ++ post /\ a = length pre /\ b = length pre + length idx /\ slice l a b = Ok idx.
Proof.
  intros l a b H. exists (firstn a l), (firstn (b - a) (skipn a l)), (skipn b l).
  assert (E1 : l = firstn a l ++ firstn (b - a) (skipn a l) ++ skipn b l).
  { rewrite <- (firstn_skipn a l) at 1. f_equal. rewrite <- (firstn_skipn (b - a) (skipn a l)) at 1. f_equal.
    rewrite skipn_plus. f_equal. lia. }
  split; [exact E1|]. rewrite !firstn_length, skipn_length. split; [lia|]. split; [lia|].
  apply slice_ok. auto.
Qed.

Lemma split_node : forall ps st et sv ev train valid features s nc sp s',
  arrays_ok (tc_fb tc) ps -> slice (p_train ps) st et = Ok train -> slice (p_valid ps) sv ev = Ok valid ->
  features <> [] -> (forall j, In j features -> j < fb_n_features (tc_fb tc)) ->
  (tc_aggregation tc = true -> valid <> []) ->
  node_stats tk tc features train valid = Ok nc -> find_node_split tk tc nc s = Ok (sp, s') -> sp_found sp = true ->
  exists ps' pt pv cut, split_indices tk tc ps sp st et sv ev = Ok (ps', pt, pv) /\
    split_done (tc_fb tc) (tc_aggregation tc) (tc_min_samples_leaf tc) ps ps' sp st et sv ev pt pv cut /\
    (if sp_is_cat sp then exists part, part <> [] /\ (forall b, cut b = true <-> In b part) /\
        (forall b, In b part -> bin_present (tc_fb tc) (sp_feature sp) train b)
     else exists t, bin_present (tc_fb tc) (sp_feature sp) train t /\ forall b, cut b = (b <=? t)).
Proof.
  intros ps st et sv ev train valid features s nc sp s' [AL AR AT AV AI] HsT HsV Hne Hf Hagg Hns Hfind Hfound.
  assert (BT : st <= et <= length (p_train ps)) by (apply slice_ok in HsT; tauto).
  assert (BV : sv <= ev <= length (p_valid ps)) by (apply slice_ok in HsV; tauto).
  destruct (cut_at _ _ _ BT) as (preT & idxT & postT & ET & E1 & E2 & E3).
  destruct (cut_at _ _ _ BV) as (preV & idxV & postV & EV & E4 & E5 & E6).
  assert (idxT = train) by congruence. assert (idxV = valid) by congruence. subst idxT idxV. clear E3 E6 HsT HsV.
  assert (Ht : in_range tc train). { intros i Hi. apply AI. left. rewrite ET. rewrite !in_app_iff. auto. }
  assert (Hv : in_range tc valid). { intros i Hi. apply AI. right. rewrite EV. rewrite !in_app_iff. auto. }
  rewrite (node_stats_spec ts tc HD features train valid Hne Hf Ht Hv) in Hns.
  destruct (tk_pred_end tk (pred_spec ts tc train) (asum (map (wt tc) train))) as [p|e]; [|discriminate].
  cbn [bind] in Hns. inversion Hns; subst nc; clear Hns.
  pose proof (find_ok ts tc HD train valid Ht Hv True s features p Hf Hagg) as HF.
  rewrite Hfind in HF. cbn [okz fst snd] in HF.
  destruct HF as (os & Hos & HF).
  { intros c Ha (os & s'' & H1 & H2). eapply imp_of_okz; eauto. }
  destruct HF as [->|(c & i & Hc & C)]; [discriminate|].
  pose proof (ch_in C) as Hin.
  destruct (split_indices_spec tc sp (to_left sp) ps preT train postT preV valid postV) as (ps' & S1 & S2 & S3 & S4 & S5); auto.
  { apply (do_wf _ tc HD). }
  { intro b. eapply chosen_goes_left; eauto. }
  { rewrite AL. rewrite ET, !app_length in AT. lia. }
  { rewrite AR. rewrite ET, !app_length in AT. lia. }
  { rewrite AL. rewrite EV, !app_length in AV. lia. }
  { rewrite AR. rewrite EV, !app_length in AV. lia. }
  set (go := fun i => to_left sp (binv (tc_fb tc) (sp_feature sp) i)) in *.
  pose proof (filter_partition_length go train) as LT. pose proof (filter_partition_length go valid) as LV.
  pose proof (ch_n_left C) as N1. pose proof (ch_n_right C) as N2. pose proof (ch_v_left C) as N3. pose proof (ch_v_right C) as N4.
  change (filter (fun i => to_left sp (bin tc (sp_feature sp) i)) train) with (filter go train) in N1.
  change (filter (fun i => negb (to_left sp (bin tc (sp_feature sp) i))) train) with (filter (fun i => negb (go i)) train) in N2.
  change (filter (fun i => to_left sp (bin tc (sp_feature sp) i)) (seen tc valid)) with (filter go (seen tc valid)) in N3.
  change (filter (fun i => negb (to_left sp (bin tc (sp_feature sp) i))) valid) with (filter (fun i => negb (go i)) valid) in N4.
  destruct (chosen_nonempty _ _ _ _ _ _ _ _ C) as [P1 P2].
  destruct (ch_msl C) as [M1 M2]. pose proof (ch_mslv C) as M3.
  exists ps', (length preT + length (filter go train)), (length preV + length (filter go valid)), (to_left sp).
  split; [subst st et sv ev; exact S1|]. split.
  - constructor.
    + intro b. eapply chosen_goes_left; eauto.
    + exists preT, train, postT. rewrite S2, <- app_assoc. split; [auto|]. split; [auto|]. split; [auto|]. split; [reflexivity|]. subst st. reflexivity.
    + exists preV, valid, postV. rewrite S3, <- app_assoc. split; [auto|]. split; [auto|]. split; [auto|]. split; [reflexivity|]. subst sv. reflexivity.
    + lia.
    + intros Ha. rewrite (N4 Ha), N3. unfold seen. rewrite Ha. lia.
    + lia.
    + lia.
    + intros Ha. destruct (M3 Ha) as [M4 M5]. rewrite (N4 Ha) in M5. rewrite N3 in M4. unfold seen in M4. rewrite Ha in M4. lia.
    + auto.
  - destruct (ch_prefix C) as (p0 & b0 & post & EO & Eq & Hpost & Et).
    pose proof (ch_order C) as Ho.
    assert (Hpres : forall b, In b (snd (fst c)) -> bin_present (tc_fb tc) (sp_feature sp) train b).
    { intros b Hb. apply in_ne. destruct Ho as [HP _]. eapply Permutation_in; [exact HP|exact Hb]. }
    pose proof (ch_part C) as Hpart. unfold to_left. destruct (sp_is_cat sp).
    + exists (snd c). split; [rewrite Eq; destruct p0; discriminate|].
      assert (Hp : forall b, In b (sp_partition sp) <-> In b (snd c)).
      { intro b. rewrite Hpart. split; apply Permutation_in; [|symmetry]; apply sort_bins_perm. }
      split.
      * intro b. rewrite mem_bin_in. apply Hp.
      * intros b Hb. apply Hpres. rewrite EO. rewrite Eq in Hb.
        apply in_app_iff in Hb. apply in_app_iff. simpl in *. tauto.
    + exists b0. split; [apply Hpres; rewrite EO; apply in_elt|]. intro b. rewrite Et. reflexivity.
Qed.
End Generic.

(** ** C21 *)

Theorem C21_classification : forall (A : arith) (E : env A) K dirichlet crit st p fb y train0 valid0 weights tc,
  good_env E -> valid_fit p fb y train0 valid0 weights -> valid_labels K st (tp_is_categorical p) y ->
  init_tree_context (clf_task E K dirichlet crit st) p fb y weights = Ok tc ->
  forall ps start_train end_train start_valid end_valid train valid features s nc sp s',
  arrays_ok fb ps -> slice (p_train ps) start_train end_train = Ok train ->
  slice (p_valid ps) start_valid end_valid = Ok valid ->
  features <> [] -> (forall j, In j features -> j < fb_n_features fb) -> (tp_aggregation p = true -> valid <> []) ->
  node_stats (clf_task E K dirichlet crit st) tc features train valid = Ok nc ->
  find_node_split (clf_task E K dirichlet crit st) tc nc s = Ok (sp, s') -> sp_found sp = true ->
  exists ps' pos_train pos_valid cut,
    split_indices (clf_task E K dirichlet crit st) tc ps sp start_train end_train start_valid end_valid = Ok (ps', pos_train, pos_valid) /\
    split_done fb (tp_aggregation p) (tp_min_samples_leaf p) ps ps' sp
      start_train end_train start_valid end_valid pos_train pos_valid cut.
Proof.
  intros A E K d crit st p fb y train0 valid0 weights tc HE V HL Htc ps st0 et sv ev train valid features s nc sp s'
    HA HsT HsV Hne Hf Hagg Hns Hfind Hfound.
  destruct (clf_labels_ok E K d crit st _ y HE HL) as [Hy Hc].
  destruct (valid_data_ok (clf_shape E K d crit st) p fb y train0 valid0 weights tc V Hy Hc Htc)
    as (HD & Efb & Ey & Ew & _ & _ & Emsl & _ & Eag & _ & Ecat).
  subst fb. rewrite <- Eag in *. rewrite <- Emsl.
  destruct (split_node (clf_shape E K d crit st) tc HD ps st0 et sv ev train valid features s nc sp s') as (ps' & pt & pv & cut & H1 & H2 & _); auto.
  exists ps', pt, pv, cut. auto.
Qed.
Print Assumptions C21_classification.

Theorem C21_regression : forall (A : arith) (E : env A) p fb y train0 valid0 weights tc,
  good_env E -> valid_fit p fb y train0 valid0 weights ->
  init_tree_context (reg_task E) p fb y weights = Ok tc ->
  forall ps start_train end_train start_valid end_valid train valid features s nc sp s',
  arrays_ok fb ps -> slice (p_train ps) start_train end_train = Ok train ->
  slice (p_valid ps) start_valid end_valid = Ok valid ->
  features <> [] -> (forall j, In j features -> j < fb_n_features fb) -> (tp_aggregation p = true -> valid <> []) ->
  node_stats (reg_task E) tc features train valid = Ok nc ->
  find_node_split (reg_task E) tc nc s = Ok (sp, s') -> sp_found sp = true ->
  exists ps' pos_train pos_valid cut,
    split_indices (reg_task E) tc ps sp start_train end_train start_valid end_valid = Ok (ps', pos_train, pos_valid) /\
    split_done fb (tp_aggregation p) (tp_min_samples_leaf p) ps ps' sp
      start_train end_train start_valid end_valid pos_train pos_valid cut.
Proof.
  intros A E p fb y train0 valid0 weights tc HE V Htc ps st0 et sv ev train valid features s nc sp s'
    HA HsT HsV Hne Hf Hagg Hns Hfind Hfound.
  destruct (reg_labels_ok E (tp_is_categorical p) y HE) as [Hy Hc].
  destruct (valid_data_ok (reg_shape E) p fb y train0 valid0 weights tc V Hy Hc Htc)
    as (HD & Efb & Ey & Ew & _ & _ & Emsl & _ & Eag & _ & Ecat).
  subst fb. rewrite <- Eag in *. rewrite <- Emsl.
  destruct (split_node (reg_shape E) tc HD ps st0 et sv ev train valid features s nc sp s') as (ps' & pt & pv & cut & H1 & H2 & _); auto.
  exists ps', pt, pv, cut. auto.
Qed.
Print Assumptions C21_regression.

(** The hypotheses are met: the root of the example, where a split is found. *)
Definition ex_parts : parts := mkParts ex_train ex_valid (repeat 0 8) (repeat 0 8).

Example C21_example : arrays_ok ex_fb ex_parts /\
  (let* tc := init_tree_context ex_clf (ex_params true 2) ex_fb ex_labels ex_w in
   let* nc := node_stats ex_clf tc [1] ex_train ex_valid in
   let* ' (sp, s') := find_node_split ex_clf tc nc 5 in
   let* ' (ps', pt, pv) := split_indices ex_clf tc ex_parts sp 0 5 0 3 in
   Ok (sp_found sp, sp_is_cat sp, sp_n_train_left sp, p_train ps', p_valid ps', pt, pv)) =
  Ok (true, true, 1, [2; 0; 3; 4; 6], [5; 1; 7], 1, 1).
Proof.
  split; [|vm_compute; reflexivity].
  destruct ex_fb_packed as (_ & H2 & _). constructor; rewrite H2; unfold ex_parts, ex_train, ex_valid; simpl; lia.
Qed.

(** ** C22 *)

(** The binary search is exact on every sorted list of bins. *)
Theorem C22_binary_search_exact : forall b bins, StronglySorted le bins ->
  exists r, is_bin_in_partition b bins = Ok r /\ (r = true <-> In b bins).
Proof.
  intros b bins H. exists (existsb (Nat.eqb b) bins). split; [apply is_bin_in_partition_spec; auto|]. apply existsb_eqb.
Qed.
Print Assumptions C22_binary_search_exact.

Example C22_example : StronglySorted le [1; 4; 6; 9] /\ is_bin_in_partition 6 [1; 4; 6; 9] = Ok true /\
  is_bin_in_partition 7 [1; 4; 6; 9] = Ok false.
Proof. split; [repeat constructor|]. split; reflexivity. Qed.

(** On an unsorted list it is not: sorting the partition is needed. *)
Theorem C22_unsorted_refuted : exists b bins, In b bins /\ is_bin_in_partition b bins = Ok false.
Proof. exists 1, [6; 4; 1]. split; [simpl; auto|reflexivity]. Qed.
