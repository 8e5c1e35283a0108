(** * C17: node statistics are those of the samples of the node

    For any arithmetic (the sums are taken in the order of the samples). *)

Require Import List Arith Lia NArith QArith.
Require Import Verif.Base Verif.Num Verif.M_Bitarray Verif.P_Bitarray Verif.M_Utils
  Verif.M_Context Verif.M_Node Verif.M_Grow Verif.P_Utils Verif.P_List Verif.P_Task Verif.P_Node
  Verif.S_Fit Verif.P_Fit Verif.S_Node Verif.Ex_Data Verif.Ex_Valid.
Import ListNotations.
Local Open Scope nat_scope.
Local Open Scope list_scope.
Local Open Scope res_scope.

(** What is common to both tasks: counts, weights and bins of each tried feature. The
    validation statistics are computed only with aggregation. *)
Record counts_exact {A : arith} {E : env A} {tk : task A E} (tc : tctx A (tk_Y tk))
  (features train valid : list nat) (nc : nctx tk) : Prop := {
  ce_features : nc_features nc = features;
  ce_n_train : nc_n_train nc = length train;
  ce_n_valid : nc_n_valid nc = length valid;
  ce_w_train : nc_w_train nc = total_weight (tc_weights tc) train;
  ce_w_valid : nc_w_valid nc = if tc_aggregation tc then total_weight (tc_weights tc) valid else a0;
  ce_len : length (nc_rows nc) = length features;
  ce_rows : forall f j, nth_error features f = Some j -> exists r, nth_error (nc_rows nc) f = Some r /\
    (forall b, b < tc_max_n_bins tc ->
      get (r_n_train r) b = Ok (length (samples_in (tc_fb tc) train j b)) /\
      get (r_w_train r) b = Ok (total_weight (tc_weights tc) (samples_in (tc_fb tc) train j b)) /\
      get (r_n_valid r) b =
        Ok (if tc_aggregation tc then length (samples_in (tc_fb tc) valid j b) else 0) /\
      get (r_w_valid r) b =
        Ok (if tc_aggregation tc then total_weight (tc_weights tc) (samples_in (tc_fb tc) valid j b) else a0)) /\
    (* the bins listed as non-empty are exactly those that contain a sample *)
    NoDup (r_ne_train r) /\ NoDup (r_ne_valid r) /\
    (forall b, In b (r_ne_train r) <-> samples_in (tc_fb tc) train j b <> []) /\
    (forall b, In b (r_ne_valid r) <-> tc_aggregation tc = true /\ samples_in (tc_fb tc) valid j b <> [])
}.

Lemma in_distinct_samples : forall fb j l b,
  In b (distinct (map (binv fb j) l)) <-> samples_in fb l j b <> [].
Proof.
  intros fb j l b. rewrite distinct_in, in_map_iff. split.
  - intros [i [Hb Hi]] H. unfold samples_in in H. apply (filter_nil_iff _ l) with (x := i) in H; auto.
    apply Nat.eqb_neq in H. apply H. exact Hb.
  - intros H. destruct (samples_in fb l j b) as [|i t] eqn:Es; [congruence|].
    assert (Hin : In i (samples_in fb l j b)) by (rewrite Es; simpl; auto).
    apply filter_In in Hin. destruct Hin as [Hi Hb]. apply Nat.eqb_eq in Hb. exists i. split; auto.
Qed.

Lemma counts_exact_spec : forall {A : arith} {E : env A} {tk : task A E} (ts : task_shape tk) tc
  features train valid p,
  counts_exact tc features train valid (nctx_spec ts tc features train valid p).
Proof.
  intros A E tk ts tc features train valid p.
  constructor; cbn [nctx_spec nc_features nc_n_train nc_n_valid nc_w_train nc_w_valid nc_rows]; auto.
  - unfold seen. destruct (tc_aggregation tc); reflexivity.
  - apply map_length.
  - intros f j Hj. exists (row_spec ts tc j train (seen tc valid)). split; [rewrite nth_error_map, Hj; reflexivity|].
    cbn [row_spec r_n_train r_w_train r_n_valid r_w_valid r_ne_train r_ne_valid].
    split; [|split; [|split; [|split]]].
    + intros b Hb. rewrite !get_map_seq by auto. repeat split; auto;
        unfold seen; destruct (tc_aggregation tc); reflexivity.
    + apply distinct_nodup.
    + apply distinct_nodup.
    + intros b. apply in_distinct_samples.
    + intros b. etransitivity; [apply in_distinct_samples|]. unfold seen.
      destruct (tc_aggregation tc); simpl; intuition congruence.
Qed.

(** ** Classification *)

Theorem C17_classification : forall (A : arith) (E : env A) K dirichlet crit st p fb y train0 valid0 weights tc,
  good_env E -> valid_fit p fb y train0 valid0 weights ->
  valid_labels K st (tp_is_categorical p) y ->
  init_tree_context (clf_task E K dirichlet crit st) p fb y weights = Ok tc ->
  (* any node: any samples, any tried features *)
  forall features train valid, features <> [] -> (forall j, In j features -> j < fb_n_features fb) ->
  (forall i, In i train -> i < fb_n_samples fb) -> (forall i, In i valid -> i < fb_n_samples fb) ->
  match node_stats (clf_task E K dirichlet crit st) tc features train valid with
  | Err e => e = ZeroDiv /\ aisz (aadd (total_weight weights train) (amul (aofnat K) dirichlet)) = true
  | Ok nc =>
      counts_exact tc features train valid nc /\
      (* prediction: smoothed class frequencies *)
      length (nc_pred nc) = K /\
      (forall k, k < K -> get (nc_pred nc) k = Ok (smoothed_freq weights K dirichlet y train k)) /\
      (* loss: log loss of this prediction on the validation samples *)
      nc_loss nc = (if tc_aggregation tc
                    then log_loss weights y (fun k => nth k (nc_pred nc) a0) valid else a0) /\
      (* class weights per bin *)
      (forall f j r b k, nth_error features f = Some j -> nth_error (nc_rows nc) f = Some r ->
         b < tc_max_n_bins tc -> k < K ->
         exists row, get (r_hist r) b = Ok row /\
           get row k = Ok (total_weight weights (of_class y k (samples_in fb train j b))))
  end.
Proof.
  intros A E K d crit st p fb y train0 valid0 weights tc HE V HL Htc features train valid Hne Hf Ht Hv.
  destruct (clf_labels_ok E K d crit st _ y HE HL) as [Hy Hc].
  destruct (valid_data_ok (clf_shape E K d crit st) p fb y train0 valid0 weights tc V Hy Hc Htc)
    as (HD & Efb & Ey & Ew & _).
  set (ts := clf_shape E K d crit st) in *.
  assert (Hlab : forall i, lab ts tc i = nth i y 0) by (intro i; unfold lab; rewrite Ey; reflexivity).
  assert (Hwt : forall i, wt tc i = weight weights i) by (intro i; unfold wt; rewrite Ew; reflexivity).
  assert (Hbin : forall j i, bin tc j i = bin_of fb i j) by (intros j i; unfold bin; rewrite Efb; reflexivity).
  rewrite (node_stats_spec ts tc HD features train valid Hne);
    [|rewrite Efb; auto|unfold in_range, nsamp; rewrite Efb; auto|unfold in_range, nsamp; rewrite Efb; auto].
  rewrite clf_pred_end.
  2:{ unfold pred_spec, ts. simpl. unfold clf_pred. rewrite map_length, seq_length. auto. }
  assert (Htw : asum (map (wt tc) train) = total_weight weights train).
  { unfold total_weight, wt, weight. rewrite Ew. reflexivity. }
  rewrite Htw.
  set (W := aadd (total_weight weights train) (amul (aofnat K) d)) in *.
  destruct ((0 <? K) && aisz W)%bool eqn:EZ.
  - cbn [bind]. split; auto. apply andb_prop in EZ. apply EZ.
  - cbn [bind]. split; [apply counts_exact_spec|].
    cbn [nctx_spec nc_pred nc_loss nc_rows].
    assert (Hpred : pred_spec ts tc train =
      map (fun k => total_weight weights (of_class y k train)) (seq 0 K)).
    { unfold pred_spec, ts. cbn [clf_shape ts_pred]. unfold clf_pred. apply map_ext. intro k.
      unfold total_weight, of_class. f_equal.
      clear - Hlab Hwt. induction train as [|i l IH]; auto. cbn [map filter fst snd].
      rewrite Hlab. destruct (nth i y 0 =? k); cbn [map snd]; rewrite IH, ?Hwt; auto. }
    rewrite Hpred. rewrite map_map. split; [|split; [|split]].
    + rewrite map_length, seq_length. auto.
    + intros k Hk. rewrite get_map_seq by auto. reflexivity.
    + unfold loss_spec, seen. destruct (tc_aggregation tc); [|reflexivity].
      apply fold_left_ext. intros s i _. unfold ts. cbn [ts_loss clf_shape]. unfold clf_loss.
      change (lab (clf_shape E K d crit st) tc i) with (lab ts tc i). rewrite Hlab, Hwt. reflexivity.
    + intros f j r b k Hj Hr Hb Hk.
      rewrite (map_nth_error _ _ _ Hj) in Hr. inversion Hr; subst r; clear Hr.
      cbn [row_spec r_hist]. unfold ts. cbn [clf_shape ts_hist]. unfold clf_hist.
      rewrite get_map_seq by auto. eexists; split; [reflexivity|].
      rewrite get_map_seq by auto. f_equal. unfold total_weight, of_class, samples_in. f_equal.
      clear - Hlab Hwt Hbin. induction train as [|i l IH]; auto. cbn [map filter fst snd].
      rewrite Hlab, Hbin. destruct (bin_of fb i j =? b); cbn [filter andb]; auto.
      destruct (nth i y 0 =? k); cbn [map snd]; rewrite IH, ?Hwt; auto.
Qed.
Print Assumptions C17_classification.

(** ** Regression *)

Theorem C17_regression : forall (A : arith) (E : env A) p fb y train0 valid0 weights tc,
  good_env E -> valid_fit p fb y train0 valid0 weights ->
  init_tree_context (reg_task E) p fb y weights = Ok tc ->
  forall features train valid, features <> [] -> (forall j, In j features -> j < fb_n_features fb) ->
  (forall i, In i train -> i < fb_n_samples fb) -> (forall i, In i valid -> i < fb_n_samples fb) ->
  match node_stats (reg_task E) tc features train valid with
  | Err e => e = ZeroDiv /\ aisz (total_weight weights train) = true
  | Ok nc =>
      counts_exact tc features train valid nc /\
      (* prediction: weighted mean *)
      nc_pred nc = adiv (label_sum weights y train) (total_weight weights train) /\
      nc_loss nc = (if tc_aggregation tc then sq_loss weights y (nc_pred nc) valid else a0) /\
      (forall f j r b, nth_error features f = Some j -> nth_error (nc_rows nc) f = Some r ->
         b < tc_max_n_bins tc ->
         get (fst (r_hist r)) b = Ok (label_sum weights y (samples_in fb train j b)) /\
         get (snd (r_hist r)) b = Ok (label_sq_sum weights y (samples_in fb train j b)))
  end.
Proof.
  intros A E p fb y train0 valid0 weights tc HE V Htc features train valid Hne Hf Ht Hv.
  destruct (reg_labels_ok E (tp_is_categorical p) y HE) as [Hy Hc].
  destruct (valid_data_ok (reg_shape E) p fb y train0 valid0 weights tc V Hy Hc Htc)
    as (HD & Efb & Ey & Ew & _).
  set (ts := reg_shape E) in *.
  assert (Hlab : forall i, lab ts tc i = nth i y a0) by (intro i; unfold lab; rewrite Ey; reflexivity).
  assert (Hwt : forall i, wt tc i = weight weights i) by (intro i; unfold wt; rewrite Ew; reflexivity).
  assert (Hbin : forall j i, bin tc j i = bin_of fb i j) by (intros j i; unfold bin; rewrite Efb; reflexivity).
  rewrite (node_stats_spec ts tc HD features train valid Hne);
    [|rewrite Efb; auto|unfold in_range, nsamp; rewrite Efb; auto|unfold in_range, nsamp; rewrite Efb; auto].
  assert (Htw : asum (map (wt tc) train) = total_weight weights train).
  { unfold total_weight, wt, weight. rewrite Ew. reflexivity. }
  rewrite Htw. cbn [tk_pred_end reg_task]. unfold divM.
  destruct (aisz (total_weight weights train)) eqn:EZ; cbn [bind].
  - split; auto.
  - split; [apply counts_exact_spec|].
    cbn [nctx_spec nc_pred nc_loss nc_rows].
    assert (Hpred : pred_spec ts tc train = label_sum weights y train).
    { unfold pred_spec, ts. cbn [reg_shape ts_pred]. unfold reg_pred. rewrite map_map.
      unfold label_sum. apply (f_equal asum). apply map_ext. intro i. cbn [fst snd].
      change (lab (reg_shape E) tc i) with (lab ts tc i). rewrite Hlab, Hwt. reflexivity. }
    rewrite Hpred. split; [|split].
    + reflexivity.
    + unfold loss_spec, seen. destruct (tc_aggregation tc); [|reflexivity].
      apply fold_left_ext. intros s i _. unfold ts. cbn [ts_loss reg_shape]. unfold reg_loss.
      change (lab (reg_shape E) tc i) with (lab ts tc i). rewrite Hlab, Hwt. reflexivity.
    + intros f j r b Hj Hr Hb.
      rewrite (map_nth_error _ _ _ Hj) in Hr. inversion Hr; subst r; clear Hr.
      cbn [row_spec r_hist]. unfold ts. cbn [reg_shape ts_hist]. unfold reg_hist. cbn [fst snd].
      rewrite !get_map_seq by auto.
      assert (Hfil : filter (fun x : nat * num A * num A => fst (fst x) =? b)
          (map (fun i : nat => (bin tc j i, lab (reg_shape E) tc i, wt tc i)) train) =
        map (fun i : nat => (bin tc j i, lab (reg_shape E) tc i, wt tc i)) (samples_in fb train j b)).
      { unfold samples_in. clear - Hbin. induction train as [|i l IH]; auto. cbn [map filter fst].
        rewrite Hbin. destruct (bin_of fb i j =? b); cbn [map]; rewrite IH, ?Hbin; reflexivity. }
      split; apply (f_equal (@Ok _)); unfold label_sum, label_sq_sum; apply (f_equal asum);
        (etransitivity; [apply f_equal; exact Hfil | rewrite map_map; apply map_ext; intro i;
           cbn [fst snd]; change (lab (reg_shape E) tc i) with (lab ts tc i); rewrite Hlab, Hwt; reflexivity]).
Qed.
Print Assumptions C17_regression.

(** ** The hypotheses are met

    Statistics of the root of the example tree, both features tried, with aggregation: the
    theorems apply and the computed node context is not trivial. *)

Definition ex_tc : res (tctx QA nat) := init_tree_context ex_clf (ex_params true 2) ex_fb ex_labels ex_w.
Definition ex_tc_reg : res (tctx QA (num QA)) := init_tree_context ex_reg (ex_params true 2) ex_fb ex_y ex_w.

Lemma ex_node_ok :
  [0; 1] <> [] /\ (forall j, In j [0; 1] -> j < fb_n_features ex_fb) /\
  (forall i, In i ex_train -> i < fb_n_samples ex_fb) /\ (forall i, In i ex_valid -> i < fb_n_samples ex_fb).
Proof.
  destruct ex_fb_packed as (_ & H2 & H3). rewrite H2, H3. unfold ex_train, ex_valid. simpl.
  split; [discriminate|]. repeat split; lia.
Qed.

Example C17_classification_example :
  (exists tc, ex_tc = Ok tc /\
    match node_stats ex_clf tc [0; 1] ex_train ex_valid with
    | Err _ => False
    | Ok nc => nc_pred nc = [1 # 5; 7 # 15; 1 # 3]%Q /\ nc_w_train nc = 6%Q /\
               map r_ne_train (nc_rows nc) = [[0; 2; 3; 4]; [2; 1; 0]]
    end) /\
  good_env env_Q /\ valid_fit (ex_params true 2) ex_fb ex_labels ex_train ex_valid ex_w /\
  valid_labels 3 AllMods (tp_is_categorical (ex_params true 2)) ex_labels.
Proof.
  split.
  - eexists. split; [vm_compute; reflexivity|]. vm_compute. auto.
  - split; [apply ex_env_good|]. split; [apply ex_valid_fit; auto|apply (ex_valid_labels true 2)].
Qed.

Example C17_regression_example :
  (exists tc, ex_tc_reg = Ok tc /\
    match node_stats ex_reg tc [0; 1] ex_train ex_valid with
    | Err _ => False
    | Ok nc => nc_pred nc = (16 # 3)%Q /\ nc_loss nc = (608 # 9)%Q
    end) /\
  good_env env_Q /\ valid_fit (ex_params true 2) ex_fb ex_y ex_train ex_valid ex_w.
Proof.
  split.
  - eexists. split; [vm_compute; reflexivity|]. vm_compute. auto.
  - split; [apply ex_env_good|]. apply ex_valid_fit; auto.
Qed.
