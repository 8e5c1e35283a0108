(** * C17 for whole trees; C32, C33, C36: aggregation; C34, C35 for trees *)

Require Import List Arith Lia NArith Reals Lra Permutation Sorted.
Require Import Verif.Base Verif.Num Verif.M_Bitarray Verif.P_Bitarray Verif.M_Utils Verif.M_Impurity
  Verif.M_Context Verif.M_Node Verif.M_Split Verif.M_Tree Verif.M_Grow
  Verif.P_Utils Verif.P_List Verif.P_Stack Verif.P_Task Verif.P_Node
  Verif.P_Bins Verif.P_Scan Verif.P_Split Verif.P_Find Verif.P_Indices Verif.P_Tree Verif.P_Grow
  Verif.P_Repr Verif.P_Route Verif.S_Impurity Verif.P_Impurity Verif.S_Fit Verif.P_Fit Verif.P_FitTree Verif.S_Node Verif.T_Node Verif.S_Split
  Verif.P_SplitR Verif.P_SplitTasks Verif.P_Cuts Verif.T_Utils Verif.S_Tree Verif.P_Nodes Verif.T_Grow Verif.T_GrowR
  Verif.S_Prune Verif.P_Prune Verif.Ex_Data Verif.Ex_Valid Verif.Ex_R.
Import ListNotations.
Local Open Scope nat_scope.
Local Open Scope list_scope.
Local Open Scope res_scope.

Lemma clf_inv : forall {A : arith} {E : env A} K d crit st p fb y train valid weights s tc g,
  good_env E -> valid_fit p fb y train valid weights -> valid_labels K st (tp_is_categorical p) y ->
  tree_fit (clf_task E K d crit st) p fb y train valid weights s = Ok (tc, g) ->
  let ts := clf_shape E K d crit st in
  exists b, init_tree_context (clf_task E K d crit st) p fb y weights = Ok tc /\
    call_ctx ts p fb y weights tc /\ in_range tc train /\ in_range tc valid /\ fitted ts tc train valid s g b.
Proof.
  intros A E K d crit st p fb y train valid weights s tc g HE V HL Hfit ts.
  destruct (clf_labels_ok E K d crit st (tp_is_categorical p) y HE HL) as [Hy Hc].
  destruct (call_context ts p fb y train valid weights V Hy Hc) as (tc' & Hi' & C).
  pose proof (fit_fitted_gen ts p fb y train valid weights HE V Hy Hc True tc' s Hi') as HO.
  rewrite Hfit in HO. cbn [okz fst snd] in HO. destruct HO as [<- [b0 F]].
  { intros l Hl _. eapply okz_weaken; [exact (fun z => z)| |apply (ts_pred_end _ ts)]; auto. }
  { intros l lv s0 features os s' c Hl Hlv Hf Htr Hin _. eapply imp_of_okz; eauto. apply (cc_data _ _ _ _ _ _ C). }
  { auto. }
  exists b0. split; [exact Hi'|]. split; [exact C|].
  split; [|split; [|exact F]]; intros k HI; unfold nsamp; rewrite (cc_fb _ _ _ _ _ _ C);
    [apply (vf_train _ _ _ _ _ _ V)|apply (vf_valid _ _ _ _ _ _ V)]; auto.
Qed.

Lemma reg_inv : forall {A : arith} {E : env A} p fb y train valid weights s tc g,
  good_env E -> valid_fit p fb y train valid weights ->
  tree_fit (reg_task E) p fb y train valid weights s = Ok (tc, g) ->
  let ts := reg_shape E in
  exists b, init_tree_context (reg_task E) p fb y weights = Ok tc /\
    call_ctx ts p fb y weights tc /\ in_range tc train /\ in_range tc valid /\ fitted ts tc train valid s g b.
Proof.
  intros A E p fb y train valid weights s tc g HE V Hfit ts.
  destruct (reg_labels_ok E (tp_is_categorical p) y HE) as [Hy Hc].
  destruct (call_context ts p fb y train valid weights V Hy Hc) as (tc' & Hi' & C).
  pose proof (fit_fitted_gen ts p fb y train valid weights HE V Hy Hc True tc' s Hi') as HO.
  rewrite Hfit in HO. cbn [okz fst snd] in HO. destruct HO as [<- [b0 F]].
  { intros l Hl _. eapply okz_weaken; [exact (fun z => z)| |apply (ts_pred_end _ ts)]; auto. }
  { intros l lv s0 features os s' c Hl Hlv Hf Htr Hin _. eapply imp_of_okz; eauto. apply (cc_data _ _ _ _ _ _ C). }
  { auto. }
  exists b0. split; [exact Hi'|]. split; [exact C|].
  split; [|split; [|exact F]]; intros k HI; unfold nsamp; rewrite (cc_fb _ _ _ _ _ _ C);
    [apply (vf_train _ _ _ _ _ _ V)|apply (vf_valid _ _ _ _ _ _ V)]; auto.
Qed.

(** ** C17 for every node of a tree, in any arithmetic *)

Lemma node_context : forall {A : arith} {E : env A} {tk : task A E} (ts : task_shape tk) tc train valid s g b0,
  data_ok ts tc -> fitted ts tc train valid s g b0 -> in_range tc train -> in_range tc valid -> 1 <= fb_n_features (tc_fb tc) ->
  forall b p, inside b0 root_place b p ->
  exists nc, node_stats tk tc [0] (bd_train (broot b)) (bd_valid (broot b)) = Ok nc /\
    nc_pred nc = nc_pred (bd_nc (broot b)) /\ nc_loss nc = nc_loss (bd_nc (broot b)) /\
    nth_error (tr_y_pred (g_tree g)) (pl_id p) = Some (nc_pred nc) /\
    nd_loss (hnode (Wof tc) b p) = nc_loss nc /\
    nd_n_train (hnode (Wof tc) b p) = length (bd_train (broot b)) /\ nd_n_valid (hnode (Wof tc) b p) = length (bd_valid (broot b)) /\
    nd_w_train (hnode (Wof tc) b p) = asum (map (wt tc) (bd_train (broot b))) /\
    nd_w_valid (hnode (Wof tc) b p) = asum (map (wt tc) (seen tc (bd_valid (broot b)))) /\
    in_range tc (bd_train (broot b)) /\ in_range tc (bd_valid (broot b)).
Proof.
  intros A E tk ts tc train valid s g b0 HD F Htr Hva Hnf b p HI.
  destruct (grown ts tc train valid s g b0 F) as (s' & fs' & HG).
  destruct (inside_grows ts tc _ _ _ _ _ _ _ _ _ _ _ _ HG Htr Hva HI) as (I1 & I2 & s1 & fs1 & s2 & fs2 & G).
  destruct (grows_nc ts tc _ _ _ _ _ _ _ _ _ G) as (features & pr & _ & _ & Hp & E1).
  assert (Hh : here (Wof tc) (tr_nodes (g_tree g)) (tr_y_pred (g_tree g)) (tr_bp (g_tree g)) b p)
    by (eapply here_inside; [apply (fitted_here ts tc train valid s g b0 F)|exact HI]).
  apply here_pred in Hh. apply get_ok in Hh. rewrite E1 in Hh. cbn [nc_pred nctx_spec] in Hh.
  exists (nctx_spec ts tc [0] (bd_train (broot b)) (bd_valid (broot b)) pr).
  split; [|split; [|split; [|split; [|split; [|split; [|split; [|split; [|split; [|split]]]]]]]]]; auto.
  - rewrite (node_stats_spec ts tc HD); auto; [|discriminate|intros j [<-|[]]; lia]. rewrite Hp. reflexivity.
  - rewrite E1. reflexivity.
  - rewrite E1. reflexivity.
  - assert (E2 : nd_loss (hnode (Wof tc) b p) = nc_loss (bd_nc (broot b))) by (destruct b; reflexivity). rewrite E2, E1. reflexivity.
  - apply (hnode_counts ts tc train valid s g b0 F Htr Hva b p HI).
  - apply (hnode_counts ts tc train valid s g b0 F Htr Hva b p HI).
  - apply (hnode_counts ts tc train valid s g b0 F Htr Hva b p HI).
  - assert (E2 : nd_w_valid (hnode (Wof tc) b p) = nc_w_valid (bd_nc (broot b))) by (destruct b; reflexivity). rewrite E2, E1. reflexivity.
Qed.

Theorem C17_tree_classification : forall {A : arith} {E : env A} K dirichlet crit st p fb y train valid weights s tc g,
  good_env E -> valid_fit p fb y train valid weights -> valid_labels K st (tp_is_categorical p) y ->
  tree_fit (clf_task E K dirichlet crit st) p fb y train valid weights s = Ok (tc, g) ->
  forall id n, node_at (g_tree g) id n ->
  exists f pred,
    (* [f] tells the samples that pass through the node *)
    (forall i, f i = true <-> passes (g_tree g) (bin_of fb i) id) /\
    let here := filter f train in let hereV := filter f valid in
    nd_n_train n = length here /\ nd_n_valid n = length hereV /\
    nd_w_train n = total_weight weights here /\
    nd_w_valid n = (if tp_aggregation p then total_weight weights hereV else a0) /\
    nth_error (tr_y_pred (g_tree g)) id = Some pred /\ length pred = K /\
    (forall k, k < K -> get pred k = Ok (smoothed_freq weights K dirichlet y here k)) /\
    nd_loss n = (if tp_aggregation p then log_loss weights y (fun k => nth k pred a0) hereV else a0).
Proof.
  intros A E K d crit st p fb y train valid weights s tc g HE V HL Hfit id n Hn.
  destruct (clf_inv K d crit st p fb y train valid weights s tc g HE V HL Hfit) as (b0 & Hi & C & Htr & Hva & F).
  destruct (node_inside (clf_shape E K d crit st) tc train valid s g b0 F id n Hn) as (b & q & HI & -> & <-).
  pose proof (cc_data _ _ _ _ _ _ C) as HD. pose proof (vf_mf _ _ _ _ _ _ V) as Hmf.
  destruct (node_context (clf_shape E K d crit st) tc train valid s g b0 HD F Htr Hva) with (b := b) (p := q)
    as (nc & N1 & N2 & N3 & N4 & N5 & N6 & N7 & N8 & N9 & I1 & I2); [rewrite (cc_fb _ _ _ _ _ _ C); lia|auto|].
  destruct (sample_node (clf_shape E K d crit st) tc train valid s g b0 F b q HI) as (f & F1 & F2 & F3).
  exists f, (nc_pred nc). rewrite (cc_fb _ _ _ _ _ _ C) in F1. split; [exact F1|]. cbv zeta. rewrite <- F2, <- F3.
  assert (H17 := C17_classification A E K d crit st p fb y train valid weights tc HE V HL Hi [0] (bd_train (broot b)) (bd_valid (broot b))).
  rewrite N1 in H17. unfold in_range, nsamp in I1, I2. rewrite (cc_fb _ _ _ _ _ _ C) in I1, I2.
  destruct H17 as (_ & P1 & P2 & P3 & _); [discriminate|intros j [<-|[]]; lia|exact I1|exact I2|].
  rewrite <- (cc_agg _ _ _ _ _ _ C), <- (cc_w _ _ _ _ _ _ C) in *.
  split; [exact N6|]. split; [exact N7|]. split; [exact N8|].
  split; [rewrite N9; unfold seen; destruct (tc_aggregation tc); reflexivity|].
  split; [exact N4|]. split; [exact P1|]. split; [exact P2|]. rewrite N5. exact P3.
Qed.
Print Assumptions C17_tree_classification.

Theorem C17_tree_regression : forall {A : arith} {E : env A} p fb y train valid weights s tc g,
  good_env E -> valid_fit p fb y train valid weights ->
  tree_fit (reg_task E) p fb y train valid weights s = Ok (tc, g) ->
  forall id n, node_at (g_tree g) id n ->
  exists f pred,
    (forall i, f i = true <-> passes (g_tree g) (bin_of fb i) id) /\
    let here := filter f train in let hereV := filter f valid in
    nd_n_train n = length here /\ nd_n_valid n = length hereV /\
    nd_w_train n = total_weight weights here /\
    nd_w_valid n = (if tp_aggregation p then total_weight weights hereV else a0) /\
    nth_error (tr_y_pred (g_tree g)) id = Some pred /\
    pred = adiv (label_sum weights y here) (total_weight weights here) /\
    nd_loss n = (if tp_aggregation p then sq_loss weights y pred hereV else a0).
Proof.
  intros A E p fb y train valid weights s tc g HE V Hfit id n Hn.
  destruct (reg_inv p fb y train valid weights s tc g HE V Hfit) as (b0 & Hi & C & Htr & Hva & F).
  destruct (node_inside (reg_shape E) tc train valid s g b0 F id n Hn) as (b & q & HI & -> & <-).
  pose proof (cc_data _ _ _ _ _ _ C) as HD. pose proof (vf_mf _ _ _ _ _ _ V) as Hmf.
  destruct (node_context (reg_shape E) tc train valid s g b0 HD F Htr Hva) with (b := b) (p := q)
    as (nc & N1 & N2 & N3 & N4 & N5 & N6 & N7 & N8 & N9 & I1 & I2); [rewrite (cc_fb _ _ _ _ _ _ C); lia|auto|].
  destruct (sample_node (reg_shape E) tc train valid s g b0 F b q HI) as (f & F1 & F2 & F3).
  exists f, (nc_pred nc). rewrite (cc_fb _ _ _ _ _ _ C) in F1. split; [exact F1|]. cbv zeta. rewrite <- F2, <- F3.
  assert (H17 := C17_regression A E p fb y train valid weights tc HE V Hi [0] (bd_train (broot b)) (bd_valid (broot b))).
  rewrite N1 in H17. unfold in_range, nsamp in I1, I2. rewrite (cc_fb _ _ _ _ _ _ C) in I1, I2.
  destruct H17 as (_ & P1 & P2 & _); [discriminate|intros j [<-|[]]; lia|exact I1|exact I2|].
  rewrite <- (cc_agg _ _ _ _ _ _ C), <- (cc_w _ _ _ _ _ _ C) in *.
  split; [exact N6|]. split; [exact N7|]. split; [exact N8|].
  split; [rewrite N9; unfold seen; destruct (tc_aggregation tc); reflexivity|].
  split; [exact N4|]. split; [exact P1|]. rewrite N5. exact P2.
Qed.
Print Assumptions C17_tree_regression.

(** ** C32: the weights stored at the nodes *)

Theorem C32_weights : forall {E : env R_arith} (tk : task R_arith E) p fb y train valid weights s tc g,
  valid_call tk p fb y train valid weights -> tp_aggregation p = true ->
  tree_fit tk p fb y train valid weights s = Ok (tc, g) ->
  forall id n, node_at (g_tree g) id n ->
  (exists L, all_prunings (g_tree g) id L) /\
  forall L, all_prunings (g_tree g) id L ->
    (0 < Rsum (map (pruning_weight (g_tree g) (tp_step p)) L))%R /\
    nd_logw n = Some (ln (Rsum (map (pruning_weight (g_tree g) (tp_step p)) L))).
Proof.
  intros E tk p fb y train valid weights s tc g HC Ha Hfit id n Hn.
  destruct (fit_inv tk p fb y train valid weights s tc g HC Hfit) as (ts & b0 & C & V & Htr & Hva & F).
  destruct (node_inside ts tc train valid s g b0 F id n Hn) as (b & q & HI & -> & <-).
  pose proof (bprunes_all ts tc train valid s g b0 F b q HI) as HA.
  split; [eauto|]. intros L HL.
  rewrite (Rsum_perm _ _ (Permutation_map _ (all_prunings_perm g _ _ _ HL HA))).
  rewrite <- (cc_step _ _ _ _ _ _ C). rewrite (exp_lw ts tc train valid s g b0 F b q HI).
  split; [apply exp_pos|]. rewrite ln_exp.
  rewrite <- (cc_agg _ _ _ _ _ _ C) in Ha.
  destruct b; cbn [hnode mknode nd_logw]; unfold Wof; rewrite Ha; reflexivity.
Qed.
Print Assumptions C32_weights.

(** The losses summed over the leaves of a pruning are the loss of the pruning on the
    validation samples, as a predictor. *)
Section Loss.
Context {E : env R_arith} {tk : task R_arith E} (ts : task_shape tk).
Context (tc : tctx R_arith (tk_Y tk)).
Context (train valid : list nat) (s : rng E) (g : gstate tk) (b0 : btree tk).
Context (F : fitted ts tc train valid s g b0) (Htr : in_range tc train) (Hva : in_range tc valid).
Context (loss : nat -> nat -> R).
Context (Hloss : forall b p, inside b0 root_place b p ->
  nd_loss (hnode (Wof tc) b p) = Rsum (map (fun i => loss i (pl_id p)) (bd_valid (broot b)))).

Lemma pruning_loss_samples : forall b p pr, inside b0 root_place b p -> In pr (bprunes b p) ->
  pruning_loss (g_tree g) pr = Rsum (map (fun i => loss i (rleaf (bin_of (tc_fb tc) i) b p pr)) (bd_valid (broot b))).
Proof.
  assert (HCut : forall b p, inside b0 root_place b p -> pruning_loss (g_tree g) (Cut (pl_id p)) =
    Rsum (map (fun i => loss i (pl_id p)) (bd_valid (broot b)))).
  { intros b p HI. unfold pruning_loss. cbn [pruned_leaves map Rsum]. unfold loss_at.
    destruct (inside_node ts tc train valid s g b0 F b p HI) as [_ ->]. rewrite (Hloss b p HI). lra. }
  induction b as [d|d l IHl r IHr]; intros p pr HI H; cbn [bprunes] in H.
  - destruct H as [<-|[]]. apply (HCut (BLeaf d)); auto.
  - destruct H as [<-|H]; [apply (HCut (BNode d l r)); auto|]. apply in_flat_map in H. destruct H as (x & Hx & H).
    apply in_map_iff in H. destruct H as (y & <- & Hy).
    unfold pruning_loss. cbn [pruned_leaves]. rewrite map_app, Rsum_app.
    change (Rsum (map (loss_at (g_tree g)) (pruned_leaves x))) with (pruning_loss (g_tree g) x).
    change (Rsum (map (loss_at (g_tree g)) (pruned_leaves y))) with (pruning_loss (g_tree g) y).
    rewrite (IHl (lplace p d l r) x) by (auto; apply In_left; auto).
    rewrite (IHr (rplace p d l r) y) by (auto; apply In_right; auto).
    pose proof (inside_children ts tc train valid s g b0 F Htr Hva d l r p HI) as CH.
    rewrite (cd_valid_l _ _ _ _ _ CH), (cd_valid_r _ _ _ _ _ CH). cbn [broot rleaf].
    rewrite <- (Rsum_filter_split _ (goes tc (bd_sp d)) (bd_valid d)).
    f_equal.
    + apply Rsum_ext. intros i Hi. apply filter_In in Hi. destruct Hi as [_ Hi].
      change (to_left (bd_sp d) (bin_of (tc_fb tc) i (sp_feature (bd_sp d))) = true) in Hi. rewrite Hi. reflexivity.
    + change (filter (stays tc (bd_sp d)) (bd_valid d)) with (filter (fun i => negb (goes tc (bd_sp d) i)) (bd_valid d)).
      apply Rsum_ext. intros i Hi. apply filter_In in Hi. destruct Hi as [_ Hi]. apply Bool.negb_true_iff in Hi.
      change (to_left (bd_sp d) (bin_of (tc_fb tc) i (sp_feature (bd_sp d))) = false) in Hi. rewrite Hi. reflexivity.
Qed.

Lemma pruning_loss_root : forall pr, is_pruning (g_tree g) 0 pr ->
  exists lf : nat -> nat, (forall i, pruned_leaf (g_tree g) (bin_of (tc_fb tc) i) pr (lf i)) /\
  pruning_loss (g_tree g) pr = Rsum (map (fun i => loss i (lf i)) valid).
Proof.
  intros pr H. change 0 with (pl_id root_place) in H. apply (bprunes_in ts tc train valid s g b0 F b0 root_place pr (In_root _ _)) in H.
  exists (fun i => rleaf (bin_of (tc_fb tc) i) b0 root_place pr). split.
  - intros i. eapply rleaf_ok; eauto. apply In_root.
  - rewrite (pruning_loss_samples b0 root_place pr (In_root _ _) H).
    destruct (inside_root_data ts tc train valid s g b0 F) as (_ & _ & _ & ->). reflexivity.
Qed.
End Loss.

Lemma log_loss_R : forall weights y (p : nat -> R) l, @log_loss R_arith weights y p l =
  Rsum (map (fun i => (- (@weight R_arith weights i * ln (p (nth i y O))))%R) l).
Proof.
  intros weights y p l. unfold log_loss.
  assert (G : forall z : R, fold_left (fun loss i => asub loss (amul (@weight R_arith weights i) (aln (p (nth i y O))))) l (z : num R_arith) =
    (z + Rsum (map (fun i => (- (@weight R_arith weights i * ln (p (nth i y O))))%R) l))%R).
  { induction l as [|i l IH]; intros z; cbn [fold_left map Rsum]; [lra|]. etransitivity; [apply IH|].
    change (asub (z : num R_arith) (amul (@weight R_arith weights i) (aln (p (nth i y O))))) with (z - @weight R_arith weights i * ln (p (nth i y O)))%R. lra. }
  etransitivity; [apply G|]. change (@a0 R_arith) with 0%R. lra.
Qed.

Lemma sq_loss_R : forall weights y (m : R) l, @sq_loss R_arith weights y m l =
  Rsum (map (fun i => (@weight R_arith weights i * (nth i y 0%R - m) ^ 2)%R) l).
Proof.
  intros weights y m l. unfold sq_loss.
  match goal with |- fold_left ?f l _ = _ => assert (G : forall z : R, fold_left f l (z : num R_arith) =
    (z + Rsum (map (fun i => (@weight R_arith weights i * (nth i y 0%R - m) ^ 2)%R) l))%R) end.
  { induction l as [|i l IH]; intros z; cbn [fold_left map Rsum]; [lra|]. etransitivity; [apply IH|].
    match goal with |- (?a + _ = _)%R => change a with (z + @weight R_arith weights i * (nth i y 0%R - m) * (nth i y 0%R - m))%R end.
    match goal with |- @eq _ ?a ?b => change (@eq R a b) end. ring. }
  etransitivity; [apply G|]. change (@a0 R_arith) with 0%R. lra.
Qed.

Lemma class_prob_of : forall (t : tree R_arith (list R)) k id v, nth_error (tr_y_pred t) id = Some v -> class_prob t k id = nth k v 0%R.
Proof. intros t k id v H. unfold class_prob. rewrite H. reflexivity. Qed.
Lemma value_at_of : forall (t : tree R_arith R) id v, nth_error (tr_y_pred t) id = Some v -> value_at t id = v.
Proof. intros t id v H. unfold value_at. rewrite H. reflexivity. Qed.

Theorem C32_loss_classification : forall (E : env R_arith) K dirichlet crit st p fb y train valid weights s tc g,
  good_env E -> valid_fit p fb y train valid weights -> valid_labels K st (tp_is_categorical p) y ->
  tp_aggregation p = true ->
  tree_fit (clf_task E K dirichlet crit st) p fb y train valid weights s = Ok (tc, g) ->
  forall pr, is_pruning (g_tree g) 0 pr ->
  exists lf : nat -> nat, (forall i, pruned_leaf (g_tree g) (bin_of fb i) pr (lf i)) /\
  pruning_loss (g_tree g) pr =
  Rsum (map (fun i => - (@weight R_arith weights i * ln (class_prob (g_tree g) (nth i y O) (lf i))))%R valid).
Proof.
  intros E K d crit st p fb y train valid weights s tc g HE V HL Ha Hfit pr Hpr.
  destruct (clf_inv K d crit st p fb y train valid weights s tc g HE V HL Hfit) as (b0 & Hi & C & Htr & Hva & F).
  pose proof (cc_data _ _ _ _ _ _ C) as HD. pose proof (vf_mf _ _ _ _ _ _ V) as Hmf.
  rewrite <- (cc_fb _ _ _ _ _ _ C) in *.
  apply (pruning_loss_root (clf_shape E K d crit st) tc train valid s g b0 F Htr Hva
    (fun i id => - (@weight R_arith weights i * ln (class_prob (g_tree g) (nth i y O) id)))%R); auto.
  intros b q HI.
  destruct (node_context (clf_shape E K d crit st) tc train valid s g b0 HD F Htr Hva (proj1 (conj (Nat.le_trans _ _ _ (proj1 Hmf) (proj2 Hmf)) I)) b q HI)
    as (nc & N1 & _ & _ & N4 & N5 & _ & _ & _ & _ & I1 & I2).
  rewrite N5.
  assert (H17 := C17_classification R_arith E K d crit st p (tc_fb tc) y train valid weights tc HE V HL Hi [0] (bd_train (broot b)) (bd_valid (broot b))).
  rewrite N1 in H17. 
  destruct H17 as (_ & P1 & P2 & P3 & _); [discriminate|intros j [<-|[]]; lia|exact I1|exact I2|].
  rewrite P3. rewrite (cc_agg _ _ _ _ _ _ C), Ha. rewrite log_loss_R. apply Rsum_ext. intros i _.
  rewrite (class_prob_of (g_tree g) (nth i y O) (pl_id q) (nc_pred nc) N4). reflexivity.
Qed.
Print Assumptions C32_loss_classification.

Theorem C32_loss_regression : forall (E : env R_arith) p fb y train valid weights s tc g,
  good_env E -> valid_fit p fb y train valid weights ->
  tp_aggregation p = true ->
  tree_fit (reg_task E) p fb y train valid weights s = Ok (tc, g) ->
  forall pr, is_pruning (g_tree g) 0 pr ->
  exists lf : nat -> nat, (forall i, pruned_leaf (g_tree g) (bin_of fb i) pr (lf i)) /\
  pruning_loss (g_tree g) pr =
  Rsum (map (fun i => @weight R_arith weights i * (nth i y 0%R - value_at (g_tree g) (lf i)) ^ 2)%R valid).
Proof.
  intros E p fb y train valid weights s tc g HE V Ha Hfit pr Hpr.
  destruct (reg_inv p fb y train valid weights s tc g HE V Hfit) as (b0 & Hi & C & Htr & Hva & F).
  pose proof (cc_data _ _ _ _ _ _ C) as HD. pose proof (vf_mf _ _ _ _ _ _ V) as Hmf.
  rewrite <- (cc_fb _ _ _ _ _ _ C) in *.
  apply (pruning_loss_root (reg_shape E) tc train valid s g b0 F Htr Hva
    (fun i id => @weight R_arith weights i * (nth i y 0%R - value_at (g_tree g) id) ^ 2)%R); auto.
  intros b q HI.
  destruct (node_context (reg_shape E) tc train valid s g b0 HD F Htr Hva (Nat.le_trans _ _ _ (proj1 Hmf) (proj2 Hmf)) b q HI)
    as (nc & N1 & _ & _ & N4 & N5 & _ & _ & _ & _ & I1 & I2).
  rewrite N5.
  assert (H17 := C17_regression R_arith E p (tc_fb tc) y train valid weights tc HE V Hi [0] (bd_train (broot b)) (bd_valid (broot b))).
  rewrite N1 in H17. 
  destruct H17 as (_ & P1 & P2 & _); [discriminate|intros j [<-|[]]; lia|exact I1|exact I2|].
  rewrite P2. rewrite (cc_agg _ _ _ _ _ _ C), Ha. rewrite sq_loss_R. apply Rsum_ext. intros i _.
  rewrite (value_at_of (g_tree g) (pl_id q) (nc_pred nc) N4). reflexivity.
Qed.
Print Assumptions C32_loss_regression.
