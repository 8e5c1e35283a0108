(** * C74: a large step selects the prunings that predict the rows left out best

    The weight of the prunings whose validation loss exceeds the one of some pruning [best] by
    [delta] or more decreases like [exp (- step * delta)], and the predictions are those of the
    other prunings up to this weight. *)

Require Import List Arith Lia NArith Reals Lra Permutation Sorted.
Require Import Verif.Base Verif.Num Verif.M_Bitarray Verif.P_Bitarray Verif.M_Utils Verif.M_Impurity
  Verif.M_Context Verif.M_Node Verif.M_Split Verif.M_Tree Verif.M_Grow
  Verif.P_Utils Verif.P_List Verif.P_Stack Verif.P_Task Verif.P_Node
  Verif.P_Bins Verif.P_Scan Verif.P_Split Verif.P_Find Verif.P_Indices Verif.P_Tree Verif.P_Grow
  Verif.P_Repr Verif.P_Route Verif.S_Impurity Verif.P_Impurity Verif.S_Fit Verif.P_Fit Verif.P_FitTree Verif.S_Node Verif.T_Node Verif.S_Split
  Verif.P_SplitR Verif.P_SplitTasks Verif.P_Cuts Verif.T_Utils Verif.S_Tree Verif.P_Nodes Verif.T_Grow Verif.T_GrowR
  Verif.S_Prune Verif.P_Prune Verif.T_Prune Verif.T_Aggregate Verif.Ex_Data Verif.Ex_Valid Verif.Ex_R.
Import ListNotations.
Local Open Scope nat_scope.

(** ** Sums *)
Lemma Rsum_le_ext : forall {X} (f h : X -> R) l, (forall x, In x l -> (f x <= h x)%R) -> (Rsum (map f l) <= Rsum (map h l))%R.
Proof.
  intros X f h l. induction l as [|x l IH]; intros H; cbn [map Rsum]; [lra|]. apply Rplus_le_compat; [apply H; left; reflexivity|]. apply IH. intros y Hy. apply H. right. exact Hy.
Qed.
Lemma Rsum_plus : forall {X} (f h : X -> R) l, Rsum (map (fun x => f x + h x)%R l) = (Rsum (map f l) + Rsum (map h l))%R.
Proof. intros X f h l. induction l as [|x l IH]; cbn [map Rsum]; [lra|]. rewrite IH. lra. Qed.
Lemma Rsum_scale : forall {X} c (f : X -> R) l, Rsum (map (fun x => c * f x)%R l) = (c * Rsum (map f l))%R.
Proof. intros X c f l. induction l as [|x l IH]; cbn [map Rsum]; [lra|]. rewrite IH. lra. Qed.
Lemma Rsum_member : forall {X} (f : X -> R) l x, (forall y, In y l -> (0 <= f y)%R) -> In x l -> (f x <= Rsum (map f l))%R.
Proof.
  intros X f l x. induction l as [|y l IH]; intros H Hx; [destruct Hx|]. cbn [map Rsum].
  assert (0 <= Rsum (map f l))%R.
  { assert (K : forall z, In z l -> (0 <= f z)%R) by (intros z Hz; apply H; right; exact Hz). clear - K. induction l as [|z l IH]; cbn [map Rsum]; [lra|].
    assert (0 <= f z)%R by (apply K; left; reflexivity). assert (0 <= Rsum (map f l))%R by (apply IH; intros u Hu; apply K; right; exact Hu). lra. }
  destruct Hx as [<-|Hx]; [lra|]. assert (0 <= f y)%R by (apply H; left; reflexivity). assert (f x <= Rsum (map f l))%R by (apply IH; auto; intros z Hz; apply H; right; exact Hz). lra.
Qed.

(** ** Weights that decrease exponentially with a loss *)
Section Weights.
Context {X : Type} (L : list X) (prior loss : X -> R) (step : R) (best : X) (delta : R).
Notation weight p := (prior p * exp (- step * loss p))%R.
Context (Hprior : forall p, (0 < prior p)%R) (Hsum : Rsum (map prior L) = 1%R) (Hstep : (0 <= step)%R) (Hbest : In best L).

(** Bad: a loss larger than the one of [best] by [delta] or more. *)
Definition bad (p : X) : bool := if Rle_dec (loss best + delta) (loss p) then true else false.
Definition excess : R := (exp (- step * delta) / prior best)%R.
Definition all_weight : R := Rsum (map (fun p => weight p) L).
Definition bad_weight : R := Rsum (map (fun p => if bad p then weight p else 0)%R L).

Lemma weight_pos : forall p, (0 < weight p)%R.
Proof. intros p. apply Rmult_lt_0_compat; [apply Hprior | apply exp_pos]. Qed.

Lemma all_weight_pos : (0 < all_weight)%R.
Proof.
  apply (Rlt_le_trans _ (weight best)); [apply weight_pos|]. apply (Rsum_member (fun p => weight p)); [|exact Hbest]. intros y _. apply Rlt_le, weight_pos.
Qed.

Lemma bad_weight_le : (bad_weight <= excess * all_weight)%R.
Proof.
  assert (H1 : (bad_weight <= exp (- step * (loss best + delta)))%R).
  { apply (Rle_trans _ (Rsum (map (fun p => exp (- step * (loss best + delta)) * prior p)%R L))).
    - apply Rsum_le_ext. intros p _. unfold bad. destruct (Rle_dec _ _) as [Hl|_].
      + rewrite Rmult_comm. apply Rmult_le_compat_r; [apply Rlt_le, Hprior|].
        assert (Hle : (- step * loss p <= - step * (loss best + delta))%R). { apply Rmult_le_compat_neg_l; lra. }
        destruct Hle as [Hlt|Heq]; [left; apply exp_increasing; exact Hlt | right; rewrite Heq; reflexivity].
      + apply Rmult_le_pos; [left; apply exp_pos | apply Rlt_le, Hprior].
    - rewrite Rsum_scale, Hsum. lra. }
  assert (H2 : (weight best <= all_weight)%R).
  { apply (Rsum_member (fun p => weight p)); [|exact Hbest]. intros y _. apply Rlt_le, weight_pos. }
  apply (Rle_trans _ _ _ H1). apply (Rle_trans _ (excess * weight best)).
  - right. unfold excess. rewrite Rmult_plus_distr_l, exp_plus. field. pose proof (Hprior best). lra.
  - apply Rmult_le_compat_l; [|exact H2]. unfold excess, Rdiv. apply Rmult_le_pos; [left; apply exp_pos | left; apply Rinv_0_lt_compat, Hprior].
Qed.

Context (value : X -> R) (lo hi a b : R).
Context (Hgood : forall p, In p L -> (loss p < loss best + delta)%R -> (lo <= value p <= hi)%R).
Context (Hall : forall p, In p L -> (a <= value p <= b)%R) (Hdelta : (0 < delta)%R).

Lemma average_close : (lo - excess * (b - a) <= Rsum (map (fun p => weight p * value p)%R L) / all_weight <= hi + excess * (b - a))%R.
Proof.
  pose proof all_weight_pos as HW. pose proof bad_weight_le as HB. pose proof (Hall best Hbest) as Hb.
  assert (Hg : (lo <= value best <= hi)%R) by (apply Hgood; [exact Hbest | lra]).
  assert (Hab : (0 <= b - a)%R) by lra.
  assert (U : (Rsum (map (fun p => weight p * value p)%R L) <= hi * all_weight + (b - a) * bad_weight)%R).
  { unfold all_weight, bad_weight. rewrite <- !Rsum_scale, <- Rsum_plus. apply Rsum_le_ext. intros p Hp. pose proof (weight_pos p) as Hw. pose proof (Hall p Hp) as Hv.
    unfold bad. destruct (Rle_dec _ _) as [Hl|Hl].
    - assert (weight p * value p <= weight p * (hi + (b - a)))%R by (apply Rmult_le_compat_l; lra). lra.
    - destruct (Hgood p Hp) as [_ G]; [lra|]. assert (weight p * value p <= weight p * hi)%R by (apply Rmult_le_compat_l; lra). lra. }
  assert (D : (lo * all_weight <= Rsum (map (fun p => weight p * value p)%R L) + (b - a) * bad_weight)%R).
  { unfold all_weight, bad_weight. rewrite <- !Rsum_scale, <- Rsum_plus. apply Rsum_le_ext. intros p Hp. pose proof (weight_pos p) as Hw. pose proof (Hall p Hp) as Hv.
    unfold bad. destruct (Rle_dec _ _) as [Hl|Hl].
    - assert (weight p * (lo - (b - a)) <= weight p * value p)%R by (apply Rmult_le_compat_l; lra). lra.
    - destruct (Hgood p Hp) as [G _]; [lra|]. assert (weight p * lo <= weight p * value p)%R by (apply Rmult_le_compat_l; lra). lra. }
  assert (HB' : ((b - a) * bad_weight <= (b - a) * (excess * all_weight))%R) by (apply Rmult_le_compat_l; lra).
  split.
  - apply (Rmult_le_reg_r all_weight); [exact HW|]. unfold Rdiv. rewrite (Rmult_assoc (Rsum _)), Rinv_l, Rmult_1_r by lra. lra.
  - apply (Rmult_le_reg_r all_weight); [exact HW|]. unfold Rdiv. rewrite (Rmult_assoc (Rsum _)), Rinv_l, Rmult_1_r by lra. lra.
Qed.
End Weights.

(** ** Trees *)
Section Priors.
Context {E : env R_arith} {tk : task R_arith E} (ts : task_shape tk) (tc : tctx R_arith (tk_Y tk)).
Context (train valid : list nat) (s : rng E) (g : gstate tk) (b0 : btree tk) (F : fitted ts tc train valid s g b0).

Lemma prior_cut : forall b p, inside b0 root_place b p -> prior (g_tree g) (Cut (pl_id p)) = match b with BLeaf _ => 1%R | BNode _ _ _ => (/ 2)%R end.
Proof.
  intros b p HI. unfold prior. cbn [kept_nodes filter]. rewrite (is_inner_inside ts tc train valid s g b0 F b p HI). destruct b; cbn [length pow]; lra.
Qed.

Lemma prior_sum : forall b p, inside b0 root_place b p -> Rsum (map (prior (g_tree g)) (bprunes b p)) = 1%R.
Proof.
  induction b as [d|d l IHl r IHr]; intros p HI; cbn [bprunes map Rsum]; rewrite (prior_cut _ _ HI); [lra|].
  assert (Hi : is_inner (g_tree g) (pl_id p) = true) by (rewrite (is_inner_inside ts tc train valid s g b0 F _ p HI); auto).
  rewrite Rsum_flat_map. rewrite (Rsum_ext _ (fun x => (/ 2) * prior (g_tree g) x)%R).
  - rewrite Rsum_scal, (IHl (lplace p d l r)) by (apply In_left; auto). lra.
  - intros x _. rewrite map_map. rewrite (Rsum_ext _ (fun y => (/ 2 * prior (g_tree g) x) * prior (g_tree g) y)%R).
    + rewrite Rsum_scal, (IHr (rplace p d l r)) by (apply In_right; auto). lra.
    + intros y _. rewrite prior_keep by auto. ring.
Qed.
End Priors.

Lemma prior_pos : forall {P} (t : tree R_arith P) p, (0 < prior t p)%R.
Proof. intros. unfold prior. apply pow_lt. lra. Qed.

(** The priors of all the prunings of a fitted tree add up to one. *)
Lemma priors : forall {E : env R_arith} (tk : task R_arith E) p fb y train valid weights s tc g,
  valid_call tk p fb y train valid weights -> tree_fit tk p fb y train valid weights s = Ok (tc, g) ->
  forall L, all_prunings (g_tree g) 0 L -> Rsum (map (prior (g_tree g)) L) = 1%R.
Proof.
  intros E tk p fb y train valid weights s tc g HC Hfit L HL.
  destruct (fit_inv tk p fb y train valid weights s tc g HC Hfit) as (ts & b0 & C & V & Htr & Hva & F).
  pose proof (bprunes_all ts tc train valid s g b0 F b0 root_place (In_root _ _)) as HA. cbn [root_place pl_id] in HA.
  rewrite (Rsum_perm _ _ (Permutation_map _ (all_prunings_perm g _ _ _ HL HA))). apply (prior_sum ts tc train valid s g b0 F b0 root_place (In_root _ _)).
Qed.

(** The share of the weight of the prunings that lose by [delta] or more against [best]. *)
Theorem C74_share : forall {E : env R_arith} (tk : task R_arith E) p fb y train valid weights s tc g,
  valid_call tk p fb y train valid weights -> tp_aggregation p = true -> (0 <= tp_step p)%R ->
  tree_fit tk p fb y train valid weights s = Ok (tc, g) ->
  forall L best delta losers, all_prunings (g_tree g) 0 L -> is_pruning (g_tree g) 0 best ->
  NoDup losers -> (forall pr, In pr losers -> is_pruning (g_tree g) 0 pr /\ pruning_loss (g_tree g) best + delta <= pruning_loss (g_tree g) pr)%R ->
  (Rsum (map (pruning_weight (g_tree g) (tp_step p)) losers) <=
   exp (- tp_step p * delta) / prior (g_tree g) best * Rsum (map (pruning_weight (g_tree g) (tp_step p)) L))%R.
Proof.
  intros E tk p fb y train valid weights s tc g HC Ha Hs Hfit L best delta losers HL Hbest Hnd Hlose.
  pose proof (priors tk p fb y train valid weights s tc g HC Hfit L HL) as HP.
  pose proof (bad_weight_le L (prior (g_tree g)) (pruning_loss (g_tree g)) (tp_step p) best delta (prior_pos (g_tree g)) HP Hs (proj2 (proj2 HL best) Hbest)) as HB.
  apply (Rle_trans _ (bad_weight L (prior (g_tree g)) (pruning_loss (g_tree g)) (tp_step p) best delta)); [|exact HB].
  set (w := fun pr => if bad (pruning_loss (g_tree g)) best delta pr then (prior (g_tree g) pr * exp (- tp_step p * pruning_loss (g_tree g) pr))%R else 0%R).
  assert (Ew : Rsum (map (pruning_weight (g_tree g) (tp_step p)) losers) = Rsum (map w losers)).
  { f_equal. apply map_ext_in. intros pr Hpr. unfold w, bad. destruct (Rle_dec _ _) as [_|N]; [reflexivity|]. exfalso. apply N. apply Hlose. exact Hpr. }
  rewrite Ew. change (bad_weight L (prior (g_tree g)) (pruning_loss (g_tree g)) (tp_step p) best delta) with (Rsum (map w L)).
  assert (Hw : forall pr, (0 <= w pr)%R).
  { intros pr. unfold w. destruct (bad _ _ _ _); [|lra]. left. apply Rmult_lt_0_compat; [apply prior_pos | apply exp_pos]. }
  assert (Hin : incl losers L) by (intros pr Hpr; apply (proj2 HL), Hlose, Hpr).
  clear - Hw Hin Hnd. revert L Hin. induction Hnd as [|x l Hx Hnd IH]; intros L Hin.
  - cbn [map Rsum]. clear Hin. induction L as [|z L IH]; cbn [map Rsum]; [lra|]. pose proof (Hw z). lra.
  - destruct (in_split x L (Hin x (or_introl eq_refl))) as (L1 & L2 & ->).
    rewrite (Rsum_perm _ _ (Permutation_map w (Permutation_sym (Permutation_middle L1 L2 x)))). cbn [map Rsum]. apply Rplus_le_compat_l. apply IH.
    intros z Hz. assert (In z (L1 ++ x :: L2)) as Hz' by (apply Hin; right; exact Hz). apply in_app_iff in Hz'. apply in_app_iff.
    destruct Hz' as [Hz'|[->|Hz']]; auto. contradiction.
Qed.
Print Assumptions C74_share.

(** The prediction is in the range [lo, hi] of the prunings that lose by less than [delta] against
    [best], up to the weight of the others. *)
Theorem C74_regression : forall (E : env R_arith) p fb y train valid weights s tc g,
  good_env E -> valid_fit p fb y train valid weights -> tp_aggregation p = true -> (0 <= tp_step p)%R ->
  tree_fit (reg_task E) p fb y train valid weights s = Ok (tc, g) ->
  forall fb' i, fba_wf fb' -> i < fb_n_samples fb' -> fb_n_features fb' = fb_n_features fb ->
  exists v, predict_one mix_num (g_tree g) fb' true (tp_step p) i = Ok v /\
  forall best delta lo hi a b, is_pruning (g_tree g) 0 best -> (0 < delta)%R ->
  (forall pr leaf, is_pruning (g_tree g) 0 pr -> pruned_leaf (g_tree g) (bin_of fb' i) pr leaf -> (a <= value_at (g_tree g) leaf <= b)%R) ->
  (forall pr leaf, is_pruning (g_tree g) 0 pr -> pruned_leaf (g_tree g) (bin_of fb' i) pr leaf ->
     (pruning_loss (g_tree g) pr < pruning_loss (g_tree g) best + delta)%R -> (lo <= value_at (g_tree g) leaf <= hi)%R) ->
  let rest := (exp (- tp_step p * delta) / prior (g_tree g) best * (b - a))%R in (lo - rest <= v <= hi + rest)%R.
Proof.
  intros E p fb y train valid weights s tc g HE V Ha Hs Hfit fb' i Hwf Hi Hnf.
  destruct (C33_regression E p fb y train valid weights s tc g HE V Ha Hfit fb' i Hwf Hi Hnf) as ((L & leaf & HL & Hlf) & v & Hv & HA).
  exists v. split; [exact Hv|]. intros best delta lo hi a b Hbest Hd Hall Hgood rest. rewrite (HA L leaf HL Hlf).
  pose proof (priors (reg_task E) p fb y train valid weights s tc g (VC_regressor _ _ _ _ _ _ HE V) Hfit L HL) as HP.
  apply (average_close L (prior (g_tree g)) (pruning_loss (g_tree g)) (tp_step p) best delta (prior_pos (g_tree g)) HP Hs (proj2 (proj2 HL best) Hbest)
    (fun pr => value_at (g_tree g) (leaf pr)) lo hi a b).
  - intros pr Hpr Hlt. apply (Hgood pr); [apply HL; exact Hpr | apply Hlf; exact Hpr | exact Hlt].
  - intros pr Hpr. apply (Hall pr); [apply HL; exact Hpr | apply Hlf; exact Hpr].
  - exact Hd.
Qed.
Print Assumptions C74_regression.

Theorem C74_classification : forall (E : env R_arith) K dirichlet crit st p fb y train valid weights s tc g,
  good_env E -> valid_fit p fb y train valid weights -> valid_labels K st (tp_is_categorical p) y ->
  tp_aggregation p = true -> (0 <= tp_step p)%R ->
  tree_fit (clf_task E K dirichlet crit st) p fb y train valid weights s = Ok (tc, g) ->
  forall fb' i, fba_wf fb' -> i < fb_n_samples fb' -> fb_n_features fb' = fb_n_features fb ->
  exists v, predict_one mix_vec (g_tree g) fb' true (tp_step p) i = Ok v /\ length v = K /\
  forall k best delta lo hi a b, is_pruning (g_tree g) 0 best -> (0 < delta)%R ->
  (forall pr leaf, is_pruning (g_tree g) 0 pr -> pruned_leaf (g_tree g) (bin_of fb' i) pr leaf -> (a <= class_prob (g_tree g) k leaf <= b)%R) ->
  (forall pr leaf, is_pruning (g_tree g) 0 pr -> pruned_leaf (g_tree g) (bin_of fb' i) pr leaf ->
     (pruning_loss (g_tree g) pr < pruning_loss (g_tree g) best + delta)%R -> (lo <= class_prob (g_tree g) k leaf <= hi)%R) ->
  let rest := (exp (- tp_step p * delta) / prior (g_tree g) best * (b - a))%R in (lo - rest <= nth k v 0 <= hi + rest)%R.
Proof.
  intros E K d crit st p fb y train valid weights s tc g HE V HLb Ha Hs Hfit fb' i Hwf Hi Hnf.
  destruct (C33_classification E K d crit st p fb y train valid weights s tc g HE V HLb Ha Hfit fb' i Hwf Hi Hnf) as ((L & leaf & HL & Hlf) & v & Hv & Hlv & HA).
  exists v. split; [exact Hv|]. split; [exact Hlv|]. intros k best delta lo hi a b Hbest Hd Hall Hgood rest. rewrite (HA L leaf HL Hlf k).
  pose proof (priors (clf_task E K d crit st) p fb y train valid weights s tc g (VC_classifier _ _ _ _ _ _ _ _ _ _ HE V HLb) Hfit L HL) as HP.
  apply (average_close L (prior (g_tree g)) (pruning_loss (g_tree g)) (tp_step p) best delta (prior_pos (g_tree g)) HP Hs (proj2 (proj2 HL best) Hbest)
    (fun pr => class_prob (g_tree g) k (leaf pr)) lo hi a b).
  - intros pr Hpr Hlt. apply (Hgood pr); [apply HL; exact Hpr | apply Hlf; exact Hpr | exact Hlt].
  - intros pr Hpr. apply (Hall pr); [apply HL; exact Hpr | apply Hlf; exact Hpr].
  - exact Hd.
Qed.
Print Assumptions C74_classification.

(** ** Examples: the trees of the examples of C33 *)
Lemma finite_range : forall {X} (f : X -> R) (l : list X), exists lo hi, forall x, In x l -> (lo <= f x <= hi)%R.
Proof.
  intros X f l. induction l as [|x l (lo & hi & IH)]; [exists 0%R, 0%R; intros x []|].
  exists (Rmin lo (f x)), (Rmax hi (f x)). intros y [<-|Hy].
  - split; [apply Rmin_r | apply Rmax_r].
  - specialize (IH y Hy). pose proof (Rmin_l lo (f x)). pose proof (Rmax_l hi (f x)). lra.
Qed.

(** Two different prunings: the worse one is light. *)
Example C74_share_applies : exists tc g L best worse,
  tree_fit (reg_task env_R) (exR_params true 2) ex_fb exR_y ex_train ex_valid exR_w 0 = Ok (tc, g) /\ all_prunings (g_tree g) 0 L /\
  is_pruning (g_tree g) 0 best /\ is_pruning (g_tree g) 0 worse /\ best <> worse /\
  let gap := (pruning_loss (g_tree g) worse - pruning_loss (g_tree g) best)%R in (0 <= gap)%R /\
  (pruning_weight (g_tree g) 1 worse <= exp (- gap) / prior (g_tree g) best * Rsum (map (pruning_weight (g_tree g) 1) L))%R.
Proof.
  destruct C33_regression_applies as (tc & g & L & leaf & v & Hfit & HL & H2 & _).
  assert (V : valid_fit (exR_params true 2) ex_fb exR_y ex_train ex_valid exR_w) by (apply exR_valid_fit; [reflexivity|lia]).
  destruct L as [|p1 [|p2 L]]; try (cbn in H2; lia). pose proof HL as [Hnd Hin].
  assert (I1 : is_pruning (g_tree g) 0 p1) by (apply Hin; left; reflexivity). assert (I2 : is_pruning (g_tree g) 0 p2) by (apply Hin; right; left; reflexivity).
  assert (Hne : p1 <> p2) by (inversion Hnd as [|x l N _]; subst; intros ->; apply N; left; reflexivity).
  assert (G : exists best worse, is_pruning (g_tree g) 0 best /\ is_pruning (g_tree g) 0 worse /\ best <> worse /\ (pruning_loss (g_tree g) best <= pruning_loss (g_tree g) worse)%R).
  { destruct (Rle_dec (pruning_loss (g_tree g) p1) (pruning_loss (g_tree g) p2)); [exists p1, p2 | exists p2, p1]; repeat split; auto. lra. }
  destruct G as (best & worse & Ib & Iw & Hbw & Hle). exists tc, g, (p1 :: p2 :: L), best, worse. repeat (split; [assumption|]). intros gap. split; [unfold gap; lra|].
  pose proof (C74_share (reg_task env_R) _ _ _ _ _ _ _ tc g (VC_regressor _ _ _ _ _ _ env_R_good V) eq_refl (Rlt_le _ _ Rlt_0_1) Hfit (p1 :: p2 :: L) best gap [worse] HL Ib) as HS.
  cbn [map Rsum] in HS. change (tp_step (exR_params true 2)) with 1%R in HS. rewrite Rplus_0_r in HS. replace (- gap)%R with (- (1) * gap)%R by lra. apply HS.
  - constructor; [intros []|constructor].
  - intros pr [<-|[]]. split; [exact Iw | unfold gap; lra].
Qed.

Example C74_regression_applies : exists tc g v best lo hi a b,
  tree_fit (reg_task env_R) (exR_params true 2) ex_fb exR_y ex_train ex_valid exR_w 0 = Ok (tc, g) /\
  predict_one mix_num (g_tree g) ex_fb true 1%R 5 = Ok v /\ is_pruning (g_tree g) 0 best /\
  (forall pr, is_pruning (g_tree g) 0 pr -> pruning_loss (g_tree g) best <= pruning_loss (g_tree g) pr)%R /\
  (forall pr leaf, is_pruning (g_tree g) 0 pr -> pruned_leaf (g_tree g) (bin_of ex_fb 5) pr leaf -> (a <= value_at (g_tree g) leaf <= b)%R) /\
  (forall pr leaf, is_pruning (g_tree g) 0 pr -> pruned_leaf (g_tree g) (bin_of ex_fb 5) pr leaf ->
     (pruning_loss (g_tree g) pr < pruning_loss (g_tree g) best + 2)%R -> (lo <= value_at (g_tree g) leaf <= hi)%R) /\
  let rest := (exp (- (1) * 2) / prior (g_tree g) best * (b - a))%R in (lo - rest <= v <= hi + rest)%R.
Proof.
  destruct C33_regression_applies as (tc & g & L & leaf0 & v0 & Hfit & HL & H2 & _).
  assert (V : valid_fit (exR_params true 2) ex_fb exR_y ex_train ex_valid exR_w) by (apply exR_valid_fit; [reflexivity|lia]).
  destruct ex_fb_packed as (PK & Hns & Hnf). assert (H5 : 5 < fb_n_samples ex_fb) by (rewrite Hns; lia).
  destruct (C33_regression env_R _ _ _ _ _ _ _ _ _ env_R_good V eq_refl Hfit ex_fb 5 (pk_layout _ PK) H5 eq_refl) as ((L' & leaf & HL' & Hlf) & _).
  destruct (C74_regression env_R _ _ _ _ _ _ _ tc g env_R_good V eq_refl (Rlt_le _ _ Rlt_0_1) Hfit ex_fb 5 (pk_layout _ PK) H5 eq_refl) as (v & Hv & HR).
  change (tp_step (exR_params true 2)) with 1%R in *.
  assert (G : exists best, In best L /\ forall pr, In pr L -> (pruning_loss (g_tree g) best <= pruning_loss (g_tree g) pr)%R).
  { clear - H2. destruct L as [|x L]; [cbn in H2; lia|]. clear H2. revert x. induction L as [|y L IH]; intros x; [exists x; split; [left; reflexivity|]; intros pr [<-|[]]; lra|].
    destruct (IH y) as (best & Hb & Hmin). destruct (Rle_dec (pruning_loss (g_tree g) best) (pruning_loss (g_tree g) x)).
    - exists best. split; [right; exact Hb|]. intros pr [<-|Hpr]; auto.
    - exists x. split; [left; reflexivity|]. intros pr [<-|Hpr]; [lra|]. specialize (Hmin pr Hpr). lra. }
  destruct G as (best & Hb & Hmin). destruct (finite_range (fun pr => value_at (g_tree g) (leaf pr)) L') as (a & b & Hab).
  assert (K : forall pr lf, is_pruning (g_tree g) 0 pr -> pruned_leaf (g_tree g) (bin_of ex_fb 5) pr lf -> (a <= value_at (g_tree g) lf <= b)%R).
  { intros pr lf Hpr Hl. assert (In pr L') as Hin by (apply HL'; exact Hpr). rewrite (pruned_leaf_det g (bin_of ex_fb 5) pr lf (leaf pr) Hl (Hlf pr Hin)). apply Hab. exact Hin. }
  exists tc, g, v, best, a, b, a, b. split; [exact Hfit|]. split; [exact Hv|]. split; [apply HL; exact Hb|]. split; [intros pr Hpr; apply Hmin, HL, Hpr|]. split; [exact K|]. split; [intros pr lf Hpr Hl _; exact (K pr lf Hpr Hl)|].
  apply HR; [apply HL; exact Hb | lra | exact K | intros pr lf Hpr Hl _; exact (K pr lf Hpr Hl)].
Qed.

Example C74_classification_applies : exists tc g v best lo hi a b,
  tree_fit (clf_task env_R 3 (/ 2)%R Gini AllMods) (exR_params true 2) ex_fb ex_labels ex_train ex_valid exR_w 0 = Ok (tc, g) /\
  predict_one mix_vec (g_tree g) ex_fb true 1%R 5 = Ok v /\ is_pruning (g_tree g) 0 best /\
  (forall pr, is_pruning (g_tree g) 0 pr -> pruning_loss (g_tree g) best <= pruning_loss (g_tree g) pr)%R /\
  (forall pr leaf, is_pruning (g_tree g) 0 pr -> pruned_leaf (g_tree g) (bin_of ex_fb 5) pr leaf -> (a <= class_prob (g_tree g) 1 leaf <= b)%R) /\
  (forall pr leaf, is_pruning (g_tree g) 0 pr -> pruned_leaf (g_tree g) (bin_of ex_fb 5) pr leaf ->
     (pruning_loss (g_tree g) pr < pruning_loss (g_tree g) best + 2)%R -> (lo <= class_prob (g_tree g) 1 leaf <= hi)%R) /\
  let rest := (exp (- (1) * 2) / prior (g_tree g) best * (b - a))%R in (lo - rest <= nth 1 v 0 <= hi + rest)%R.
Proof.
  destruct C33_classification_applies as (tc & g & L & leaf0 & v0 & Hfit & HL & H2 & _).
  assert (V : valid_fit (exR_params true 2) ex_fb ex_labels ex_train ex_valid exR_w) by (apply exR_valid_fit; [reflexivity|lia]).
  assert (HLb := exR_valid_labels true 2). destruct ex_fb_packed as (PK & Hns & Hnf). assert (H5 : 5 < fb_n_samples ex_fb) by (rewrite Hns; lia).
  destruct (C33_classification env_R 3 (/ 2)%R Gini AllMods _ _ _ _ _ _ _ _ _ env_R_good V HLb eq_refl Hfit ex_fb 5 (pk_layout _ PK) H5 eq_refl) as ((L' & leaf & HL' & Hlf) & _).
  destruct (C74_classification env_R 3 (/ 2)%R Gini AllMods _ _ _ _ _ _ _ tc g env_R_good V HLb eq_refl (Rlt_le _ _ Rlt_0_1) Hfit ex_fb 5 (pk_layout _ PK) H5 eq_refl) as (v & Hv & _ & HR).
  change (tp_step (exR_params true 2)) with 1%R in *.
  assert (G : exists best, In best L /\ forall pr, In pr L -> (pruning_loss (g_tree g) best <= pruning_loss (g_tree g) pr)%R).
  { clear - H2. destruct L as [|x L]; [cbn in H2; lia|]. clear H2. revert x. induction L as [|y L IH]; intros x; [exists x; split; [left; reflexivity|]; intros pr [<-|[]]; lra|].
    destruct (IH y) as (best & Hb & Hmin). destruct (Rle_dec (pruning_loss (g_tree g) best) (pruning_loss (g_tree g) x)).
    - exists best. split; [right; exact Hb|]. intros pr [<-|Hpr]; auto.
    - exists x. split; [left; reflexivity|]. intros pr [<-|Hpr]; [lra|]. specialize (Hmin pr Hpr). lra. }
  destruct G as (best & Hb & Hmin). destruct (finite_range (fun pr => class_prob (g_tree g) 1 (leaf pr)) L') as (a & b & Hab).
  assert (K : forall pr lf, is_pruning (g_tree g) 0 pr -> pruned_leaf (g_tree g) (bin_of ex_fb 5) pr lf -> (a <= class_prob (g_tree g) 1 lf <= b)%R).
  { intros pr lf Hpr Hl. assert (In pr L') as Hin by (apply HL'; exact Hpr). rewrite (pruned_leaf_det g (bin_of ex_fb 5) pr lf (leaf pr) Hl (Hlf pr Hin)). apply Hab. exact Hin. }
  exists tc, g, v, best, a, b, a, b. split; [exact Hfit|]. split; [exact Hv|]. split; [apply HL; exact Hb|]. split; [intros pr Hpr; apply Hmin, HL, Hpr|]. split; [exact K|]. split; [intros pr lf Hpr Hl _; exact (K pr lf Hpr Hl)|].
  apply HR; [apply HL; exact Hb | lra | exact K | intros pr lf Hpr Hl _; exact (K pr lf Hpr Hl)].
Qed.
