(** * C36 for whole forests: the table of the weighted depths *)

Require Import String Bool List Arith Lia NArith ZArith Reals Lra.
Require Import Verif.Base Verif.Num Verif.M_Bitarray Verif.P_Bitarray Verif.M_Utils Verif.M_Impurity Verif.M_Context Verif.M_Node Verif.M_Split
  Verif.M_Tree Verif.M_Grow Verif.M_Object Verif.M_Forest Verif.S_Fit Verif.S_Tree Verif.S_Split Verif.S_Object Verif.S_Impurity Verif.S_Params Verif.S_Forest
  Verif.S_Prune Verif.P_Prune Verif.T_GrowR Verif.T_Aggregate Verif.P_Forest Verif.T_Forest Verif.T_ForestR Verif.T_Params Verif.Ex_Data Verif.Ex_Valid Verif.Ex_R Verif.Ex_Forest.
Import ListNotations.
Local Open Scope list_scope.
Local Open Scope nat_scope.

(** ** The specification *)

(** [v] is the average over the prunings of [t] of the depth at which a row with the bins
    [row] ends, each pruning with its aggregation weight; it lies between 0 and the depth of
    the leaf of the row. *)
Definition average_depth {P} (t : tree R_arith P) (step : R) (fb : fba) (i : nat) (v : R) : Prop :=
  (exists L leaf, all_prunings t 0 L /\ forall pr, In pr L -> pruned_leaf t (bin_of fb i) pr (leaf pr)) /\
  (forall L leaf, all_prunings t 0 L -> (forall pr, In pr L -> pruned_leaf t (bin_of fb i) pr (leaf pr)) ->
   v = pruning_average t step L (fun pr => depth_at t (leaf pr))) /\
  exists leaf, find_leaf t fb i = Ok leaf /\ (0 <= v <= depth_at t leaf)%R.

(** Cell [i] of line [k] of the table belongs to tree [k] and row [i]. *)
Definition depth_table {P Y} (ts : list (tobj R_arith P Y)) (step : R) (fb : fba) (n : nat) (table : list (list R)) : Prop :=
  length table = length ts /\
  forall k obj, nth_error ts k = Some obj -> exists t line,
    ob_tree obj = Some t /\ nth_error table k = Some line /\ length line = n /\
    forall i, i < n -> exists v, nth_error line i = Some v /\ average_depth t step fb i v.

(** ** The theorems *)

Lemma mapM_cells : forall {X Y} (f : X -> res Y) (Q : X -> Y -> Prop) l, (forall x, In x l -> exists v, f x = Ok v /\ Q x v) ->
  exists r, mapM f l = Ok r /\ length r = length l /\ forall k x, nth_error l k = Some x -> exists v, nth_error r k = Some v /\ Q x v.
Proof.
  intros X Y f Q l. induction l as [|x l IH]; intros H; cbn [mapM].
  - exists []. repeat split. intros [|k] x Hx; discriminate Hx.
  - destruct (H x) as (v & Hv & HQ); [simpl; auto|]. rewrite Hv. cbn [bind].
    destruct IH as (r & Hr & Hl & HQr); [intros; apply H; simpl; auto|]. rewrite Hr. cbn [bind].
    exists (v :: r). split; [reflexivity|]. split; [simpl; auto|]. intros [|k] z Hz; [injection Hz as <-; exists v; auto|apply (HQr k z Hz)].
Qed.

Lemma nth_error_seq : forall n i, i < n -> nth_error (seq 0 n) i = Some i.
Proof. intros n i H. rewrite (nth_error_nth' (seq 0 n) 0) by (rewrite seq_length; exact H). rewrite seq_nth by exact H. reflexivity. Qed.

(** One tree, all the rows. *)
Theorem C36_rows : forall {E : env R_arith} (tk : task R_arith E) p fb y train valid weights s tc g,
  valid_call tk p fb y train valid weights -> tp_aggregation p = true ->
  tree_fit tk p fb y train valid weights s = Ok (tc, g) ->
  forall fb', fba_wf fb' -> fb_n_features fb' = fb_n_features fb ->
  exists line, tree_weighted_depth (g_tree g) fb' (tp_step p) = Ok line /\ length line = fb_n_samples fb' /\
    forall i, i < fb_n_samples fb' -> exists v, nth_error line i = Some v /\ average_depth (g_tree g) (tp_step p) fb' i v.
Proof.
  intros E tk p fb y train valid weights s tc g HC Ha Hfit fb' Hwf Hnf.
  destruct (mapM_cells (weighted_depth_one (g_tree g) fb' (tp_step p)) (fun i v => average_depth (g_tree g) (tp_step p) fb' i v) (seq 0 (fb_n_samples fb')))
    as (line & L1 & L2 & L3).
  - intros i Hi. apply in_seq in Hi.
    destruct (C36_weighted_depth tk p fb y train valid weights s tc g HC Ha Hfit fb' i Hwf (proj2 Hi) Hnf) as (H1 & v & H2 & H3 & H4).
    exists v. split; [exact H2|]. split; [exact H1|]. split; [exact H3|exact H4].
  - exists line. split; [exact L1|]. rewrite seq_length in L2. split; [exact L2|].
    intros i Hi. apply L3. apply nth_error_seq. exact Hi.
Qed.
Print Assumptions C36_rows.

Section Forests.
Context {E : env R_arith} {L D : Type} {EC : encoding D} (ME : menv E) (float : num R_arith -> Prop).
Context (GM : good_menv float ME) (GE : good_env E) (GK : good_encoding EC).

(** A regressor fitted with aggregation and any data set its encoder accepts. *)
Theorem C36_forest : forall (o o1 : reg_forest R_arith L EC) X y sw c,
  legal float o -> fo_aggregation o = true -> reg_fit ME o X y sw = ((o1, None), c) ->
  forall X' enc fb', fo_encoder o1 = Some enc -> ec_transform EC enc X' = Ok fb' ->
  exists ts table, fo_trees o1 = Some ts /\ Z.of_nat (length ts) = fo_n_estimators o /\
    fweighted_depth o1 X' = Ok table /\ depth_table ts (fo_step o) fb' (fst (ec_shape EC X')) table.
Proof.
  intros o o1 X y sw c HL Hagg H X' enc0 fb' Henc Ht'.
  destruct (reg_fit_trees ME float GM GK o o1 X y sw c HL H) as (w & mf & rs & enc & fb & ts & H1 & Hy & Hw & Hrs & He & Ht & PK & AL & HT).
  cbv zeta in *. destruct (gk_packed _ GK _ _ _ _ _ He Ht) as (_ & _ & K5 & K6).
  subst o1. cbn [fo_encoder fitted_as w_fitted w_trees w_encoder] in Henc. injection Henc as <-.
  destruct (gk_packed _ GK _ _ _ _ _ He Ht') as (K1 & K2 & K3 & K4).
  assert (HF : Forall (fun obj => exists line, obj_weighted_depth obj fb' = Ok line /\
    exists t, ob_tree obj = Some t /\ length line = fb_n_samples fb' /\
    forall i, i < fb_n_samples fb' -> exists v, nth_error line i = Some v /\ average_depth t (fo_step o) fb' i v) ts).
  { apply (Forall2_same _ _ _ HT). intros x obj _ (train & valid & counts & w' & B1 & B2 & B3 & V & Hne). unfold obj_fit in B3.
    destruct (tree_fit (reg_task E) (tree_params_of o mf (ec_cats EC enc)) fb y train valid w' (me_seed ME (snd x))) as [[tc g]|e] eqn:Ef; [|discriminate B3].
    cbn [bind] in B3. injection B3 as <-. unfold obj_weighted_depth. cbn [ob_tree ob_step].
    destruct (C36_rows (reg_task E) _ fb y train valid w' _ tc g ltac:(apply VC_regressor; [exact GE|exact V]) Hagg Ef fb' (pk_layout _ K1)) as (line & L1 & L2 & L3); [congruence|].
    exists line. split; [exact L1|]. exists (g_tree g). split; [reflexivity|]. split; [exact L2|exact L3]. }
  rewrite Forall_forall in HF.
  destruct (mapM_cells (fun t => obj_weighted_depth t fb') _ ts HF) as (table & T1 & T2 & T3).
  exists ts, table. split; [reflexivity|]. split.
  { pose proof (Forall2_len _ _ _ HT) as Hl. rewrite combine_length, seq_length, Nat.min_id in Hl. rewrite (all_seeds_length ME float o rs 1 GM) in Hl.
    pose proof (lg_trees _ _ HL). change (Z.to_nat (fo_n_estimators o) * 1 = length ts) in Hl. lia. }
  unfold fweighted_depth. rewrite fitted_as_helper, Ht'. cbn [bind]. split; [exact T1|]. split; [exact T2|].
  intros k obj Hk. destruct (T3 k obj Hk) as (line & N1 & t & N2 & N3 & N4). rewrite K3 in N3, N4.
  exists t, line. split; [exact N2|]. split; [exact N1|]. split; [exact N3|exact N4].
Qed.
End Forests.
Print Assumptions C36_forest.

(** The regressor of Ex_Forest.v: two trees, eight rows, sample weights. *)
Example C36_forest_applies : forall X, bd_fb X = ex_fb ->
  exists o1 c ts table, reg_fit ex_menv ex_forest_reg X ex_targets (ex_weights true) = ((o1, None), c) /\
    fo_trees o1 = Some ts /\ length ts = 2 /\ fweighted_depth o1 X = Ok table /\ depth_table ts (fo_step ex_forest_reg) ex_fb 8 table.
Proof.
  intros X HX. destruct (ex_X_facts X HX) as (Et & Es & Ef). destruct (ex_reg_fits X true (ex_weights true) HX (or_intror eq_refl)) as (o1 & c & H).
  destruct (reg_fit_trees ex_menv (fun _ => True) ex_menv_good ex_encoding_good ex_forest_reg o1 X ex_targets (ex_weights true) c ex_legal_reg H)
    as (w & mf & rs & enc & fb & ts' & H1 & _ & _ & _ & He & _ & _ & _ & HT).
  assert (E2 : enc = 2). { pose proof (eq_trans (eq_sym He) (Ef (fo_max_bins ex_forest_reg))) as Q. injection Q as ->. reflexivity. }
  subst enc.
  destruct (C36_forest ex_menv (fun _ => True) ex_menv_good env_R_good ex_encoding_good ex_forest_reg o1 X ex_targets (ex_weights true) c ex_legal_reg eq_refl H X 2 ex_fb)
    as (ts & table & G1 & G2 & G3 & G4).
  - subst o1. reflexivity.
  - exact Et.
  - exists o1, c, ts, table. split; [exact H|]. split; [exact G1|]. split; [change (fo_n_estimators ex_forest_reg) with 2%Z in G2; lia|].
    split; [exact G3|]. rewrite Es in G4. exact G4.
Qed.
