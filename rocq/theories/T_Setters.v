(** * C37, C38, C43, C44, C45 for trees: changing step or dirichlet after fit, lighten, pickle *)

Require Import List Arith Lia NArith Reals Lra Permutation.
Require Import Verif.Base Verif.Num Verif.M_Bitarray Verif.P_Bitarray Verif.M_Utils Verif.M_Impurity
  Verif.M_Context Verif.M_Node Verif.M_Split Verif.M_Tree Verif.M_Grow Verif.M_Object
  Verif.P_BinningR Verif.P_Utils Verif.P_List Verif.P_Task Verif.P_Node Verif.P_Tree Verif.P_Grow Verif.P_Repr Verif.P_Route
  Verif.S_Impurity Verif.P_Impurity Verif.S_Fit Verif.P_Fit Verif.P_FitTree Verif.S_Node Verif.T_Node
  Verif.S_Tree Verif.P_Nodes Verif.T_Grow Verif.T_GrowR Verif.T_Prune Verif.P_Setters Verif.P_Dirichlet
  Verif.S_Object Verif.P_Object Verif.S_Split Verif.P_SplitR Verif.Ex_Data Verif.Ex_Valid Verif.Ex_R.
Import ListNotations.
Local Open Scope nat_scope.
Local Open Scope list_scope.
Local Open Scope res_scope.

(** ** C37: setting the step of a fitted tree is fitting with this step *)

Lemma valid_call_step : forall {A : arith} {E : env A} (tk : task A E) p step fb y train valid weights,
  valid_call tk p fb y train valid weights -> valid_call tk (params_with_step p step) fb y train valid weights.
Proof.
  intros A E tk p step fb y train valid weights H.
  assert (G : forall Y (y : list Y), valid_fit p fb y train valid weights -> valid_fit (params_with_step p step) fb y train valid weights).
  { intros Y y0 V. destruct V. constructor; auto. }
  destruct H as [K d crit st p fb y train valid weights HE V HL|p fb y train valid weights HE V];
    [apply VC_classifier|apply VC_regressor]; auto.
Qed.

(** Any arithmetic. The setter compares the new step with the old one by [==]; the
    hypothesis says that numbers which compare equal are equal (it excludes 0.0 and -0.0). *)
Theorem C37_step : forall {A : arith} {E : env A} (tk : task A E) dirichlet p step fb y train valid weights s o,
  valid_call tk p fb y train valid weights ->
  (num_eqb (tp_step p) step = true -> tp_step p = step) ->
  obj_fit tk dirichlet p fb y train valid weights s = Ok o ->
  exists o', set_step step o = (o', None) /\
             obj_fit tk dirichlet (params_with_step p step) fb y train valid weights s = Ok o'.
Proof.
  intros A E tk d p step fb y train valid weights s o VC Heq H.
  unfold obj_fit in H. apply bind_ok in H. destruct H as ([tc g] & Hfit & H). inversion H; subst o; clear H.
  pose proof (C25_well_formed _ _ _ _ _ _ _ _ _ _ VC Hfit) as W.
  pose proof (tree_fit_with_step tk p step fb y train valid weights s tc g Hfit (ordered_wf _ W)) as HS.
  unfold set_step. cbn [ob_step ob_ctx ob_tree ob_dirichlet ob_aggregation ob_train ob_valid cx_tc].
  destruct (num_eqb (tp_step p) step) eqn:En.
  - eexists. split; [reflexivity|]. rewrite <- (Heq eq_refl).
    assert (Ep : params_with_step p (tp_step p) = p) by (destruct p; reflexivity). rewrite Ep.
    unfold obj_fit. rewrite Hfit. reflexivity.
  - destruct (fit_inv tk p fb y train valid weights s tc g VC Hfit) as (ts & b & C & _).
    rewrite (cc_agg _ _ _ _ _ _ C).
    destruct (C27_growing tk _ fb y train valid weights s (valid_call_step tk p step fb y train valid weights VC))
      as [(tc' & g' & Hfit')|Hz].
    + unfold obj_fit. rewrite Hfit'. cbn [bind]. rewrite HS in Hfit'. clear HS.
      destruct (tp_aggregation p) eqn:Ea.
      * apply bind_ok in Hfit'. destruct Hfit' as (nodes & Hn & Hfit'). inversion Hfit'; subst tc' g'.
        rewrite Hn. eexists. split; [reflexivity|]. cbn [params_with_step tp_step tp_aggregation]. rewrite Ea. reflexivity.
      * inversion Hfit'; subst tc' g'. eexists. split; [reflexivity|]. cbn [params_with_step tp_step tp_aggregation]. rewrite Ea. reflexivity.
    + exfalso. rewrite HS in Hz. destruct (tp_aggregation p); [|discriminate].
      destruct (compute_tree_weights _ _ step) as [nodes|e] eqn:Ew; cbn [bind] in Hz; [discriminate|].
      inversion Hz; subst e. exact (weights_no_zerodiv _ _ _ Ew).
Qed.
Print Assumptions C37_step.

(** The calls of a sequence of settings, stopping at the first exception. *)
Fixpoint set_steps {A : arith} {P Y} (steps : list (num A)) (o : tobj A P Y) : tobj A P Y * option err :=
  match steps with
  | [] => (o, None)
  | x :: rest => match set_step x o with
                 | (o', None) => set_steps rest o'
                 | (o', Some e) => (o', Some e)
                 end
  end.

Theorem C37_sequence : forall {A : arith} {E : env A} (tk : task A E) dirichlet steps p fb y train valid weights s o,
  valid_call tk p fb y train valid weights ->
  (forall x z, In x (tp_step p :: steps) -> In z (tp_step p :: steps) -> num_eqb x z = true -> x = z) ->
  obj_fit tk dirichlet p fb y train valid weights s = Ok o ->
  exists o', set_steps steps o = (o', None) /\
    obj_fit tk dirichlet (params_with_step p (last steps (tp_step p))) fb y train valid weights s = Ok o'.
Proof.
  intros A E tk d steps. induction steps as [|x steps IH]; intros p fb y train valid weights s o VC Heq H.
  - exists o. split; [reflexivity|]. assert (Ep : params_with_step p (tp_step p) = p) by (destruct p; reflexivity).
    cbn [last]. rewrite Ep. exact H.
  - destruct (C37_step tk d p x fb y train valid weights s o VC) as (o1 & H1 & H2); auto.
    { apply Heq; simpl; auto. }
    cbn [set_steps]. rewrite H1.
    destruct (IH (params_with_step p x) fb y train valid weights s o1) as (o' & H3 & H4); auto.
    + apply valid_call_step. auto.
    + intros a b Ha Hb. apply Heq; simpl in *; tauto.
    + exists o'. split; [exact H3|]. rewrite <- H4. f_equal.
      assert (El : last (x :: steps) (tp_step p) = last steps (tp_step (params_with_step p x))).
      { cbn [params_with_step tp_step]. clear. revert x. induction steps as [|a l IH]; intros x; [reflexivity|].
        change (last (a :: l) (tp_step p) = last (a :: l) x). destruct l; [reflexivity|]. rewrite (IH a).
        change (last (a :: n :: l) x) with (last (n :: l) x). clear IH.
        revert n. induction l as [|c l IH]; intros n; [reflexivity|]. exact (IH c). }
      rewrite El. reflexivity.
Qed.
Print Assumptions C37_sequence.

(** Over the reals the hypothesis on equality holds. *)
Lemma num_eqb_R : forall x y : num R_arith, num_eqb x y = true -> x = y.
Proof.
  intros x y H. unfold num_eqb in H. apply andb_prop in H. destruct H as [H1 H2].
  apply P_BinningR.Rleb_iff in H1. apply P_BinningR.Rleb_iff in H2. apply Rle_antisym; auto.
Qed.

(** Predictions after the call are those of the refitted tree. *)
Corollary C37_predictions : forall {E : env R_arith} (tk : task R_arith E) dirichlet p step fb y train valid weights s o,
  valid_call tk p fb y train valid weights ->
  obj_fit tk dirichlet p fb y train valid weights s = Ok o ->
  exists o', obj_fit tk dirichlet (params_with_step p step) fb y train valid weights s = Ok o' /\
    snd (set_step step o) = None /\
    (forall mix fb', obj_predict mix (fst (set_step step o)) fb' = obj_predict mix o' fb') /\
    (forall fb', obj_weighted_depth (fst (set_step step o)) fb' = obj_weighted_depth o' fb').
Proof.
  intros E tk d p step fb y train valid weights s o VC H.
  destruct (C37_step tk d p step fb y train valid weights s o VC) as (o' & H1 & H2); auto.
  { intros HH. apply num_eqb_R. auto. }
  exists o'. rewrite H1. auto.
Qed.
Print Assumptions C37_predictions.

(** ** C38: setting dirichlet *)

(** With aggregation the object is the one a new fit gives: nodes (structure, losses,
    weights), predictions, context. *)
Theorem C38_dirichlet : forall (E : env R_arith) K d d' crit st p fb y train valid weights s o o',
  good_env E -> valid_fit p fb y train valid weights -> valid_labels K st (tp_is_categorical p) y ->
  tp_aggregation p = true ->
  clf_obj_fit E K d crit st p fb y train valid weights s = Ok o ->
  clf_obj_fit E K d' crit st p fb y train valid weights s = Ok o' ->
  set_dirichlet E K d' o = (o', None).
Proof.
  intros E K d d' crit st p fb y train valid weights s o o' HE V HL Hagg H H'.
  unfold clf_obj_fit, obj_fit in H, H'. apply bind_ok in H. destruct H as ([tc g] & Hf & H).
  apply bind_ok in H'. destruct H' as ([tc' g'] & Hf' & H').
  destruct (recompute_both K d d' crit st p fb y train valid weights s tc g tc' g' HE V HL Hf Hf') as (E1 & E2 & nodes & R1 & R2 & R3).
  inversion H; subst o; clear H. inversion H'; subst o'; clear H'.
  unfold set_dirichlet. cbn [ob_dirichlet ob_ctx ob_tree ob_step ob_aggregation ob_train ob_valid cx_tc cx_parts cx_train cx_valid].
  destruct (num_eqb d' d) eqn:En.
  - apply num_eqb_R in En. subst d'. assert (X : Ok (tc', g') = Ok (tc, g)) by congruence. inversion X; subst. reflexivity.
  - change (tk_P (clf_task E K d crit st)) with (list (num R_arith)) in *.
    rewrite R1. rewrite (R3 Hagg). f_equal. f_equal.
    + f_equal. destruct (g_tree g'). reflexivity.
    + f_equal. f_equal; [symmetry; exact E1|symmetry; exact E2].
Qed.
Print Assumptions C38_dirichlet.

(** With positive weights and a non-negative new value the refit does not fail. *)
Theorem C38_dirichlet_positive : forall (E : env R_arith) K d d' crit st p fb y train valid weights s,
  good_env E -> valid_fit p fb y train valid weights -> valid_labels K st (tp_is_categorical p) y ->
  tp_aggregation p = true -> positive_weights weights -> train <> [] -> (0 <= d)%R -> (0 <= d')%R ->
  exists o o', clf_obj_fit E K d crit st p fb y train valid weights s = Ok o /\
    clf_obj_fit E K d' crit st p fb y train valid weights s = Ok o' /\
    set_dirichlet E K d' o = (o', None).
Proof.
  intros E K d d' crit st p fb y train valid weights s HE V HL Hagg HW Hne Hd Hd'.
  destruct (C48_classifier E K d crit st p fb y train valid weights s HE V HL HW Hd Hne) as (tc & g & Hf).
  destruct (C48_classifier E K d' crit st p fb y train valid weights s HE V HL HW Hd' Hne) as (tc' & g' & Hf').
  assert (O1 : exists o, clf_obj_fit E K d crit st p fb y train valid weights s = Ok o) by (unfold clf_obj_fit, obj_fit; rewrite Hf; eexists; reflexivity).
  assert (O2 : exists o, clf_obj_fit E K d' crit st p fb y train valid weights s = Ok o) by (unfold clf_obj_fit, obj_fit; rewrite Hf'; eexists; reflexivity).
  destruct O1 as [o O1]. destruct O2 as [o' O2]. exists o, o'. split; [exact O1|]. split; [exact O2|].
  eapply C38_dirichlet; eauto.
Qed.
Print Assumptions C38_dirichlet_positive.

(** Without aggregation the losses of the nodes are written although the refit leaves them
    at zero; everything else is that of the refit, and so are the predictions. *)
Lemma strip_find_leaf_loop : forall {A : arith} {P} fuel (t t' : tree A P) fb i id,
  map strip (tr_nodes t) = map strip (tr_nodes t') -> tr_bp t = tr_bp t' ->
  find_leaf_loop fuel t fb i id = find_leaf_loop fuel t' fb i id.
Proof.
  intros A P fuel t t' fb i. induction fuel as [|fuel IH]; intros id HN HB; cbn [find_leaf_loop]; auto.
  assert (G : get (map strip (tr_nodes t)) id = get (map strip (tr_nodes t')) id) by congruence.
  rewrite !get_map in G.
  destruct (get (tr_nodes t) id) as [n|e], (get (tr_nodes t') id) as [n'|e']; cbn [rmap bind] in *; try discriminate; [|congruence].
  assert (Hs : strip n = strip n') by congruence.
  assert (E1 : nd_is_leaf n = nd_is_leaf n') by exact (f_equal nd_is_leaf Hs).
  assert (E2 : next_node t fb i n = next_node t' fb i n').
  { unfold next_node. rewrite HB.
    replace (nd_feature n') with (nd_feature n) by exact (f_equal nd_feature Hs).
    replace (nd_is_cat n') with (nd_is_cat n) by exact (f_equal nd_is_cat Hs).
    replace (nd_bp_start n') with (nd_bp_start n) by exact (f_equal nd_bp_start Hs).
    replace (nd_bp_end n') with (nd_bp_end n) by exact (f_equal nd_bp_end Hs).
    replace (nd_threshold n') with (nd_threshold n) by exact (f_equal nd_threshold Hs).
    replace (nd_left n') with (nd_left n) by exact (f_equal nd_left Hs).
    replace (nd_right n') with (nd_right n) by exact (f_equal nd_right Hs). reflexivity. }
  rewrite E1, E2. destruct (nd_is_leaf n'); auto. destruct (next_node t' fb i n'); cbn [bind]; auto.
Qed.

Theorem C38_no_aggregation : forall (E : env R_arith) K d d' crit st p fb y train valid weights s o o',
  good_env E -> valid_fit p fb y train valid weights -> valid_labels K st (tp_is_categorical p) y ->
  tp_aggregation p = false ->
  clf_obj_fit E K d crit st p fb y train valid weights s = Ok o ->
  clf_obj_fit E K d' crit st p fb y train valid weights s = Ok o' ->
  exists o1, set_dirichlet E K d' o = (o1, None) /\
    (forall fb', obj_predict mix_vec o1 fb' = obj_predict mix_vec o' fb') /\
    (forall fb', obj_apply o1 fb' = obj_apply o' fb').
Proof.
  intros E K d d' crit st p fb y train valid weights s o o' HE V HL Hagg H H'.
  unfold clf_obj_fit, obj_fit in H, H'. apply bind_ok in H. destruct H as ([tc g] & Hf & H).
  apply bind_ok in H'. destruct H' as ([tc' g'] & Hf' & H').
  destruct (recompute_both K d d' crit st p fb y train valid weights s tc g tc' g' HE V HL Hf Hf') as (E1 & E2 & nodes & R1 & R2 & R3).
  inversion H; subst o; clear H. inversion H'; subst o'; clear H'.
  unfold set_dirichlet. cbn [ob_dirichlet ob_ctx ob_tree ob_step ob_aggregation ob_train ob_valid cx_tc cx_parts cx_train cx_valid].
  destruct (num_eqb d' d) eqn:En.
  - apply num_eqb_R in En. subst d'. assert (X : Ok (tc', g') = Ok (tc, g)) by congruence. inversion X; subst.
    eexists. split; [reflexivity|]. split; reflexivity.
  - change (tk_P (clf_task E K d crit st)) with (list (num R_arith)) in *. rewrite R1.
    eexists. split; [reflexivity|].
    assert (G : forall fb' i, find_leaf (tree_with_nodes (g_tree g') nodes) fb' i = find_leaf (g_tree g') fb' i).
    { intros fb' i. unfold find_leaf. apply strip_find_leaf_loop; [exact R2|reflexivity]. }
    split; intros fb'.
    + unfold obj_predict. cbn [ob_tree ob_aggregation ob_step]. unfold tree_predict. apply mapM_ext_all. intro i.
      unfold predict_one. rewrite Hagg, G. reflexivity.
    + unfold obj_apply. cbn [ob_tree]. unfold tree_apply. apply mapM_ext_all. intro i. apply G.
Qed.
Print Assumptions C38_no_aggregation.

(** ** C43: lighten keeps predictions, for every input and every arithmetic *)
Theorem C43_lighten : forall {A : arith} {E : env A} (tk : task A E) dirichlet p fb y train valid weights s o,
  valid_call tk p fb y train valid weights ->
  obj_fit tk dirichlet p fb y train valid weights s = Ok o ->
  exists o', lighten o = (o', None) /\
    (forall mix fb', obj_predict mix o' fb' = obj_predict mix o fb') /\
    (forall fb', obj_apply o' fb' = obj_apply o fb') /\
    (forall fb', obj_weighted_depth o' fb' = obj_weighted_depth o fb').
Proof.
  intros A E tk d p fb y train valid weights s o VC H.
  unfold obj_fit in H. apply bind_ok in H. destruct H as ([tc g] & Hfit & H). inversion H; subst o; clear H.
  pose proof (C25_well_formed _ _ _ _ _ _ _ _ _ _ VC Hfit) as W.
  destruct (fit_inv tk p fb y train valid weights s tc g VC Hfit) as (ts & b & C & V & Htr & Hva & F).
  pose proof (fitted_closed ts tc train valid s g b F W) as CL.
  unfold lighten. cbn [ob_tree ob_step ob_dirichlet ob_aggregation]. eexists. split; [reflexivity|].
  unfold obj_predict, obj_apply, obj_weighted_depth. cbn [ob_tree ob_step ob_aggregation].
  split; [|split]; intros; [apply predict_light|apply apply_light|apply depth_light]; auto.
Qed.
Print Assumptions C43_lighten.

(** What lighten frees. *)
Theorem C43_lighten_frees : forall {A : arith} {P Y} (o o' : tobj A P Y), lighten o = (o', None) ->
  ob_ctx o' = None /\ ob_train o' = None /\ ob_valid o' = None /\
  exists t, ob_tree o' = Some t /\ length (tr_nodes t) <= tr_node_count t /\ length (tr_bp t) <= tr_bp_end t.
Proof.
  intros A P Y o o' H. unfold lighten in H. destruct (ob_tree o) as [t|]; inversion H; subst o'. cbn.
  repeat split. exists (lighten_tree t). split; [reflexivity|]. cbn. rewrite !firstn_length. lia.
Qed.
Print Assumptions C43_lighten_frees.

(** ** C44 (refuted): a lightened tree cannot be reconfigured or pickled

    The setter raises AttributeError after it has changed the step: from then on the
    predictions use a step that does not match the weights stored in the nodes. *)
Theorem C44_lightened_step : forall {A : arith} {P Y} (o o1 : tobj A P Y) step,
  lighten o = (o1, None) -> num_eqb (ob_step o) step = false ->
  exists o2, set_step step o1 = (o2, Some AttrErr) /\
    ob_step o2 = step /\ ob_tree o2 = ob_tree o1.
Proof.
  intros A P Y o o1 step H Hn. unfold lighten in H. destruct (ob_tree o) as [t|]; inversion H; subst o1.
  unfold set_step. cbn. rewrite Hn. eexists. split; [reflexivity|]. auto.
Qed.
Print Assumptions C44_lightened_step.

Theorem C44_lightened_dirichlet : forall {A : arith} (E : env A) K (o o1 : tobj A (list (num A)) nat) d,
  lighten o = (o1, None) -> num_eqb d (ob_dirichlet o) = false ->
  exists o2, set_dirichlet E K d o1 = (o2, Some AttrErr) /\
    ob_dirichlet o2 = d /\ ob_tree o2 = ob_tree o1.
Proof.
  intros A E K o o1 d H Hn. unfold lighten in H. destruct (ob_tree o) as [t|]; inversion H; subst o1.
  unfold set_dirichlet. cbn. rewrite Hn. eexists. split; [reflexivity|]. auto.
Qed.
Print Assumptions C44_lightened_dirichlet.

Lemma lightened_pickle : forall {A : arith} {P Y} (E : env A) memN pred0 (o o1 : tobj A P Y), lighten o = (o1, None) ->
  unpickle E memN pred0 o1 = Err TypeErr \/ unpickle E memN pred0 o1 = Err ValueErr.
Proof.
  intros A P Y E memN pred0 o o1 H. unfold lighten in H. destruct (ob_tree o) as [t|]; inversion H; subst o1.
  unfold unpickle. cbn [ob_tree ob_ctx]. unfold unserialize_tree, assign.
  repeat match goal with |- context [if ?b then _ else _] => destruct b
                       | |- context [match ?l with [] => _ | _ :: _ => _ end] => destruct l end; cbn [bind]; auto.
Qed.

Theorem C44_lightened_pickle : forall {A : arith} {P Y} (E : env A) memN pred0 (o o1 : tobj A P Y),
  lighten o = (o1, None) -> exists e, unpickle E memN pred0 o1 = Err e.
Proof.
  intros A P Y E memN pred0 o o1 H. destruct (lightened_pickle E memN pred0 o o1 H) as [->| ->]; eauto.
Qed.
Print Assumptions C44_lightened_pickle.

(** ** C45: pickling a fitted tree is faithful

    The unpickled object is the object itself: nodes, predictions, bin partitions, context,
    partitions and buffers; whatever the uninitialised memory of the constructors. *)
Theorem C45_pickle : forall {A : arith} {E : env A} (tk : task A E) dirichlet p fb y train valid weights s o memN pred0,
  valid_call tk p fb y train valid weights -> allocated fb ->
  obj_fit tk dirichlet p fb y train valid weights s = Ok o ->
  unpickle E memN pred0 o = Ok o.
Proof.
  intros A E tk d p fb y train valid weights s o memN pr0 VC AL H.
  unfold obj_fit in H. apply bind_ok in H. destruct H as ([tc g] & Hfit & H). inversion H; subst o; clear H.
  destruct (fit_inv tk p fb y train valid weights s tc g VC Hfit) as (ts & b & C & V & Htr & Hva & F).
  assert (Hi : init_tree_context tk p fb y weights = Ok tc).
  { unfold tree_fit in Hfit. apply bind_ok in Hfit. destruct Hfit as (tc0 & Hi & Hfit). apply bind_ok in Hfit.
    destruct Hfit as (g0 & _ & Hfit). inversion Hfit; subst. exact Hi. }
  unfold init_tree_context in Hi. apply bind_ok in Hi. destruct Hi as (mb & Hmb & Hi).
  unfold unpickle. cbn [ob_tree ob_ctx ob_step ob_dirichlet ob_aggregation ob_train ob_valid].
  rewrite (unserialize_tree_same pr0 (g_tree g) _ _ _ (ft_tree _ _ _ _ _ _ _ F)). cbn [bind].
  unfold unserialize_ctx. cbn [cx_tc cx_parts cx_train cx_valid cx_dirichlet].
  assert (Efb : tc_fb tc = fb) by (inversion Hi; reflexivity).
  rewrite Efb, (unserialize_fba_same memN fb AL). cbn [bind]. rewrite Hmb. cbn [bind].
  destruct (grown ts tc train valid s g b F) as (s' & fs' & HG).
  destruct (flat_perm ts tc _ _ _ _ _ _ _ _ _ HG) as [P1 P2].
  cbn [init_parts p_train p_valid p_left p_right].
  assert (Hnt := ft_train _ _ _ _ _ _ _ F). assert (Hnv := ft_valid _ _ _ _ _ _ _ F).
  assert (HR : bd_train (broot b) = train /\ bd_valid (broot b) = valid) by (eapply grows_root; eauto).
  destruct HR as [R1 R2].
  rewrite assign_same; [cbn [bind]|rewrite Hnt, (Permutation_length P1); congruence].
  rewrite assign_same; [cbn [bind]|rewrite Hnv, (Permutation_length P2); congruence].
  rewrite assign_same; [cbn [bind]|rewrite map_length, seq_length, <- Efb; symmetry; apply (ft_left _ _ _ _ _ _ _ F)].
  rewrite assign_same; [cbn [bind]|rewrite map_length, seq_length, <- Efb; symmetry; apply (ft_right _ _ _ _ _ _ _ F)].
  inversion Hi. destruct (g_parts g). reflexivity.
Qed.
Print Assumptions C45_pickle.

Lemma lighten_keeps : forall {A : arith} {P Y} (o o1 : tobj A P Y), lighten o = (o1, None) ->
  ob_step o1 = ob_step o /\ ob_dirichlet o1 = ob_dirichlet o.
Proof. intros A P Y o o1 H. unfold lighten in H. destruct (ob_tree o); inversion H. auto. Qed.

(** ** A fitted tree to which all this applies (it splits its root: C18_tree_classification_applies) *)
Lemma exR_obj : forall d agg, (0 <= d)%R -> exists o, clf_obj_fit env_R 3 d Gini AllMods (exR_params agg 2) ex_fb ex_labels ex_train ex_valid exR_w 0 = Ok o.
Proof.
  intros d agg Hd.
  destruct (C48_classifier env_R 3 d Gini AllMods (exR_params agg 2) ex_fb ex_labels ex_train ex_valid exR_w 0) as (tc & g & H);
    auto using env_R_good, exR_positive; try discriminate.
  - apply exR_valid_fit; [reflexivity|lia].
  - exact (exR_valid_labels agg 2).
  - unfold clf_obj_fit, obj_fit. rewrite H. eexists. reflexivity.
Qed.

Lemma exR_call : forall d agg, valid_call (clf_task env_R 3 d Gini AllMods) (exR_params agg 2) ex_fb ex_labels ex_train ex_valid exR_w.
Proof.
  intros. apply VC_classifier; auto using env_R_good; [apply exR_valid_fit; [reflexivity|lia]|exact (exR_valid_labels agg 2)].
Qed.

Lemma ex_fb_allocated : allocated ex_fb.
Proof.
  destruct (array_to_bitarray (fun _ => 12345%N) 2 ex_X) as [fb|e] eqn:H.
  - unfold ex_fb. rewrite H. eapply array_to_bitarray_allocated; eauto.
  - exfalso. vm_compute in H. discriminate.
Qed.

Example C37_applies : exists o o', clf_obj_fit env_R 3 (/ 2)%R Gini AllMods (exR_params true 2) ex_fb ex_labels ex_train ex_valid exR_w 0 = Ok o /\
  set_steps [2%R; 3%R; 1%R; 5%R] o = (o', None) /\
  clf_obj_fit env_R 3 (/ 2)%R Gini AllMods (params_with_step (exR_params true 2) 5%R) ex_fb ex_labels ex_train ex_valid exR_w 0 = Ok o'.
Proof.
  destruct (exR_obj (/ 2)%R true) as [o H]; [lra|].
  destruct (C37_sequence (clf_task env_R 3 (/ 2)%R Gini AllMods) (/ 2)%R [2%R; 3%R; 1%R; 5%R] (exR_params true 2) ex_fb ex_labels ex_train ex_valid exR_w 0 o)
    as (o' & H1 & H2); auto using exR_call.
  { intros x z _ _ Hz. exact (num_eqb_R _ _ Hz). }
  exists o, o'. auto.
Qed.

Example C38_applies : exists o o', clf_obj_fit env_R 3 (/ 2)%R Gini AllMods (exR_params true 2) ex_fb ex_labels ex_train ex_valid exR_w 0 = Ok o /\
  clf_obj_fit env_R 3 2%R Gini AllMods (exR_params true 2) ex_fb ex_labels ex_train ex_valid exR_w 0 = Ok o' /\
  set_dirichlet env_R 3 2%R o = (o', None).
Proof.
  apply C38_dirichlet_positive; auto using env_R_good, exR_positive; try discriminate; try lra.
  - apply exR_valid_fit; [reflexivity|lia].
  - exact (exR_valid_labels true 2).
Qed.

Example C43_applies : exists o o', clf_obj_fit env_R 3 (/ 2)%R Gini AllMods (exR_params true 2) ex_fb ex_labels ex_train ex_valid exR_w 0 = Ok o /\
  lighten o = (o', None) /\ forall fb', obj_predict mix_vec o' fb' = obj_predict mix_vec o fb'.
Proof.
  destruct (exR_obj (/ 2)%R true) as [o H]; [lra|].
  destruct (C43_lighten (clf_task env_R 3 (/ 2)%R Gini AllMods) (/ 2)%R (exR_params true 2) ex_fb ex_labels ex_train ex_valid exR_w 0 o)
    as (o' & H1 & H2 & _); auto using exR_call. exists o, o'. auto.
Qed.

(** The property of C44 fails: after [fit] and [lighten], setting the step raises with the
    object already changed, setting dirichlet too, and the pickled tree cannot be loaded. *)
Theorem C44_refuted : exists o o1,
  clf_obj_fit env_R 3 (/ 2)%R Gini AllMods (exR_params true 2) ex_fb ex_labels ex_train ex_valid exR_w 0 = Ok o /\
  lighten o = (o1, None) /\
  (exists o2, set_step 2%R o1 = (o2, Some AttrErr) /\ ob_step o1 = 1%R /\ ob_step o2 = 2%R /\ ob_tree o2 = ob_tree o1) /\
  (exists o2, set_dirichlet env_R 3 2%R o1 = (o2, Some AttrErr) /\ ob_dirichlet o1 = (/ 2)%R /\ ob_dirichlet o2 = 2%R /\ ob_tree o2 = ob_tree o1) /\
  (forall memN pred0, unpickle env_R memN pred0 o1 = Err TypeErr \/ unpickle env_R memN pred0 o1 = Err ValueErr).
Proof.
  destruct (exR_obj (/ 2)%R true) as [o H]; [lra|].
  destruct (C43_lighten (clf_task env_R 3 (/ 2)%R Gini AllMods) (/ 2)%R (exR_params true 2) ex_fb ex_labels ex_train ex_valid exR_w 0 o)
    as (o1 & H1 & _); auto using exR_call.
  assert (S0 : ob_step o = 1%R /\ ob_dirichlet o = (/ 2)%R).
  { unfold clf_obj_fit, obj_fit in H. apply bind_ok in H. destruct H as ([tc g] & _ & H). inversion H. cbn. split; reflexivity. }
  destruct S0 as [S0 S1].
  assert (S2 : ob_step o1 = ob_step o /\ ob_dirichlet o1 = ob_dirichlet o).
  { exact (lighten_keeps o o1 H1). }
  destruct S2 as [S2 S3].
  exists o, o1. split; [exact H|]. split; [exact H1|]. split; [|split].
  - destruct (C44_lightened_step o o1 2%R H1) as (o2 & A1 & A2 & A3).
    + rewrite S0. destruct (num_eqb 1%R 2%R) eqn:En; auto. apply num_eqb_R in En. exfalso. cbn in En. lra.
    + exists o2. split; [exact A1|]. split; [|split; [exact A2|exact A3]]. etransitivity; eassumption.
  - destruct (C44_lightened_dirichlet env_R 3 o o1 2%R H1) as (o2 & A1 & A2 & A3).
    + rewrite S1. destruct (num_eqb 2%R (/ 2)%R) eqn:En; auto. apply num_eqb_R in En. exfalso. cbn in En. lra.
    + exists o2. split; [exact A1|]. split; [|split; [exact A2|exact A3]]. etransitivity; eassumption.
  - intros memN pr0. exact (lightened_pickle env_R memN pr0 o o1 H1).
Qed.
Print Assumptions C44_refuted.

Example C45_applies : exists o, clf_obj_fit env_R 3 (/ 2)%R Gini AllMods (exR_params true 2) ex_fb ex_labels ex_train ex_valid exR_w 0 = Ok o /\
  forall memN pred0, unpickle env_R memN pred0 o = Ok o.
Proof.
  destruct (exR_obj (/ 2)%R true) as [o H]; [lra|]. exists o. split; auto. intros memN pr0.
  exact (C45_pickle (clf_task env_R 3 (/ 2)%R Gini AllMods) (/ 2)%R (exR_params true 2) ex_fb ex_labels ex_train ex_valid exR_w 0 o memN pr0
    (exR_call _ true) ex_fb_allocated H).
Qed.
