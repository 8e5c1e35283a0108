(** * Valid calls give valid contexts *)

Require Import List Arith Lia NArith Permutation.
Require Import Verif.Base Verif.Num Verif.M_Bitarray Verif.P_Bitarray Verif.M_Utils
  Verif.M_Context Verif.M_Node Verif.M_Grow Verif.P_Utils Verif.P_List Verif.P_Task Verif.P_Node Verif.S_Fit.
Import ListNotations.
Local Open Scope res_scope.

Lemma bin_of_binv : forall fb i j, bin_of fb i j = binv fb j i.
Proof. reflexivity. Qed.

Lemma packed_bins : forall fb mb, packed fb -> init_max_n_bins fb = Ok mb ->
  forall i j, i < fb_n_samples fb -> j < fb_n_features fb -> binv fb j i < mb.
Proof.
  intros fb mb [W Hm] Hmb i j Hi Hj.
  destruct (get_value_wf fb i j W Hi Hj) as [v Hv]. unfold binv. rewrite Hv.
  destruct (get_in (fb_max_values fb) j) as [mv Hmv]; [rewrite (wf_nf fb W); auto|].
  apply get_ok in Hmv. pose proof (Hm i j v mv Hi Hv Hmv) as Hle.
  unfold init_max_n_bins in Hmb. destruct (fb_max_values fb) as [|m ms] eqn:Em; [destruct j; discriminate|].
  inversion Hmb; subst. unfold col_max.
  apply nth_error_In in Hmv.
  destruct (fold_max_le (m :: ms) 0%N) as [_ Hmax]. specialize (Hmax mv Hmv). lia.
Qed.

Lemma init_max_n_bins_ok : forall fb, packed fb -> 0 < fb_n_features fb -> exists mb, init_max_n_bins fb = Ok mb.
Proof.
  intros fb [W _] H. unfold init_max_n_bins. destruct (fb_max_values fb) eqn:Em; eauto.
  pose proof (wf_nf fb W). rewrite Em in H0. simpl in H0. lia.
Qed.

Section Gen.
Context {A : arith} {E : env A} {tk : task A E} (ts : task_shape tk).

Lemma init_tree_context_ok : forall p fb (y : list (tk_Y tk)) train valid weights,
  valid_fit p fb y train valid weights ->
  exists mb, init_max_n_bins fb = Ok mb /\
    init_tree_context tk p fb y weights =
    Ok (mkTctx _ fb mb y weights (tp_max_features p) (tp_min_samples_split p) (tp_min_samples_leaf p)
          (tp_max_depth p) (tp_aggregation p) (tp_step p) (tp_is_categorical p)).
Proof.
  intros p fb y train valid weights V.
  destruct (init_max_n_bins_ok fb (vf_packed _ _ _ _ _ _ V)) as [mb Hmb].
  { pose proof (vf_mf _ _ _ _ _ _ V). lia. }
  exists mb. split; auto. unfold init_tree_context. rewrite Hmb. reflexivity.
Qed.

Lemma valid_data_ok : forall p fb (y : list (tk_Y tk)) train valid weights tc,
  valid_fit p fb y train valid weights ->
  (forall k, In k y -> ts_Yok ts k) -> (In true (tp_is_categorical p) -> ts_cat ts) ->
  init_tree_context tk p fb y weights = Ok tc ->
  data_ok ts tc /\ tc_fb tc = fb /\ tc_y tc = y /\ tc_weights tc = weights /\
  tc_max_features tc = tp_max_features p /\ tc_min_samples_split tc = tp_min_samples_split p /\
  tc_min_samples_leaf tc = tp_min_samples_leaf p /\ tc_max_depth tc = tp_max_depth p /\
  tc_aggregation tc = tp_aggregation p /\ tc_step tc = tp_step p /\
  tc_is_categorical tc = tp_is_categorical p.
Proof.
  intros p fb y train valid weights tc V Hy Hc Htc.
  destruct (init_tree_context_ok p fb y train valid weights V) as [mb [Hmb Hi]].
  rewrite Hi in Htc. inversion Htc; subst tc; clear Htc.
  split; [|repeat split; reflexivity].
  constructor; cbn [tc_fb tc_max_n_bins tc_y tc_weights tc_is_categorical].
  - apply (pk_layout _ (vf_packed _ _ _ _ _ _ V)).
  - apply packed_bins; auto. apply (vf_packed _ _ _ _ _ _ V).
  - apply (vf_y _ _ _ _ _ _ V).
  - apply (vf_w _ _ _ _ _ _ V).
  - auto.
  - apply (vf_cat _ _ _ _ _ _ V).
  - auto.
Qed.
End Gen.

Lemma clf_labels_ok : forall {A : arith} (E : env A) K d crit st cats y, good_env E -> valid_labels K st cats y ->
  (forall k, In k y -> ts_Yok (clf_shape E K d crit st) k) /\ (In true cats -> ts_cat (clf_shape E K d crit st)).
Proof.
  intros A E K d crit st cats y [H1 H2] [H3 H4]. split; simpl; [auto|].
  intros H. destruct (H4 H) as [H5 H6]. repeat split; auto.
Qed.

Lemma reg_labels_ok : forall {A : arith} (E : env A) cats (y : list (num A)), good_env E ->
  (forall k, In k y -> ts_Yok (reg_shape E) k) /\ (In true cats -> ts_cat (reg_shape E)).
Proof. intros A E cats y [H1 H2]. split; simpl; auto. Qed.

(** What the packing functions return is a packed matrix. *)
Lemma array_to_bitarray_packed : forall mem nf X, X <> [] ->
  (forall row, In row X -> length row = nf) ->
  (forall row x, In row X -> In x row -> (x < 2 ^ 63)%N) ->
  exists fb, array_to_bitarray mem nf X = Ok fb /\ packed fb /\
    fb_n_samples fb = length X /\ fb_n_features fb = nf /\
    (forall i j row x, nth_error X i = Some row -> nth_error row j = Some x -> bin_of fb i j = N.to_nat x).
Proof.
  intros mem nf X HX Hm Hb.
  destruct (array_to_bitarray_spec mem nf X) as (fb & E & W & Hs & Hf & Hmv & HR); auto.
  { destruct X; [congruence|simpl; lia]. }
  exists fb. split; auto. split; [|split; [auto|split; [auto|]]].
  - constructor; auto. intros i j v mv Hi Hv Hj.
    assert (Hjl : j < nf). { rewrite <- Hf, <- (wf_nf fb W). apply nth_error_Some. congruence. }
    rewrite Hs in Hi. destruct (nth_error X i) as [row|] eqn:Er; [|apply nth_error_None in Er; lia].
    destruct (nth_error row j) as [x|] eqn:Ex.
    2:{ apply nth_error_None in Ex. rewrite (Hm row) in Ex; [lia|]. eapply nth_error_In; eauto. }
    destruct (HR i j row x Er Ex) as [H1 [mv' [H2 H3]]]. congruence.
  - intros i j row x Hr Hx. destruct (HR i j row x Hr Hx) as [H1 _]. unfold bin_of. rewrite H1. auto.
Qed.
