(** * The hypotheses of C62 and C63 hold for concrete forests *)

Require Import String Bool List Arith Lia NArith ZArith Reals Lra Permutation.
Require Import Verif.Base Verif.Num Verif.M_Bitarray Verif.M_Utils Verif.M_Context Verif.M_Split
  Verif.M_Tree Verif.M_Grow Verif.M_Object Verif.M_Forest Verif.S_Fit Verif.S_Tree Verif.S_Forest Verif.S_Trained Verif.S_Impurity Verif.P_Forest
  Verif.T_Trained Verif.T_Average Verif.T_Forest Verif.T_ForestR Verif.Ex_Data Verif.Ex_R Verif.Ex_Forest.
Import ListNotations.
Local Open Scope list_scope.
Local Open Scope nat_scope.

(** Every label, weighting and aggregation setting: the trees exist, have nodes, and hold the
    statistics of the eight rows. *)
Example C62_applies : forall m b agg X sw, bd_fb X = ex_fb -> sw = None \/ sw = ex_weights b ->
  exists o1 c ts, clf_fit Nat.leb ex_menv (ex_forest m b agg) X ex_names sw = ((o1, None), c) /\
    fo_trees o1 = Some ts /\ length ts = (match m with Multinomial => 2 | Ovr => 6 end) /\
    forall t obj, nth_error ts t = Some obj -> exists codes draws tree, ob_tree obj = Some tree /\
      match m with Multinomial => positions_of [10; 20; 30] ex_names codes | Ovr => one_versus_rest [10; 20; 30] ex_names (t / 2) codes end /\
      bootstrap draws 8 /\ within_limits (ex_forest m b agg) tree /\ 1 <= tr_node_count tree /\
      exists nd pred, node_at tree 0 nd /\ nth_error (tr_y_pred tree) 0 = Some pred /\ length pred = match m with Multinomial => 3 | Ovr => 2 end.
Proof.
  intros m b agg X sw HX Hsw. destruct (ex_fits m b agg X sw HX Hsw) as (o1 & c & H).
  destruct (ex_fitted m b agg X sw o1 c HX Hsw H) as (F1 & F2 & F3 & F4 & F5).
  assert (Hm : fo_multiclass o1 = m).
  { destruct (clf_fit_trees ex_menv (fun _ => True) ex_menv_good ex_encoding_good Nat.leb nat_order _ o1 X ex_names sw c (ex_legal m b agg) (ex_enough m b agg X) H)
      as (w & d & mf & rs & enc & fb & ts & H1 & _). subst o1. destruct m; reflexivity. }
  destruct (C62_classifier ex_menv (fun _ => True) ex_menv_good env_R_good ex_encoding_good Nat.leb _ o1 X ex_names sw c nat_order (ex_legal m b agg) (ex_enough m b agg X) H)
    as (enc & fb & ts & d & G1 & G2 & G3 & G4 & G5 & G6 & G7). rewrite Hm, F3 in *.
  exists o1, c, ts. split; [exact H|]. split; [exact G4|]. split; [rewrite G6; destruct m; reflexivity|].
  intros t obj Ho. destruct (G7 t obj Ho) as (codes & draws & seed & tree & T1 & T2 & T3 & T4 & T5 & T6).
  assert (HW : within_limits (ex_forest m b agg) tree).
  { eapply (C62_limits_classifier ex_menv (fun _ => True) ex_menv_good env_R_good ex_encoding_good); eauto using nat_order, (ex_legal m b agg), (ex_enough m b agg X).
    eapply nth_error_In; eauto. }
  exists codes, draws, tree. split; [exact T1|]. split; [exact T2|]. split; [exact T3|]. split; [exact HW|].
  destruct HW as [HW _]. destruct (wf_root _ HW) as (nd & N1 & N2 & N3). split; [destruct N1; lia|].
  destruct (T6 0 nd N1) as (f & pred & P1 & P2). cbv zeta in P2. destruct P2 as (_ & _ & _ & _ & P3 & (P4 & _) & _).
  exists nd, pred. split; [exact N1|]. split; [exact P3|]. rewrite P4. destruct m; reflexivity.
Qed.

Example C62_regressor_applies : forall X, bd_fb X = ex_fb ->
  exists o1 c ts, reg_fit ex_menv ex_forest_reg X ex_targets (ex_weights true) = ((o1, None), c) /\ fo_trees o1 = Some ts /\ length ts = 2 /\
  forall t obj, nth_error ts t = Some obj -> exists draws tree, ob_tree obj = Some tree /\ bootstrap draws 8 /\ within_limits ex_forest_reg tree /\
  exists nd pred, node_at tree 0 nd /\ nth_error (tr_y_pred tree) 0 = Some pred.
Proof.
  intros X HX. destruct (ex_reg_fits X true (ex_weights true) HX (or_intror eq_refl)) as (o1 & c & H).
  destruct (C62_regressor ex_menv (fun _ => True) ex_menv_good env_R_good ex_encoding_good ex_forest_reg o1 X ex_targets (ex_weights true) c ex_legal_reg H)
    as (enc & fb & ts & G1 & G2 & G3 & G4 & G5 & G6).
  exists o1, c, ts. split; [exact H|]. split; [exact G4|]. split; [exact G5|]. intros t obj Ho.
  destruct (G6 t obj Ho) as (draws & seed & tree & T1 & T2 & T3 & T4 & T5).
  assert (HW : within_limits ex_forest_reg tree).
  { eapply (C62_limits_regressor ex_menv (fun _ => True) ex_menv_good env_R_good ex_encoding_good); eauto using ex_legal_reg. eapply nth_error_In; eauto. }
  exists draws, tree. split; [exact T1|]. split; [exact T2|]. split; [exact HW|].
  destruct HW as [HW _]. destruct (wf_root _ HW) as (nd & N1 & N2 & N3).
  destruct (T5 0 nd N1) as (f & pred & P1 & P2). cbv zeta in P2. exists nd, pred. tauto.
Qed.

(** Predictions of these forests: eight rows, the mean of the trees. *)
Example C63_applies : forall b agg X sw, bd_fb X = ex_fb -> sw = None \/ sw = ex_weights b ->
  exists o1 c ps rows, clf_fit Nat.leb ex_menv (ex_forest Multinomial b agg) X ex_names sw = ((o1, None), c) /\
    predict_proba_trees o1 X = Ok ps /\ predict_proba (fun s => Rleb s 0) [1; 0] o1 X = Ok rows /\ length rows = 8 /\
    forall i row k, nth_error rows i = Some row -> k < 3 -> nth k row 0%R = ((says ps 0 i k + (says ps 1 i k + 0)) / 2)%R.
Proof.
  intros b agg X sw HX Hsw. destruct (C34_forest_applies Multinomial b agg X sw HX Hsw) as (o1 & c & ps & rows & H & H1 & H2 & H3 & H4 & H5).
  destruct (ex_fitted Multinomial b agg X sw o1 c HX Hsw H) as (F1 & F2 & F3 & F4 & F5). rewrite F2 in H3.
  exists o1, c, ps, rows. split; [exact H|]. split; [exact H1|]. split; [exact H3|]. split; [exact H4|].
  intros i row k Hi Hk. rewrite (C63_mean o1 X (fun s => Rleb s 0) (rev (seq 0 2)) rows ps) with (i := i) (row := row); auto.
  - rewrite H2. cbn [seq map Rsum fold_right]. reflexivity.
  - destruct (clf_fit_trees ex_menv (fun _ => True) ex_menv_good ex_encoding_good Nat.leb nat_order _ o1 X ex_names sw c (ex_legal Multinomial b agg) (ex_enough Multinomial b agg X) H)
      as (w & d & mf & rs & enc & fb & ts & Q & _). subst o1. reflexivity.
  - rewrite H2. apply Permutation_sym, Permutation_rev.
  - rewrite F3. exact Hk.
Qed.

Example C63_ovr_applies : forall b agg X sw, bd_fb X = ex_fb -> sw = None \/ sw = ex_weights b ->
  exists o1 c ps rows, clf_fit Nat.leb ex_menv (ex_forest Ovr b agg) X ex_names sw = ((o1, None), c) /\ fo_multiclass o1 = Ovr /\
    predict_proba_trees o1 X = Ok ps /\ length ps = 6 /\ predict_proba (fun s => Rleb s 0) (rev (seq 0 6)) o1 X = Ok rows /\ length rows = 8.
Proof.
  intros b agg X sw HX Hsw. destruct (C34_forest_applies Ovr b agg X sw HX Hsw) as (o1 & c & ps & rows & H & H1 & H2 & H3 & H4 & H5).
  destruct (ex_fitted Ovr b agg X sw o1 c HX Hsw H) as (F1 & F2 & F3 & F4 & F5). rewrite F2 in H3.
  exists o1, c, ps, rows. split; [exact H|]. split; [|auto].
  destruct (clf_fit_trees ex_menv (fun _ => True) ex_menv_good ex_encoding_good Nat.leb nat_order _ o1 X ex_names sw c (ex_legal Ovr b agg) (ex_enough Ovr b agg X) H)
      as (w & d & mf & rs & enc & fb & ts & Q & _). subst o1. reflexivity.
Qed.
