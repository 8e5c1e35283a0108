(** * A forest built by its constructor, configured, and fitted on a table: the hypotheses of
    the theorems of T_Reach.v are met *)

Require Import String Bool List Arith Lia NArith ZArith Reals Lra Permutation.
Require Import Verif.Base Verif.Num Verif.Cells Verif.M_Bitarray Verif.P_Bitarray Verif.M_Utils Verif.M_Context Verif.M_Split Verif.M_Tree Verif.M_Grow Verif.M_Object Verif.M_Forest
  Verif.S_Fit Verif.S_Split Verif.S_Object Verif.S_Impurity Verif.S_Params Verif.S_Forest Verif.P_BinningR Verif.T_Bootstrap Verif.T_Params Verif.T_Forest Verif.T_ForestR Verif.T_Clone
  Verif.M_Parallel Verif.T_Parallel Verif.T_Labels
  Verif.M_Encoder Verif.S_Encoder Verif.M_EncoderForest Verif.T_EncoderForest Verif.T_Reach Verif.Ex_Data Verif.Ex_Valid Verif.Ex_R Verif.Ex_Forest Verif.T_EncoderQ.
Import ListNotations.
Local Open Scope nat_scope.
Local Open Scope list_scope.

Notation ECQ := (forest_encoding VQ nat Nat.eqb E0 to_int (st0 PyNone CFNone)).
Definition train_table : table VQ nat := mkTable _ _ X0 X0_ok X0_clean CFNone.
Definition test_table : table VQ nat := mkTable _ _ X1 X1_ok X1_clean CFNone.
Definition train_enc : config * encoder VQ := get_ce (ec_fit ECQ 256 train_table).
Definition train_fb : fba := get_fb (ec_transform ECQ train_enc train_table).
Definition test_fb : fba := get_fb (ec_transform ECQ train_enc test_table).
Definition train_labels : list nat := [30; 30; 10; 20; 20; 30].

Lemma train_fit : ec_fit ECQ 256 train_table = Ok train_enc.
Proof. vm_cast_no_check (@eq_refl (res (ec_enc ECQ)) (Ok train_enc)). Qed.
Lemma train_transform : ec_transform ECQ train_enc train_table = Ok train_fb.
Proof. vm_cast_no_check (@eq_refl (res fba) (Ok train_fb)). Qed.
Lemma test_transform : ec_transform ECQ train_enc test_table = Ok test_fb.
Proof. vm_cast_no_check (@eq_refl (res fba) (Ok test_fb)). Qed.

(** The default constructor with a seed, then setters, one of which raises. *)
Definition some_sets : list (clf_op (A := R_arith) nat (table VQ nat)) :=
  [OSet P_n_estimators (PyInt 2); OSet P_criterion (PyStr "entropy"); OSet P_min_samples_leaf (PyInt 0); OSet P_cat_split_strategy (PyStr "all"); OLighten].
Definition built : clf_forest R_arith nat ECQ :=
  mkF false 10 a1 true None 2 1 256 MFAuto 1 (Some (Some 7%Z)) false "gini" "log" (Some ahalf) false Multinomial BinaryMod [] [] None None 0.
Definition configured : clf_forest R_arith nat ECQ :=
  mkF false 2 a1 true None 2 1 256 MFAuto 1 (Some (Some 7%Z)) false "entropy" "log" (Some ahalf) false Multinomial AllMods [] [] None None 0.

Lemma built_new : new_clf env_R ECQ (default_args (@PyInt R_arith 7)) = Ok built.
Proof.
  apply (default_new (PyInt 7) (Some (Some 7%Z))).
  - apply Rleb_false. change (0 < 1)%R. lra.
  - apply Rltb_false. change (0 <= / 2)%R. lra.
  - intros o Hf Hr. unfold set_random_state. rewrite Hf. reflexivity.
Qed.
Lemma configured_run : fold_left (clf_run Nat.leb ex_menv) some_sets built = configured.
Proof. reflexivity. Qed.

Lemma leaves_6 : forall seed, In seed [1%N; 2%N] -> leaves_out (lcg_randint (attempt seed 0) 6) 6.
Proof.
  intros seed H.
  assert (D : exists i, In i (seq 0 6) /\ times (lcg_randint (attempt seed 0) 6) i = 0).
  { destruct (filter (fun i => times (lcg_randint (attempt seed 0) 6) i =? 0) (seq 0 6)) as [|i r] eqn:Ef.
    - exfalso. repeat (destruct H as [<-|H]; [vm_compute in Ef; discriminate|]). destruct H.
    - exists i. assert (Hi : In i (i :: r)) by (simpl; auto). rewrite <- Ef in Hi. apply filter_In in Hi. rewrite Nat.eqb_eq in Hi. exact Hi. }
  destruct D as (i & H1 & H2). exists i. apply in_seq in H1. split; [lia|]. intros Hin. apply times_in in Hin. auto.
Qed.

Lemma configured_enough : enough_classes Nat.leb configured train_table train_labels.
Proof. intros enc _ _ H. discriminate H. Qed.

Lemma configured_fits : exists o1 c, clf_fit Nat.leb ex_menv configured train_table train_labels None = ((o1, None), c).
Proof.
  destruct (C48_forest_classifier ex_menv (fun _ => True) ex_menv_good env_R_good (a_good_encoding PyNone CFNone) Nat.leb nat_order configured train_table train_labels
     None (/ 2)%R (Some 7%Z) 2%Z train_enc train_fb) as (o1 & e & c & H1 & H2).
  - constructor; cbn; auto; lia.
  - apply configured_enough.
  - reflexivity.
  - exact I.
  - intros b l H. discriminate.
  - reflexivity.
  - lra.
  - intros. lra.
  - intros H. discriminate.
  - reflexivity.
  - reflexivity.
  - apply train_fit.
  - apply train_transform.
  - exists o1, c. destruct H2 as [->|(-> & seed & Hin & Hall)]; [exact H1|]. exfalso.
    apply (Hall 0); [cbn [me_limit ex_menv]; lia|]. apply leaves_6. destruct Hin as [<-|[<-|[]]]; [left|right; left]; reflexivity.
Qed.

(** Six rows of strings, floats with a missing one, integers and categories; three other rows
    are then predicted, some with values that were not seen before. *)
Example C34_from_constructor_applies : exists o1 sched probas labels,
  new_clf env_R ECQ (default_args (@PyInt R_arith 7)) = Ok built /\
  fst (clf_fit Nat.leb ex_menv (fold_left (clf_run Nat.leb ex_menv) some_sets built) train_table train_labels None) = (o1, None) /\
  predict_proba_run (fun s => Rleb s 0) sched o1 test_table = Some probas /\ length probas = 3 /\
  (forall row, In row probas -> distribution 3 row) /\
  predict_class_run (fun s => Rleb s 0) sched o1 test_table = Some labels /\ forall l, In l labels -> In l [10; 20; 30].
Proof.
  destruct configured_fits as (o1 & c & H).
  assert (HL : legal (fun _ => True) configured) by (constructor; cbn; auto; lia).
  destruct (clf_fit_trees ex_menv (fun _ => True) ex_menv_good (a_good_encoding PyNone CFNone) Nat.leb nat_order _ o1 train_table train_labels None c
    HL configured_enough H) as (w & d & mf & rs & enc & fb & ts & H1 & _ & _ & _ & _ & _ & H3 & _).
  assert (He : Some enc = Some train_enc) by (pose proof (eq_trans (eq_sym train_fit) H3) as Hx; inversion Hx; reflexivity).
  assert (Ho : fo_encoder o1 = Some train_enc) by (rewrite <- He, H1; reflexivity).
  assert (Hc : fo_classes o1 = [10; 20; 30]) by (rewrite H1; reflexivity).
  clear H1 H3 He.
  destruct (C34_from_constructor VQ VQ_good nat Nat.eqb E0 to_int names_ok choices_ok (st0 PyNone CFNone) env_R_good ex_menv ex_menv_good Nat.leb nat_order
    _ built o1 some_sets train_table train_labels None c built_new configured_enough I H test_table train_enc test_fb (fun s => Rleb s 0) Ho test_transform)
    as [(sched & probas & HR) HA].
  { intros s Hs. apply Rleb_false in Hs. lra. }
  destruct (HA sched probas HR) as (L1 & L2 & labels & L3 & L4 & L5). rewrite Hc in L2.
  exists o1, sched, probas, labels. split; [exact built_new|]. split; [rewrite configured_run, H; reflexivity|]. split; [exact HR|].
  split; [exact L1|]. split; [exact L2|]. split; [exact L3|]. intros l Hl. specialize (L5 l Hl). clear - L5. cbn in *. intuition.
Qed.

(** The same for a regressor. *)
Definition reg_args (p : param) : pyval R_arith :=
  match p with P_criterion | P_loss => PyStr "mse" | _ => default_args (@PyInt R_arith 7) p end.
Definition reg_sets : list (clf_op (A := R_arith) R (table VQ nat)) := [OSet P_n_estimators (PyInt 2); OSet P_max_bins (PyInt 2); OLighten].
Definition reg_built : reg_forest R_arith nat ECQ :=
  mkF false 10 a1 true None 2 1 256 MFAuto 1 (Some (Some 7%Z)) false "mse" "mse" None false Multinomial BinaryMod [] [] None None 0.
Definition reg_configured : reg_forest R_arith nat ECQ :=
  mkF false 2 a1 true None 2 1 256 MFAuto 1 (Some (Some 7%Z)) false "mse" "mse" None false Multinomial BinaryMod [] [] None None 0.
Definition reg_labels : list R := [1; 3; -2; 0; 5; 1]%R.

Lemma reg_built_new : new_reg ECQ reg_args = Ok reg_built.
Proof.
  unfold new_reg, base_params. cbn [map app reg_args default_args].
  do 3 (eapply set_all_step; [normal_form|]).
  eapply set_all_step; [unfold setattr_reg; cbn [setattr]; unfold set_fstep; cbn [as_float];
    replace (aleb (a1 : num R_arith) a0) with false by (symmetry; apply Rleb_false; change (0 < 1)%R; lra); normal_form|].
  do 9 (eapply set_all_step; [normal_form|]). reflexivity.
Qed.
Lemma reg_configured_run : fold_left (reg_run ex_menv) reg_sets reg_built = reg_configured.
Proof. reflexivity. Qed.

Lemma reg_configured_fits : exists o1 c, reg_fit ex_menv reg_configured train_table reg_labels None = ((o1, None), c).
Proof.
  destruct (C48_forest_regressor ex_menv (fun _ => True) ex_menv_good env_R_good (a_good_encoding PyNone CFNone) reg_configured train_table reg_labels
     None (Some 7%Z) 2%Z train_enc train_fb) as (o1 & e & c & H1 & H2).
  - constructor; cbn; auto; lia.
  - reflexivity.
  - exact I.
  - intros b l H. discriminate.
  - reflexivity.
  - reflexivity.
  - apply train_fit.
  - apply train_transform.
  - exists o1, c. destruct H2 as [->|(-> & seed & Hin & Hall)]; [exact H1|]. exfalso.
    apply (Hall 0); [cbn [me_limit ex_menv]; lia|]. apply leaves_6. destruct Hin as [<-|[<-|[]]]; [left|right; left]; reflexivity.
Qed.

Example C35_from_constructor_applies : exists o1 sched values,
  new_reg ECQ reg_args = Ok reg_built /\
  fst (reg_fit ex_menv (fold_left (reg_run ex_menv) reg_sets reg_built) train_table reg_labels None) = (o1, None) /\
  predict_reg_run sched o1 test_table = Some values /\ length values = 3 /\ forall v, In v values -> (-2 <= v <= 5)%R.
Proof.
  destruct reg_configured_fits as (o1 & c & H).
  assert (HL : legal (fun _ => True) reg_configured) by (constructor; cbn; auto; lia).
  destruct (reg_fit_trees ex_menv (fun _ => True) ex_menv_good (a_good_encoding PyNone CFNone) _ o1 train_table reg_labels None c
    HL H) as (w & mf & rs & enc & fb & ts & H1 & _ & _ & _ & H3 & _).
  assert (He : Some enc = Some train_enc) by (pose proof (eq_trans (eq_sym train_fit) H3) as Hx; inversion Hx; reflexivity).
  assert (Ho : fo_encoder o1 = Some train_enc) by (rewrite <- He, H1; reflexivity).
  clear H1 H3 He.
  assert (Hy : forall v, In v reg_labels -> (-2 <= v <= 5)%R).
  { intros v Hv. cbn in Hv. repeat (destruct Hv as [<-|Hv]; [lra|]). destruct Hv. }
  destruct (C35_from_constructor VQ VQ_good nat Nat.eqb E0 to_int names_ok choices_ok (st0 PyNone CFNone) env_R_good ex_menv ex_menv_good
    _ reg_built o1 reg_sets train_table reg_labels None c (-2)%R 5%R reg_built_new I Hy H test_table train_enc test_fb Ho test_transform)
    as [(sched & values & HR) HA].
  destruct (HA sched values HR) as (L1 & L2).
  exists o1, sched, values. split; [exact reg_built_new|]. split; [rewrite reg_configured_run, H; reflexivity|]. auto.
Qed.
