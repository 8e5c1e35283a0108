(** * C72: examples, and a factor that changes the probabilities *)

Require Import String Bool List Arith Lia NArith ZArith Reals Lra QArith.
Require Import Verif.Base Verif.Num Verif.M_Bitarray Verif.P_Bitarray Verif.M_Utils Verif.M_Context Verif.M_Split
  Verif.M_Tree Verif.M_Grow Verif.M_Object Verif.M_Forest Verif.S_Fit Verif.S_Split Verif.S_Object Verif.S_Params Verif.S_Forest
  Verif.Ex_Data Verif.Ex_Valid Verif.Ex_R Verif.Ex_Forest Verif.Ex_ForestQ Verif.S_Units Verif.T_Scale Verif.Ex_Affine.
Import ListNotations.
Local Open Scope list_scope.
Local Open Scope nat_scope.

Definition ex_l : list R := [1; 2; 1; / 2; 1; 3; 1; 1]%R.

(** Two trees per class with aggregation, a categorical column, the weights multiplied by 3. *)
Example C72_classifier_applies : forall m bal X, bd_fb X = ex_fb -> exists o1 o2 w w',
  clf_fit Nat.leb ex_menv (ex_forest m bal true) X ex_names (Some (bal, ex_l)) = ((o1, None), w) /\
  clf_fit Nat.leb ex_menv (w_dirichlet (w_step (ex_forest m bal true) (/ 3)%R) (Some (3 * / 2)%R)) X ex_names (Some (true, map (Rmult 3) ex_l)) = ((o2, None), w') /\
  fo_classes o2 = fo_classes o1 /\
  (forall small order X', predict_proba small order o2 X' = predict_proba small order o1 X') /\
  (forall small order X', predict_class small order o2 X' = predict_class small order o1 X').
Proof.
  intros m bal X HX. destruct (ex_fits m bal true X (Some (bal, ex_l)) HX (or_intror eq_refl)) as (o1 & w & H).
  destruct (clf_fit Nat.leb ex_menv (w_dirichlet (w_step (ex_forest m bal true) (/ 3)%R) (Some (3 * / 2)%R)) X ex_names (Some (true, map (Rmult 3) ex_l))) as [[o2 e'] w'] eqn:H'.
  assert (H3 : (0 < 3)%R) by lra.
  destruct (C72_classifier ex_menv 3%R H3 Nat.leb (ex_forest m bal true) o1 o2 (/ 3)%R (/ 2)%R X ex_names bal true ex_l None e' w w') as (-> & HP).
  - reflexivity.
  - intros _. cbn. lra.
  - exact H.
  - exact H'.
  - destruct (HP eq_refl) as (K1 & K2 & K3 & _). exists o1, o2, w, w'. split; [exact H|]. split; [first [reflexivity | exact H']|]. split; [exact K1|]. split; [exact K2 | exact K3].
Qed.

Example C72_regressor_applies : forall X, bd_fb X = ex_fb -> exists o1 o2 w w',
  In true (ec_cats ex_encoding 2) /\ ec_fit ex_encoding 256 X = Ok 2 /\
  reg_fit ex_menv ex_forest_reg X ex_targets (Some (true, ex_l)) = ((o1, None), w) /\
  reg_fit ex_menv (w_step ex_forest_reg (/ 3)%R) X ex_targets (Some (false, map (Rmult 3) ex_l)) = ((o2, None), w') /\
  (forall order X', predict_reg order o2 X' = predict_reg order o1 X') /\
  (forall X', fweighted_depth o2 X' = fweighted_depth o1 X').
Proof.
  intros X HX. destruct (ex_X_facts X HX) as (Et & Es & Ef). destruct (ex_reg_fits X true (Some (true, ex_l)) HX (or_intror eq_refl)) as (o1 & w & H).
  destruct (reg_fit ex_menv (w_step ex_forest_reg (/ 3)%R) X ex_targets (Some (false, map (Rmult 3) ex_l))) as [[o2 e'] w'] eqn:H'.
  assert (H3 : (0 < 3)%R) by lra.
  destruct (C72_regressor ex_menv 3%R H3 ex_forest_reg o1 o2 (/ 3)%R X ex_targets true false ex_l None e' w w') as (-> & HP).
  - intros _. cbn. lra.
  - intros enc _ _. apply env_R_sort.
  - exact H.
  - exact H'.
  - destruct (HP eq_refl) as (K1 & K2 & K3). exists o1, o2, w, w'. split; [vm_compute; auto|]. split; [apply Ef|]. split; [exact H|]. split; [first [reflexivity | exact H']|]. split; [exact K1|]. apply K3. cbn. lra.
Qed.

(** ** Refuted: when [dirichlet] stays the same, the weights of all the samples being 2 instead of
    1 changes the probabilities. *)
Definition oneQ := exQ 1 MFAuto Multinomial false false.
Definition w1 : list (num QA) := repeat 1%Q 8.
Definition w2 : list (num QA) := map (Qmult 2) w1.

Lemma dirichlet_runs :
  let r1 := clf_fit Nat.leb menv_Q oneQ X2 ex_names (Some (false, w1)) in let r2 := clf_fit Nat.leb menv_Q oneQ X2 ex_names (Some (false, w2)) in
  (match snd (fst r1), snd (fst r2) with None, None => true | _, _ => false end &&
   match predict_proba smallQ [0] (fst (fst r1)) X2, predict_proba smallQ [0] (fst (fst r2)) X2 with
   | Ok ((p :: _) :: _), Ok ((q :: _) :: _) => (Qeq_bool p (1 # 5) && Qeq_bool q (1 # 7))%Q | _, _ => false end)%bool = true.
Proof. vm_compute. reflexivity. Qed.

Theorem C72_dirichlet_refuted : w2 = map (Qmult 2) w1 /\ exists o1 o2 w w' p p1 P q q1 P',
  clf_fit Nat.leb menv_Q oneQ X2 ex_names (Some (false, w1)) = ((o1, None), w) /\
  clf_fit Nat.leb menv_Q oneQ X2 ex_names (Some (false, w2)) = ((o2, None), w') /\
  predict_proba smallQ [0] o1 X2 = Ok ((p :: p1) :: P) /\ predict_proba smallQ [0] o2 X2 = Ok ((q :: q1) :: P') /\
  (p == 1 # 5)%Q /\ (q == 1 # 7)%Q.
Proof.
  split; [reflexivity|]. pose proof dirichlet_runs as H. cbv zeta in H.
  destruct (clf_fit Nat.leb menv_Q oneQ X2 ex_names (Some (false, w1))) as [[o1 e] w], (clf_fit Nat.leb menv_Q oneQ X2 ex_names (Some (false, w2))) as [[o2 e'] w']. cbn [fst snd] in H.
  destruct e, e'; try discriminate H. cbn [andb] in H.
  destruct (predict_proba smallQ [0] o1 X2) as [[|[|p p1] P]|] eqn:E1; try discriminate H. destruct (predict_proba smallQ [0] o2 X2) as [[|[|q q1] P']|] eqn:E2; try discriminate H.
  apply andb_true_iff in H. destruct H as [H1 H2]. apply Qeq_bool_iff in H1, H2.
  exists o1, o2, w, w', p, p1, P, q, q1, P'. split; [reflexivity|]. split; [reflexivity|]. split; [exact E1|]. split; [exact E2|]. split; [exact H1 | exact H2].
Qed.
Print Assumptions C72_dirichlet_refuted.
