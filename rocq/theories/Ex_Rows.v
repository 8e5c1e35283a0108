(** * The theorems of T_Rows.v apply: a forest fitted on a table, and some rows of another one *)

Require Import String Bool List Arith Lia NArith ZArith QArith.
Require Import Verif.Base Verif.Num Verif.Cells Verif.M_Bitarray Verif.M_Utils Verif.M_Tree Verif.M_Grow Verif.M_Object Verif.M_Forest
  Verif.M_Encoder Verif.S_Encoder Verif.M_EncoderForest Verif.T_Params Verif.T_Clone Verif.S_Rows Verif.P_Rows Verif.T_Rows
  Verif.Ex_Data Verif.Ex_ForestQ Verif.T_EncoderQ Verif.Ex_Reach.
Import ListNotations.
Local Open Scope nat_scope.
Local Open Scope list_scope.

(** Rows 2, 0 and 2 of the table of three rows. *)
Definition X1_picked : xdata VQ nat := frame 3 [
  (20, obj [na; str 5; na]);
  (21, flt [nb 40; nb (7 # 2); nb 40]);
  (22, int [nb 7; nb 3; nb 7]);
  (23, cat [str 0; str 3; str 8] [na; str 8; na])].
Lemma X1_picked_ok : data_ok VQ X1_picked.
Proof.
  pose proof X1_ok as (H1 & H2 & H3). split; [lia|]. split; [reflexivity|]. intros p Hp. cbn in Hp.
  repeat (destruct Hp as [<-|Hp]); try contradiction; cbn; try (split; [reflexivity|exact I]).
  destruct (H3 (23, cat [str 0; str 3; str 8] [str 8; str 0; na])) as [_ (K1 & K2 & K3 & K4)]; [cbn; auto|].
  split; [reflexivity|]. split; [reflexivity|]. split; [exact K2|]. split; [reflexivity|].
  intros x [<-|[<-|[<-|[]]]] Hx; try discriminate Hx. apply K4; [cbn; auto|reflexivity].
Qed.
Lemma X1_picked_clean : clean VQ X1_picked.
Proof. repeat constructor; cbn; intuition congruence. Qed.
Definition picked_test : table VQ nat := mkTable _ _ X1_picked X1_picked_ok X1_picked_clean CFNone.

Lemma X1_picked_rows : picked_table VQ [2; 0; 2] (tb_X _ _ test_table) (tb_X _ _ picked_test).
Proof. split; [reflexivity|]. repeat constructor. Qed.

(** The classifier of the constructor, with two trees, fitted. *)
Lemma any_new : forall {D} (EC : encoding D), exists o : clf_forest QA nat EC, new_clf env_Q EC ovr_args = Ok o.
Proof. intros. eexists. vm_compute. reflexivity. Qed.
Definition rows_object : clf_forest QA nat ECQ := match new_clf env_Q ECQ ovr_args with Ok o => o | Err _ => blank end.
Lemma rows_object_new : new_clf env_Q ECQ ovr_args = Ok rows_object.
Proof. unfold rows_object. destruct (any_new ECQ) as [o ->]. reflexivity. Qed.
Definition rows_ops : list (clf_op (A := QA) nat (table VQ nat)) :=
  [OSet P_n_estimators (PyInt 2); OFit train_table train_labels None; OSet P_step (@PyFloat QA (1 # 2)%Q)].
Definition rows_forest : clf_forest QA nat ECQ := fold_left (clf_run Nat.leb menv_Q) rows_ops rows_object.

Definition tiny (x : num QA) : bool := Qle_bool x 0.
(** Two trees for each of the three classes, taken in some order. *)
Definition six : list nat := [5; 0; 1; 4; 2; 3].
Definition shown (r : res (list (list (num QA)))) : list (list Q) := match r with Ok P => map (map Qred) P | Err _ => [] end.

Lemma rows_forest_by_row : forall small order, by_row VQ (fun X => predict_proba small order rows_forest X).
Proof.
  exact (proj1 (C68_classifier VQ VQ_good nat Nat.eqb E0 to_int names_ok choices_ok (st0 PyNone CFNone) menv_Q Nat.leb ovr_args rows_object rows_ops rows_object_new)).
Qed.

(** The rows of the test table do not all have the same probabilities; those of the picked
    rows are the ones of the theorem. *)
Example C68_classifier_applies : exists P P',
  predict_proba tiny six rows_forest test_table = Ok P /\ predict_proba tiny six rows_forest picked_test = Ok P' /\ picked [2; 0; 2] P P' /\
  map (map Qred) P = [[1528823808 # 6642137503; 1868955039 # 6642137503; 3244358656 # 6642137503];
                      [1528823808 # 7116672277; 2343489813 # 7116672277; 294941696 # 646970207];
                      [1528823808 # 7116672277; 2343489813 # 7116672277; 294941696 # 646970207]].
Proof.
  assert (H : shown (predict_proba tiny six rows_forest test_table) =
    [[1528823808 # 6642137503; 1868955039 # 6642137503; 3244358656 # 6642137503];
     [1528823808 # 7116672277; 2343489813 # 7116672277; 294941696 # 646970207];
     [1528823808 # 7116672277; 2343489813 # 7116672277; 294941696 # 646970207]]) by (vm_compute; reflexivity).
  destruct (predict_proba tiny six rows_forest test_table) as [P|e] eqn:HP; [|discriminate H]. cbn [shown] in H.
  pose proof (rows_forest_by_row tiny six) as HC. revert H HP HC. generalize rows_forest. intros f H HP (_ & _ & HP3). destruct (HP3 test_table picked_test [2; 0; 2] P HP X1_picked_rows) as (P' & H1 & H2).
  exists P, P'. auto.
Qed.

(** The same for a regressor. *)
Definition rows_reg_args (p : param) : pyval QA :=
  match p with P_criterion | P_loss => PyStr "mse" | _ => ovr_args p end.
Lemma any_new_reg : forall {D} (EC : encoding D), exists o : reg_forest QA nat EC, new_reg EC rows_reg_args = Ok o.
Proof. intros. eexists. vm_compute. reflexivity. Qed.
Definition rows_reg : reg_forest QA nat ECQ := match new_reg ECQ rows_reg_args with Ok o => o | Err _ => blank end.
Lemma rows_reg_new : new_reg ECQ rows_reg_args = Ok rows_reg.
Proof. unfold rows_reg. destruct (any_new_reg ECQ) as [o ->]. reflexivity. Qed.
Definition rows_reg_ops : list (clf_op (A := QA) (num QA) (table VQ nat)) :=
  [OSet P_n_estimators (PyInt 2); OSet P_aggregation (PyBool false); OFit train_table ([1; 3; -(2); 0; 5; 1]%Q : list (num QA)) None].
Definition rows_reg_forest : reg_forest QA nat ECQ := fold_left (reg_run menv_Q) rows_reg_ops rows_reg.
Definition shown_reg (r : res (list (num QA))) : list Q := match r with Ok P => map Qred P | Err _ => [] end.
Lemma rows_reg_by_row : forall order, by_row VQ (fun X => predict_reg order rows_reg_forest X).
Proof.
  exact (proj1 (C68_regressor VQ VQ_good nat Nat.eqb E0 to_int names_ok choices_ok (st0 PyNone CFNone) menv_Q rows_reg_args rows_reg rows_reg_ops rows_reg_new)).
Qed.
Example C68_regressor_applies : exists P P',
  predict_reg [1; 0] rows_reg_forest test_table = Ok P /\ predict_reg [1; 0] rows_reg_forest picked_test = Ok P' /\ picked [2; 0; 2] P P' /\
  map Qred P = [2; 1 # 2; -1 # 2]%Q.
Proof.
  assert (H : shown_reg (predict_reg [1; 0] rows_reg_forest test_table) = [2; 1 # 2; -1 # 2]%Q) by (vm_compute; reflexivity).
  destruct (predict_reg [1; 0] rows_reg_forest test_table) as [P|e] eqn:HP; [|discriminate H]. cbn [shown_reg] in H.
  pose proof (rows_reg_by_row [1; 0]) as HC. revert H HP HC. generalize rows_reg_forest. intros f H HP (_ & _ & HP3).
  destruct (HP3 test_table picked_test [2; 0; 2] P HP X1_picked_rows) as (P' & H1 & H2). exists P, P'. auto.
Qed.
