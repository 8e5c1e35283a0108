(** * The theorems of T_Separate.v apply: a table with a constant column *)

Require Import String Bool List Arith Lia NArith ZArith QArith.
Require Import Verif.Base Verif.Num Verif.Cells Verif.M_Bitarray Verif.M_Utils Verif.M_Context Verif.M_Split Verif.M_Tree Verif.M_Grow Verif.M_Object Verif.M_Forest
  Verif.M_Encoder Verif.S_Encoder Verif.M_EncoderForest Verif.S_Fit Verif.S_Node Verif.S_Tree Verif.S_Prune Verif.S_Object Verif.S_Params Verif.S_Forest Verif.S_Trained
  Verif.T_Params Verif.T_Bootstrap Verif.T_Forest Verif.T_Trained Verif.T_Separate
  Verif.Ex_Data Verif.Ex_Valid Verif.Ex_Forest Verif.Ex_ForestQ Verif.T_EncoderQ Verif.Ex_Reach.
Import ListNotations.
Local Open Scope nat_scope.
Local Open Scope list_scope.

(** The first column is constant, the second and the third are not. *)
Definition Xc : xdata VQ nat := frame 6 [
  (10, flt [nb 4; nb 4; nb 4; nb 4; nb 4; nb 4]);
  (11, flt [nb 1; nb 2; nb 3; na; nb 4; nb 5]);
  (12, int [nb 7; nb 3; nb 7; nb 3; nb 3; nb 7])].
Lemma Xc_ok : data_ok VQ Xc.
Proof.
  split; [lia|]. split; [reflexivity|]. intros p Hp. cbn in Hp. repeat (destruct Hp as [<-|Hp]); try contradiction; cbn; split; try reflexivity; exact I.
Qed.
Lemma Xc_clean : clean VQ Xc.
Proof. repeat constructor; cbn; intuition congruence. Qed.
Definition const_table : table VQ nat := mkTable _ _ Xc Xc_ok Xc_clean CFNone.

Lemma Xc_constant : constant_column VQ nat const_table 0.
Proof.
  assert (K : forall k x, cell_at VQ Xc k 0 = Some x -> x = nb 4).
  { intros k x H. do 6 (destruct k as [|k]; [cbn in H; congruence|]). destruct k; discriminate H. }
  intros i j x x' Hx Hx' [Hd _]. apply Hd. rewrite (K i x Hx), (K j x' Hx'). reflexivity.
Qed.

Lemma menv_Q_good : good_menv (fun _ => False) menv_Q.
Proof.
  constructor; cbn.
  - apply lcg_in_range.
  - intros. rewrite map_length, seq_length. reflexivity.
  - intros n Hn. pose proof (Nat.sqrt_le_lin n). pose proof (Nat.log2_le_lin n). constructor; cbn; try (intros; contradiction); try lia.
Qed.

(** Two trees which try all the columns at each node. *)
Definition cfg {D} (EC : encoding D) : clf_forest QA nat EC :=
  @mkF QA nat D EC _ _ false 2 1%Q false None 2 1 256 (MFInt 3) 1 (Some (Some 7%Z)) false "gini" "log" (Some (1 # 2)%Q) false Multinomial BinaryMod [] [] None None 0.
Definition split_root {P Y} (obj : tobj QA P Y) : bool :=
  match ob_tree obj with Some t => match nth_error (tr_nodes t) 0 with Some n => negb (nd_is_leaf n) && (0 <? tr_node_count t) | None => false end | None => false end.

Lemma const_runs : let r := clf_fit Nat.leb menv_Q (cfg ECQ) const_table train_labels None in
  (match snd (fst r) with None => true | Some _ => false end &&
   match fo_trees (fst (fst r)) with Some (t :: _) => split_root t | _ => false end)%bool = true.
Proof. vm_compute. reflexivity. Qed.

Lemma const_legal : legal (fun _ => False) (cfg ECQ).
Proof. constructor; cbn; auto; lia. Qed.
Lemma const_enough : enough_classes Nat.leb (cfg ECQ) const_table train_labels.
Proof. intros enc _ _ _. vm_compute. lia. Qed.

(** The root of the first tree is split, on rows with different cells, and no node uses column 0. *)
Example C73_applies : exists o1 c, clf_fit Nat.leb menv_Q (cfg ECQ) const_table train_labels None = ((o1, None), c) /\
  values_separated VQ nat Nat.eqb E0 to_int (st0 PyNone CFNone) menv_Q o1 false const_table 6 /\
  column_unused VQ nat Nat.eqb E0 to_int (st0 PyNone CFNone) o1 0 /\
  exists obj ts tree n, fo_trees o1 = Some (obj :: ts) /\ ob_tree obj = Some tree /\ node_at tree 0 n /\ nd_is_leaf n = false.
Proof.
  pose proof const_runs as H. cbv zeta in H.
  destruct (clf_fit Nat.leb menv_Q (cfg ECQ) const_table train_labels None) as [[o1 e] c] eqn:Hf. cbn [fst snd] in H.
  destruct e; [discriminate H|]. cbn [andb] in H. exists o1, c. split; [reflexivity|].
  pose proof (C73_values_classifier VQ VQ_good nat Nat.eqb E0 to_int names_ok choices_ok (st0 PyNone CFNone) menv_Q (fun _ => False) menv_Q_good ex_env_good
    Nat.leb (cfg ECQ) o1 const_table train_labels None c nat_order const_legal const_enough Hf) as HV.
  split; [exact HV|].
  split; [exact (C73_constant_classifier VQ VQ_good nat Nat.eqb E0 to_int names_ok choices_ok (st0 PyNone CFNone) menv_Q (fun _ => False) menv_Q_good ex_env_good
    Nat.leb (cfg ECQ) o1 const_table train_labels None c 0 nat_order const_legal const_enough Hf Xc_constant)|].
  destruct (fo_trees o1) as [[|obj ts]|]; try discriminate H. unfold split_root in H. destruct (ob_tree obj) as [tree|] eqn:Et; [|discriminate H].
  destruct (nth_error (tr_nodes tree) 0) as [n|] eqn:En; [|discriminate H]. apply andb_true_iff in H. destruct H as [H1 H2]. apply Nat.ltb_lt in H2.
  exists obj, ts, tree, n. split; [reflexivity|]. split; [exact Et|]. split; [split; assumption|]. destruct (nd_is_leaf n); [discriminate H1|reflexivity].
Qed.

Definition cfgr {D} (EC : encoding D) : reg_forest QA nat EC :=
  @mkF QA nat D EC _ _ false 2 1%Q true None 2 1 256 (MFInt 3) 1 (Some (Some 7%Z)) false "mse" "mse" None false Multinomial BinaryMod [] [] None None 0.
Definition const_targets : list (num QA) := [1; 3; -(2); 0; 5; 1]%Q.
Lemma const_reg_runs : let r := reg_fit menv_Q (cfgr ECQ) const_table const_targets None in
  (match snd (fst r) with None => true | Some _ => false end &&
   match fo_trees (fst (fst r)) with Some [t; t'] => split_root t || split_root t' | _ => false end)%bool = true.
Proof. vm_compute. reflexivity. Qed.
Lemma const_reg_legal : legal (fun _ => False) (cfgr ECQ).
Proof. constructor; cbn; auto; lia. Qed.

(** With aggregation: some root is split. *)
Example C73_regressor_applies : exists o1 c, reg_fit menv_Q (cfgr ECQ) const_table const_targets None = ((o1, None), c) /\
  values_separated VQ nat Nat.eqb E0 to_int (st0 PyNone CFNone) menv_Q o1 true const_table 6 /\
  column_unused VQ nat Nat.eqb E0 to_int (st0 PyNone CFNone) o1 0 /\
  exists obj ts tree n, fo_trees o1 = Some ts /\ In obj ts /\ ob_tree obj = Some tree /\ node_at tree 0 n /\ nd_is_leaf n = false.
Proof.
  pose proof const_reg_runs as H. cbv zeta in H.
  destruct (reg_fit menv_Q (cfgr ECQ) const_table const_targets None) as [[o1 e] c] eqn:Hf. cbn [fst snd] in H.
  destruct e; [discriminate H|]. cbn [andb] in H. exists o1, c. split; [reflexivity|].
  pose proof (C73_values_regressor VQ VQ_good nat Nat.eqb E0 to_int names_ok choices_ok (st0 PyNone CFNone) menv_Q (fun _ => False) menv_Q_good ex_env_good
    (cfgr ECQ) o1 const_table const_targets None c const_reg_legal Hf) as HV.
  split; [exact HV|].
  split; [exact (C73_constant_regressor VQ VQ_good nat Nat.eqb E0 to_int names_ok choices_ok (st0 PyNone CFNone) menv_Q (fun _ => False) menv_Q_good ex_env_good
    (cfgr ECQ) o1 const_table const_targets None c 0 const_reg_legal Hf Xc_constant)|].
  destruct (fo_trees o1) as [[|t [|t' [|? ?]]]|]; try discriminate H.
  assert (G : exists obj, In obj [t; t'] /\ split_root obj = true).
  { apply orb_true_iff in H. destruct H as [H|H]; [exists t | exists t']; cbn; auto. }
  clear H. destruct G as (obj & Hin & H). unfold split_root in H. destruct (ob_tree obj) as [tree|] eqn:Et; [|discriminate H].
  destruct (nth_error (tr_nodes tree) 0) as [n|] eqn:En; [|discriminate H]. apply andb_true_iff in H. destruct H as [H1 H2]. apply Nat.ltb_lt in H2.
  exists obj, [t; t'], tree, n. split; [reflexivity|]. split; [exact Hin|]. split; [exact Et|]. split; [split; assumption|]. destruct (nd_is_leaf n); [discriminate H1|reflexivity].
Qed.
