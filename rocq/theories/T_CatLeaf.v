(** * C23 needs [min_samples_leaf = 1]

    C23 (for two classes the subset of the categories is the best of all) is proved for
    [min_samples_leaf = 1] and without aggregation. With a larger [min_samples_leaf] it is
    false: only the subsets made of the first categories, in the order of the proportion of
    class 1, are tried. Here none of them has two samples on both sides and the node is not
    split, although separating the middle category from the two others leaves two and four
    samples and lowers the Gini index. *)

Require Import List Arith Lia NArith QArith.
Require Import Verif.Base Verif.Num Verif.M_Bitarray Verif.P_Bitarray Verif.M_Utils Verif.M_Impurity
  Verif.M_Context Verif.M_Node Verif.M_Split Verif.M_Tree Verif.M_Grow Verif.S_Fit Verif.S_Split Verif.P_Fit Verif.Ex_Data Verif.Ex_Valid Verif.T_Cat.
Import ListNotations.
Local Open Scope nat_scope.
Local Open Scope list_scope.

(** Category 0: one sample of class 0; category 1: three samples of class 0 and one of class
    1; category 2: one sample of class 1. *)
Definition leaf_X : list (list N) := [[0]; [1]; [1]; [1]; [1]; [2]]%N.
Definition leaf_fb : fba :=
  match array_to_bitarray (fun _ => 0%N) 1 leaf_X with Ok fb => fb | Err _ => mkFba 0 0 [] [] [] [] [] [] end.
Definition leaf_y : list nat := [0; 0; 0; 0; 1; 1].
Definition leaf_w : list (num QA) := [1; 1; 1; 1; 1; 1]%Q.
Definition leaf_params : @tree_params QA := @mkTP QA 1 2 2 100%N false 1%Q [true].
Definition leaf_task := clf_task env_Q 2 (1 # 2)%Q Gini BinaryMod.

(** The Gini index of some samples, times their number. *)
Definition count1 (l : list nat) : Q := inject_Z (Z.of_nat (length (filter (fun i => nth i leaf_y 0 =? 1) l))).
Definition size (l : list nat) : Q := inject_Z (Z.of_nat (length l)).
Definition gini_sum (l : list nat) : Q :=
  (size l * (1 - (count1 l / size l) * (count1 l / size l) - (1 - count1 l / size l) * (1 - count1 l / size l)))%Q.

Theorem C23_min_samples_leaf_refuted :
  good_env env_Q /\ valid_fit leaf_params leaf_fb leaf_y [0; 1; 2; 3; 4; 5] [] leaf_w /\
  valid_labels 2 BinaryMod (tp_is_categorical leaf_params) leaf_y /\ tp_aggregation leaf_params = false /\
  exists j cut, nth_error (tp_is_categorical leaf_params) j = Some true /\
  let train := [0; 1; 2; 3; 4; 5] in let l := side leaf_fb j cut train in let r := other leaf_fb j cut train in
  (* both sides are large enough, and the Gini index is lowered *)
  tp_min_samples_leaf leaf_params <= length l /\ tp_min_samples_leaf leaf_params <= length r /\
  (gini_sum l + gini_sum r < gini_sum train)%Q /\
  (* but no split is found *)
  (let* tc := init_tree_context leaf_task leaf_params leaf_fb leaf_y leaf_w in
   let* nc := node_stats leaf_task tc [j] train [] in
   let* ' (sp, s') := find_node_split leaf_task tc nc 0 in
   Ok (sp_found sp)) = Ok false.
Proof.
  split; [apply ex_env_good|]. split.
  { destruct (array_to_bitarray_packed (fun _ => 0%N) 1 leaf_X) as (fb & H1 & H2 & H3 & H4 & _).
    - discriminate.
    - intros row H. unfold leaf_X in H. simpl in H. intuition (subst; reflexivity).
    - intros row x H Hx. unfold leaf_X in H. simpl in H.
      repeat (destruct H as [<-|H]; [simpl in Hx; intuition (subst; reflexivity)|]). destruct H.
    - assert (Efb : leaf_fb = fb) by (unfold leaf_fb; rewrite H1; auto). rewrite Efb.
      constructor; rewrite ?H3, ?H4; auto; simpl; try lia. }
  split. { constructor; [|intros; split; auto]. intros k H. simpl in H. lia. }
  split; [reflexivity|]. exists 0, (fun b => b =? 1). split; [reflexivity|]. cbv zeta.
  split; [apply Nat.leb_le; vm_compute; reflexivity|]. split; [apply Nat.leb_le; vm_compute; reflexivity|].
  split; vm_compute; reflexivity.
Qed.
Print Assumptions C23_min_samples_leaf_refuted.
