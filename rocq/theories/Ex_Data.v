(** * A concrete environment and concrete data, used by the examples that show that the
      hypotheses of the theorems are met

    Rational arithmetic; [ln] and [exp] are replaced by rational functions, which is
    allowed since the theorems run on examples hold for every arithmetic. *)

Require Import List Arith NArith QArith.
Require Import Verif.Base Verif.Num Verif.M_Bitarray Verif.M_Utils Verif.M_Context
  Verif.M_Node Verif.M_Split Verif.M_Tree Verif.M_Grow.
Import ListNotations.
Local Open Scope nat_scope.
Local Open Scope list_scope.

Definition QA : arith := Q_arith (fun x => Qred (x - 1)%Q) (fun x => Qred (1 + x + x * x / 2)%Q).

(** Positions sorted by value (stable insertion). *)
Fixpoint insert_pos (x : Q * nat) (l : list (Q * nat)) : list (Q * nat) :=
  match l with
  | [] => [x]
  | y :: t => if Qle_bool (fst x) (fst y) then x :: l else y :: insert_pos x t
  end.
Definition argsort_Q (l : list Q) : list nat :=
  map snd (fold_right insert_pos [] (combine l (seq 0 (length l)))).

(** A toy generator: the state counts the draws. *)
Definition env_Q : env QA :=
  @mkEnv QA nat (fun s n => (Nat.modulo (s * 7 + 3) n, S s)) argsort_Q (fun i => i + 17).

(** Eight samples, a continuous feature with 5 bins and a categorical one with 3. *)
Definition ex_X : list (list N) :=
  [[0; 2]; [1; 0]; [2; 1]; [3; 2]; [4; 0]; [0; 1]; [4; 2]; [2; 0]]%N.

Definition ex_fb : fba :=
  match array_to_bitarray (fun _ => 12345%N) 2 ex_X with
  | Ok fb => fb
  | Err _ => mkFba 0 0 [] [] [] [] [] []
  end.

Definition ex_labels : list nat := [0; 0; 1; 1; 2; 0; 2; 1].
Definition ex_y : list (num QA) := [1; 2; 5; 4; 9; 1; 8; 5]%Q.
Definition ex_w : list (num QA) := [1; 1; 2; 1; 1; 3; 1; 1]%Q.
Definition ex_train : list nat := [0; 2; 3; 4; 6].
Definition ex_valid : list nat := [1; 5; 7].

Definition ex_clf : task QA env_Q := @clf_task QA env_Q 3 (1 # 2)%Q Gini AllMods.
Definition ex_reg : task QA env_Q := @reg_task QA env_Q.

Definition ex_params (agg : bool) (mf : nat) : @tree_params QA :=
  @mkTP QA mf 2 1 100%N agg 1%Q [false; true].

Definition brief {P} (t : tree QA P) :=
  (tr_node_count t, map (fun n => (nd_parent n, nd_left n, nd_right n, nd_is_leaf n,
     (nd_feature n, nd_threshold n, nd_is_cat n), (nd_start_train n, nd_end_train n,
      nd_start_valid n, nd_end_valid n))) (firstn (tr_node_count t) (tr_nodes t))).

Definition run tk y agg mf :=
  match @tree_fit QA env_Q tk (ex_params agg mf) ex_fb y ex_train ex_valid ex_w 0%nat with
  | Ok (tc, g) => Ok (brief (g_tree g), p_train (g_parts g), p_valid (g_parts g))
  | Err e => Err e
  end.
