(** * The theorems of T_Renaming.v apply, and the order of the names matters *)

Require Import String Bool List Arith Lia NArith ZArith QArith.
Require Import Verif.Base Verif.Num Verif.M_Bitarray Verif.M_Utils Verif.M_Context Verif.M_Split
  Verif.M_Tree Verif.M_Grow Verif.M_Object Verif.M_Forest Verif.T_Bootstrap Verif.Ex_Data Verif.Ex_Valid Verif.Ex_R Verif.T_Setters Verif.Ex_Forest Verif.Ex_ForestQ
  Verif.T_Params Verif.T_Clone Verif.T_Renaming.
Import ListNotations.
Local Open Scope list_scope.
Local Open Scope nat_scope.

Definition fruit (n : nat) : string := if n =? 3 then "apple" else if n =? 7 then "banana" else "cherry".
Definition fruits (n : nat) : Prop := n = 3 \/ n = 7 \/ n = 9.
Lemma fruit_order : keeps_order Nat.leb String.leb fruits fruit.
Proof. intros a b [->|[->| ->]] [->|[->| ->]]; reflexivity. Qed.

Definition two_args (p : param) : pyval QA :=
  match p with
  | P_n_estimators => @PyInt QA 2 | P_random_state => @PyInt QA 7 | P_aggregation => @PyBool QA false | P_max_features => @PyNone QA
  | _ => default_args (@PyNone QA) p
  end.
Definition fruit_codes : list nat := [7; 3; 3; 9; 7; 3; 9; 9].
Definition fruit_ops : list (clf_op (A := QA) nat binned) := [OFit X2 [3] None; OSet P_max_depth (@PyInt QA 4); OFit X2 fruit_codes None; OLighten].

Lemma ops_known : Forall (labels_known fruits) fruit_ops.
Proof.
  apply Forall_forall. intros op [<-|[<-|[<-|[<-|[]]]]]; cbn [labels_known fruit_codes In]; auto; unfold fruits; intros l H; intuition.
Qed.

(** The object made by [ops]. *)
Definition history {L} (leb : L -> L -> bool) (ops : list (clf_op (A := QA) L binned)) : res (clf_forest QA L ex_encoding) :=
  let* o := new_clf env_Q ex_encoding two_args in Ok (fold_left (clf_run leb menv_Q) ops o).

Example C70_applies :
  match history Nat.leb fruit_ops, history String.leb (map (renamed_op fruit) fruit_ops) with
  | Ok o, Ok o' => fo_fitted o = true /\ fo_classes o = [3; 7; 9] /\ fo_classes o' = ["apple"; "banana"; "cherry"]%string /\
      match predict_class smallQ [0; 1] o X2, predict_class smallQ [0; 1] o' X2 with
      | Ok l, Ok l' => l' = map fruit l /\ 2 <= length (nodup Nat.eq_dec l)
      | _, _ => False
      end
  | _, _ => False
  end.
Proof. vm_compute. repeat split; lia. Qed.
Example C70_hypotheses : keeps_order Nat.leb String.leb fruits fruit /\ Forall (labels_known fruits) fruit_ops /\
  match new_clf (L := nat) env_Q ex_encoding two_args with Ok _ => True | Err _ => False end.
Proof. split; [exact fruit_order|]. split; [exact ops_known|]. vm_compute. exact I. Qed.

(** Names in another order may give other predictions: the first of the classes with the
    largest probability is chosen. *)
Theorem C70_order_refuted : exists (y : list nat) (f : nat -> nat), (forall a b, In a y -> In b y -> f a = f b -> a = b) /\
  match history Nat.leb [OFit X2 y None], history Nat.leb [OFit X2 (map f y) None] with
  | Ok o, Ok o' => fo_fitted o = true /\ fo_fitted o' = true /\
      match predict_class smallQ [0; 1] o X2, predict_class smallQ [0; 1] o' X2 with
      | Ok l, Ok l' => l' <> map f l
      | _, _ => False
      end
  | _, _ => False
  end.
Proof.
  exists [7; 3; 3; 3; 3; 3; 3; 3], (fun x => 10 - x). split.
  - intros a b Ha Hb. cbn [In] in Ha, Hb. intuition lia.
  - vm_compute. repeat split; discriminate.
Qed.
Print Assumptions C70_order_refuted.
