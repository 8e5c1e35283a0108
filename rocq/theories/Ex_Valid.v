(** * The concrete data of the examples meet the hypotheses of the theorems *)

Require Import List Arith Lia NArith QArith Permutation.
Require Import Verif.Base Verif.Num Verif.M_Bitarray Verif.M_Utils Verif.M_Context Verif.M_Grow
  Verif.S_Fit Verif.P_Fit Verif.Ex_Data.
Import ListNotations.
Local Open Scope nat_scope.
Local Open Scope list_scope.

Lemma ex_env_good : good_env env_Q.
Proof.
  constructor.
  - intros s n H. cbn [draw env_Q fst]. apply Nat.mod_upper_bound. lia.
  - intros l. change (argsort env_Q l) with (argsort_Q l). unfold argsort_Q.
    assert (G : forall x t, Permutation (insert_pos x t) (x :: t)).
    { intros x t. induction t as [|y t IH]; simpl; auto.
      destruct (Qle_bool (fst x) (fst y)); auto. rewrite IH. apply perm_swap. }
    assert (G' : forall t, Permutation (fold_right insert_pos [] t) t).
    { induction t; simpl; auto. rewrite G. auto. }
    rewrite (Permutation_map snd (G' _)).
    assert (Hs : forall (l : list Q) n, map snd (combine l (seq n (length l))) = seq n (length l)).
    { induction l0; intros; simpl; auto. f_equal. auto. }
    change Q with (num QA) in *. rewrite Hs. auto.
Qed.

Lemma ex_fb_packed : packed ex_fb /\ fb_n_samples ex_fb = 8 /\ fb_n_features ex_fb = 2.
Proof.
  destruct (array_to_bitarray_packed (fun _ => 12345%N) 2 ex_X) as (fb & H1 & H2 & H3 & H4 & _).
  - discriminate.
  - intros row H. unfold ex_X in H. simpl in H. intuition (subst; reflexivity).
  - intros row x H Hx. unfold ex_X in H. simpl in H.
    repeat (destruct H as [<-|H]; [simpl in Hx; intuition (subst; reflexivity)|]). destruct H.
  - unfold ex_fb. rewrite H1. auto.
Qed.

Lemma ex_valid_fit : forall {Y} (y : list Y) agg mf, length y = 8 -> 1 <= mf <= 2 ->
  valid_fit (ex_params agg mf) ex_fb y ex_train ex_valid ex_w.
Proof.
  intros Y y agg mf Hy Hmf. destruct ex_fb_packed as (H1 & H2 & H3).
  constructor; cbn [tp_max_features tp_min_samples_split tp_min_samples_leaf tp_is_categorical ex_params]; rewrite ?H2, ?H3; try exact Hy; try exact Hmf; try reflexivity; try exact H1.
  - intros i H. unfold ex_train in H. simpl in H. lia.
  - intros i H. unfold ex_valid in H. simpl in H. lia.
  - unfold ex_train. simpl. lia.
  - unfold ex_valid. simpl. lia.
Qed.

Lemma ex_valid_labels : forall agg mf, valid_labels 3 AllMods (tp_is_categorical (ex_params agg mf)) ex_labels.
Proof.
  intros. constructor.
  - intros k H. unfold ex_labels in H. simpl in H. lia.
  - intros _. split; [lia|discriminate].
Qed.
