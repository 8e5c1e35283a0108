(** * A concrete environment over the reals, and the example data with real weights *)

Require Import List Arith Lia NArith Reals Lra Permutation Sorted QArith Qreals.
Require Import Verif.Base Verif.Num Verif.M_Bitarray Verif.M_Utils Verif.M_Context Verif.M_Grow
  Verif.S_Fit Verif.P_Fit Verif.M_Split Verif.S_Split Verif.Ex_Data Verif.Ex_Valid.
Import ListNotations.
Local Open Scope nat_scope.
Local Open Scope list_scope.

(** Insertion sort of positions by value. *)
Fixpoint insert_posR (x : R * nat) (l : list (R * nat)) : list (R * nat) :=
  match l with
  | [] => [x]
  | y :: t => if Rle_dec (fst x) (fst y) then x :: l else y :: insert_posR x t
  end.
Definition argsort_R (l : list R) : list nat :=
  map snd (fold_right insert_posR [] (combine l (seq 0 (length l)))).

(** The generator of [env_Q], with this sort. *)
Definition env_R : env R_arith :=
  @mkEnv R_arith nat (fun s n => (Nat.modulo (s * 7 + 3) n, S s)) argsort_R (fun i => i + 17).

Lemma insert_posR_perm : forall x t, Permutation (insert_posR x t) (x :: t).
Proof.
  intros x t. induction t as [|y t IH]; simpl; auto.
  destruct (Rle_dec (fst x) (fst y)); auto. rewrite IH. apply perm_swap.
Qed.
Lemma sortR_perm : forall t, Permutation (fold_right insert_posR [] t) t.
Proof. induction t; simpl; auto. rewrite insert_posR_perm. auto. Qed.
Lemma sortR_sorted : forall t, StronglySorted (fun x y => (fst x <= fst y)%R) (fold_right insert_posR [] t).
Proof.
  induction t as [|x t IH]; simpl; [constructor|].
  induction IH as [|y l Hl IH Hy]; simpl; [repeat constructor|].
  destruct (Rle_dec (fst x) (fst y)) as [H|H].
  - constructor; [constructor; auto|]. constructor; auto. rewrite Forall_forall in *. intros z Hz.
    specialize (Hy z Hz). simpl in *. lra.
  - constructor; auto. rewrite Forall_forall in *. intros z Hz.
    eapply Permutation_in in Hz; [|apply insert_posR_perm]. destruct Hz as [<-|Hz]; [lra|]. apply Hy. auto.
Qed.

Lemma env_R_good : good_env env_R.
Proof.
  constructor.
  - intros s n H. cbn [draw env_R fst]. apply Nat.mod_upper_bound. lia.
  - intros l. change (argsort env_R l) with (argsort_R l). unfold argsort_R.
    rewrite (Permutation_map snd (sortR_perm _)).
    assert (Hs : forall (l : list R) n, map snd (combine l (seq n (length l))) = seq n (length l)).
    { induction l0; intros; simpl; auto. f_equal. auto. }
    change R with (num R_arith) in *. rewrite Hs. auto.
Qed.

Lemma env_R_sorts : sorts env_R.
Proof.
  intros l. change (argsort env_R l) with (argsort_R l). unfold argsort_R.
  pose proof (sortR_sorted (combine l (seq 0 (length l)))) as Hs.
  assert (Hin : forall x, In x (fold_right insert_posR [] (combine l (seq 0 (length l)))) -> nth (snd x) l 0%R = fst x).
  { intros x Hx. eapply Permutation_in in Hx; [|apply sortR_perm].
    assert (G : forall (l : list R) n x, In x (combine l (seq n (length l))) -> n <= snd x /\ nth (snd x - n) l 0%R = fst x).
    { clear. induction l as [|a l IH]; intros n x H; [destruct H|]. simpl in H. destruct H as [<-|H].
      - simpl. rewrite Nat.sub_diag. auto.
      - destruct (IH (S n) x H) as [H1 H2]. split; [lia|].
        replace (snd x - n) with (S (snd x - S n)) by lia. exact H2. }
    destruct (G l 0 x Hx) as [_ G2]. rewrite Nat.sub_0_r in G2. exact G2. }
  rewrite map_map.
  induction Hs as [|x t Ht IH Hx]; simpl; [constructor|]. constructor.
  - apply IH. intros y Hy. apply Hin. simpl. auto.
  - rewrite Forall_forall in *. intros v Hv. apply in_map_iff in Hv. destruct Hv as [y [<- Hy]].
    rewrite !Hin by (simpl; auto). apply Hx. auto.
Qed.

Definition exR_w : list R := [1; 1; 2; 1; 1; 3; 1; 1]%R.
Definition exR_y : list R := [1; 2; 5; 4; 9; 1; 8; 5]%R.
Definition exR_params (agg : bool) (mf : nat) : @tree_params R_arith :=
  @mkTP R_arith mf 2 1 100%N agg 1%R [false; true].

Lemma exR_valid_fit : forall {Y} (y : list Y) agg mf, length y = 8 -> 1 <= mf <= 2 ->
  valid_fit (exR_params agg mf) ex_fb y ex_train ex_valid exR_w.
Proof.
  intros Y y agg mf Hy Hmf. destruct (ex_valid_fit y agg mf Hy Hmf). constructor; auto.
Qed.

Lemma exR_valid_labels : forall agg mf, valid_labels 3 AllMods (tp_is_categorical (exR_params agg mf)) ex_labels.
Proof. intros. destruct (ex_valid_labels agg mf) as [H1 H2]. constructor; auto. Qed.

Lemma exR_positive : positive_weights exR_w.
Proof. intros w H. unfold exR_w in H. simpl in H. intuition (subst; lra). Qed.
