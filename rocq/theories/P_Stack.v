(** * Proofs about the stack of records *)

Require Import List Arith Lia.
Require Import Verif.Base Verif.Num Verif.M_Utils Verif.M_Grow Verif.P_Utils.
Import ListNotations.
Local Open Scope res_scope.

(** [rs] holds the stack [l], top first. *)
Definition stack_is {R} (rs : records R) (l : list R) : Prop :=
  1 <= rs_capacity rs /\ length (rs_stack rs) = rs_capacity rs /\
  rs_top rs = length l /\ length l <= rs_capacity rs /\
  firstn (length l) (rs_stack rs) = rev l.

Lemma new_records_is : forall {R} (junk : nat -> R) c, 1 <= c -> stack_is (new_records junk c) [].
Proof.
  intros R junk c H. unfold stack_is, new_records; simpl.
  rewrite map_length, seq_length. repeat split; auto; lia.
Qed.

Lemma resize_ok : forall {T} (fill : nat -> T) a n, length a <= n ->
  resize fill a n = Ok (a ++ map fill (seq (length a) (n - length a))).
Proof.
  intros T fill a n H. unfold resize. apply Nat.leb_le in H. rewrite H. auto.
Qed.

Lemma resize_length : forall {T} (fill : nat -> T) a n, length a <= n ->
  length (a ++ map fill (seq (length a) (n - length a))) = n.
Proof. intros. rewrite app_length, map_length, seq_length. lia. Qed.

Lemma push_record_is : forall {R} (junk : nat -> R) rs l r, stack_is rs l ->
  exists rs', push_record junk rs r = Ok rs' /\ stack_is rs' (r :: l).
Proof.
  intros R junk rs l r [Hc [Hl [Ht [Hle Hf]]]].
  assert (Hset : forall st c, length st = c -> length l < c ->
     firstn (length l) st = rev l ->
     exists st', set st (length l) r = Ok st' /\ stack_is (mkRecords c (length l + 1) st') (r :: l)).
  { intros st c Hst Hlt Hfst. exists (upd st (length l) r). split.
    - apply set_ok. split; [lia|auto].
    - unfold stack_is. cbn [rs_capacity rs_stack rs_top length rev]. rewrite upd_length. repeat split; try lia.
      rewrite firstn_S_upd by lia. rewrite Hfst. reflexivity. }
  unfold push_record. rewrite Ht. destruct (rs_capacity rs <=? length l) eqn:E.
  - apply Nat.leb_le in E. rewrite resize_ok by lia. cbn [bind rs_stack rs_top rs_capacity].
    destruct (Hset (rs_stack rs ++ map junk (seq (length (rs_stack rs))
        (rs_capacity rs * 2 - length (rs_stack rs)))) (rs_capacity rs * 2)) as [st' [Hs Hi]].
    + apply resize_length. lia.
    + lia.
    + rewrite firstn_app. replace (length l - length (rs_stack rs)) with 0 by lia.
      simpl. rewrite app_nil_r. auto.
    + rewrite Hs. cbn [bind]. eauto.
  - apply Nat.leb_gt in E. cbn [bind]. rewrite Ht.
    destruct (Hset (rs_stack rs) (rs_capacity rs) Hl E Hf) as [st' [Hs Hi]].
    rewrite Hs. cbn [bind]. eauto.
Qed.

Lemma pop_record_is : forall {R} (rs : records R) l r, stack_is rs (r :: l) ->
  exists rs', pop_node_record rs = Ok (r, rs') /\ stack_is rs' l.
Proof.
  intros R rs l r [Hc [Hl [Ht [Hle Hf]]]]. unfold pop_node_record. rewrite Ht.
  cbn [length] in *. rewrite usub_le by lia. cbn [bind].
  replace (S (length l) - 1) with (length l) by lia.
  assert (Hg : get (rs_stack rs) (length l) = Ok r).
  { apply get_ok. rewrite <- (nth_error_firstn (rs_stack rs) (S (length l))) by lia.
    rewrite Hf. simpl. rewrite nth_error_app2; rewrite rev_length; auto.
    rewrite Nat.sub_diag. auto. }
  rewrite Hg. cbn [bind]. eexists; split; [reflexivity|].
  unfold stack_is; simpl. repeat split; auto; try lia.
  assert (Hff : firstn (length l) (firstn (S (length l)) (rs_stack rs)) = firstn (length l) (rs_stack rs)).
  { rewrite firstn_firstn. f_equal. lia. }
  rewrite <- Hff, Hf. simpl. rewrite firstn_app, rev_length, Nat.sub_diag.
  simpl. rewrite app_nil_r. rewrite <- rev_length, firstn_all. auto.
Qed.

Lemma pop_record_empty : forall {R} (rs : records R), stack_is rs [] ->
  pop_node_record rs = Err Overflow.
Proof.
  intros R rs [Hc [Hl [Ht _]]]. unfold pop_node_record. rewrite Ht. reflexivity.
Qed.

Lemma has_records_is : forall {R} (rs : records R) l, stack_is rs l ->
  has_records rs = match l with [] => false | _ => true end.
Proof.
  intros R rs l [Hc [Hl [Ht _]]]. unfold has_records. rewrite Ht. destruct l; auto.
Qed.
