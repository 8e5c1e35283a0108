(** * Search for a split in exact arithmetic *)

Require Import List Arith Lia NArith Permutation Sorted Reals Lra.
Require Import Verif.Base Verif.Num Verif.M_Bitarray Verif.P_Bitarray Verif.M_Utils Verif.M_Impurity
  Verif.M_Context Verif.M_Node Verif.M_Split Verif.P_Utils Verif.P_List Verif.P_Task Verif.P_Node
  Verif.P_Bins Verif.P_Scan Verif.P_Split Verif.P_Find Verif.S_Impurity Verif.P_Impurity
  Verif.S_Fit Verif.S_Node Verif.S_Split.
Import ListNotations.
Local Open Scope res_scope.

(** Sums over sides. *)
Lemma Rsum_filter_split : forall {X} (f : X -> R) (p : X -> bool) l,
  (Rsum (map f (filter p l)) + Rsum (map f (filter (fun x => negb (p x)) l)) = Rsum (map f l))%R.
Proof. induction l; simpl; [lra|]. destruct (p a); simpl; lra. Qed.

Lemma Rsum_filter_or : forall {X} (f : X -> R) (p q : X -> bool) l,
  (forall x, In x l -> p x = true -> q x = true -> False) ->
  (Rsum (map f (filter (fun x => p x || q x)%bool l)) = Rsum (map f (filter p l)) + Rsum (map f (filter q l)))%R.
Proof.
  induction l as [|x l IH]; simpl; intros H; [lra|]. specialize (IH ltac:(intros; eapply H; eauto)).
  destruct (p x) eqn:E1, (q x) eqn:E2; simpl; try lra. exfalso. apply (H x); auto.
Qed.

Lemma Rsum_bins : forall (f : nat -> R) (g : nat -> nat) l q, NoDup q ->
  Rsum (map (fun b => Rsum (map f (filter (fun i => g i =? b) l))) q) =
  Rsum (map f (filter (fun i => mem_bin q (g i)) l)).
Proof.
  intros f g l q. induction q as [|b q IH]; intros Hn.
  - simpl. induction l; simpl; auto.
  - inversion Hn as [|? ? Hb Hn']; subst. cbn [map Rsum]. rewrite IH by auto.
    rewrite <- (Rsum_filter_or f (fun i => g i =? b) (fun i => mem_bin q (g i))); auto.
    intros i _ H1 H2. apply Nat.eqb_eq in H1. apply mem_bin_in in H2. congruence.
Qed.

Lemma fold_left_Rminus : forall l a, fold_left Rminus l a = (a - Rsum l)%R.
Proof. induction l; intros; simpl; [lra|]. rewrite IHl. lra. Qed.

Lemma sub_of_add : forall a b c : R, (b + c = a -> a - b = c)%R.
Proof. intros. lra. Qed.

Lemma order_laws_R : order_laws R_arith.
Proof.
  constructor; simpl; unfold Rltb; intros.
  - destruct (Rlt_dec x x); auto. lra.
  - destruct (Rlt_dec x y), (Rlt_dec y z), (Rlt_dec x z); auto; try discriminate; lra.
  - auto.
Qed.

Section SplitR.
Context {E : env R_arith} {tk : task R_arith E} (ts : task_shape tk).
Context (tc : tctx R_arith (tk_Y tk)) (HD : data_ok ts tc).
Context (train valid : list nat) (Ht : in_range tc train) (Hv : in_range tc valid).

Notation Wt := (wt tc : nat -> R).

Definition Lq (j : nat) (q : list nat) : list nat := filter (fun i => mem_bin q (bin tc j i)) train.
Definition Rq (j : nat) (q : list nat) : list nat := filter (fun i => negb (mem_bin q (bin tc j i))) train.

Lemma wl_R : forall j q, NoDup q -> w_left (wb tc train j) q = Rsum (map Wt (Lq j q)).
Proof.
  intros j q Hq. unfold w_left, Lq. rewrite <- (Rsum_bins Wt (bin tc j) train q Hq).
  rewrite asum_R. apply Rsum_ext. intros b _. unfold wb, inbin. apply asum_R.
Qed.

Lemma wr_R : forall j q, NoDup q -> w_right (P_Split.wtot tc train) (wb tc train j) q = Rsum (map Wt (Rq j q)).
Proof.
  intros j q Hq. unfold w_right. change (@asub R_arith) with Rminus. etransitivity; [apply fold_left_Rminus|].
  pose proof (wl_R j q Hq) as H. unfold w_left in H. rewrite asum_R in H. rewrite H.
  unfold P_Split.wtot. rewrite asum_R.
  pose proof (Rsum_filter_split Wt (fun i => mem_bin q (bin tc j i)) train) as H2.
  exact (sub_of_add _ _ _ H2).
Qed.

(** ** The generic conclusion, given the impurities of candidates *)

Context (Imp : list nat -> R).
Definition G (L Q : list nat) : R := (- Rsum (map Wt L) * Imp L - Rsum (map Wt Q) * Imp Q)%R.
Context (features : list nat) (Hf : forall j, In j features -> j < fb_n_features (tc_fb tc)).
Context (Hagg : tc_aggregation tc = true -> valid <> []).
Context (HG : forall j o q, In j features -> order_ok tc train j (cat tc j) o ->
  (exists p b post, o = p ++ b :: post /\ q = p ++ [b] /\ post <> []) ->
  imp_of ts tc train (j, o, q) = Ok (Imp (Lq j q), Imp (Rq j q))).

Lemma gain_R : forall j o q, NoDup q ->
  gain_of tc train (j, o, q) (Imp (Lq j q), Imp (Rq j q)) = G (Lq j q) (Rq j q).
Proof.
  intros j o q Hq. unfold gain_of, wl_of, wr_of, G. rewrite wl_R, wr_R by auto. reflexivity.
Qed.

(** The sides of a split. *)
Definition Lsp (sp : split tk) : list nat := filter (fun i => to_left sp (bin tc (sp_feature sp) i)) train.
Definition Rsp (sp : split tk) : list nat := filter (fun i => negb (to_left sp (bin tc (sp_feature sp) i))) train.

Lemma best_split : forall s p, exists sp s', find_node_split tk tc (nctx_spec ts tc features train valid p) s = Ok (sp, s') /\
  exists os, tried ts tc train s features = Ok (os, s') /\
  (sp = reset_split tk \/
     exists c, In c (candidates os) /\ chosen ts tc train valid features c (Imp (Lsp sp), Imp (Rsp sp)) sp /\
       sp_gain sp = Some (G (Lsp sp) (Rsp sp)) /\
       sp_w_train_left sp = Rsum (map Wt (Lsp sp)) /\ sp_w_train_right sp = Rsum (map Wt (Rsp sp))) /\
  forall j o q, In (j, o, q) (candidates os) -> admissible_j tc train valid j (cat tc j) q = true ->
    sp_found sp = true /\ exists g, sp_gain sp = Some g /\ (G (Lq j q) (Rq j q) <= g)%R.
Proof.
  intros s p.
  destruct (tried_ok ts tc HD train Ht features s Hf) as (os & s' & Ho & Hos).
  rewrite (find_node_split_spec ts tc HD train valid Ht Hv s features p os s' Hf Hagg Ho).
  assert (Hcand : forall j o q, In (j, o, q) (candidates os) ->
     imp_of ts tc train (j, o, q) = Ok (Imp (Lq j q), Imp (Rq j q)) /\ NoDup q).
  { intros j o q Hc. apply in_candidates in Hc. destruct Hc as [H1 H2].
    destruct (Hos j o H1) as [H3 H4]. split; [apply HG; auto|].
    destruct H2 as (p0 & b & post & EO & Eq & _).
    pose proof (order_nodup tc train j (cat tc j) o H4) as N. rewrite EO in N. rewrite Eq.
    replace (p0 ++ b :: post) with ((p0 ++ [b]) ++ post) in N by (rewrite <- app_assoc; auto).
    eapply nodup_app_l; eauto. }
  assert (HS : okz False (from ts tc train valid (candidates os)) (foldM (consider3 ts tc train valid) (candidates os) (reset_split tk))).
  { apply search_from. intros [[j o] q] Hc _. destruct (Hcand j o q Hc) as [Hi _]. rewrite Hi. simpl. auto. }
  destruct (foldM (consider3 ts tc train valid) (candidates os) (reset_split tk)) as [best|e] eqn:Eb; [|destruct e; destruct HS].
  cbn [okz] in HS. cbn [bind].
  destruct (search_max ts tc train valid order_laws_R _ _ _ Eb) as [_ Hmax].
  assert (Hfin : exists sp, finish best = Ok sp /\ sp_gain sp = sp_gain best /\ sp_found sp = sp_found best /\
     (sp = reset_split tk \/
      exists c, In c (candidates os) /\ chosen ts tc train valid features c (Imp (Lsp sp), Imp (Rsp sp)) sp /\
       sp_gain sp = Some (G (Lsp sp) (Rsp sp)) /\
       sp_w_train_left sp = Rsum (map Wt (Lsp sp)) /\ sp_w_train_right sp = Rsum (map Wt (Rsp sp)))).
  { destruct HS as [->|(c & i & Hc & Ha & Hi & ->)].
    - exists (reset_split tk). cbn [finish reset_split sp_found sp_is_cat andb]. auto.
    - destruct (finish_chosen ts tc train valid features os c i Hf Hos Hc Ha Hi) as [sp [H1 H2]].
      exists sp. split; [exact H1|].
      assert (Hg : sp_gain (cand3 ts tc train valid c i []) = Some (gain_of tc train c i)) by (destruct c as [[? ?] ?]; reflexivity).
      assert (Hfd : sp_found (cand3 ts tc train valid c i []) = true) by (destruct c as [[? ?] ?]; reflexivity).
      rewrite Hg, Hfd, (ch_gain H2), (ch_found H2).
      split; [auto|split; [auto|]]. right. exists c. split; [auto|].
      destruct c as [[j o] q].
      destruct (Hcand j o q Hc) as [Hi' Hnd]. rewrite Hi in Hi'. inversion Hi'; subst i; clear Hi'.
      pose proof (ch_feature H2) as Ef. cbn [fst] in Ef.
      destruct (ch_prefix H2) as (p0 & b & post & EO & Eq & Hp & Et). cbn [fst snd] in *.
      pose proof (ch_order H2) as Hord. cbn [fst snd] in Hord.
      assert (HLt : forall x, In x train -> to_left sp (bin tc (sp_feature sp) x) = mem_bin q (bin tc (sp_feature sp) x)).
      { intros x Hx. rewrite Eq.
        rewrite <- (left_test_order tc train (sp_feature sp) (Hf _ (ch_in H2)) (sp_is_cat sp) o Hord p0 b post (bin tc (sp_feature sp) x) EO);
          [|apply (order_train tc train (sp_feature sp) (sp_is_cat sp) o Hord); auto].
        rewrite left_test_snoc. unfold to_left. rewrite (ch_part H2), Et. cbn [snd].
        destruct (sp_is_cat sp); auto.
        rewrite Eq. transitivity (mem_bin (p0 ++ [b]) (bin tc (sp_feature sp) x)).
        - destruct (mem_bin (p0 ++ [b]) _) eqn:E1.
          + apply mem_bin_in. apply mem_bin_in in E1. eapply Permutation_in; [symmetry; apply sort_bins_perm|auto].
          + destruct (mem_bin (sort_bins (p0 ++ [b])) _) eqn:E2; auto. apply mem_bin_in in E2.
            eapply Permutation_in in E2; [|apply sort_bins_perm]. apply mem_bin_in in E2. congruence.
        - rewrite mem_bin_app. f_equal. unfold mem_bin. simpl. apply Bool.orb_false_r. }
      assert (EL : Lq j q = Lsp sp).
      { unfold Lq, Lsp. rewrite <- Ef. apply filter_ext_in. intros x Hx. rewrite HLt; auto. }
      assert (ER : Rq j q = Rsp sp).
      { unfold Rq, Rsp. rewrite <- Ef. apply filter_ext_in. intros x Hx. rewrite HLt; auto. }
      rewrite gain_R by auto. rewrite <- EL, <- ER. split; [exact H2|]. split; [auto|].
      pose proof (ch_ws H2) as Hw. unfold wl_of, wr_of in Hw. rewrite wl_R, wr_R in Hw by auto.
      inversion Hw. auto. }
  destruct Hfin as (sp & H1 & H2 & H3 & H4).
  exists sp, s'. rewrite H1. cbn [bind]. split; auto. exists os. split; auto. split; auto.
  intros j o q Hc Ha. destruct (Hmax (j, o, q) Hc Ha) as [i [Hi Hgt]].
  destruct (Hcand _ _ _ Hc) as [Hi' Hnd]. rewrite Hi in Hi'. inversion Hi'; subst i; clear Hi'.
  rewrite gain_R in Hgt by auto. cbn [fst snd] in *.
  destruct HS as [->|(c & i0 & Hc0 & Ha0 & Hi0 & ->)].
  - simpl in Hgt. discriminate.
  - assert (Hg0 : sp_gain (cand3 ts tc train valid c i0 []) = Some (gain_of tc train c i0)) by (destruct c as [[? ?] ?]; reflexivity).
    assert (Hfd : sp_found (cand3 ts tc train valid c i0 []) = true) by (destruct c as [[? ?] ?]; reflexivity).
    split; [congruence|]. exists (gain_of tc train c i0). split; [congruence|].
    rewrite Hg0 in Hgt. simpl in Hgt. unfold Rltb in Hgt. destruct (Rlt_dec _ _); [discriminate|].
    apply Rnot_lt_le; auto.
Qed.

End SplitR.
