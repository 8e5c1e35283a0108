(** * From cuts to candidates *)

Require Import List Arith Lia NArith Permutation Sorted Reals Lra.
Require Import Verif.Base Verif.Num Verif.M_Bitarray Verif.P_Bitarray Verif.M_Utils Verif.M_Impurity
  Verif.M_Context Verif.M_Node Verif.M_Split Verif.P_Utils Verif.P_List Verif.P_Task Verif.P_Node
  Verif.P_Bins Verif.P_Scan Verif.P_Split Verif.P_Find Verif.S_Impurity Verif.P_Impurity
  Verif.S_Fit Verif.S_Node Verif.S_Split Verif.P_SplitR Verif.P_SplitTasks.
Import ListNotations.
Local Open Scope res_scope.

Lemma aisz_R_false : forall x : R, x <> 0%R -> @aisz R_arith x = false.
Proof. intros x H. cbn [aisz R_arith]. unfold Risz. destruct (Req_EM_T x 0); congruence. Qed.

(** A downward closed set is a prefix of a sorted list. *)
Lemma lower_prefix : forall (v : nat -> R) (S : nat -> bool) o,
  StronglySorted (fun b b' => (v b <= v b')%R) o ->
  (forall b b', In b o -> In b' o -> S b' = true -> (v b <= v b')%R -> S b = true) ->
  exists p r, o = p ++ r /\ (forall b, In b p -> S b = true) /\ (forall b, In b r -> S b = false).
Proof.
  induction o as [|x o IH]; intros Hs Hc.
  - exists [], []. split; [auto|]. split; intros b [].
  - inversion Hs as [|? ? Hs' Hx]; subst. destruct IH as (p & r & E1 & H1 & H2); auto.
    { intros b b' Hb Hb' HS Hv. apply (Hc b b'); simpl; auto. }
    rewrite Forall_forall in Hx.
    destruct (S x) eqn:Ex.
    + exists (x :: p), r. split; [simpl; congruence|]. split; auto. intros b [<-|Hb]; auto.
    + exists [], (x :: o). split; [auto|]. split; [intros b []|].
      intros b [<-|Hb]; auto. destruct (S b) eqn:Eb; auto.
      rewrite (Hc x b) in Ex; simpl; auto.
Qed.

Section Cuts.
Context {A : arith} {E : env A} {tk : task A E} (ts : task_shape tk).
Context (tc : tctx A (tk_Y tk)) (HD : data_ok ts tc).
Context (train valid : list nat) (Ht : in_range tc train).

(** Every feature is tried. *)
Lemma tried_all : forall features s os s', tried ts tc train s features = Ok (os, s') ->
  forall j, In j features -> exists s1 oj s2, orders_of ts tc train s1 j = Ok (oj, s2) /\ forall o, In o oj -> In (j, o) os.
Proof.
  intros features s os s'. unfold tried.
  assert (G : forall l acc s os s', foldM (fun '(acc, s) j => let* ' (os, s') := orders_of ts tc train s j in Ok (acc ++ map (pair j) os, s')) l (acc, s) = Ok (os, s') ->
     (forall x, In x acc -> In x os) /\
     forall j, In j l -> exists s1 oj s2, orders_of ts tc train s1 j = Ok (oj, s2) /\ forall o, In o oj -> In (j, o) os).
  { induction l as [|j l IH]; intros acc s0 os0 s1 H.
    - simpl in H. inversion H; subst. split; auto. intros j [].
    - cbn [foldM] in H. destruct (orders_of ts tc train s0 j) as [[oj sj]|e] eqn:Ej; [|discriminate].
      cbn [bind] in H. destruct (IH _ _ _ _ H) as [H1 H2]. split.
      + intros x Hx. apply H1. apply in_app_iff. auto.
      + intros j' [<-|Hj']; auto. exists s0, oj, sj. split; auto.
        intros o Ho. apply H1. apply in_app_iff. right. apply in_map. auto. }
  intros H. apply (G _ _ _ _ _ H).
Qed.

Lemma side_length : forall j (S : nat -> bool) l,
  length (side (tc_fb tc) j S l) = length (filter (fun i => S (bin tc j i)) l).
Proof. reflexivity. Qed.

(** An admissible cut that agrees with a prefix of an order is an admissible candidate. *)
Lemma admissible_prefix : forall j o p b post (S : nat -> bool), j < fb_n_features (tc_fb tc) ->
  order_ok tc train j (cat tc j) o -> o = p ++ b :: post ->
  (forall i, In i train -> left_test (cat tc j) (p ++ [b]) (bin tc j i) = S (bin tc j i)) ->
  (tc_aggregation tc = true -> forall i, In i valid -> left_test (cat tc j) (p ++ [b]) (bin tc j i) = S (bin tc j i)) ->
  admissible_cut (tc_fb tc) (tc_min_samples_leaf tc) (tc_aggregation tc) train valid j S ->
  admissible_j tc train valid j (cat tc j) (p ++ [b]) = true.
Proof.
  intros j o p b post S Hj Ho EO HT HV (H1 & H2 & H3). unfold admissible_j, admissible.
  pose proof (n_left_count tc train j Hj (cat tc j) o Ho p b post EO) as Hn.
  assert (Hn' : n_left (nb tc train j) (p ++ [b]) = length (side (tc_fb tc) j S train)).
  { rewrite Hn, side_length. f_equal. apply filter_ext_in. auto. }
  unfold n_right. rewrite Hn'.
  pose proof (filter_length_total (fun i => S (bin tc j i)) train) as Htot. rewrite <- side_length in Htot.
  change (length (filter (fun x => negb (S (bin tc j x))) train)) with (length (other (tc_fb tc) j S train)) in Htot.
  replace (tc_min_samples_leaf tc <=? length (side (tc_fb tc) j S train)) with true by (symmetry; apply Nat.leb_le; auto).
  replace (tc_min_samples_leaf tc <=? length train - length (side (tc_fb tc) j S train)) with true by (symmetry; apply Nat.leb_le; lia).
  destruct (tc_aggregation tc) eqn:Ea; [|reflexivity]. destruct (H3 eq_refl) as [H4 H5].
  assert (Hv' : vl tc valid j (cat tc j) (p ++ [b]) = length (side (tc_fb tc) j S valid)).
  { unfold vl, seen. rewrite Ea, side_length. f_equal. apply filter_ext_in. auto. }
  unfold v_right. rewrite Hv'.
  pose proof (filter_length_total (fun i => S (bin tc j i)) valid) as Hvt. rewrite <- side_length in Hvt.
  change (length (filter (fun x => negb (S (bin tc j x))) valid)) with (length (other (tc_fb tc) j S valid)) in Hvt.
  replace (tc_min_samples_leaf tc <=? length (side (tc_fb tc) j S valid)) with true by (symmetry; apply Nat.leb_le; auto).
  replace (tc_min_samples_leaf tc <=? length valid - length (side (tc_fb tc) j S valid)) with true by (symmetry; apply Nat.leb_le; lia).
  reflexivity.
Qed.

Lemma in_ne : forall j b, In b (ne tc train j) <-> bin_present (tc_fb tc) j train b.
Proof.
  intros j b. unfold ne. rewrite distinct_in, in_map_iff. unfold bin_present. split; intros [i [H1 H2]]; exists i; auto.
Qed.

(** A feature with an admissible cut has at least two bins. *)
Lemma two_bins : forall j (S : nat -> bool) i i', In i train -> In i' train ->
  S (bin tc j i) = true -> S (bin tc j i') = false -> 1 <? length (ne tc train j) = true.
Proof.
  intros j S i i' Hi Hi' H1 H2. apply Nat.ltb_lt.
  assert (Ha : In (bin tc j i) (ne tc train j)) by (apply in_ne; exists i; auto).
  assert (Hb : In (bin tc j i') (ne tc train j)) by (apply in_ne; exists i'; auto).
  assert (bin tc j i <> bin tc j i') by (intro He; rewrite He in H1; congruence).
  destruct (ne tc train j) as [|x [|y l]]; simpl in *; intuition (try lia; congruence).
Qed.

Lemma many_bins : forall j t t', bin_present (tc_fb tc) j train t -> bin_present (tc_fb tc) j train t' -> t <> t' ->
  1 <? length (ne tc train j) = true.
Proof.
  intros j t t' Ha Hb Hn. apply Nat.ltb_lt. apply in_ne in Ha. apply in_ne in Hb.
  destruct (ne tc train j) as [|x [|y l]]; simpl in *; intuition (try lia; congruence).
Qed.

Lemma nonempty_side : forall j (S : nat -> bool) l, 1 <= length (side (tc_fb tc) j S l) -> exists i, In i l /\ S (bin tc j i) = true.
Proof.
  intros j S l H. destruct (side (tc_fb tc) j S l) as [|i t] eqn:Es; [simpl in H; lia|].
  assert (Hi : In i (side (tc_fb tc) j S l)) by (rewrite Es; simpl; auto). apply filter_In in Hi. exists i. auto.
Qed.

Lemma nonempty_other : forall j (S : nat -> bool) l, 1 <= length (other (tc_fb tc) j S l) -> exists i, In i l /\ S (bin tc j i) = false.
Proof.
  intros j S l H. destruct (other (tc_fb tc) j S l) as [|i t] eqn:Es; [simpl in H; lia|].
  assert (Hi : In i (other (tc_fb tc) j S l)) by (rewrite Es; simpl; auto). apply filter_In in Hi. destruct Hi as [H1 H2].
  apply Bool.negb_true_iff in H2. exists i. auto.
Qed.

(** The candidate agrees with the cut on the samples of the node. *)
Definition agrees (j : nat) (q : list nat) (S : nat -> bool) : Prop :=
  forall i, In i train -> mem_bin q (bin tc j i) = S (bin tc j i).

(** Continuous features: thresholds. *)
Lemma threshold_candidate : forall features s os s', tried ts tc train s features = Ok (os, s') ->
  1 <= tc_min_samples_leaf tc ->
  forall j t, In j features -> j < fb_n_features (tc_fb tc) -> cat tc j = false -> bin_present (tc_fb tc) j train t ->
  admissible_cut (tc_fb tc) (tc_min_samples_leaf tc) (tc_aggregation tc) train valid j (fun b => b <=? t) ->
  exists o q, In (j, o, q) (candidates os) /\ admissible_j tc train valid j (cat tc j) q = true /\
    agrees j q (fun b => b <=? t).
Proof.
  intros features s os s' Hos Hmsl j t Hin Hj Hc Hp Ha.
  pose proof Ha as (H1 & H2 & _).
  destruct (nonempty_side j (fun b => b <=? t) train ltac:(lia)) as [i [Hi Ei]].
  destruct (nonempty_other j (fun b => b <=? t) train ltac:(lia)) as [i' [Hi' Ei']].
  pose proof (two_bins j (fun b => b <=? t) i i' Hi Hi' Ei Ei') as H12.
  destruct (tried_all features s os s' Hos j Hin) as (s1 & oj & s2 & Ho & Hall).
  unfold orders_of in Ho. rewrite H12, Hc in Ho. inversion Ho; subst oj s2; clear Ho.
  set (o := sort_bins (ne tc train j)) in *.
  assert (Ho : order_ok tc train j (cat tc j) o).
  { split; [apply sort_bins_perm|]. intros _. apply sort_bins_sorted. }
  assert (Hto : In t o). { eapply Permutation_in; [symmetry; apply sort_bins_perm|]. apply in_ne. auto. }
  apply in_split in Hto. destruct Hto as (p & post & EO).
  assert (Hpost : post <> []).
  { intros ->. apply Nat.leb_gt in Ei'.
    assert (Hb : In (bin tc j i') o) by (apply (order_train tc train j (cat tc j) o Ho); auto).
    pose proof (sort_bins_sorted (ne tc train j)) as Hs. fold o in Hs. rewrite EO in Hs, Hb.
    change (t < bin tc j i') in Ei'. apply in_app_iff in Hb. destruct Hb as [Hb|[Hb|[]]]; [|lia].
    pose proof (sorted_app_le _ _ _ _ Hs Hb). lia. }
  exists o, (p ++ [t]). split; [|split].
  - apply in_candidates. split; [apply Hall; simpl; auto|]. exists p, t, post. auto.
  - apply (admissible_prefix j o p t post (fun b => b <=? t)); auto.
    + intros x Hx. rewrite left_test_snoc, Hc. auto.
    + intros _ x Hx. rewrite left_test_snoc, Hc. auto.
  - intros x Hx. rewrite <- (left_test_order tc train j Hj (cat tc j) o Ho p t post _ EO).
    + rewrite left_test_snoc, Hc. auto.
    + apply (order_train tc train j (cat tc j) o Ho); auto.
Qed.

(** Categorical features: prefixes of the orders. *)
Lemma prefix_candidate : forall os j o q r, In (j, o) os -> j < fb_n_features (tc_fb tc) ->
  cat tc j = true -> order_ok tc train j true o -> 1 <= tc_min_samples_leaf tc -> o = q ++ r ->
  admissible_cut (tc_fb tc) (tc_min_samples_leaf tc) (tc_aggregation tc) train valid j (mem_bin q) ->
  In (j, o, q) (candidates os) /\ admissible_j tc train valid j (cat tc j) q = true.
Proof.
  intros os j o q r Hin Hj Hc Ho Hmsl EO Ha.
  pose proof Ha as (H1 & H2 & _).
  destruct (nonempty_side j (mem_bin q) train ltac:(lia)) as [i [Hi Ei]].
  destruct (nonempty_other j (mem_bin q) train ltac:(lia)) as [i' [Hi' Ei']].
  assert (Hqne : q <> []) by (intros ->; discriminate).
  assert (Hrne : r <> []).
  { intros ->. rewrite app_nil_r in EO. subst q.
    assert (Hb : In (bin tc j i') o) by (apply (order_train tc train j true o Ho); auto).
    apply mem_bin_in in Hb. congruence. }
  destruct (exists_last Hqne) as (p & b & Eq). split.
  - apply in_candidates. split; auto. exists p, b, r. split; [rewrite EO, Eq, <- app_assoc; auto|auto].
  - rewrite Eq. apply (admissible_prefix j o p b r (mem_bin q)); auto.
    + rewrite Hc. auto.
    + rewrite EO, Eq, <- app_assoc. auto.
    + intros x _. rewrite Hc, <- Eq. reflexivity.
    + intros _ x _. rewrite Hc, <- Eq. reflexivity.
Qed.

End Cuts.

(** ** The orders of categorical bins are sorted (exact arithmetic) *)

Lemma take_at_map : forall {X} (d : X) bins idx o, take_at bins idx = Ok o -> o = map (fun i => nth i bins d) idx.
Proof.
  intros X d bins idx. unfold take_at. induction idx as [|i idx IH]; intros o H; simpl in H.
  - inversion H. auto.
  - destruct (get bins i) as [x|e] eqn:Eg; [|discriminate]. simpl in H.
    destruct (mapM (get bins) idx) as [r|e]; [|discriminate]. simpl in H. inversion H; subst.
    simpl. f_equal; auto. symmetry. apply get_nth. auto.
Qed.

Lemma StronglySorted_map_iff : forall {X Y} (f : X -> Y) (Q : Y -> Y -> Prop) l,
  StronglySorted Q (map f l) -> StronglySorted (fun x y => Q (f x) (f y)) l.
Proof.
  induction l as [|x l IH]; intros H; [constructor|]. simpl in H. inversion H as [|? ? H1 H2]; subst.
  constructor; auto. rewrite Forall_forall in *. intros y Hy. apply H2. apply in_map. auto.
Qed.

Lemma StronglySorted_ext_in : forall {X} (Q Q' : X -> X -> Prop) l,
  (forall x y, In x l -> In y l -> Q x y -> Q' x y) -> StronglySorted Q l -> StronglySorted Q' l.
Proof.
  induction l as [|x l IH]; intros H Hs; [constructor|]. inversion Hs as [|? ? H1 H2]; subst.
  constructor.
  - apply IH; auto. intros. apply H; simpl; auto.
  - rewrite Forall_forall in *. intros y Hy. apply H; simpl; auto.
Qed.

(** Bins taken in the order of [argsort vs], where [vs] are the values of the bins. *)
Lemma argsorted : forall (E : env R_arith) (bins : list nat) (v : nat -> R) o, good_argsort E -> sorts E ->
  take_at bins (argsort E (map v bins)) = Ok o -> StronglySorted (fun b b' => (v b <= v b')%R) o.
Proof.
  intros E bins v o HA HS H. apply (take_at_map 0) in H. subst o.
  pose proof (HS (map v bins)) as Hs. pose proof (HA (map v bins)) as HP.
  apply StronglySorted_map_iff in Hs.
  assert (Hlt : forall i, In i (argsort E (map v bins)) -> i < length bins).
  { intros i Hi. eapply Permutation_in in Hi; [|exact HP]. apply in_seq in Hi. rewrite map_length in Hi. lia. }
  assert (Hv : forall i, i < length bins -> nth i (map v bins) 0%R = v (nth i bins 0)).
  { intros i Hi. rewrite (nth_indep _ 0%R (v 0)) by (rewrite map_length; auto). apply map_nth. }
  clear HP. induction (argsort E (map v bins)) as [|i l IH]; [constructor|].
  inversion Hs as [|? ? H1 H2]; subst. simpl. constructor.
  - apply IH; auto. intros; apply Hlt; simpl; auto.
  - rewrite Forall_forall in *. intros b Hb. apply in_map_iff in Hb. destruct Hb as [i' [<- Hi']].
    rewrite <- !Hv by (apply Hlt; simpl; auto). apply H2. auto.
Qed.

Lemma mapM_in : forall {X Y} (f : X -> res Y) l r, mapM f l = Ok r -> forall x, In x l -> exists y, f x = Ok y /\ In y r.
Proof.
  intros X Y f l r H x Hx. destruct (mapM_ok f l r H) as [_ G]. apply In_nth_error in Hx. destruct Hx as [i Hi].
  destruct (G i x Hi) as (y & H1 & H2). exists y. split; auto. eapply nth_error_In; eauto.
Qed.

Section ClfOrders.
Context {E : env R_arith} (K : nat) (d : R) (crit : criterion) (st : cat_strategy).
Notation tk := (clf_task E K d crit st).
Notation ts := (clf_shape E K d crit st).
Context (tc : tctx R_arith (tk_Y tk)) (HD : data_ok ts tc).
Context (train : list nat) (Ht : in_range tc train).
Context (HE : good_env E) (HS : sorts E).
Notation Wt := (wt tc : nat -> R).
Notation Lab := (lab ts tc : nat -> nat).

Definition prop (j k b : nat) : R :=
  (Rsum (map Wt (filter (fun i => Lab i =? k) (inbin tc j b train))) / Rsum (map Wt (inbin tc j b train)))%R.

Lemma rows_R : forall j bins, (forall b, In b bins -> b < tc_max_n_bins tc) ->
  @normalised_rows R_arith (hist ts tc train j) bins = Ok (map (fun b => map (fun k => prop j k b) (seq 0 K)) bins).
Proof.
  intros j bins Hb. unfold normalised_rows.
  rewrite (mapM_pure _ (fun b => cw K d crit st tc (inbin tc j b train))).
  - cbn [bind]. f_equal. rewrite map_map. apply map_ext_in. intros b Hin. cbv zeta.
    rewrite asum_R. rewrite (cw_sum K d crit st tc HD train Ht).
    2:{ intros i Hi. apply filter_In in Hi. tauto. }
    unfold cw. rewrite map_map. reflexivity.
  - intros b Hin. exact (clf_row K d crit st tc train j b (Hb b Hin)).
Qed.

Lemma order_by_class_sorted : forall j bins k o, k < K ->
  @order_by_class R_arith E (map (fun b => map (fun k => prop j k b) (seq 0 K)) bins) bins k = Ok o ->
  StronglySorted (fun b b' => (prop j k b <= prop j k b')%R) o.
Proof.
  intros j bins k o Hk H. unfold order_by_class in H.
  assert (Hm : mapM (fun row : list R => get row k) (map (fun b => map (fun k => prop j k b) (seq 0 K)) bins) = Ok (map (prop j k) bins)).
  { clear - Hk. induction bins as [|b bins IH]; [reflexivity|]. cbn [map mapM].
    rewrite (get_map_seq (fun k => prop j k b)) by auto. cbn [bind]. rewrite IH. reflexivity. }
  change (num R_arith) with R in H. rewrite Hm in H. cbn [bind] in H.
  eapply argsorted; [exact (ge_sort E HE)|exact HS|exact H].
Qed.

Lemma clf_orders_sorted : forall s1 j oj s2, j < fb_n_features (tc_fb tc) -> cat tc j = true ->
  1 <? length (ne tc train j) = true -> orders_of ts tc train s1 j = Ok (oj, s2) ->
  exists ks, ordering_classes st K ks /\
    forall k, In k ks -> exists o, In o oj /\ StronglySorted (fun b b' => (prop j k b <= prop j k b')%R) o.
Proof.
  intros s1 j oj s2 Hj Hc H12 H. unfold orders_of in H. rewrite H12, Hc in H.
  assert (HK : ts_cat ts).
  { apply (do_tscat ts tc HD). rewrite <- Hc. unfold cat. apply nth_In. rewrite (do_cat ts tc HD). auto. }
  destruct HK as (_ & _ & HK1 & HK2).
  assert (Hb : forall b, In b (ne tc train j) -> b < tc_max_n_bins tc) by (intros b Hb; eapply ne_lt; eauto).
  assert (Hgen : forall st0, (st0 = BinaryMod -> 2 <= K) ->
    clf_cat_orders E K st0 s1 (hist ts tc train j) (ne tc train j) = Ok (oj, s2) ->
    exists ks, ordering_classes st0 K ks /\
    forall k, In k ks -> exists o, In o oj /\ StronglySorted (fun b b' => (prop j k b <= prop j k b')%R) o).
  { clear H. intros st0 H2 H. unfold clf_cat_orders in H. rewrite (rows_R j (ne tc train j) Hb) in H. cbn [bind] in H.
    destruct st0; cbn [ordering_classes] in *.
    - exists (seq 0 K). split; auto. intros k Hk.
      destruct (mapM _ (seq 0 K)) as [os|e] eqn:Em; [|discriminate]. cbn [bind] in H. inversion H; subst; clear H.
      destruct (mapM_in _ _ _ Em k Hk) as (o & Ho & Hin). exists o. split; auto.
      eapply order_by_class_sorted; eauto. apply in_seq in Hk. lia.
    - exists [1]. split; auto. intros k [<-|[]].
      destruct (order_by_class _ _ _ 1) as [o|e] eqn:Eo; [|discriminate]. cbn [bind] in H. inversion H; subst.
      exists o. split; [simpl; auto|]. eapply order_by_class_sorted; eauto.
    - unfold randint in H. destruct (Nat.eqb_spec K 0); [lia|]. cbn [bind] in H.
      pose proof (ge_draw E HE s1 K ltac:(lia)) as Hd. destruct (draw E s1 K) as [k s']. cbn [fst] in Hd.
      exists [k]. split; [eauto|]. intros k' [<-|[]].
      destruct (order_by_class _ _ _ k) as [o|e] eqn:Eo; [|discriminate]. cbn [bind] in H. inversion H; subst.
      exists o. split; [simpl; auto|]. eapply order_by_class_sorted; eauto. }
  exact (Hgen st HK2 H).
Qed.

End ClfOrders.

Section RegOrders.
Context {E : env R_arith}.
Notation tk := (reg_task E).
Notation ts := (reg_shape E).
Context (tc : tctx R_arith (tk_Y tk)) (HD : data_ok ts tc).
Context (train : list nat) (Ht : in_range tc train).
Context (HE : good_env E) (HS : sorts E).

Definition lsum (j b : nat) : R := fst (rs tc (inbin tc j b train)).

Lemma reg_orders_sorted : forall s1 j oj s2, j < fb_n_features (tc_fb tc) -> cat tc j = true ->
  1 <? length (ne tc train j) = true -> orders_of ts tc train s1 j = Ok (oj, s2) ->
  exists o, In o oj /\ StronglySorted (fun b b' => (lsum j b <= lsum j b')%R) o.
Proof.
  intros s1 j oj s2 Hj Hc H12 H. unfold orders_of in H. rewrite H12, Hc in H.
  cbn [tk_cat_orders reg_task] in H. unfold reg_cat_orders in H.
  assert (Hm : mapM (get (fst (hist ts tc train j : list R * list R))) (ne tc train j) = Ok (map (lsum j) (ne tc train j))).
  { apply mapM_pure. intros b Hb. apply (reg_row tc train j b). eapply ne_lt; eauto. }
  change (num R_arith) with R in H. rewrite Hm in H. cbn [bind] in H.
  destruct (take_at _ _) as [o|e] eqn:Eo; [|discriminate]. cbn [bind] in H. inversion H; subst.
  exists o. split; [simpl; auto|]. eapply argsorted; [exact (ge_sort E HE)|exact HS|exact Eo].
Qed.
End RegOrders.

(** ** The specification from the characterisation of the search *)

Section Best.
Context {E : env R_arith} {tk : task R_arith E} (ts : task_shape tk).
Context (tc : tctx R_arith (tk_Y tk)) (HD : data_ok ts tc).
Context (train valid : list nat) (Ht : in_range tc train) (Hv : in_range tc valid).
Context (features : list nat) (Hf : forall j, In j features -> j < fb_n_features (tc_fb tc)).
Context (Hagg : tc_aggregation tc = true -> valid <> []) (Hmsl : 1 <= tc_min_samples_leaf tc).
Context (Imp : list nat -> R).
Context (HG : forall j o q, j < fb_n_features (tc_fb tc) -> order_ok tc train j (cat tc j) o ->
  (exists p b post, o = p ++ b :: post /\ q = p ++ [b] /\ post <> []) ->
  imp_of ts tc train (j, o, q) = Ok (Imp (Lq tc train j q), Imp (Rq tc train j q))).

Notation best_as := (at_least_as_good (tc_fb tc) (tc_weights tc) (tc_min_samples_leaf tc) (tc_aggregation tc) train valid Imp).

Lemma best_split_cuts : forall s p, exists sp s' os,
  find_node_split tk tc (nctx_spec ts tc features train valid p) s = Ok (sp, s') /\
  tried ts tc train s features = Ok (os, s') /\
  (sp_found sp = true ->
     describes_its_cut (tc_fb tc) (tc_is_categorical tc) (tc_weights tc) (tc_min_samples_leaf tc) (tc_aggregation tc)
       features train valid Imp sp) /\
  (forall j t, In j features -> cat tc j = false -> bin_present (tc_fb tc) j train t -> best_as sp j (fun b => b <=? t)) /\
  (forall j o v, In j features -> cat tc j = true -> In (j, o) os -> StronglySorted (fun b b' => (v b <= v b')%R) o ->
     sorted_bins (tc_fb tc) j train v o /\ forall q r, o = q ++ r -> best_as sp j (bins_in q)).
Proof.
  intros s p.
  destruct (best_split ts tc HD train valid Ht Hv Imp features Hf Hagg) with (s := s) (p := p) as (sp & s' & H1 & os & H2 & H3 & H4).
  { intros j o q Hj Ho H. apply HG; auto. }
  exists sp, s', os. split; [exact H1|]. split; [exact H2|].
  assert (Hbest : forall j q cut, (exists o, In (j, o, q) (candidates os)) -> admissible_j tc train valid j (cat tc j) q = true ->
    agrees tc train j q cut -> sp_found sp = true /\ exists g, sp_gain sp = Some g /\
    (split_gain (tc_weights tc) Imp (side (tc_fb tc) j cut train) (other (tc_fb tc) j cut train) <= g)%R).
  { intros j q cut [o Ho] Ha Hag. destruct (H4 j o q Ho Ha) as [Hfd (g & Hg & Hle)]. split; auto. exists g. split; auto.
    assert (EL : side (tc_fb tc) j cut train = Lq tc train j q).
    { apply filter_ext_in. intros i Hi. symmetry. apply Hag; auto. }
    assert (ER : other (tc_fb tc) j cut train = Rq tc train j q).
    { apply filter_ext_in. intros i Hi. f_equal. symmetry. apply Hag; auto. }
    rewrite EL, ER. unfold split_gain, total_weight. rewrite !asum_R. exact Hle. }
  split; [|split].
  - intros Hfd. destruct H3 as [->|(c & Hc & C & Hg & Hwl & Hwr)]; [discriminate|].
    pose proof (ch_in C) as Hin. pose proof (ch_cat C) as Hcat.
    set (j := sp_feature sp) in *.
    split; [exact Hin|]. split.
    { rewrite Hcat. unfold cat. apply nth_error_nth'. rewrite (do_cat ts tc HD). auto. }
    exists (to_left sp). split; [intro b; eapply chosen_goes_left; eauto|].
    destruct (ch_prefix C) as (p0 & b0 & post & EO & Eq & Hpost & Et).
    pose proof (ch_order C) as Ho.
    assert (Hpres : forall b, In b (snd (fst c)) -> bin_present (tc_fb tc) j train b).
    { intros b Hb. apply in_ne. destruct Ho as [HP _]. eapply Permutation_in; [exact HP|exact Hb]. }
    split.
    { pose proof (ch_part C) as Hpart. unfold to_left. destruct (sp_is_cat sp).
      - intros b Hb. apply mem_bin_in in Hb. rewrite Hpart in Hb.
        eapply Permutation_in in Hb; [|apply sort_bins_perm]. apply Hpres. rewrite EO.
        rewrite Eq in Hb. apply in_app_iff in Hb. apply in_app_iff. simpl in *. tauto.
      - exists b0. split; [apply Hpres; rewrite EO; apply in_elt|]. intro b. rewrite Et. reflexivity. }
    pose proof (ch_n_left C) as N1. pose proof (ch_n_right C) as N2. pose proof (ch_v_left C) as N3. pose proof (ch_v_right C) as N4.
    pose proof (ch_imps C) as HI.
    change (side (tc_fb tc) j (to_left sp) train) with (Lsp tc train sp).
    change (other (tc_fb tc) j (to_left sp) train) with (Rsp tc train sp).
    change (filter (fun i => to_left sp (bin tc (sp_feature sp) i)) train) with (Lsp tc train sp) in N1.
    change (filter (fun i => negb (to_left sp (bin tc (sp_feature sp) i))) train) with (Rsp tc train sp) in N2.
    split.
    { destruct (ch_msl C) as [M1 M2]. split; [|split].
      - rewrite N1 in M1. exact M1.
      - rewrite N2 in M2. exact M2.
      - intros Ha. destruct (ch_mslv C Ha) as [M3 M4]. rewrite N3 in M3. rewrite (N4 Ha) in M4. unfold seen in M3. rewrite Ha in M3. split; assumption. }
    split; [rewrite Hg; unfold split_gain, total_weight; rewrite !asum_R; reflexivity|].
    split; [exact (f_equal fst HI)|]. split; [exact (f_equal snd HI)|].
    split; [rewrite Hwl; unfold total_weight; rewrite asum_R; reflexivity|].
    split; [rewrite Hwr; unfold total_weight; rewrite asum_R; reflexivity|].
    split; [exact N1|]. split; [exact N2|].
    intros Ha. split; [rewrite N3; unfold seen; rewrite Ha; reflexivity|exact (N4 Ha)].
  - intros j t Hin Hc Hp Ha.
    destruct (threshold_candidate ts tc train valid features s os s' H2 Hmsl j t Hin (Hf j Hin) Hc Hp Ha) as (o & q & Q1 & Q2 & Q3).
    eapply Hbest; eauto.
  - intros j o v Hin Hc Ho Hs.
    destruct (tried_ok ts tc HD train Ht features s Hf) as (os2 & s2 & Ho2 & Hos).
    assert (os2 = os) by congruence. subst os2.
    destruct (Hos j o Ho) as [_ Hord]. split.
    { split; [exact (order_nodup tc train j _ o Hord)|]. split; auto. intro b. rewrite <- in_ne.
      destruct Hord as [HP _]. split; intro H; (eapply Permutation_in; [|exact H]); [|symmetry]; auto. }
    rewrite Hc in Hord. intros q r Eo Ha.
    destruct (prefix_candidate tc train valid os j o q r Ho (Hf j Hin) Hc Hord Hmsl Eo Ha) as (Q1 & Q2).
    eapply Hbest; eauto. intros i _. reflexivity.
Qed.
End Best.
