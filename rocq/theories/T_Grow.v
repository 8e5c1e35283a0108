(** * C19, C22, C24 to C29: grown trees, for every arithmetic *)

Require Import List Arith Lia NArith Permutation Sorted QArith.
Require Import Verif.Base Verif.Num Verif.M_Bitarray Verif.P_Bitarray Verif.M_Utils Verif.M_Impurity
  Verif.M_Context Verif.M_Node Verif.M_Split Verif.M_Tree Verif.M_Grow
  Verif.P_Utils Verif.P_List Verif.P_Stack Verif.P_Task Verif.P_Node
  Verif.P_Bins Verif.P_Scan Verif.P_Split Verif.P_Find Verif.P_Indices Verif.P_Tree Verif.P_Grow
  Verif.P_Repr Verif.P_Route Verif.S_Fit Verif.P_Fit Verif.P_FitTree Verif.S_Node Verif.S_Tree Verif.P_Nodes
  Verif.Ex_Data Verif.Ex_Valid.
Import ListNotations.
Local Open Scope nat_scope.
Local Open Scope list_scope.
Local Open Scope res_scope.

(** ** C27: growing accesses no array out of bounds

    The model returns [Err OOB] on an access out of bounds, [Err Fuel] when a loop does not
    end, [Err Unbound] when it reads an undefined value. None of them happens: the only
    failure left is a division by zero (see C48). *)
Theorem C27_growing : forall {A : arith} {E : env A} (tk : task A E) p fb y train valid weights s,
  valid_call tk p fb y train valid weights ->
  (exists tc g, tree_fit tk p fb y train valid weights s = Ok (tc, g)) \/
  tree_fit tk p fb y train valid weights s = Err ZeroDiv.
Proof.
  intros A E tk p fb y train valid weights s H.
  destruct (fit_fitted tk p fb y train valid weights s H) as (ts & tc & _ & _ & HO).
  destruct (tree_fit tk p fb y train valid weights s) as [[tc' g]|e]; [left; eauto|right].
  destruct e; simpl in HO; try contradiction. reflexivity.
Qed.
Print Assumptions C27_growing.

(** ** C24: growing ends and the tree is small *)
Theorem C24_growing_ends : forall {A : arith} {E : env A} (tk : task A E) p fb y train valid weights s,
  valid_call tk p fb y train valid weights ->
  tree_fit tk p fb y train valid weights s <> Err Fuel.
Proof.
  intros A E tk p fb y train valid weights s H HF.
  destruct (C27_growing tk p fb y train valid weights s H) as [(tc & g & H1)|H1]; congruence.
Qed.
Print Assumptions C24_growing_ends.

Theorem C24_small : forall {A : arith} {E : env A} (tk : task A E) p fb y train valid weights s tc g,
  valid_call tk p fb y train valid weights -> train <> [] ->
  tree_fit tk p fb y train valid weights s = Ok (tc, g) ->
  1 <= tr_node_count (g_tree g) <= 2 * length train - 1.
Proof.
  intros A E tk p fb y train valid weights s tc g H Hne Hfit.
  destruct (fit_inv tk p fb y train valid weights s tc g H Hfit) as (ts & b & C & V & Htr & Hva & F).
  rewrite (fitted_count ts tc train valid s g b F). pose proof (ft_size _ _ _ _ _ _ _ F) as HS. pose proof (bsize_pos b).
  destruct train; [congruence|]. simpl length in *. lia.
Qed.
Print Assumptions C24_small.

(** ** C25: the nodes array encodes a binary tree *)
Theorem C25_well_formed : forall {A : arith} {E : env A} (tk : task A E) p fb y train valid weights s tc g,
  valid_call tk p fb y train valid weights ->
  tree_fit tk p fb y train valid weights s = Ok (tc, g) ->
  well_formed (g_tree g).
Proof.
  intros A E tk p fb y train valid weights s tc g H Hfit.
  destruct (fit_inv tk p fb y train valid weights s tc g H Hfit) as (ts & b & C & V & Htr & Hva & F).
  eapply fitted_well_formed; eauto.
Qed.
Print Assumptions C25_well_formed.

(** ** C19: min_samples_leaf *)
Theorem C19_min_samples_leaf : forall {A : arith} {E : env A} (tk : task A E) p fb y train valid weights s tc g,
  valid_call tk p fb y train valid weights ->
  tree_fit tk p fb y train valid weights s = Ok (tc, g) ->
  forall id n, node_at (g_tree g) id n -> id <> 0 ->
  tp_min_samples_leaf p <= nd_n_train n /\ (tp_aggregation p = true -> tp_min_samples_leaf p <= nd_n_valid n).
Proof.
  intros A E tk p fb y train valid weights s tc g H Hfit id n Hn Hid.
  destruct (fit_inv tk p fb y train valid weights s tc g H Hfit) as (ts & b0 & C & V & Htr & Hva & F).
  destruct (node_inside ts tc train valid s g b0 F id n Hn) as (b & q & HI & -> & Eid).
  destruct (hnode_counts ts tc train valid s g b0 F Htr Hva b q HI) as (-> & -> & _).
  rewrite <- (cc_msl _ _ _ _ _ _ C), <- (cc_agg _ _ _ _ _ _ C).
  destruct (inside_parent b0 b q HI) as [[-> ->]|(d & l & r & q' & HQ & [[-> ->]|[-> ->]])]; [cbn in Eid; lia| |];
    pose proof (inside_children ts tc train valid s g b0 F Htr Hva d l r q' HQ) as CH;
    destruct (cd_chosen _ _ _ _ _ CH) as (features & c & i & _ & Hc);
    pose proof (ch_msl Hc) as M1; pose proof (ch_mslv Hc) as M2;
    pose proof (ch_n_left Hc) as N1; pose proof (ch_n_right Hc) as N2;
    pose proof (ch_v_left Hc) as N3; pose proof (ch_v_right Hc) as N4.
  - rewrite (cd_train_r _ _ _ _ _ CH), (cd_valid_r _ _ _ _ _ CH).
    change (filter (stays tc (bd_sp d)) (bd_train d)) with
      (filter (fun i => negb (to_left (bd_sp d) (bin tc (sp_feature (bd_sp d)) i))) (bd_train d)).
    change (filter (stays tc (bd_sp d)) (bd_valid d)) with
      (filter (fun i => negb (to_left (bd_sp d) (bin tc (sp_feature (bd_sp d)) i))) (bd_valid d)).
    rewrite <- N2. split; [apply M1|]. intros Ha. rewrite <- (N4 Ha). apply M2; auto.
  - rewrite (cd_train_l _ _ _ _ _ CH), (cd_valid_l _ _ _ _ _ CH).
    change (filter (goes tc (bd_sp d)) (bd_train d)) with
      (filter (fun i => to_left (bd_sp d) (bin tc (sp_feature (bd_sp d)) i)) (bd_train d)).
    change (filter (goes tc (bd_sp d)) (bd_valid d)) with
      (filter (fun i => to_left (bd_sp d) (bin tc (sp_feature (bd_sp d)) i)) (bd_valid d)).
    rewrite <- N1. split; [apply M1|]. intros Ha.
    assert (Es : seen tc (bd_valid d) = bd_valid d) by (unfold seen; rewrite Ha; auto).
    rewrite Es in N3. rewrite <- N3. apply M2; auto.
Qed.
Print Assumptions C19_min_samples_leaf.

(** ** C26: depth, min_samples_split, impurity *)
Theorem C26_limits : forall {A : arith} {E : env A} (tk : task A E) p fb y train valid weights s tc g,
  valid_call tk p fb y train valid weights ->
  tree_fit tk p fb y train valid weights s = Ok (tc, g) ->
  forall id n, node_at (g_tree g) id n ->
  (N.of_nat (nd_depth n) <= tp_max_depth p)%N /\
  (nd_is_leaf n = false ->
     (N.of_nat (nd_depth n) < tp_max_depth p)%N /\
     tp_min_samples_split p <= nd_n_train n /\
     (tp_aggregation p = true -> tp_min_samples_split p <= nd_n_valid n) /\
     (* the impurity of a split node is not zero, except possibly at the root *)
     (id <> 0 -> exists x, nd_impurity n = Some x /\ aleb x a0 = false)).
Proof.
  intros A E tk p fb y train valid weights s tc g H Hfit id n Hn.
  destruct (fit_inv tk p fb y train valid weights s tc g H Hfit) as (ts & b0 & C & V & Htr & Hva & F).
  destruct (node_inside ts tc train valid s g b0 F id n Hn) as (b & q & HI & -> & Eid).
  rewrite hnode_depth, hnode_imp.
  destruct (hnode_counts ts tc train valid s g b0 F Htr Hva b q HI) as (-> & -> & _).
  rewrite <- (cc_mss _ _ _ _ _ _ C), <- (cc_agg _ _ _ _ _ _ C), <- (cc_depth _ _ _ _ _ _ C).
  assert (HS : forall d l r q, inside b0 root_place (BNode d l r) q ->
    (N.of_nat (bd_depth d) < tc_max_depth tc)%N /\ tc_min_samples_split tc <= length (bd_train d) /\
    (tc_aggregation tc = true -> tc_min_samples_split tc <= length (bd_valid d)) /\
    (forall x, bd_imp d = Some x -> aleb x a0 = false)).
  { intros d l r q' HQ. pose proof (inside_children ts tc train valid s g b0 F Htr Hva d l r q' HQ) as CH.
    destruct (cd_stop _ _ _ _ _ CH) as (features & pr & Hs).
    assert (Hmss : 2 <= tc_min_samples_split tc) by (rewrite (cc_mss _ _ _ _ _ _ C); apply (vf_mss _ _ _ _ _ _ V)).
    assert (Hmf : 1 <= tc_max_features tc <= fb_n_features (tc_fb tc)) by (rewrite (cc_fb _ _ _ _ _ _ C), (cc_mf _ _ _ _ _ _ C); apply (vf_mf _ _ _ _ _ _ V)).
    destruct (stop_valid ts tc (tc_max_features tc) Hmf Hmss features _ _ pr _ _ Hs) as (_ & S1 & S2 & S3 & S4).
    split; auto. split; auto. split; auto. intros Ha. apply S2. auto. }
  split.
  - destruct (inside_parent b0 b q HI) as [[-> ->]|(d & l & r & q' & HQ & [[-> ->]|[-> ->]])].
    + destruct (inside_root_data ts tc train valid s g b0 F) as (-> & _). lia.
    + pose proof (inside_children ts tc train valid s g b0 F Htr Hva d l r q' HQ) as CH.
      rewrite (cd_depth_r _ _ _ _ _ CH). destruct (HS _ _ _ _ HQ) as (S1 & _). lia.
    + pose proof (inside_children ts tc train valid s g b0 F Htr Hva d l r q' HQ) as CH.
      rewrite (cd_depth_l _ _ _ _ _ CH). destruct (HS _ _ _ _ HQ) as (S1 & _). lia.
  - intros HL. destruct b as [d|d l r]; [discriminate|]. cbn [broot].
    destruct (HS _ _ _ _ HI) as (S1 & S2 & S3 & S4). split; auto. split; auto. split; auto.
    intros Hid. destruct (inside_parent b0 _ q HI) as [[_ Eq]|(d' & l' & r' & q' & HQ & [[Eb ->]|[Eb ->]])]; [rewrite Eq in Eid; cbn in Eid; lia| |];
      pose proof (inside_children ts tc train valid s g b0 F Htr Hva d' l' r' q' HQ) as CH.
    + pose proof (cd_imp_r _ _ _ _ _ CH) as EI. rewrite <- Eb in EI. cbn [broot] in EI. eauto.
    + pose proof (cd_imp_l _ _ _ _ _ CH) as EI. rewrite <- Eb in EI. cbn [broot] in EI. eauto.
Qed.
Print Assumptions C26_limits.

(** The root is split even when it is pure: all the labels below are equal, and the root of
    the tree is not a leaf. *)
Lemma of_run : forall {X Y} (m : res X) (k : X -> res Y) v, bind m k = Ok v -> exists x, m = Ok x /\ k x = Ok v.
Proof. intros X Y [x|e] k v H; [eauto|discriminate]. Qed.

Theorem C26_pure_root_refuted : exists tc g n,
  tree_fit ex_clf (ex_params false 2) ex_fb (repeat 1 8) ex_train ex_valid ex_w 0 = Ok (tc, g) /\
  node_at (g_tree g) 0 n /\ nd_is_leaf n = false /\ nd_impurity n = None.
Proof.
  assert (Hk : (let* r := tree_fit ex_clf (ex_params false 2) ex_fb (repeat 1 8) ex_train ex_valid ex_w 0 in
    let* n := get (tr_nodes (g_tree (snd r))) 0 in Ok (nd_is_leaf n, nd_impurity n, 0 <? tr_node_count (g_tree (snd r)))) = Ok (false, None, true))
    by (vm_compute; reflexivity).
  destruct (of_run _ _ _ Hk) as ([tc g] & H1 & H2). clear Hk.
  destruct (of_run _ _ _ H2) as (n & H3 & H4). clear H2. cbn [snd] in *.
  injection H4 as E1 E2 E3. exists tc, g, n. split; [exact H1|]. clear H1.
  apply get_ok in H3. split; [split; [apply Nat.ltb_lt; exact E3|exact H3]|]. split; [exact E1|exact E2].
Qed.
Print Assumptions C26_pure_root_refuted.

(** ** C28: training and validation samples are in the leaf they reach *)
Theorem C28_samples : forall {A : arith} {E : env A} (tk : task A E) p fb y train valid weights s tc g,
  valid_call tk p fb y train valid weights ->
  tree_fit tk p fb y train valid weights s = Ok (tc, g) ->
  (* every sample reaches a leaf *)
  (forall i, i < fb_n_samples fb -> exists leaf n,
     find_leaf (g_tree g) fb i = Ok leaf /\ node_at (g_tree g) leaf n /\ nd_is_leaf n = true) /\
  (* the slices of a leaf list exactly the samples that reach it, and its fields count them *)
  (forall id n, node_at (g_tree g) id n -> nd_is_leaf n = true ->
     slice (p_train (g_parts g)) (nd_start_train n) (nd_end_train n) = Ok (reaching (g_tree g) fb id train) /\
     slice (p_valid (g_parts g)) (nd_start_valid n) (nd_end_valid n) = Ok (reaching (g_tree g) fb id valid) /\
     nd_n_train n = length (reaching (g_tree g) fb id train) /\
     nd_n_valid n = length (reaching (g_tree g) fb id valid) /\
     nd_w_train n = total_weight weights (reaching (g_tree g) fb id train)) /\
  (* together the slices hold every sample *)
  Permutation (p_train (g_parts g)) train /\ Permutation (p_valid (g_parts g)) valid.
Proof.
  intros A E tk p fb y train valid weights s tc g H Hfit.
  destruct (fit_inv tk p fb y train valid weights s tc g H Hfit) as (ts & b0 & C & V & Htr & Hva & F).
  pose proof (cc_fb _ _ _ _ _ _ C) as Efb. pose proof (cc_w _ _ _ _ _ _ C) as Ew. subst fb.
  pose proof (cc_data _ _ _ _ _ _ C) as HD.
  split; [|split].
  - intros i Hi. destruct (walk_fitted ts tc train valid s g b0 F (tc_fb tc) i (do_wf _ _ HD) Hi eq_refl)
      as (path & leaf & n & _ & _ & H1 & H2 & H3 & _). exists leaf, n. auto.
  - intros id n Hn HL. destruct (leaf_samples ts tc HD train valid s g b0 F Htr Hva id n Hn HL) as (H1 & H2 & H3 & H4 & H5).
    split; [auto|]. split; [auto|]. split; [auto|]. split; [auto|]. rewrite H5, <- Ew. reflexivity.
  - destruct (grown ts tc train valid s g b0 F) as (s' & fs' & HG). destruct (flat_perm ts tc _ _ _ _ _ _ _ _ _ HG) as [P1 P2].
    rewrite (ft_train _ _ _ _ _ _ _ F), (ft_valid _ _ _ _ _ _ _ F). auto.
Qed.
Print Assumptions C28_samples.

(** ** C29: the walk down reaches a leaf, the walk up visits its ancestors

    [fb'] is any packed matrix with the same number of features: new data, with any bins. *)
Theorem C29_walk : forall {A : arith} {E : env A} (tk : task A E) p fb y train valid weights s tc g,
  valid_call tk p fb y train valid weights ->
  tree_fit tk p fb y train valid weights s = Ok (tc, g) ->
  forall fb' i, fba_wf fb' -> fb_n_features fb' = fb_n_features fb -> i < fb_n_samples fb' ->
  exists path leaf n,
    route (g_tree g) (bin_of fb' i) 0 path /\ last path 0 = leaf /\
    find_leaf (g_tree g) fb' i = Ok leaf /\ node_at (g_tree g) leaf n /\ nd_is_leaf n = true /\
    (forall path', route (g_tree g) (bin_of fb' i) 0 path' -> path' = path) /\
    forall V step (val : nat -> node A -> res V) mix v,
      climb (S (tr_node_count (g_tree g))) (g_tree g) step val mix leaf v =
      mix_up (g_tree g) step val mix (rev (removelast path)) v.
Proof.
  intros A E tk p fb y train valid weights s tc g H Hfit fb' i Hwf Hnf Hi.
  destruct (fit_inv tk p fb y train valid weights s tc g H Hfit) as (ts & b0 & C & V & Htr & Hva & F).
  rewrite <- (cc_fb _ _ _ _ _ _ C) in Hnf.
  destruct (walk_fitted ts tc train valid s g b0 F fb' i Hwf Hi Hnf) as (path & leaf & n & H1 & H2 & H3 & H4 & H5 & H6).
  exists path, leaf, n. repeat (split; auto). intros path' HR. eapply (route_det (tk := tk)); eauto.
Qed.
Print Assumptions C29_walk.

Lemma Permutation_filter : forall {X} (f : X -> bool) l l', Permutation l l' -> Permutation (filter f l) (filter f l').
Proof.
  intros X f l l' H. induction H; simpl; auto.
  - destruct (f x); auto.
  - destruct (f x), (f y); auto. apply perm_swap.
  - etransitivity; eauto.
Qed.

(** ** C22: the test of a categorical split *)
Theorem C22_categorical_test : forall {A : arith} {E : env A} (tk : task A E) p fb y train valid weights s tc g,
  valid_call tk p fb y train valid weights ->
  tree_fit tk p fb y train valid weights s = Ok (tc, g) ->
  forall id n, node_at (g_tree g) id n -> nd_is_leaf n = false -> nd_is_cat n = true ->
  exists f l r ln rn (left_bins : list nat) (here left_samples right_samples : list nat),
    nd_feature n = Some f /\ f < fb_n_features fb /\
    nd_left n = Some l /\ nd_right n = Some r /\ node_at (g_tree g) l ln /\ node_at (g_tree g) r rn /\
    slice (p_train (g_parts g)) (nd_start_train n) (nd_end_train n) = Ok here /\
    slice (p_train (g_parts g)) (nd_start_train ln) (nd_end_train ln) = Ok left_samples /\
    slice (p_train (g_parts g)) (nd_start_train rn) (nd_end_train rn) = Ok right_samples /\
    (* the bins chosen for the left child: those of its training samples *)
    (forall b, In b left_bins <-> exists i, In i left_samples /\ bin_of fb i f = b) /\
    Permutation left_samples (filter (fun i => existsb (Nat.eqb (bin_of fb i f)) left_bins) here) /\
    Permutation right_samples (filter (fun i => negb (existsb (Nat.eqb (bin_of fb i f)) left_bins)) here) /\
    (* at prediction a row goes left if and only if its bin is one of them; a bin that no
       sample of the node had goes right *)
    (forall fb' i, fba_wf fb' -> fb_n_features fb' = fb_n_features fb -> i < fb_n_samples fb' ->
       (In (bin_of fb' i f) left_bins -> next_node (g_tree g) fb' i n = Ok l) /\
       (~ In (bin_of fb' i f) left_bins -> next_node (g_tree g) fb' i n = Ok r)) /\
    (forall b, (forall i, In i here -> bin_of fb i f <> b) -> ~ In b left_bins).
Proof.
  intros A E tk p fb y train valid weights s tc g H Hfit id n Hn HL Hcat.
  destruct (fit_inv tk p fb y train valid weights s tc g H Hfit) as (ts & b0 & C & V & Htr & Hva & F).
  pose proof (cc_fb _ _ _ _ _ _ C) as Efb. subst fb. pose proof (cc_data _ _ _ _ _ _ C) as HD.
  destruct (node_samples_slices ts tc train valid s g b0 F Htr Hva id n Hn) as (lt & lv & S1 & _ & _ & _ & b & q & HI & En & Eid & P1 & _).
  subst n id. destruct b as [d|d l r]; [discriminate|].
  assert (HIl : inside b0 root_place l (lplace q d l r)) by (apply In_left; auto).
  assert (HIr : inside b0 root_place r (rplace q d l r)) by (apply In_right; auto).
  pose proof (inside_node ts tc train valid s g b0 F _ _ HIl) as Nl.
  pose proof (inside_node ts tc train valid s g b0 F _ _ HIr) as Nr.
  destruct (node_samples_slices ts tc train valid s g b0 F Htr Hva _ _ Nl) as (ll & lvl & S2 & _ & _ & _ & bl & ql & HIl' & En & Eid & P2 & _).
  destruct (inside_inj b0 _ _ _ _ HIl HIl' (eq_sym Eid)) as [<- <-]. clear En Eid HIl'.
  destruct (node_samples_slices ts tc train valid s g b0 F Htr Hva _ _ Nr) as (lr & lvr & S3 & _ & _ & _ & br & qr & HIr' & En & Eid & P3 & _).
  destruct (inside_inj b0 _ _ _ _ HIr HIr' (eq_sym Eid)) as [<- <-]. clear En Eid HIr'.
  pose proof (inside_children ts tc train valid s g b0 F Htr Hva d l r q HI) as CH.
  destruct (cd_chosen _ _ _ _ _ CH) as (features & c & i & Hf & Hc).
  assert (Ecat : sp_is_cat (bd_sp d) = true) by exact Hcat.
  set (f := sp_feature (bd_sp d)). set (B := sp_partition (bd_sp d)).
  assert (Hsame : forall i, goes tc (bd_sp d) i = existsb (Nat.eqb (bin_of (tc_fb tc) i f)) B).
  { intro i0. unfold goes, to_left. rewrite Ecat. reflexivity. }
  assert (Hex : forall b (l : list nat), existsb (Nat.eqb b) l = true <-> In b l).
  { intros b0' l0. split; [intros HH; apply existsb_exists in HH; destruct HH as (x & Hx & Ex); apply Nat.eqb_eq in Ex; subst; auto|].
    intros HH. apply existsb_exists. exists b0'. split; auto. apply Nat.eqb_refl. }
  assert (Hseen : forall b, In b B -> exists i, In i (bd_train d) /\ bin tc f i = b).
  { intros b Hb. unfold B in Hb. rewrite (ch_part Hc), Ecat in Hb.
    eapply Permutation_in in Hb; [|apply sort_bins_perm].
    destruct (ch_prefix Hc) as (p0 & x & post & E1 & E2 & _). rewrite E2 in Hb.
    destruct (ch_order Hc) as [HP _]. rewrite E1 in HP.
    assert (Hb' : In b (p0 ++ x :: post)) by (apply in_app_iff in Hb; apply in_app_iff; simpl in *; tauto).
    eapply Permutation_in in Hb'; [|exact HP]. apply (proj1 (distinct_in _ _)) in Hb'.
    apply in_map_iff in Hb'. destruct Hb' as [i' [H1 H2]]. eauto. }
  assert (Pl : Permutation ll (filter (fun i => existsb (Nat.eqb (bin_of (tc_fb tc) i f)) B) lt)).
  { rewrite P2, (cd_train_l _ _ _ _ _ CH). rewrite (filter_ext _ _ Hsame). apply Permutation_sym. apply Permutation_filter. auto. }
  assert (Pr : Permutation lr (filter (fun i => negb (existsb (Nat.eqb (bin_of (tc_fb tc) i f)) B)) lt)).
  { rewrite P3, (cd_train_r _ _ _ _ _ CH).
    rewrite (filter_ext (stays tc (bd_sp d)) (fun i => negb (existsb (Nat.eqb (bin_of (tc_fb tc) i f)) B))) by (intro; unfold stays; rewrite Hsame; auto).
    apply Permutation_sym. apply Permutation_filter. auto. }
  exists f, (pl_id (lplace q d l r)), (pl_id (rplace q d l r)), (hnode (Wof tc) l (lplace q d l r)), (hnode (Wof tc) r (rplace q d l r)), B, lt, ll, lr.
  split; [reflexivity|]. split; [apply Hf; apply (ch_in Hc)|].
  split; [reflexivity|]. split; [reflexivity|]. split; [exact Nl|]. split; [exact Nr|].
  split; [exact S1|]. split; [exact S2|]. split; [exact S3|].
  split; [|split; [exact Pl|split; [exact Pr|split]]].
  - intros b. split.
    + intros Hb. destruct (Hseen b Hb) as (i0 & I1 & I2). exists i0. split; [|exact I2].
      eapply Permutation_in; [apply Permutation_sym; exact Pl|]. apply filter_In. split.
      * eapply Permutation_in; [apply Permutation_sym; exact P1|exact I1].
      * apply Hex. change (bin_of (tc_fb tc) i0 f) with (bin tc f i0). rewrite I2. auto.
    + intros (i0 & I1 & I2). eapply Permutation_in in I1; [|exact Pl]. apply filter_In in I1. destruct I1 as [_ I1].
      apply Hex in I1. rewrite I2 in I1. auto.
  - intros fb' i0 Hwf Hnf Hi.
    pose proof (here_inside _ _ _ _ _ _ _ _ (fitted_here ts tc train valid s g b0 F) HI) as HH.
    pose proof (inner_inside b0 _ _ _ (fitted_testable ts tc train valid s g b0 F) HI) as [HT _].
    pose proof (next_node_ok (Wof tc) (g_tree g) fb' i0 (bin_of fb' i0) (fb_n_features (tc_fb tc))
      (row_ok tc fb' i0 Hwf Hi Hnf) d l r q HH HT) as Hnx.
    unfold to_left in Hnx. rewrite Ecat in Hnx.
    split; intros Hb.
    + rewrite Hnx. apply mem_bin_in in Hb. fold f B. rewrite Hb. reflexivity.
    + rewrite Hnx. fold f B. destruct (mem_bin B (bin_of fb' i0 f)) eqn:Em; [apply mem_bin_in in Em; contradiction|reflexivity].
  - intros b Hno Hb. destruct (Hseen b Hb) as (i0 & I1 & I2). apply (Hno i0); auto.
    eapply Permutation_in; [apply Permutation_sym; exact P1|exact I1].
Qed.
Print Assumptions C22_categorical_test.

(** ** C27: predicting accesses no array out of bounds *)

Section Predict.
Context {A : arith} {E : env A} {tk : task A E} (ts : task_shape tk).
Context (tc : tctx A (tk_Y tk)).
Context (train valid : list nat) (s : rng E) (g : gstate tk) (b0 : btree tk).
Context (F : fitted ts tc train valid s g b0).
Context (Ht : in_range tc train) (Hv : in_range tc valid).

Lemma node_pred_ok : forall b q, inside b0 root_place b q ->
  get (tr_y_pred (g_tree g)) (pl_id q) = Ok (nc_pred (bd_nc (broot b))) /\ ts_Pok ts (nc_pred (bd_nc (broot b))).
Proof.
  intros b q HI. split.
  - eapply here_pred. eapply here_inside; [apply (fitted_here ts tc train valid s g b0 F)|exact HI].
  - destruct (grown ts tc train valid s g b0 F) as (s' & fs' & HG).
    destruct (inside_grows ts tc _ _ _ _ _ _ _ _ _ _ _ _ HG Ht Hv HI) as (_ & _ & s1 & fs1 & s2 & fs2 & G).
    destruct (grows_nc ts tc _ _ _ _ _ _ _ _ _ G) as (features & pr & _ & _ & Hp & E1). rewrite E1. cbn [nc_pred nctx_spec].
    pose proof (ts_pred_end tk ts (map (fun i => (lab ts tc i, wt tc i)) (bd_train (broot b))) (asum (map (wt tc) (bd_train (broot b))))) as HO.
    unfold pred_spec in Hp. rewrite Hp in HO. exact HO.
Qed.

Lemma alpha_ok : forall step b q, tc_aggregation tc = true -> exists a, node_alpha step (hnode (Wof tc) b q) = Ok a.
Proof.
  intros step b q Ha. unfold node_alpha.
  assert (E1 : nd_logw (hnode (Wof tc) b q) = Some (lw (tc_step tc) b)) by (destruct b; cbn [hnode mknode nd_logw]; unfold Wof; rewrite Ha; auto).
  rewrite E1. cbn [logw_of bind]. eauto.
Qed.

Lemma predict_ok : forall mix, (forall a u v, ts_Pok ts u -> ts_Pok ts v -> exists w, mix a u v = Ok w /\ ts_Pok ts w) ->
  forall fb' i agg step, fba_wf fb' -> i < fb_n_samples fb' -> fb_n_features fb' = fb_n_features (tc_fb tc) ->
  (agg = true -> tc_aggregation tc = true) ->
  exists v, predict_one mix (g_tree g) fb' agg step i = Ok v /\ ts_Pok ts v.
Proof.
  intros mix Hmix fb' i agg step Hwf Hi Hnf Hagg. unfold predict_one.
  rewrite (find_leaf_fitted ts tc train valid s g b0 F fb' i Hwf Hi Hnf). cbn [bind].
  destruct (node_pred_ok _ _ (bleaf_inside (bin_of fb' i) b0 root_place)) as [H1 H2]. rewrite H1. cbn [bind].
  destruct agg; [|eauto]. specialize (Hagg eq_refl).
  rewrite (climb_fitted ts tc train valid s g b0 F fb' i).
  assert (G : forall qs v, (forall q, In q qs -> inside b0 root_place (fst q) (snd q)) -> ts_Pok ts v ->
    exists w, foldM (mix_at (Wof tc) step (fun idx _ => get (tr_y_pred (g_tree g)) idx) mix) qs v = Ok w /\ ts_Pok ts w).
  { induction qs as [|q qs IH]; intros v HI Hvk; [simpl; eauto|]. cbn [foldM].
    destruct (node_pred_ok _ _ (HI q (or_introl eq_refl))) as [K1 K2].
    destruct (alpha_ok step (fst q) (snd q) Hagg) as [a Ea]. destruct (Hmix a _ _ K2 Hvk) as (w & W1 & W2).
    assert (Em : mix_at (Wof tc) step (fun idx _ => get (tr_y_pred (g_tree g)) idx) mix v q = Ok w).
    { unfold mix_at. rewrite K1. cbn [bind]. rewrite Ea. cbn [bind]. exact W1. }
    rewrite Em. cbn [bind]. apply IH; auto. intros; apply HI; simpl; auto. }
  apply G; auto. intros q Hq. apply in_rev in Hq. eapply banc_inside; eauto.
Qed.

End Predict.

(** Classifiers. [agg] is the aggregation flag used at prediction: true only if the tree
    was grown with aggregation (see C46 for the other case). The result has one probability
    per class. *)
Theorem C27_predicting_classifier : forall {A : arith} {E : env A} K dirichlet crit st p fb y train valid weights s tc g,
  good_env E -> valid_fit p fb y train valid weights -> valid_labels K st (tp_is_categorical p) y ->
  tree_fit (clf_task E K dirichlet crit st) p fb y train valid weights s = Ok (tc, g) ->
  forall fb' i agg step, fba_wf fb' -> i < fb_n_samples fb' -> fb_n_features fb' = fb_n_features fb ->
  (agg = true -> tp_aggregation p = true) ->
  exists v, predict_one mix_vec (g_tree g) fb' agg step i = Ok v /\ length v = K.
Proof.
  intros A E K dirichlet crit st p fb y train valid weights s tc g HE V HL Hfit fb' i agg step Hwf Hi Hnf Hagg.
  destruct (clf_labels_ok E K dirichlet crit st (tp_is_categorical p) y HE HL) as [Hy Hc].
  set (ts := clf_shape E K dirichlet crit st) in *.
  destruct (call_context ts p fb y train valid weights V Hy Hc) as (tc' & Hi' & C).
  pose proof (fit_fitted_gen ts p fb y train valid weights HE V Hy Hc True tc' s Hi') as HO.
  rewrite Hfit in HO. cbn [okz fst snd] in HO. destruct HO as [<- [b0 F]].
  { intros l Hl _. eapply okz_weaken; [exact (fun z => z)| |apply (ts_pred_end _ ts)]; auto. }
  { intros l lv s0 features os s' c Hl Hlv Hf Htr Hin _. eapply imp_of_okz; eauto. apply (cc_data _ _ _ _ _ _ C). }
  { auto. }
  assert (Htr : in_range tc train). { intros k HI. unfold nsamp. rewrite (cc_fb _ _ _ _ _ _ C). apply (vf_train _ _ _ _ _ _ V). auto. }
  assert (Hva : in_range tc valid). { intros k HI. unfold nsamp. rewrite (cc_fb _ _ _ _ _ _ C). apply (vf_valid _ _ _ _ _ _ V). auto. }
  rewrite <- (cc_fb _ _ _ _ _ _ C) in Hnf. rewrite <- (cc_agg _ _ _ _ _ _ C) in Hagg.
  apply (predict_ok ts tc train valid s g b0 F Htr Hva mix_vec); auto.
  intros a u v Hu Hvk. unfold mix_vec. simpl in Hu, Hvk.
  destruct (zipM_ok aadd (map (amul a) u) (map (amul (asub a1 a)) v)) as (r & R1 & R2); [rewrite !map_length; congruence|].
  exists r. split; [exact R1|]. simpl. rewrite R2, map_length. exact Hu.
Qed.
Print Assumptions C27_predicting_classifier.

(** Regressors, predictions and weighted depths. *)
Theorem C27_predicting_regressor : forall {A : arith} {E : env A} p fb y train valid weights s tc g,
  good_env E -> valid_fit p fb y train valid weights ->
  tree_fit (reg_task E) p fb y train valid weights s = Ok (tc, g) ->
  forall fb' i agg step, fba_wf fb' -> i < fb_n_samples fb' -> fb_n_features fb' = fb_n_features fb ->
  (agg = true -> tp_aggregation p = true) ->
  (exists v, predict_one mix_num (g_tree g) fb' agg step i = Ok v) /\
  (tp_aggregation p = true -> exists v, weighted_depth_one (g_tree g) fb' step i = Ok v).
Proof.
  intros A E p fb y train valid weights s tc g HE V Hfit fb' i agg step Hwf Hi Hnf Hagg.
  destruct (reg_labels_ok E (tp_is_categorical p) y HE) as [Hy Hc].
  set (ts := reg_shape E) in *.
  destruct (call_context ts p fb y train valid weights V Hy Hc) as (tc' & Hi' & C).
  pose proof (fit_fitted_gen ts p fb y train valid weights HE V Hy Hc True tc' s Hi') as HO.
  rewrite Hfit in HO. cbn [okz fst snd] in HO. destruct HO as [<- [b0 F]].
  { intros l Hl _. eapply okz_weaken; [exact (fun z => z)| |apply (ts_pred_end _ ts)]; auto. }
  { intros l lv s0 features os s' c Hl Hlv Hf Htr Hin _. eapply imp_of_okz; eauto. apply (cc_data _ _ _ _ _ _ C). }
  { auto. }
  assert (Htr : in_range tc train). { intros k HI. unfold nsamp. rewrite (cc_fb _ _ _ _ _ _ C). apply (vf_train _ _ _ _ _ _ V). auto. }
  assert (Hva : in_range tc valid). { intros k HI. unfold nsamp. rewrite (cc_fb _ _ _ _ _ _ C). apply (vf_valid _ _ _ _ _ _ V). auto. }
  rewrite <- (cc_fb _ _ _ _ _ _ C) in Hnf. rewrite <- (cc_agg _ _ _ _ _ _ C) in *.
  split.
  - destruct (predict_ok ts tc train valid s g b0 F Htr Hva mix_num) with (fb' := fb') (i := i) (agg := agg) (step := step)
      as (v & Hv1 & _); eauto. intros a u v _ _. unfold mix_num. eexists. split; [reflexivity|exact I].
  - intros Ha. unfold weighted_depth_one. rewrite (find_leaf_fitted ts tc train valid s g b0 F fb' i Hwf Hi Hnf). cbn [bind].
    destruct (inside_node ts tc train valid s g b0 F _ _ (bleaf_inside (bin_of fb' i) b0 root_place)) as [_ Hn].
    apply get_ok in Hn. rewrite Hn. cbn [bind]. rewrite (climb_fitted ts tc train valid s g b0 F fb' i).
    generalize (@aofnat A (nd_depth (hnode (Wof tc) (fst (bleaf (bin_of fb' i) b0 root_place)) (snd (bleaf (bin_of fb' i) b0 root_place))))).
    generalize (rev (banc (bin_of fb' i) b0 root_place)). intros qs. induction qs as [|q qs IH]; intros v; [simpl; eauto|].
    cbn [foldM]. destruct (alpha_ok tc step (fst q) (snd q) Ha) as [a Ea].
    assert (Em : exists w, mix_at (Wof tc) step (fun _ n => Ok (aofnat (nd_depth n))) mix_num v q = Ok w).
    { unfold mix_at. cbn [bind]. rewrite Ea. cbn [bind]. unfold mix_num. eauto. }
    destruct Em as [w Em]. rewrite Em. cbn [bind]. apply IH.
Qed.
Print Assumptions C27_predicting_regressor.

(** ** The hypotheses are met: trees with both kinds of splits are grown on the examples *)

Lemma ex_call_clf : forall agg mf, 1 <= mf <= 2 -> valid_call ex_clf (ex_params agg mf) ex_fb ex_labels ex_train ex_valid ex_w.
Proof. intros agg mf H. apply VC_classifier; [apply ex_env_good|apply ex_valid_fit; [reflexivity|lia]|apply ex_valid_labels]. Qed.
Lemma ex_call_reg : forall agg mf, 1 <= mf <= 2 -> valid_call ex_reg (ex_params agg mf) ex_fb ex_y ex_train ex_valid ex_w.
Proof. intros agg mf H. apply VC_regressor; [apply ex_env_good|apply ex_valid_fit; [reflexivity|lia]]. Qed.

(** A classifier with seven nodes, the root of which is split on a categorical feature. *)
Example grown_classifier : exists tc g n,
  tree_fit ex_clf (ex_params false 1) ex_fb ex_labels ex_train ex_valid ex_w 0 = Ok (tc, g) /\
  tr_node_count (g_tree g) = 7 /\ node_at (g_tree g) 0 n /\ nd_is_leaf n = false /\ nd_is_cat n = true.
Proof.
  assert (Hk : (let* r := tree_fit ex_clf (ex_params false 1) ex_fb ex_labels ex_train ex_valid ex_w 0 in
    let* n := get (tr_nodes (g_tree (snd r))) 0 in
    Ok (tr_node_count (g_tree (snd r)), nd_is_leaf n, nd_is_cat n)) = Ok (7, false, true)) by (vm_compute; reflexivity).
  destruct (of_run _ _ _ Hk) as ([tc g] & H1 & H2). clear Hk.
  destruct (of_run _ _ _ H2) as (n & H3 & H4). clear H2. cbn [snd] in *. injection H4 as E1 E2 E3.
  exists tc, g, n. split; [exact H1|]. clear H1. apply get_ok in H3.
  split; [exact E1|]. split; [split; [|exact H3]|split; [exact E2|exact E3]].
  eapply Nat.lt_le_trans; [|apply Nat.eq_le_incl; symmetry; exact E1]. lia.
Qed.

(** A regressor with aggregation. *)
Example grown_regressor : exists tc g,
  tree_fit ex_reg (ex_params true 2) ex_fb ex_y ex_train ex_valid ex_w 0 = Ok (tc, g) /\
  3 <= tr_node_count (g_tree g).
Proof.
  assert (Hk : (let* r := tree_fit ex_reg (ex_params true 2) ex_fb ex_y ex_train ex_valid ex_w 0 in
    Ok (3 <=? tr_node_count (g_tree (snd r)))) = Ok true) by (vm_compute; reflexivity).
  destruct (of_run _ _ _ Hk) as ([tc g] & H1 & H2). clear Hk. injection H2 as E1. exists tc, g. split; [exact H1|]. apply Nat.leb_le. exact E1.
Qed.
