(** * From the grown tree to the nodes array *)

Require Import List Arith Lia NArith Permutation Sorted.
Require Import Verif.Base Verif.Num Verif.M_Bitarray Verif.P_Bitarray Verif.M_Utils Verif.M_Impurity
  Verif.M_Context Verif.M_Node Verif.M_Split Verif.M_Tree Verif.M_Grow
  Verif.P_Utils Verif.P_List Verif.P_Stack Verif.P_Task Verif.P_Node
  Verif.P_Bins Verif.P_Scan Verif.P_Split Verif.P_Find Verif.P_Indices Verif.P_Tree Verif.P_Grow
  Verif.P_Repr Verif.P_Route Verif.S_Fit Verif.P_Fit Verif.P_FitTree Verif.S_Tree.
Import ListNotations.
Local Open Scope res_scope.

(** ** Calls *)

Lemma valid_call_shape : forall {A : arith} {E : env A} (tk : task A E) p fb y train valid weights,
  valid_call tk p fb y train valid weights ->
  exists ts : task_shape tk, good_env E /\ valid_fit p fb y train valid weights /\
    (forall k, In k y -> ts_Yok ts k) /\ (In true (tp_is_categorical p) -> ts_cat ts).
Proof.
  intros A E tk p fb y train valid weights H. destruct H as [K d crit st p fb y train valid weights HE V HL|p fb y train valid weights HE V].
  - exists (clf_shape E K d crit st). split; auto. split; auto. apply clf_labels_ok; auto.
  - exists (reg_shape E). split; auto. split; auto. apply reg_labels_ok; auto.
Qed.

(** What a context made by a valid call says. *)
Record call_ctx {A : arith} {E : env A} {tk : task A E} (ts : task_shape tk) (p : @tree_params A) (fb : fba)
  (y : list (tk_Y tk)) (weights : list (num A)) (tc : tctx A (tk_Y tk)) : Prop := mkCC {
  cc_data : data_ok ts tc;
  cc_fb : tc_fb tc = fb;
  cc_y : tc_y tc = y;
  cc_w : tc_weights tc = weights;
  cc_mf : tc_max_features tc = tp_max_features p;
  cc_mss : tc_min_samples_split tc = tp_min_samples_split p;
  cc_msl : tc_min_samples_leaf tc = tp_min_samples_leaf p;
  cc_depth : tc_max_depth tc = tp_max_depth p;
  cc_agg : tc_aggregation tc = tp_aggregation p;
  cc_step : tc_step tc = tp_step p;
  cc_cat : tc_is_categorical tc = tp_is_categorical p
}.

Section Call.
Context {A : arith} {E : env A} {tk : task A E} (ts : task_shape tk).
Context (p : @tree_params A) (fb : fba) (y : list (tk_Y tk)) (train valid : list nat) (weights : list (num A)).
Context (HE : good_env E) (V : valid_fit p fb y train valid weights)
  (Hy : forall k, In k y -> ts_Yok ts k) (Hc : In true (tp_is_categorical p) -> ts_cat ts).

Lemma call_context : exists tc, init_tree_context tk p fb y weights = Ok tc /\ call_ctx ts p fb y weights tc.
Proof.
  destruct (init_tree_context_ok (tk := tk) p fb y train valid weights V) as (mb & _ & Hi).
  eexists. split; [exact Hi|].
  destruct (valid_data_ok ts p fb y train valid weights _ V Hy Hc Hi) as (H1 & H2 & H3 & H4 & H5 & H6 & H7 & H8 & H9 & H10 & H11).
  constructor; auto.
Qed.

Context (Z : Prop).

Lemma fit_fitted_gen : forall tc s, init_tree_context tk p fb y weights = Ok tc ->
  (forall l, in_range tc l -> l <> [] \/ Z ->
     okz Z (fun _ => True) (tk_pred_end tk (pred_spec ts tc l) (asum (map (wt tc) l)))) ->
  (forall l lv s features os s' c, in_range tc l -> in_range tc lv -> (forall j, In j features -> j < fb_n_features (tc_fb tc)) ->
     tried ts tc l s features = Ok (os, s') -> In c (candidates os) -> adm_of tc l lv c = true ->
     okz Z (fun _ => True) (imp_of ts tc l c)) ->
  train <> [] \/ Z ->
  okz Z (fun r => fst r = tc /\ exists b, fitted ts tc train valid s (snd r) b)
    (tree_fit tk p fb y train valid weights s).
Proof.
  intros tc s Hi Hpred Himp HZ.
  destruct (call_context) as (tc' & Hi' & C). rewrite Hi in Hi'. inversion Hi'; subst tc'.
  unfold tree_fit. rewrite Hi. cbn [bind].
  assert (Htr : in_range tc train). { intros i HI. unfold nsamp. rewrite (cc_fb _ _ _ _ _ _ C). apply (vf_train _ _ _ _ _ _ V). auto. }
  assert (Hva : in_range tc valid). { intros i HI. unfold nsamp. rewrite (cc_fb _ _ _ _ _ _ C). apply (vf_valid _ _ _ _ _ _ V). auto. }
  assert (HL1 : length train <= fb_n_samples (tc_fb tc)) by (rewrite (cc_fb _ _ _ _ _ _ C); apply (vf_train_len _ _ _ _ _ _ V)).
  assert (HL2 : length valid <= fb_n_samples (tc_fb tc)) by (rewrite (cc_fb _ _ _ _ _ _ C); apply (vf_valid_len _ _ _ _ _ _ V)).
  assert (HMF : 1 <= tc_max_features tc <= fb_n_features (tc_fb tc)).
  { rewrite (cc_fb _ _ _ _ _ _ C), (cc_mf _ _ _ _ _ _ C). apply (vf_mf _ _ _ _ _ _ V). }
  assert (HMS : 2 <= tc_min_samples_split tc) by (rewrite (cc_mss _ _ _ _ _ _ C); apply (vf_mss _ _ _ _ _ _ V)).
  pose proof (grow_ok ts tc (cc_data _ _ _ _ _ _ C) Z (ge_draw E HE) HMF HMS Hpred Himp train valid s Htr Hva HZ HL1 HL2) as HG.
  rewrite (cc_fb _ _ _ _ _ _ C), (cc_mf _ _ _ _ _ _ C) in HG.
  destruct (grow tk tc empty_tree _ s _) as [g|e]; cbn [bind okz fst snd] in *; auto.
Qed.

End Call.

(** Any arithmetic: growing succeeds or divides by zero. *)
Lemma fit_fitted : forall {A : arith} {E : env A} (tk : task A E) p fb y train valid weights s,
  valid_call tk p fb y train valid weights ->
  exists (ts : task_shape tk) tc, call_ctx ts p fb y weights tc /\ valid_fit p fb y train valid weights /\
  okz True (fun r => fst r = tc /\ exists b, fitted ts tc train valid s (snd r) b)
    (tree_fit tk p fb y train valid weights s).
Proof.
  intros A E tk p fb y train valid weights s H.
  destruct (valid_call_shape tk p fb y train valid weights H) as (ts & HE & V & Hy & Hc).
  destruct (call_context ts p fb y train valid weights V Hy Hc) as (tc & Hi & C).
  exists ts, tc. split; auto. split; auto.
  apply (fit_fitted_gen ts p fb y train valid weights HE V Hy Hc True tc s Hi); auto.
  - intros l Hl _. eapply okz_weaken; [exact (fun z => z)| |apply (ts_pred_end tk ts)]; auto.
  - intros l lv s0 features os s' c Hl Hlv Hf Ht Hin _. eapply imp_of_okz; eauto. apply (cc_data _ _ _ _ _ _ C).
Qed.

Lemma fit_inv : forall {A : arith} {E : env A} (tk : task A E) p fb y train valid weights s tc g,
  valid_call tk p fb y train valid weights -> tree_fit tk p fb y train valid weights s = Ok (tc, g) ->
  exists (ts : task_shape tk) b, call_ctx ts p fb y weights tc /\ valid_fit p fb y train valid weights /\
    in_range tc train /\ in_range tc valid /\ fitted ts tc train valid s g b.
Proof.
  intros A E tk p fb y train valid weights s tc g H Hfit.
  destruct (fit_fitted tk p fb y train valid weights s H) as (ts & tc' & C & V & HO). rewrite Hfit in HO.
  cbn [okz fst snd] in HO. destruct HO as [<- [b F]]. exists ts, b. split; auto. split; auto.
  split; [|split; auto]; intros i HI; unfold nsamp; rewrite (cc_fb _ _ _ _ _ _ C); [apply (vf_train _ _ _ _ _ _ V)|apply (vf_valid _ _ _ _ _ _ V)]; auto.
Qed.

(** ** Nodes *)
Section Nodes.
Context {A : arith} {E : env A} {tk : task A E} (ts : task_shape tk).
Context (tc : tctx A (tk_Y tk)) (HD : data_ok ts tc).
Context (train valid : list nat) (s : rng E) (g : gstate tk) (b0 : btree tk).
Context (F : fitted ts tc train valid s g b0).
Context (Ht : in_range tc train) (Hv : in_range tc valid).
Notation t := (g_tree g).
Notation W := (Wof tc).

Lemma fitted_count : tr_node_count t = bsize b0.
Proof. destruct (ft_tree _ _ _ _ _ _ _ F) as (k & yq & bq & _ & H & _). rewrite H. apply layp_length. Qed.

Lemma fitted_here : here W (tr_nodes t) (tr_y_pred t) (tr_bp t) b0 root_place.
Proof.
  destruct (ft_tree _ _ _ _ _ _ _ F) as (k & yq & bq & _ & _ & _ & H1 & H2 & _ & H3 & _).
  constructor; rewrite ?H1, ?H2, ?H3; apply holds_all.
Qed.

Lemma node_inside : forall id n, node_at t id n -> exists b p, inside b0 root_place b p /\ n = hnode W b p /\ pl_id p = id.
Proof.
  intros id n [H1 H2]. rewrite fitted_count in H1.
  destruct (ft_tree _ _ _ _ _ _ _ F) as (k & yq & bq & _ & _ & _ & H3 & _). rewrite H3 in H2.
  rewrite nth_error_app1 in H2 by (rewrite layp_length; auto).
  destruct (layp_inside _ _ _ _ _ H2) as (b & p & I1 & I2 & I3). exists b, p. auto.
Qed.

Lemma inside_node : forall b p, inside b0 root_place b p -> node_at t (pl_id p) (hnode W b p).
Proof.
  intros b p HI. split.
  - rewrite fitted_count. pose proof (inside_range _ _ _ _ HI) as H. pose proof (bsize_pos b). cbn [root_place pl_id] in H. lia.
  - pose proof (here_inside _ _ _ _ _ _ _ _ fitted_here HI) as HH. apply here_node in HH. apply get_ok in HH. exact HH.
Qed.

Lemma inside_inj : forall b p b' p', inside b0 root_place b p -> inside b0 root_place b' p' -> pl_id p = pl_id p' -> b = b' /\ p = p'.
Proof.
  assert (G : forall (b0 : btree tk) p0 b p b' p', inside b0 p0 b p -> inside b0 p0 b' p' -> pl_id p = pl_id p' -> b = b' /\ p = p').
  { induction b1 as [d|d l IHl r IHr]; intros p0 b p b' p' H H' Hid; apply inside_cons in H, H'.
    - destruct H as [[-> ->]|(? & ? & ? & ? & _)]; [|discriminate]. destruct H' as [[-> ->]|(? & ? & ? & ? & _)]; [auto|discriminate].
    - pose proof (bsize_pos b). pose proof (bsize_pos b').
      destruct H as [[-> ->]|(d1 & l1 & r1 & E1 & H)]; destruct H' as [[-> ->]|(d2 & l2 & r2 & E2 & H')]; auto.
      + inversion E2; subst. exfalso. destruct H' as [H'|H']; apply inside_range in H'; cbn [rplace lplace pl_id] in H'; lia.
      + inversion E1; subst. exfalso. destruct H as [H|H]; apply inside_range in H; cbn [rplace lplace pl_id] in H; lia.
      + inversion E1; inversion E2; subst. 
        destruct H as [H|H]; destruct H' as [H'|H'].
        * eapply IHr; eauto.
        * exfalso. apply inside_range in H, H'. cbn [rplace lplace pl_id] in H, H'. lia.
        * exfalso. apply inside_range in H, H'. cbn [rplace lplace pl_id] in H, H'. lia.
        * eapply IHl; eauto. }
  intros. eapply G; eauto.
Qed.

Lemma inside_parent : forall b p, inside b0 root_place b p -> (b = b0 /\ p = root_place) \/
  exists d l r q, inside b0 root_place (BNode d l r) q /\
    ((b = r /\ p = rplace q d l r) \/ (b = l /\ p = lplace q d l r)).
Proof. intros b p H. destruct H; [left; auto|right|right]; eauto 10. Qed.

Lemma grown : exists s' fs', grows ts tc 0 None train valid s (init_fsamp (fb_n_features (tc_fb tc)) (tc_max_features tc)) b0 s' fs'.
Proof. apply (ft_grows _ _ _ _ _ _ _ F). Qed.

Lemma inside_children : forall d l r p, inside b0 root_place (BNode d l r) p -> children ts tc d l r.
Proof.
  intros d l r p HI. destruct grown as (s' & fs' & HG).
  destruct (inside_grows ts tc _ _ _ _ _ _ _ _ _ _ _ _ HG Ht Hv HI) as (_ & _ & s1 & fs1 & s2 & fs2 & G).
  eapply grows_children; eauto.
Qed.

Lemma inside_root_data : bd_depth (broot b0) = 0 /\ bd_imp (broot b0) = None /\ bd_train (broot b0) = train /\ bd_valid (broot b0) = valid.
Proof. destruct grown as (s' & fs' & HG). apply (grows_root ts tc _ _ _ _ _ _ _ _ _ HG). Qed.

Lemma hnode_leaf : forall b p, nd_is_leaf (hnode W b p) = match b with BLeaf _ => true | BNode _ _ _ => false end.
Proof. intros [d|d l r] p; reflexivity. Qed.
Lemma hnode_depth : forall b p, nd_depth (hnode W b p) = bd_depth (broot b).
Proof. intros [d|d l r] p; reflexivity. Qed.
Lemma hnode_id : forall b p, nd_id (hnode W b p) = pl_id p.
Proof. intros [d|d l r] p; reflexivity. Qed.
Lemma hnode_parent : forall b p, nd_parent (hnode W b p) = pl_par p.
Proof. intros [d|d l r] p; reflexivity. Qed.
Lemma hnode_imp : forall b p, nd_impurity (hnode W b p) = bd_imp (broot b).
Proof. intros [d|d l r] p; reflexivity. Qed.

Lemma hnode_counts : forall b p, inside b0 root_place b p ->
  nd_n_train (hnode W b p) = length (bd_train (broot b)) /\ nd_n_valid (hnode W b p) = length (bd_valid (broot b)) /\
  nd_w_train (hnode W b p) = asum (map (wt tc) (bd_train (broot b))).
Proof.
  intros b p HI. destruct grown as (s' & fs' & HG).
  destruct (inside_grows ts tc _ _ _ _ _ _ _ _ _ _ _ _ HG Ht Hv HI) as (_ & _ & s1 & fs1 & s2 & fs2 & G).
  destruct (grows_nc ts tc _ _ _ _ _ _ _ _ _ G) as (features & pr & _ & _ & _ & E1).
  assert (E2 : nd_n_train (hnode W b p) = nc_n_train (bd_nc (broot b))) by (destruct b; reflexivity).
  assert (E3 : nd_n_valid (hnode W b p) = nc_n_valid (bd_nc (broot b))) by (destruct b; reflexivity).
  assert (E4 : nd_w_train (hnode W b p) = nc_w_train (bd_nc (broot b))) by (destruct b; reflexivity).
  rewrite E2, E3, E4, E1. auto.
Qed.

Lemma leaves_layp : forall b p, 2 * length (filter nd_is_leaf (layp W b p)) = bsize b + 1.
Proof.
  induction b as [d|d l IHl r IHr]; intros p; [reflexivity|].
  rewrite layp_node. cbn [filter hnode mknode nd_is_leaf]. rewrite filter_app, app_length. cbn [bsize].
  specialize (IHl (lplace p d l r)). specialize (IHr (rplace p d l r)). lia.
Qed.

Theorem fitted_well_formed : well_formed t.
Proof.
  constructor.
  - intros id Hid. rewrite fitted_count in Hid.
    destruct (nth_error (layp W b0 root_place) id) as [n|] eqn:En.
    2:{ apply nth_error_None in En. rewrite layp_length in En. lia. }
    destruct (layp_inside _ _ _ _ _ En) as (b & p & I1 & I2 & I3). cbn [root_place pl_id] in I3. simpl in I3.
    exists n. subst n. rewrite <- I3. split; [apply inside_node; auto|apply hnode_id].
  - exists (hnode W b0 root_place). split; [apply (inside_node b0 root_place); constructor|].
    rewrite hnode_parent, hnode_depth. split; auto. apply inside_root_data.
  - intros id n Hn Hid. destruct (node_inside id n Hn) as (b & p & HI & -> & <-).
    destruct (inside_parent b p HI) as [[-> ->]|(d & l & r & q & HQ & [[-> ->]|[-> ->]])]; [cbn in Hid; lia| |];
      exists (pl_id q), (hnode W (BNode d l r) q); rewrite hnode_parent, !hnode_depth;
      pose proof (inside_children d l r q HQ) as CH; cbn [broot rplace lplace pl_par pl_id];
      rewrite ?(cd_depth_r _ _ _ _ _ CH), ?(cd_depth_l _ _ _ _ _ CH).
    + split; auto. split; [apply inside_node; auto|]. split; [split; [reflexivity|right; reflexivity]|]. split; [lia|auto].
    + split; auto. split; [apply inside_node; auto|]. split; [split; [reflexivity|left; reflexivity]|]. split; [lia|auto].
  - intros q pn q' pn' c H1 [C1 C2] H2 [C3 C4].
    assert (G : forall q pn c, node_at t q pn -> nd_is_leaf pn = false -> nd_left pn = Some c \/ nd_right pn = Some c ->
       exists b p, inside b0 root_place b p /\ pl_id p = c /\ pl_par p = Some q).
    { clear q pn q' pn' c H1 C1 C2 H2 C3 C4. intros q pn c HN HL HC. destruct (node_inside q pn HN) as (b & p & HI & -> & <-).
      destruct b as [d|d l r]; [discriminate|]. destruct HC as [HC|HC]; inversion HC; subst.
      - exists l, (lplace p d l r). split; [apply In_left; auto|]. auto.
      - exists r, (rplace p d l r). split; [apply In_right; auto|]. auto. }
    destruct (G q pn c H1 C1 C2) as (b & p & I1 & I2 & I3). destruct (G q' pn' c H2 C3 C4) as (b' & p' & I1' & I2' & I3').
    destruct (inside_inj b p b' p' I1 I1') as [_ ->]; [congruence|]. congruence.
  - intros id n Hn HL. destruct (node_inside id n Hn) as (b & p & HI & -> & <-).
    destruct b as [d|d l r]; [discriminate|].
    exists (pl_id (lplace p d l r)), (pl_id (rplace p d l r)), (hnode W l (lplace p d l r)), (hnode W r (rplace p d l r)).
    pose proof (bsize_pos r). rewrite !hnode_parent.
    split; [reflexivity|]. split; [reflexivity|]. cbn [lplace rplace pl_id pl_par].
    split; [lia|]. split; [lia|]. split; [lia|].
    split; [apply (inside_node l (lplace p d l r)); apply In_left; auto|].
    split; [apply (inside_node r (rplace p d l r)); apply In_right; auto|]. auto.
  - intros id n Hn HL. destruct (node_inside id n Hn) as (b & p & HI & -> & <-). destruct b; [auto|discriminate].
  - unfold leaf_count. rewrite fitted_count. destruct (ft_tree _ _ _ _ _ _ _ F) as (k & yq & bq & _ & _ & _ & H3 & _).
    rewrite H3. rewrite firstn_app, layp_length, Nat.sub_diag. cbn [firstn]. rewrite app_nil_r.
    rewrite firstn_all2 by (rewrite layp_length; auto). rewrite leaves_layp. reflexivity.
Qed.

(** ** Routes *)

Lemma fitted_testable : inner (testable (fb_n_features (tc_fb tc))) b0.
Proof. destruct grown as (s' & fs' & HG). eapply grows_testable; eauto. Qed.

Lemma inner_inside : forall P b p, inner P b0 -> inside b0 root_place b p -> inner P b.
Proof. intros P b p H HI. induction HI as [|d l r p HI IH|d l r p HI IH]; auto; simpl in IH; tauto. Qed.

Lemma route_bpath : forall row b p, inside b0 root_place b p ->
  route t row (pl_id p) (map (fun q => pl_id (snd q)) (bpath row b p)).
Proof.
  intros row b. induction b as [d|d l IHl r IHr]; intros p HI; cbn [bpath map snd].
  - eapply route_leaf; [apply inside_node; eauto|reflexivity].
  - eapply (route_down t row (pl_id p) (hnode W (BNode d l r) p) (sp_feature (bd_sp d))
       (to_left (bd_sp d) (row (sp_feature (bd_sp d))))
       (if to_left (bd_sp d) (row (sp_feature (bd_sp d))) then pl_id (lplace p d l r) else pl_id (rplace p d l r))).
    + apply inside_node; auto.
    + reflexivity.
    + reflexivity.
    + unfold left_at, to_left. change (nd_is_cat (hnode W (BNode d l r) p)) with (sp_is_cat (bd_sp d)).
      pose proof (inner_inside _ _ _ fitted_testable HI) as [[_ Hc] _].
      destruct (sp_is_cat (bd_sp d)) eqn:Ec.
      * destruct (Hc eq_refl) as [Hne _]. exists (sp_partition (bd_sp d)). split.
        { apply own_slice; auto. eapply here_inside; [apply fitted_here|auto]. }
        apply mem_bin_in.
      * exists (sp_threshold (bd_sp d)). split; auto. apply Nat.leb_le.
    + destruct (to_left _ _); reflexivity.
    + destruct (to_left _ _); [apply (IHl (lplace p d l r))|apply (IHr (rplace p d l r))]; [apply In_left|apply In_right]; auto.
Qed.

Lemma route_det : forall (T : tree A (tk_P tk)) row id path path', route T row id path -> route T row id path' -> path = path'.
Proof.
  intros T row id path path' H. revert path'. induction H as [id n [H1 H2] H3|id n f left c path [H1 H2] H3 H4 H5 H6 H7 IH];
    intros path' H'; inversion H' as [id' n' [N1 N2] N3|id' n' f' left' c' path2 [N1 N2] N3 N4 N5 N6 N7]; subst; auto; try congruence.
  assert (n' = n) by congruence. subst n'. assert (f' = f) by congruence. subst f'.
  assert (left' = left).
  { unfold left_at in *. destruct (nd_is_cat n).
    - destruct H5 as (s1 & A1 & A2). destruct N5 as (s2 & B1 & B2). assert (s2 = s1) by congruence. subst s2.
      destruct left, left'; auto; [destruct A2 as [A2 _]; specialize (A2 eq_refl); apply B2 in A2; congruence
         |destruct B2 as [B2 _]; specialize (B2 eq_refl); apply A2 in B2; congruence].
    - destruct H5 as (s1 & A1 & A2). destruct N5 as (s2 & B1 & B2). assert (s2 = s1) by congruence. subst s2.
      destruct left, left'; auto; [destruct A2 as [A2 _]; specialize (A2 eq_refl); apply B2 in A2; congruence
         |destruct B2 as [B2 _]; specialize (B2 eq_refl); apply A2 in B2; congruence]. }
  subst left'. assert (c' = c) by (destruct left; congruence). subst c'. f_equal. auto.
Qed.

Section Row.
Context (fb : fba) (i : nat) (Hp : fba_wf fb) (Hi : i < fb_n_samples fb) (Hnf : fb_n_features fb = fb_n_features (tc_fb tc)).
Notation row := (bin_of fb i).

Lemma row_ok : forall j, j < fb_n_features (tc_fb tc) -> exists v, get_value fb i j = Ok v /\ N.to_nat v = row j.
Proof.
  intros j Hj. destruct (get_value_wf fb i j Hp Hi) as [v Hv1]; [lia|]. exists v. split; auto. unfold bin_of. rewrite Hv1. auto.
Qed.

Lemma find_leaf_fitted : find_leaf t fb i = Ok (pl_id (snd (bleaf row b0 root_place))).
Proof.
  unfold find_leaf. rewrite fitted_count.
  apply (find_leaf_ok W t fb i row (fb_n_features (tc_fb tc)) row_ok b0 root_place).
  - apply fitted_here.
  - apply fitted_testable.
  - pose proof (banc_length row b0 root_place). lia.
Qed.

Lemma climb_fitted : forall V step (val : nat -> node A -> res V) mix v,
  climb (S (tr_node_count t)) t step val mix (pl_id (snd (bleaf row b0 root_place))) v =
  foldM (mix_at W step val mix) (rev (banc row b0 root_place)) v.
Proof.
  intros V step val mix v. apply (climb_root W t row); [apply fitted_here|reflexivity|rewrite fitted_count; auto].
Qed.

Lemma mix_up_fitted : forall V step (val : nat -> node A -> res V) mix qs v,
  (forall q, In q qs -> inside b0 root_place (fst q) (snd q)) ->
  mix_up t step val mix (map (fun q => pl_id (snd q)) qs) v = foldM (mix_at W step val mix) qs v.
Proof.
  intros V step val mix qs. unfold mix_up. induction qs as [|q qs IH]; intros v HI; [reflexivity|]. cbn [map foldM].
  destruct (inside_node _ _ (HI q (or_introl eq_refl))) as [_ HN].
  apply get_ok in HN. rewrite HN. cbn [bind].
  assert (E1 : mix_at W step val mix v q =
    let* u := val (pl_id (snd q)) (hnode W (fst q) (snd q)) in
    let* alpha := node_alpha step (hnode W (fst q) (snd q)) in mix alpha u v) by reflexivity.
  rewrite E1. destruct (val _ _); [|reflexivity]. cbn [bind]. destruct (node_alpha _ _); [|reflexivity]. cbn [bind].
  destruct (mix _ _ _); [|reflexivity]. cbn [bind]. apply IH. intros; apply HI; simpl; auto.
Qed.

Theorem walk_fitted : exists path leaf n, route t row 0 path /\ last path 0 = leaf /\ find_leaf t fb i = Ok leaf /\
  node_at t leaf n /\ nd_is_leaf n = true /\
  forall V step (val : nat -> node A -> res V) mix v,
    climb (S (tr_node_count t)) t step val mix leaf v = mix_up t step val mix (rev (removelast path)) v.
Proof.
  set (q := bleaf row b0 root_place).
  exists (map (fun q => pl_id (snd q)) (bpath row b0 root_place)), (pl_id (snd q)), (hnode W (fst q) (snd q)).
  split; [apply (route_bpath row b0 root_place); constructor|].
  rewrite bpath_split, map_app. cbn [map]. fold q. split; [apply last_last|].
  split; [apply find_leaf_fitted|]. split; [apply inside_node; apply bleaf_inside|].
  split; [rewrite hnode_leaf; destruct (bleaf_is_leaf row b0 root_place) as [d E1]; unfold q; rewrite E1; reflexivity|].
  intros V step val mix v. rewrite removelast_last, <- map_rev.
  rewrite mix_up_fitted; [apply climb_fitted|]. intros x Hx. apply in_rev in Hx. eapply banc_inside; eauto.
Qed.

End Row.

(** ** Samples *)

Lemma fitted_layout : fba_wf (tc_fb tc).
Proof. apply (do_wf _ _ HD). Qed.

Lemma visits_leaf : forall i d p, inside b0 root_place (BLeaf d) p -> i < fb_n_samples (tc_fb tc) ->
  visits tc b0 root_place i (pl_id p) = match find_leaf t (tc_fb tc) i with Ok leaf => leaf =? pl_id p | Err _ => false end.
Proof.
  intros i d p HI Hi. rewrite (find_leaf_fitted (tc_fb tc) i fitted_layout Hi eq_refl).
  assert (Er : forall j, bin tc j i = bin_of (tc_fb tc) i j) by reflexivity.
  unfold visits. change (fun j => bin tc j i) with (bin_of (tc_fb tc) i). rewrite bpath_split, existsb_app.
  cbn [existsb]. rewrite Bool.orb_false_r.
  assert (Hn : existsb (fun q => pl_id (snd q) =? pl_id p) (banc (bin_of (tc_fb tc) i) b0 root_place) = false); [|rewrite Hn; auto].
  apply Bool.not_true_is_false. intros H. apply existsb_exists in H. destruct H as (q & Hq & E1). apply Nat.eqb_eq in E1.
  pose proof (banc_inside _ _ _ _ Hq) as HQ. destruct (inside_inj _ _ _ _ HI HQ (eq_sym E1)) as [Eb _].
  assert (G : forall f (b : btree tk) p q, In q (banc f b p) -> exists d l r, fst q = BNode d l r).
  { clear. intros f b. induction b as [d|d l IHl r IHr]; intros p q; simpl; [tauto|]. intros [<-|H]; [simpl; eauto|].
    destruct (to_left _ _); eauto. }
  destruct (G _ _ _ _ Hq) as (d' & l' & r' & E2). congruence.
Qed.

Theorem leaf_samples : forall id n, node_at t id n -> nd_is_leaf n = true ->
  slice (p_train (g_parts g)) (nd_start_train n) (nd_end_train n) = Ok (reaching t (tc_fb tc) id train) /\
  slice (p_valid (g_parts g)) (nd_start_valid n) (nd_end_valid n) = Ok (reaching t (tc_fb tc) id valid) /\
  nd_n_train n = length (reaching t (tc_fb tc) id train) /\ nd_n_valid n = length (reaching t (tc_fb tc) id valid) /\
  nd_w_train n = asum (map (wt tc) (reaching t (tc_fb tc) id train)).
Proof.
  intros id n Hn HL. destruct (node_inside id n Hn) as (b & p & HI & -> & <-). destruct b as [d|d l r]; [|discriminate].
  destruct grown as (s' & fs' & HG).
  destruct (node_samples ts tc _ _ _ _ _ _ _ _ _ _ _ _ HG HI) as [N1 N2].
  assert (E1 : reaching t (tc_fb tc) (pl_id p) train = bd_train d).
  { cbn [broot] in N1. rewrite N1. apply filter_ext_in. intros i Hin. symmetry. eapply visits_leaf; eauto. }
  assert (E2 : reaching t (tc_fb tc) (pl_id p) valid = bd_valid d).
  { cbn [broot] in N2. rewrite N2. apply filter_ext_in. intros i Hin. symmetry. eapply visits_leaf; eauto. }
  destruct (hnode_counts _ _ HI) as (C1 & C2 & C3). cbn [broot] in *. rewrite C1, C2, C3, E1, E2.
  destruct (inside_flat ts tc _ _ _ _ _ _ _ _ _ _ _ _ (p_train (g_parts g)) (p_valid (g_parts g)) HG HI) as [H1 H2].
  { rewrite (ft_train _ _ _ _ _ _ _ F). exists [], []. rewrite app_nil_r. auto. }
  { rewrite (ft_valid _ _ _ _ _ _ _ F). exists [], []. rewrite app_nil_r. auto. }
  cbn [flat] in *. apply holds_slice in H1, H2. split; [exact H1|]. split; [exact H2|]. auto.
Qed.

Theorem node_samples_slices : forall id n, node_at t id n -> exists lt lv,
  slice (p_train (g_parts g)) (nd_start_train n) (nd_end_train n) = Ok lt /\
  slice (p_valid (g_parts g)) (nd_start_valid n) (nd_end_valid n) = Ok lv /\
  nd_n_train n = length lt /\ nd_n_valid n = length lv /\
  exists b p, inside b0 root_place b p /\ n = hnode W b p /\ pl_id p = id /\
   Permutation lt (bd_train (broot b)) /\ Permutation lv (bd_valid (broot b)).
Proof.
  intros id n Hn. destruct (node_inside id n Hn) as (b & p & HI & -> & <-).
  destruct grown as (s' & fs' & HG).
  destruct (inside_flat ts tc _ _ _ _ _ _ _ _ _ _ _ _ (p_train (g_parts g)) (p_valid (g_parts g)) HG HI) as [H1 H2].
  { rewrite (ft_train _ _ _ _ _ _ _ F). exists [], []. rewrite app_nil_r. auto. }
  { rewrite (ft_valid _ _ _ _ _ _ _ F). exists [], []. rewrite app_nil_r. auto. }
  destruct (inside_grows ts tc _ _ _ _ _ _ _ _ _ _ _ _ HG Ht Hv HI) as (_ & _ & s1 & fs1 & s2 & fs2 & G).
  destruct (flat_perm ts tc _ _ _ _ _ _ _ _ _ G) as [P1 P2].
  exists (flat bd_train b), (flat bd_valid b).
  apply holds_slice in H1, H2. rewrite (Permutation_length P1) in H1. rewrite (Permutation_length P2) in H2.
  destruct (hnode_counts _ _ HI) as (C1 & C2 & C3).
  split; [destruct b; exact H1|]. split; [destruct b; exact H2|].
  rewrite C1, C2, (Permutation_length P1), (Permutation_length P2). split; auto. split; auto. exists b, p. auto 10.
Qed.

End Nodes.
