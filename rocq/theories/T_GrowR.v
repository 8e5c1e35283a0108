(** * C48, C18 and C26 for whole trees, in exact arithmetic *)

Require Import List Arith Lia NArith Reals Lra Permutation Sorted SpecFloat ZArith QArith.
Require Import Verif.Base Verif.Num Verif.M_Bitarray Verif.P_Bitarray Verif.M_Utils Verif.M_Impurity
  Verif.M_Context Verif.M_Node Verif.M_Split Verif.M_Tree Verif.M_Grow
  Verif.P_Utils Verif.P_List Verif.P_Stack Verif.P_Task Verif.P_Node
  Verif.P_Bins Verif.P_Scan Verif.P_Split Verif.P_Find Verif.P_Indices Verif.P_Tree Verif.P_Grow
  Verif.P_Repr Verif.P_Route Verif.S_Impurity Verif.P_Impurity Verif.S_Fit Verif.P_Fit Verif.P_FitTree Verif.S_Node Verif.S_Split
  Verif.P_SplitR Verif.P_SplitTasks Verif.P_Cuts Verif.S_Tree Verif.P_Nodes
  Verif.Ex_Data Verif.Ex_Valid Verif.Ex_R Verif.T_Split Verif.T_Grow.
Import ListNotations.
Local Open Scope nat_scope.
Local Open Scope list_scope.
Local Open Scope res_scope.

(** ** C48: with positive weights nothing fails *)

Lemma wt_positive : forall {E} {tk : task R_arith E} (tc : tctx R_arith (tk_Y tk)), positive_weights (tc_weights tc) ->
  length (tc_weights tc) = fb_n_samples (tc_fb tc) -> forall l, in_range tc l -> forall i, In i l -> (0 < wt tc i)%R.
Proof. intros E tk tc HW Hl l Hr i Hi. unfold wt. apply HW. apply nth_In. rewrite Hl. apply Hr. auto. Qed.

Lemma clf_pred_end_R : forall (E : env R_arith) K (d : R) crit st (tc : tctx R_arith (tk_Y (clf_task E K d crit st))), (0 <= d)%R ->
  forall l, l <> [] -> (forall i, In i l -> (0 < wt tc i)%R) ->
  tk_pred_end (clf_task E K d crit st) (pred_spec (clf_shape E K d crit st) tc l) (asum (map (wt tc) l)) =
  Ok (map (fun x => ((x + d) / (Rsum (map (wt tc) l) + INR K * d))%R) (pred_spec (clf_shape E K d crit st) tc l)).
Proof.
  intros E K d crit st tc Hd l Hne Hw. rewrite clf_pred_end.
  2:{ unfold pred_spec. cbn [ts_pred clf_shape]. unfold clf_pred. rewrite map_length, seq_length. auto. }
  assert (Hpos : (0 < Rsum (map (wt tc) l))%R) by (apply Rsum_pos; auto).
  rewrite asum_R.
  assert (Hz : aisz (aadd (Rsum (map (wt tc) l)) (amul (aofnat K) d) : num R_arith) = false).
  { apply aisz_R_false. assert (0 <= INR K * d)%R by (apply Rmult_le_pos; [apply pos_INR|auto]).
    change (Rsum (map (wt tc) l) + INR K * d <> 0)%R. lra. }
  rewrite Hz, Bool.andb_false_r. reflexivity.
Qed.

Lemma reg_pred_end_R : forall (E : env R_arith) (tc : tctx R_arith (tk_Y (reg_task E))),
  forall l, l <> [] -> (forall i, In i l -> (0 < wt tc i)%R) ->
  tk_pred_end (reg_task E) (pred_spec (reg_shape E) tc l) (asum (map (wt tc) l)) =
  Ok (pred_spec (reg_shape E) tc l / Rsum (map (wt tc) l))%R.
Proof.
  intros E tc l Hne Hw. cbn [tk_pred_end reg_task]. unfold divM.
  assert (Hpos : (0 < Rsum (map (wt tc) l))%R) by (apply Rsum_pos; auto).
  rewrite asum_R.
  assert (Hz : aisz (Rsum (map (wt tc) l) : num R_arith) = false) by (apply aisz_R_false; lra).
  rewrite Hz. reflexivity.
Qed.

Theorem C48_classifier : forall (E : env R_arith) K dirichlet crit st p fb y train valid weights s,
  good_env E -> valid_fit p fb y train valid weights -> valid_labels K st (tp_is_categorical p) y ->
  positive_weights weights -> (0 <= dirichlet)%R -> train <> [] ->
  exists tc g, tree_fit (clf_task E K dirichlet crit st) p fb y train valid weights s = Ok (tc, g).
Proof.
  intros E K d crit st p fb y train valid weights s HE V HL HW Hd Hne.
  destruct (clf_labels_ok E K d crit st (tp_is_categorical p) y HE HL) as [Hy Hc].
  set (ts := clf_shape E K d crit st) in *.
  destruct (call_context ts p fb y train valid weights V Hy Hc) as (tc & Hi & C).
  pose proof (cc_data _ _ _ _ _ _ C) as HD.
  assert (HWl : forall l, in_range tc l -> forall i, In i l -> (0 < wt tc i)%R).
  { apply wt_positive; [rewrite (cc_w _ _ _ _ _ _ C); auto|apply (do_w _ _ HD)]. }
  pose proof (fit_fitted_gen ts p fb y train valid weights HE V Hy Hc False tc s Hi) as HO.
  destruct (tree_fit (clf_task E K d crit st) p fb y train valid weights s) as [[tc' g]|e]; [eauto|].
  exfalso. assert (G : okz False (fun r => fst r = tc /\ exists b, fitted ts tc train valid s (snd r) b) (Err e)).
  { apply HO; auto.
    - intros l Hl [Hl'|[]]. unfold ts. rewrite (clf_pred_end_R E K d crit st tc Hd l Hl' (HWl l Hl)). exact I.
    - intros l lv s0 features os s' [[j o] q] Hl Hlv Hf Ht Hin _.
      destruct (tried_ok ts tc HD l Hl features s0 Hf) as (os' & s'' & Ht' & Hos). rewrite Ht in Ht'. inversion Ht'; subst os' s''.
      apply in_candidates in Hin. destruct Hin as [Hin Hq]. destruct (Hos j o Hin) as [Hj Ho].
      unfold ts. rewrite (clf_imp_of K d crit st tc HD l Hl (HWl l Hl) j o q (Hf j Hj) Ho Hq). exact I. }
  destruct e; exact G.
Qed.
Print Assumptions C48_classifier.

Theorem C48_regressor : forall (E : env R_arith) p fb y train valid weights s,
  good_env E -> valid_fit p fb y train valid weights ->
  positive_weights weights -> train <> [] ->
  exists tc g, tree_fit (reg_task E) p fb y train valid weights s = Ok (tc, g).
Proof.
  intros E p fb y train valid weights s HE V HW Hne.
  destruct (reg_labels_ok E (tp_is_categorical p) y HE) as [Hy Hc].
  set (ts := reg_shape E) in *.
  destruct (call_context ts p fb y train valid weights V Hy Hc) as (tc & Hi & C).
  pose proof (cc_data _ _ _ _ _ _ C) as HD.
  assert (HWl : forall l, in_range tc l -> forall i, In i l -> (0 < wt tc i)%R).
  { apply wt_positive; [rewrite (cc_w _ _ _ _ _ _ C); auto|apply (do_w _ _ HD)]. }
  pose proof (fit_fitted_gen ts p fb y train valid weights HE V Hy Hc False tc s Hi) as HO.
  destruct (tree_fit (reg_task E) p fb y train valid weights s) as [[tc' g]|e]; [eauto|].
  exfalso. assert (G : okz False (fun r => fst r = tc /\ exists b, fitted ts tc train valid s (snd r) b) (Err e)).
  { apply HO; auto.
    - intros l Hl [Hl'|[]]. unfold ts. rewrite (reg_pred_end_R E tc l Hl' (HWl l Hl)). exact I.
    - intros l lv s0 features os s' [[j o] q] Hl Hlv Hf Ht Hin _.
      destruct (tried_ok ts tc HD l Hl features s0 Hf) as (os' & s'' & Ht' & Hos). rewrite Ht in Ht'. inversion Ht'; subst os' s''.
      apply in_candidates in Hin. destruct Hin as [Hin Hq]. destruct (Hos j o Hin) as [Hj Ho].
      unfold ts. rewrite (reg_imp_of tc HD l Hl (HWl l Hl) j o q (Hf j Hj) Ho Hq). exact I. }
  destruct e; exact G.
Qed.
Print Assumptions C48_regressor.

Lemma error_is : forall {X} (m : res X) e, (match m with Ok _ => None | Err e => Some e end) = Some e -> m = Err e.
Proof. intros X [x|e'] e H; congruence. Qed.

(** With zero weights fit fails: every hypothesis but the positivity of the weights. *)
Definition zero_w : list (num QA) := repeat (0 # 1)%Q 8.
Theorem C48_zero_weights_refuted :
  valid_fit (ex_params false 2) ex_fb ex_labels ex_train ex_valid zero_w /\
  tree_fit ex_clf (ex_params false 2) ex_fb ex_labels ex_train ex_valid zero_w 0 = Err ZeroDiv /\
  tree_fit ex_reg (ex_params false 2) ex_fb ex_y ex_train ex_valid zero_w 0 = Err ZeroDiv.
Proof.
  split; [|split; apply error_is; vm_compute; reflexivity].
  destruct (ex_valid_fit ex_labels false 2 eq_refl ltac:(lia)) as [V1 V2 V3 V4 V5 V6 V7 V8 V9 V10 V11].
  constructor; [exact V1|exact V2| |assumption..]. rewrite (proj1 (proj2 ex_fb_packed)). reflexivity.
Qed.
Print Assumptions C48_zero_weights_refuted.

(** In single precision the weights 10^8 and 1 are both positive, but the weight to the
    right of a split, which is obtained by subtraction, vanishes. *)
Definition FA : arith := F32 (fun x => x) (fun x => x).
Definition f32 (z : Z) : num FA := sf_ofZ 24 128 z.
Definition env_F : env FA := @mkEnv FA nat (fun s n => (Nat.modulo (s * 7 + 3) n, S s)) (fun l => seq 0 (length l)) (fun i => i).
Definition f32_X : list (list N) := [[0]; [1]]%N.
Definition f32_fb : fba := match array_to_bitarray (fun _ => 0%N) 1 f32_X with Ok fb => fb | Err _ => mkFba 0 0 [] [] [] [] [] [] end.
Definition f32_params : @tree_params FA := @mkTP FA 1 2 1 100%N false (f32 1) [false].

Theorem C48_single_precision_refuted :
  good_env env_F /\ valid_fit f32_params f32_fb [0; 1] [0; 1] [] [f32 100000000; f32 1] /\
  (forall w, In w [f32 100000000; f32 1] -> altb a0 w = true) /\
  tree_fit (clf_task env_F 2 (f32 1) Gini AllMods) f32_params f32_fb [0; 1] [0; 1] [] [f32 100000000; f32 1] 0 = Err ZeroDiv.
Proof.
  split; [|split; [|split]].
  - constructor; [|reflexivity]. intros s n H. cbn [draw env_F fst]. apply Nat.mod_upper_bound. lia.
  - destruct (array_to_bitarray_packed (fun _ => 0%N) 1 f32_X) as (fb & H1 & H2 & H3 & H4 & _).
    + discriminate.
    + intros row H. unfold f32_X in H. simpl in H. intuition (subst; reflexivity).
    + intros row x H Hx. unfold f32_X in H. simpl in H.
      repeat (destruct H as [<-|H]; [simpl in Hx; intuition (subst; reflexivity)|]). destruct H.
    + assert (Efb : f32_fb = fb) by (unfold f32_fb; rewrite H1; auto). rewrite Efb.
      clear Efb H1. idtac.
      constructor; cbn [tp_max_features tp_min_samples_split tp_min_samples_leaf tp_is_categorical f32_params]; rewrite ?H3, ?H4.
      all: try exact H2; try reflexivity; simpl; try lia.
  - intros w [<-|[<-|[]]]; reflexivity.
  - apply error_is. vm_compute. reflexivity.
Qed.
Print Assumptions C48_single_precision_refuted.

(** ** C18 for every node of a grown tree *)

Lemma inside_grows_fs : forall {A : arith} {E : env A} {tk : task A E} (ts : task_shape tk) tc depth imp train valid s fs b s' fs' p b' p' mf,
  good_draws E -> mf <= fb_n_features (tc_fb tc) -> fs_ok (fb_n_features (tc_fb tc)) mf fs ->
  grows ts tc depth imp train valid s fs b s' fs' -> inside b p b' p' ->
  exists s1 fs1 s2 fs2, fs_ok (fb_n_features (tc_fb tc)) mf fs1 /\
  grows ts tc (bd_depth (broot b')) (bd_imp (broot b')) (bd_train (broot b')) (bd_valid (broot b')) s1 fs1 b' s2 fs2.
Proof.
  intros A E tk ts tc depth imp train valid s fs b s' fs' p b' p' mf HE Hmf Hfs HG HI.
  assert (Hpres : forall depth imp train valid s fs b s' fs', grows ts tc depth imp train valid s fs b s' fs' ->
    fs_ok (fb_n_features (tc_fb tc)) mf fs -> fs_ok (fb_n_features (tc_fb tc)) mf fs').
  { clear - HE Hmf. intros depth imp train valid s fs b s' fs' HG. induction HG; intros Hfs.
    - destruct (sample_features_spec E s fs _ mf HE Hmf Hfs) as (a & b & E1 & E2 & _). congruence.
    - destruct (sample_features_spec E s fs _ mf HE Hmf Hfs) as (a & b & E1 & E2 & _). assert (b = fs1) by congruence. subst b. auto. }
  induction HI as [|d l r p1 HI IH|d l r p1 HI IH].
  - destruct (grows_root ts tc _ _ _ _ _ _ _ _ _ HG) as (-> & -> & -> & ->). eauto 10.
  - destruct IH as (s1 & fs1 & s2 & fs2 & F1 & G). cbn [broot] in *.
    inversion G as [|? ? ? ? ? ? s1' fs1' pr sp s2' r' s3 fs3 l' s4 fs4 c i H1 H2 H3 H4 nc H5 H6 H7 HGr HGl]; subst.
    destruct (grows_root ts tc _ _ _ _ _ _ _ _ _ HGr) as (E1 & E2 & E3 & E4). rewrite E1, E2, E3, E4.
    destruct (sample_features_spec E s1 fs1 _ mf HE Hmf F1) as (a & b1 & B1 & B2 & _). assert (b1 = fs1') by congruence. subst b1.
    eauto 10.
  - destruct IH as (s1 & fs1 & s2 & fs2 & F1 & G). cbn [broot] in *.
    inversion G as [|? ? ? ? ? ? s1' fs1' pr sp s2' r' s3 fs3 l' s4 fs4 c i H1 H2 H3 H4 nc H5 H6 H7 HGr HGl]; subst.
    destruct (grows_root ts tc _ _ _ _ _ _ _ _ _ HGl) as (E1 & E2 & E3 & E4). rewrite E1, E2, E3, E4.
    destruct (sample_features_spec E s1 fs1 _ mf HE Hmf F1) as (a & b1 & B1 & B2 & _). assert (b1 = fs1') by congruence. subst b1.
    pose proof (Hpres _ _ _ _ _ _ _ _ _ HGr B2) as F3. eauto 10.
Qed.

(** What is known of the split of an inner node of a grown tree. *)
Lemma inner_split : forall {A : arith} {E : env A} {tk : task A E} (ts : task_shape tk) p fb y train valid weights s tc g b0,
  good_env E -> valid_fit p fb y train valid weights ->
  call_ctx ts p fb y weights tc -> fitted ts tc train valid s g b0 -> in_range tc train -> in_range tc valid ->
  forall id n, node_at (g_tree g) id n -> nd_is_leaf n = false ->
  exists features here hereV s1 s2 nc (sp : split tk) l r ln rn lt lv,
    NoDup features /\ length features = tp_max_features p /\ (forall j, In j features -> j < fb_n_features fb) /\
    slice (p_train (g_parts g)) (nd_start_train n) (nd_end_train n) = Ok lt /\ Permutation lt here /\
    slice (p_valid (g_parts g)) (nd_start_valid n) (nd_end_valid n) = Ok lv /\ Permutation lv hereV /\
    nd_feature n = Some (sp_feature sp) /\ nd_is_cat n = sp_is_cat sp /\
    (forall b left, goes_left tk sp b = Ok left -> left_at (g_tree g) n b left) /\
    nd_left n = Some l /\ nd_right n = Some r /\ node_at (g_tree g) l ln /\ node_at (g_tree g) r rn /\
    nd_impurity ln = Some (sp_imp_left sp) /\ nd_impurity rn = Some (sp_imp_right sp) /\
    sp_found sp = true /\ here <> [] /\ in_range tc here /\ in_range tc hereV /\ (tp_aggregation p = true -> hereV <> []) /\
    node_stats tk tc features here hereV = Ok nc /\ find_node_split tk tc nc s1 = Ok (sp, s2).
Proof.
  intros A E tk ts p fb y train valid weights s tc g b0 HE V C F Htr Hva id n Hn HL.
  pose proof (cc_data _ _ _ _ _ _ C) as HD.
  assert (Hmf : 1 <= tc_max_features tc <= fb_n_features (tc_fb tc)) by (rewrite (cc_fb _ _ _ _ _ _ C), (cc_mf _ _ _ _ _ _ C); apply (vf_mf _ _ _ _ _ _ V)).
  assert (Hmss : 2 <= tc_min_samples_split tc) by (rewrite (cc_mss _ _ _ _ _ _ C); apply (vf_mss _ _ _ _ _ _ V)).
  destruct (node_samples_slices ts tc train valid s g b0 F Htr Hva id n Hn) as (lt & lv & S1 & S2 & _ & _ & b & q & HI & En & Eid & P1 & P2).
  subst n id. destruct b as [d|d l r]; [discriminate|].
  destruct (grown ts tc train valid s g b0 F) as (s' & fs' & HG).
  destruct (inside_grows ts tc _ _ _ _ _ _ _ _ _ _ _ _ HG Htr Hva HI) as (I1 & I2 & _).
  destruct (inside_grows_fs ts tc _ _ _ _ _ _ _ _ _ _ _ _ (tc_max_features tc) (ge_draw E HE) (proj2 Hmf) (init_fsamp_ok _ _) HG HI)
    as (s1 & fs1 & s2 & fs2 & F1 & G).
  cbn [broot] in *.
  inversion G as [|? ? ? ? ? ? s1' fs1' pr sp s2' r' s3 fs3 l' s4 fs4 c i H1 H2 H3 H4 nc H5 H6 H7 HGr HGl Ed]; subst.
  cbn [bd_train bd_valid bd_imp bd_depth broot] in *.
  rename H into Ed. assert (Esp : bd_sp d = sp) by (rewrite <- Ed; reflexivity).
  remember (bd_train d) as train0. remember (bd_valid d) as valid0.
  destruct (sample_features_spec E s1 fs1 _ (tc_max_features tc) (ge_draw E HE) (proj2 Hmf) F1) as (a & b1 & B1 & B2 & _).
  assert (b1 = fs1') by congruence. subst b1.
  destruct (grows_root ts tc _ _ _ _ _ _ _ _ _ HGr) as (R1 & R2 & R3 & R4).
  destruct (grows_root ts tc _ _ _ _ _ _ _ _ _ HGl) as (L1 & L2 & L3 & L4).
  assert (HIl : inside b0 root_place l (lplace q d l r)) by (apply In_left; auto).
  assert (HIr : inside b0 root_place r (rplace q d l r)) by (apply In_right; auto).
  destruct (stop_valid ts tc (tc_max_features tc) Hmf Hmss _ _ _ _ _ _ H5) as (St1 & St2 & St3 & _).
  assert (Hne : train0 <> []) by (destruct train0; [simpl in St1; lia|discriminate]).
  exists (fs_sampled fs1'), train0, valid0, s1', s2', nc, sp, (pl_id (lplace q d l r)), (pl_id (rplace q d l r)),
    (hnode (Wof tc) l (lplace q d l r)), (hnode (Wof tc) r (rplace q d l r)), lt, lv.
  split; [exact H2|]. split; [rewrite <- (cc_mf _ _ _ _ _ _ C); apply B2|].
  split; [rewrite <- (cc_fb _ _ _ _ _ _ C); exact H3|].
  split; [exact S1|]. split; [exact P1|]. split; [exact S2|]. split; [exact P2|].
  split; [cbn; rewrite Esp; reflexivity|]. split; [cbn; rewrite Esp; reflexivity|].
  split.
  { intros b left Hgo. rewrite (chosen_goes_left ts tc train0 valid0 (fs_sampled fs1') c i sp b H7) in Hgo. inversion Hgo; subst left.
    unfold left_at, to_left. change (nd_is_cat (hnode (Wof tc) (BNode d l r) q)) with (sp_is_cat (bd_sp d)). rewrite Esp.
    pose proof (inner_inside b0 _ _ _ (fitted_testable ts tc train valid s g b0 F) HI) as [[_ Hc] _]. rewrite Esp in Hc.
    destruct (sp_is_cat sp) eqn:Ec.
    - destruct (Hc eq_refl) as [Hne' _]. exists (sp_partition sp). split.
      { rewrite <- Esp. rewrite <- Esp in Ec, Hne'. apply (own_slice (Wof tc) (g_tree g) d l r q); auto. eapply here_inside; [apply (fitted_here ts tc train valid s g b0 F)|exact HI]. }
      apply mem_bin_in.
    - exists (sp_threshold sp). split; [rewrite <- Esp; reflexivity|]. apply Nat.leb_le. }
  split; [reflexivity|]. split; [reflexivity|].
  split; [apply (inside_node ts tc train valid s g b0 F); auto|]. split; [apply (inside_node ts tc train valid s g b0 F); auto|].
  split; [rewrite hnode_imp; exact L2|]. split; [rewrite hnode_imp; exact R2|].
  split; [apply (ch_found H7)|]. split; [exact Hne|]. split; [exact I1|]. split; [exact I2|].
  split; [rewrite <- (cc_agg _ _ _ _ _ _ C); intros Ha; apply St3; auto|].
  split; [|exact H6].
  rewrite (node_stats_spec ts tc HD) by (auto; intros E0; assert (B3 : length (fs_sampled fs1') = tc_max_features tc) by apply B2; rewrite E0 in B3; simpl in B3; lia).
  rewrite H4. reflexivity.
Qed.

Theorem C18_tree_classification : forall (E : env R_arith) K dirichlet crit st p fb y train valid weights s tc g,
  good_env E -> sorts E -> valid_fit p fb y train valid weights -> positive_weights weights ->
  valid_labels K st (tp_is_categorical p) y -> (0 <= dirichlet)%R ->
  tree_fit (clf_task E K dirichlet crit st) p fb y train valid weights s = Ok (tc, g) ->
  forall id n, node_at (g_tree g) id n -> nd_is_leaf n = false ->
  exists features here hereV lt lv l r ln rn (sp : split (clf_task E K dirichlet crit st)),
    (* max_features different features were tried *)
    NoDup features /\ length features = tp_max_features p /\ (forall j, In j features -> j < fb_n_features fb) /\
    (* on the samples of the node *)
    slice (p_train (g_parts g)) (nd_start_train n) (nd_end_train n) = Ok lt /\ Permutation lt here /\
    slice (p_valid (g_parts g)) (nd_start_valid n) (nd_end_valid n) = Ok lv /\ Permutation lv hereV /\
    (* and a split was found, which the node records *)
    nd_feature n = Some (sp_feature sp) /\ nd_is_cat n = sp_is_cat sp /\
    (forall b left, goes_left _ sp b = Ok left -> left_at (g_tree g) n b left) /\
    nd_left n = Some l /\ nd_right n = Some r /\ node_at (g_tree g) l ln /\ node_at (g_tree g) r rn /\
    nd_impurity ln = Some (sp_imp_left sp) /\ nd_impurity rn = Some (sp_imp_right sp) /\
    let impurity := clf_impurity weights crit K y in
    let good := at_least_as_good fb weights (tp_min_samples_leaf p) (tp_aggregation p) here hereV impurity sp in
    describes_its_cut fb (tp_is_categorical p) weights (tp_min_samples_leaf p) (tp_aggregation p) features here hereV impurity sp /\
    (forall j t, In j features -> nth_error (tp_is_categorical p) j = Some false -> bin_present fb j here t -> good j (fun b => b <=? t)) /\
    (forall j, In j features -> nth_error (tp_is_categorical p) j = Some true ->
       (exists t, bin_present fb j here t /\ exists t', bin_present fb j here t' /\ t <> t') ->
       exists ks, ordering_classes st K ks /\
       forall k, In k ks -> exists order, sorted_bins fb j here (class_proportion fb weights y here j k) order /\
       forall q r, order = q ++ r -> good j (bins_in q)).
Proof.
  intros E K d crit st p fb y train valid weights s tc g HE HS V HW HL Hd Hfit id n Hn Hleaf.
  assert (HC : valid_call (clf_task E K d crit st) p fb y train valid weights) by (apply VC_classifier; auto).
  destruct (clf_labels_ok E K d crit st (tp_is_categorical p) y HE HL) as [Hy Hc].
  set (ts := clf_shape E K d crit st) in *.
  destruct (call_context ts p fb y train valid weights V Hy Hc) as (tc' & Hi' & C).
  pose proof (fit_fitted_gen ts p fb y train valid weights HE V Hy Hc True tc' s Hi') as HO.
  rewrite Hfit in HO. cbn [okz fst snd] in HO. destruct HO as [<- [b0 F]].
  { intros l Hl _. eapply okz_weaken; [exact (fun z => z)| |apply (ts_pred_end _ ts)]; auto. }
  { intros l lv s0 features os s' c Hl Hlv Hf Htr Hin _. eapply imp_of_okz; eauto. apply (cc_data _ _ _ _ _ _ C). }
  { auto. }
  assert (Htr : in_range tc train). { intros k HI. unfold nsamp. rewrite (cc_fb _ _ _ _ _ _ C). apply (vf_train _ _ _ _ _ _ V). auto. }
  assert (Hva : in_range tc valid). { intros k HI. unfold nsamp. rewrite (cc_fb _ _ _ _ _ _ C). apply (vf_valid _ _ _ _ _ _ V). auto. }
  destruct (inner_split ts p fb y train valid weights s tc g b0 HE V C F Htr Hva id n Hn Hleaf)
    as (features & here & hereV & s1 & s2 & nc & sp & l & r & ln & rn & lt & lv & A1 & A2 & A3 & A4 & A5 & A6 & A7 & A8 & A9 & A10 & A11 & A12 & A13 & A14 & A15 & A16 & A17 & A18 & A19 & A20 & A21 & A22 & A23).
  exists features, here, hereV, lt, lv, l, r, ln, rn, sp.
  do 16 (split; [assumption|]). cbv zeta.
  assert (Hfne : features <> []).
  { intros ->. pose proof (vf_mf _ _ _ _ _ _ V). simpl in A2. lia. }
  unfold in_range, nsamp in A19, A20. rewrite (cc_fb _ _ _ _ _ _ C) in A19, A20.
  destruct (C18_classification E K d crit st p fb y train valid weights tc HE HS V HW HL Hd Hi' features here hereV s1 Hfne A3 A18 A19 A20 A21)
    as (nc' & sp' & s' & H1 & H2 & H3 & H4 & H5).
  assert (nc' = nc) by congruence. subst nc'. assert (sp' = sp) by congruence. subst sp'.
  split; [apply H3; auto|]. split; [exact H4|exact H5].
Qed.
Print Assumptions C18_tree_classification.

Theorem C18_tree_regression : forall (E : env R_arith) p fb y train valid weights s tc g,
  good_env E -> sorts E -> valid_fit p fb y train valid weights -> positive_weights weights ->
  tree_fit (reg_task E) p fb y train valid weights s = Ok (tc, g) ->
  forall id n, node_at (g_tree g) id n -> nd_is_leaf n = false ->
  exists features here hereV lt lv l r ln rn (sp : split (reg_task E)),
    NoDup features /\ length features = tp_max_features p /\ (forall j, In j features -> j < fb_n_features fb) /\
    slice (p_train (g_parts g)) (nd_start_train n) (nd_end_train n) = Ok lt /\ Permutation lt here /\
    slice (p_valid (g_parts g)) (nd_start_valid n) (nd_end_valid n) = Ok lv /\ Permutation lv hereV /\
    nd_feature n = Some (sp_feature sp) /\ nd_is_cat n = sp_is_cat sp /\
    (forall b left, goes_left _ sp b = Ok left -> left_at (g_tree g) n b left) /\
    nd_left n = Some l /\ nd_right n = Some r /\ node_at (g_tree g) l ln /\ node_at (g_tree g) r rn /\
    nd_impurity ln = Some (sp_imp_left sp) /\ nd_impurity rn = Some (sp_imp_right sp) /\
    let impurity := reg_impurity weights y in
    let good := at_least_as_good fb weights (tp_min_samples_leaf p) (tp_aggregation p) here hereV impurity sp in
    describes_its_cut fb (tp_is_categorical p) weights (tp_min_samples_leaf p) (tp_aggregation p) features here hereV impurity sp /\
    (forall j t, In j features -> nth_error (tp_is_categorical p) j = Some false -> bin_present fb j here t -> good j (fun b => b <=? t)) /\
    (forall j, In j features -> nth_error (tp_is_categorical p) j = Some true ->
       (exists t, bin_present fb j here t /\ exists t', bin_present fb j here t' /\ t <> t') ->
       exists order, sorted_bins fb j here (bin_label_sum fb weights y here j) order /\
       forall q r, order = q ++ r -> good j (bins_in q)).
Proof.
  intros E p fb y train valid weights s tc g HE HS V HW Hfit id n Hn Hleaf.
  destruct (reg_labels_ok E (tp_is_categorical p) y HE) as [Hy Hc].
  set (ts := reg_shape E) in *.
  destruct (call_context ts p fb y train valid weights V Hy Hc) as (tc' & Hi' & C).
  pose proof (fit_fitted_gen ts p fb y train valid weights HE V Hy Hc True tc' s Hi') as HO.
  rewrite Hfit in HO. cbn [okz fst snd] in HO. destruct HO as [<- [b0 F]].
  { intros l Hl _. eapply okz_weaken; [exact (fun z => z)| |apply (ts_pred_end _ ts)]; auto. }
  { intros l lv s0 features os s' c Hl Hlv Hf Htr Hin _. eapply imp_of_okz; eauto. apply (cc_data _ _ _ _ _ _ C). }
  { auto. }
  assert (Htr : in_range tc train). { intros k HI. unfold nsamp. rewrite (cc_fb _ _ _ _ _ _ C). apply (vf_train _ _ _ _ _ _ V). auto. }
  assert (Hva : in_range tc valid). { intros k HI. unfold nsamp. rewrite (cc_fb _ _ _ _ _ _ C). apply (vf_valid _ _ _ _ _ _ V). auto. }
  destruct (inner_split ts p fb y train valid weights s tc g b0 HE V C F Htr Hva id n Hn Hleaf)
    as (features & here & hereV & s1 & s2 & nc & sp & l & r & ln & rn & lt & lv & A1 & A2 & A3 & A4 & A5 & A6 & A7 & A8 & A9 & A10 & A11 & A12 & A13 & A14 & A15 & A16 & A17 & A18 & A19 & A20 & A21 & A22 & A23).
  exists features, here, hereV, lt, lv, l, r, ln, rn, sp.
  do 16 (split; [assumption|]). cbv zeta.
  assert (Hfne : features <> []).
  { intros ->. pose proof (vf_mf _ _ _ _ _ _ V). simpl in A2. lia. }
  unfold in_range, nsamp in A19, A20. rewrite (cc_fb _ _ _ _ _ _ C) in A19, A20.
  destruct (C18_regression E p fb y train valid weights tc HE HS V HW Hi' features here hereV s1 Hfne A3 A18 A19 A20 A21)
    as (nc' & sp' & s' & H1 & H2 & H3 & H4 & H5).
  assert (nc' = nc) by congruence. subst nc'. assert (sp' = sp) by congruence. subst sp'.
  split; [apply H3; auto|]. split; [exact H4|exact H5].
Qed.
Print Assumptions C18_tree_regression.

(** ** C26: the reasons for which a node is a leaf *)

Definition stopped {A : arith} (p : @tree_params A) (n : node A) : Prop :=
  nd_n_train n < tp_min_samples_split p \/
  (tp_aggregation p = true /\ nd_n_valid n < tp_min_samples_split p) \/
  (exists x, nd_impurity n = Some x /\ aleb x a0 = true) \/
  (tp_max_depth p <= N.of_nat (nd_depth n))%N.

Lemma leaf_split : forall {A : arith} {E : env A} {tk : task A E} (ts : task_shape tk) p fb y train valid weights s tc g b0,
  good_env E -> valid_fit p fb y train valid weights ->
  call_ctx ts p fb y weights tc -> fitted ts tc train valid s g b0 -> in_range tc train -> in_range tc valid ->
  forall id n, node_at (g_tree g) id n -> nd_is_leaf n = true ->
  stopped p n \/
  exists features here hereV s1 s2 nc (sp : split tk) lt lv,
    NoDup features /\ length features = tp_max_features p /\ (forall j, In j features -> j < fb_n_features fb) /\
    slice (p_train (g_parts g)) (nd_start_train n) (nd_end_train n) = Ok lt /\ Permutation lt here /\
    slice (p_valid (g_parts g)) (nd_start_valid n) (nd_end_valid n) = Ok lv /\ Permutation lv hereV /\
    sp_found sp = false /\ here <> [] /\ in_range tc here /\ in_range tc hereV /\ (tp_aggregation p = true -> hereV <> []) /\
    node_stats tk tc features here hereV = Ok nc /\ find_node_split tk tc nc s1 = Ok (sp, s2).
Proof.
  intros A E tk ts p fb y train valid weights s tc g b0 HE V C F Htr Hva id n Hn HL.
  pose proof (cc_data _ _ _ _ _ _ C) as HD.
  assert (Hmf : 1 <= tc_max_features tc <= fb_n_features (tc_fb tc)) by (rewrite (cc_fb _ _ _ _ _ _ C), (cc_mf _ _ _ _ _ _ C); apply (vf_mf _ _ _ _ _ _ V)).
  assert (Hmss : 2 <= tc_min_samples_split tc) by (rewrite (cc_mss _ _ _ _ _ _ C); apply (vf_mss _ _ _ _ _ _ V)).
  destruct (node_samples_slices ts tc train valid s g b0 F Htr Hva id n Hn) as (lt & lv & S1 & S2 & _ & _ & b & q & HI & En & Eid & P1 & P2).
  subst n id. destruct b as [d|d l r]; [|discriminate].
  destruct (grown ts tc train valid s g b0 F) as (s' & fs' & HG).
  destruct (inside_grows ts tc _ _ _ _ _ _ _ _ _ _ _ _ HG Htr Hva HI) as (I1 & I2 & _).
  destruct (inside_grows_fs ts tc _ _ _ _ _ _ _ _ _ _ _ _ (tc_max_features tc) (ge_draw E HE) (proj2 Hmf) (init_fsamp_ok _ _) HG HI)
    as (s1 & fs1 & s2 & fs2 & F1 & G).
  cbn [broot] in *. unfold stopped.
  destruct (hnode_counts ts tc train valid s g b0 F Htr Hva _ q HI) as (-> & -> & _). rewrite hnode_imp, hnode_depth. cbn [broot].
  rewrite <- (cc_mss _ _ _ _ _ _ C), <- (cc_agg _ _ _ _ _ _ C), <- (cc_depth _ _ _ _ _ _ C), <- (cc_mf _ _ _ _ _ _ C), <- (cc_fb _ _ _ _ _ _ C).
  remember (bd_train d) as train0. remember (bd_valid d) as valid0. remember (bd_depth d) as depth0. remember (bd_imp d) as imp0.
  remember (BLeaf d) as b eqn:Eb.
  destruct G as [depth imp train0 valid0 s1 fs1 s1' fs1' pr s2' H1 H2 H3 H4 nc H5|]; [|discriminate]. clear Eb.
  destruct (sample_features_spec E s1 fs1 _ (tc_max_features tc) (ge_draw E HE) (proj2 Hmf) F1) as (a & b1 & B1 & B2 & _).
  assert (b1 = fs1') by congruence. subst b1.
  unfold choose_split in H5. destruct (stop_test tk tc nc depth imp) eqn:Es.
  - left. unfold stop_test in Es. change (nc_n_train nc) with (length train0) in Es. change (nc_n_valid nc) with (length valid0) in Es.
    apply Bool.orb_prop in Es. destruct Es as [Es|Es]; [apply Bool.orb_prop in Es; destruct Es as [Es|Es]|].
    + destruct (tc_aggregation tc).
      * apply Bool.orb_prop in Es. destruct Es as [Es|Es]; apply Nat.ltb_lt in Es; auto.
      * apply Nat.ltb_lt in Es. auto.
    + right. right. left. destruct imp as [x|]; [|discriminate]. eauto.
    + right. right. right. apply N.leb_le. auto.
  - right. destruct (stop_valid ts tc (tc_max_features tc) Hmf Hmss _ _ _ _ _ _ Es) as (St1 & St2 & St3 & _).
    destruct (find_node_split tk tc nc s1') as [[sp s2'']|] eqn:Ef; [|discriminate]. cbn [bind] in H5.
    assert (Hsf : sp_found sp = false) by (destruct (sp_found sp); [discriminate|reflexivity]).
    exists (fs_sampled fs1'), train0, valid0, s1', s2'', nc, sp, lt, lv.
    split; [exact H2|]. split; [apply B2|]. split; [exact H3|].
    split; [exact S1|]. split; [exact P1|]. split; [exact S2|]. split; [exact P2|].
    split; [exact Hsf|]. split; [destruct train0; [simpl in St1; lia|discriminate]|]. split; [exact I1|]. split; [exact I2|].
    split; [intros Ha; apply St3; auto|]. split; [|exact Ef].
    rewrite (node_stats_spec ts tc HD) by (auto; intros E0; assert (B3 : length (fs_sampled fs1') = tc_max_features tc) by apply B2; rewrite E0 in B3; simpl in B3; lia).
    rewrite H4. reflexivity.
Qed.

Theorem C26_leaf_classification : forall (E : env R_arith) K dirichlet crit st p fb y train valid weights s tc g,
  good_env E -> sorts E -> valid_fit p fb y train valid weights -> positive_weights weights ->
  valid_labels K st (tp_is_categorical p) y -> (0 <= dirichlet)%R ->
  tree_fit (clf_task E K dirichlet crit st) p fb y train valid weights s = Ok (tc, g) ->
  forall id n, node_at (g_tree g) id n -> nd_is_leaf n = true ->
  stopped p n \/
  exists features lt lv,
    NoDup features /\ length features = tp_max_features p /\ (forall j, In j features -> j < fb_n_features fb) /\
    slice (p_train (g_parts g)) (nd_start_train n) (nd_end_train n) = Ok lt /\
    slice (p_valid (g_parts g)) (nd_start_valid n) (nd_end_valid n) = Ok lv /\
    exists here hereV, Permutation lt here /\ Permutation lv hereV /\
    let none j cut := ~ admissible_cut fb (tp_min_samples_leaf p) (tp_aggregation p) here hereV j cut in
    (forall j t, In j features -> nth_error (tp_is_categorical p) j = Some false -> bin_present fb j here t -> none j (fun b => b <=? t)) /\
    (forall j, In j features -> nth_error (tp_is_categorical p) j = Some true ->
       (exists t, bin_present fb j here t /\ exists t', bin_present fb j here t' /\ t <> t') ->
       exists ks, ordering_classes st K ks /\
       forall k, In k ks -> exists order, sorted_bins fb j here (class_proportion fb weights y here j k) order /\
       forall q r, order = q ++ r -> none j (bins_in q)).
Proof.
  intros E K d crit st p fb y train valid weights s tc g HE HS V HW HL Hd Hfit id n Hn Hleaf.
  assert (HC : valid_call (clf_task E K d crit st) p fb y train valid weights) by (apply VC_classifier; auto).
  destruct (clf_labels_ok E K d crit st (tp_is_categorical p) y HE HL) as [Hy Hc].
  set (ts := clf_shape E K d crit st) in *.
  destruct (call_context ts p fb y train valid weights V Hy Hc) as (tc' & Hi' & C).
  pose proof (fit_fitted_gen ts p fb y train valid weights HE V Hy Hc True tc' s Hi') as HO.
  rewrite Hfit in HO. cbn [okz fst snd] in HO. destruct HO as [<- [b0 F]].
  { intros l Hl _. eapply okz_weaken; [exact (fun z => z)| |apply (ts_pred_end _ ts)]; auto. }
  { intros l lv s0 features os s' c Hl Hlv Hf Htr Hin _. eapply imp_of_okz; eauto. apply (cc_data _ _ _ _ _ _ C). }
  { auto. }
  assert (Htr : in_range tc train). { intros k HI. unfold nsamp. rewrite (cc_fb _ _ _ _ _ _ C). apply (vf_train _ _ _ _ _ _ V). auto. }
  assert (Hva : in_range tc valid). { intros k HI. unfold nsamp. rewrite (cc_fb _ _ _ _ _ _ C). apply (vf_valid _ _ _ _ _ _ V). auto. }
  destruct (leaf_split ts p fb y train valid weights s tc g b0 HE V C F Htr Hva id n Hn Hleaf)
    as [HSt|(features & here & hereV & s1 & s2 & nc & sp & lt & lv & A1 & A2 & A3 & A4 & A5 & A6 & A7 & A17 & A18 & A19 & A20 & A21 & A22 & A23)]; [auto|right].
  exists features, lt, lv.
  do 5 (split; [assumption|]). exists here, hereV. do 2 (split; [assumption|]). cbv zeta.
  assert (Hfne : features <> []).
  { intros ->. pose proof (vf_mf _ _ _ _ _ _ V). simpl in A2. lia. }
  unfold in_range, nsamp in A19, A20. rewrite (cc_fb _ _ _ _ _ _ C) in A19, A20.
  destruct (C18_classification E K d crit st p fb y train valid weights tc HE HS V HW HL Hd Hi' features here hereV s1 Hfne A3 A18 A19 A20 A21)
    as (nc' & sp' & s' & H1 & H2 & H3 & H4 & H5).
  assert (nc' = nc) by congruence. subst nc'. assert (sp' = sp) by congruence. subst sp'.
  split.
  - intros j t Hj Hcat Hb Ha. destruct (H4 j t Hj Hcat Hb Ha). congruence.
  - intros j Hj Hcat Hb. destruct (H5 j Hj Hcat Hb) as (ks & K1 & K2). exists ks. split; auto.
    intros k Hk. destruct (K2 k Hk) as (order & O1 & O2). exists order. split; auto.
    intros q r Hq Ha. destruct (O2 q r Hq Ha). congruence.
Qed.
Print Assumptions C26_leaf_classification.

Theorem C26_leaf_regression : forall (E : env R_arith) p fb y train valid weights s tc g,
  good_env E -> sorts E -> valid_fit p fb y train valid weights -> positive_weights weights ->
  tree_fit (reg_task E) p fb y train valid weights s = Ok (tc, g) ->
  forall id n, node_at (g_tree g) id n -> nd_is_leaf n = true ->
  stopped p n \/
  exists features lt lv,
    NoDup features /\ length features = tp_max_features p /\ (forall j, In j features -> j < fb_n_features fb) /\
    slice (p_train (g_parts g)) (nd_start_train n) (nd_end_train n) = Ok lt /\
    slice (p_valid (g_parts g)) (nd_start_valid n) (nd_end_valid n) = Ok lv /\
    exists here hereV, Permutation lt here /\ Permutation lv hereV /\
    let none j cut := ~ admissible_cut fb (tp_min_samples_leaf p) (tp_aggregation p) here hereV j cut in
    (forall j t, In j features -> nth_error (tp_is_categorical p) j = Some false -> bin_present fb j here t -> none j (fun b => b <=? t)) /\
    (forall j, In j features -> nth_error (tp_is_categorical p) j = Some true ->
       (exists t, bin_present fb j here t /\ exists t', bin_present fb j here t' /\ t <> t') ->
       exists order, sorted_bins fb j here (bin_label_sum fb weights y here j) order /\
       forall q r, order = q ++ r -> none j (bins_in q)).
Proof.
  intros E p fb y train valid weights s tc g HE HS V HW Hfit id n Hn Hleaf.
  destruct (reg_labels_ok E (tp_is_categorical p) y HE) as [Hy Hc].
  set (ts := reg_shape E) in *.
  destruct (call_context ts p fb y train valid weights V Hy Hc) as (tc' & Hi' & C).
  pose proof (fit_fitted_gen ts p fb y train valid weights HE V Hy Hc True tc' s Hi') as HO.
  rewrite Hfit in HO. cbn [okz fst snd] in HO. destruct HO as [<- [b0 F]].
  { intros l Hl _. eapply okz_weaken; [exact (fun z => z)| |apply (ts_pred_end _ ts)]; auto. }
  { intros l lv s0 features os s' c Hl Hlv Hf Htr Hin _. eapply imp_of_okz; eauto. apply (cc_data _ _ _ _ _ _ C). }
  { auto. }
  assert (Htr : in_range tc train). { intros k HI. unfold nsamp. rewrite (cc_fb _ _ _ _ _ _ C). apply (vf_train _ _ _ _ _ _ V). auto. }
  assert (Hva : in_range tc valid). { intros k HI. unfold nsamp. rewrite (cc_fb _ _ _ _ _ _ C). apply (vf_valid _ _ _ _ _ _ V). auto. }
  destruct (leaf_split ts p fb y train valid weights s tc g b0 HE V C F Htr Hva id n Hn Hleaf)
    as [HSt|(features & here & hereV & s1 & s2 & nc & sp & lt & lv & A1 & A2 & A3 & A4 & A5 & A6 & A7 & A17 & A18 & A19 & A20 & A21 & A22 & A23)]; [auto|right].
  exists features, lt, lv.
  do 5 (split; [assumption|]). exists here, hereV. do 2 (split; [assumption|]). cbv zeta.
  assert (Hfne : features <> []).
  { intros ->. pose proof (vf_mf _ _ _ _ _ _ V). simpl in A2. lia. }
  unfold in_range, nsamp in A19, A20. rewrite (cc_fb _ _ _ _ _ _ C) in A19, A20.
  destruct (C18_regression E p fb y train valid weights tc HE HS V HW Hi' features here hereV s1 Hfne A3 A18 A19 A20 A21)
    as (nc' & sp' & s' & H1 & H2 & H3 & H4 & H5).
  assert (nc' = nc) by congruence. subst nc'. assert (sp' = sp) by congruence. subst sp'.
  split.
  - intros j t Hj Hcat Hb Ha. destruct (H4 j t Hj Hcat Hb Ha). congruence.
  - intros j Hj Hcat Hb. destruct (H5 j Hj Hcat Hb) as (order & O1 & O2). exists order. split; auto.
    intros q r Hq Ha. destruct (O2 q r Hq Ha). congruence.
Qed.
Print Assumptions C26_leaf_regression.

(** The hypotheses are met: real trees are grown on the example data. *)
Example C48_applies : exists tc g, tree_fit (clf_task env_R 3 (/ 2)%R Gini AllMods) (exR_params true 2) ex_fb ex_labels ex_train ex_valid exR_w 0 = Ok (tc, g).
Proof.
  apply C48_classifier; try apply env_R_good; try apply exR_positive; try (apply exR_valid_fit; [reflexivity|lia]);
    try exact (exR_valid_labels true 2); try lra; discriminate.
Qed.
Example C48_regressor_applies : exists tc g, tree_fit (reg_task env_R) (exR_params true 2) ex_fb exR_y ex_train ex_valid exR_w 0 = Ok (tc, g).
Proof.
  apply C48_regressor; try apply env_R_good; try apply exR_positive; try (apply exR_valid_fit; [reflexivity|lia]); discriminate.
Qed.

(** The trees grown there have at least one split. *)
Lemma admissible_perm : forall fb m agg t t' v v' j cut, Permutation t t' -> Permutation v v' ->
  admissible_cut fb m agg t v j cut -> admissible_cut fb m agg t' v' j cut.
Proof.
  intros fb m agg t t' v v' j cut Ht Hv. unfold admissible_cut, side, other.
  rewrite (Permutation_length (P_BinningR.filter_perm (fun i => cut (bin_of fb i j)) _ _ Ht)).
  rewrite (Permutation_length (P_BinningR.filter_perm (fun i => negb (cut (bin_of fb i j))) _ _ Ht)).
  rewrite (Permutation_length (P_BinningR.filter_perm (fun i => cut (bin_of fb i j)) _ _ Hv)).
  rewrite (Permutation_length (P_BinningR.filter_perm (fun i => negb (cut (bin_of fb i j))) _ _ Hv)). auto.
Qed.

Lemma root_node : forall {A : arith} {E : env A} (tk : task A E) p fb y train valid weights s tc g,
  valid_call tk p fb y train valid weights -> tree_fit tk p fb y train valid weights s = Ok (tc, g) ->
  exists n lt lv, node_at (g_tree g) 0 n /\ nd_n_train n = length train /\ nd_n_valid n = length valid /\
  nd_impurity n = None /\ nd_depth n = 0 /\
  slice (p_train (g_parts g)) (nd_start_train n) (nd_end_train n) = Ok lt /\ Permutation lt train /\
  slice (p_valid (g_parts g)) (nd_start_valid n) (nd_end_valid n) = Ok lv /\ Permutation lv valid.
Proof.
  intros A E tk p fb y train valid weights s tc g H Hfit.
  destruct (fit_inv tk p fb y train valid weights s tc g H Hfit) as (ts & b0 & C & V & Htr & Hva & F).
  pose proof (In_root b0 root_place) as HI. pose proof (inside_node ts tc train valid s g b0 F b0 root_place HI) as Hn.
  destruct (node_samples_slices ts tc train valid s g b0 F Htr Hva _ _ Hn) as (lt & lv & S1 & S2 & _ & _ & b & q & HI' & _ & Eid & P1 & P2).
  destruct (inside_inj b0 _ _ _ _ HI HI' (eq_sym Eid)) as [Eb Eq]. subst b q.
  destruct (inside_root_data ts tc train valid s g b0 F) as (R1 & R2 & R3 & R4).
  exists (hnode (Wof tc) b0 root_place), lt, lv.
  destruct (hnode_counts ts tc train valid s g b0 F Htr Hva b0 root_place HI) as (-> & -> & _).
  rewrite hnode_imp, hnode_depth, R1, R2. rewrite R3 in *. rewrite R4 in *. auto 10.
Qed.

Lemma two_features : forall l, NoDup l -> length l = 2 -> (forall j, In j l -> j < 2) -> In 0 l.
Proof.
  intros [|a [|b [|c l]]] Hd Hl H; try discriminate. inversion Hd as [|? ? Hab _]; subst.
  assert (Ha := H a (or_introl eq_refl)). assert (Hb := H b (or_intror (or_introl eq_refl))). simpl in *.
  destruct a as [|[|a]]; destruct b as [|[|b]]; try lia; auto.
Qed.

Example C18_tree_classification_applies : exists tc g n,
  tree_fit (clf_task env_R 3 (/ 2)%R Gini AllMods) (exR_params true 2) ex_fb ex_labels ex_train ex_valid exR_w 0 = Ok (tc, g) /\
  node_at (g_tree g) 0 n /\ nd_is_leaf n = false.
Proof.
  destruct C48_applies as (tc & g & Hfit). exists tc, g.
  assert (V : valid_fit (exR_params true 2) ex_fb ex_labels ex_train ex_valid exR_w) by (apply exR_valid_fit; [reflexivity|lia]).
  assert (HL := exR_valid_labels true 2).
  assert (HC : valid_call (clf_task env_R 3 (/ 2)%R Gini AllMods) (exR_params true 2) ex_fb ex_labels ex_train ex_valid exR_w)
    by (apply VC_classifier; auto using env_R_good).
  destruct (root_node _ _ _ _ _ _ _ _ _ _ HC Hfit) as (n & lt & lv & Hn & N1 & N2 & N3 & N4 & S1 & P1 & S2 & P2).
  exists n. split; [exact Hfit|]. split; [exact Hn|]. destruct (nd_is_leaf n) eqn:El; [exfalso|reflexivity].
  assert (Hd : (0 <= / 2)%R) by lra.
  destruct (C26_leaf_classification env_R 3 (/ 2)%R Gini AllMods _ _ _ _ _ _ _ _ _ env_R_good env_R_sorts V exR_positive HL Hd Hfit 0 n Hn El)
    as [[H|[[_ H]|[(x & H & _)|H]]]|(fs & lt' & lv' & F1 & F2 & F3 & T1 & T2 & here & hereV & Q1 & Q2 & Hnum & _)].
  - rewrite N1 in H. cbn in H. lia.
  - rewrite N2 in H. cbn in H. lia.
  - rewrite N3 in H. discriminate.
  - rewrite N4 in H. cbn in H. lia.
  - assert (lt' = lt) by congruence. assert (lv' = lv) by congruence. subst lt' lv'.
    destruct ex_fb_packed as (_ & _ & Hnf). rewrite Hnf in F3.
    pose proof (two_features fs F1 F2 F3) as H0. destruct ex_cut as [C1 (i & C2 & C3)].
    assert (Pt : Permutation ex_train here) by (rewrite <- P1; exact Q1). assert (Pv : Permutation ex_valid hereV) by (rewrite <- P2; exact Q2).
    apply (Hnum 0 0 H0 eq_refl).
    + exists i. split; [eapply Permutation_in; eauto|exact C3].
    + eapply admissible_perm; [exact Pt|exact Pv|exact C1].
Qed.

Example C18_tree_regression_applies : exists tc g n,
  tree_fit (reg_task env_R) (exR_params true 2) ex_fb exR_y ex_train ex_valid exR_w 0 = Ok (tc, g) /\
  node_at (g_tree g) 0 n /\ nd_is_leaf n = false.
Proof.
  destruct C48_regressor_applies as (tc & g & Hfit). exists tc, g.
  assert (V : valid_fit (exR_params true 2) ex_fb exR_y ex_train ex_valid exR_w) by (apply exR_valid_fit; [reflexivity|lia]).
  assert (HC : valid_call (reg_task env_R) (exR_params true 2) ex_fb exR_y ex_train ex_valid exR_w)
    by (apply VC_regressor; auto using env_R_good).
  destruct (root_node _ _ _ _ _ _ _ _ _ _ HC Hfit) as (n & lt & lv & Hn & N1 & N2 & N3 & N4 & S1 & P1 & S2 & P2).
  exists n. split; [exact Hfit|]. split; [exact Hn|]. destruct (nd_is_leaf n) eqn:El; [exfalso|reflexivity].
  destruct (C26_leaf_regression env_R _ _ _ _ _ _ _ _ _ env_R_good env_R_sorts V exR_positive Hfit 0 n Hn El)
    as [[H|[[_ H]|[(x & H & _)|H]]]|(fs & lt' & lv' & F1 & F2 & F3 & T1 & T2 & here & hereV & Q1 & Q2 & Hnum & _)].
  - rewrite N1 in H. cbn in H. lia.
  - rewrite N2 in H. cbn in H. lia.
  - rewrite N3 in H. discriminate.
  - rewrite N4 in H. cbn in H. lia.
  - assert (lt' = lt) by congruence. assert (lv' = lv) by congruence. subst lt' lv'.
    destruct ex_fb_packed as (_ & _ & Hnf). rewrite Hnf in F3.
    pose proof (two_features fs F1 F2 F3) as H0. destruct ex_cut as [C1 (i & C2 & C3)].
    assert (Pt : Permutation ex_train here) by (rewrite <- P1; exact Q1). assert (Pv : Permutation ex_valid hereV) by (rewrite <- P2; exact Q2).
    apply (Hnum 0 0 H0 eq_refl).
    + exists i. split; [eapply Permutation_in; eauto|exact C3].
    + eapply admissible_perm; [exact Pt|exact Pv|exact C1].
Qed.
