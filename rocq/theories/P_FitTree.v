(** * What fit returns, and what holds of every node *)

Require Import List Arith Lia NArith Permutation Sorted.
Require Import Verif.Base Verif.Num Verif.M_Bitarray Verif.P_Bitarray Verif.M_Utils Verif.M_Impurity
  Verif.M_Context Verif.M_Node Verif.M_Split Verif.M_Tree Verif.M_Grow
  Verif.P_Utils Verif.P_List Verif.P_Stack Verif.P_Task Verif.P_Node
  Verif.P_Bins Verif.P_Scan Verif.P_Split Verif.P_Find Verif.P_Indices Verif.P_Tree Verif.P_Grow
  Verif.P_Repr Verif.P_Route Verif.S_Fit Verif.P_Fit.
Import ListNotations.
Local Open Scope res_scope.

Definition root_place : place := mkPl 0 None 0 0 0.

Section Fit.
Context {A : arith} {E : env A} {tk : task A E} (ts : task_shape tk).
Notation T := (num A).
Notation btree := (btree tk).
Context (tc : tctx A (tk_Y tk)) (HD : data_ok ts tc).
Notation nf := (fb_n_features (tc_fb tc)).
Notation nsamp := (fb_n_samples (tc_fb tc)).

(** The weights stored after fit. *)
Definition Wof (b : btree) : option T := if tc_aggregation tc then Some (lw (tc_step tc) b) else None.

Record fitted (train valid : list nat) (s : rng E) (g : gstate tk) (b : btree) : Prop := mkFitted {
  ft_grows : exists s' fs', grows ts tc 0 None train valid s (init_fsamp nf (tc_max_features tc)) b s' fs';
  ft_size : bsize b + 1 <= 2 * Nat.max 1 (length train);
  ft_tree : tree_is (g_tree g) (layp Wof b root_place) (preds b) (bps b);
  ft_train : p_train (g_parts g) = flat bd_train b;
  ft_valid : p_valid (g_parts g) = flat bd_valid b;
  ft_left : length (p_left (g_parts g)) = nsamp;
  ft_right : length (p_right (g_parts g)) = nsamp
}.

Section Run.
Context (Z : Prop).
Context (Hdraw : good_draws E) (Hmf : 1 <= tc_max_features tc <= nf) (Hmss : 2 <= tc_min_samples_split tc).
Context (Hpred : forall train, in_range tc train -> train <> [] \/ Z ->
  okz Z (fun _ => True) (tk_pred_end tk (pred_spec ts tc train) (asum (map (wt tc) train)))).
Context (Himp : forall train valid s features os s' c, in_range tc train -> in_range tc valid ->
  (forall j, In j features -> j < nf) ->
  tried ts tc train s features = Ok (os, s') -> In c (candidates os) -> adm_of tc train valid c = true ->
  okz Z (fun _ => True) (imp_of ts tc train c)).

Theorem grow_ok : forall train valid s, in_range tc train -> in_range tc valid -> train <> [] \/ Z ->
  length train <= nsamp -> length valid <= nsamp ->
  okz Z (fun g => exists b, fitted train valid s g b)
    (grow tk tc empty_tree (init_parts E (tc_fb tc) train valid) s (init_fsamp nf (tc_max_features tc))).
Proof.
  intros train valid s Ht Hv HZ LT LV. unfold grow. cbn [p_train p_valid init_parts].
  destruct (init_tree_is (A := A) (tk_pred0 tk) init_capacity ltac:(unfold init_capacity; lia)) as (t0 & Ht0 & Hti).
  rewrite Ht0. cbn [bind].
  destruct (push_record_is (junk_record (E := E)) (new_records (junk_record (E := E)) initial_stack_size) []
     (mkRec None 0 false None 0 (length train) 0 (length valid))) as (rs & Hpush & Hrs).
  { apply new_records_is. unfold initial_stack_size. lia. }
  rewrite Hpush. cbn [bind].
  set (g0 := mkG tk t0 (init_parts E (tc_fb tc) train valid) s (init_fsamp nf (tc_max_features tc)) rs).
  destruct (grow_sim ts tc HD Z (tc_max_features tc) Hdraw Hmf Hmss Hpred Himp (length train) 0 None train valid g0 None false
     [] [] [] [] [] [] [] []) as [(z & j & Hj & Hk)|(b & g' & G1 & G2 & G3 & G4 & G5 & G6 & G7 & G8 & G9 & G10 & G11 & G12)]; auto.
  - cbn [g0 g_parts init_parts p_train app]. rewrite app_nil_r. auto.
  - cbn [g0 g_parts init_parts p_valid app]. rewrite app_nil_r. auto.
  - cbn [g0 g_parts init_parts p_left]. rewrite map_length, seq_length. auto.
  - cbn [g0 g_parts init_parts p_right]. rewrite map_length, seq_length. auto.
  - intros q Hq. discriminate.
  - apply init_fsamp_ok.
  - assert (Hj' : j <= 2 * length train + 1) by lia.
    replace (2 * length train + 1) with (j + (2 * length train + 1 - j)) by lia. rewrite Hk. exact z.
  - assert (Hb : bsize b <= 2 * length train + 1) by lia.
    replace (2 * length train + 1) with (bsize b + (2 * length train + 1 - bsize b)) by lia. rewrite G3.
    assert (Hend : forall k, grow_loop tk k tc g' = Ok g').
    { intros k. destruct k; cbn [grow_loop]; rewrite (has_records_is _ _ G4); reflexivity. }
    rewrite Hend. cbn [bind]. cbn [set_child length app] in G5. rewrite app_nil_r in *.
    assert (F : forall g'', g_parts g'' = g_parts g' -> tree_is (g_tree g'') (layp Wof b root_place) (preds b) (bps b) ->
       fitted train valid s g'' b).
    { intros g'' Ep Et. constructor; auto.
      - exists (g_rng g'), (g_fs g'). exact G1.
      - rewrite Ep, G6. reflexivity.
      - rewrite Ep, G7. reflexivity.
      - rewrite Ep. assumption.
      - rewrite Ep. assumption. }
    destruct (tc_aggregation tc) eqn:Eagg.
    + destruct G5 as (k & yq & bq & T1 & T2 & T3 & T4 & T5 & T6 & T7 & T8 & T9).
      rewrite T4, T2. rewrite lay_length.
      pose proof (compute_weights_is (tc_step tc) (fun _ => None) b root_place k eq_refl) as Hw.
      unfold layp at 1 in Hw. cbn [root_place pl_id pl_par pl_st pl_sv pl_bp] in Hw. rewrite Hw. cbn [bind okz].
      exists b. apply F; [reflexivity|].
      exists k, yq, bq. cbn [g_tree with_nodes tr_max_depth tr_node_count tr_capacity tr_nodes tr_y_pred tr_bp tr_bp_capacity tr_bp_end].
      rewrite layp_length. rewrite lay_length in *. repeat split; auto.
      assert (EW : forall b', layp (fun b => Some (lw (tc_step tc) b)) b' root_place = layp Wof b' root_place).
      { intro b'. unfold Wof. rewrite Eagg. reflexivity. }
      rewrite EW. reflexivity.
    + cbn [okz]. exists b. apply F; auto. unfold Wof. rewrite Eagg. exact G5.
Qed.
End Run.

(** ** What holds of every sub-tree *)

Lemma chosen_testable : forall train valid features c i sp, (forall j, In j features -> j < nf) ->
  chosen ts tc train valid features c i sp -> testable nf sp.
Proof.
  intros train valid features c i sp Hf C. split; [apply Hf; apply (ch_in C)|].
  intros Ec. rewrite (ch_part C), Ec. split; [|apply sort_bins_sorted].
  destruct (ch_prefix C) as (p0 & b0 & post & _ & Eq & _). rewrite Eq. intros H.
  assert (HP := sort_bins_perm (p0 ++ [b0])). rewrite H in HP. apply Permutation_nil in HP. destruct p0; discriminate.
Qed.

Lemma grows_testable : forall depth imp train valid s fs b s' fs', grows ts tc depth imp train valid s fs b s' fs' ->
  inner (testable nf) b.
Proof.
  intros depth imp train valid s fs b s' fs' H. induction H; simpl; auto.
  split; [|split; auto]. eapply chosen_testable; eauto.
Qed.

Lemma in_range_filter : forall f l, in_range tc l -> in_range tc (filter f l).
Proof. intros f l H i Hi. apply H. apply filter_In in Hi. tauto. Qed.

Lemma inside_grows : forall depth imp train valid s fs b s' fs' p b' p',
  grows ts tc depth imp train valid s fs b s' fs' -> in_range tc train -> in_range tc valid -> inside b p b' p' ->
  in_range tc (bd_train (broot b')) /\ in_range tc (bd_valid (broot b')) /\
  exists s1 fs1 s2 fs2, grows ts tc (bd_depth (broot b')) (bd_imp (broot b')) (bd_train (broot b')) (bd_valid (broot b')) s1 fs1 b' s2 fs2.
Proof.
  intros depth imp train valid s fs b s' fs' p b' p' HG Ht Hv HI.
  induction HI as [|d l r p1 HI IH|d l r p1 HI IH].
  - destruct (grows_root ts tc _ _ _ _ _ _ _ _ _ HG) as (-> & -> & -> & ->). split; [auto|]. split; [auto|]. eauto.
  - destruct IH as (I1 & I2 & s1 & fs1 & s2 & fs2 & G). cbn [broot] in *. inversion G; subst.
    match goal with H : grows _ _ _ (Some (sp_imp_right _)) _ _ _ _ _ _ _ |- _ =>
      destruct (grows_root ts tc _ _ _ _ _ _ _ _ _ H) as (E1 & E2 & E3 & E4) end.
    rewrite E1, E2, E3, E4. cbn [bd_train bd_valid] in *. split; [apply in_range_filter; auto|]. split; [apply in_range_filter; auto|]. eauto.
  - destruct IH as (I1 & I2 & s1 & fs1 & s2 & fs2 & G). cbn [broot] in *. inversion G; subst.
    match goal with H : grows _ _ _ (Some (sp_imp_left _)) _ _ _ _ _ _ _ |- _ =>
      destruct (grows_root ts tc _ _ _ _ _ _ _ _ _ H) as (E1 & E2 & E3 & E4) end.
    rewrite E1, E2, E3, E4. cbn [bd_train bd_valid] in *. split; [apply in_range_filter; auto|]. split; [apply in_range_filter; auto|]. eauto.
Qed.

(** The two children of an inner node. *)
Record children (d : bdata tk) (l r : btree) : Prop := mkChildren {
  cd_chosen : exists features c i, (forall j, In j features -> j < nf) /\ chosen ts tc (bd_train d) (bd_valid d) features c i (bd_sp d);
  cd_stop : exists features p, stop_test tk tc (nctx_spec ts tc features (bd_train d) (bd_valid d) p) (bd_depth d) (bd_imp d) = false;
  cd_train_l : bd_train (broot l) = filter (goes tc (bd_sp d)) (bd_train d);
  cd_train_r : bd_train (broot r) = filter (stays tc (bd_sp d)) (bd_train d);
  cd_valid_l : bd_valid (broot l) = filter (goes tc (bd_sp d)) (bd_valid d);
  cd_valid_r : bd_valid (broot r) = filter (stays tc (bd_sp d)) (bd_valid d);
  cd_depth_l : bd_depth (broot l) = bd_depth d + 1;
  cd_depth_r : bd_depth (broot r) = bd_depth d + 1;
  cd_imp_l : bd_imp (broot l) = Some (sp_imp_left (bd_sp d));
  cd_imp_r : bd_imp (broot r) = Some (sp_imp_right (bd_sp d))
}.

Lemma grows_children : forall depth imp train valid s fs d l r s' fs',
  grows ts tc depth imp train valid s fs (BNode d l r) s' fs' -> children d l r.
Proof.
  intros depth imp train valid s fs d l r s' fs' G. inversion G; subst.
  match goal with H : grows _ _ _ (Some (sp_imp_right _)) _ _ _ _ _ _ _ |- _ =>
    destruct (grows_root ts tc _ _ _ _ _ _ _ _ _ H) as (E1 & E2 & E3 & E4) end.
  match goal with H : grows _ _ _ (Some (sp_imp_left _)) _ _ _ _ _ _ _ |- _ =>
    destruct (grows_root ts tc _ _ _ _ _ _ _ _ _ H) as (F1 & F2 & F3 & F4) end.
  constructor; cbn [bd_train bd_valid bd_sp bd_depth bd_imp]; eauto.
Qed.

(** Node statistics stored in a sub-tree. *)
Lemma grows_nc : forall depth imp train valid s fs b s' fs', grows ts tc depth imp train valid s fs b s' fs' ->
  exists features p, NoDup features /\ (forall j, In j features -> j < nf) /\
    tk_pred_end tk (pred_spec ts tc train) (asum (map (wt tc) train)) = Ok p /\
    bd_nc (broot b) = nctx_spec ts tc features train valid p.
Proof. intros depth imp train valid s fs b s' fs' G. inversion G; subst; cbn [broot bd_nc]; eauto 10. Qed.

(** ** Samples *)

Lemma flat_perm : forall depth imp train valid s fs b s' fs', grows ts tc depth imp train valid s fs b s' fs' ->
  Permutation (flat bd_train b) train /\ Permutation (flat bd_valid b) valid.
Proof.
  intros depth imp train valid s fs b s' fs' H. induction H; simpl; auto.
  destruct IHgrows1 as [R1 R2]. destruct IHgrows2 as [L1 L2]. rewrite R1, R2, L1, L2.
  split; apply filter_partition_perm.
Qed.

Lemma inside_range : forall (b0 : btree) p0 b p, inside b0 p0 b p ->
  pl_id p0 <= pl_id p /\ pl_id p + bsize b <= pl_id p0 + bsize b0.
Proof.
  intros b0 p0 b p H. induction H; cbn [rplace lplace pl_id bsize] in *; lia.
Qed.

Lemma inside_cons : forall (b0 : btree) p0 b p, inside b0 p0 b p -> (b = b0 /\ p = p0) \/
  exists d l r, b0 = BNode d l r /\ (inside r (rplace p0 d l r) b p \/ inside l (lplace p0 d l r) b p).
Proof.
  intros b0 p0 b p H. induction H as [|d l r p H IH|d l r p H IH].
  - left. auto.
  - right. destruct IH as [[<- ->]|(d' & l' & r' & -> & [HI|HI])].
    + exists d, l, r. split; auto. left. constructor.
    + exists d', l', r'. split; auto. left. apply In_right. auto.
    + exists d', l', r'. split; auto. right. apply In_right. auto.
  - right. destruct IH as [[<- ->]|(d' & l' & r' & -> & [HI|HI])].
    + exists d, l, r. split; auto. right. constructor.
    + exists d', l', r'. split; auto. left. apply In_left. auto.
    + exists d', l', r'. split; auto. right. apply In_left. auto.
Qed.

(** The identifiers met by sample [i] of the training data. *)
Definition visits (b : btree) (p : place) (i id : nat) : bool :=
  existsb (fun q => pl_id (snd q) =? id) (bpath (fun j => bin tc j i) b p).

Lemma bpath_inside : forall f (b : btree) p q, In q (bpath f b p) -> inside b p (fst q) (snd q).
Proof.
  intros f b p q. rewrite bpath_split, in_app_iff. intros [H|[<-|[]]]; [apply banc_inside in H; auto|apply bleaf_inside].
Qed.

Lemma visits_range : forall b p i id, visits b p i id = true -> pl_id p <= id < pl_id p + bsize b.
Proof.
  intros b p i id H. unfold visits in H. apply existsb_exists in H. destruct H as (q & Hq & E1). apply Nat.eqb_eq in E1.
  apply bpath_inside in Hq. apply inside_range in Hq. pose proof (bsize_pos (fst q)). lia.
Qed.

Lemma filter_filter : forall {X} (f g : X -> bool) l, filter f (filter g l) = filter (fun x => (g x && f x)%bool) l.
Proof.
  induction l as [|x l IH]; simpl; auto. destruct (g x); simpl; [destruct (f x); rewrite IH; auto|auto].
Qed.

(** The samples of a node are those whose path visits it. *)
Lemma node_samples : forall depth imp train valid s fs b0 s' fs' p0 b p,
  grows ts tc depth imp train valid s fs b0 s' fs' -> inside b0 p0 b p ->
  bd_train (broot b) = filter (fun i => visits b0 p0 i (pl_id p)) train /\
  bd_valid (broot b) = filter (fun i => visits b0 p0 i (pl_id p)) valid.
Proof.
  intros depth imp train valid s fs b0 s' fs' p0 b p HG HI.
  assert (Hroot : forall (b0 : btree) p0 i, visits b0 p0 i (pl_id p0) = true).
  { intros b1 p1 i. unfold visits. destruct b1; cbn [bpath existsb snd]; rewrite Nat.eqb_refl; reflexivity. }
  revert p0 HI. induction HG as [depth imp train valid s fs s1 fs1 p1 s2 H1 H2 H3 H4 nc H5
    |depth imp train valid s fs s1 fs1 p1 sp s2 r s3 fs3 l s4 fs4 c i H1 H2 H3 H4 nc H5 H6 H7 HGr IHr HGl IHl]; intros p0 HI.
  - apply inside_cons in HI. destruct HI as [[-> ->]|(d & l & r & Eb & _)]; [|discriminate].
    cbn [broot bd_train bd_valid]. rewrite !filter_all by auto. auto.
  - apply inside_cons in HI. destruct HI as [[-> ->]|(d & l' & r' & Eb & HI)].
    { cbn [broot bd_train bd_valid]. rewrite !filter_all by auto. auto. }
    inversion Eb; subst d l' r'. set (d := mkBD depth imp train valid nc sp) in *. clear Eb.
    assert (Hv : forall i, visits (BNode d l r) p0 i (pl_id p) =
      ((pl_id p0 =? pl_id p) || (if goes tc sp i then visits l (lplace p0 d l r) i (pl_id p) else visits r (rplace p0 d l r) i (pl_id p)))%bool).
    { intro i0. unfold visits. cbn [bpath existsb snd bd_sp d]. unfold goes. destruct (to_left sp _); reflexivity. }
    pose proof (bsize_pos b) as Hb1.
    destruct HI as [HI|HI]; pose proof (inside_range _ _ _ _ HI) as HR.
    + destruct (IHr _ HI) as [-> ->]. rewrite !filter_filter. cbn [rplace pl_id] in HR.
      split; apply filter_ext; intro i0; rewrite Hv; destruct (Nat.eqb_spec (pl_id p0) (pl_id p)); try lia; cbn [orb];
      unfold stays; destruct (goes tc sp i0); cbn [negb andb]; auto; symmetry;
      destruct (visits l (lplace p0 d l r) i0 (pl_id p)) eqn:Ev; auto; apply visits_range in Ev; cbn [lplace pl_id] in Ev; lia.
    + destruct (IHl _ HI) as [-> ->]. rewrite !filter_filter. cbn [lplace pl_id] in HR.
      split; apply filter_ext; intro i0; rewrite Hv; destruct (Nat.eqb_spec (pl_id p0) (pl_id p)); try lia; cbn [orb];
      destruct (goes tc sp i0); cbn [negb andb]; auto; symmetry;
      destruct (visits r (rplace p0 d l r) i0 (pl_id p)) eqn:Ev; auto; apply visits_range in Ev; cbn [rplace pl_id] in Ev; lia.
Qed.

(** Where the samples of a node are in the partition arrays. *)
Lemma inside_flat : forall depth imp train valid s fs b0 s' fs' p0 b p lT lV,
  grows ts tc depth imp train valid s fs b0 s' fs' -> inside b0 p0 b p ->
  holds lT (flat bd_train b0) (pl_st p0) -> holds lV (flat bd_valid b0) (pl_sv p0) ->
  holds lT (flat bd_train b) (pl_st p) /\ holds lV (flat bd_valid b) (pl_sv p).
Proof.
  intros depth imp train valid s fs b0 s' fs' p0 b p lT lV HG HI HT HV.
  assert (HL : forall b, inside b0 p0 b p -> True) by auto. clear HL.
  induction HI as [|d l r p HI IH|d l r p HI IH]; auto; destruct IH as [I1 I2]; cbn [flat] in I1, I2;
    apply holds_app in I1; apply holds_app in I2; cbn [rplace lplace pl_st pl_sv]; [|tauto].
  assert (Hlen : length (flat bd_train l) = length (bd_train (broot l)) /\ length (flat bd_valid l) = length (bd_valid (broot l))).
  { assert (HIl : inside b0 p0 l (lplace p d l r)) by (apply In_left; auto).
    assert (G : exists depth imp train valid s1 fs1 s2 fs2, grows ts tc depth imp train valid s1 fs1 l s2 fs2).
    { clear - HG HIl. generalize dependent (lplace p d l r). intros p1 HIl.
      remember l as l0. clear Heql0 l. revert p0 p1 HIl.
      induction HG; intros q0 q1 HIl; apply inside_cons in HIl.
      - destruct HIl as [[-> _]|(? & ? & ? & ? & _)]; [|discriminate]. do 8 eexists. eapply GLeaf; eauto.
      - destruct HIl as [[-> _]|(d' & l' & r' & Eb & [HIl|HIl])].
        + do 8 eexists. eapply GNode; eauto.
        + inversion Eb; subst. eapply IHHG1; eauto.
        + inversion Eb; subst. eapply IHHG2; eauto. }
    destruct G as (? & ? & t1 & v1 & ? & ? & ? & ? & G). destruct (flat_perm _ _ _ _ _ _ _ _ _ G) as [P1 P2].
    destruct (grows_root ts tc _ _ _ _ _ _ _ _ _ G) as (_ & _ & -> & ->).
    rewrite (Permutation_length P1), (Permutation_length P2). auto. }
  destruct Hlen as [L1 L2]. rewrite L1 in I1. rewrite L2 in I2. tauto.
Qed.

End Fit.
