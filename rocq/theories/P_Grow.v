(** * Growing a tree: the loop over the stack builds a binary tree *)

Require Import List Arith Lia NArith Permutation.
Require Import Verif.Base Verif.Num Verif.M_Bitarray Verif.P_Bitarray Verif.M_Utils Verif.M_Impurity
  Verif.M_Context Verif.M_Node Verif.M_Split Verif.M_Tree Verif.M_Grow
  Verif.P_Utils Verif.P_List Verif.P_Stack Verif.P_Task Verif.P_Node
  Verif.P_Bins Verif.P_Scan Verif.P_Split Verif.P_Find Verif.P_Indices Verif.P_Tree.
Import ListNotations.
Local Open Scope res_scope.

(** ** Binary trees with the data of their nodes *)

Section BTree.
Context {A : arith} {E : env A} (tk : task A E).
Notation T := (num A).

Record bdata : Type := mkBD {
  bd_depth : nat; bd_imp : option T; bd_train : list nat; bd_valid : list nat;
  bd_nc : nctx tk; bd_sp : split tk
}.

Inductive btree : Type :=
| BLeaf (d : bdata)
| BNode (d : bdata) (l r : btree).

Definition broot (b : btree) : bdata := match b with BLeaf d => d | BNode d _ _ => d end.

Fixpoint bsize (b : btree) : nat :=
  match b with BLeaf _ => 1 | BNode _ l r => S (bsize r + bsize l) end.

(** The samples of the leaves, from left to right. *)
Fixpoint flat (f : bdata -> list nat) (b : btree) : list nat :=
  match b with BLeaf d => f d | BNode _ l r => flat f l ++ flat f r end.

Definition own (d : bdata) : list nat := if sp_is_cat (bd_sp d) then sp_partition (bd_sp d) else [].

Fixpoint bps (b : btree) : list nat :=
  match b with BLeaf d => own d | BNode d l r => own d ++ bps r ++ bps l end.

(** The predictions in the order in which nodes are created: node, right, left. *)
Fixpoint preds (b : btree) : list (tk_P tk) :=
  match b with
  | BLeaf d => [nc_pred (bd_nc d)]
  | BNode d l r => nc_pred (bd_nc d) :: preds r ++ preds l
  end.

Definition mknode (d : bdata) (leaf : bool) (cl cr : option nat) (id : nat) (par : option nat)
  (st sv bp : nat) (w : option T) : node A :=
  mkNode id par cl cr leaf false (bd_depth d)
    (if leaf then None else Some (sp_feature (bd_sp d)))
    (if leaf then None else Some (sp_threshold (bd_sp d)))
    (bd_imp d) (nc_loss (bd_nc d)) w (nc_n_train (bd_nc d)) (nc_n_valid (bd_nc d))
    (nc_w_train (bd_nc d)) (nc_w_valid (bd_nc d))
    st (st + length (bd_train d)) sv (sv + length (bd_valid d))
    (sp_is_cat (bd_sp d))
    (match own d with [] => 0 | _ => bp end)
    (match own d with [] => 0 | _ => bp + length (own d) end).

(** The cells of the nodes array that hold [b], when its root has identifier [id]. *)
Fixpoint lay (W : btree -> option T) (b : btree) (id : nat) (par : option nat) (st sv bp : nat) : list (node A) :=
  match b with
  | BLeaf d => [mknode d true None None id par st sv bp (W b)]
  | BNode d l r =>
      mknode d false (Some (id + 1 + bsize r)) (Some (id + 1)) id par st sv bp (W b) ::
      lay W r (id + 1) (Some id) (st + length (bd_train (broot l))) (sv + length (bd_valid (broot l)))
        (bp + length (own d)) ++
      lay W l (id + 1 + bsize r) (Some id) st sv (bp + length (own d) + length (bps r))
  end.

Lemma lay_length : forall W b id par st sv bp, length (lay W b id par st sv bp) = bsize b.
Proof.
  intros W b. induction b as [d|d l IHl r IHr]; intros; simpl; auto.
  rewrite app_length, IHl, IHr. auto.
Qed.

Lemma preds_length : forall b, length (preds b) = bsize b.
Proof. induction b; simpl; auto. rewrite app_length. lia. Qed.

Lemma bsize_pos : forall b, 1 <= bsize b.
Proof. destruct b; simpl; lia. Qed.

End BTree.
Arguments mkBD {A E tk}. Arguments bd_depth {A E tk}. Arguments bd_imp {A E tk}. Arguments bd_train {A E tk}.
Arguments bd_valid {A E tk}. Arguments bd_nc {A E tk}. Arguments bd_sp {A E tk}.
Arguments BLeaf {A E tk}. Arguments BNode {A E tk}. Arguments broot {A E tk}. Arguments bsize {A E tk}.
Arguments flat {A E tk}. Arguments own {A E tk}. Arguments bps {A E tk}. Arguments preds {A E tk}.
Arguments mknode {A E tk}. Arguments lay {A E tk}. Arguments lay_length {A E tk}.
Arguments preds_length {A E tk}. Arguments bsize_pos {A E tk}.

Section Grow.
Context {A : arith} {E : env A} {tk : task A E} (ts : task_shape tk).
Notation T := (num A).
Context (tc : tctx A (tk_Y tk)) (HD : data_ok ts tc).

Notation nf := (fb_n_features (tc_fb tc)).
Notation nsamp := (fb_n_samples (tc_fb tc)).

Definition goes (sp : split tk) (i : nat) : bool := to_left sp (bin tc (sp_feature sp) i).
Definition stays (sp : split tk) (i : nat) : bool := negb (goes sp i).

(** What the loop does for one node and everything below it. *)
Inductive grows : nat -> option T -> list nat -> list nat -> rng E -> fsamp -> btree tk -> rng E -> fsamp -> Prop :=
| GLeaf : forall depth imp train valid s fs s1 fs1 p s2,
    sample_features s fs = Ok (s1, fs1) ->
    NoDup (fs_sampled fs1) -> (forall j, In j (fs_sampled fs1) -> j < nf) ->
    tk_pred_end tk (pred_spec ts tc train) (asum (map (wt tc) train)) = Ok p ->
    let nc := nctx_spec ts tc (fs_sampled fs1) train valid p in
    choose_split tk tc nc s1 depth imp = Ok (true, reset_split tk, s2) ->
    grows depth imp train valid s fs (BLeaf (mkBD depth imp train valid nc (reset_split tk))) s2 fs1
| GNode : forall depth imp train valid s fs s1 fs1 p sp s2 r s3 fs3 l s4 fs4 c i,
    sample_features s fs = Ok (s1, fs1) ->
    NoDup (fs_sampled fs1) -> (forall j, In j (fs_sampled fs1) -> j < nf) ->
    tk_pred_end tk (pred_spec ts tc train) (asum (map (wt tc) train)) = Ok p ->
    let nc := nctx_spec ts tc (fs_sampled fs1) train valid p in
    stop_test tk tc nc depth imp = false ->
    find_node_split tk tc nc s1 = Ok (sp, s2) ->
    chosen ts tc train valid (fs_sampled fs1) c i sp ->
    grows (depth + 1) (Some (sp_imp_right sp)) (filter (stays sp) train) (filter (stays sp) valid) s2 fs1 r s3 fs3 ->
    grows (depth + 1) (Some (sp_imp_left sp)) (filter (goes sp) train) (filter (goes sp) valid) s3 fs3 l s4 fs4 ->
    grows depth imp train valid s fs (BNode (mkBD depth imp train valid nc sp) l r) s4 fs4.

Lemma grows_root : forall depth imp train valid s fs b s' fs', grows depth imp train valid s fs b s' fs' ->
  bd_depth (broot b) = depth /\ bd_imp (broot b) = imp /\ bd_train (broot b) = train /\ bd_valid (broot b) = valid.
Proof. intros depth imp train valid s fs b s' fs' H. destruct H; simpl; auto. Qed.

Lemma with_left_right : forall d id par st sv bp w a b x y,
  with_left (with_right (mknode (tk := tk) d false x y id par st sv bp w) a) b = mknode d false b a id par st sv bp w.
Proof. reflexivity. Qed.

Lemma nil_or : forall {X} (l : list X), 1 <= length l -> l <> [].
Proof. intros X [|x l] H; [simpl in H; lia|discriminate]. Qed.

Context (Z : Prop).
Context (mf : nat) (Hdraw : good_draws E) (Hmf : 1 <= mf <= nf) (Hmss : 2 <= tc_min_samples_split tc).
Context (Hpred : forall train, in_range tc train -> train <> [] \/ Z ->
  okz Z (fun _ => True) (tk_pred_end tk (pred_spec ts tc train) (asum (map (wt tc) train)))).
Context (Himp : forall train valid s features os s' c, in_range tc train -> in_range tc valid ->
  (forall j, In j features -> j < nf) ->
  tried ts tc train s features = Ok (os, s') -> In c (candidates os) -> adm_of tc train valid c = true ->
  okz Z (fun _ => True) (imp_of ts tc train c)).

Lemma stop_valid : forall features train valid p depth imp,
  stop_test tk tc (nctx_spec ts tc features train valid p) depth imp = false ->
  (2 <= length train) /\ tc_min_samples_split tc <= length train /\
  (tc_aggregation tc = true -> valid <> [] /\ tc_min_samples_split tc <= length valid) /\
  (N.of_nat depth < tc_max_depth tc)%N /\ (forall x, imp = Some x -> aleb x a0 = false).
Proof.
  intros features train valid p depth imp H. unfold stop_test in H. cbn [nc_n_train nc_n_valid nctx_spec] in H.
  apply Bool.orb_false_elim in H. destruct H as [H H3]. apply Bool.orb_false_elim in H. destruct H as [H1 H2].
  apply N.leb_gt in H3.
  assert (Ht : tc_min_samples_split tc <= length train /\
    (tc_aggregation tc = true -> tc_min_samples_split tc <= length valid)).
  { destruct (tc_aggregation tc).
    - apply Bool.orb_false_elim in H1. destruct H1 as [H1 H1']. apply Nat.ltb_ge in H1, H1'. auto.
    - apply Nat.ltb_ge in H1. split; auto. discriminate. }
  destruct Ht as [Ht Hv]. split; [lia|]. split; [auto|]. split; [|split; [auto|]].
  - intros Ha. specialize (Hv Ha). split; [|auto]. apply nil_or. lia.
  - intros x ->. auto.
Qed.

(** The choice of a split at a node. *)
Lemma choose_ok : forall s features p train valid depth imp, in_range tc train -> in_range tc valid ->
  (forall j, In j features -> j < nf) ->
  okz Z (fun r => let '(leaf, sp, s') := r in
     if (leaf : bool) then sp = reset_split tk
     else stop_test tk tc (nctx_spec ts tc features train valid p) depth imp = false /\
          find_node_split tk tc (nctx_spec ts tc features train valid p) s = Ok (sp, s') /\
          exists c i, chosen ts tc train valid features c i sp)
    (choose_split tk tc (nctx_spec ts tc features train valid p) s depth imp).
Proof.
  intros s features p train valid depth imp Ht Hv Hf. unfold choose_split.
  destruct (stop_test tk tc _ depth imp) eqn:Es; [reflexivity|].
  destruct (stop_valid _ _ _ _ _ _ Es) as (_ & _ & Ha & _).
  pose proof (find_ok ts tc HD train valid Ht Hv Z s features p Hf) as HF.
  assert (Ha' : tc_aggregation tc = true -> valid <> []) by (intros Eg; apply Ha; auto).
  specialize (HF Ha').
  assert (HF' := HF ltac:(intros c Hadm (os & s' & H1 & H2); eapply Himp; eauto)). clear HF.
  destruct (find_node_split tk tc (nctx_spec ts tc features train valid p) s) as [[sp s']|e]; [|exact HF'].
  cbn [bind okz fst snd] in *. destruct HF' as (os & Ho & [ -> | (c & i & Hc & C)]).
  - reflexivity.
  - rewrite (ch_found C). cbn [negb]. split; auto. split; auto. exists c, i. auto.
Qed.

Notation nologw := (fun _ : btree tk => @None T).

Theorem grow_sim : forall n depth imp train valid (g : gstate tk) par il rest preT postT preV postV ns ps bs,
  length train <= n -> in_range tc train -> in_range tc valid -> train <> [] \/ Z ->
  stack_is (g_records g) (mkRec par depth il imp (length preT) (length preT + length train)
                            (length preV) (length preV + length valid) :: rest) ->
  p_train (g_parts g) = preT ++ train ++ postT -> p_valid (g_parts g) = preV ++ valid ++ postV ->
  length (p_left (g_parts g)) = nsamp -> length (p_right (g_parts g)) = nsamp ->
  length (p_train (g_parts g)) <= nsamp -> length (p_valid (g_parts g)) <= nsamp ->
  tree_is (g_tree g) ns ps bs -> length ps = length ns -> (forall q, par = Some q -> q < length ns) ->
  fs_ok nf mf (g_fs g) ->
  (Z /\ exists j, j + 1 <= 2 * Nat.max 1 (length train) /\ forall k, grow_loop tk (j + k) tc g = Err ZeroDiv) \/
  exists b g', grows depth imp train valid (g_rng g) (g_fs g) b (g_rng g') (g_fs g') /\
    bsize b + 1 <= 2 * Nat.max 1 (length train) /\
    (forall k, grow_loop tk (bsize b + k) tc g = grow_loop tk k tc g') /\
    stack_is (g_records g') rest /\
    tree_is (g_tree g')
      (set_child ns par il (length ns) ++ lay nologw b (length ns) par (length preT) (length preV) (length bs))
      (ps ++ preds b) (bs ++ bps b) /\
    p_train (g_parts g') = preT ++ flat bd_train b ++ postT /\
    p_valid (g_parts g') = preV ++ flat bd_valid b ++ postV /\
    length (flat bd_train b) = length train /\ length (flat bd_valid b) = length valid /\
    length (p_left (g_parts g')) = nsamp /\ length (p_right (g_parts g')) = nsamp /\
    fs_ok nf mf (g_fs g').
Proof.
  induction n as [n IH] using (well_founded_induction lt_wf).
  intros depth imp train valid g par il rest preT postT preV postV ns ps bs
    Hn Ht Hv HZ Hst HpT HpV HbL HbR HlT HlV HT Hps Hpar Hfs.
  destruct (sample_features_spec E (g_rng g) (g_fs g) nf mf Hdraw ltac:(lia) Hfs) as (s1 & fs1 & Hsf & Hfs1 & Hnd & Hf).
  assert (Hne : fs_sampled fs1 <> []).
  { apply nil_or. destruct Hfs1 as (_ & _ & Hl & _). lia. }
  assert (Hhas : has_records (g_records g) = true) by (rewrite (has_records_is _ _ Hst); auto).
  destruct (pop_record_is _ _ _ Hst) as (rs & Hpop & Hrs).
  assert (Hstep : forall k, grow_loop tk (S k) tc g = let* g' := grow_step tk tc g in grow_loop tk k tc g').
  { intro k. cbn [grow_loop]. rewrite Hhas. reflexivity. }
  assert (Hctx : compute_node_context tk tc (g_parts g) (g_rng g) (g_fs g) (length preT) (length preT + length train)
     (length preV) (length preV + length valid) =
     let* p := tk_pred_end tk (pred_spec ts tc train) (asum (map (wt tc) train)) in
     Ok (nctx_spec ts tc (fs_sampled fs1) train valid p, s1, fs1)).
  { unfold compute_node_context. rewrite Hsf. cbn [bind]. rewrite HpT, HpV, !slice_mid. cbn [bind].
    rewrite (node_stats_spec ts tc HD (fs_sampled fs1) train valid Hne Hf Ht Hv).
    destruct (tk_pred_end tk (pred_spec ts tc train) (asum (map (wt tc) train))); reflexivity. }
  specialize (Hpred train Ht HZ).
  destruct (tk_pred_end tk (pred_spec ts tc train) (asum (map (wt tc) train))) as [p|e] eqn:Hp.
  2:{ simpl in Hpred. destruct e; try destruct Hpred. left. split; [auto|].
      exists 1. split; [lia|]. intros k. cbn [Nat.add]. rewrite Hstep. unfold grow_step. rewrite Hpop. cbn [bind].
      cbn [rc_start_train rc_end_train rc_start_valid rc_end_valid]. rewrite Hctx. reflexivity. }
  clear Hpred. cbn [bind] in Hctx. set (nc := nctx_spec ts tc (fs_sampled fs1) train valid p) in *.
  pose proof (choose_ok s1 (fs_sampled fs1) p train valid depth imp Ht Hv Hf) as Hch. fold nc in Hch.
  destruct (choose_split tk tc nc s1 depth imp) as [[[leaf sp] s2]|e] eqn:Ech.
  2:{ simpl in Hch. destruct e; try destruct Hch. left. split; [auto|].
      exists 1. split; [lia|]. intros k. cbn [Nat.add]. rewrite Hstep. unfold grow_step. rewrite Hpop. cbn [bind].
      cbn [rc_start_train rc_end_train rc_start_valid rc_end_valid]. rewrite Hctx. cbn [bind rc_depth rc_impurity]. rewrite Ech. reflexivity. }
  cbn [okz] in Hch.
  set (d := mkBD depth imp train valid nc sp).
  destruct (add_node_tree_is (mem E) (tk_pred0 tk) (g_tree g) ns ps bs
     (mkNew par depth il leaf (sp_feature sp) (sp_threshold sp) imp (nc_n_train nc) (nc_n_valid nc) (nc_w_train nc)
        (nc_w_valid nc) (length preT) (length preT + length train) (length preV) (length preV + length valid) (nc_loss nc)
        (sp_is_cat sp) (sp_partition sp)) HT Hpar) as (t1 & Hadd & HT1).
  cbn [nn_parent nn_is_left] in HT1.
  match type of HT1 with context [fresh ?x ?a ?b] => change (fresh x a b) with
    (mknode d leaf (if leaf then None else Some 0) (if leaf then None else Some 0) (length ns) par
       (length preT) (length preV) (length bs) None) in HT1 end.
  assert (Eown : own_partition (mkNew par depth il leaf (sp_feature sp) (sp_threshold sp) imp (nc_n_train nc) (nc_n_valid nc) (nc_w_train nc)
        (nc_w_valid nc) (length preT) (length preT + length train) (length preV) (length preV + length valid) (nc_loss nc)
        (sp_is_cat sp) (sp_partition sp)) = own d) by reflexivity.
  rewrite Eown in HT1. clear Eown.
  destruct (set_pred_is _ _ _ _ (nc_pred nc) HT1) as (yp & Hyp & HT2).
  { rewrite app_length, set_child_length. simpl. lia. }
  rewrite Hps in Hyp.
  destruct leaf.
  - (* leaf *)
    subst sp. right. exists (BLeaf d), (mkG tk (with_y_pred tk t1 yp) (g_parts g) s2 fs1 rs).
    cbn [g_tree g_parts g_rng g_fs g_records bsize flat lay preds bps].
    split; [apply (GLeaf depth imp train valid (g_rng g) (g_fs g) s1 fs1 p s2); auto|]. split; [lia|]. split.
    { intros k. cbn [Nat.add]. rewrite Hstep. unfold grow_step. rewrite Hpop. cbn [bind].
      cbn [rc_start_train rc_end_train rc_start_valid rc_end_valid]. rewrite Hctx. cbn [bind rc_depth rc_impurity].
      rewrite Ech. cbn [bind rc_parent rc_is_left]. rewrite Hadd. cbn [bind]. rewrite Hyp. reflexivity. }
    split; [auto|]. split; [exact HT2|]. split; [auto|]. split; [auto|]. split; [auto|]. split; [auto|]. auto.
  - (* split *)
    destruct Hch as (Hstop & Hfind & c & i & C).
    destruct (stop_valid _ _ _ _ _ _ Hstop) as (Hlen2 & _ & _ & _).
    pose proof (ch_in C) as Hin.
    destruct (split_indices_spec tc sp (to_left sp) (g_parts g) preT train postT preV valid postV)
      as (ps' & S1 & S2 & S3 & S4 & S5); auto.
    { apply (do_wf _ tc HD). }
    { intro b. eapply chosen_goes_left; eauto. }
    { rewrite HbL. rewrite HpT, !app_length in HlT. lia. }
    { rewrite HbR. rewrite HpT, !app_length in HlT. lia. }
    { rewrite HbL. rewrite HpV, !app_length in HlV. lia. }
    { rewrite HbR. rewrite HpV, !app_length in HlV. lia. }
    change (fun i => negb (to_left sp (binv (tc_fb tc) (sp_feature sp) i))) with (stays sp) in *.
    change (fun i => to_left sp (binv (tc_fb tc) (sp_feature sp) i)) with (goes sp) in *.
    set (tl := filter (goes sp) train) in *. set (tr := filter (stays sp) train) in *.
    set (vl := filter (goes sp) valid) in *. set (vr := filter (stays sp) valid) in *.
    assert (LT : length tl + length tr = length train) by apply (filter_partition_length (goes sp) train).
    assert (LV : length vl + length vr = length valid) by apply (filter_partition_length (goes sp) valid).
    destruct (chosen_nonempty _ _ _ _ _ _ _ _ C) as [P1 P2].
    assert (P1' : 1 <= length tl) by (rewrite (ch_n_left C) in P1; exact P1).
    assert (P2' : 1 <= length tr) by (rewrite (ch_n_right C) in P2; exact P2).
    destruct (push_record_is (junk_record (E := E)) rs rest
       (mkRec (Some (length ns)) (depth + 1) true (Some (sp_imp_left sp))
         (length preT) (length preT + length tl) (length preV) (length preV + length vl)) Hrs) as (rs1 & Hpush1 & Hrs1).
    destruct (push_record_is (junk_record (E := E)) rs1 _
       (mkRec (Some (length ns)) (depth + 1) false (Some (sp_imp_right sp))
         (length preT + length tl) (length preT + length train) (length preV + length vl) (length preV + length valid)) Hrs1)
       as (rs2 & Hpush2 & Hrs2).
    set (g1 := mkG tk (with_y_pred tk t1 yp) ps' s2 fs1 rs2).
    assert (H1 : forall k, grow_loop tk (S k) tc g = grow_loop tk k tc g1).
    { intros k. rewrite Hstep. unfold grow_step. rewrite Hpop. cbn [bind].
      cbn [rc_start_train rc_end_train rc_start_valid rc_end_valid]. rewrite Hctx. cbn [bind rc_depth rc_impurity].
      rewrite Ech. cbn [bind rc_parent rc_is_left]. rewrite Hadd. cbn [bind]. rewrite Hyp. cbn [bind].
      rewrite S1. cbn [bind]. rewrite Hpush1. cbn [bind]. rewrite Hpush2. reflexivity. }
    set (ns1 := set_child ns par il (length ns)) in *.
    assert (Ens1 : length ns1 = length ns) by apply set_child_length.
    set (root0 := mknode d false (Some 0) (Some 0) (length ns) par (length preT) (length preV) (length bs) None).
    change (mknode d false (if false then None else Some 0) (if false then None else Some 0) (length ns) par (length preT)
              (length preV) (length bs) None) with root0 in *.
    assert (Rt : in_range tc tl) by (intros x Hx; apply Ht; apply filter_In in Hx; tauto).
    assert (Rt' : in_range tc tr) by (intros x Hx; apply Ht; apply filter_In in Hx; tauto).
    assert (Rv : in_range tc vl) by (intros x Hx; apply Hv; apply filter_In in Hx; tauto).
    assert (Rv' : in_range tc vr) by (intros x Hx; apply Hv; apply filter_In in Hx; tauto).
    (* the right child *)
    destruct (IH (length tr) ltac:(lia) (depth + 1) (Some (sp_imp_right sp)) tr vr g1 (Some (length ns)) false
       (mkRec (Some (length ns)) (depth + 1) true (Some (sp_imp_left sp))
         (length preT) (length preT + length tl) (length preV) (length preV + length vl) :: rest)
       (preT ++ tl) postT (preV ++ vl) postV (ns1 ++ [root0]) (ps ++ [nc_pred nc]) (bs ++ own d))
      as [(z & j & Hj & Hk)|(br & g2 & G1 & G2 & G3 & G4 & G5 & G6 & G7 & G8 & G9 & G10 & G11 & G12)]; auto.
    { left. apply nil_or. lia. }
    { rewrite !app_length. rewrite <- !Nat.add_assoc, LT, LV. exact Hrs2. }
    { cbn [g1 g_parts]. rewrite S2, <- !app_assoc. reflexivity. }
    { cbn [g1 g_parts]. rewrite S3, <- !app_assoc. reflexivity. }
    { cbn [g1 g_parts]. congruence. }
    { cbn [g1 g_parts]. congruence. }
    { cbn [g1 g_parts]. rewrite S2. rewrite HpT in HlT. rewrite !app_length in *. lia. }
    { cbn [g1 g_parts]. rewrite S3. rewrite HpV in HlV. rewrite !app_length in *. lia. }
    { rewrite !app_length, Ens1. simpl. lia. }
    { intros q Hq. inversion Hq. rewrite app_length, Ens1. simpl. lia. }
    { left. split; auto. exists (S j). split; [lia|]. intros k. cbn [Nat.add]. rewrite H1. apply Hk. }
    cbn [g1 g_rng g_fs] in G1.
    assert (Eid : length (ns1 ++ [root0]) = length ns + 1) by (rewrite app_length, Ens1; reflexivity).
    rewrite Eid in G5. rewrite set_child_at in G5 by exact Ens1.
    rewrite !app_length in G5.
    set (layr := lay nologw br (length ns + 1) (Some (length ns)) (length preT + length tl) (length preV + length vl)
                   (length bs + length (own d))) in *.
    (* the left child *)
    destruct (IH (length tl) ltac:(lia) (depth + 1) (Some (sp_imp_left sp)) tl vl g2 (Some (length ns)) true rest
       preT (flat bd_train br ++ postT) preV (flat bd_valid br ++ postV)
       ((ns1 ++ [with_right root0 (Some (length ns + 1))]) ++ layr) ((ps ++ [nc_pred nc]) ++ preds br) ((bs ++ own d) ++ bps br))
      as [(z & j & Hj & Hk)|(bl & g3 & K1 & K2 & K3 & K4 & K5 & K6 & K7 & K8 & K9 & K10 & K11 & K12)]; auto.
    { left. apply nil_or. lia. }
    { rewrite G6, <- !app_assoc. reflexivity. }
    { rewrite G7, <- !app_assoc. reflexivity. }
    { rewrite G6. rewrite HpT in HlT. rewrite !app_length in *. lia. }
    { rewrite G7. rewrite HpV in HlV. rewrite !app_length in *. lia. }
    { rewrite !app_length, Ens1. unfold layr. rewrite lay_length, preds_length. simpl. lia. }
    { intros q Hq. inversion Hq. rewrite !app_length, Ens1. simpl. lia. }
    { left. split; auto. exists (S (bsize br + j)). split; [lia|]. intros k. cbn [Nat.add]. rewrite H1.
      rewrite <- Nat.add_assoc, G3. apply Hk. }
    right. exists (BNode d bl br), g3.
    destruct (grows_root _ _ _ _ _ _ _ _ _ K1) as (_ & _ & El & Ev).
    cbn [bsize flat lay preds bps].
    split; [apply (GNode depth imp train valid (g_rng g) (g_fs g) s1 fs1 p sp s2 br (g_rng g2) (g_fs g2) bl (g_rng g3) (g_fs g3) c i); auto|]. split; [lia|]. split.
    { intros k. cbn [Nat.add]. rewrite H1, <- Nat.add_assoc, G3, K3. reflexivity. }
    split; [auto|]. split.
    { assert (Eid2 : length ((ns1 ++ [with_right root0 (Some (length ns + 1))]) ++ layr) = length ns + 1 + bsize br).
      { rewrite !app_length, Ens1. unfold layr. rewrite lay_length. simpl. lia. }
      rewrite Eid2 in K5. rewrite <- (app_assoc ns1) in K5.
      cbn [app] in K5. rewrite set_child_at in K5 by exact Ens1. rewrite El, Ev. fold layr.
      rewrite !app_length in K5. rewrite <- !app_assoc in K5. cbn [app] in K5. exact K5. }
    split; [rewrite K6, <- !app_assoc; reflexivity|].
    split; [rewrite K7, <- !app_assoc; reflexivity|].
    rewrite !app_length. split; [lia|]. split; [lia|]. auto.
Qed.

End Grow.
