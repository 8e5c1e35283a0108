(** * Proofs: recomputing the predictions for another dirichlet parameter (C38) *)

Require Import List Arith Lia NArith Reals Lra Permutation.
Require Import Verif.Base Verif.Num Verif.M_Bitarray Verif.P_Bitarray Verif.M_Utils Verif.M_Impurity
  Verif.M_Context Verif.M_Node Verif.M_Split Verif.M_Tree Verif.M_Grow Verif.M_Object
  Verif.P_Utils Verif.P_List Verif.P_Task Verif.P_Node Verif.P_Tree Verif.P_Grow Verif.P_Repr Verif.P_Route
  Verif.S_Impurity Verif.P_Impurity Verif.S_Fit Verif.P_Fit Verif.P_FitTree Verif.S_Node Verif.T_Node
  Verif.S_Tree Verif.P_Nodes Verif.T_Grow Verif.T_Prune Verif.P_Setters.
Import ListNotations.
Local Open Scope nat_scope.
Local Open Scope list_scope.
Local Open Scope res_scope.

(** ** One node, in any arithmetic *)
Section Node.
Context {A : arith} {E : env A} (K : nat) (d : num A) (crit : criterion) (st : cat_strategy).
Notation tk := (clf_task E K d crit st).
Notation ts := (clf_shape E K d crit st).

Lemma recompute_node_spec : forall (tc : tctx A nat) ps nodes yp idx n lt lv p,
  @data_ok A E tk ts tc -> in_range (tk := tk) tc lt -> in_range (tk := tk) tc lv ->
  get nodes idx = Ok n -> idx < length yp ->
  slice (p_train ps) (nd_start_train n) (nd_end_train n) = Ok lt ->
  slice (p_valid ps) (nd_start_valid n) (nd_end_valid n) = Ok lv ->
  tk_pred_end tk (pred_spec ts tc lt) (asum (map (wt (tk := tk) tc) lt)) = Ok p ->
  recompute_node (E := E) K d (tc_y tc) (tc_weights tc) ps (nodes, yp) idx =
  Ok (upd nodes idx (with_loss n (loss_spec ts tc p lv)), upd yp idx p).
Proof.
  intros tc ps nodes yp idx n lt lv p HD Hlt Hlv Hn Hyp Hst Hsv Hp.
  assert (Hpok : ts_Pok ts p).
  { assert (HO := ts_pred_end _ ts (map (fun i => (lab ts tc i, wt (tk := tk) tc i)) lt) (asum (map (wt (tk := tk) tc) lt))).
    fold (pred_spec ts tc lt) in HO. rewrite Hp in HO. exact HO. }
  unfold recompute_node. rewrite Hn. cbn [bind]. rewrite Hst. cbn [bind].
  assert (HF : foldM (fun '(w, p0) i => let* label := get (tc_y tc) i in let* sw := get (tc_weights tc) i in
                 let* p' := tk_pred_add (clf_task E K d Gini AllMods) p0 label sw in Ok (aadd w sw, p')) lt
               (a0, tk_pred0 (clf_task E K d Gini AllMods)) =
               Ok (asum (map (wt (tk := tk) tc) lt), pred_spec ts tc lt)).
  { change (tk_pred0 (clf_task E K d Gini AllMods)) with (tk_pred0 tk).
    rewrite (ts_pred0 tk ts).
    set (spec := fun l => (asum (map (wt (tk := tk) tc) l), pred_spec ts tc l)).
    change (@a0 A, ts_pred ts []) with (spec []). change (Ok (asum (map (wt (tk := tk) tc) lt), pred_spec ts tc lt)) with (Ok (spec lt)).
    apply foldM_prefix. intros pre i post El.
    assert (Hi : i < nsamp (tk := tk) tc). { apply Hlt. rewrite El. apply in_or_app. right. left. auto. }
    unfold spec. destruct (get_lab ts tc HD i Hi) as [Hlab Hy]. assert (Hlab' : @get nat (@tc_y A nat tc) i = Ok (lab ts tc i)) by exact Hlab. rewrite Hlab'. cbn [bind]. assert (Hwt' : get (@tc_weights A nat tc) i = Ok (wt (tk := tk) tc i)) by exact (get_wt ts tc HD i Hi). rewrite Hwt'. cbn [bind].
    change (tk_pred_add (clf_task E K d Gini AllMods)) with (tk_pred_add tk).
    unfold pred_spec at 1. rewrite (ts_pred_add tk ts) by exact Hy. cbn [bind].
    unfold pred_spec. rewrite !map_app. simpl. rewrite asum_snoc. reflexivity. }
  rewrite HF. cbn [bind]. change (tk_pred_end (clf_task E K d Gini AllMods)) with (tk_pred_end tk). rewrite Hp. cbn [bind].
  unfold set at 1. apply Nat.ltb_lt in Hyp. rewrite Hyp. cbn [bind]. rewrite Hsv. cbn [bind].
  assert (HL : foldM (fun loss i => let* sw := get (tc_weights tc) i in let* label := get (tc_y tc) i in
                 tk_loss_add (clf_task E K d Gini AllMods) loss p label sw) lv a0 = Ok (loss_spec ts tc p lv)).
  { change (@a0 A) with (loss_spec ts tc p []). apply foldM_prefix. intros pre i post El.
    assert (Hi : i < nsamp (tk := tk) tc). { apply Hlv. rewrite El. apply in_or_app. right. left. auto. }
    assert (Hwt' : get (@tc_weights A nat tc) i = Ok (wt (tk := tk) tc i)) by exact (get_wt ts tc HD i Hi). rewrite Hwt'. cbn [bind]. destruct (get_lab ts tc HD i Hi) as [Hlab Hy]. assert (Hlab' : @get nat (@tc_y A nat tc) i = Ok (lab ts tc i)) by exact Hlab. rewrite Hlab'. cbn [bind].
    change (tk_loss_add (clf_task E K d Gini AllMods)) with (tk_loss_add tk).
    rewrite (ts_loss_add tk ts) by auto.
    unfold loss_spec. rewrite fold_left_app. reflexivity. }
  rewrite HL. cbn [bind]. unfold set. assert (Hl : idx < length nodes) by (eapply get_lt; eauto).
  apply Nat.ltb_lt in Hl. rewrite Hl. reflexivity.
Qed.

End Node.

(** ** The loop over the nodes *)

Lemma foldM_update2 : forall {X Y} (f : list X * list Y -> nat -> res (list X * list Y)) (fa : nat -> X -> X) (vb : nat -> Y) count a b,
  count <= length a -> count <= length b ->
  (forall k a' b' n, k < count -> length b' = length b -> nth_error a k = Some n -> nth_error a' k = Some n ->
     f (a', b') k = Ok (upd a' k (fa k n), upd b' k (vb k))) ->
  exists a' b', foldM f (seq 0 count) (a, b) = Ok (a', b') /\ length a' = length a /\ length b' = length b /\
    (forall i n, nth_error a i = Some n -> nth_error a' i = Some (if i <? count then fa i n else n)) /\
    (forall i, nth_error b' i = if i <? count then Some (vb i) else nth_error b i).
Proof.
  intros X Y f fa vb count a b Ha Hb Hf.
  assert (G : forall k, k <= count -> exists a' b', foldM f (seq 0 k) (a, b) = Ok (a', b') /\ length a' = length a /\ length b' = length b /\
    (forall i n, nth_error a i = Some n -> nth_error a' i = Some (if i <? k then fa i n else n)) /\
    (forall i, nth_error b' i = if i <? k then Some (vb i) else nth_error b i)).
  { induction k as [|k IH]; intros Hk.
    - exists a, b. cbn. auto.
    - destruct IH as (a' & b' & H1 & H2 & H3 & H4 & H5); [lia|].
      rewrite seq_S, foldM_app, H1. cbn [bind plus foldM].
      destruct (nth_error a k) as [n|] eqn:En; [|apply nth_error_None in En; lia].
      assert (Ea : nth_error a' k = Some n). { rewrite (H4 _ _ En). rewrite Nat.ltb_irrefl. auto. }
      rewrite (Hf k a' b' n) by (auto; lia). cbn [bind].
      exists (upd a' k (fa k n)), (upd b' k (vb k)). split; [reflexivity|]. rewrite !upd_length. split; [auto|]. split; [auto|]. split.
      + intros i m Hi. destruct (Nat.eq_dec i k) as [->|Hik].
        * rewrite nth_error_upd_eq by lia. assert (m = n) by congruence. subst. destruct (Nat.ltb_spec k (S k)); [auto|lia].
        * rewrite nth_error_upd_neq by auto. rewrite (H4 _ _ Hi). destruct (Nat.ltb_spec i k), (Nat.ltb_spec i (S k)); auto; lia.
      + intros i. destruct (Nat.eq_dec i k) as [->|Hik].
        * rewrite nth_error_upd_eq by lia. destruct (Nat.ltb_spec k (S k)); [auto|lia].
        * rewrite nth_error_upd_neq by auto. rewrite H5. destruct (Nat.ltb_spec i k), (Nat.ltb_spec i (S k)); auto; lia. }
  apply G. lia.
Qed.

(** ** Over the reals the order of the samples does not matter *)

Lemma fold_left_perm : forall {X S} (f : S -> X -> S), (forall s x y, f (f s x) y = f (f s y) x) ->
  forall l l', Permutation l l' -> forall s, fold_left f l s = fold_left f l' s.
Proof.
  intros X S f Hf l l' HP. induction HP; intros s; cbn [fold_left]; auto.
  - rewrite Hf. auto.
  - rewrite IHHP1. auto.
Qed.

Section Real.
Context {E : env R_arith} (K : nat) (d : R) (crit : criterion) (st : cat_strategy).
Notation tk := (clf_task E K d crit st).
Notation ts := (clf_shape E K d crit st).

Lemma asum_perm_R : forall l l' : list R, Permutation l l' -> @asum R_arith l = @asum R_arith l'.
Proof.
  intros l l' HP. unfold asum. apply fold_left_perm; auto.
  intros s x y. change (s + x + y = s + y + x)%R. ring.
Qed.

Lemma pred_spec_perm : forall (tc : tctx R_arith nat) l l', Permutation l l' -> pred_spec ts tc l = pred_spec ts tc l'.
Proof.
  intros tc l l' HP. unfold pred_spec. cbn [ts_pred clf_shape]. unfold clf_pred. apply map_ext. intro k.
  apply asum_perm_R. apply Permutation_map. apply Permutation_filter. apply Permutation_map. exact HP.
Qed.

Lemma loss_spec_perm : forall (tc : tctx R_arith nat) p l l', Permutation l l' -> loss_spec ts tc p l = loss_spec ts tc p l'.
Proof.
  intros tc p l l' HP. unfold loss_spec. apply fold_left_perm; auto.
  intros s x y. cbn [ts_loss clf_shape]. unfold clf_loss.
  generalize (amul (wt (tk := tk) tc x) (aln (nth (lab ts tc x) p a0))) (amul (wt (tk := tk) tc y) (aln (nth (lab ts tc y) p a0))).
  intros u v. change (s - u - v = s - v - u)%R. ring.
Qed.

End Real.

(** ** Whole trees *)

Section Both.
Context {E : env R_arith} (K : nat) (d d' : R) (crit : criterion) (st : cat_strategy).
Notation tk := (clf_task E K d crit st).
Notation tk' := (clf_task E K d' crit st).
Notation ts' := (clf_shape E K d' crit st).

(** The tree before the weights, and what [grow] returns. *)
Lemma fit_pre : forall d p fb (y : list nat) train valid weights s tc g,
  tree_fit (clf_task E K d crit st) p fb y train valid weights s = Ok (tc, g) ->
  init_tree_context (clf_task E K d crit st) p fb y weights = Ok tc /\
  exists t0 rs g0, resize_tree (repeat a0 K) empty_tree (Some init_capacity) = Ok t0 /\
   push_record (junk_record (E := E)) (new_records (junk_record (E := E)) initial_stack_size)
     (mkRec None 0 false None 0 (length (p_train (init_parts E fb train valid))) 0 (length (p_valid (init_parts E fb train valid)))) = Ok rs /\
   grow_loop (clf_task E K d crit st) (2 * length (p_train (init_parts E fb train valid)) + 1) tc
     (mkG (clf_task E K d crit st) t0 (init_parts E fb train valid) s (init_fsamp (fb_n_features fb) (tp_max_features p)) rs) = Ok g0 /\
   g_parts g = g_parts g0 /\
   (if tc_aggregation tc
    then exists nodes, compute_tree_weights (tr_nodes (g_tree g0)) (tr_node_count (g_tree g0)) (tc_step tc) = Ok nodes /\
           g_tree g = tree_with_nodes (g_tree g0) nodes
    else g_tree g = g_tree g0).
Proof.
  clear d d'. intros d p fb y train valid weights s tc g H. unfold tree_fit in H.
  apply bind_ok in H. destruct H as (tc0 & Hi & H). apply bind_ok in H. destruct H as (g1 & Hg & H).
  assert (tc0 = tc) by (injection H; auto). assert (g1 = g) by (injection H; auto). subst tc0 g1. clear H.
  split; [exact Hi|]. unfold grow in Hg. apply bind_ok in Hg. destruct Hg as (t0 & Ht0 & Hg).
  apply bind_ok in Hg. destruct Hg as (rs & Hrs & Hg). apply bind_ok in Hg. destruct Hg as (g0 & Hg0 & Hg).
  exists t0, rs, g0. split; [exact Ht0|]. split; [exact Hrs|]. split; [exact Hg0|].
  destruct (tc_aggregation tc).
  - apply bind_ok in Hg. destruct Hg as (nodes & Hn & Hg). inversion Hg; subst g. split; auto. exists nodes. auto.
  - inversion Hg; subst. auto.
Qed.

Lemma ordered_wf : forall {A : arith} {P} (t : tree A P), well_formed t -> ordered (tr_nodes t) (tr_node_count t).
Proof.
  intros A P t W i n Hi Hn Hl.
  destruct (wf_children _ W i n (conj Hi Hn) Hl) as (l & r & ln & rn & E1 & E2 & _ & L1 & L2 & _).
  exists l, r. auto.
Qed.

Lemma nth_error_tail : forall {X} (ns : list X) x k i v, length ns <= i -> nth_error (ns ++ repeat x k) i = Some v -> v = x.
Proof.
  intros X ns x k i v Hi Hn. rewrite nth_error_app2 in Hn by auto. apply nth_error_In in Hn. apply repeat_spec in Hn. auto.
Qed.

Lemma Forall2_pointwise : forall {X} (Q : X -> X -> Prop) a b, length a = length b ->
  (forall i x y, nth_error a i = Some x -> nth_error b i = Some y -> Q x y) -> Forall2 Q a b.
Proof.
  induction a as [|x a IH]; intros [|y b] HL H; try discriminate; constructor.
  - apply (H 0); reflexivity.
  - apply IH; [injection HL; auto|]. intros i. exact (H (S i)).
Qed.

(** Final nodes of both runs: equal up to losses and weights. *)
Definition like (n n' : node R_arith) : Prop := with_logw (strip n) None = with_logw (strip n') None.

Lemma like_fields : forall n n', like n n' ->
  nd_start_train n = nd_start_train n' /\ nd_end_train n = nd_end_train n' /\
  nd_start_valid n = nd_start_valid n' /\ nd_end_valid n = nd_end_valid n'.
Proof. intros n n' H. unfold like, strip, with_logw, with_loss in H. injection H. auto. Qed.

Lemma like_same : forall n n' m', like n n' -> same_node m' n' -> same_node (with_loss n (nd_loss n')) m'.
Proof.
  intros [] [] [] H1 H2. unfold like, same_node, strip, with_logw, with_loss in *. cbn in *.
  inversion H1. inversion H2. subst. reflexivity.
Qed.

Theorem recompute_both : forall p fb y train valid weights s tc g tc' g',
  good_env E -> valid_fit p fb y train valid weights -> valid_labels K st (tp_is_categorical p) y ->
  tree_fit tk p fb y train valid weights s = Ok (tc, g) ->
  tree_fit tk' p fb y train valid weights s = Ok (tc', g') ->
  @eq (tctx R_arith nat) tc' tc /\ g_parts g' = g_parts g /\
  exists nodes,
    recompute_node_predictions E K d' tc (g_parts g) (g_tree g) = Ok (tree_with_nodes (g_tree g') nodes) /\
    map strip nodes = map strip (tr_nodes (g_tree g')) /\
    (tp_aggregation p = true -> nodes = tr_nodes (g_tree g')).
Proof.
  intros p fb y train valid weights s tc g tc' g' HE V HL Hf Hf'.
  destruct (clf_inv K d crit st p fb y train valid weights s tc g HE V HL Hf) as (b0 & _ & C & Htr & Hva & F).
  destruct (clf_inv K d' crit st p fb y train valid weights s tc' g' HE V HL Hf') as (b0' & _ & C' & Htr' & Hva' & F').
  assert (W := C25_well_formed _ _ _ _ _ _ _ _ _ _ (VC_classifier K d crit st p fb y train valid weights HE V HL) Hf).
  assert (W' := C25_well_formed _ _ _ _ _ _ _ _ _ _ (VC_classifier K d' crit st p fb y train valid weights HE V HL) Hf').
  destruct (fit_pre d p fb y train valid weights s tc g Hf) as (Hi & t0 & rs & g0 & T0 & RS & HG & EP & ET).
  destruct (fit_pre d' p fb y train valid weights s tc' g' Hf') as (Hi' & t0' & rs' & g0' & T0' & RS' & HG' & EP' & ET').
  assert (Etc : @eq (tctx R_arith nat) tc' tc).
  { assert (X : @Ok (tctx R_arith nat) tc' = Ok tc); [|congruence]. rewrite <- Hi. symmetry. exact Hi'. }
  split; [exact Etc|].
  assert (t0' = t0) by congruence. assert (rs' = rs) by congruence. subst t0' rs'. clear T0' RS'.
  change (tk_Y tk) with nat in *. change (tk_Y tk') with nat in *. subst tc'.
  assert (GS : g_same K crit st d d' g0 g0').
  { eapply grow_loop_same; [|exact HG|exact HG']. repeat split. }
  destruct GS as (S1 & S2 & _).
  assert (TL : tail_ok K (g_tree g0) /\ tail_ok K (g_tree g0')).
  { assert (tail_ok K t0).
    { eapply resize_tree_tail; [|exact T0]. intros i v _ Hn. destruct i; discriminate. }
    split; (eapply grow_loop_tail; [|eassumption]; auto). }
  split; [rewrite EP, EP', S2; reflexivity|].
  assert (EF : g_tree g = tree_with_nodes (g_tree g0) (tr_nodes (g_tree g))).
  { destruct (tc_aggregation tc); [destruct ET as (ns & _ & ->); reflexivity|rewrite ET; destruct (g_tree g0); reflexivity]. }
  assert (EF' : g_tree g' = tree_with_nodes (g_tree g0') (tr_nodes (g_tree g'))).
  { destruct (tc_aggregation tc); [destruct ET' as (ns & _ & ->); reflexivity|rewrite ET'; destruct (g_tree g0'); reflexivity]. }
  assert (NS : same_nodes (tr_nodes (g_tree g)) (tr_nodes (g_tree g0))).
  { destruct (tc_aggregation tc); [destruct ET as (ns & H & ->); apply (weights_same_nodes _ _ _ _ H)|rewrite ET; apply same_nodes_refl]. }
  assert (NS' : same_nodes (tr_nodes (g_tree g')) (tr_nodes (g_tree g0'))).
  { destruct (tc_aggregation tc); [destruct ET' as (ns & H & ->); apply (weights_same_nodes _ _ _ _ H)|rewrite ET'; apply same_nodes_refl]. }
  unfold normt in S1. injection S1 as Q8 Q7 Q6 Q5 Q4 Q3 Q2 Q1.
  assert (Q5' : map (@strip R_arith) (tr_nodes (g_tree g0')) = map (@strip R_arith) (tr_nodes (g_tree g0))) by exact Q5.
  assert (LN : length (tr_nodes (g_tree g)) = length (tr_nodes (g_tree g'))).
  { rewrite (same_nodes_length _ _ NS), (same_nodes_length _ _ NS').
    apply (f_equal (@length _)) in Q5. rewrite !map_length in Q5. symmetry. exact Q5. }
  assert (LK : forall i n n', nth_error (tr_nodes (g_tree g)) i = Some n -> nth_error (tr_nodes (g_tree g')) i = Some n' -> like n n').
  { intros i n n' Hn Hn'. destruct (same_nodes_nth _ _ _ _ NS Hn) as (m & Hm & E1).
    destruct (same_nodes_nth _ _ _ _ NS' Hn') as (m' & Hm' & E2).
    assert (E3 : strip m' = strip m).
    { apply (map_nth_error (@strip R_arith)) in Hm, Hm'. rewrite Q5' in Hm'. congruence. }
    clear - E1 E2 E3. destruct n, n', m, m'. unfold like, same_node, strip, with_logw, with_loss in *. cbn in *.
    inversion E1. inversion E2. inversion E3. subst. reflexivity. }
  set (cnt := tr_node_count (g_tree g)).
  assert (CN : tr_node_count (g_tree g') = cnt) by (unfold cnt; rewrite EF, EF'; cbn; exact Q7).
  destruct (ft_tree _ _ _ _ _ _ _ F) as (kk & yq & bq & _ & TI2 & TI3 & TI4 & TI5 & TI6 & _).
  destruct (ft_tree _ _ _ _ _ _ _ F') as (kk' & yq' & bq' & _ & TI2' & TI3' & TI4' & TI5' & TI6' & _).
  assert (LC : cnt <= length (tr_nodes (g_tree g))) by (rewrite TI4, app_length; unfold cnt; rewrite TI2; lia).
  assert (LY : length (tr_y_pred (g_tree g)) = length (tr_nodes (g_tree g))).
  { rewrite TI4, TI5, !app_length, repeat_length. exact TI6. }
  assert (LY' : length (tr_y_pred (g_tree g')) = length (tr_nodes (g_tree g'))).
  { rewrite TI4', TI5', !app_length, repeat_length. exact TI6'. }
  assert (TN : forall i v, cnt <= i -> nth_error (tr_nodes (g_tree g)) i = Some v -> v = node0).
  { intros i v H1 H2. rewrite TI4 in H2. eapply nth_error_tail; [|exact H2]. rewrite <- TI2. exact H1. }
  assert (TN' : forall i v, cnt <= i -> nth_error (tr_nodes (g_tree g')) i = Some v -> v = node0).
  { intros i v H1 H2. rewrite TI4' in H2. eapply nth_error_tail; [|exact H2]. rewrite <- TI2', CN. exact H1. }
  pose proof (cc_data _ _ _ _ _ _ C') as HD'. pose proof (vf_mf _ _ _ _ _ _ V) as Hmf.
  assert (NF : forall k n', k < cnt -> nth_error (tr_nodes (g_tree g')) k = Some n' -> exists lt lv pr,
    slice (p_train (g_parts g)) (nd_start_train n') (nd_end_train n') = Ok lt /\
    slice (p_valid (g_parts g)) (nd_start_valid n') (nd_end_valid n') = Ok lv /\
    in_range (tk := tk') tc lt /\ in_range (tk := tk') tc lv /\
    tk_pred_end tk' (pred_spec ts' tc lt) (asum (map (wt (tk := tk') tc) lt)) = Ok pr /\
    nth_error (tr_y_pred (g_tree g')) k = Some pr /\
    (tc_aggregation tc = true -> nd_loss n' = loss_spec ts' tc pr lv)).
  { intros k n' Hk Hn'. rewrite <- CN in Hk.
    destruct (node_samples_slices ts' tc train valid s g' b0' F' Htr' Hva' k n' (conj Hk Hn'))
      as (lt & lv & Sl1 & Sl2 & _ & _ & b & q & HI & -> & <- & P1 & P2).
    destruct (node_context ts' tc train valid s g' b0' HD' F' Htr' Hva') with (b := b) (p := q)
      as (nc & N1 & N2 & N3 & N4 & N5 & N6 & N7 & N8 & N9 & I1 & I2); [rewrite (cc_fb _ _ _ _ _ _ C'); lia|auto|].
    rewrite (node_stats_spec ts' tc HD' [0]) in N1; auto; [|discriminate|intros j [<-|[]]; rewrite (cc_fb _ _ _ _ _ _ C'); lia].
    apply bind_ok in N1. destruct N1 as (pr & Hpr & N1). inversion N1; subst nc. cbn [nctx_spec nc_pred nc_loss] in *.
    exists lt, lv, pr. rewrite EP, <- S2, <- EP'.
    split; [exact Sl1|]. split; [exact Sl2|].
    split; [intros i Hin; apply I1; eapply Permutation_in; eauto|]. split; [intros i Hin; apply I2; eapply Permutation_in; eauto|].
    split; [|split; [exact N4|]].
    - rewrite (pred_spec_perm K d' crit st tc lt _ P1).
      rewrite (asum_perm_R (map (wt (tk := tk') tc) lt) (map (wt (tk := tk') tc) (bd_train (broot b)))); [exact Hpr|].
      apply Permutation_map. exact P1.
    - intros Hagg. rewrite N5. unfold seen. change (@tc_aggregation R_arith (tk_Y tk') tc) with (@tc_aggregation R_arith nat tc). rewrite Hagg. symmetry. apply loss_spec_perm. exact P2. }
  set (vb := fun k => nth k (tr_y_pred (g_tree g')) []).
  set (lvs := fun k => match nth_error (tr_nodes (g_tree g')) k with
                       | Some n' => match slice (p_valid (g_parts g)) (nd_start_valid n') (nd_end_valid n') with Ok l => l | Err _ => [] end
                       | None => [] end).
  destruct (foldM_update2 (recompute_node (E := E) K d' (tc_y tc) (tc_weights tc) (g_parts g))
    (fun k n => with_loss n (loss_spec ts' tc (vb k) (lvs k))) vb cnt (tr_nodes (g_tree g)) (tr_y_pred (g_tree g)))
    as (a' & b' & R1 & R2 & R3 & R4 & R5); [exact LC|eapply Nat.le_trans; [exact LC|apply Nat.eq_le_incl; symmetry; exact LY]| |].
  { intros k a' b' n Hk Hb Hn Ha. destruct (nth_error (tr_nodes (g_tree g')) k) as [n'|] eqn:En'; [|apply nth_error_None in En'; lia].
    destruct (NF k n' Hk En') as (lt & lv & pr & U1 & U2 & U3 & U4 & U5 & U6 & U7).
    destruct (like_fields _ _ (LK _ _ _ Hn En')) as (L1 & L2 & L3 & L4).
    rewrite (recompute_node_spec K d' crit st tc (g_parts g) a' b' k n lt lv pr); auto.
    - unfold vb, lvs. rewrite En', U2. rewrite (nth_error_nth _ _ _ U6). reflexivity.
    - unfold get. rewrite Ha. reflexivity.
    - eapply Nat.lt_le_trans; [exact Hk|]. eapply Nat.le_trans; [exact LC|]. apply Nat.eq_le_incl. etransitivity; [symmetry; exact LY|symmetry; exact Hb].
    - rewrite L1, L2. exact U1.
    - rewrite L3, L4. exact U2. }
  unfold recompute_node_predictions. fold cnt.
  match goal with |- context [bind (foldM ?f ?l ?x) _] => assert (RR : foldM f l x = Ok (a', b')) by exact R1; rewrite RR end. cbn [bind].
  (* the predictions *)
  assert (EY : b' = tr_y_pred (g_tree g')).
  { apply nth_error_ext. intros i. rewrite R5. destruct (Nat.ltb_spec i cnt) as [Hi1|Hi1].
    - unfold vb. symmetry. apply nth_error_nth'. rewrite LY', <- LN. lia.
    - destruct TL as [TL1 TL2]. rewrite EF, EF'. cbn [tr_y_pred tree_with_nodes].
      assert (HY : forall t t' : tree R_arith (list R), tail_ok K t -> tail_ok K t' -> tr_node_count t <= i -> tr_node_count t' <= i ->
        length (tr_y_pred t) = length (tr_y_pred t') -> nth_error (tr_y_pred t) i = nth_error (tr_y_pred t') i).
      { intros t t' H1 H2 C1 C2 HLn. destruct (nth_error (tr_y_pred t) i) as [v|] eqn:E1, (nth_error (tr_y_pred t') i) as [v'|] eqn:E2; auto.
        - rewrite (H1 i v C1 E1), (H2 i v' C2 E2). auto.
        - apply nth_error_None in E2. assert (i < length (tr_y_pred t)) by (apply nth_error_Some; congruence). lia.
        - apply nth_error_None in E1. assert (i < length (tr_y_pred t')) by (apply nth_error_Some; congruence). lia. }
      apply HY; auto.
      + unfold cnt in Hi1. rewrite EF in Hi1. exact Hi1.
      + rewrite <- CN in Hi1. rewrite EF' in Hi1. exact Hi1.
      + apply (f_equal (@length _)) in Q4. rewrite !map_length in Q4. auto. }
  (* the nodes *)
  assert (LA : forall i n', nth_error (tr_nodes (g_tree g')) i = Some n' -> exists n, nth_error (tr_nodes (g_tree g)) i = Some n /\ like n n').
  { intros i n' Hn'. destruct (nth_error (tr_nodes (g_tree g)) i) as [n|] eqn:En; [eauto|].
    apply nth_error_None in En. assert (i < length (tr_nodes (g_tree g'))) by (apply nth_error_Some; congruence). lia. }
  subst b'.
  assert (FIN : forall nodes, tree_with_nodes (g_tree g') nodes =
    mkTree (tr_max_depth (g_tree g)) cnt (tr_capacity (g_tree g)) nodes (tr_y_pred (g_tree g'))
      (tr_bp_capacity (g_tree g)) (tr_bp (g_tree g)) (tr_bp_end (g_tree g))).
  { intros nodes. unfold tree_with_nodes at 1. rewrite CN. rewrite EF, EF'. cbn. congruence. }
  destruct (tc_aggregation tc) eqn:Eagg.
  - destruct ET' as (ns' & HW' & ETn).
    assert (SN : same_nodes a' (tr_nodes (g_tree g0'))).
    { apply Forall2_pointwise.
      - rewrite R2, LN. apply (same_nodes_length _ _ NS').
      - intros i n m Hn Hm. destruct (same_nodes_nth _ _ _ _ (same_nodes_sym _ _ NS') Hm) as (n' & Hn' & E2).
        destruct (LA i n' Hn') as (n1 & Hn1 & Hlike). rewrite (R4 i n1 Hn1) in Hn.
        destruct (Nat.ltb_spec i cnt) as [Hi1|Hi1].
        + inversion Hn; subst n. destruct (NF i n' Hi1 Hn') as (lt & lv & pr & U1 & U2 & U3 & U4 & U5 & U6 & U7).
          assert (EL : loss_spec ts' tc (vb i) (lvs i) = nd_loss n').
          { rewrite (U7 eq_refl). unfold vb, lvs. rewrite Hn', U2, (nth_error_nth _ _ _ U6). reflexivity. }
          rewrite EL. apply like_same; auto.
        + inversion Hn; subst n. rewrite (TN i n1 Hi1 Hn1), <- (TN' i n' Hi1 Hn'). symmetry. exact E2. }
    assert (EN' : tr_nodes (g_tree g') = ns') by (rewrite ETn; reflexivity).
    assert (C0' : tr_node_count (g_tree g0') = cnt) by (rewrite <- CN, ETn; reflexivity).
    destruct (weights_same (tc_step tc) cnt a' (tr_nodes (g_tree g0'))) as [WS _].
    + exact SN.
    + intros i Hi1. rewrite C0' in HW'. rewrite <- (weights_above _ _ _ _ HW' i Hi1), <- EN'.
      destruct (nth_error (tr_nodes (g_tree g')) i) as [n'|] eqn:En'.
      * destruct (LA i n' En') as (n1 & Hn1 & _). rewrite (R4 i n1 Hn1). destruct (Nat.ltb_spec i cnt); [lia|].
        rewrite (TN i n1 Hi1 Hn1), (TN' i n' Hi1 En'). reflexivity.
      * apply nth_error_None. apply nth_error_None in En'. lia.
    + eapply ordered_same; [|apply Nat.le_refl|].
      * eapply same_nodes_trans; [exact SN|apply same_nodes_sym; exact NS'].
      * rewrite <- CN. apply ordered_wf. exact W'.
    + rewrite C0' in HW'. rewrite HW' in WS.
      match goal with |- context [bind (compute_tree_weights ?u ?v ?w) _] => assert (WS' : compute_tree_weights u v w = Ok ns') by exact WS; rewrite WS' end. cbn [bind].
      exists ns'. rewrite FIN. rewrite EN'. auto.
  - exists a'. cbn [bind]. rewrite FIN. split; [reflexivity|]. split.
    + apply nth_error_ext. intros i. rewrite !nth_error_map.
      destruct (nth_error (tr_nodes (g_tree g')) i) as [n'|] eqn:En'.
      * destruct (LA i n' En') as (n1 & Hn1 & _). rewrite (R4 i n1 Hn1). cbn [option_map]. f_equal.
        assert (E3 : strip n' = strip n1).
        { rewrite ET in Hn1. rewrite ET' in En'. apply (map_nth_error (@strip R_arith)) in Hn1, En'. rewrite Q5' in En'. congruence. }
        rewrite E3. destruct (i <? cnt); reflexivity.
      * cbn [option_map]. apply nth_error_None in En'. assert (EA : nth_error a' i = None) by (apply nth_error_None; lia). rewrite EA. reflexivity.
    + intros Hagg. exfalso. assert (X := cc_agg _ _ _ _ _ _ C). change (@tc_aggregation R_arith nat tc = tp_aggregation p) in X. congruence.
Qed.
End Both.
