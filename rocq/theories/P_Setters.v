(** * Recomputing weights and predictions of a fitted tree *)

Require Import List Arith Lia NArith Permutation.
Require Import Verif.Base Verif.Num Verif.M_Bitarray Verif.M_Utils
  Verif.M_Context Verif.M_Node Verif.M_Split Verif.M_Tree Verif.M_Grow Verif.M_Object Verif.P_List Verif.P_Utils.
Import ListNotations.
Local Open Scope res_scope.

Section Weights.
Context {A : arith}.
Notation node := (node A).

(** Equal up to the weight. *)
Definition same_node (n m : node) : Prop := with_logw n None = with_logw m None.
Definition same_nodes (a b : list node) : Prop := Forall2 same_node a b.

(** Children come after their parent, below [k]. *)
Definition ordered (a : list node) (k : nat) : Prop :=
  forall i n, i < k -> nth_error a i = Some n -> nd_is_leaf n = false ->
  exists l r, nd_left n = Some l /\ nd_right n = Some r /\ i < l /\ i < r.

Lemma same_node_loss : forall n m, same_node n m -> nd_loss n = nd_loss m /\ nd_is_leaf n = nd_is_leaf m /\
  nd_left n = nd_left m /\ nd_right n = nd_right m /\ forall w, with_logw n w = with_logw m w.
Proof.
  intros n m H. unfold same_node in H. destruct n, m; cbn in *. inversion H; subst. cbn. auto 10.
Qed.

Lemma same_node_logw : forall n w, same_node (with_logw n w) n.
Proof. intros; unfold same_node; destruct n; reflexivity. Qed.

Lemma same_nodes_refl : forall a, same_nodes a a.
Proof. induction a; constructor; auto. reflexivity. Qed.

Lemma same_nodes_sym : forall a b, same_nodes a b -> same_nodes b a.
Proof. induction 1; constructor; auto. unfold same_node in *; auto. Qed.

Lemma same_nodes_trans : forall a b c, same_nodes a b -> same_nodes b c -> same_nodes a c.
Proof.
  intros a b c H; revert c. induction H; intros c Hc; inversion Hc; subst; constructor; auto.
  - unfold same_node in *; congruence.
  - apply IHForall2; auto.
Qed.

Lemma same_nodes_nth : forall a b i n, same_nodes a b -> nth_error a i = Some n ->
  exists m, nth_error b i = Some m /\ same_node n m.
Proof.
  intros a b i n H; revert i. induction H; intros [|i] Hn; cbn in *; try discriminate.
  - inversion Hn; subst. eauto.
  - apply IHForall2; auto.
Qed.

Lemma same_nodes_upd : forall a b i x y, same_nodes a b -> same_node x y -> same_nodes (upd a i x) (upd b i y).
Proof.
  intros a b i x y H Hx; revert i. induction H; intros [|i]; cbn; constructor; auto. apply IHForall2.
Qed.

Lemma same_nodes_upd_l : forall a i n w, nth_error a i = Some n -> same_nodes (upd a i (with_logw n w)) a.
Proof.
  induction a as [|h a IH]; intros [|i] n w H; cbn in *; try discriminate.
  - inversion H; subst. constructor; [apply same_node_logw|apply same_nodes_refl].
  - constructor; [reflexivity|]. eapply IH; eauto.
Qed.

Lemma same_nodes_length : forall a b, same_nodes a b -> length a = length b.
Proof. induction 1; cbn; auto. Qed.

Definition agree_from (k : nat) (a b : list node) : Prop := forall i, k <= i -> nth_error a i = nth_error b i.

(** One step on two arrays that differ by weights not yet recomputed. *)
Lemma weight_step_same : forall step a b k, same_nodes a b -> agree_from (S k) a b -> ordered a (S k) ->
  match weight_step step a k, weight_step step b k with
  | Ok a', Ok b' => same_nodes a' b' /\ agree_from k a' b' /\ same_nodes a' a
  | Err e, Err e' => e = e'
  | _, _ => False
  end.
Proof.
  intros step a b k HS HA HO. unfold weight_step.
  destruct (nth_error a k) as [n|] eqn:En.
  2:{ unfold get. rewrite En. assert (nth_error b k = None) as ->.
      { apply nth_error_None. rewrite <- (same_nodes_length _ _ HS). apply nth_error_None; auto. } cbn. auto. }
  destruct (same_nodes_nth _ _ _ _ HS En) as (m & Em & Hnm).
  destruct (same_node_loss _ _ Hnm) as (E1 & E2 & E3 & E4 & E5).
  assert (Hk : k < length a) by (apply nth_error_Some; congruence).
  assert (Hk' : k < length b) by (rewrite <- (same_nodes_length _ _ HS); auto).
  rewrite (proj2 (get_ok _ _ _) En), (proj2 (get_ok _ _ _) Em). cbn [bind].
  rewrite <- E1, <- E2, <- E3, <- E4.
  assert (Hset : forall w, exists a' b', set a k (with_logw n w) = Ok a' /\ set b k (with_logw m w) = Ok b' /\
    same_nodes a' b' /\ agree_from k a' b' /\ same_nodes a' a).
  { intros w. exists (upd a k (with_logw n w)), (upd b k (with_logw m w)).
    split; [apply set_ok; auto|]. split; [apply set_ok; auto|]. split; [|split].
    - apply same_nodes_upd; [auto|]. rewrite E5. reflexivity.
    - intros i Hi. destruct (Nat.eq_dec i k) as [->|Hne].
      + rewrite !nth_error_upd_eq by auto. rewrite E5. reflexivity.
      + rewrite !nth_error_upd_neq by auto. apply HA. lia.
    - apply same_nodes_upd_l; auto. }
  destruct (nd_is_leaf n) eqn:Ef.
  - destruct (Hset (Some (amul (aopp step) (nd_loss n)))) as (a' & b' & -> & -> & H). exact H.
  - destruct (HO k n) as (l & r & Hl & Hr & H1 & H2); auto. rewrite Hl, Hr. cbn [idx_of bind].
    unfold get. rewrite <- (HA l) by lia. rewrite <- (HA r) by lia.
    destruct (nth_error a l) as [ln|]; cbn [bind]; auto. destruct (nth_error a r) as [rn|]; cbn [bind]; auto.
    destruct (logw_of (nd_logw ln)) as [wl|]; cbn [bind]; auto. destruct (logw_of (nd_logw rn)) as [wr|]; cbn [bind]; auto.
    destruct (Hset (Some (log_sum_2_exp (amul (aopp step) (nd_loss n)) (aadd wl wr)))) as (a' & b' & -> & -> & H). exact H.
Qed.

Lemma ordered_same : forall a b k k', same_nodes a b -> k' <= k -> ordered b k -> ordered a k'.
Proof.
  intros a b k k' HS Hk HO i n Hi Hn Hf. destruct (same_nodes_nth _ _ _ _ HS Hn) as (m & Hm & Hnm).
  destruct (same_node_loss _ _ Hnm) as (_ & E2 & E3 & E4 & _). rewrite E3, E4. apply (HO i m); auto; [lia|congruence].
Qed.

Lemma rev_seq_S : forall k, rev (seq 0 (S k)) = k :: rev (seq 0 k).
Proof. intros k. rewrite seq_S, rev_app_distr. reflexivity. Qed.

(** Recomputing does not depend on the weights found in the nodes to recompute. *)
Lemma weights_same : forall step k a b, same_nodes a b -> agree_from k a b -> ordered a k ->
  compute_tree_weights a k step = compute_tree_weights b k step /\
  forall a', compute_tree_weights a k step = Ok a' -> same_nodes a' a.
Proof.
  unfold compute_tree_weights. induction k as [|k IH]; intros a b HS HA HO.
  - cbn [seq rev foldM]. split.
    + f_equal. apply nth_error_ext. intros i. apply HA. lia.
    + intros a' [= <-]. apply same_nodes_refl.
  - rewrite rev_seq_S. cbn [foldM].
    pose proof (weight_step_same step a b k HS HA HO) as H.
    destruct (weight_step step a k) as [a1|e] eqn:E1, (weight_step step b k) as [b1|e'] eqn:E2; try contradiction; cbn [bind].
    + destruct H as (H1 & H2 & H3). destruct (IH a1 b1 H1 H2) as [I1 I2].
      { eapply ordered_same; [exact H3| |exact HO]. lia. }
      split; auto. intros a' Ha. eapply same_nodes_trans; [apply I2; auto|auto].
    + subst. split; auto. discriminate.
Qed.

(** Nodes from the count on are not touched. *)
Lemma weights_above : forall step k a a', compute_tree_weights a k step = Ok a' -> agree_from k a' a.
Proof.
  unfold compute_tree_weights. induction k as [|k IH]; intros a a' H.
  - inversion H; subst. intros i _. reflexivity.
  - rewrite rev_seq_S in H. cbn [foldM] in H. apply bind_ok in H. destruct H as (a1 & H1 & H2).
    pose proof (IH _ _ H2) as HA. intros i Hi. rewrite HA by lia.
    unfold weight_step in H1. apply bind_ok in H1. destruct H1 as (n & _ & H1).
    assert (HS : forall x, set a k x = Ok a1 -> nth_error a1 i = nth_error a i).
    { intros x Hx. apply set_ok in Hx. destruct Hx as [_ ->]. apply nth_error_upd_neq. lia. }
    destruct (nd_is_leaf n); [eapply HS; eauto|].
    apply bind_ok in H1. destruct H1 as (l & _ & H1). apply bind_ok in H1. destruct H1 as (r & _ & H1).
    apply bind_ok in H1. destruct H1 as (ln & _ & H1). apply bind_ok in H1. destruct H1 as (rn & _ & H1).
    apply bind_ok in H1. destruct H1 as (wl & _ & H1). apply bind_ok in H1. destruct H1 as (wr & _ & H1).
    eapply HS; eauto.
Qed.

(** Only the weights are changed. *)
Lemma weights_same_nodes : forall step k b b', compute_tree_weights b k step = Ok b' -> same_nodes b' b.
Proof.
  unfold compute_tree_weights. induction k as [|k0 IH]; intros b b' Hb; [inversion Hb; apply same_nodes_refl|].
  rewrite rev_seq_S in Hb. cbn [foldM] in Hb. apply bind_ok in Hb. destruct Hb as (b1 & H1 & H2).
  eapply same_nodes_trans; [apply IH; eauto|].
  unfold weight_step in H1. apply bind_ok in H1. destruct H1 as (n & Hn & H1). apply get_ok in Hn.
  assert (HSS : forall x, set b k0 (with_logw n x) = Ok b1 -> same_nodes b1 b).
  { intros x Hx. apply set_ok in Hx. destruct Hx as [_ ->]. apply same_nodes_upd_l; auto. }
  destruct (nd_is_leaf n); [eapply HSS; eauto|].
  apply bind_ok in H1. destruct H1 as (l & _ & H1). apply bind_ok in H1. destruct H1 as (r & _ & H1).
  apply bind_ok in H1. destruct H1 as (ln & _ & H1). apply bind_ok in H1. destruct H1 as (rn & _ & H1).
  apply bind_ok in H1. destruct H1 as (wl & _ & H1). apply bind_ok in H1. destruct H1 as (wr & _ & H1).
  eapply HSS; eauto.
Qed.

(** No division. *)
Lemma weights_no_zerodiv : forall (step : num A) k (b : list node), compute_tree_weights b k step <> Err ZeroDiv.
Proof.
  unfold compute_tree_weights. induction k as [|k IH]; intros b; [discriminate|].
  rewrite rev_seq_S. cbn [foldM].
  destruct (weight_step step b k) as [b1|e] eqn:E1; cbn [bind]; [apply IH|].
  intros [= ->]. unfold weight_step, get, set, idx_of, logw_of in E1.
  repeat match type of E1 with
  | context [match ?x with _ => _ end] => destruct x; cbn [bind] in E1; try discriminate
  end.
Qed.

(** Recomputing with another step forgets the first one. *)
Lemma weights_again : forall step step' k a a', compute_tree_weights a k step = Ok a' -> ordered a' k ->
  compute_tree_weights a' k step' = compute_tree_weights a k step'.
Proof.
  intros step step' k a a' H HO. pose proof (weights_same_nodes _ _ _ _ H) as HS.
  apply weights_same; auto. apply (weights_above _ _ _ _ H).
Qed.

End Weights.

(** ** The step is only read by the recomputation of the weights *)
Section Step.
Context {A : arith} {E : env A} (tk : task A E).

Lemma foldM_ext_all : forall {X S} (f g : S -> X -> res S) l s, (forall s x, f s x = g s x) -> foldM f l s = foldM g l s.
Proof. induction l as [|x l IH]; intros s H; cbn [foldM]; auto. rewrite H. destruct (g s x); cbn [bind]; auto. Qed.

Lemma scan_loop_with_step : forall tc step nv feature is_cat r cumsum ordered bins s best,
  scan_loop tk (tc_with_step tc step) nv feature is_cat r cumsum ordered bins s best =
  scan_loop tk tc nv feature is_cat r cumsum ordered bins s best.
Proof.
  intros tc step nv feature is_cat r cumsum ord bins.
  induction bins as [|b bins IH]; intros s best; cbn [scan_loop]; auto.
  cbn [tc_min_samples_leaf tc_aggregation tc_max_n_bins tc_with_step].
  repeat (match goal with |- bind ?m _ = bind ?m _ => destruct m; cbn [bind]; [|reflexivity] end).
  match goal with |- (if ?c then _ else _) = _ => destruct c; auto end.
  match goal with |- (if ?c then _ else _) = _ => destruct c; auto end.
  match goal with |- bind ?m _ = bind ?m _ => destruct m as [[il ir]|]; cbn [bind]; [|reflexivity] end.
  match goal with |- bind ?m _ = bind ?m _ => destruct m; cbn [bind]; [|reflexivity] end. auto.
Qed.

Lemma find_along_with_step : forall tc step nc s feature f best,
  find_best_split_along_feature tk (tc_with_step tc step) nc s feature f best = find_best_split_along_feature tk tc nc s feature f best.
Proof.
  intros. unfold find_best_split_along_feature. cbn [tc_is_categorical tc_aggregation tc_with_step].
  destruct (get (nc_rows nc) f) as [r|]; cbn [bind]; auto. destruct (get (tc_is_categorical tc) feature) as [c|]; cbn [bind]; auto.
  destruct c.
  - destruct (tk_cat_orders tk s (r_hist r) (r_ne_train r)) as [[os s']|]; cbn [bind]; auto.
    rewrite (foldM_ext_all (try_feature_order tk (tc_with_step tc step) nc feature r true (repeat 0 (length (r_n_train r))))
      (try_feature_order tk tc nc feature r true (repeat 0 (length (r_n_train r))))); auto.
    intros b o. apply scan_loop_with_step.
  - destruct (cumsum_valid _ _ _ _ _); cbn [bind]; auto. unfold try_feature_order. rewrite scan_loop_with_step. auto.
Qed.

Lemma find_node_split_with_step : forall tc step nc s,
  find_node_split tk (tc_with_step tc step) nc s = find_node_split tk tc nc s.
Proof.
  intros. unfold find_node_split. f_equal. apply foldM_ext_all. intros [best s0] [f feature].
  destruct (get (nc_rows nc) f); cbn [bind]; auto. destruct (1 <? _); auto. apply find_along_with_step.
Qed.

Lemma grow_step_with_step : forall tc step g, grow_step tk (tc_with_step tc step) g = grow_step tk tc g.
Proof.
  intros. unfold grow_step.
  destruct (pop_node_record (g_records g)) as [[r rs]|]; cbn [bind]; auto.
  change (compute_node_context tk (tc_with_step tc step)) with (compute_node_context tk tc).
  destruct (compute_node_context tk tc _ _ _ _ _ _ _) as [[[nc s] fs]|]; cbn [bind]; auto.
  assert (choose_split tk (tc_with_step tc step) nc s (rc_depth r) (rc_impurity r) = choose_split tk tc nc s (rc_depth r) (rc_impurity r)) as ->.
  { unfold choose_split. change (stop_test tk (tc_with_step tc step)) with (stop_test tk tc). destruct (stop_test _ _ _ _ _); auto.
    rewrite find_node_split_with_step. reflexivity. }
  reflexivity.
Qed.

Lemma grow_loop_with_step : forall fuel tc step g, grow_loop tk fuel (tc_with_step tc step) g = grow_loop tk fuel tc g.
Proof.
  induction fuel as [|fuel IH]; intros tc step g; cbn [grow_loop]; auto. destruct (has_records (g_records g)); auto.
  rewrite grow_step_with_step. destruct (grow_step tk tc g); cbn [bind]; auto.
Qed.
End Step.


Lemma tree_fit_with_step : forall {A : arith} {E : env A} (tk : task A E) p step fb y train valid weights s tc g,
  tree_fit tk p fb y train valid weights s = Ok (tc, g) -> ordered (tr_nodes (g_tree g)) (tr_node_count (g_tree g)) ->
  tree_fit tk (params_with_step p step) fb y train valid weights s =
  if tp_aggregation p then
    let* nodes := compute_tree_weights (tr_nodes (g_tree g)) (tr_node_count (g_tree g)) step in
    Ok (tc_with_step tc step, mkG tk (with_nodes tk (g_tree g) nodes) (g_parts g) (g_rng g) (g_fs g) (g_records g))
  else Ok (tc_with_step tc step, g).
Proof.
  intros A E tk p step fb y train valid weights s tc g H HO. unfold tree_fit in *.
  apply bind_ok in H. destruct H as (tc0 & Hi & H). apply bind_ok in H. destruct H as (g0 & Hg & H). inversion H; subst tc0 g0; clear H.
  unfold init_tree_context in *. apply bind_ok in Hi. destruct Hi as (mb & Hmb & Hi). rewrite Hmb. cbn [bind].
  cbn [params_with_step tp_max_features tp_min_samples_split tp_min_samples_leaf tp_max_depth tp_aggregation tp_step tp_is_categorical].
  inversion Hi; subst tc; clear Hi.
  match goal with |- bind (grow tk ?tc' _ _ _ _) _ = _ =>
    match type of Hg with grow tk ?tc0 _ _ _ _ = _ => change tc' with (tc_with_step tc0 step); set (tc := tc0) in * end end.
  unfold grow in *. apply bind_ok in Hg. destruct Hg as (t0 & Ht0 & Hg). rewrite Ht0. cbn [bind] in *.
  apply bind_ok in Hg. destruct Hg as (rs & Hrs & Hg). rewrite Hrs. cbn [bind] in *.
  apply bind_ok in Hg. destruct Hg as (g1 & Hg1 & Hg). rewrite grow_loop_with_step, Hg1. cbn [bind] in *.
  change (tc_aggregation (tc_with_step tc step)) with (tp_aggregation p).
  change (tc_aggregation tc) with (tp_aggregation p) in Hg. change (tc_step (tc_with_step tc step)) with step.
  destruct (tp_aggregation p).
  - apply bind_ok in Hg. destruct Hg as (nodes & Hn & Hg). inversion Hg; subst g; clear Hg. cbn [g_tree with_nodes tr_nodes tr_node_count g_parts g_rng g_fs g_records] in *.
    rewrite (weights_again _ step _ _ _ Hn) by auto. destruct (compute_tree_weights (tr_nodes (g_tree g1)) _ step); reflexivity.
  - inversion Hg; subst. reflexivity.
Qed.

(** ** Growing does not depend on the dirichlet parameter *)
Section Dirichlet.
Context {A : arith} {E : env A} (K : nat) (crit : criterion) (st : cat_strategy) (d d' : num A).
Notation tk := (clf_task E K d crit st).
Notation tk' := (clf_task E K d' crit st).

Definition cvr (r : row tk) : row tk' :=
  mkRow tk' (r_n_train r) (r_w_train r) (r_n_valid r) (r_w_valid r) (r_ne_train r) (r_ne_valid r) (r_hist r).
Definition cvs (s : scan tk) : scan tk' :=
  mkScan tk' (sc_n_left s) (sc_w_left s) (sc_n_right s) (sc_w_right s) (sc_stat_left s) (sc_stat_right s) (sc_v_left s).
Definition cvp (sp : split tk) : split tk' :=
  mkSplit tk' (sp_found sp) (sp_gain sp) (sp_feature sp) (sp_threshold sp) (sp_imp_left sp)
        (sp_imp_right sp) (sp_n_train_left sp) (sp_n_train_right sp) (sp_w_train_left sp)
        (sp_w_train_right sp) (sp_n_valid_left sp) (sp_n_valid_right sp) (sp_stat_left sp)
        (sp_stat_right sp) (sp_is_cat sp) (sp_bins sp) (sp_partition sp).
Definition rmap {X Y} (f : X -> Y) (m : res X) : res Y := match m with Ok x => Ok (f x) | Err e => Err e end.

Lemma scan_loop_cv : forall (tc : tctx A nat) nv feature is_cat r cumsum ordered bins s best,
  scan_loop tk' tc nv feature is_cat (cvr r) cumsum ordered bins (cvs s) (cvp best) =
  rmap cvp (scan_loop tk tc nv feature is_cat r cumsum ordered bins s best).
Proof.
  intros tc nv feature is_cat r cumsum ord bins.
  induction bins as [|b bins IH]; intros s best; cbn [scan_loop rmap]; auto.
  change (tk_Y tk) with nat. change (tk_Y tk') with nat.
  cbn [cvr cvs r_n_train r_w_train r_n_valid r_hist sc_n_left sc_w_left sc_n_right sc_w_right sc_stat_left sc_stat_right sc_v_left].
  destruct (get (r_n_train r) b) as [n|]; cbn [bind rmap]; auto.
  destruct (get (r_w_train r) b) as [w|]; cbn [bind rmap]; auto.
  destruct (usub (sc_n_right s) n) as [nr|]; cbn [bind rmap]; auto.
  cbn [tk_stat_add tk_stat_sub clf_task].
  destruct (get (r_hist r) b) as [hr|]; cbn [bind rmap]; auto.
  destruct (zipM aadd (sc_stat_left s) hr) as [sl|]; cbn [bind rmap]; auto.
  destruct (zipM asub (sc_stat_right s) hr) as [sr|]; cbn [bind rmap]; auto.
  destruct (if is_cat then let* v := get (r_n_valid r) b in Ok (sc_v_left s + v) else get cumsum b) as [vl|]; cbn [bind rmap]; auto.
  destruct (usub nv vl) as [vr|]; cbn [bind rmap]; auto.
  match goal with |- (if ?c then _ else _) = _ => destruct c end.
  { apply (IH (mkScan tk (sc_n_left s + n) (aadd (sc_w_left s) w) nr (asub (sc_w_right s) w) sl sr vl)). }
  match goal with |- (if ?c then _ else _) = _ => destruct c; auto end.
  change (tk_impurity tk') with (tk_impurity tk).
  match goal with |- bind ?m _ = _ => destruct m as [[il ir]|]; cbn [bind rmap]; auto end.
  change (sp_gain (cvp best)) with (sp_gain best). change (sp_partition (cvp best)) with (sp_partition best).
  destruct (gain_gt _ (sp_gain best)).
  - match goal with |- context [length ord <=? ?m] => destruct (length ord <=? m) end; cbn [bind rmap]; auto.
    match goal with |- _ = rmap _ (scan_loop _ _ _ _ _ _ _ _ _ ?s1 ?b1) => apply (IH s1 b1) end.
  - cbn [bind]. match goal with |- _ = rmap _ (scan_loop _ _ _ _ _ _ _ _ _ ?s1 ?b1) => apply (IH s1 b1) end.
Qed.

Definition nc_same (nc : nctx tk) (nc' : nctx tk') : Prop :=
  nc_features nc' = nc_features nc /\ nc_n_train nc' = nc_n_train nc /\ nc_n_valid nc' = nc_n_valid nc /\
  nc_w_train nc' = nc_w_train nc /\ nc_w_valid nc' = nc_w_valid nc /\ nc_rows nc' = map cvr (nc_rows nc).

Lemma try_order_cv : forall (tc : tctx A nat) nc nc' feature r is_cat cumsum best o, nc_same nc nc' ->
  try_feature_order tk' tc nc' feature (cvr r) is_cat cumsum (cvp best) o = rmap cvp (try_feature_order tk tc nc feature r is_cat cumsum best o).
Proof.
  intros tc nc nc' feature r is_cat cumsum best o (_ & H1 & H2 & H3 & _). unfold try_feature_order. rewrite H1, H2, H3.
  match goal with |- _ = rmap _ (scan_loop _ _ _ _ _ _ _ _ _ ?s1 ?b1) => apply (scan_loop_cv _ _ _ _ _ _ _ _ s1 b1) end.
Qed.

Lemma foldM_cv : forall {X S S'} (f : S -> X -> res S) (f' : S' -> X -> res S') (cv : S -> S') l s,
  (forall s x, f' (cv s) x = rmap cv (f s x)) -> foldM f' l (cv s) = rmap cv (foldM f l s).
Proof.
  induction l as [|x l IH]; intros s H; cbn [foldM rmap]; auto. rewrite H. destruct (f s x); cbn [bind rmap]; auto.
Qed.

Lemma get_map : forall {X Y} (f : X -> Y) l i, get (map f l) i = rmap f (get l i).
Proof. intros. unfold get. rewrite nth_error_map. destruct (nth_error l i); reflexivity. Qed.

Definition cvps (x : split tk * rng E) : split tk' * rng E := (cvp (fst x), snd x).

Lemma find_along_cv : forall (tc : tctx A nat) nc nc' s feature f best, nc_same nc nc' ->
  find_best_split_along_feature tk' tc nc' s feature f (cvp best) = rmap cvps (find_best_split_along_feature tk tc nc s feature f best).
Proof.
  intros tc nc nc' s feature f best H. unfold find_best_split_along_feature. change (tk_Y tk) with nat. change (tk_Y tk') with nat.
  assert (HR : nc_rows nc' = map cvr (nc_rows nc)) by apply H. rewrite HR, get_map.
  destruct (get (nc_rows nc) f) as [r|]; cbn [bind rmap]; auto.
  destruct (get (tc_is_categorical tc) feature) as [c|]; cbn [bind rmap]; auto. destruct c.
  - change (tk_cat_orders tk' s (r_hist (cvr r)) (r_ne_train (cvr r))) with (tk_cat_orders tk s (r_hist r) (r_ne_train r)).
    destruct (tk_cat_orders tk s (r_hist r) (r_ne_train r)) as [[os s']|]; cbn [bind rmap]; auto.
    rewrite (foldM_cv (try_feature_order tk tc nc feature r true (repeat 0 (length (r_n_train r)))) _ cvp).
    + match goal with |- bind (rmap cvp ?m) _ = _ =>
        change (bind (rmap cvp m) (fun b => Ok (b, s')) = rmap cvps (bind m (fun b => Ok (b, s')))); destruct m end; reflexivity.
    + intros b o. apply try_order_cv; auto.
  - change (r_ne_train (cvr r)) with (r_ne_train r). change (r_ne_valid (cvr r)) with (r_ne_valid r).
    change (r_n_valid (cvr r)) with (r_n_valid r). change (r_n_train (cvr r)) with (r_n_train r).
    destruct (cumsum_valid _ _ _ _ _) as [cs|]; cbn [bind rmap]; auto. rewrite (try_order_cv tc nc nc'); auto.
    match goal with |- bind (rmap cvp ?m) _ = _ =>
        change (bind (rmap cvp m) (fun b => Ok (b, s)) = rmap cvps (bind m (fun b => Ok (b, s)))); destruct m end; reflexivity.
Qed.

Lemma find_node_split_cv : forall (tc : tctx A nat) nc nc' s, nc_same nc nc' ->
  find_node_split tk' tc nc' s = rmap cvps (find_node_split tk tc nc s).
Proof.
  intros tc nc nc' s H. unfold find_node_split.
  assert (HF : nc_features nc' = nc_features nc) by apply H. rewrite HF.
  change (reset_split tk', s) with (cvps (reset_split tk, s)).
  rewrite (foldM_cv (fun '(best, s) '(f, feature) =>
             let* r := get (nc_rows nc) f in
             if 1 <? length (r_ne_train r)
             then find_best_split_along_feature tk tc nc s feature f best
             else Ok (best, s)) _ cvps).
  - destruct (foldM _ _ (reset_split tk, s)) as [[best s']|]; cbn [bind rmap cvps fst snd]; auto.
    change (sp_found (cvp best)) with (sp_found best). change (sp_is_cat (cvp best)) with (sp_is_cat best).
    destruct (sp_found best && sp_is_cat best)%bool; cbn [bind rmap]; auto.
    unfold compute_bin_partition. change (sp_threshold (cvp best)) with (sp_threshold best). change (sp_bins (cvp best)) with (sp_bins best).
    destruct (bins_until (sp_threshold best) (sp_bins best)); cbn [bind rmap]; auto.
  - intros [best s0] [f feature]. cbn [cvps fst snd]. assert (HR : nc_rows nc' = map cvr (nc_rows nc)) by apply H. rewrite HR, get_map.
    destruct (get (nc_rows nc) f) as [r|]; cbn [bind rmap]; auto. change (r_ne_train (cvr r)) with (r_ne_train r).
    destruct (1 <? length (r_ne_train r)); cbn [rmap]; auto. apply find_along_cv; auto.
Qed.

(** Node statistics: everything but the prediction and the loss. *)
Lemma train_fold_cv : forall (tc : tctx A nat) f col l w p p' r x x',
  foldM (train_step tk tc f col) l (w, p, r) = Ok x -> foldM (train_step tk' tc f col) l (w, p', cvr r) = Ok x' ->
  fst (fst x') = fst (fst x) /\ snd x' = cvr (snd x).
Proof.
  intros tc f col l. induction l as [|i l IH]; intros w p p' r x x' H H'; cbn [foldM] in *.
  - inversion H; inversion H'; subst. auto.
  - apply bind_ok in H. destruct H as ([[w1 p1] r1] & S1 & H). apply bind_ok in H'. destruct H' as ([[w1' p1'] r1'] & S1' & H').
    assert (G : w1' = w1 /\ r1' = cvr r1).
    { clear H H' IH. unfold train_step in *. change (tk_Y tk) with nat in *. change (tk_Y tk') with nat in *.
      change (r_n_train (cvr r)) with (r_n_train r) in S1'. change (r_ne_train (cvr r)) with (r_ne_train r) in S1'.
      change (r_w_train (cvr r)) with (r_w_train r) in S1'. change (r_hist (cvr r)) with (r_hist r) in S1'.
      change (tk_hist_add tk') with (tk_hist_add tk) in S1'. change (tk_pred_add tk') with (tk_pred_add tk) in S1'.
      destruct (column_bin col i) as [b|]; cbn [bind] in *; [|discriminate].
      destruct (get (tc_y tc) i) as [lb|]; cbn [bind] in *; [|discriminate].
      destruct (get (tc_weights tc) i) as [sw|]; cbn [bind] in *; [|discriminate].
      apply bind_ok in S1. destruct S1 as ([w2 p2] & E1 & S1). apply bind_ok in S1'. destruct S1' as ([w2' p2'] & E1' & S1').
      assert (w2' = w2) as ->.
      { destruct (f =? 0); [|congruence]. apply bind_ok in E1. destruct E1 as (? & _ & E1). apply bind_ok in E1'. destruct E1' as (? & _ & E1'). congruence. }
      destruct (get (r_n_train r) b) as [n|]; cbn [bind] in *; [|discriminate].
      destruct (append_bin (tc_max_n_bins tc) n (r_ne_train r) b) as [ne|]; cbn [bind] in *; [|discriminate].
      destruct (set (r_n_train r) b (n + 1)) as [nt|]; cbn [bind] in *; [|discriminate].
      destruct (add_at (r_w_train r) b sw) as [wt|]; cbn [bind] in *; [|discriminate].
      match type of S1 with bind ?m _ = _ => destruct m as [h|] eqn:Eh; cbn [bind] in *; [|discriminate] end.
      inversion S1; inversion S1'; subst. auto. }
    destruct G as [-> ->]. eapply IH; eauto.
Qed.

Lemma valid_fold_cv : forall (tc : tctx A nat) f col q q' l w z z' r x x',
  foldM (valid_step tk tc f q col) l (w, z, r) = Ok x -> foldM (valid_step tk' tc f q' col) l (w, z', cvr r) = Ok x' ->
  fst (fst x') = fst (fst x) /\ snd x' = cvr (snd x).
Proof.
  intros tc f col q q' l. induction l as [|i l IH]; intros w z z' r x x' H H'; cbn [foldM] in *.
  - inversion H; inversion H'; subst. auto.
  - apply bind_ok in H. destruct H as ([[w1 p1] r1] & S1 & H). apply bind_ok in H'. destruct H' as ([[w1' p1'] r1'] & S1' & H').
    assert (G : w1' = w1 /\ r1' = cvr r1).
    { clear H H' IH. unfold valid_step in *. change (tk_Y tk) with nat in *. change (tk_Y tk') with nat in *.
      change (r_n_valid (cvr r)) with (r_n_valid r) in S1'. change (r_ne_valid (cvr r)) with (r_ne_valid r) in S1'.
      change (r_w_valid (cvr r)) with (r_w_valid r) in S1'. change (r_hist (cvr r)) with (r_hist r) in S1'.
      change (r_n_train (cvr r)) with (r_n_train r) in S1'. change (r_ne_train (cvr r)) with (r_ne_train r) in S1'.
      change (r_w_train (cvr r)) with (r_w_train r) in S1'.
      destruct (column_bin col i) as [b|]; cbn [bind] in *; [|discriminate].
      destruct (get (tc_weights tc) i) as [sw|]; cbn [bind] in *; [|discriminate].
      apply bind_ok in S1. destruct S1 as ([w2 p2] & E1 & S1). apply bind_ok in S1'. destruct S1' as ([w2' p2'] & E1' & S1').
      assert (w2' = w2) as ->.
      { destruct (f =? 0); [|congruence]. apply bind_ok in E1. destruct E1 as (? & _ & E1). apply bind_ok in E1'. destruct E1' as (? & _ & E1').
        apply bind_ok in E1. destruct E1 as (? & _ & E1). apply bind_ok in E1'. destruct E1' as (? & _ & E1'). congruence. }
      destruct (get (r_n_valid r) b) as [n|]; cbn [bind] in *; [|discriminate].
      destruct (append_bin (tc_max_n_bins tc) n (r_ne_valid r) b) as [ne|]; cbn [bind] in *; [|discriminate].
      destruct (set (r_n_valid r) b (n + 1)) as [nt|]; cbn [bind] in *; [|discriminate].
      destruct (add_at (r_w_valid r) b sw) as [wt|]; cbn [bind] in *; [|discriminate].
      inversion S1; inversion S1'; subst. auto. }
    destruct G as [-> ->]. eapply IH; eauto.
Qed.

Definition acc_same (a : acc tk) (a' : acc tk') : Prop :=
  ac_w_train a' = ac_w_train a /\ ac_w_valid a' = ac_w_valid a /\ ac_rows a' = map cvr (ac_rows a).

Lemma features_fold_cv : forall (tc : tctx A nat) train valid l a a' x x', acc_same a a' ->
  foldM (feature_step tk tc train valid) l a = Ok x -> foldM (feature_step tk' tc train valid) l a' = Ok x' -> acc_same x x'.
Proof.
  intros tc train valid l. induction l as [|[f j] l IH]; intros a a' x x' HS H H'; cbn [foldM] in *.
  - inversion H; inversion H'; subst. auto.
  - apply bind_ok in H. destruct H as (a1 & S1 & H). apply bind_ok in H'. destruct H' as (a1' & S1' & H').
    eapply IH; [|exact H|exact H']. clear H H' IH.
    destruct HS as (E1 & E2 & E3). unfold feature_step in *. change (tk_Y tk) with nat in *. change (tk_Y tk') with nat in *.
    destruct (feature_column (tc_fb tc) j) as [col|]; cbn [bind] in *; [|discriminate].
    apply bind_ok in S1. destruct S1 as ([[w p] r] & F1 & S1). apply bind_ok in S1'. destruct S1' as ([[w' p'] r'] & F1' & S1').
    rewrite E1 in F1'. change (row0 tk' (tc_max_n_bins tc)) with (cvr (row0 tk (tc_max_n_bins tc))) in F1'.
    destruct (train_fold_cv _ _ _ _ _ _ _ _ _ _ F1 F1') as [G1 G2]. cbn [fst snd] in G1, G2. subst w' r'.
    apply bind_ok in S1. destruct S1 as (q & _ & S1). apply bind_ok in S1'. destruct S1' as (q' & _ & S1').
    apply bind_ok in S1. destruct S1 as ([[wv z] r2] & V1 & S1). apply bind_ok in S1'. destruct S1' as ([[wv' z'] r2'] & V1' & S1').
    assert (G : wv' = wv /\ r2' = cvr r2).
    { destruct (tc_aggregation tc).
      - rewrite E2 in V1'. destruct (valid_fold_cv _ _ _ _ _ _ _ _ _ _ _ _ V1 V1') as [G1 G2]. cbn [fst snd] in *. auto.
      - inversion V1; inversion V1'; subst. auto. }
    destruct G as [-> ->]. inversion S1; inversion S1'; subst. unfold acc_same. cbn. rewrite E3, map_app. auto.
Qed.

Lemma node_stats_cv : forall (tc : tctx A nat) features train valid nc nc',
  node_stats tk tc features train valid = Ok nc -> node_stats tk' tc features train valid = Ok nc' -> nc_same nc nc'.
Proof.
  intros tc features train valid nc nc' H H'. unfold node_stats in *.
  apply bind_ok in H. destruct H as (a & F & H). apply bind_ok in H'. destruct H' as (a' & F' & H').
  inversion H; inversion H'; subst. clear H H'.
  destruct (features_fold_cv _ _ _ _ _ _ _ _ (conj eq_refl (conj eq_refl eq_refl) : acc_same (mkAcc tk a0 a0 a0 (tk_pred0 tk) []) (mkAcc tk' a0 a0 a0 (tk_pred0 tk') [])) F F') as (E1 & E2 & E3).
  repeat split; cbn; auto.
Qed.


(** Trees without their losses and predictions. *)
Definition pred0 : list (num A) := repeat a0 K.
Definition strip (n : node A) : node A := with_loss n a0.
Definition normt (t : tree A (list (num A))) : tree A (list (num A)) :=
  mkTree (tr_max_depth t) (tr_node_count t) (tr_capacity t) (map strip (tr_nodes t)) (map (fun _ => pred0) (tr_y_pred t))
    (tr_bp_capacity t) (tr_bp t) (tr_bp_end t).
Definition normx (x : new_node A) : new_node A :=
  mkNew (nn_parent x) (nn_depth x) (nn_is_left x) (nn_is_leaf x) (nn_feature x) (nn_bin x) (nn_impurity x)
    (nn_n_train x) (nn_n_valid x) (nn_w_train x) (nn_w_valid x) (nn_start_train x) (nn_end_train x) (nn_start_valid x) (nn_end_valid x)
    a0 (nn_is_cat x) (nn_partition x).

Lemma upd_map : forall {X Y} (f : X -> Y) l i x, upd (map f l) i (f x) = map f (upd l i x).
Proof. induction l as [|h l IH]; intros [|i] x; cbn; auto. rewrite IH. auto. Qed.

Lemma set_map : forall {X Y} (f : X -> Y) l i x, set (map f l) i (f x) = rmap (map f) (set l i x).
Proof. intros. unfold set. rewrite map_length. destruct (i <? length l); cbn; auto. rewrite upd_map. auto. Qed.

Lemma resize_map : forall {X Y} (f : X -> Y) g g' l c, (forall i, g' i = f (g i)) ->
  resize g' (map f l) c = rmap (map f) (resize g l c).
Proof.
  intros X Y f g g' l c H. unfold resize. rewrite map_length. destruct (length l <=? c); cbn; auto.
  rewrite map_app, map_map. f_equal. f_equal. apply map_ext. auto.
Qed.

Lemma resize_tree_norm : forall t c, resize_tree pred0 (normt t) c = rmap normt (resize_tree pred0 t c).
Proof.
  assert (G : forall t c, resize_tree_ pred0 (normt t) c = rmap normt (resize_tree_ pred0 t c)).
  { intros t c. unfold resize_tree_. cbn [normt tr_nodes tr_y_pred tr_max_depth tr_node_count tr_bp tr_bp_capacity tr_bp_end].
    rewrite (resize_map strip (fun _ => node0) (fun _ => node0)) by reflexivity.
    destruct (resize (fun _ => node0) (tr_nodes t) c); cbn [bind rmap]; auto.
    rewrite (resize_map (fun _ : list (num A) => pred0) (fun _ => pred0) (fun _ => pred0)) by reflexivity.
    destruct (resize (fun _ => pred0) (tr_y_pred t) c); cbn [bind rmap]; auto. }
  intros t c. unfold resize_tree. cbn [normt tr_capacity tr_nodes]. rewrite map_length.
  destruct c as [c|].
  - destruct ((c <=? tr_capacity t) && (0 <? length (tr_nodes t)))%bool; [reflexivity|apply G].
  - destruct (tr_capacity t =? 0); apply G.
Qed.

Lemma resize_bp_norm : forall fill t c, resize_tree_bin_partitions fill (normt t) c = rmap normt (resize_tree_bin_partitions fill t c).
Proof.
  assert (G : forall fill t c, resize_tree_bin_partitions_ fill (normt t) c = rmap normt (resize_tree_bin_partitions_ fill t c)).
  { intros fill t c. unfold resize_tree_bin_partitions_. cbn [normt tr_bp].
    destruct (resize fill (tr_bp t) c); cbn [bind rmap]; auto. }
  intros fill t c. unfold resize_tree_bin_partitions. cbn [normt tr_bp_capacity tr_bp].
  destruct c as [c|].
  - destruct ((c <=? tr_bp_capacity t) && (0 <? length (tr_bp t)))%bool; [reflexivity|apply G].
  - destruct (tr_bp_capacity t =? 0); apply G.
Qed.

Lemma add_node_norm : forall fill t x,
  add_node_tree fill pred0 (normt t) (normx x) = rmap (fun r => (normt (fst r), snd r)) (add_node_tree fill pred0 t x).
Proof.
  intros fill t x. unfold add_node_tree.
  cbn [normx nn_parent nn_depth nn_is_left nn_is_leaf nn_feature nn_bin nn_impurity nn_n_train nn_n_valid nn_w_train nn_w_valid
       nn_start_train nn_end_train nn_start_valid nn_end_valid nn_loss nn_is_cat nn_partition].
  change (tr_capacity (normt t)) with (tr_capacity t). change (tr_node_count (normt t)) with (tr_node_count t).
  set (idx := tr_node_count t).
  assert (E1 : (if tr_capacity t <=? idx then resize_tree pred0 (normt t) None else Ok (normt t)) =
    rmap normt (if tr_capacity t <=? idx then resize_tree pred0 t None else Ok t)).
  { destruct (tr_capacity t <=? idx); auto. apply resize_tree_norm. }
  rewrite E1. clear E1. destruct (if tr_capacity t <=? idx then resize_tree pred0 t None else Ok t) as [t1|]; cbn [bind rmap]; auto.
  change (tr_nodes (normt t1)) with (map strip (tr_nodes t1)). rewrite get_map.
  destruct (get (tr_nodes t1) idx) as [old|]; cbn [bind rmap]; auto.
  match goal with |- bind (set _ _ ?n') _ = rmap _ (bind (set _ _ ?n) _) => change n' with (strip n); rewrite set_map; destruct (set (tr_nodes t1) idx n) as [nodes1|]; cbn [bind rmap]; auto end.
  assert (E2 : (match nn_parent x with
     | Some p => let* pn := get (map strip nodes1) p in
                set (map strip nodes1) p (if nn_is_left x then with_left pn (Some idx) else with_right pn (Some idx))
     | None => Ok (map strip nodes1) end) = rmap (map strip) (match nn_parent x with
     | Some p => let* pn := get nodes1 p in
                set nodes1 p (if nn_is_left x then with_left pn (Some idx) else with_right pn (Some idx))
     | None => Ok nodes1 end)).
  { destruct (nn_parent x) as [p|]; auto. rewrite get_map. destruct (get nodes1 p) as [pn|]; cbn [bind rmap]; auto.
    rewrite <- set_map. destruct (nn_is_left x); reflexivity. }
  rewrite E2. clear E2.
  match goal with |- bind (rmap _ ?m) _ = _ => destruct m as [nodes2|]; cbn [bind rmap]; auto end.
  rewrite get_map. destruct (get nodes2 idx) as [n2|]; cbn [bind rmap]; auto.
  assert (E3 : forall m' m, m' = rmap (fun r : tree A (list (num A)) * nat * nat => (normt (fst (fst r)), snd (fst r), snd r)) m ->
    (let* ' (t2, bs, be) := m' in
     let* nodes3 := set (map strip nodes2) idx (mkNode (nd_id (strip n2)) (nd_parent (strip n2))
              (if nn_is_leaf x then None else nd_left (strip n2))
              (if nn_is_leaf x then None else nd_right (strip n2))
              (nd_is_leaf (strip n2)) (nd_is_left (strip n2)) (nd_depth (strip n2))
              (if nn_is_leaf x then None else Some (nn_feature x))
              (if nn_is_leaf x then None else Some (nn_bin x))
              (nd_impurity (strip n2)) (nd_loss (strip n2)) (nd_logw (strip n2)) (nd_n_train (strip n2)) (nd_n_valid (strip n2))
              (nd_w_train (strip n2)) (nd_w_valid (strip n2)) (nd_start_train (strip n2)) (nd_end_train (strip n2))
              (nd_start_valid (strip n2)) (nd_end_valid (strip n2)) (nn_is_cat x) bs be) in
     Ok (mkTree (tr_max_depth t2) (idx + 1) (tr_capacity t2) nodes3 (tr_y_pred t2)
        (tr_bp_capacity t2) (tr_bp t2) (tr_bp_end t2), idx)) =
    rmap (fun r => (normt (fst r), snd r))
     (let* ' (t2, bs, be) := m in
     let* nodes3 := set nodes2 idx (mkNode (nd_id n2) (nd_parent n2)
              (if nn_is_leaf x then None else nd_left n2)
              (if nn_is_leaf x then None else nd_right n2)
              (nd_is_leaf n2) (nd_is_left n2) (nd_depth n2)
              (if nn_is_leaf x then None else Some (nn_feature x))
              (if nn_is_leaf x then None else Some (nn_bin x))
              (nd_impurity n2) (nd_loss n2) (nd_logw n2) (nd_n_train n2) (nd_n_valid n2)
              (nd_w_train n2) (nd_w_valid n2) (nd_start_train n2) (nd_end_train n2)
              (nd_start_valid n2) (nd_end_valid n2) (nn_is_cat x) bs be) in
     Ok (mkTree (tr_max_depth t2) (idx + 1) (tr_capacity t2) nodes3 (tr_y_pred t2)
        (tr_bp_capacity t2) (tr_bp t2) (tr_bp_end t2), idx))).
  { intros m' m ->. destruct m as [[[t2 bs] be]|]; cbn [bind rmap fst snd]; auto.
    match goal with |- bind (set _ _ ?n') _ = rmap _ (bind (set _ _ ?n) _) => change n' with (strip n); rewrite set_map; destruct (set nodes2 idx n) as [nodes3|]; cbn [bind rmap]; auto end. }
  apply E3. clear E3.
  destruct (nn_is_cat x && (0 <? length (nn_partition x)))%bool; cbn [rmap fst snd]; auto.
  change (tr_bp_end (normt t1)) with (tr_bp_end t1). change (tr_bp_capacity (normt t1)) with (tr_bp_capacity t1).
  set (be := tr_bp_end t1 + length (nn_partition x)).
  assert (E4 : (if tr_bp_capacity t1 <? be then resize_tree_bin_partitions fill (normt t1) (Some (be + 1)) else Ok (normt t1)) =
    rmap normt (if tr_bp_capacity t1 <? be then resize_tree_bin_partitions fill t1 (Some (be + 1)) else Ok t1)).
  { destruct (tr_bp_capacity t1 <? be); auto. apply resize_bp_norm. }
  rewrite E4. clear E4.
  match goal with |- bind (rmap _ ?m) _ = _ => destruct m as [t2|]; cbn [bind rmap]; auto end.
  change (tr_bp (normt t2)) with (tr_bp t2). destruct (splice (tr_bp t2) (tr_bp_end t1) (nn_partition x)); cbn [bind rmap]; auto.
Qed.

Definition g_same (g : gstate tk) (g' : gstate tk') : Prop :=
  normt (g_tree g') = normt (g_tree g) /\ g_parts g' = g_parts g /\ g_rng g' = g_rng g /\ g_fs g' = g_fs g /\ g_records g' = g_records g.

Lemma set_pred_norm : forall (t : tree A (list (num A))) i v yp, set (tr_y_pred t) i v = Ok yp -> map (fun _ => pred0) yp = map (fun _ => pred0) (tr_y_pred t).
Proof.
  intros t i v yp H. apply set_ok in H. destruct H as [_ ->].
  generalize (tr_y_pred t) as l. clear. intros l. revert i. induction l as [|h l IH]; intros [|i]; cbn; auto. rewrite IH. auto.
Qed.

Lemma split_indices_cv : forall (tc : tctx A nat) ps sp a b c e,
  split_indices tk' tc ps (cvp sp) a b c e = split_indices tk tc ps sp a b c e.
Proof. reflexivity. Qed.

Lemma grow_step_same : forall (tc : tctx A nat) g g' g1 g1', g_same g g' ->
  grow_step tk tc g = Ok g1 -> grow_step tk' tc g' = Ok g1' -> g_same g1 g1'.
Proof.
  intros tc g g' g1 g1' (S1 & S2 & S3 & S4 & S5) H H'. unfold grow_step in *. rewrite S2, S3, S4, S5 in H'.
  destruct (pop_node_record (g_records g)) as [[r rs]|]; cbn [bind] in *; [|discriminate].
  apply bind_ok in H. destruct H as ([[nc s] fs] & C & H). apply bind_ok in H'. destruct H' as ([[nc' s'] fs'] & C' & H').
  assert (G : s' = s /\ fs' = fs /\ nc_same nc nc').
  { clear H H'. unfold compute_node_context in *. destruct (sample_features (g_rng g) (g_fs g)) as [[s0 fs0]|]; cbn [bind] in *; [|discriminate].
    destruct (slice (p_train (g_parts g)) (rc_start_train r) (rc_end_train r)) as [tr|]; cbn [bind] in *; [|discriminate].
    destruct (slice (p_valid (g_parts g)) (rc_start_valid r) (rc_end_valid r)) as [va|]; cbn [bind] in *; [|discriminate].
    apply bind_ok in C. destruct C as (nc0 & N & C). apply bind_ok in C'. destruct C' as (nc0' & N' & C').
    inversion C; inversion C'; subst. split; [auto|split; auto]. eapply node_stats_cv; eauto. }
  clear C C'. destruct G as (-> & -> & NS).
  apply bind_ok in H. destruct H as ([[leaf sp] s2] & C & H). apply bind_ok in H'. destruct H' as ([[leaf' sp'] s2'] & C' & H').
  assert (G : leaf' = leaf /\ sp' = cvp sp /\ s2' = s2).
  { clear H H'. unfold choose_split in *. destruct NS as (N1 & N2 & N3 & N4 & N5 & N6).
    assert (E1 : stop_test tk' tc nc' (rc_depth r) (rc_impurity r) = stop_test tk tc nc (rc_depth r) (rc_impurity r)).
    { unfold stop_test. rewrite N2, N3. reflexivity. }
    rewrite E1 in C'. destruct (stop_test tk tc nc (rc_depth r) (rc_impurity r)).
    - inversion C; inversion C'; subst. auto.
    - rewrite (find_node_split_cv tc nc nc') in C' by (repeat split; auto).
      destruct (find_node_split tk tc nc s) as [[sp0 s0]|]; cbn [bind rmap cvps fst snd] in *; [|discriminate].
      inversion C; inversion C'; subst. auto. }
  clear C C'. destruct G as (-> & -> & ->). destruct NS as (N1 & N2 & N3 & N4 & N5 & N6).
  apply bind_ok in H. destruct H as ([t id] & T1 & H). apply bind_ok in H'. destruct H' as ([t' id'] & T1' & H').
  assert (G : id' = id /\ normt t' = normt t).
  { clear H H'. rewrite N2, N3, N4, N5 in T1'.
    match type of T1 with add_node_tree ?f _ ?t0 ?x = _ => pose proof (add_node_norm f t0 x) as B1 end.
    match type of T1' with add_node_tree ?f _ ?t0 ?x = _ => pose proof (add_node_norm f t0 x) as B2 end.
    rewrite S1 in B2.
    assert (T2 : forall m, m = add_node_tree (mem E) pred0 (normt (g_tree g)) (normx (mkNew (rc_parent r) (rc_depth r) (rc_is_left r) leaf (sp_feature sp) (sp_threshold sp)
         (rc_impurity r) (nc_n_train nc) (nc_n_valid nc) (nc_w_train nc) (nc_w_valid nc)
         (rc_start_train r) (rc_end_train r) (rc_start_valid r) (rc_end_valid r)
         (nc_loss nc) (sp_is_cat sp) (sp_partition sp))) -> m = Ok (normt t, id) /\ m = Ok (normt t', id')).
    { intros m ->. split.
      - etransitivity; [exact B1|]. match goal with |- rmap _ ?m = _ => replace m with (Ok (t, id) : res (tree A (list (num A)) * nat)) by (symmetry; exact T1) end. reflexivity.
      - etransitivity; [exact B2|]. match goal with |- rmap _ ?m = _ => replace m with (Ok (t', id') : res (tree A (list (num A)) * nat)) by (symmetry; exact T1') end. reflexivity. }
    destruct (T2 _ eq_refl) as [T3 T4]. rewrite T3 in T4. split; [congruence|]. assert (E9 : (normt t', id') = (normt t, id)) by congruence. exact (f_equal fst E9). }
  clear T1 T1'. destruct G as (-> & NT).
  apply bind_ok in H. destruct H as (yp & Y1 & H). apply bind_ok in H'. destruct H' as (yp' & Y1' & H').
  apply set_pred_norm in Y1. apply set_pred_norm in Y1'.
  assert (NT2 : normt (with_y_pred tk' t' yp') = normt (with_y_pred tk t yp)).
  { unfold normt in *. cbn [with_y_pred tr_max_depth tr_node_count tr_capacity tr_nodes tr_y_pred tr_bp_capacity tr_bp tr_bp_end].
    rewrite Y1, Y1'. exact NT. }
  destruct leaf.
  - inversion H; inversion H'; subst. repeat split; auto.
  - change (split_indices tk' tc (g_parts g) (cvp sp)) with (split_indices tk tc (g_parts g) sp) in H'.
    destruct (split_indices tk tc (g_parts g) sp _ _ _ _) as [[[ps pt] pv]|]; cbn [bind] in *; [|discriminate].
    change (sp_imp_left (cvp sp)) with (sp_imp_left sp) in H'. change (sp_imp_right (cvp sp)) with (sp_imp_right sp) in H'.
    match type of H with bind ?m _ = _ => destruct m as [rs1|]; cbn [bind] in *; [|discriminate] end.
    match type of H with bind ?m _ = _ => destruct m as [rs2|]; cbn [bind] in *; [|discriminate] end.
    inversion H; inversion H'; subst. repeat split; auto.
Qed.

Lemma grow_loop_same : forall fuel (tc : tctx A nat) g g' g1 g1', g_same g g' ->
  grow_loop tk fuel tc g = Ok g1 -> grow_loop tk' fuel tc g' = Ok g1' -> g_same g1 g1'.
Proof.
  induction fuel as [|fuel IH]; intros tc g g' g1 g1' HS H H'; cbn [grow_loop] in *.
  - destruct HS as (S1 & S2 & S3 & S4 & S5). rewrite S5 in H'. destruct (has_records (g_records g)); [discriminate|].
    inversion H; inversion H'; subst. repeat split; auto.
  - assert (S5 : g_records g' = g_records g) by apply HS. rewrite S5 in H'. destruct (has_records (g_records g)).
    + apply bind_ok in H. destruct H as (g2 & H2 & H). apply bind_ok in H'. destruct H' as (g2' & H2' & H').
      eapply IH; [|exact H|exact H']. eapply grow_step_same; eauto.
    + inversion H; inversion H'; subst. auto.
Qed.

(** Predictions above the count. *)
Definition tail_ok (t : tree A (list (num A))) : Prop :=
  forall i v, tr_node_count t <= i -> nth_error (tr_y_pred t) i = Some v -> v = pred0.

Lemma resize_tree_tail : forall t c t', tail_ok t -> resize_tree pred0 t c = Ok t' -> tail_ok t' /\ tr_node_count t' = tr_node_count t.
Proof.
  assert (G : forall t c t', tail_ok t -> resize_tree_ pred0 t c = Ok t' -> tail_ok t' /\ tr_node_count t' = tr_node_count t).
  { intros t c t' HT H. unfold resize_tree_ in H. apply bind_ok in H. destruct H as (ns & _ & H).
    apply bind_ok in H. destruct H as (yp & Hy & H). inversion H; subst t'. clear H. split; auto.
    intros i v Hi Hn. cbn in *. unfold resize in Hy. destruct (length (tr_y_pred t) <=? c); [|discriminate]. inversion Hy; subst yp.
    destruct (Nat.lt_ge_cases i (length (tr_y_pred t))).
    - rewrite nth_error_app1 in Hn by auto. eapply HT; eauto.
    - rewrite nth_error_app2 in Hn by auto. apply nth_error_In in Hn. apply in_map_iff in Hn. destruct Hn as (? & <- & _). auto. }
  intros t c t' HT H. unfold resize_tree in H. destruct c as [c|].
  - destruct (_ && _)%bool in H; [inversion H; subst; auto|eapply G; eauto].
  - destruct (tr_capacity t =? 0); eapply G; eauto.
Qed.

Lemma add_node_tail : forall fill t x t' id, tail_ok t -> add_node_tree fill pred0 t x = Ok (t', id) ->
  tail_ok t' /\ tr_node_count t' = tr_node_count t + 1 /\ id = tr_node_count t.
Proof.
  intros fill t x t' id HT H. unfold add_node_tree in H.
  apply bind_ok in H. destruct H as (t1 & H1 & H).
  assert (G : tail_ok t1 /\ tr_node_count t1 = tr_node_count t).
  { destruct (tr_capacity t <=? tr_node_count t); [eapply resize_tree_tail; eauto|inversion H1; subst; auto]. }
  destruct G as [G1 G2]. clear H1.
  apply bind_ok in H. destruct H as (old & _ & H). apply bind_ok in H. destruct H as (n1 & _ & H).
  apply bind_ok in H. destruct H as (n2 & _ & H). apply bind_ok in H. destruct H as (n3 & _ & H).
  apply bind_ok in H. destruct H as ([[t2 bs] be] & H2 & H).
  assert (Y : tr_y_pred t2 = tr_y_pred t1).
  { destruct (nn_is_cat x && _)%bool; [|inversion H2; subst; auto].
    apply bind_ok in H2. destruct H2 as (t3 & H3 & H2). apply bind_ok in H2. destruct H2 as (bp & _ & H2). inversion H2; subst. cbn.
    destruct (tr_bp_capacity t1 <? _); [|inversion H3; auto].
    unfold resize_tree_bin_partitions, resize_tree_bin_partitions_ in H3. destruct (_ && _)%bool in H3; [inversion H3; auto|].
    apply bind_ok in H3. destruct H3 as (? & _ & H3). inversion H3; auto. }
  apply bind_ok in H. destruct H as (n4 & _ & H). inversion H; subst t' id. cbn. split; auto.
  intros i v Hi Hn. cbn in *. rewrite Y in Hn. apply (G1 i); [|auto]. lia.
Qed.

Lemma grow_step_tail : forall (tc : tctx A nat) (g g1 : gstate tk), tail_ok (g_tree g) -> grow_step tk tc g = Ok g1 -> tail_ok (g_tree g1).
Proof.
  intros tc g g1 HT H. unfold grow_step in H.
  apply bind_ok in H. destruct H as ([r rs] & _ & H). apply bind_ok in H. destruct H as ([[nc s] fs] & _ & H).
  apply bind_ok in H. destruct H as ([[leaf sp] s2] & _ & H). apply bind_ok in H. destruct H as ([t id] & T1 & H).
  destruct (add_node_tail _ _ _ _ _ HT T1) as (A1 & A2 & A3).
  apply bind_ok in H. destruct H as (yp & Y1 & H). apply set_ok in Y1. destruct Y1 as [_ ->].
  assert (G : tail_ok (with_y_pred tk t (upd (tr_y_pred t) id (nc_pred nc)))).
  { intros i v Hi Hn. cbn in *. rewrite A2 in Hi. rewrite nth_error_upd_neq in Hn by lia. apply (A1 i); auto. lia. }
  destruct leaf.
  - inversion H; subst. exact G.
  - apply bind_ok in H. destruct H as ([[ps pt] pv] & _ & H). apply bind_ok in H. destruct H as (rs1 & _ & H).
    apply bind_ok in H. destruct H as (rs2 & _ & H). inversion H; subst. exact G.
Qed.

Lemma grow_loop_tail : forall fuel (tc : tctx A nat) (g g1 : gstate tk), tail_ok (g_tree g) -> grow_loop tk fuel tc g = Ok g1 -> tail_ok (g_tree g1).
Proof.
  induction fuel as [|fuel IH]; intros tc g g1 HT H; cbn [grow_loop] in H; destruct (has_records (g_records g)); try discriminate;
    try (inversion H; subst; auto; fail).
  apply bind_ok in H. destruct H as (g2 & H2 & H). eapply IH; [|exact H]. eapply grow_step_tail; eauto.
Qed.

End Dirichlet.
