(** * Adding nodes to the arrays of a tree *)

Require Import List Arith Lia NArith.
Require Import Verif.Base Verif.Num Verif.M_Bitarray Verif.M_Utils Verif.M_Context Verif.M_Split
  Verif.M_Tree Verif.P_Utils Verif.P_List Verif.P_Stack Verif.P_Indices.
Import ListNotations.
Local Open Scope res_scope.

Section Tree.
Context {A : arith} {P : Type}.
Notation T := (num A).

(** The arrays of [t] hold the nodes [ns], the predictions [ps] and the bin partitions
    [bs], followed by unused cells. *)
Definition tree_is (t : tree A P) (ns : list (node A)) (ps : list P) (bs : list nat) : Prop :=
  exists k yq bq,
    tr_max_depth t = 0 /\ tr_node_count t = length ns /\ tr_capacity t = length ns + k /\
    tr_nodes t = ns ++ repeat node0 k /\
    tr_y_pred t = ps ++ yq /\ length ps + length yq = length ns + k /\
    tr_bp t = bs ++ bq /\ tr_bp_capacity t = length bs + length bq /\ tr_bp_end t = length bs.

(** The nodes with the child of a parent written. *)
Definition set_child (ns : list (node A)) (parent : option nat) (is_left : bool) (id : nat) : list (node A) :=
  match parent with
  | None => ns
  | Some p => match nth_error ns p with
              | None => ns
              | Some pn => upd ns p (if is_left then with_left pn (Some id) else with_right pn (Some id))
              end
  end.

Lemma set_child_length : forall ns parent l id, length (set_child ns parent l id) = length ns.
Proof.
  intros ns [p|] l id; simpl; auto. destruct (nth_error ns p); auto. apply upd_length.
Qed.

Lemma set_child_mid : forall (ns : list (node A)) n r (l : bool) id,
  set_child (ns ++ n :: r) (Some (length ns)) l id =
  ns ++ (if l then with_left n (Some id) else with_right n (Some id)) :: r.
Proof.
  intros ns n r l id. unfold set_child. rewrite nth_error_app2, Nat.sub_diag by lia. simpl.
  replace (length ns) with (length ns + 0) by lia. rewrite upd_app_r. reflexivity.
Qed.

Lemma set_child_at : forall (ns : list (node A)) n r i (l : bool) id, length ns = i ->
  set_child (ns ++ n :: r) (Some i) l id =
  ns ++ (if l then with_left n (Some id) else with_right n (Some id)) :: r.
Proof. intros; subst; apply set_child_mid. Qed.

Lemma repeat_cons_app : forall {X} (x : X) k, repeat x (S k) = x :: repeat x k.
Proof. reflexivity. Qed.

(** Where the partition of a new node goes. *)
Definition own_partition (x : new_node A) : list nat := if nn_is_cat x then nn_partition x else [].

Definition fresh (x : new_node A) (id bp : nat) : node A :=
  mkNode id (nn_parent x)
    (if nn_is_leaf x then None else Some 0) (if nn_is_leaf x then None else Some 0)
    (nn_is_leaf x) false (nn_depth x)
    (if nn_is_leaf x then None else Some (nn_feature x))
    (if nn_is_leaf x then None else Some (nn_bin x))
    (nn_impurity x) (nn_loss x) None (nn_n_train x) (nn_n_valid x) (nn_w_train x) (nn_w_valid x)
    (nn_start_train x) (nn_end_train x) (nn_start_valid x) (nn_end_valid x) (nn_is_cat x)
    (match own_partition x with [] => 0 | _ => bp end)
    (match own_partition x with [] => 0 | _ => bp + length (own_partition x) end).

Lemma resize_tree_is : forall pred0 t ns ps bs, tree_is t ns ps bs ->
  exists t', (if tr_capacity t <=? tr_node_count t then resize_tree pred0 t None else Ok t) = Ok t' /\
    tree_is t' ns ps bs /\ length ns < tr_capacity t'.
Proof.
  intros pred0 t ns ps bs (k & yq & bq & H1 & H2 & H3 & H4 & H5 & H6 & H7 & H8 & H9).
  destruct (Nat.leb_spec (tr_capacity t) (tr_node_count t)) as [Hc|Hc].
  - assert (k = 0) by lia. subst k. simpl in H4. rewrite app_nil_r in H4.
    assert (yl : length (tr_y_pred t) = length ns) by (rewrite H5, app_length; lia).
    set (c := if tr_capacity t =? 0 then 3 else 2 * tr_capacity t).
    assert (Hcc : length ns < c).
    { unfold c. destruct (Nat.eqb_spec (tr_capacity t) 0); lia. }
    assert (E : resize_tree pred0 t None = resize_tree_ pred0 t c).
    { unfold resize_tree, c. destruct (tr_capacity t =? 0); reflexivity. }
    rewrite E. unfold resize_tree_. rewrite !resize_ok by (rewrite ?H4; lia). cbn [bind].
    eexists. split; [reflexivity|]. split; [|simpl; lia].
    exists (c - length ns), (yq ++ map (fun _ => pred0) (seq (length (tr_y_pred t)) (c - length (tr_y_pred t)))), bq.
    cbn [tr_max_depth tr_node_count tr_capacity tr_nodes tr_y_pred tr_bp tr_bp_capacity tr_bp_end].
    rewrite app_length, map_length, seq_length.
    repeat split; auto; try lia.
    + rewrite H4, <- map_const_seq. reflexivity.
    + rewrite H5, app_assoc. reflexivity.
  - exists t. split; auto. split; [|lia]. exists k, yq, bq. repeat split; auto.
Qed.

Lemma set_app_head : forall {X} (a b : list X) y x, set (a ++ y :: b) (length a) x = Ok (a ++ x :: b).
Proof.
  intros X a b y x. apply set_ok. split; [rewrite app_length; simpl; lia|].
  replace (length a) with (length a + 0) by lia. rewrite upd_app_r. reflexivity.
Qed.

Lemma get_app_head : forall {X} (a b : list X) y, get (a ++ y :: b) (length a) = Ok y.
Proof. intros. apply get_ok. rewrite nth_error_app2, Nat.sub_diag by lia. reflexivity. Qed.

Lemma get_app_at : forall {X} (a b : list X) y i, i = length a -> get (a ++ y :: b) i = Ok y.
Proof. intros; subst; apply get_app_head. Qed.
Lemma set_app_at : forall {X} (a b : list X) y x i, i = length a -> set (a ++ y :: b) i x = Ok (a ++ x :: b).
Proof. intros; subst; apply set_app_head. Qed.

(** The parent gets its child. *)
Lemma set_child_step : forall (ns : list (node A)) n r parent (l : bool) id, (forall p, parent = Some p -> p < length ns) ->
  match parent with
  | None => Ok (ns ++ n :: r)
  | Some p => let* pn := get (ns ++ n :: r) p in
              set (ns ++ n :: r) p (if l then with_left pn (Some id) else with_right pn (Some id))
  end = Ok (set_child ns parent l id ++ n :: r).
Proof.
  intros ns n r [p|] l id Hp; auto. specialize (Hp p eq_refl). unfold set_child.
  destruct (nth_error ns p) as [pn|] eqn:Ep; [|apply nth_error_None in Ep; lia].
  assert (Eg : get (ns ++ n :: r) p = Ok pn) by (apply get_ok; rewrite nth_error_app1; auto).
  rewrite Eg. cbn [bind]. apply set_ok. split; [rewrite app_length; lia|]. rewrite upd_app_l; auto.
Qed.

Lemma add_node_tree_is : forall fill pred0 t ns ps bs x, tree_is t ns ps bs ->
  (forall p, nn_parent x = Some p -> p < length ns) ->
  exists t', add_node_tree fill pred0 t x = Ok (t', length ns) /\
    tree_is t' (set_child ns (nn_parent x) (nn_is_left x) (length ns) ++ [fresh x (length ns) (length bs)])
      ps (bs ++ own_partition x).
Proof.
  intros fill pred0 t ns ps bs x HT Hp.
  destruct (resize_tree_is pred0 t ns ps bs HT) as (t1 & R1 & T1 & R2).
  assert (Ecount : tr_node_count t = length ns) by (destruct HT as (? & ? & ? & ? & ? & _); auto).
  unfold add_node_tree. rewrite R1. cbn [bind]. rewrite Ecount.
  destruct T1 as (k & yq & bq & H1 & H2 & H3 & H4 & H5 & H6 & H7 & H8 & H9).
  destruct k as [|k]; [lia|]. rewrite repeat_cons_app in H4. rewrite H4.
  rewrite get_app_head. cbn [bind]. rewrite set_app_head. cbn [bind].
  rewrite set_child_step by exact Hp. cbn [bind].
  set (ns' := set_child ns (nn_parent x) (nn_is_left x) (length ns)).
  assert (EL : length ns = length ns') by (symmetry; apply set_child_length).
  rewrite get_app_at by exact EL. cbn [bind].
  destruct (nn_is_cat x && (0 <? length (nn_partition x)))%bool eqn:Ecat.
  - apply andb_prop in Ecat. destruct Ecat as [Ecat Enz]. apply Nat.ltb_lt in Enz.
    assert (Eown : own_partition x = nn_partition x) by (unfold own_partition; rewrite Ecat; auto).
    rewrite H9.
    assert (G : exists t2 bq2, (if tr_bp_capacity t1 <? length bs + length (nn_partition x)
       then resize_tree_bin_partitions fill t1 (Some (length bs + length (nn_partition x) + 1)) else Ok t1) = Ok t2 /\
       tr_max_depth t2 = 0 /\ tr_node_count t2 = length ns /\ tr_capacity t2 = tr_capacity t1 /\
       tr_y_pred t2 = tr_y_pred t1 /\
       tr_bp t2 = bs ++ bq2 /\ tr_bp_capacity t2 = length bs + length bq2 /\ length (nn_partition x) <= length bq2).
    { destruct (Nat.ltb_spec (tr_bp_capacity t1) (length bs + length (nn_partition x))) as [Hl|Hl].
      - unfold resize_tree_bin_partitions.
        replace (length bs + length (nn_partition x) + 1 <=? tr_bp_capacity t1) with false
          by (symmetry; apply Nat.leb_gt; lia). cbn [andb].
        unfold resize_tree_bin_partitions_. rewrite resize_ok by (rewrite H7, app_length; lia). cbn [bind].
        eexists. exists (bq ++ map fill (seq (length (tr_bp t1)) (length bs + length (nn_partition x) + 1 - length (tr_bp t1)))).
        split; [reflexivity|].
        cbn [tr_max_depth tr_node_count tr_capacity tr_nodes tr_y_pred tr_bp tr_bp_capacity tr_bp_end].
        repeat split; auto.
        + rewrite H7 at 1. rewrite <- app_assoc. reflexivity.
        + rewrite app_length, map_length, seq_length, H7, app_length. lia.
        + rewrite app_length, map_length, seq_length, H7, app_length. lia.
      - exists t1, bq. repeat split; auto. lia. }
    destruct G as (t2 & bq2 & G0 & G1 & G2 & G3 & G4 & G5 & G6 & G7).
    rewrite G0. cbn [bind]. rewrite G5.
    assert (Es : splice (bs ++ bq2) (length bs) (nn_partition x) =
       Ok ((bs ++ nn_partition x) ++ skipn (length (nn_partition x)) bq2)).
    { apply splice_ok. split; [rewrite app_length; lia|].
      rewrite firstn_app, firstn_all, Nat.sub_diag, firstn_O, app_nil_r, <- app_assoc.
      f_equal. f_equal. rewrite skipn_app, (skipn_all2 bs) by lia. cbn [app]. f_equal. lia. }
    rewrite Es. cbn [bind]. rewrite set_app_at by exact EL. cbn [bind].
    eexists. split; [reflexivity|].
    exists k, yq, (skipn (length (nn_partition x)) bq2).
    cbn [tr_max_depth tr_node_count tr_capacity tr_nodes tr_y_pred tr_bp tr_bp_capacity tr_bp_end].
    rewrite Eown, !app_length, skipn_length. cbn [length]. rewrite <- EL.
    repeat split; auto; try lia; try congruence.
    rewrite <- app_assoc. f_equal. cbn [app]. f_equal. unfold fresh. rewrite Eown.
      destruct (nn_partition x) eqn:Epart; [simpl in Enz; lia|].
      cbn [nd_id nd_parent nd_left nd_right nd_is_leaf nd_is_left nd_depth nd_impurity nd_loss nd_logw nd_n_train
        nd_n_valid nd_w_train nd_w_valid nd_start_train nd_end_train nd_start_valid nd_end_valid node0].
      destruct (nn_is_leaf x); reflexivity.
  - assert (Eown : own_partition x = []).
    { unfold own_partition. destruct (nn_is_cat x); auto. simpl in Ecat. apply Nat.ltb_ge in Ecat.
      destruct (nn_partition x); auto. simpl in Ecat. lia. }
    cbn [bind]. rewrite set_app_at by exact EL. cbn [bind].
    eexists. split; [reflexivity|].
    exists k, yq, bq.
    cbn [tr_max_depth tr_node_count tr_capacity tr_nodes tr_y_pred tr_bp tr_bp_capacity tr_bp_end].
    rewrite Eown, !app_length. cbn [length]. rewrite <- EL, app_nil_r.
    repeat split; auto; try lia; try congruence.
    rewrite <- app_assoc. f_equal. cbn [app]. f_equal. unfold fresh. rewrite Eown.
    cbn [nd_id nd_parent nd_left nd_right nd_is_leaf nd_is_left nd_depth nd_impurity nd_loss nd_logw nd_n_train
        nd_n_valid nd_w_train nd_w_valid nd_start_train nd_end_train nd_start_valid nd_end_valid node0].
    destruct (nn_is_leaf x); reflexivity.
Qed.

Lemma set_pred_is : forall t ns ps bs v, tree_is t ns ps bs -> length ps < length ns ->
  exists yp, set (tr_y_pred t) (length ps) v = Ok yp /\
    tree_is (mkTree (tr_max_depth t) (tr_node_count t) (tr_capacity t) (tr_nodes t) yp
               (tr_bp_capacity t) (tr_bp t) (tr_bp_end t)) ns (ps ++ [v]) bs.
Proof.
  intros t ns ps bs v (k & yq & bq & H1 & H2 & H3 & H4 & H5 & H6 & H7 & H8 & H9) Hl.
  destruct yq as [|y0 yq]; [simpl in H6; lia|].
  exists (ps ++ v :: yq). split; [rewrite H5; apply set_app_head|].
  exists k, yq, bq. cbn [tr_max_depth tr_node_count tr_capacity tr_nodes tr_y_pred tr_bp tr_bp_capacity tr_bp_end].
  rewrite app_length. cbn [length] in *. repeat split; auto; try lia. rewrite <- app_assoc. reflexivity.
Qed.

Lemma init_tree_is : forall pred0 c, 0 < c -> exists t, resize_tree pred0 (empty_tree (A := A)) (Some c) = Ok t /\ tree_is t [] [] [].
Proof.
  intros pred0 c Hc. unfold resize_tree, empty_tree. cbn [tr_capacity tr_nodes length].
  rewrite Bool.andb_false_r. unfold resize_tree_. cbn [tr_nodes tr_y_pred].
  rewrite !resize_ok by (simpl; lia). cbn [bind app length].
  eexists. split; [reflexivity|].
  exists c, (map (fun _ => pred0) (seq 0 (c - 0))), [].
  cbn [tr_max_depth tr_node_count tr_capacity tr_nodes tr_y_pred tr_bp tr_bp_capacity tr_bp_end length app].
  rewrite map_length, seq_length, <- map_const_seq.
  repeat split; auto; try lia. f_equal. lia.
Qed.

End Tree.
