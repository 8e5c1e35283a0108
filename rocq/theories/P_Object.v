(** * Proofs: lighten and pickle of a grown tree (C43, C45) *)

Require Import List Arith Lia NArith Permutation.
Require Import Verif.Base Verif.Num Verif.M_Bitarray Verif.P_Bitarray Verif.M_Utils Verif.M_Impurity
  Verif.M_Context Verif.M_Node Verif.M_Split Verif.M_Tree Verif.M_Grow Verif.M_Object
  Verif.P_Utils Verif.P_List Verif.P_Task Verif.P_Node Verif.P_Tree Verif.P_Grow Verif.P_Repr Verif.P_Route
  Verif.S_Fit Verif.P_Fit Verif.P_FitTree Verif.S_Node
  Verif.S_Tree Verif.P_Nodes Verif.T_Grow Verif.P_Setters Verif.S_Object.
Import ListNotations.
Local Open Scope nat_scope.
Local Open Scope list_scope.
Local Open Scope res_scope.

(** ** Trees that only point below their count *)
Section Closed.
Context {A : arith} {P : Type}.

Record closed (t : tree A P) : Prop := {
  cl_count : 0 < tr_node_count t <= length (tr_nodes t);
  cl_bp : tr_bp_end t <= length (tr_bp t);
  cl_left : forall id n c, node_at t id n -> nd_left n = Some c -> c < tr_node_count t;
  cl_right : forall id n c, node_at t id n -> nd_right n = Some c -> c < tr_node_count t;
  cl_parent : forall id n c, node_at t id n -> nd_parent n = Some c -> c < tr_node_count t;
  cl_slice : forall id n, node_at t id n -> nd_bp_end n <= tr_bp_end t
}.

Lemma get_firstn : forall {X} (l : list X) k i, i < k -> get (firstn k l) i = get l i.
Proof. intros X l k i H. unfold get. rewrite nth_error_firstn; auto. Qed.

Lemma slice_firstn : forall {X} (l : list X) k a b, k <= length l -> b <= k -> slice (firstn k l) a b = slice l a b.
Proof.
  intros X l k a b Hk Hb. unfold slice. rewrite firstn_length, Nat.min_l by auto.
  destruct (Nat.leb_spec a b); cbn [andb]; [|reflexivity].
  destruct (Nat.leb_spec b k); [|lia]. destruct (Nat.leb_spec b (length l)); [|lia].
  f_equal. rewrite skipn_firstn_comm, firstn_firstn. f_equal. lia.
Qed.

Context (t : tree A P) (CL : closed t).

Lemma get_node_lt : forall id n, id < tr_node_count t -> get (tr_nodes t) id = Ok n -> node_at t id n.
Proof. intros id n H1 H2. apply get_ok in H2. split; auto. Qed.

Lemma next_node_light : forall fb i id n, node_at t id n ->
  next_node (lighten_tree t) fb i n = next_node t fb i n /\
  (forall c, next_node t fb i n = Ok c -> c < tr_node_count t).
Proof.
  intros fb i id n Hn. unfold next_node. cbn [lighten_tree tr_bp].
  destruct (idx_of (nd_feature n)) as [f|e]; cbn [bind]; [|split; [auto|discriminate]].
  destruct (get_value fb i f) as [v|e]; cbn [bind]; [|split; [auto|discriminate]].
  rewrite slice_firstn; [|apply (cl_bp _ CL)|eapply (cl_slice _ CL); eauto]. split; [reflexivity|].
  intros c Hc. apply bind_ok in Hc. destruct Hc as (b & _ & Hc).
  destruct b; [destruct (nd_left n) eqn:El|destruct (nd_right n) eqn:El]; cbn [idx_of] in Hc; try discriminate; inversion Hc; subst.
  - eapply (cl_left _ CL); eauto.
  - eapply (cl_right _ CL); eauto.
Qed.

Lemma find_leaf_loop_light : forall fuel fb i id, id < tr_node_count t ->
  find_leaf_loop fuel (lighten_tree t) fb i id = find_leaf_loop fuel t fb i id /\
  (forall c, find_leaf_loop fuel t fb i id = Ok c -> c < tr_node_count t).
Proof.
  induction fuel as [|fuel IH]; intros fb i id Hid; cbn [find_leaf_loop]; [split; [auto|discriminate]|].
  cbn [lighten_tree tr_nodes]. rewrite get_firstn by auto.
  destruct (get (tr_nodes t) id) as [n|e] eqn:En; cbn [bind]; [|split; [auto|discriminate]].
  apply get_node_lt in En; auto. destruct (nd_is_leaf n); [split; [auto|intros c [= <-]; auto]|].
  destruct (next_node_light fb i id n En) as [H1 H2].
  change (mkTree (tr_max_depth t) (tr_node_count t) (tr_capacity t) (firstn (tr_node_count t) (tr_nodes t))
    (tr_y_pred t) (tr_bp_capacity t) (firstn (tr_bp_end t) (tr_bp t)) (tr_bp_end t)) with (lighten_tree t).
  rewrite H1. destruct (next_node t fb i n) as [c|e]; cbn [bind]; [|split; [auto|discriminate]]. apply IH. auto.
Qed.

Lemma find_leaf_light : forall fb i, find_leaf (lighten_tree t) fb i = find_leaf t fb i /\
  (forall c, find_leaf t fb i = Ok c -> c < tr_node_count t).
Proof. intros fb i. unfold find_leaf. apply find_leaf_loop_light. apply (cl_count _ CL). Qed.

Lemma climb_light : forall {V} step (val : nat -> node A -> res V) mix fuel id v, id < tr_node_count t ->
  climb fuel (lighten_tree t) step val mix id v = climb fuel t step val mix id v.
Proof.
  intros V step val mix. induction fuel as [|fuel IH]; intros id v Hid; cbn [climb]; auto.
  destruct (id =? 0); auto. cbn [lighten_tree tr_nodes]. rewrite get_firstn by auto.
  destruct (get (tr_nodes t) id) as [n|e] eqn:En; cbn [bind]; auto. apply get_node_lt in En; auto.
  destruct (nd_parent n) as [q|] eqn:Eq; cbn [idx_of bind]; auto.
  pose proof (cl_parent _ CL _ _ _ En Eq) as Hq. rewrite get_firstn by auto.
  destruct (get (tr_nodes t) q) as [pn|e]; cbn [bind]; auto.
  destruct (val q pn) as [u|e]; cbn [bind]; auto. destruct (node_alpha step pn) as [a|e]; cbn [bind]; auto.
  destruct (mix a u v) as [v'|e]; cbn [bind]; auto.
Qed.

Lemma mapM_ext_all : forall {X Y} (f g : X -> res Y) l, (forall x, f x = g x) -> mapM f l = mapM g l.
Proof. intros X Y f g l H. induction l as [|x l IH]; cbn [mapM]; auto. rewrite H, IH. auto. Qed.

Lemma predict_light : forall mix fb agg step, tree_predict mix (lighten_tree t) fb agg step = tree_predict mix t fb agg step.
Proof.
  intros mix fb agg step. unfold tree_predict. apply mapM_ext_all. intro i. unfold predict_one.
  destruct (find_leaf_light fb i) as [H1 H2]. rewrite H1. destruct (find_leaf t fb i) as [leaf|e]; cbn [bind]; auto.
  cbn [lighten_tree tr_y_pred tr_node_count]. destruct (get (tr_y_pred t) leaf) as [v|e]; cbn [bind]; auto.
  destruct agg; auto. apply climb_light. auto.
Qed.

Lemma apply_light : forall fb, tree_apply (lighten_tree t) fb = tree_apply t fb.
Proof. intros fb. unfold tree_apply. apply mapM_ext_all. intro i. apply find_leaf_light. Qed.

Lemma depth_light : forall fb step, tree_weighted_depth (lighten_tree t) fb step = tree_weighted_depth t fb step.
Proof.
  intros fb step. unfold tree_weighted_depth. apply mapM_ext_all. intro i. unfold weighted_depth_one.
  destruct (find_leaf_light fb i) as [H1 H2]. rewrite H1. destruct (find_leaf t fb i) as [leaf|e]; cbn [bind]; auto.
  cbn [lighten_tree tr_nodes tr_node_count]. rewrite get_firstn by auto. destruct (get (tr_nodes t) leaf) as [n|e]; cbn [bind]; auto.
  apply climb_light. auto.
Qed.

End Closed.

(** ** Grown trees are closed *)
Lemma inside_bps : forall {A : arith} {E : env A} {tk : task A E} (b0 : btree tk) p0 b p, inside b0 p0 b p ->
  pl_bp p + length (bps b) <= pl_bp p0 + length (bps b0).
Proof.
  intros A E tk b0 p0 b p H. induction H; auto; cbn [rplace lplace pl_bp bps] in *; rewrite !app_length in IHinside; lia.
Qed.

Lemma fitted_closed : forall {A : arith} {E : env A} {tk : task A E} (ts : task_shape tk) tc train valid s g b0,
  fitted ts tc train valid s g b0 -> well_formed (g_tree g) -> closed (g_tree g).
Proof.
  intros A E tk ts tc train valid s g b0 F W.
  destruct (ft_tree _ _ _ _ _ _ _ F) as (k & yq & bq & _ & T2 & T3 & T4 & T5 & T6 & T7 & T8 & T9).
  constructor.
  - destruct (wf_root _ W) as (n & [H1 _] & _). split; [lia|]. rewrite T4, T2, app_length. lia.
  - rewrite T9, T7, app_length. lia.
  - intros id n c Hn Hc. destruct (nd_is_leaf n) eqn:El.
    + destruct (wf_leaf _ W id n Hn El). congruence.
    + destruct (wf_children _ W id n Hn El) as (l & r & ln & rn & E1 & E2 & _ & _ & _ & [L1 _] & [L2 _] & _). congruence.
  - intros id n c Hn Hc. destruct (nd_is_leaf n) eqn:El.
    + destruct (wf_leaf _ W id n Hn El). congruence.
    + destruct (wf_children _ W id n Hn El) as (l & r & ln & rn & E1 & E2 & _ & _ & _ & [L1 _] & [L2 _] & _). congruence.
  - intros id n c Hn Hc. destruct (Nat.eq_dec id 0) as [->|Hid].
    + destruct (wf_root _ W) as (n0 & [H1 H2] & H3 & _). destruct Hn as [_ Hn]. congruence.
    + destruct (wf_parent _ W id n Hn Hid) as (q & pn & E1 & [E2 _] & _). congruence.
  - intros id n Hn. destruct (node_inside ts tc train valid s g b0 F id n Hn) as (b & q & HI & -> & _).
    pose proof (inside_bps _ _ _ _ HI) as H. cbn [root_place pl_bp] in H. rewrite T9.
    assert (HO : nd_bp_end (hnode (Wof tc) b q) <= pl_bp q + length (bps b)).
    { assert (HB : length (own (broot b)) <= length (bps b)) by (destruct b; cbn [broot bps]; rewrite ?app_length; lia).
      destruct b as [d|d l r]; cbn [hnode mknode nd_bp_end broot] in *; unfold own in *.
      all: destruct (sp_is_cat (bd_sp d)); destruct (sp_partition (bd_sp d)); cbn [length] in *; lia. }
    lia.
Qed.

(** ** Allocated bit arrays *)
Lemma fba_init_mem : forall mem mem' n mv fb0, fba_init mem n mv = Ok fb0 -> exists fb1, fba_init mem' n mv = Ok fb1 /\
  length (fb_bitarray fb1) = length (fb_bitarray fb0) /\
  fb0 = mkFba (fb_n_samples fb1) (fb_n_features fb1) (fb_max_values fb1) (fb_n_bits fb1) (fb_offsets fb1) (fb_n_values fb1)
         (fb_bitmasks fb1) (fb_bitarray fb0) /\ fb_n_samples fb1 = n /\ fb_max_values fb1 = mv.
Proof.
  intros mem mem' n mv fb0 H. unfold fba_init in *.
  apply bind_ok in H. destruct H as (bm & H1 & H). rewrite H1. cbn [bind].
  apply bind_ok in H. destruct H as (off & H2 & H). rewrite H2. cbn [bind]. inversion H; subst fb0.
  eexists. split; [reflexivity|]. cbn. rewrite !map_length. auto.
Qed.

Lemma fba_init_allocated : forall mem n mv fb, fba_init mem n mv = Ok fb -> allocated fb.
Proof.
  intros mem n mv fb H. destruct (fba_init_mem mem mem n mv fb H) as (fb1 & H1 & _ & _ & H2 & H3).
  assert (fb1 = fb) by congruence. subst fb1. exists mem, fb. split; [rewrite H2, H3; auto|]. split; auto.
  destruct fb; reflexivity.
Qed.

Lemma fill_column_allocated : forall fb j col fb', allocated fb -> fill_column fb j col = Ok fb' -> allocated fb'.
Proof.
  intros fb j col fb' (mem & fb0 & A1 & A2 & A3) H. unfold fill_column in H.
  apply bind_ok in H. destruct H as (lo & _ & H). apply bind_ok in H. destruct H as (hi & _ & H).
  apply bind_ok in H. destruct H as (cb & _ & H). apply bind_ok in H. destruct H as (nv & _ & H).
  apply bind_ok in H. destruct H as (nb & _ & H). apply bind_ok in H. destruct H as (cb' & _ & H).
  apply bind_ok in H. destruct H as (b & Hb & H). inversion H; subst fb'. apply splice_length in Hb.
  exists mem, fb0. cbn. split; [exact A1|]. split; [congruence|]. rewrite A3. reflexivity.
Qed.

Lemma array_to_bitarray_allocated : forall mem nf X fb, array_to_bitarray mem nf X = Ok fb -> allocated fb.
Proof.
  intros mem nf X fb H. unfold array_to_bitarray in H. apply bind_ok in H. destruct H as (cols & _ & H).
  apply bind_ok in H. destruct H as (fb0 & H0 & H). apply fba_init_allocated in H0. unfold fill_values in H.
  revert H. generalize (seq 0 (fb_n_features fb0)). intros l. revert fb0 H0.
  induction l as [|j l IH]; intros fb0 H0 H; cbn [foldM] in H; [inversion H; subst; auto|].
  apply bind_ok in H. destruct H as (fb1 & H1 & H). apply bind_ok in H1. destruct H1 as (col & _ & H1).
  eapply IH; [|exact H]. eapply fill_column_allocated; eauto.
Qed.

Lemma assign_same : forall {X} (a v : list X), length a = length v -> assign a v = Ok v.
Proof. intros X a v H. unfold assign. rewrite H, Nat.eqb_refl. auto. Qed.

Lemma unserialize_fba_same : forall memN fb, allocated fb -> unserialize_fba memN fb = Ok fb.
Proof.
  intros memN fb (mem & fb0 & A1 & A2 & A3). destruct (fba_init_mem mem memN _ _ _ A1) as (fb1 & B1 & B2 & B3 & B4 & B5).
  unfold unserialize_fba. rewrite B1. cbn [bind]. rewrite A3, B3. cbn.
  rewrite !assign_same; auto. congruence.
Qed.

(** ** Pickle *)
Lemma unserialize_tree_same : forall {A : arith} {P} (pred0 : P) (t : tree A P) ns ps bs, tree_is t ns ps bs ->
  unserialize_tree pred0 t = Ok t.
Proof.
  intros A P pred0 t ns ps bs (k & yq & bq & T1 & T2 & T3 & T4 & T5 & T6 & T7 & T8 & T9).
  unfold unserialize_tree. rewrite assign_same; [cbn [bind]|rewrite repeat_length, T4, app_length, repeat_length; auto].
  rewrite assign_same; [cbn [bind]|rewrite repeat_length, T5, app_length; lia].
  rewrite assign_same; [cbn [bind]|rewrite repeat_length, T7, app_length; lia].
  rewrite <- T1. destruct t; reflexivity.
Qed.
