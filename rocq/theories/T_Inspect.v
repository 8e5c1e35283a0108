(** * C50: what the inspection methods say, and what is true *)

Require Import List Arith Lia NArith ZArith QArith Permutation Sorted.
Require Import Verif.Base Verif.Num Verif.M_Bitarray Verif.P_Bitarray Verif.M_Utils Verif.M_Impurity
  Verif.M_Context Verif.M_Node Verif.M_Split Verif.M_Tree Verif.M_Grow Verif.M_Object Verif.M_Forest Verif.M_Inspect
  Verif.P_Utils Verif.P_List Verif.P_Stack Verif.P_Task Verif.P_Node
  Verif.P_Bins Verif.P_Scan Verif.P_Split Verif.P_Find Verif.P_Indices Verif.P_Tree Verif.P_Grow
  Verif.P_Repr Verif.P_Route Verif.S_Fit Verif.P_Fit Verif.P_FitTree Verif.S_Node Verif.S_Tree Verif.P_Nodes
  Verif.Ex_Data Verif.Ex_Valid Verif.T_Grow.
Import ListNotations.
Local Open Scope nat_scope.
Local Open Scope list_scope.
Local Open Scope res_scope.

(** ** Specification *)

(** [distance t id d]: node [id] is [d] steps below the root. *)
Inductive distance {A P} (t : tree A P) : nat -> nat -> Prop :=
| distance_root : distance t 0 0
| distance_child : forall id n c d, distance t id d -> node_at t id n -> child_of n c -> distance t c (S d).

(** A line of a path describes the decision taken at node [id] for a row of bins. *)
Definition describes {A P} (t : tree A P) (row : nat -> nat) (id : nat) (l : path_line) : Prop :=
  exists n, node_at t id n /\ nd_is_leaf n = false /\ pl_depth l = nd_depth n /\ nd_feature n = Some (pl_feature l) /\
    left_at t n (row (pl_feature l)) (pl_left l) /\ pl_is_cat l = nd_is_cat n /\
    (if nd_is_cat n then pl_threshold l = None /\ exists part, pl_partition l = Some part /\ slice (tr_bp t) (nd_bp_start n) (nd_bp_end n) = Ok part
     else pl_partition l = None /\ pl_threshold l = nd_threshold n).

(** ** The invariant: [max_depth] is 0 and [is_left] is False *)

Definition plain {A P} (t : tree A P) : Prop := tr_max_depth t = 0 /\ Forall (fun n => nd_is_left n = false) (tr_nodes t).

Lemma Forall_upd : forall {X} (Q : X -> Prop) l i x, Forall Q l -> Q x -> Forall Q (upd l i x).
Proof. intros X Q l. induction l as [|a l IH]; intros [|i] x HF Hx; cbn; auto; inversion HF; subst; constructor; auto. Qed.
Lemma Forall_set : forall {X} (Q : X -> Prop) l i x l', Forall Q l -> Q x -> set l i x = Ok l' -> Forall Q l'.
Proof. intros X Q l i x l' HF Hx H. apply set_ok in H. destruct H as [_ ->]. apply Forall_upd; auto. Qed.
Lemma Forall_get : forall {X} (Q : X -> Prop) l i x, Forall Q l -> get l i = Ok x -> Q x.
Proof. intros X Q l i x HF H. apply get_ok in H. apply nth_error_In in H. rewrite Forall_forall in HF. auto. Qed.
Lemma Forall_resize : forall {X} (Q : X -> Prop) fill l n l', Forall Q l -> (forall i, Q (fill i)) -> resize fill l n = Ok l' -> Forall Q l'.
Proof.
  intros X Q fill l n l' HF Hf H. unfold resize in H. destruct (_ <=? _); [|discriminate]. injection H as <-. apply Forall_app. split; auto.
  apply Forall_forall. intros x Hx. apply in_map_iff in Hx. destruct Hx as (i & <- & _). auto.
Qed.

Ltac unbind H := repeat match type of H with
  | bind ?m _ = Ok _ => let x := fresh "x" in let E := fresh "E" in destruct m as [x|] eqn:E; cbn [bind] in H; [|discriminate H]
  end.

Lemma plain_resize : forall {A P} (pred0 : P) (t t' : tree A P) c, plain t -> resize_tree pred0 t c = Ok t' -> plain t'.
Proof.
  intros A P pred0 t t' c [H1 H2] H.
  assert (G : forall c, resize_tree_ pred0 t c = Ok t' -> plain t').
  { intros c0 H0. unfold resize_tree_ in H0. unbind H0. injection H0 as <-. split; [exact H1|]. cbn [tr_nodes].
    eapply Forall_resize; [exact H2| |exact E]. reflexivity. }
  unfold resize_tree in H. destruct c as [c|]; [destruct (_ && _)%bool; [injection H as <-; split; auto|eauto]|]. destruct (_ =? 0); eauto.
Qed.

Lemma plain_add : forall {A P} fill (pred0 : P) (t t' : tree A P) x id, plain t -> add_node_tree fill pred0 t x = Ok (t', id) -> plain t'.
Proof.
  intros A P fill pred0 t t' x id HP H. unfold add_node_tree in H.
  destruct (if tr_capacity t <=? tr_node_count t then _ else _) as [t1|] eqn:E1; cbn [bind] in H; [|discriminate].
  assert (H1 : plain t1) by (destruct (_ <=? _); [eapply plain_resize; eauto|injection E1 as <-; exact HP]). clear E1 HP.
  destruct H1 as [D1 N1].
  destruct (get (tr_nodes t1) _) as [old|] eqn:E2; cbn [bind] in H; [|discriminate].
  destruct (set (tr_nodes t1) _ _) as [nodes1|] eqn:E3; cbn [bind] in H; [|discriminate].
  assert (N2 : Forall (fun n => nd_is_left n = false) nodes1).
  { eapply Forall_set; [exact N1| |exact E3]. cbn [nd_is_left]. eapply (Forall_get (fun n => nd_is_left n = false)); [exact N1|exact E2]. }
  match type of H with bind ?m _ = _ => destruct m as [nodes2|] eqn:E4; cbn [bind] in H; [|discriminate] end.
  assert (N3 : Forall (fun n => nd_is_left n = false) nodes2).
  { destruct (nn_parent x) as [q|]; [|injection E4 as <-; exact N2]. destruct (get nodes1 q) as [pn|] eqn:E5; cbn [bind] in E4; [|discriminate].
    eapply Forall_set; [exact N2| |exact E4]. pose proof (Forall_get (fun n => nd_is_left n = false) _ _ _ N2 E5) as Hp. destruct (nn_is_left x); exact Hp. }
  destruct (get nodes2 _) as [n2|] eqn:E5; cbn [bind] in H; [|discriminate].
  match type of H with bind ?m _ = _ => destruct m as [[[t2 bs] be]|] eqn:E6; cbn [bind] in H; [|discriminate] end.
  assert (D2 : tr_max_depth t2 = 0).
  { destruct (_ && _)%bool; [|injection E6 as <- _ _; exact D1].
    match type of E6 with bind ?m _ = _ => destruct m as [t3|] eqn:E7; cbn [bind] in E6; [|discriminate] end.
    assert (D3 : tr_max_depth t3 = 0).
    { destruct (_ <? _); [|injection E7 as <-; exact D1]. unfold resize_tree_bin_partitions, resize_tree_bin_partitions_ in E7.
      destruct (_ && _)%bool; [injection E7 as <-; exact D1|]. unbind E7. injection E7 as <-. exact D1. }
    destruct (splice _ _ _); cbn [bind] in E6; [|discriminate]. injection E6 as <- _ _. exact D3. }
  match type of H with bind ?m _ = _ => destruct m as [nodes3|] eqn:E8; cbn [bind] in H; [|discriminate] end.
  injection H as <- _. split; [exact D2|]. cbn [tr_nodes]. eapply Forall_set; [exact N3| |exact E8]. cbn [nd_is_left].
  exact (Forall_get (fun n => nd_is_left n = false) _ _ _ N3 E5).
Qed.

Section Growth.
Context {A : arith} {E : env A} (tk : task A E).

Lemma plain_step : forall tc (g g' : gstate tk), plain (g_tree g) -> grow_step tk tc g = Ok g' -> plain (g_tree g').
Proof.
  intros tc g g' HP H. unfold grow_step in H.
  destruct (pop_node_record _) as [[r rs]|]; cbn [bind] in H; [|discriminate].
  destruct (compute_node_context _ _ _ _ _ _ _ _ _) as [[[nc s] fs]|]; cbn [bind] in H; [|discriminate].
  destruct (choose_split _ _ _ _ _ _) as [[[lf sp] s']|]; cbn [bind] in H; [|discriminate].
  destruct (add_node_tree _ _ _ _) as [[t id]|] eqn:Ea; cbn [bind] in H; [|discriminate]. apply plain_add in Ea; [|exact HP].
  destruct (set (tr_y_pred t) _ _) as [yp|]; cbn [bind] in H; [|discriminate].
  assert (Q : plain (with_y_pred tk t yp)) by (split; [exact (proj1 Ea)|exact (proj2 Ea)]).
  destruct lf; [injection H as <-; exact Q|].
  destruct (split_indices _ _ _ _ _ _ _ _) as [[[ps pt] pv]|]; cbn [bind] in H; [|discriminate].
  destruct (push_record _ _ _) as [rs1|]; cbn [bind] in H; [|discriminate].
  destruct (push_record _ _ _) as [rs2|]; cbn [bind] in H; [|discriminate].
  injection H as <-. exact Q.
Qed.

Lemma plain_loop : forall fuel tc (g g' : gstate tk), plain (g_tree g) -> grow_loop tk fuel tc g = Ok g' -> plain (g_tree g').
Proof.
  induction fuel as [|fuel IH]; intros tc g g' HP H; cbn [grow_loop] in H; destruct (has_records _); try discriminate; try (injection H as <-; exact HP).
  destruct (grow_step _ _ _) as [g1|] eqn:Es; cbn [bind] in H; [|discriminate]. eapply IH; [|exact H]. eapply plain_step; eauto.
Qed.

Lemma plain_weights : forall step count (nodes nodes' : list (node A)), Forall (fun n => nd_is_left n = false) nodes ->
  compute_tree_weights nodes count step = Ok nodes' -> Forall (fun n => nd_is_left n = false) nodes'.
Proof.
  intros step count nodes nodes' HF H. unfold compute_tree_weights in H.
  apply (foldM_inv (weight_step step) (fun _ ns => Forall (fun n => nd_is_left n = false) ns) _ _ _ HF) in H; [exact H|].
  intros k idx ns ns' _ Hns Hs. unfold weight_step in Hs. destruct (get ns idx) as [n|] eqn:En; cbn [bind] in Hs; [|discriminate].
  pose proof (Forall_get (fun n => nd_is_left n = false) _ _ _ Hns En) as Hn.
  destruct (nd_is_leaf n); [eapply Forall_set; [exact Hns| |exact Hs]; exact Hn|]. unbind Hs. eapply Forall_set; [exact Hns| |exact Hs]. exact Hn.
Qed.

(** Whatever the data, in any arithmetic. *)
Theorem plain_fit : forall p fb y train valid weights s tc (g : gstate tk),
  tree_fit tk p fb y train valid weights s = Ok (tc, g) -> plain (g_tree g).
Proof.
  intros p fb y train valid weights s tc g H. unfold tree_fit in H.
  destruct (init_tree_context _ _ _ _ _) as [tc0|]; cbn [bind] in H; [|discriminate].
  destruct (grow _ _ _ _ _ _) as [g0|] eqn:Eg; cbn [bind] in H; [|discriminate]. injection H as _ <-.
  unfold grow in Eg. destruct (resize_tree _ _ _) as [t0|] eqn:Er; cbn [bind] in Eg; [|discriminate].
  destruct (push_record _ _ _) as [rs|]; cbn [bind] in Eg; [|discriminate].
  destruct (grow_loop _ _ _ _) as [g1|] eqn:El; cbn [bind] in Eg; [|discriminate].
  assert (H0 : plain t0) by (eapply plain_resize; [|exact Er]; split; [reflexivity|constructor]).
  assert (H1 : plain (g_tree g1)) by (eapply plain_loop; [|exact El]; exact H0).
  destruct (tc_aggregation tc0); [|injection Eg as <-; exact H1].
  destruct (compute_tree_weights _ _ _) as [nodes|] eqn:Ew; cbn [bind] in Eg; [|discriminate]. injection Eg as <-.
  split; [exact (proj1 H1)|]. exact (plain_weights _ _ _ _ (proj2 H1) Ew).
Qed.

(** ** [get_depth] is always 0, [is_left] is False for all nodes, left children included *)
Theorem C50_get_depth_refuted : forall d p fb y train valid weights s o,
  obj_fit tk d p fb y train valid weights s = Ok o -> get_depth o = Ok 0.
Proof.
  intros d p fb y train valid weights s o H. unfold obj_fit in H. destruct (tree_fit _ _ _ _ _ _ _ _) as [[tc g]|] eqn:Ef; cbn [bind] in H; [|discriminate].
  injection H as <-. unfold get_depth. cbn [ob_tree]. f_equal. exact (proj1 (plain_fit _ _ _ _ _ _ _ _ _ Ef)).
Qed.

Theorem C50_is_left_refuted : forall d p fb y train valid weights s o nodes,
  obj_fit tk d p fb y train valid weights s = Ok o -> get_nodes o = Ok nodes -> Forall (fun n => nd_is_left n = false) nodes.
Proof.
  intros d p fb y train valid weights s o nodes H Hn. unfold obj_fit in H. destruct (tree_fit _ _ _ _ _ _ _ _) as [[tc g]|] eqn:Ef; cbn [bind] in H; [|discriminate].
  injection H as <-. unfold get_nodes in Hn. cbn [ob_tree] in Hn. injection Hn as <-.
  pose proof (proj2 (plain_fit _ _ _ _ _ _ _ _ _ Ef)) as HF. clear - HF. revert HF. generalize (tr_nodes (g_tree g)) (tr_node_count (g_tree g)).
  intros l. induction l as [|x l IH]; intros [|k] HF; cbn; auto. inversion HF; subst. constructor; auto.
Qed.

(** ** [get_actual_depth] is the depth *)
Lemma in_firstn_node : forall {P} (t : tree A P) n, In n (firstn (tr_node_count t) (tr_nodes t)) -> exists id, node_at t id n.
Proof.
  intros P t n H. apply In_nth_error in H. destruct H as (id & H). exists id.
  assert (Hl : id < length (firstn (tr_node_count t) (tr_nodes t))) by (apply nth_error_Some; congruence).
  rewrite firstn_length in Hl. split; [lia|]. rewrite <- H. clear H. assert (Hid : id < tr_node_count t) by lia. clear Hl. revert Hid.
  generalize (tr_node_count t) (tr_nodes t). intros k l. revert l id. induction k as [|k IH]; intros l id Hid; [lia|].
  destruct l as [|a l]; [destruct id; reflexivity|]. destruct id as [|id]; [reflexivity|]. cbn. apply IH. lia.
Qed.
Lemma node_in_firstn : forall {P} (t : tree A P) id n, node_at t id n -> In n (firstn (tr_node_count t) (tr_nodes t)).
Proof.
  intros P t id n [H1 H2]. revert H1 H2. generalize (tr_node_count t) (tr_nodes t). intros k l. revert k l. induction id as [|id IH]; intros [|k] l Hk Hn; try lia; destruct l as [|a l]; try discriminate; cbn in *.
  - left. congruence.
  - right. apply IH; [lia|exact Hn].
Qed.

Lemma wf_distance : forall {P} (t : tree A P), well_formed t -> forall id n, node_at t id n -> distance t id (nd_depth n).
Proof.
  intros P t W id. induction id as [id IH] using (well_founded_induction lt_wf). intros n Hn.
  destruct (Nat.eq_dec id 0) as [->|Hne].
  - destruct (wf_root _ W) as (m & M1 & _ & M3). assert (n = m) by (destruct Hn, M1; congruence). subst m. rewrite M3. constructor.
  - destruct (wf_parent _ W id n Hn Hne) as (q & pn & P1 & P2 & P3 & P4 & P5). rewrite P5, Nat.add_1_r. eapply distance_child; eauto.
Qed.
Lemma distance_wf : forall {P} (t : tree A P), well_formed t -> forall id d, distance t id d -> exists n, node_at t id n /\ nd_depth n = d.
Proof.
  intros P t W id d H. induction H as [|id n c d H IH Hn Hc].
  - destruct (wf_root _ W) as (m & M1 & _ & M3). eauto.
  - destruct IH as (n' & N1 & N2). assert (n' = n) by (destruct Hn, N1; congruence). subst n'.
    destruct (wf_children _ W id n Hn (proj1 Hc)) as (l & r & ln & rn & C1 & C2 & C3 & C4 & C5 & C6 & C7 & C8 & C9).
    assert (G : forall m, node_at t c m -> nd_parent m = Some id -> id < c -> exists n0, node_at t c n0 /\ nd_depth n0 = S d).
    { intros m M1 M2 M3. destruct (wf_parent _ W c m M1 ltac:(lia)) as (q & pn & P1 & P2 & P3 & P4 & P5). assert (q = id) by congruence. subst q.
      assert (pn = n) by (destruct Hn, P2; congruence). subst pn. exists m. split; [exact M1|lia]. }
    destruct Hc as [_ [Hc|Hc]]; assert (c = l \/ c = r) as [->| ->] by (rewrite C1 in Hc || rewrite C2 in Hc; injection Hc; auto); eauto.
Qed.

Theorem C50_actual_depth : forall d p fb y train valid weights s o,
  valid_call tk p fb y train valid weights -> obj_fit tk d p fb y train valid weights s = Ok o ->
  exists t depth, ob_tree o = Some t /\ get_actual_depth o = Ok depth /\
    (exists id n, node_at t id n /\ nd_is_leaf n = true /\ distance t id depth) /\ (forall id k, distance t id k -> k <= depth).
Proof.
  intros d p fb y train valid weights s o HV H. unfold obj_fit in H. destruct (tree_fit _ _ _ _ _ _ _ _) as [[tc g]|] eqn:Ef; cbn [bind] in H; [|discriminate].
  injection H as <-. pose proof (C25_well_formed tk p fb y train valid weights s tc g HV Ef) as W.
  unfold get_actual_depth, get_nodes. cbn [ob_tree bind].
  set (t := g_tree g) in *. exists t, (list_max (map nd_depth (firstn (tr_node_count t) (tr_nodes t)))). split; [reflexivity|].
  set (ds := map nd_depth (firstn (tr_node_count t) (tr_nodes t))).
  destruct (wf_root _ W) as (n0 & R1 & R2 & R3). pose proof (node_in_firstn _ _ _ R1) as I0.
  split; [destruct (firstn _ _); [destruct I0|reflexivity]|].
  assert (B : forall id k, distance t id k -> k <= list_max ds).
  { intros id k Hk. destruct (distance_wf t W id k Hk) as (n & N1 & <-). pose proof (node_in_firstn _ _ _ N1) as I.
    assert (Hm : list_max ds <= list_max ds) by lia. apply list_max_le in Hm. rewrite Forall_forall in Hm. apply Hm. unfold ds. apply in_map. exact I. }
  split; [|exact B].
  assert (Hin : In (list_max ds) ds).
  { assert (G : forall l, l <> [] -> In (list_max l) l).
    { intros l. induction l as [|x l IH]; intros Hl; [congruence|]. change (list_max (x :: l)) with (Nat.max x (list_max l)). destruct l as [|z l]; [left; cbn; lia|].
      destruct (Nat.max_spec x (list_max (z :: l))) as [[_ ->]|[_ ->]]; [right; apply IH; discriminate|left; reflexivity]. }
    apply G. intros Hc. unfold ds in Hc. apply map_eq_nil in Hc. rewrite Hc in I0. destruct I0. }
  unfold ds in Hin at 2. apply in_map_iff in Hin. destruct Hin as (n & N1 & N2). apply in_firstn_node in N2. destruct N2 as (id & N2).
  exists id, n. split; [exact N2|]. pose proof (wf_distance t W id n N2) as HD. rewrite N1 in HD.
  split; [|exact HD]. destruct (nd_is_leaf n) eqn:El; [reflexivity|exfalso].
  destruct (wf_children _ W id n N2 El) as (l & r & ln & rn & C1 & C2 & C3 & C4 & C5 & C6 & C7 & C8 & C9).
  pose proof (B l _ (distance_child t id n l _ HD N2 (conj El (or_introl C1)))) as Hb. lia.
Qed.
End Growth.
Print Assumptions C50_get_depth_refuted.
Print Assumptions C50_is_left_refuted.
Print Assumptions C50_actual_depth.

(** ** Paths *)
Section Paths.
Context {A : arith} {E : env A} {tk : task A E}.
Context (W : btree tk -> option (num A)) (t : tree A (tk_P tk)).
Notation here_t := (here W (tr_nodes t) (tr_y_pred t) (tr_bp t)).
Context (f : nat -> nat) (nf : nat).
Notation xi := (map f (seq 0 nf)).

Definition line_at (q : btree tk * place) : path_line :=
  let sp := bd_sp (broot (fst q)) in
  mkLine (bd_depth (broot (fst q))) (sp_feature sp) (if sp_is_cat sp then Some (sp_partition sp) else None)
    (if sp_is_cat sp then None else Some (sp_threshold sp)) (to_left sp (f (sp_feature sp))) (sp_is_cat sp).

Lemma path_loop_ok : forall b p fuel, here_t b p -> inner (testable nf) b -> (exists d l r, b = BNode d l r) -> length (banc f b p) <= fuel ->
  path_loop fuel t xi (hnode W b p) = Ok (map line_at (banc f b p)).
Proof.
  induction b as [d|d l IHl r IHr]; intros p fuel H Hin (d0 & l0 & r0 & Eb) Hfu; [discriminate|]. clear d0 l0 r0 Eb.
  destruct fuel; [simpl in Hfu; lia|]. cbn [path_loop].
  change (nd_feature (hnode W (BNode d l r) p)) with (Some (sp_feature (bd_sp d))).
  destruct Hin as (Ht & Hl & Hr). destruct Ht as [Hf Hc]. cbv iota.
  rewrite nth_error_map, (nth_error_nth' (seq 0 nf) 0) by (rewrite seq_length; exact Hf). rewrite seq_nth by exact Hf. cbn [option_map Nat.add].
  change (nd_is_cat (hnode W (BNode d l r) p)) with (sp_is_cat (bd_sp d)).
  change (nd_depth (hnode W (BNode d l r) p)) with (bd_depth d).
  assert (EL : (if sp_is_cat (bd_sp d) then
       let* part := slice (tr_bp t) (nd_bp_start (hnode W (BNode d l r) p)) (nd_bp_end (hnode W (BNode d l r) p)) in
       let* l1 := is_bin_in_partition (f (sp_feature (bd_sp d))) part in Ok (mkLine (bd_depth d) (sp_feature (bd_sp d)) (Some part) None l1 true)
     else let* th := idx_of (nd_threshold (hnode W (BNode d l r) p)) in Ok (mkLine (bd_depth d) (sp_feature (bd_sp d)) None (Some th) (f (sp_feature (bd_sp d)) <=? th) false))
     = Ok (line_at (BNode d l r, p))).
  { unfold line_at, to_left. cbn [fst broot]. destruct (sp_is_cat (bd_sp d)) eqn:Ec; [|reflexivity].
    destruct (Hc eq_refl) as [Hne Hs]. rewrite (own_slice W t d l r p H Ec Hne). cbn [bind]. rewrite is_bin_in_partition_spec by auto. reflexivity. }
  rewrite EL. cbn [bind]. clear EL. change (pl_left (line_at (BNode d l r, p))) with (to_left (bd_sp d) (f (sp_feature (bd_sp d)))).
  change (nd_left (hnode W (BNode d l r) p)) with (Some (pl_id (lplace p d l r))). change (nd_right (hnode W (BNode d l r) p)) with (Some (pl_id (rplace p d l r))).
  cbn [banc map] in *. cbn [length] in Hfu. destruct (to_left _ _); cbn [idx_of bind].
  - assert (HL : here_t l (lplace p d l r)) by (eapply here_left; eauto). rewrite (here_node _ _ _ _ _ _ HL). cbn [bind].
    destruct l as [dl|dl ll rl]; [reflexivity|]. change (nd_is_leaf (hnode W (BNode dl ll rl) _)) with false. cbv iota.
    rewrite IHl; eauto. lia.
  - assert (HR : here_t r (rplace p d l r)) by (eapply here_right; eauto). rewrite (here_node _ _ _ _ _ _ HR). cbn [bind].
    destruct r as [dr|dr lr rr]; [reflexivity|]. change (nd_is_leaf (hnode W (BNode dr lr rr) _)) with false. cbv iota.
    rewrite IHr; eauto. lia.
Qed.
End Paths.

Lemma banc_node : forall {A} {E : env A} {tk : task A E} f (b : btree tk) p q, In q (banc f b p) -> exists d l r, fst q = BNode d l r.
Proof.
  intros A E tk f b. induction b as [d|d l IHl r IHr]; intros p q; simpl; [tauto|]. intros [<-|H]; [simpl; eauto|]. destruct (to_left _ _); eauto.
Qed.

(** The path printed for a sample is the route of the sample, except that a tree reduced to
    its root raises an IndexError. *)
Theorem C50_path_leaf : forall {A : arith} {E : env A} (tk : task A E) p fb y train valid weights s tc g,
  valid_call tk p fb y train valid weights ->
  tree_fit tk p fb y train valid weights s = Ok (tc, g) ->
  forall fb' i, fba_wf fb' -> fb_n_features fb' = fb_n_features fb -> i < fb_n_samples fb' ->
  let xi := map (bin_of fb' i) (seq 0 (fb_n_features fb')) in
  (1 < tr_node_count (g_tree g) -> exists path lines, route (g_tree g) (bin_of fb' i) 0 path /\
     sample_path_leaf (g_tree g) xi = Ok lines /\ Forall2 (describes (g_tree g) (bin_of fb' i)) (removelast path) lines) /\
  (tr_node_count (g_tree g) = 1 -> sample_path_leaf (g_tree g) xi = Err IndexErr).
Proof.
  intros A E tk p fb y train valid weights s tc g H Hfit fb' i Hwf Hnf Hi xi.
  destruct (fit_inv tk p fb y train valid weights s tc g H Hfit) as (ts & b0 & C & V & Htr & Hva & F).
  rewrite <- (cc_fb _ _ _ _ _ _ C) in Hnf.
  pose proof (fitted_here ts tc train valid s g b0 F) as HH.
  pose proof (fitted_testable ts tc train valid s g b0 F) as HT.
  pose proof (fitted_count ts tc train valid s g b0 F) as HC.
  set (f := bin_of fb' i) in *. rewrite <- Hnf in HT.
  assert (Hroot : get (tr_nodes (g_tree g)) 0 = Ok (hnode (Wof tc) b0 root_place)) by exact (here_node _ _ _ _ _ _ HH).
  unfold sample_path_leaf. rewrite Hroot. cbn [bind]. split.
  - intros Hn. destruct b0 as [d|d l r]; [rewrite HC in Hn; cbn in Hn; lia|].
    exists (map (fun q => pl_id (snd q)) (bpath f (BNode d l r) root_place)), (map (line_at f) (banc f (BNode d l r) root_place)).
    split; [exact (route_bpath ts tc train valid s g _ F f _ root_place (In_root _ _))|].
    split.
    + apply (path_loop_ok (Wof tc) (g_tree g) f (fb_n_features fb') (BNode d l r) root_place); eauto.
      rewrite HC. pose proof (banc_length f (BNode d l r) root_place). lia.
    + rewrite bpath_split, map_app. cbn [map]. rewrite removelast_last.
      assert (G : forall qs, (forall q, In q qs -> In q (banc f (BNode d l r) root_place)) ->
         Forall2 (describes (g_tree g) f) (map (fun q => pl_id (snd q)) qs) (map (line_at f) qs)).
      { intros qs. induction qs as [|q qs IH]; intros Hq; cbn [map]; constructor; [|apply IH; intros; apply Hq; right; assumption].
        pose proof (Hq q (or_introl eq_refl)) as Q1. destruct (banc_node _ _ _ _ Q1) as (d' & l' & r' & Eq). destruct q as [b' p']. cbn [fst] in Eq. subst b'.
        pose proof (banc_inside _ _ _ _ Q1) as QI. cbn [fst snd] in QI.
        exists (hnode (Wof tc) (BNode d' l' r') p'). split; [eapply inside_node; eauto|].
        split; [reflexivity|]. split; [reflexivity|]. split; [reflexivity|].
        pose proof (inner_inside _ _ _ _ HT QI) as [[Hf Hc] _].
        assert (HQ : here (Wof tc) (tr_nodes (g_tree g)) (tr_y_pred (g_tree g)) (tr_bp (g_tree g)) (BNode d' l' r') p') by (eapply here_inside; eauto).
        split; [|split; [reflexivity|]]; unfold left_at, line_at, to_left; cbn [fst broot pl_feature pl_left pl_threshold pl_partition]; change (nd_is_cat (hnode (Wof tc) (BNode d' l' r') p')) with (sp_is_cat (bd_sp d'));
        destruct (sp_is_cat (bd_sp d')) eqn:Ec.
        - destruct (Hc eq_refl) as [Hne _]. exists (sp_partition (bd_sp d')). split; [apply own_slice; auto|]. apply mem_bin_in.
        - exists (sp_threshold (bd_sp d')). split; [reflexivity|]. apply Nat.leb_le.
        - split; [reflexivity|]. destruct (Hc eq_refl) as [Hne _]. exists (sp_partition (bd_sp d')). split; [reflexivity|]. apply own_slice; auto.
        - split; reflexivity. }
      apply G. auto.
  - intros Hn. destruct b0 as [d|d l r]; [|rewrite HC in Hn; cbn in Hn; pose proof (bsize_pos l); lia].
    rewrite Hn. reflexivity.
Qed.
Print Assumptions C50_path_leaf.

(** The hypotheses: a grown tree of seven nodes. Its [get_depth] is 0 and its left children
    are not marked as such; its real depth is 2 or more. *)
Definition inspect_ok {A P Y} (o : tobj A P Y) : bool :=
  match get_actual_depth o, ob_tree o with
  | Ok d, Some t => ((2 <=? d) && (tr_node_count t =? 7))%bool
  | _, _ => false
  end.
Lemma inspected : forall {A : arith} {E : env A} (tk : task A E) d0 p fb y train valid weights s, valid_call tk p fb y train valid weights ->
  (let* o := obj_fit tk d0 p fb y train valid weights s in Ok (inspect_ok o)) = Ok true ->
  exists o t n, obj_fit tk d0 p fb y train valid weights s = Ok o /\
  ob_tree o = Some t /\ tr_node_count t = 7 /\ (exists d, get_actual_depth o = Ok d /\ 2 <= d) /\
  get_depth o = Ok 0 /\ node_at t 0 n /\ exists l ln, nd_left n = Some l /\ node_at t l ln /\ nd_is_left ln = false.
Proof.
  intros A E tk d0 p fb y train valid weights s HV Hk.
  destruct (of_run _ _ _ Hk) as (o & H1 & H2). clear Hk. injection H2 as H2.
  unfold inspect_ok in H2. destruct (get_actual_depth o) as [d|] eqn:Ed; [|discriminate]. destruct (ob_tree o) as [t|] eqn:Et; [|discriminate].
  apply Bool.andb_true_iff in H2. destruct H2 as [H2 H3]. apply Nat.leb_le in H2. apply Nat.eqb_eq in H3.
  pose proof (C50_get_depth_refuted tk _ _ _ _ _ _ _ _ _ H1) as H0.
  pose proof H1 as H4. unfold obj_fit in H4. destruct (tree_fit _ _ _ _ _ _ _ _) as [[tc g]|] eqn:Ef; cbn [bind] in H4; [|discriminate].
  injection H4 as H4. pose proof (C25_well_formed _ _ _ _ _ _ _ _ _ _ HV Ef) as W. pose proof (proj2 (plain_fit _ _ _ _ _ _ _ _ _ _ Ef)) as HP.
  assert (Et' : g_tree g = t) by (rewrite <- H4 in Et; cbn [ob_tree] in Et; congruence). rewrite Et' in *.
  destruct (wf_root _ W) as (n & N1 & N2 & N3).
  assert (Hl : nd_is_leaf n = false).
  { destruct (nd_is_leaf n) eqn:El; [|reflexivity]. exfalso.
    destruct (C50_actual_depth tk _ _ _ _ _ _ _ _ _ HV H1) as (t' & d' & A1 & A2 & (id & m & M1 & M2 & M3) & A4).
    assert (t' = t) by congruence. subst t'. assert (d' = d) by congruence. subst d'.
    assert (G : forall k e, distance t k e -> k = 0 /\ e = 0).
    { intros k e HD. induction HD as [|k0 n1 c e HD IH HN HC]; [auto|]. destruct IH as [-> ->]. assert (n1 = n) by (destruct HN, N1; congruence). subst n1. destruct HC; congruence. }
    pose proof (G _ _ M3). lia. }
  destruct (wf_children _ W 0 n N1 Hl) as (l & r & ln & rn & C1 & C2 & C3 & C4 & C5 & C6 & C7 & C8 & C9).
  exists o, t, n. split; [exact H1|]. split; [exact Et|]. split; [exact H3|]. split; [eauto|]. split; [exact H0|]. split; [exact N1|].
  exists l, ln. split; [exact C1|]. split; [exact C6|]. destruct C6 as [_ C6]. apply nth_error_In in C6. rewrite Forall_forall in HP. auto.
Qed.
Example C50_applies : exists o t n, obj_fit ex_clf (1 # 2)%Q (ex_params false 1) ex_fb ex_labels ex_train ex_valid ex_w 0 = Ok o /\
  ob_tree o = Some t /\ tr_node_count t = 7 /\ (exists d, get_actual_depth o = Ok d /\ 2 <= d) /\
  get_depth o = Ok 0 /\ node_at t 0 n /\ exists l ln, nd_left n = Some l /\ node_at t l ln /\ nd_is_left ln = false.
Proof.
  apply (inspected ex_clf); [apply ex_call_clf; lia|]. vm_compute. reflexivity.
Qed.
