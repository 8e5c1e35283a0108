(** * C58: the drawing of a tree *)

Require Import List Arith Lia NArith ZArith Bool Permutation Sorted Reals Lra QArith.
Require Import Verif.Base Verif.Num Verif.M_Bitarray Verif.P_Bitarray Verif.M_Utils Verif.M_Impurity
  Verif.M_Context Verif.M_Node Verif.M_Split Verif.M_Tree Verif.M_Grow Verif.M_Object Verif.M_Forest Verif.M_Inspect Verif.M_Plot
  Verif.S_Fit Verif.S_Tree Verif.T_Grow Verif.T_Inspect Verif.Ex_Data Verif.Ex_Valid Verif.Ex_Forest.
Import ListNotations.
Local Open Scope nat_scope.
Local Open Scope list_scope.

(** ** Specification *)

(** The node [id] is drawn at [(x, y)]. *)
Definition drawn_at {B} (d : layout B) (id : nat) (x : num B) (y : Z) : Prop :=
  nth_error (ly_x d) id = Some x /\ nth_error (ly_y d) id = Some y.

(** The segment that starts at node [id] ends at [(x, y)]. *)
Definition edge_to {B} (d : layout B) (id : nat) (x : num B) (y : Z) : Prop :=
  nth_error (ly_x0 d) id = Some x /\ nth_error (ly_y0 d) id = Some y.

(** [m] is [id] or below it. *)
Inductive below {A P} (t : tree A P) (id : nat) : nat -> Prop :=
| below_self : below t id id
| below_child : forall q qn m, below t id q -> node_at t q qn -> child_of qn m -> below t id m.

(** The nodes of a picture, in real numbers. *)
Record picture {A P} (t : tree A P) (d : layout R_arith) : Prop := {
  (* all nodes are drawn, inside of the frame and on or above the bottom *)
  pc_frame : forall id n, node_at t id n -> exists x y, drawn_at d id x y /\ (0 < x < 1)%R /\ (0 <= y)%Z;
  (* nodes are at different places *)
  pc_apart : forall id n id' n' x y, node_at t id n -> node_at t id' n' -> drawn_at d id x y -> drawn_at d id' x y -> id = id';
  (* a child is one line lower than its parent, at the other end of its segment *)
  pc_edge : forall q qn c x y, node_at t q qn -> child_of qn c -> drawn_at d q x y ->
    edge_to d c x y /\ exists xc, drawn_at d c xc (y - 1)%Z;
  (* everything below the left child is on the left, everything below the right child is on the right *)
  pc_left : forall q qn l m x y xm ym, node_at t q qn -> nd_is_leaf qn = false -> nd_left qn = Some l -> below t l m ->
    drawn_at d q x y -> drawn_at d m xm ym -> (xm < x)%R;
  pc_right : forall q qn r m x y xm ym, node_at t q qn -> nd_is_leaf qn = false -> nd_right qn = Some r -> below t r m ->
    drawn_at d q x y -> drawn_at d m xm ym -> (x < xm)%R
}.

(** ** Sorting *)

Section Sorting.
Context {A : arith}.
Implicit Types l : list (nat * node A).

Lemma insert_perm : forall (x : nat * node A) l, Permutation (insert_row x l) (x :: l).
Proof.
  intros x l. induction l as [|y l IH]; cbn [insert_row]; [auto|]. destruct (row_leb x y); [auto|].
  eapply perm_trans; [apply perm_skip, IH|apply perm_swap].
Qed.

Lemma sort_perm : forall l, Permutation (sort_rows l) l.
Proof. intros l. induction l as [|x l IH]; cbn [sort_rows]; [auto|]. eapply perm_trans; [apply insert_perm|]. auto. Qed.

Definition dep (r : nat * node A) : nat := nd_depth (snd r).

Lemma row_leb_depth : forall (a b : nat * node A), row_leb a b = true -> dep a <= dep b.
Proof.
  intros a b H. unfold row_leb, dep in *. destruct (Nat.eqb_spec (nd_depth (snd a)) (nd_depth (snd b))); [lia|]. apply Nat.ltb_lt in H. lia.
Qed.
Lemma row_leb_false : forall (a b : nat * node A), row_leb a b = false -> dep b <= dep a.
Proof.
  intros a b H. unfold row_leb, dep in *. destruct (Nat.eqb_spec (nd_depth (snd a)) (nd_depth (snd b))); [lia|]. apply Nat.ltb_ge in H. lia.
Qed.

Notation sorted := (StronglySorted (fun a b => dep a <= dep b)).

Lemma insert_sorted : forall x l, sorted l -> sorted (insert_row x l).
Proof.
  intros x l H. induction H as [|y l H IH HF]; cbn [insert_row]; [constructor; constructor|].
  destruct (row_leb x y) eqn:E.
  - apply row_leb_depth in E. constructor; [constructor; auto|]. constructor; [exact E|].
    rewrite Forall_forall in *. intros z Hz. specialize (HF z Hz). lia.
  - apply row_leb_false in E. constructor; [exact IH|]. rewrite Forall_forall in *. intros z Hz.
    apply (Permutation_in _ (insert_perm x l)) in Hz. destruct Hz as [<-|Hz]; [exact E|auto].
Qed.

Lemma sort_sorted : forall l, sorted (sort_rows l).
Proof. induction l as [|x l IH]; cbn [sort_rows]; [constructor|]. apply insert_sorted. exact IH. Qed.
End Sorting.

(** ** The loop *)

Section Loop.
Context {A B : arith} (nodes : list (node A)).
Notation N id n := (nth_error nodes id = Some n).

(** What the loop has to do for a node and its parent. *)
Definition placed (d : layout B) (c : nat) : Prop := exists cn q qn x y,
  N c cn /\ nd_parent cn = Some q /\ N q qn /\ drawn_at d q x y /\ edge_to d c x y /\
  nth_error (ly_x d) c = Some (if match nd_left qn with Some l => l =? c | None => false end
                               then asub x (half_pow B (nd_depth cn + 1)) else aadd x (half_pow B (nd_depth cn + 1))).

Fixpoint parents_first (done rest : list nat) : Prop :=
  match rest with
  | [] => True
  | c :: rest' => (exists cn q qn, N c cn /\ nd_parent cn = Some q /\ N q qn /\ In q done) /\ parents_first (c :: done) rest'
  end.

Lemma loop_ok : forall rest done (s : layout B),
  length (ly_x s) = length nodes -> length (ly_y s) = length nodes -> length (ly_x0 s) = length nodes -> length (ly_y0 s) = length nodes ->
  NoDup rest -> (forall c, In c rest -> ~ In c done) -> parents_first done rest ->
  exists s', foldM (place_node B nodes) rest s = Ok s' /\
    length (ly_x s') = length nodes /\ length (ly_x0 s') = length nodes /\ length (ly_y0 s') = length nodes /\ ly_y s' = ly_y s /\
    (forall c, ~ In c rest -> nth_error (ly_x s') c = nth_error (ly_x s) c /\ nth_error (ly_x0 s') c = nth_error (ly_x0 s) c /\
                              nth_error (ly_y0 s') c = nth_error (ly_y0 s) c) /\
    (forall c, In c rest -> placed s' c).
Proof.
  induction rest as [|c rest IH]; intros done s L1 L2 L3 L4 Hnd Hdis Hpf; cbn [foldM].
  - exists s. repeat split; auto. intros c [].
  - destruct Hpf as [(cn & q & qn & Hc & Hp & Hq & Hin) Hpf]. inversion Hnd as [|? ? Hnin Hnd']; subst.
    assert (Lc : c < length nodes) by (apply nth_error_Some; congruence).
    assert (Lq : q < length nodes) by (apply nth_error_Some; congruence).
    assert (Hqc : q <> c) by (intros ->; apply (Hdis c); [left; reflexivity|exact Hin]).
    destruct (nth_error (ly_x s) q) as [x|] eqn:Ex; [|apply nth_error_None in Ex; lia].
    destruct (nth_error (ly_y s) q) as [y|] eqn:Ey; [|apply nth_error_None in Ey; lia].
    unfold place_node at 1, at_label. rewrite Hc. cbn [bind]. rewrite Hp. cbn [bind]. rewrite Hq. cbn [bind]. rewrite Ex. cbn [bind].
    unfold set. rewrite L1, L3, L4. replace (c <? length nodes) with true by (symmetry; apply Nat.ltb_lt; exact Lc). cbn [bind]. rewrite Ey. cbn [bind].
    set (xc := if match nd_left qn with Some l => l =? c | None => false end then _ else _).
    set (s1 := mkLayout (upd (ly_x s) c xc) (ly_y s) (upd (ly_x0 s) c x) (upd (ly_y0 s) c y)).
    destruct (IH (c :: done) s1) as (s' & Hs & K1 & K2 & K3 & K4 & K5 & K6); try (cbn [s1 ly_x ly_y ly_x0 ly_y0]; rewrite ?upd_length; assumption).
    { intros c' Hc' [->|Hd]; [contradiction|]. apply (Hdis c'); [right; exact Hc'|exact Hd]. }
    exists s'. split; [exact Hs|]. split; [exact K1|]. split; [exact K2|]. split; [exact K3|]. split; [exact K4|]. split.
    + intros c' Hc'. assert (c <> c') by (intros ->; apply Hc'; left; reflexivity).
      destruct (K5 c') as (J1 & J2 & J3); [intros H'; apply Hc'; right; exact H'|]. cbn [s1 ly_x ly_x0 ly_y0] in *.
      rewrite nth_error_upd_neq in J1 by assumption. rewrite nth_error_upd_neq in J2 by assumption. rewrite nth_error_upd_neq in J3 by assumption. auto.
    + intros c' [<-|Hc']; [|apply K6; exact Hc'].
      destruct (K5 c Hnin) as (J1 & J2 & J3). cbn [s1 ly_x ly_x0 ly_y0] in *.
      rewrite nth_error_upd_eq in J1 by lia. rewrite nth_error_upd_eq in J2 by lia. rewrite nth_error_upd_eq in J3 by lia.
      assert (Hnq : ~ In q rest) by (intros H'; apply (Hdis q); [right; exact H'|exact Hin]).
      destruct (K5 q Hnq) as (I1 & _). cbn [s1 ly_x] in I1. rewrite nth_error_upd_neq in I1 by (intros H'; apply Hqc; symmetry; exact H').
      exists cn, q, qn, x, y. split; [exact Hc|]. split; [exact Hp|]. split; [exact Hq|]. split; [|split].
      * split; [rewrite I1; exact Ex|rewrite K4; exact Ey].
      * split; assumption.
      * exact J1.
Qed.

Lemma sorted_parents_first : forall (rest : list (nat * node A)) done,
  StronglySorted (fun a b => dep a <= dep b) rest ->
  (forall r, In r rest -> N (fst r) (snd r) /\ nd_id (snd r) = fst r) ->
  (forall r, In r rest -> exists q qn, nd_parent (snd r) = Some q /\ N q qn /\ nd_depth qn < nd_depth (snd r) /\
                                       (In q done \/ In (q, qn) rest)) ->
  parents_first done (map (fun r => nd_id (snd r)) rest).
Proof.
  induction rest as [|r rest IH]; intros done Hs H1 H2; cbn [map parents_first]; [exact I|].
  inversion Hs as [|? ? Hs' HF]; subst. rewrite Forall_forall in HF.
  destruct (H1 r (or_introl eq_refl)) as [Hn Hid]. rewrite Hid. split.
  - destruct (H2 r (or_introl eq_refl)) as (q & qn & Hp & Hq & Hd & Hin). exists (snd r), q, qn. split; [exact Hn|]. split; [exact Hp|]. split; [exact Hq|].
    destruct Hin as [Hin|[Hin|Hin]]; [exact Hin| |].
    + rewrite Hin in Hd. cbn [snd] in Hd. lia.
    + specialize (HF _ Hin). unfold dep in HF. cbn [snd] in HF. lia.
  - apply IH; [exact Hs'|intros r' Hr'; apply H1; right; exact Hr'|].
    intros r' Hr'. destruct (H2 r' (or_intror Hr')) as (q & qn & Hp & Hq & Hd & Hin). exists q, qn. split; [exact Hp|]. split; [exact Hq|]. split; [exact Hd|].
    destruct Hin as [Hin|[Hin|Hin]]; [left; right; exact Hin| |right; exact Hin].
    left. left. rewrite Hin. reflexivity.
Qed.
End Loop.

(** ** The layout of a well-formed tree, in any arithmetic *)

Section Layout.
Context {A B : arith} {P : Type} (t : tree A P).
Notation nodes := (firstn (tr_node_count t) (tr_nodes t)).

Lemma nth_firstn : forall {X} (l : list X) k i, nth_error (firstn k l) i = if i <? k then nth_error l i else None.
Proof.
  intros X l k. revert l. induction k as [|k IH]; intros l i; [cbn; destruct i; reflexivity|].
  destruct l as [|x l]; [rewrite firstn_nil; destruct i; cbn [nth_error]; [reflexivity|destruct (S i <? S k); reflexivity]|].
  destruct i as [|i]; [reflexivity|]. cbn [firstn nth_error]. rewrite IH. reflexivity.
Qed.

Lemma node_nth : forall id n, nth_error nodes id = Some n <-> node_at t id n.
Proof.
  intros id n. unfold node_at. rewrite nth_firstn. destruct (Nat.ltb_spec id (tr_node_count t)); split; try tauto; try discriminate. intros [H1 _]. lia.
Qed.

Definition greatest_depth (m : nat) : Prop := (exists id n, node_at t id n /\ nd_depth n = m) /\ forall id n, node_at t id n -> nd_depth n <= m.

Theorem C58_layout : well_formed t -> exists (d : layout B) m,
  display B None nodes = Ok d /\ greatest_depth m /\
  (forall id n, node_at t id n -> exists x, drawn_at d id x (Z.of_nat m - Z.of_nat (nd_depth n))) /\
  drawn_at d 0 ahalf (Z.of_nat m) /\
  (forall q qn c cn, node_at t q qn -> child_of qn c -> node_at t c cn -> exists x y, drawn_at d q x y /\ edge_to d c x y /\
     drawn_at d c (if match nd_left qn with Some l => l =? c | None => false end
                   then asub x (half_pow B (nd_depth cn + 1)) else aadd x (half_pow B (nd_depth cn + 1))) (y - 1)).
Proof.
  intros W.
  assert (Hlen : length nodes = tr_node_count t).
  { destruct (Nat.eq_dec (length nodes) (tr_node_count t)) as [H|H]; [exact H|].
    assert (Hl : length nodes < tr_node_count t) by (rewrite firstn_length in *; lia).
    destruct (wf_nodes t W (length nodes) Hl) as (n & Hn & _). apply node_nth in Hn.
    assert (length nodes < length nodes) by (apply nth_error_Some; congruence). lia. }
  destruct (wf_root t W) as (rn & Hr & _ & Hr0).
  set (rows := combine (seq 0 (length nodes)) nodes).
  assert (Hrows : forall id n, In (id, n) rows <-> node_at t id n).
  { intros id n. rewrite <- node_nth. unfold rows. generalize nodes as l. clear. intros l.
    assert (G : forall k, In (id, n) (combine (seq k (length l)) l) <-> k <= id /\ nth_error l (id - k) = Some n).
    { induction l as [|x l IH]; intros k; cbn [length seq combine]; [destruct (id - k); cbn; intuition discriminate|].
      cbn [In]. rewrite IH. split.
      - intros [H|[H1 H2]]; [injection H as <- <-; rewrite Nat.sub_diag; cbn; auto|].
        split; [lia|]. replace (id - k) with (S (id - S k)) by lia. exact H2.
      - intros [H1 H2]. destruct (Nat.eq_dec id k) as [->|Hk]; [rewrite Nat.sub_diag in H2; cbn in H2; injection H2 as <-; auto|].
        right. split; [lia|]. replace (id - k) with (S (id - S k)) in H2 by lia. exact H2. }
    rewrite G, Nat.sub_0_r. intuition lia. }
  assert (Hids : forall id n, node_at t id n -> nd_id n = id).
  { intros id n Hn. destruct (wf_nodes t W id (proj1 Hn)) as (n' & Hn' & Hid). destruct Hn as [_ Hn], Hn' as [_ Hn']. congruence. }
  pose proof (sort_perm rows) as Hperm. pose proof (sort_sorted rows) as Hsort.
  assert (Hroot : forall id n, node_at t id n -> nd_depth n = 0 -> id = 0).
  { intros id n Hn Hd. destruct (Nat.eq_dec id 0) as [H|H]; [exact H|]. destruct (wf_parent t W id n Hn H) as (q & pn & _ & _ & _ & _ & H'). lia. }
  unfold display. fold rows. destruct (sort_rows rows) as [|[l0 n0] rest] eqn:Es.
  { apply Permutation_nil in Hperm. exfalso. apply Hrows in Hr. rewrite Hperm in Hr. destruct Hr. }
  assert (H0 : l0 = 0 /\ node_at t 0 n0).
  { assert (Hin : In (l0, n0) rows) by (apply (Permutation_in _ Hperm); left; reflexivity). apply Hrows in Hin.
    assert (Hr' : In (0, rn) ((l0, n0) :: rest)) by (apply (Permutation_in _ (Permutation_sym Hperm)), Hrows; exact Hr).
    assert (Hd0 : nd_depth n0 = 0).
    { destruct Hr' as [Hr'|Hr']; [injection Hr' as _ ->; exact Hr0|]. inversion Hsort as [|? ? _ HF]; subst. rewrite Forall_forall in HF.
      specialize (HF _ Hr'). unfold dep in HF. cbn [snd] in HF. lia. }
    assert (l0 = 0) by (eapply Hroot; eauto). subst l0. auto. }
  destruct H0 as [-> Hn0].
  assert (Lpos : 0 < length nodes) by (rewrite Hlen; exact (proj1 Hr)).
  unfold set. rewrite repeat_length. replace (0 <? length nodes) with true by (symmetry; apply Nat.ltb_lt; exact Lpos). cbn [bind].
  set (m := list_max (map nd_depth nodes)).
  set (s0 := mkLayout (upd (repeat a0 (length nodes)) 0 ahalf) (map (fun k => (Z.of_nat m - Z.of_nat (nd_depth k))%Z) nodes)
                      (upd (repeat a0 (length nodes)) 0 ahalf) (map (fun k => (Z.of_nat m - Z.of_nat (nd_depth k))%Z) nodes)).
  assert (Hnd : NoDup (map fst ((0, n0) :: rest))).
  { eapply Permutation_NoDup; [apply Permutation_map, Permutation_sym; exact Hperm|]. unfold rows. clear.
    generalize (firstn (tr_node_count t) (tr_nodes t)) as l. intros l.
    assert (G : forall k, map fst (combine (seq k (length l)) l) = seq k (length l)).
    { induction l as [|x l IH]; intros k; [reflexivity|]. cbn [length seq combine map fst]. rewrite IH. reflexivity. }
    rewrite G. apply seq_NoDup. }
  assert (Hrest : forall r, In r rest -> node_at t (fst r) (snd r)).
  { intros [id n] Hr'. apply Hrows, (Permutation_in _ Hperm). right. exact Hr'. }
  assert (Hmap : map (fun r : nat * node A => nd_id (snd r)) rest = map fst rest).
  { apply map_ext_in. intros r Hr'. apply Hids. apply Hrest. exact Hr'. }
  cbn [map fst] in Hnd. inversion Hnd as [|? ? Hnin Hnd']; subst.
  destruct (loop_ok (B := B) nodes (map (fun r => nd_id (snd r)) rest) [0] s0) as (d & Hd & L1 & L2 & L3 & Ly & Hout & Hin);
    try (cbn [s0 ly_x ly_y ly_x0 ly_y0]; rewrite ?upd_length, ?repeat_length, ?map_length; reflexivity).
  { rewrite Hmap. exact Hnd'. }
  { rewrite Hmap. intros c Hc [<-|[]]. contradiction. }
  { apply sorted_parents_first.
    - inversion Hsort; assumption.
    - intros r Hr'. split; [apply node_nth, Hrest; exact Hr'|]. apply Hids. apply Hrest. exact Hr'.
    - intros r Hr'. pose proof (Hrest r Hr') as Hn.
      assert (Hne : fst r <> 0) by (intros H'; apply Hnin; rewrite <- H'; apply in_map; exact Hr').
      destruct (wf_parent t W _ _ Hn Hne) as (q & pn & Hp & Hq & _ & _ & Hdp). exists q, pn. split; [exact Hp|]. split; [apply node_nth; exact Hq|].
      split; [lia|]. apply Hrows in Hq. apply (Permutation_in _ (Permutation_sym Hperm)) in Hq. destruct Hq as [Hq|Hq]; [|right; exact Hq].
      injection Hq as <- _. left. left. reflexivity. }
  assert (Hy : forall id n, node_at t id n -> nth_error (ly_y d) id = Some (Z.of_nat m - Z.of_nat (nd_depth n))%Z).
  { intros id n Hn. rewrite Ly. cbn [s0 ly_y]. apply map_nth_error with (f := fun k => (Z.of_nat m - Z.of_nat (nd_depth k))%Z). apply node_nth. exact Hn. }
  exists d, m. split; [exact Hd|]. split; [|split; [|split]].
  - split.
    + unfold m. assert (Hm : In (list_max (map nd_depth nodes)) (map nd_depth nodes)).
      { assert (G : forall l : list nat, l <> [] -> In (list_max l) l).
        { induction l as [|x l IH]; intros Hl; [contradiction|]. cbn [list_max fold_right]. destruct l as [|y l]; [left; cbn; lia|].
          specialize (IH ltac:(discriminate)). fold (list_max (y :: l)). destruct (Nat.max_spec x (list_max (y :: l))) as [[_ ->]|[_ ->]]; [right; exact IH|left; reflexivity]. }
        apply G. intros H'. apply map_eq_nil in H'. rewrite H' in Lpos. cbn in Lpos. lia. }
      apply in_map_iff in Hm. destruct Hm as (n & Hn1 & Hn2). apply In_nth_error in Hn2. destruct Hn2 as [id Hn2]. apply node_nth in Hn2. eauto.
    + intros id n Hn. apply node_nth in Hn. apply nth_error_In in Hn. unfold m.
      assert (G : forall (l : list nat) x, In x l -> x <= list_max l).
      { induction l as [|y l IH]; intros x []; cbn [list_max fold_right]; [subst; lia|]. specialize (IH x H). unfold list_max in IH. lia. }
      apply G, in_map. exact Hn.
  - intros id n Hn. destruct (nth_error (ly_x d) id) as [x|] eqn:Ex; [exists x; split; [exact Ex|apply Hy; exact Hn]|].
    apply nth_error_None in Ex. rewrite L1, Hlen in Ex. destruct Hn as [Hn _]. lia.
  - destruct (Hout 0) as (O1 & _); [rewrite Hmap; exact Hnin|]. split.
    + rewrite O1. cbn [s0 ly_x]. apply nth_error_upd_eq. rewrite repeat_length. exact Lpos.
    + rewrite (Hy 0 rn Hr), Hr0. f_equal. lia.
  - intros q qn c cn Hq Hc Hcn.
    assert (Hc0 : c <> 0).
    { intros ->. destruct (wf_children t W q qn Hq (proj1 Hc)) as (l & r & ln & rn' & El & Er & _ & Hl & Hr' & _). destruct Hc as [_ [Hc|Hc]]; [assert (0 = l) by congruence|assert (0 = r) by congruence]; lia. }
    assert (Hcin : In c (map (fun r => nd_id (snd r)) rest)).
    { pose proof Hcn as Hcn'. apply Hrows in Hcn'. apply (Permutation_in _ (Permutation_sym Hperm)) in Hcn'. destruct Hcn' as [Hcn'|Hcn']; [injection Hcn' as H' _; congruence|].
      rewrite Hmap. apply in_map_iff. exists (c, cn). auto. }
    destruct (Hin c Hcin) as (cn' & q' & qn' & x & y & P1 & P2 & P3 & P4 & P5 & P6). apply node_nth in P1, P3.
    assert (cn' = cn) by (destruct P1 as [_ P1], Hcn as [_ Hcn]; congruence). subst cn'.
    destruct (wf_parent t W c cn Hcn Hc0) as (q2 & pn & E2 & Hpn & Hch & _ & Hdp). assert (q' = q2) by congruence. subst q2.
    assert (qn' = pn) by (destruct P3 as [_ P3], Hpn as [_ Hpn]; congruence). subst pn.
    assert (q = q') by (eapply (wf_unique t W); eauto). subst q'.
    assert (qn' = qn) by (destruct P3 as [_ P3], Hq as [_ Hq]; congruence). subst qn'.
    exists x, y. split; [exact P4|]. split; [exact P5|]. split; [exact P6|].
    rewrite (Hy c cn Hcn). f_equal. destruct P4 as [_ P4]. rewrite (Hy q qn Hq) in P4. injection P4 as <-. lia.
Qed.
End Layout.
Print Assumptions C58_layout.

(** ** The picture, with exact coordinates *)

Section Picture.
Context {A : arith} {P : Type} (t : tree A P).
Local Open Scope R_scope.
Notation h := (half_pow R_arith : nat -> R).

Lemma h_S : forall k, h (S k) = / 2 * h k. Proof. reflexivity. Qed.
Lemma h_pos : forall k, 0 < h k. Proof. induction k as [|k IH]; [cbn; lra|rewrite h_S; lra]. Qed.

Theorem well_drawn : well_formed t -> exists d, display R_arith None (firstn (tr_node_count t) (tr_nodes t)) = Ok d /\ picture t d.
Proof.
  intros W. destruct (C58_layout (B := R_arith) t W) as (d & m & Hd & (_ & Hm) & Hall & Hroot & Hch). exists d. split; [exact Hd|].
  assert (Huniq : forall id x y x' y', drawn_at d id x y -> drawn_at d id x' y' -> x = x' /\ y = y') by (intros id x y x' y' [H1 H2] [H3 H4]; split; congruence).
  assert (Hnode : forall id n n', node_at t id n -> node_at t id n' -> n = n') by (intros id n n' [_ H1] [_ H2]; congruence).
  assert (Hchild : forall q qn c, node_at t q qn -> child_of qn c -> exists cn, node_at t c cn /\ nd_depth cn = (nd_depth qn + 1)%nat).
  { intros q qn c Hq Hc. destruct (wf_children t W q qn Hq (proj1 Hc)) as (l & r & ln & rn & El & Er & Hlr & Hl & Hr & Nl & Nr & _).
    assert (Hn : exists cn, node_at t c cn /\ c <> 0%nat) by (destruct Hc as [_ [Hc|Hc]]; [exists ln; assert (c = l) by congruence|exists rn; assert (c = r) by congruence]; subst c; split; auto; lia).
    destruct Hn as (cn & Hn & Hc0). exists cn. split; [exact Hn|]. destruct (wf_parent t W c cn Hn Hc0) as (q' & pn & _ & Hpn & Hcp & _ & Hdp).
    assert (q = q') by (eapply (wf_unique t W); eauto). subst q'. rewrite Hdp. rewrite (Hnode q pn qn Hpn Hq). reflexivity. }
  (* the children of a node, with their sides *)
  assert (Hleft : forall q qn l ln x y, node_at t q qn -> nd_is_leaf qn = false -> nd_left qn = Some l -> node_at t l ln -> drawn_at d q x y ->
     drawn_at d l (x - h (nd_depth ln + 1)%nat) (y - 1)).
  { intros q qn l ln x y Hq Hf Hl Hln Hx. destruct (Hch q qn l ln Hq (conj Hf (or_introl Hl)) Hln) as (x' & y' & Hx' & _ & Hc).
    destruct (Huniq _ _ _ _ _ Hx Hx') as [<- <-]. rewrite Hl, Nat.eqb_refl in Hc. exact Hc. }
  assert (Hright : forall q qn r rn x y, node_at t q qn -> nd_is_leaf qn = false -> nd_right qn = Some r -> node_at t r rn -> drawn_at d q x y ->
     drawn_at d r (x + h (nd_depth rn + 1)%nat) (y - 1)).
  { intros q qn r rn x y Hq Hf Hr Hrn Hx. destruct (Hch q qn r rn Hq (conj Hf (or_intror Hr)) Hrn) as (x' & y' & Hx' & _ & Hc).
    destruct (Huniq _ _ _ _ _ Hx Hx') as [<- <-]. destruct (wf_children t W q qn Hq Hf) as (l & r' & _ & _ & El & Er & Hlr & _).
    rewrite El in Hc. destruct (Nat.eqb_spec l r) as [Hlr2|_]; [congruence|]. exact Hc. }
  assert (Hstep : forall q qn c cn x y xc yc, node_at t q qn -> child_of qn c -> node_at t c cn -> drawn_at d q x y -> drawn_at d c xc yc ->
     Rabs (xc - x) = h (nd_depth cn + 1)%nat).
  { intros q qn c cn x y xc yc Hq [Hf Hc] Hcn Hx Hxc. pose proof (h_pos (nd_depth cn + 1)) as Hp. destruct Hc as [Hc|Hc].
    - destruct (Huniq _ _ _ _ _ (Hleft q qn c cn x y Hq Hf Hc Hcn Hx) Hxc) as [<- _]. rewrite Rabs_left; lra.
    - destruct (Huniq _ _ _ _ _ (Hright q qn c cn x y Hq Hf Hc Hcn Hx) Hxc) as [<- _]. rewrite Rabs_right; lra. }
  assert (Hclose : forall id n, node_at t id n -> forall k, below t id k -> exists kn, node_at t k kn /\
     forall x y xk yk, drawn_at d id x y -> drawn_at d k xk yk -> Rabs (xk - x) <= h (nd_depth n + 1)%nat - h (nd_depth kn + 1)%nat).
  { intros id n Hn k Hk. induction Hk as [|q qn c Hb (kn & Hkn & IH) Hq Hc].
    - exists n. split; [exact Hn|]. intros x y xk yk H1 H2. destruct (Huniq _ _ _ _ _ H1 H2) as [-> _]. unfold Rminus. rewrite !Rplus_opp_r, Rabs_R0. lra.
    - rewrite <- (Hnode q qn kn Hq Hkn) in IH. clear kn Hkn. destruct (Hchild q qn c Hq Hc) as (cn & Hcn & Hdc). exists cn. split; [exact Hcn|].
      intros x y xc yc H1 H2. destruct (Hall q qn Hq) as [xq Hxq]. specialize (IH x y xq _ H1 Hxq). pose proof (Hstep q qn c cn xq _ xc yc Hq Hc Hcn Hxq H2) as Hs.
      replace (xc - x) with ((xc - xq) + (xq - x)) by ring. eapply Rle_trans; [apply Rabs_triang|]. rewrite Hs.
      assert (He : h (nd_depth cn + 1)%nat = / 2 * h (nd_depth qn + 1)%nat) by (rewrite Hdc, (Nat.add_1_r (nd_depth qn + 1)); apply h_S).
      rewrite He. lra. }
  assert (Hbelow : forall id n, node_at t id n -> below t 0 id).
  { intros id. induction id as [id IH] using lt_wf_ind. intros n Hn. destruct (Nat.eq_dec id 0) as [->|H0]; [constructor|].
    destruct (wf_parent t W id n Hn H0) as (q & pn & _ & Hq & Hc & Hlt & _). econstructor; [apply (IH q Hlt pn Hq)|exact Hq|exact Hc]. }
  destruct (wf_root t W) as (rn & Hr & _ & Hr0).
  assert (Hsep : forall k a an b bn xa ya xb yb, node_at t a an -> node_at t b bn -> nd_depth an = k -> nd_depth bn = k -> a <> b ->
     drawn_at d a xa ya -> drawn_at d b xb yb -> h k <= Rabs (xa - xb)).
  { induction k as [|k IH]; intros a an b bn xa ya xb yb Ha Hb Da Db Hab Xa Xb.
    - exfalso. apply Hab. assert (G : forall id n, node_at t id n -> nd_depth n = 0%nat -> id = 0%nat).
      { intros id n Hn Hd0. destruct (Nat.eq_dec id 0) as [H|H]; [exact H|]. destruct (wf_parent t W id n Hn H) as (q & pn & _ & _ & _ & _ & H'). lia. }
      rewrite (G a an Ha Da), (G b bn Hb Db). reflexivity.
    - assert (Ha0 : a <> 0%nat) by (intros ->; rewrite (Hnode _ _ _ Ha Hr) in Da; lia).
      assert (Hb0 : b <> 0%nat) by (intros ->; rewrite (Hnode _ _ _ Hb Hr) in Db; lia).
      destruct (wf_parent t W a an Ha Ha0) as (qa & pa & _ & Hqa & Ca & _ & Dpa).
      destruct (wf_parent t W b bn Hb Hb0) as (qb & pb & _ & Hqb & Cb & _ & Dpb).
      destruct (Hall qa pa Hqa) as [xqa Xqa]. destruct (Hall qb pb Hqb) as [xqb Xqb].
      pose proof (h_S k) as E1. pose proof (h_S (S k)) as E2. pose proof (h_pos k) as Hp.
      destruct (Nat.eq_dec qa qb) as [Hq|Hq].
      + subst qb. rewrite (Hnode _ _ _ Hqb Hqa) in *. destruct (Huniq _ _ _ _ _ Xqa Xqb) as [<- _].
        destruct Ca as [Hf [Ca|Ca]], Cb as [_ [Cb|Cb]]; try congruence.
        * destruct (Huniq _ _ _ _ _ (Hleft qa pa a an _ _ Hqa Hf Ca Ha Xqa) Xa) as [<- _].
          destruct (Huniq _ _ _ _ _ (Hright qa pa b bn _ _ Hqa Hf Cb Hb Xqa) Xb) as [<- _].
          rewrite Da, Db, Nat.add_1_r, E2. rewrite Rabs_left; lra.
        * destruct (Huniq _ _ _ _ _ (Hright qa pa a an _ _ Hqa Hf Ca Ha Xqa) Xa) as [<- _].
          destruct (Huniq _ _ _ _ _ (Hleft qa pa b bn _ _ Hqa Hf Cb Hb Xqa) Xb) as [<- _].
          rewrite Da, Db, Nat.add_1_r, E2. rewrite Rabs_right; lra.
      + assert (HI : h k <= Rabs (xqa - xqb)) by (apply (IH qa pa qb pb xqa _ xqb _ Hqa Hqb ltac:(lia) ltac:(lia) Hq Xqa Xqb)).
        pose proof (Hstep qa pa a an _ _ _ _ Hqa Ca Ha Xqa Xa) as Sa. pose proof (Hstep qb pb b bn _ _ _ _ Hqb Cb Hb Xqb Xb) as Sb.
        rewrite Da, Nat.add_1_r, E2 in Sa. rewrite Db, Nat.add_1_r, E2 in Sb.
        assert (Tr : Rabs (xqa - xqb) <= Rabs (xa - xqa) + (Rabs (xa - xb) + Rabs (xb - xqb))).
        { replace (xqa - xqb) with (- (xa - xqa) + ((xa - xb) + (xb - xqb))) by ring. eapply Rle_trans; [apply Rabs_triang|].
          rewrite Rabs_Ropp. apply Rplus_le_compat_l. apply Rabs_triang. }
        lra. }
  split.
  - intros id n Hn. destruct (Hall id n Hn) as [x Hx]. exists x, (Z.of_nat m - Z.of_nat (nd_depth n))%Z. split; [exact Hx|]. split; [|pose proof (Hm id n Hn); lia].
    destruct (Hclose 0%nat rn Hr id (Hbelow id n Hn)) as (kn & Hkn & Hc). specialize (Hc _ _ _ _ Hroot Hx). pose proof (h_pos (nd_depth kn + 1)) as Hp.
    rewrite Hr0 in Hc. change (h (0 + 1)%nat) with (/ 2 * 1) in Hc. change (@ahalf R_arith) with (/ 2) in Hc.
    destruct (Rabs_def2 (x - / 2) (/ 2)) as [Hab1 Hab2]; [lra|]. lra.
  - intros id n id' n' x y Hn Hn' Hx Hx'. destruct (Nat.eq_dec id id') as [H|H]; [exact H|]. exfalso.
    destruct (Hall id n Hn) as [x1 H1]. destruct (Hall id' n' Hn') as [x2 H2].
    destruct (Huniq _ _ _ _ _ Hx H1) as [_ Ey1]. destruct (Huniq _ _ _ _ _ Hx' H2) as [_ Ey2].
    pose proof (Hsep (nd_depth n) id n id' n' x y x y Hn Hn' eq_refl ltac:(lia) H Hx Hx') as Hs. unfold Rminus in Hs. rewrite Rplus_opp_r, Rabs_R0 in Hs.
    pose proof (h_pos (nd_depth n)). lra.
  - intros q qn c x y Hq Hc Hx. destruct (Hchild q qn c Hq Hc) as (cn & Hcn & _). destruct (Hch q qn c cn Hq Hc Hcn) as (x' & y' & Hx' & He & Hxc).
    destruct (Huniq _ _ _ _ _ Hx Hx') as [<- <-]. split; [exact He|]. eexists. exact Hxc.
  - intros q qn l k x y xm ym Hq Hf Hl Hb Hx Hxm. destruct (Hchild q qn l Hq (conj Hf (or_introl Hl))) as (ln & Hln & _).
    pose proof (Hleft q qn l ln x y Hq Hf Hl Hln Hx) as Hxl. destruct (Hclose l ln Hln k Hb) as (kn & _ & Hc). specialize (Hc _ _ _ _ Hxl Hxm).
    pose proof (h_pos (nd_depth kn + 1)) as Hp. pose proof (Rle_abs (xm - (x - h (nd_depth ln + 1)%nat))) as Ha. lra.
  - intros q qn r k x y xm ym Hq Hf Hr' Hb Hx Hxm. destruct (Hchild q qn r Hq (conj Hf (or_intror Hr'))) as (rn' & Hrn & _).
    pose proof (Hright q qn r rn' x y Hq Hf Hr' Hrn Hx) as Hxr. destruct (Hclose r rn' Hrn k Hb) as (kn & _ & Hc). specialize (Hc _ _ _ _ Hxr Hxm).
    pose proof (h_pos (nd_depth kn + 1)) as Hp. pose proof (Rle_abs (- (xm - (x + h (nd_depth rn' + 1)%nat)))) as Ha. rewrite Rabs_Ropp in Ha. lra.
Qed.
End Picture.

(** ** C58 *)

(** Every tree that fit grows is drawn without exception, in a proper picture. *)
Theorem C58_picture : forall {A : arith} {E : env A} (tk : task A E) p fb y train valid weights s tc g,
  valid_call tk p fb y train valid weights -> tree_fit tk p fb y train valid weights s = Ok (tc, g) ->
  exists d, display R_arith None (firstn (tr_node_count (g_tree g)) (tr_nodes (g_tree g))) = Ok d /\ picture (g_tree g) d.
Proof. intros A E tk p fb y train valid weights s tc g Hv Hf. apply well_drawn. eapply C25_well_formed; eauto. Qed.
Print Assumptions C58_picture.

(** The argument [max_depth] of plot_tree changes nothing: with [max_depth=1], nodes at a
    depth of 2 or more are drawn. *)
Lemma max_depth_ignored : forall {A : arith} {E : env A} (tk : task A E) d0 p fb y train valid weights s (o : tobj A (tk_P tk) (tk_Y tk)),
  valid_call tk p fb y train valid weights -> obj_fit tk d0 p fb y train valid weights s = Ok o ->
  (exists k, get_actual_depth o = Ok k /\ 2 <= k) ->
  forall {L D : Type} {EC : encoding D} (f : fobj A L EC (tk_P tk) (tk_Y tk)) i m, fo_trees f = Some [o] -> i = 0 ->
  exists d t id n x h, plot_layout R_arith f i m = Ok d /\ ob_tree o = Some t /\ node_at t id n /\ 2 <= nd_depth n /\ drawn_at d id x h.
Proof.
  intros A E tk d0 p fb y train valid weights s o HV Ho (k & Hk & H2) L D EC f i m Hf ->.
  destruct (C50_actual_depth tk _ _ _ _ _ _ _ _ _ HV Ho) as (t & k' & Et & Ek & (id & n & N1 & _ & N3) & _).
  assert (k' = k) by congruence. subst k'.
  pose proof Ho as Hfit. unfold obj_fit in Hfit. destruct (tree_fit _ _ _ _ _ _ _ _) as [[tc g]|] eqn:Ef; cbn [bind] in Hfit; [|discriminate].
  injection Hfit as Hfit. assert (Eg : g_tree g = t) by (rewrite <- Hfit in Et; cbn [ob_tree] in Et; congruence).
  pose proof (C25_well_formed _ _ _ _ _ _ _ _ _ _ HV Ef) as W. rewrite Eg in W.
  destruct (well_drawn t W) as (d & Hd & Hp). destruct (distance_wf t W id k N3) as (n' & N4 & N5).
  assert (n' = n) by (destruct N1 as [_ N1], N4 as [_ N4]; congruence). subst n'.
  destruct (pc_frame t d Hp id n N1) as (x & h & Hx & _). exists d, t, id, n, x, h.
  split; [|split; [exact Et|split; [exact N1|split; [lia|exact Hx]]]].
  unfold plot_layout, forest_get_nodes. rewrite Hf. cbn [nth_error]. unfold get_nodes. rewrite Et. cbn [bind]. exact Hd.
Qed.

Theorem C58_max_depth_refuted : exists (o : tobj QA (list (num QA)) nat) (f : clf_forest QA nat ex_encoding) d t id n x h,
  obj_fit ex_clf (1 # 2)%Q (ex_params false 1) ex_fb ex_labels ex_train ex_valid ex_w 0 = Ok o /\ fo_trees f = Some [o] /\
  plot_layout R_arith f 0 (Some 1%Z) = Ok d /\ ob_tree o = Some t /\ node_at t id n /\ 2 <= nd_depth n /\ drawn_at d id x h.
Proof.
  destruct C50_applies as (o & _ & _ & Ho & _ & _ & Hk & _).
  exists o, (w_trees blank (Some [o]) 0).
  destruct (max_depth_ignored ex_clf _ _ _ _ _ _ _ _ o (ex_call_clf false 1 ltac:(lia)) Ho Hk (w_trees (blank : clf_forest QA nat ex_encoding) (Some [o]) 0) 0 (Some 1%Z) eq_refl eq_refl)
    as (d & t & id & n & x & h & H). exists d, t, id, n, x, h. split; [exact Ho|]. split; [reflexivity|]. exact H.
Qed.
Print Assumptions C58_max_depth_refuted.

(** The hypotheses are met, and the coordinates of a tree of seven nodes. *)
Definition layout_of (o : tobj QA (list (num QA)) nat) : res (layout QA) := let* l := get_nodes o in display QA None l.
Example C58_applies :
  valid_call ex_clf (ex_params false 1) ex_fb ex_labels ex_train ex_valid ex_w /\
  (let* o := obj_fit ex_clf (1 # 2)%Q (ex_params false 1) ex_fb ex_labels ex_train ex_valid ex_w 0 in
   let* d := layout_of o in Ok (map Qred (ly_x d : list Q), ly_y d)) =
  Ok ([1 # 2; 3 # 4; 7 # 8; 5 # 8; 11 # 16; 9 # 16; 1 # 4]%Q, [3; 2; 1; 1; 0; 0; 2]%Z).
Proof. split; [apply ex_call_clf; lia|]. vm_compute. reflexivity. Qed.
