(** * Aggregation over the prunings of a grown tree *)

Require Import List Arith Lia NArith Reals Lra Permutation Sorted.
Require Import Verif.Base Verif.Num Verif.M_Bitarray Verif.P_Bitarray Verif.M_Utils Verif.M_Impurity
  Verif.M_Context Verif.M_Node Verif.M_Split Verif.M_Tree Verif.M_Grow
  Verif.P_Utils Verif.P_List Verif.P_Stack Verif.P_Task Verif.P_Node
  Verif.P_Bins Verif.P_Scan Verif.P_Split Verif.P_Find Verif.P_Indices Verif.P_Tree Verif.P_Grow
  Verif.P_Repr Verif.P_Route Verif.S_Impurity Verif.P_Impurity Verif.S_Fit Verif.P_Fit Verif.P_FitTree Verif.S_Node Verif.S_Split
  Verif.P_SplitR Verif.P_SplitTasks Verif.P_Cuts Verif.T_Utils Verif.S_Tree Verif.P_Nodes Verif.S_Prune.
Import ListNotations.
Local Open Scope nat_scope.
Local Open Scope list_scope.
Local Open Scope res_scope.

Lemma Rsum_perm : forall l l', Permutation l l' -> Rsum l = Rsum l'.
Proof. induction 1; simpl; lra. Qed.

Lemma Rsum_flat_map : forall {X Y} (f : Y -> R) (g : X -> list Y) l,
  Rsum (map f (flat_map g l)) = Rsum (map (fun x => Rsum (map f (g x))) l).
Proof. intros X Y f g l. induction l; simpl; auto. rewrite map_app, Rsum_app, IHl. auto. Qed.

Lemma NoDup_app_intro : forall {X} (a b : list X), NoDup a -> NoDup b -> (forall x, In x a -> In x b -> False) -> NoDup (a ++ b).
Proof.
  intros X a b Ha Hb. induction Ha as [|x a Hx Ha IH]; intros H; simpl; auto. constructor.
  - rewrite in_app_iff. intros [H1|H1]; [auto|]. apply (H x); simpl; auto.
  - apply IH. intros y H1 H2. apply (H y); simpl; auto.
Qed.

Lemma NoDup_products : forall id (a b : list pruning), NoDup a -> NoDup b ->
  NoDup (flat_map (fun x => map (Keep id x) b) a).
Proof.
  intros id a b Ha Hb. induction Ha as [|x a Hx Ha IH]; simpl; [constructor|].
  apply NoDup_app_intro.
  - apply FinFun.Injective_map_NoDup; auto. intros u v E. inversion E. auto.
  - auto.
  - intros z Hz Hz'. apply in_map_iff in Hz. destruct Hz as (u & <- & _).
    apply in_flat_map in Hz'. destruct Hz' as (x' & Hx' & Hm). apply in_map_iff in Hm. destruct Hm as (v & E & _).
    inversion E; subst. auto.
Qed.

Section Any.
Context {A : arith} {E : env A} {tk : task A E} (ts : task_shape tk).
Notation btree := (btree tk).
Context (tc : tctx A (tk_Y tk)).
Context (train valid : list nat) (s : rng E) (g : gstate tk) (b0 : btree).
Context (F : fitted ts tc train valid s g b0).
Notation t := (g_tree g).

Fixpoint bprunes (b : btree) (p : place) : list pruning :=
  match b with
  | BLeaf _ => [Cut (pl_id p)]
  | BNode d l r => Cut (pl_id p) ::
      flat_map (fun x => map (Keep (pl_id p) x) (bprunes r (rplace p d l r))) (bprunes l (lplace p d l r))
  end.

Lemma node_at_inside : forall b p n, inside b0 root_place b p -> node_at t (pl_id p) n -> n = hnode (Wof tc) b p.
Proof.
  intros b p n HI [_ Hn]. destruct (inside_node ts tc train valid s g b0 F b p HI) as [_ Hn']. congruence.
Qed.

Lemma bprunes_nodup : forall b p, NoDup (bprunes b p).
Proof.
  induction b as [d|d l IHl r IHr]; intros p; cbn [bprunes].
  - constructor; [intros []|constructor].
  - constructor; [|apply NoDup_products; auto].
    intros H. apply in_flat_map in H. destruct H as (x & _ & H). apply in_map_iff in H. destruct H as (y & H & _). discriminate.
Qed.

Lemma bprunes_in : forall b p pr, inside b0 root_place b p -> In pr (bprunes b p) <-> is_pruning t (pl_id p) pr.
Proof.
  induction b as [d|d l IHl r IHr]; intros p pr HI; cbn [bprunes].
  - split.
    + intros [<-|[]]. eapply IP_cut. apply (inside_node ts tc train valid s g b0 F); eauto.
    + intros H. inversion H as [id n Hn|id n l r pl pr' Hn HL H1 H2 H3 H4]; subst; [left; auto|].
      rewrite (node_at_inside _ _ _ HI Hn) in HL. discriminate.
  - pose proof (In_left _ _ _ _ _ _ HI) as HIl. pose proof (In_right _ _ _ _ _ _ HI) as HIr.
    pose proof (inside_node ts tc train valid s g b0 F _ _ HI) as Hn.
    split.
    + intros [<-|H]; [eapply IP_cut; eauto|]. apply in_flat_map in H. destruct H as (x & Hx & H).
      apply in_map_iff in H. destruct H as (y & <- & Hy).
      eapply IP_keep; [exact Hn|reflexivity|reflexivity|reflexivity| |].
      * apply (IHl (lplace p d l r)); auto.
      * apply (IHr (rplace p d l r)); auto.
    + intros H. inversion H as [id n Hn'|id n l' r' pl pr' Hn' HL H1 H2 H3 H4]; subst; [left; auto|right].
      rewrite (node_at_inside _ _ _ HI Hn') in H1, H2. inversion H1; subst l'. inversion H2; subst r'.
      apply in_flat_map. exists pl. split; [apply IHl; auto|]. apply in_map_iff. exists pr'. split; auto. apply IHr; auto.
Qed.

Lemma bprunes_all : forall b p, inside b0 root_place b p -> all_prunings t (pl_id p) (bprunes b p).
Proof. intros b p HI. split; [apply bprunes_nodup|]. intros pr. apply bprunes_in. auto. Qed.

Lemma all_prunings_perm : forall id L L', all_prunings t id L -> all_prunings t id L' -> Permutation L L'.
Proof. intros id L L' [H1 H2] [H3 H4]. apply NoDup_Permutation; auto. intros p. rewrite H2, H4. tauto. Qed.

Lemma is_inner_inside : forall b p, inside b0 root_place b p ->
  is_inner t (pl_id p) = match b with BLeaf _ => false | BNode _ _ _ => true end.
Proof.
  intros b p HI. unfold is_inner. destruct (inside_node ts tc train valid s g b0 F b p HI) as [_ ->]. destruct b; reflexivity.
Qed.

(** The leaf of a pruning in which a row falls. *)
Fixpoint rleaf (f : nat -> nat) (b : btree) (p : place) (pr : pruning) : nat :=
  match b, pr with
  | BNode d l r, Keep _ x y => if to_left (bd_sp d) (f (sp_feature (bd_sp d)))
                               then rleaf f l (lplace p d l r) x else rleaf f r (rplace p d l r) y
  | _, _ => pl_id p
  end.

Lemma left_at_inside : forall d l r p b, inside b0 root_place (BNode d l r) p ->
  left_at t (hnode (Wof tc) (BNode d l r) p) b (to_left (bd_sp d) b).
Proof.
  intros d l r p b HI. unfold left_at, to_left. change (nd_is_cat (hnode (Wof tc) (BNode d l r) p)) with (sp_is_cat (bd_sp d)).
  pose proof (inner_inside b0 _ _ _ (fitted_testable ts tc train valid s g b0 F) HI) as [[_ Hc] _].
  destruct (sp_is_cat (bd_sp d)) eqn:Ec.
  - destruct (Hc eq_refl) as [Hne _]. exists (sp_partition (bd_sp d)). split.
    + apply (own_slice (Wof tc) t d l r p); auto. eapply here_inside; [apply (fitted_here ts tc train valid s g b0 F)|exact HI].
    + apply mem_bin_in.
  - exists (sp_threshold (bd_sp d)). split; [reflexivity|]. apply Nat.leb_le.
Qed.

Lemma left_at_det : forall (n : node A) b x y, left_at t n b x -> left_at t n b y -> x = y.
Proof.
  intros n b x y Hx Hy. unfold left_at in *. destruct (nd_is_cat n).
  - destruct Hx as (u & U1 & U2), Hy as (v & V1 & V2). assert (u = v) by congruence. subst v.
    destruct x, y; auto; [symmetry; apply V2; apply U2; auto|apply U2; apply V2; auto].
  - destruct Hx as (u & U1 & U2), Hy as (v & V1 & V2). assert (u = v) by congruence. subst v.
    destruct x, y; auto; [symmetry; apply V2; apply U2; auto|apply U2; apply V2; auto].
Qed.

Lemma pruned_leaf_det : forall row pr u v, pruned_leaf t row pr u -> pruned_leaf t row pr v -> u = v.
Proof.
  intros row pr u v H. revert v. induction H as [id|id n f left pl pr leaf Hn Hf Hl H IH]; intros v Hv; inversion Hv as [|id' n' f' left' pl' pr' leaf' Hn' Hf' Hl' Hv']; subst; auto.
  destruct Hn as [_ Hn], Hn' as [_ Hn']. assert (n' = n) by congruence. subst n'. assert (f' = f) by congruence. subst f'.
  assert (left' = left) by (eapply left_at_det; eauto). subst left'. auto.
Qed.

Lemma rleaf_ok : forall row b p pr, inside b0 root_place b p -> In pr (bprunes b p) -> pruned_leaf t row pr (rleaf row b p pr).
Proof.
  intros row. induction b as [d|d l IHl r IHr]; intros p pr HI H; cbn [bprunes] in H.
  - destruct H as [<-|[]]. apply PL_cut.
  - destruct H as [<-|H]; [apply PL_cut|]. apply in_flat_map in H. destruct H as (x & Hx & H).
    apply in_map_iff in H. destruct H as (y & <- & Hy). cbn [rleaf].
    eapply PL_keep; [apply (inside_node ts tc train valid s g b0 F); eauto|reflexivity|apply left_at_inside; auto|].
    destruct (to_left _ _).
    + apply IHl; auto. apply In_left; auto.
    + apply IHr; auto. apply In_right; auto.
Qed.

(** A pruning of the tree has every sample of a list in one of its leaves. *)
Lemma sample_node : forall b p, inside b0 root_place b p ->
  exists f, (forall i, f i = true <-> passes t (bin_of (tc_fb tc) i) (pl_id p)) /\
  bd_train (broot b) = filter f train /\ bd_valid (broot b) = filter f valid.
Proof.
  intros b p HI. destruct (grown ts tc train valid s g b0 F) as (s' & fs' & HG).
  destruct (node_samples ts tc _ _ _ _ _ _ _ _ _ _ _ _ HG HI) as [H1 H2].
  exists (fun i => visits tc b0 root_place i (pl_id p)). split; [|auto].
  intros i. unfold visits. rewrite existsb_exists.
  pose proof (route_bpath ts tc train valid s g b0 F (bin_of (tc_fb tc) i) b0 root_place (In_root _ _)) as HR.
  change (fun j : nat => bin tc j i) with (bin_of (tc_fb tc) i). split.
  - intros (q & Hq & Eq). apply Nat.eqb_eq in Eq. eexists. split; [exact HR|]. rewrite <- Eq. apply in_map_iff. eauto.
  - intros (path & HP & Hin). rewrite (route_det t _ _ _ _ HP HR) in Hin. apply in_map_iff in Hin.
    destruct Hin as (q & Eq & Hq). exists q. split; auto. apply Nat.eqb_eq. auto.
Qed.

End Any.

(** ** Exact arithmetic *)
Section Exact.
Context {E : env R_arith} {tk : task R_arith E} (ts : task_shape tk).
Notation btree := (btree tk).
Context (tc : tctx R_arith (tk_Y tk)).
Context (train valid : list nat) (s : rng E) (g : gstate tk) (b0 : btree).
Context (F : fitted ts tc train valid s g b0).
Notation t := (g_tree g).
Notation step := (tc_step tc : R).
Notation pw := (pruning_weight (g_tree g) step).

Lemma prior_keep : forall id x y, is_inner t id = true -> prior t (Keep id x y) = (/ 2 * prior t x * prior t y)%R.
Proof.
  intros id x y H. unfold prior. cbn [kept_nodes filter]. rewrite H. cbn [length pow]. rewrite filter_app, app_length, pow_add. ring.
Qed.

Lemma pw_keep : forall id x y, is_inner t id = true -> pw (Keep id x y) = (/ 2 * pw x * pw y)%R.
Proof.
  intros id x y H. unfold pruning_weight. rewrite prior_keep by auto. unfold pruning_loss. cbn [pruned_leaves].
  rewrite map_app, Rsum_app, Rmult_plus_distr_l, exp_plus. ring.
Qed.

Lemma pw_cut : forall b p, inside b0 root_place b p ->
  pw (Cut (pl_id p)) = ((match b with BLeaf _ => 1 | BNode _ _ _ => / 2 end) * exp (- step * nc_loss (bd_nc (broot b))))%R.
Proof.
  intros b p HI. unfold pruning_weight, prior, pruning_loss. cbn [kept_nodes pruned_leaves map Rsum filter].
  rewrite (is_inner_inside ts tc train valid s g b0 F b p HI). unfold loss_at.
  destruct (inside_node ts tc train valid s g b0 F b p HI) as [_ ->].
  assert (El : nd_loss (hnode (Wof tc) b p) = nc_loss (bd_nc (broot b))) by (destruct b; reflexivity).
  rewrite El, Rplus_0_r. destruct b; cbn [length pow]; ring.
Qed.

Lemma exp_lw : forall b p, inside b0 root_place b p -> Rsum (map pw (bprunes b p)) = exp (lw step b).
Proof.
  induction b as [d|d l IHl r IHr]; intros p HI; cbn [bprunes lw].
  - cbn [map Rsum]. rewrite (pw_cut _ _ HI), Rplus_0_r, Rmult_1_l. reflexivity.
  - cbn [map Rsum]. rewrite (pw_cut _ _ HI). rewrite C31_value.
    assert (Hi : is_inner t (pl_id p) = true) by (rewrite (is_inner_inside ts tc train valid s g b0 F _ p HI); auto).
    rewrite Rsum_flat_map.
    rewrite (Rsum_ext _ (fun x => (/ 2 * exp (lw step r)) * pw x)%R).
    + rewrite Rsum_scal, (IHl (lplace p d l r)) by (apply In_left; auto).
      rewrite exp_ln.
      * change (exp (aadd (lw step l) (lw step r))) with (exp (lw step l + lw step r)). rewrite exp_plus.
        change (amul (aopp step) (nc_loss (bd_nc d))) with (- step * nc_loss (bd_nc d))%R. cbn [broot]. field.
      * pose proof (exp_pos (amul (aopp step) (nc_loss (bd_nc d)))). pose proof (exp_pos (aadd (lw step l) (lw step r))). lra.
    + intros x _. rewrite map_map. rewrite (Rsum_ext _ (fun y => (/ 2 * pw x) * pw y)%R).
      * rewrite Rsum_scal, (IHr (rplace p d l r)) by (apply In_right; auto). ring.
      * intros y _. rewrite pw_keep by auto. ring.
Qed.

(** The value computed along a route. *)
Context (x : nat -> R) (row : nat -> nat).

Definition balpha (b : btree) : R := (/ 2 * exp (- step * nc_loss (bd_nc (broot b)) - lw step b))%R.
Fixpoint bval (b : btree) (p : place) : R :=
  match b with
  | BLeaf _ => x (pl_id p)
  | BNode d l r => (balpha b * x (pl_id p) + (1 - balpha b) *
      (if to_left (bd_sp d) (row (sp_feature (bd_sp d))) then bval l (lplace p d l r) else bval r (rplace p d l r)))%R
  end.

Lemma balpha_exp : forall d l r, let b := BNode d l r in
  (balpha b * exp (lw step b) = / 2 * exp (- step * nc_loss (bd_nc d)))%R /\
  ((1 - balpha b) * exp (lw step b) = / 2 * exp (lw step l) * exp (lw step r))%R.
Proof.
  intros d l r b.
  assert (E1 : (balpha b * exp (lw step b) = / 2 * exp (- step * nc_loss (bd_nc d)))%R).
  { unfold balpha. cbn [b broot]. unfold Rminus. rewrite exp_plus, exp_Ropp. 
    field. apply Rgt_not_eq. apply exp_pos. }
  split; [exact E1|]. rewrite Rmult_minus_distr_r, E1, Rmult_1_l.
  unfold b. cbn [lw]. rewrite C31_value.
  change (aadd (lw step l) (lw step r)) with (lw step l + lw step r)%R. rewrite (exp_plus (lw step l)).
  change (amul (aopp step) (nc_loss (bd_nc d))) with (- step * nc_loss (bd_nc d))%R.
  pose proof (exp_pos (- step * nc_loss (bd_nc d))). pose proof (exp_pos (lw step l)). pose proof (exp_pos (lw step r)).
  assert (0 < exp (lw step l) * exp (lw step r))%R by (apply Rmult_lt_0_compat; auto).
  rewrite exp_ln by lra. field.
Qed.

Lemma balpha_range : forall d l r, (0 < balpha (BNode d l r) < 1)%R.
Proof.
  intros d l r. destruct (balpha_exp d l r) as [E1 E2].
  pose proof (exp_pos (lw step (BNode d l r))) as Hp. pose proof (exp_pos (- step * nc_loss (bd_nc d))).
  pose proof (exp_pos (lw step l)). pose proof (exp_pos (lw step r)).
  assert (0 < exp (lw step l) * exp (lw step r))%R by (apply Rmult_lt_0_compat; auto).
  split.
  - apply (Rmult_lt_reg_r (exp (lw step (BNode d l r)))); [auto|]. lra.
  - cut (0 < 1 - balpha (BNode d l r))%R; [lra|]. apply (Rmult_lt_reg_r (exp (lw step (BNode d l r)))); [auto|]. lra.
Qed.

Lemma bval_average : forall b p, inside b0 root_place b p ->
  (bval b p * exp (lw step b) = Rsum (map (fun pr => pw pr * x (rleaf row b p pr)) (bprunes b p)))%R.
Proof.
  induction b as [d|d l IHl r IHr]; intros p HI; cbn [bprunes map Rsum].
  - rewrite (pw_cut _ _ HI). cbn [rleaf bval lw broot]. change (amul (aopp step) (nc_loss (bd_nc d))) with (- step * nc_loss (bd_nc d))%R. ring.
  - rewrite (pw_cut _ _ HI). cbn [rleaf broot].
    assert (Hi : is_inner t (pl_id p) = true) by (rewrite (is_inner_inside ts tc train valid s g b0 F _ p HI); auto).
    pose proof (In_left _ _ _ _ _ _ HI) as HIl. pose proof (In_right _ _ _ _ _ _ HI) as HIr.
    pose proof (exp_lw _ _ HIl) as EL. pose proof (exp_lw _ _ HIr) as ER.
    specialize (IHl _ HIl). specialize (IHr _ HIr).
    destruct (balpha_exp d l r) as [E1 E2]. cbn [bval].
    set (tl := to_left (bd_sp d) (row (sp_feature (bd_sp d)))) in *.
    set (V := if tl then bval l (lplace p d l r) else bval r (rplace p d l r)).
    replace ((balpha (BNode d l r) * x (pl_id p) + (1 - balpha (BNode d l r)) * V) * exp (lw step (BNode d l r)))%R
      with (x (pl_id p) * (balpha (BNode d l r) * exp (lw step (BNode d l r))) + V * ((1 - balpha (BNode d l r)) * exp (lw step (BNode d l r))))%R by ring.
    rewrite E1, E2. rewrite Rsum_flat_map.
    replace (x (pl_id p) * (/ 2 * exp (- step * nc_loss (bd_nc d))))%R with (/ 2 * exp (- step * nc_loss (bd_nc d)) * x (pl_id p))%R by ring.
    apply Rplus_eq_compat_l. unfold V. destruct tl.
    + rewrite (Rsum_ext _ (fun z => (/ 2 * exp (lw step r)) * (pw z * x (rleaf row l (lplace p d l r) z)))%R).
      * rewrite Rsum_scal, <- IHl. ring.
      * intros z _. rewrite map_map. rewrite (Rsum_ext _ (fun y => (/ 2 * pw z * x (rleaf row l (lplace p d l r) z)) * pw y)%R).
        { rewrite Rsum_scal, ER. ring. }
        intros y _. rewrite pw_keep by auto. ring.
    + rewrite (Rsum_ext _ (fun z => (/ 2 * (bval r (rplace p d l r) * exp (lw step r))) * pw z)%R).
      * rewrite Rsum_scal, EL. ring.
      * intros z _. rewrite map_map. rewrite (Rsum_ext _ (fun y => (/ 2 * pw z) * (pw y * x (rleaf row r (rplace p d l r) y)))%R).
        { rewrite Rsum_scal, <- IHr. ring. }
        intros y _. rewrite pw_keep by auto. ring.
Qed.

(** The values lie between those of the nodes met. *)
Lemma bval_bounds : forall lo hi b p, (forall q, In q (bpath row b p) -> (lo <= x (pl_id (snd q)) <= hi)%R) -> (lo <= bval b p <= hi)%R.
Proof.
  intros lo hi. induction b as [d|d l IHl r IHr]; intros p H; cbn [bval bpath] in *.
  - apply (H (BLeaf d, p)). simpl. auto.
  - pose proof (balpha_range d l r) as [A1 A2]. assert (H0 := H _ (or_introl eq_refl)). cbn [snd] in H0.
    set (tl := to_left (bd_sp d) (row (sp_feature (bd_sp d)))) in *.
    assert (HV : (lo <= (if tl then bval l (lplace p d l r) else bval r (rplace p d l r)) <= hi)%R).
    { destruct tl; [apply IHl|apply IHr]; intros q Hq; apply H; simpl; auto. }
    clear H. set (V := if tl then bval l (lplace p d l r) else bval r (rplace p d l r)) in *. set (a := balpha _) in *.
    assert (a * lo <= a * x (pl_id p) <= a * hi)%R by (split; apply Rmult_le_compat_l; lra).
    assert ((1 - a) * lo <= (1 - a) * V <= (1 - a) * hi)%R by (split; apply Rmult_le_compat_l; lra).
    lra.
Qed.

(** What the walk up computes. *)
Context (Hagg : tc_aggregation tc = true).

Lemma balpha_ok : forall b p, node_alpha step (hnode (Wof tc) b p) = Ok (balpha b).
Proof.
  intros b p. unfold node_alpha.
  assert (E1 : nd_logw (hnode (Wof tc) b p) = Some (lw step b)) by (destruct b; cbn [hnode mknode nd_logw]; unfold Wof; rewrite Hagg; auto).
  assert (E2 : nd_loss (hnode (Wof tc) b p) = nc_loss (bd_nc (broot b))) by (destruct b; reflexivity).
  rewrite E1. cbn [logw_of bind]. rewrite E2. apply f_equal. unfold balpha.
  match goal with |- ?u = ?v => change u with (ahalf * exp (- step * nc_loss (bd_nc (broot b)) - lw step b))%R end.
  reflexivity.
Qed.

Lemma walk_value : forall V (val : nat -> node R_arith -> res V) (mix : R -> V -> V -> res V) (pi : V -> R),
  (forall b p u, inside b0 root_place b p -> val (pl_id p) (hnode (Wof tc) b p) = Ok u -> pi u = x (pl_id p)) ->
  (forall a u v w, mix a u v = Ok w -> pi w = (a * pi u + (1 - a) * pi v)%R) ->
  forall b p v w, inside b0 root_place b p -> pi v = x (pl_id (snd (bleaf row b p))) ->
  foldM (mix_at (Wof tc) step val mix) (rev (banc row b p)) v = Ok w -> pi w = bval b p.
Proof.
  intros V val mix pi Hval Hmix. induction b as [d|d l IHl r IHr]; intros p v w HI Hv H; cbn [banc bleaf bval] in *.
  - cbn [rev foldM] in H. inversion H; subst. auto.
  - cbn [rev] in H. rewrite foldM_app in H.
    match type of H with bind ?m _ = _ => destruct m as [v'|] eqn:E1; [|discriminate] end. cbn [bind foldM] in H.
    match type of H with bind ?m _ = _ => destruct m as [w'|] eqn:E2; [|discriminate] end. cbn [bind] in H. inversion H; subst w'.
    unfold mix_at in E2. cbn [fst snd] in E2.
    match type of E2 with bind ?m _ = _ => destruct m as [u|] eqn:E3; [|discriminate] end. cbn [bind] in E2.
    rewrite balpha_ok in E2. cbn [bind] in E2. rewrite (Hmix _ _ _ _ E2), (Hval _ _ _ HI E3).
    f_equal. f_equal. destruct (to_left _ _).
    + eapply IHl; eauto. apply In_left; auto.
    + eapply IHr; eauto. apply In_right; auto.
Qed.

End Exact.
