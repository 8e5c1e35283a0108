(** * Integer weights and repeated rows: sums, then trees *)

Require Import List Arith Lia NArith Reals Lra Permutation Sorted.
Require Import Verif.Base Verif.Num Verif.M_Bitarray Verif.P_Bitarray Verif.M_Utils Verif.M_Impurity
  Verif.M_Context Verif.M_Node Verif.M_Split Verif.M_Tree Verif.M_Grow Verif.P_Utils Verif.P_List Verif.P_Task Verif.P_Node
  Verif.P_Bins Verif.P_Scan Verif.P_Split Verif.P_Find Verif.P_Indices Verif.P_Tree Verif.P_Grow
  Verif.P_Repr Verif.P_Route Verif.S_Fit Verif.P_Fit Verif.P_FitTree Verif.S_Node Verif.S_Tree Verif.P_Nodes
  Verif.T_Node Verif.S_Impurity Verif.P_Impurity Verif.S_Split Verif.P_SplitR Verif.P_Prune Verif.P_SplitTasks Verif.S_Repeat.
Import ListNotations.
Local Open Scope nat_scope.
Local Open Scope list_scope.
Local Open Scope res_scope.

Lemma filter_map_comm' : forall {X Z} (g : X -> Z) (f : Z -> bool) l, filter f (map g l) = map g (filter (fun x => f (g x)) l).
Proof. induction l as [|x l IH]; simpl; auto. destruct (f (g x)); simpl; congruence. Qed.

Section Sums.
Context {Y : Type} (orig times : nat -> nat) (fb fb' : fba) (y y' : list Y) (w w' : list R).
Context (HI : integer_weights times w) (HU : unit_weights w').

Lemma times_pos : forall i, i < length w -> 1 <= times i.
Proof. clear HU. intros i Hi. destruct (nth_error w i) as [x|] eqn:E; [|apply nth_error_None in E; lia]. apply (HI i x E). Qed.

(** Everything the sums need to know about two corresponding lists of samples. *)
Definition matching (l l' : list nat) : Prop :=
  copies orig fb fb' y y' l' /\ repeated orig times l l' /\
  (forall i, In i l -> i < length w) /\ (forall i', In i' l' -> i' < length w').

Lemma Permutation_filter' : forall {X} (f : X -> bool) l l', Permutation l l' -> Permutation (filter f l) (filter f l').
Proof.
  induction 1; simpl; auto.
  - destruct (f x); auto.
  - destruct (f x), (f y0); auto. apply perm_swap.
  - etransitivity; eauto.
Qed.
Lemma filter_repeat : forall {X} (f : X -> bool) (x : X) n, filter f (repeat x n) = if f x then repeat x n else [].
Proof. intros. induction n; simpl; [destruct (f x); auto|]. rewrite IHn. destruct (f x); auto. Qed.
Lemma filter_flat_map : forall (f : nat -> bool) l,
  filter f (flat_map (fun i => repeat i (times i)) l) = flat_map (fun i => repeat i (times i)) (filter f l).
Proof.
  induction l as [|i l IH]; simpl; auto. rewrite filter_app, filter_repeat, IH. destruct (f i); auto.
Qed.

(** A selection that only looks at bins and labels. *)
Lemma matching_filter : forall (f f' : nat -> bool) l l', matching l l' ->
  (forall i', In i' l' -> f' i' = f (orig i')) -> matching (filter f l) (filter f' l').
Proof.
  intros f f' l l' (HC & HR & Hl & Hl') Hf. repeat split.
  - apply filter_In in H. intros. apply (HC i'); tauto.
  - apply filter_In in H. apply (HC i'); tauto.
  - unfold repeated in *. rewrite <- filter_flat_map. rewrite <- (Permutation_filter' f _ _ HR).
    apply Permutation_refl'. clear - Hf. induction l' as [|i' l' IH]; simpl; auto.
    rewrite Hf by (left; auto). destruct (f (orig i')); simpl; rewrite IH; auto; intros; apply Hf; right; auto.
  - intros i Hi. apply filter_In in Hi. apply Hl. tauto.
  - intros i Hi. apply filter_In in Hi. apply Hl'. tauto.
Qed.

Lemma weight_int : forall i, i < length w -> @weight R_arith w i = INR (times i).
Proof.
  intros i Hi. unfold weight. destruct (nth_error w i) as [x|] eqn:E; [|apply nth_error_None in E; lia].
  rewrite (nth_error_nth _ _ (@a0 R_arith) E). apply (HI i x E).
Qed.
Lemma weight_one : forall i, i < length w' -> @weight R_arith w' i = 1%R.
Proof. intros i Hi. unfold weight. apply HU. apply nth_In. auto. Qed.

Lemma Rsum_repeat : forall (x : R) n, Rsum (repeat x n) = (INR n * x)%R.
Proof. induction n; [simpl; lra|]. change (repeat x (S n)) with (x :: repeat x n). rewrite S_INR. simpl. rewrite IHn. lra. Qed.
Lemma map_repeat' : forall {X Z} (f : X -> Z) x n, map f (repeat x n) = repeat (f x) n.
Proof. induction n; simpl; congruence. Qed.

(** The sum of any quantity of the rows. *)
Lemma sum_matching : forall (h h' : nat -> R) l l', matching l l' ->
  (forall i', In i' l' -> h' i' = h (orig i')) ->
  Rsum (map (fun i => (@weight R_arith w i * h i)%R) l) = Rsum (map (fun i => (@weight R_arith w' i * h' i)%R) l').
Proof.
  intros h h' l l' (HC & HR & Hl & Hl') Hh.
  transitivity (Rsum (map h (map orig l'))).
  - rewrite (Rsum_perm _ _ (Permutation_map h HR)). rewrite Rsum_flat_map.
    apply Rsum_ext. intros i Hi. rewrite weight_int by auto. rewrite map_repeat', Rsum_repeat. auto.
  - rewrite map_map. apply Rsum_ext. intros i Hi. rewrite weight_one by auto. rewrite <- Hh by auto. lra.
Qed.

Lemma total_matching : forall l l', matching l l' -> @total_weight R_arith w l = @total_weight R_arith w' l'.
Proof.
  intros l l' M. unfold total_weight. rewrite !asum_R.
  pose proof (sum_matching (fun _ => 1%R) (fun _ => 1%R) l l' M (fun _ _ => eq_refl)) as H.
  transitivity (Rsum (map (fun i => (@weight R_arith w i * 1)%R) l)); [apply Rsum_ext; intros; lra|].
  rewrite H. apply Rsum_ext. intros. lra.
Qed.

Lemma total_pos : forall l, l <> [] -> (forall i, In i l -> i < length w) -> (0 < @total_weight R_arith w l)%R.
Proof.
  intros l Hn Hl. unfold total_weight. rewrite asum_R. apply (Rsum_pos (@weight R_arith w)); auto.
  intros i Hi. rewrite weight_int by auto. apply lt_0_INR. destruct (nth_error w i) as [x|] eqn:E.
  - apply HI in E. lia.
  - apply nth_error_None in E. specialize (Hl i Hi). lia.
Qed.

Lemma matching_samples : forall l l' j b, matching l l' -> j < fb_n_features fb ->
  matching (samples_in fb l j b) (samples_in fb' l' j b).
Proof. intros l l' j b M Hj. apply matching_filter; auto. intros i' Hi'. destruct M as (HC & _). destruct (HC i' Hi') as (B & _). rewrite B; auto. Qed.
Lemma matching_side : forall l l' j cut, matching l l' -> j < fb_n_features fb ->
  matching (side fb j cut l) (side fb' j cut l') /\ matching (other fb j cut l) (other fb' j cut l').
Proof.
  intros l l' j cut M Hj. split; apply matching_filter; auto; intros i' Hi'; destruct M as (HC & _); destruct (HC i' Hi') as (B & _); rewrite B; auto.
Qed.
Lemma matching_label : forall l l' d i', matching l l' -> In i' l' -> nth i' y' d = nth (orig i') y d.
Proof.
  intros l l' d i' (HC & _) Hi'. destruct (HC i' Hi') as (_ & L).
  destruct (nth_error y' i') as [v|] eqn:E.
  - rewrite (nth_error_nth _ _ d E). symmetry. apply nth_error_nth. auto.
  - rewrite (nth_overflow y') by (apply nth_error_None; auto). symmetry. apply nth_overflow. apply nth_error_None. auto.
Qed.
Lemma matching_empty : forall l l', matching l l' -> l <> [] -> l' <> [].
Proof.
  intros l l' (HC & HR & Hl & _) Hn E. subst l'. unfold repeated in HR. simpl in HR. apply Permutation_nil in HR.
  destruct l as [|i l]; [congruence|]. simpl in HR. apply app_eq_nil in HR. destruct HR as [HR _].
  assert (Hi : i < length w) by (apply Hl; left; auto).
  destruct (nth_error w i) as [x|] eqn:E; [|apply nth_error_None in E; lia]. apply HI in E. destruct (times i); [lia|discriminate].
Qed.
End Sums.

Section Classes.
Context (orig times : nat -> nat) (fb fb' : fba) (y y' : list nat) (w w' : list R).
Context (HI : integer_weights times w) (HU : unit_weights w').
Notation matching := (matching orig times fb fb' y y' w w').

Lemma class_matching : forall l l' k, matching l l' -> matching (of_class y k l) (of_class y' k l').
Proof.
  intros l l' k M. apply matching_filter; auto. intros i' Hi'.
  rewrite (matching_label orig times fb fb' y y' w w' l l' 0 i' M Hi'). auto.
Qed.
Lemma class_weights_matching : forall K l l', matching l l' -> class_weights w K y l = class_weights w' K y' l'.
Proof.
  intros K l l' M. unfold class_weights. apply map_ext. intro k.
  eapply total_matching; eauto. apply class_matching. auto.
Qed.
Lemma impurity_matching : forall crit K l l', matching l l' -> clf_impurity w crit K y l = clf_impurity w' crit K y' l'.
Proof. intros crit K l l' M. unfold clf_impurity. rewrite (class_weights_matching K l l' M). auto. Qed.
Lemma freq_matching : forall K d l l' k, matching l l' ->
  @smoothed_freq R_arith w K d y l k = @smoothed_freq R_arith w' K d y' l' k.
Proof.
  intros K d l l' k M. unfold smoothed_freq.
  rewrite (total_matching orig times fb fb' y y' w w' HI HU l l' M).
  rewrite (total_matching orig times fb fb' y y' w w' HI HU _ _ (class_matching l l' k M)). auto.
Qed.
Lemma fold_minus : forall {X} (g : X -> R) l a, fold_left (fun s i => (s - g i)%R) l a = (a - Rsum (map g l))%R.
Proof. induction l; intros; simpl; [lra|]. rewrite IHl. lra. Qed.
Lemma log_loss_matching : forall p l l', matching l l' -> @log_loss R_arith w y p l = @log_loss R_arith w' y' p l'.
Proof.
  intros p l l' M. unfold log_loss.
  change (@log_loss R_arith w y p l = @log_loss R_arith w' y' p l'). unfold log_loss.
  change (fold_left (fun s i => (s - (@weight R_arith w i * ln (p (nth i y O)))%R)%R) l 0%R =
          fold_left (fun s i => (s - (@weight R_arith w' i * ln (p (nth i y' O)))%R)%R) l' 0%R).
  rewrite !fold_minus. f_equal.
  apply (sum_matching orig times fb fb' y y' w w' HI HU (fun i => ln (p (nth i y O))) (fun i => ln (p (nth i y' O))) l l' M).
  intros i' Hi'. rewrite (matching_label orig times fb fb' y y' w w' l l' 0 i' M Hi'). auto.
Qed.
End Classes.

Section Labels.
Context (orig times : nat -> nat) (fb fb' : fba) (y y' : list R) (w w' : list R).
Context (HI : integer_weights times w) (HU : unit_weights w').
Notation matching := (matching orig times fb fb' y y' w w').

Lemma label_sum_matching : forall l l', matching l l' -> @label_sum R_arith w y l = @label_sum R_arith w' y' l'.
Proof.
  intros l l' M. unfold label_sum. rewrite !asum_R.
  apply (sum_matching orig times fb fb' y y' w w' HI HU (fun i => nth i y 0%R) (fun i => nth i y' 0%R) l l' M).
  intros i' Hi'. apply (matching_label orig times fb fb' y y' w w' l l' 0%R i' M Hi').
Qed.
Lemma label_sq_sum_matching : forall l l', matching l l' -> @label_sq_sum R_arith w y l = @label_sq_sum R_arith w' y' l'.
Proof.
  intros l l' M. unfold label_sq_sum. rewrite !asum_R.
  pose proof (sum_matching orig times fb fb' y y' w w' HI HU (fun i => (nth i y 0 * nth i y 0)%R) (fun i => (nth i y' 0 * nth i y' 0)%R) l l' M) as H.
  assert (H0 : forall i', In i' l' -> (nth i' y' 0 * nth i' y' 0)%R = (nth (orig i') y 0 * nth (orig i') y 0)%R).
  { intros i' Hi'. rewrite (matching_label orig times fb fb' y y' w w' l l' 0%R i' M Hi'). auto. }
  specialize (H H0). clear H0.
  transitivity (Rsum (map (fun i => (@weight R_arith w i * (nth i y 0 * nth i y 0))%R) l)).
  - apply Rsum_ext. intros. simpl. unfold weight. simpl. lra.
  - rewrite H. apply Rsum_ext. intros. simpl. unfold weight. simpl. lra.
Qed.
Lemma fold_plus : forall {X} (g : X -> R) l a, fold_left (fun s i => (s + g i)%R) l a = (a + Rsum (map g l))%R.
Proof. induction l; intros; simpl; [lra|]. rewrite IHl. lra. Qed.
Lemma sq_loss_matching : forall m l l', matching l l' -> @sq_loss R_arith w y m l = @sq_loss R_arith w' y' m l'.
Proof.
  intros m l l' M. unfold sq_loss.
  change (fold_left (fun s i => (s + ((@weight R_arith w i * (nth i y 0 - m)) * (nth i y 0 - m))%R)%R) l 0%R =
          fold_left (fun s i => (s + ((@weight R_arith w' i * (nth i y' 0 - m)) * (nth i y' 0 - m))%R)%R) l' 0%R).
  rewrite !fold_plus. f_equal.
  pose proof (sum_matching orig times fb fb' y y' w w' HI HU (fun i => ((nth i y 0 - m) * (nth i y 0 - m))%R) (fun i => ((nth i y' 0 - m) * (nth i y' 0 - m))%R) l l' M) as H.
  assert (H0 : forall i', In i' l' -> ((nth i' y' 0 - m) * (nth i' y' 0 - m))%R = ((nth (orig i') y 0 - m) * (nth (orig i') y 0 - m))%R).
  { intros i' Hi'. rewrite (matching_label orig times fb fb' y y' w w' l l' 0%R i' M Hi'). auto. }
  specialize (H H0). clear H0.
  etransitivity; [|etransitivity; [exact H|]]; apply Rsum_ext; intros; lra.
Qed.

Lemma variance_matching : forall l l', matching l l' -> l <> [] -> reg_impurity w y l = reg_impurity w' y' l'.
Proof.
  intros l l' M Hn. unfold reg_impurity, variance.
  assert (HT : wtot (map (fun i => (@weight R_arith w i, nth i y 0%R)) l) = wtot (map (fun i => (@weight R_arith w' i, nth i y' 0%R)) l')).
  { unfold wtot. rewrite !map_map. simpl.
    pose proof (total_matching orig times fb fb' y y' w w' HI HU l l' M) as H. unfold total_weight in H. rewrite !asum_R in H. exact H. }
  assert (HM : wmean (map (fun i => (@weight R_arith w i, nth i y 0%R)) l) = wmean (map (fun i => (@weight R_arith w' i, nth i y' 0%R)) l')).
  { unfold wmean. rewrite HT. f_equal. unfold wysum. rewrite !map_map. simpl.
    pose proof (label_sum_matching l l' M) as H. unfold label_sum in H. rewrite !asum_R in H. exact H. }
  rewrite HT, HM. f_equal. rewrite !map_map. simpl. set (m := wmean _).
  apply (sum_matching orig times fb fb' y y' w w' HI HU (fun i => sq (nth i y 0 - m)%R) (fun i => sq (nth i y' 0 - m)%R) l l' M).
  intros i' Hi'. rewrite (matching_label orig times fb fb' y y' w w' l l' 0%R i' M Hi'). auto.
Qed.
End Labels.

(** ** Trees *)

Lemma sorted_perm_eq : forall l l' : list nat, StronglySorted le l -> StronglySorted le l' -> Permutation l l' -> l = l'.
Proof.
  induction l as [|x l IH]; intros l' H H' HP.
  - apply Permutation_nil in HP. auto.
  - destruct l' as [|x' l']; [apply Permutation_sym, Permutation_nil in HP; discriminate|].
    inversion H as [|? ? HS HF]; inversion H' as [|? ? HS' HF']; subst. rewrite Forall_forall in HF, HF'.
    assert (x = x').
    { assert (I1 : In x (x' :: l')) by (eapply Permutation_in; [exact HP|left; auto]).
      assert (I2 : In x' (x :: l)) by (eapply Permutation_in; [apply Permutation_sym; exact HP|left; auto]).
      destruct I1 as [I1|I1]; [auto|]. destruct I2 as [I2|I2]; [auto|]. apply HF in I2. apply HF' in I1. lia. }
    subst x'. f_equal. apply IH; auto. eapply Permutation_cons_inv. eauto.
Qed.

Section Trees.
Context {E : env R_arith} {tk : task R_arith E} (ts : task_shape tk) (tc tc' : tctx R_arith (tk_Y tk)).
Context (HD : data_ok ts tc) (HD' : data_ok ts tc').
Context (orig times : nat -> nat).
Context (HI : integer_weights times (tc_weights tc)) (HU : unit_weights (tc_weights tc')).
Notation nf := (fb_n_features (tc_fb tc)).
Notation matching := (matching orig times (tc_fb tc) (tc_fb tc') (tc_y tc) (tc_y tc') (tc_weights tc) (tc_weights tc')).
Context (Hnf : fb_n_features (tc_fb tc') = nf) (Hmb : tc_max_n_bins tc' = tc_max_n_bins tc).
Context (Hagg : tc_aggregation tc' = tc_aggregation tc).

(** What the task has to satisfy: its sums are linear in the weights. *)
Context (Lhist : forall j l l', j < nf -> matching l l' ->
  ts_hist ts (tc_max_n_bins tc) (map (fun i => (bin tc j i, lab ts tc i, wt tc i)) l) =
  ts_hist ts (tc_max_n_bins tc) (map (fun i => (bin tc' j i, lab ts tc' i, wt tc' i)) l')).
Context (Lpred : forall l l', matching l l' -> pred_spec ts tc l = pred_spec ts tc' l').
Context (Lloss : forall p l l', matching l l' -> loss_spec ts tc p l = loss_spec ts tc' p l').

Lemma copy_bin : forall l l' j i', matching l l' -> j < nf -> In i' l' -> bin tc' j i' = bin tc j (orig i').
Proof. intros l l' j i' (HC & _) Hj Hi. destruct (HC i' Hi) as [B _]. apply (B j Hj). Qed.
Lemma orig_in : forall l l' i', matching l l' -> In i' l' -> In (orig i') l.
Proof.
  intros l l' i' (_ & HR & _) Hi. assert (H : In (orig i') (flat_map (fun i => repeat i (times i)) l)).
  { eapply Permutation_in; [exact HR|]. apply in_map. auto. }
  apply in_flat_map in H. destruct H as (i & H1 & H2). apply repeat_spec in H2. congruence.
Qed.
Lemma copy_in : forall l l' i, matching l l' -> In i l -> exists i', In i' l' /\ orig i' = i.
Proof.
  intros l l' i (_ & HR & Hl & _) Hi. assert (H : In i (map orig l')).
  { eapply Permutation_in; [apply Permutation_sym; exact HR|]. apply in_flat_map. exists i. split; auto.
    pose proof (times_pos times _ HI i (Hl i Hi)). destruct (times i); [lia|left; auto]. }
  apply in_map_iff in H. destruct H as (i' & H1 & H2). eauto.
Qed.
Lemma matching_length : forall l l', matching l l' -> length l <= length l'.
Proof.
  intros l l' (_ & HR & Hl & _). apply Permutation_length in HR. rewrite map_length in HR. rewrite HR. clear HR.
  induction l as [|i l IH]; simpl; [lia|]. rewrite app_length, repeat_length.
  assert (length l <= length (flat_map (fun i => repeat i (times i)) l)) by (apply IH; intros; apply Hl; right; auto).
  pose proof (times_pos times _ HI i (Hl i (or_introl eq_refl))). lia.
Qed.
Lemma matching_nil : forall l l', matching l l' -> (l = [] <-> l' = []).
Proof.
  intros l l' M. split; intros ->.
  - destruct l' as [|i' l']; auto. exfalso. apply (orig_in [] (i' :: l') i' M). left; auto.
  - destruct l as [|i l]; auto. destruct (copy_in _ _ i M) as (i' & [] & _). left; auto.
Qed.
Lemma matching_one : forall (f : nat -> bool) (f' : nat -> bool) l l', matching l l' ->
  (forall i', In i' l' -> f' i' = f (orig i')) -> (1 <=? length (filter f l)) = (1 <=? length (filter f' l')).
Proof.
  intros f f' l l' M Hf. pose proof (matching_filter orig times _ _ _ _ _ _ f f' l l' M Hf) as MF.
  apply matching_nil in MF. destruct (filter f l), (filter f' l'); auto; destruct MF as [M1 M2];
    [specialize (M1 eq_refl)|specialize (M2 eq_refl)]; discriminate.
Qed.

Lemma total_same : forall l l', matching l l' -> asum (map (wt tc) l) = asum (map (wt tc') l').
Proof. intros l l' M. exact (total_matching orig times _ _ _ _ _ _ HI HU l l' M). Qed.

(** ** Statistics *)
Lemma seen_same : forall valid valid', matching valid valid' -> matching (seen tc valid) (seen tc' valid').
Proof.
  intros valid valid' MV. unfold seen. rewrite Hagg. destruct (tc_aggregation tc); auto. split; [intros i' []|]. split; [apply Permutation_refl|].
  split; intros i [].
Qed.
Lemma weight_same : forall l l' j b, matching l l' -> j < nf ->
  asum (map (wt tc) (inbin tc j b l)) = asum (map (wt tc') (inbin tc' j b l')).
Proof.
  intros l l' j b M Hj. apply total_same. apply matching_filter; auto. intros i' Hi'.
  rewrite (copy_bin _ _ j i' M Hj Hi'). auto.
Qed.
Lemma ne_in_same : forall l l' j b, matching l l' -> j < nf ->
  (In b (distinct (map (bin tc j) l)) <-> In b (distinct (map (bin tc' j) l'))).
Proof.
  intros l l' j b M Hj. rewrite !distinct_in, !in_map_iff. split.
  - intros (i & <- & Hi). destruct (copy_in _ _ i M Hi) as (i' & Hi' & <-). exists i'. split; auto. apply (copy_bin _ _ j i' M Hj Hi').
  - intros (i' & <- & Hi'). exists (orig i'). split; [symmetry; apply (copy_bin _ _ j i' M Hj Hi')|]. eapply orig_in; eauto.
Qed.
Lemma row_same : forall train train' valid valid' j, matching train train' -> matching valid valid' -> j < nf ->
  same_row (row_spec ts tc j train valid) (row_spec ts tc' j train' valid').
Proof.
  intros train train' valid valid' j MT MV Hj.
  constructor; cbn [row_spec r_w_train r_w_valid r_hist r_ne_train r_ne_valid]; rewrite ?Hmb.
  - apply map_ext. intros b. apply weight_same; auto.
  - apply map_ext. intros b. apply weight_same; auto.
  - apply Lhist; auto.
  - intros b. apply ne_in_same; auto.
  - intros b. apply ne_in_same; auto.
Qed.
Lemma stats_same : forall features train train' valid valid', features <> [] -> (forall j, In j features -> j < nf) ->
  in_range tc train -> in_range tc valid -> in_range tc' train' -> in_range tc' valid' ->
  matching train train' -> matching valid valid' ->
  match node_stats tk tc features train valid, node_stats tk tc' features train' valid' with
  | Ok nc, Ok nc' => same_stats nc nc'
  | Err e, Err e' => e = e'
  | _, _ => False
  end.
Proof.
  intros features train train' valid valid' Hne Hf Ht Hv Ht' Hv' MT MV.
  rewrite (node_stats_spec ts tc HD) by auto. rewrite (node_stats_spec ts tc' HD') by (auto; intros; rewrite Hnf; auto).
  rewrite (Lpred _ _ MT), (total_same _ _ MT).
  destruct (tk_pred_end tk _ _) as [p|e]; cbn [bind]; auto.
  pose proof (seen_same valid valid' MV) as MS.
  constructor; cbn [nctx_spec nc_features nc_w_train nc_w_valid nc_pred nc_loss nc_rows]; auto.
  - apply total_same; auto.
  - apply total_same; auto.
  - clear Hne. induction features as [|j l IH]; simpl; constructor.
    + apply row_same; auto. apply Hf. left; auto.
    + apply IH. intros; apply Hf; right; auto.
Qed.


(** ** Splits *)
Context (Hmss : tc_min_samples_split tc = 2) (Hmss' : tc_min_samples_split tc' = 2).
Context (Hmsl : tc_min_samples_leaf tc = 1) (Hmsl' : tc_min_samples_leaf tc' = 1).
Context (Hdepth : tc_max_depth tc' = tc_max_depth tc).
Context (Hstep : tc_step tc' = tc_step tc).
Context (Hcat : forall j, cat tc j = false) (Hcat' : forall j, cat tc' j = false).
Lemma ne_same : forall j train train', j < nf -> matching train train' ->
  sort_bins (ne tc train j) = sort_bins (ne tc' train' j) /\ length (ne tc train j) = length (ne tc' train' j).
Proof.
  intros j train train' Hj M.
  assert (HP : Permutation (ne tc train j) (ne tc' train' j)).
  { apply NoDup_Permutation; try apply distinct_nodup. intro b. unfold ne. rewrite !distinct_in, !in_map_iff. split.
    - intros (i & Hb & Hi). destruct (copy_in _ _ i M Hi) as (i' & H1 & H2). exists i'. split; auto.
      rewrite (copy_bin _ _ j i' M Hj H1). congruence.
    - intros (i' & Hb & Hi). exists (orig i'). split; [|eapply orig_in; eauto]. rewrite <- (copy_bin _ _ j i' M Hj Hi). auto. }
  split; [|apply Permutation_length; auto]. apply sorted_perm_eq; try apply sort_bins_sorted.
  etransitivity; [apply sort_bins_perm|]. etransitivity; [exact HP|]. symmetry. apply sort_bins_perm.
Qed.

(** The orders that are tried, for features which are not categorical. *)
Definition plan (tc0 : tctx R_arith (tk_Y tk)) (train features : list nat) : list (nat * list nat) :=
  flat_map (fun j => if 1 <? length (ne tc0 train j) then [(j, sort_bins (ne tc0 train j))] else []) features.
Lemma tried_plan : forall tc0 train s features, (forall j, cat tc0 j = false) ->
  tried ts tc0 train s features = Ok (plan tc0 train features, s).
Proof.
  intros tc0 train s features Hc. unfold tried.
  assert (G : forall l acc, foldM (fun '(acc, s) j => let* ' (os, s') := orders_of ts tc0 train s j in Ok (acc ++ map (pair j) os, s')) l (acc, s) =
    Ok (acc ++ plan tc0 train l, s)).
  { induction l as [|j l IH]; intros acc; [simpl; rewrite app_nil_r; auto|]. cbn [foldM]. unfold orders_of at 1. rewrite (Hc j).
    destruct (1 <? length (ne tc0 train j)) eqn:E1; cbn [bind map]; rewrite IH; unfold plan; cbn [flat_map]; rewrite E1.
    - rewrite <- app_assoc. reflexivity.
    - rewrite app_nil_r. reflexivity. }
  apply G.
Qed.
Lemma plan_same : forall train train' features, (forall j, In j features -> j < nf) -> matching train train' ->
  plan tc train features = plan tc' train' features.
Proof.
  intros train train' features Hf M. unfold plan. induction features as [|j l IH]; auto. cbn [flat_map].
  destruct (ne_same j train train' (Hf j (or_introl eq_refl)) M) as [H1 H2]. rewrite H1, H2. f_equal. apply IH. intros; apply Hf; right; auto.
Qed.

(** Candidates of the plan have training samples on both sides. *)
Lemma plan_sides : forall tc0 (HD0 : data_ok ts tc0) train features j o q, in_range tc0 train ->
  (forall j, In j features -> j < fb_n_features (tc_fb tc0)) ->
  In (j, o, q) (candidates (plan tc0 train features)) ->
  In j features /\ 1 <= n_left (nb tc0 train j) q /\ 1 <= n_right (length train) (nb tc0 train j) q /\
  forall b, In b q -> b < tc_max_n_bins tc0.
Proof.
  intros tc0 HD0 train features j o q Ht Hf Hc. apply in_candidates in Hc.
  destruct Hc as (Hin & p & b & post & EO & Eq & Hpost).
  unfold plan in Hin. apply in_flat_map in Hin. destruct Hin as (j0 & Hj0 & Hin).
  destruct (1 <? length (ne tc0 train j0)); [|destruct Hin]. destruct Hin as [Hin|[]]. injection Hin as Ej Eo. subst j0.
  assert (HO : order_ok tc0 train j false o).
  { rewrite <- Eo. split; [apply sort_bins_perm|]. intros _. apply sort_bins_sorted. }
  split; auto.
  pose proof (n_left_total tc0 train j false o HO) as HT.
  assert (Hpos : forall b, In b o -> 1 <= nb tc0 train j b).
  { intros b0 Hb0. destruct HO as [HP _]. apply (Permutation_in _ HP) in Hb0. unfold ne in Hb0. apply (proj1 (distinct_in _ _)) in Hb0.
    apply in_map_iff in Hb0. destruct Hb0 as (i & Hi1 & Hi2). unfold nb, inbin.
    assert (HF : In i (filter (fun i => bin tc0 j i =? b0) train)) by (apply filter_In; split; auto; apply Nat.eqb_eq; auto).
    destruct (filter (fun i => bin tc0 j i =? b0) train); [destruct HF|simpl; lia]. }
  assert (Hone : forall l, l <> [] -> (forall b, In b l -> In b o) -> 1 <= n_left (nb tc0 train j) l).
  { intros [|b0 l] Hl Hs; [congruence|]. unfold n_left. cbn [map list_sum fold_right]. specialize (Hpos b0 (Hs b0 (or_introl eq_refl))). lia. }
  assert (EO' : o = q ++ post) by (rewrite EO, Eq, <- app_assoc; reflexivity).
  rewrite EO', n_left_app in HT.
  assert (1 <= n_left (nb tc0 train j) q) by (apply Hone; [subst q; destruct p; discriminate|intros; rewrite EO'; apply in_app_iff; auto]).
  assert (1 <= n_left (nb tc0 train j) post) by (apply Hone; auto; intros; rewrite EO'; apply in_app_iff; auto).
  split; [auto|]. split; [unfold n_right; lia|]. intros b0 Hb0.
  apply (order_lt ts tc0 HD0 train Ht j (Hf j Hj0) false o HO). rewrite EO'. apply in_app_iff. auto.
Qed.

(** Splits, without the counts of rows. *)
Definition uncounted (sp : split tk) : split tk :=
  mkSplit tk (sp_found sp) (sp_gain sp) (sp_feature sp) (sp_threshold sp) (sp_imp_left sp) (sp_imp_right sp) 0 0
    (sp_w_train_left sp) (sp_w_train_right sp) 0 0 (sp_stat_left sp) (sp_stat_right sp) (sp_is_cat sp) (sp_bins sp) (sp_partition sp).

Section Node.
Context (train train' valid valid' : list nat) (features : list nat).
Context (Ht : in_range tc train) (Ht' : in_range tc' train') (Hv : in_range tc valid) (Hv' : in_range tc' valid').
Context (MT : matching train train') (MV : matching valid valid') (Hf : forall j, In j features -> j < nf).

Lemma hist_same : forall j, j < nf -> hist ts tc train j = hist ts tc' train' j.
Proof. intros j Hj. unfold hist. rewrite Hmb. apply Lhist; auto. Qed.
Lemma wb_same : forall j b, j < nf -> wb tc train j b = wb tc' train' j b.
Proof.
  intros j b Hj. apply total_same. apply matching_filter; auto. intros i' Hi'.
  rewrite (copy_bin _ _ j i' MT Hj Hi'). auto.
Qed.

Lemma considered_same : forall c, In c (candidates (plan tc train features)) ->
  adm_of tc train valid c = adm_of tc' train' valid' c /\
  imp_of ts tc train c = imp_of ts tc' train' c /\
  (forall i, gain_of tc train c i = gain_of tc' train' c i) /\
  forall i part, uncounted (cand3 ts tc train valid c i part) = uncounted (cand3 ts tc' train' valid' c i part).
Proof.
  intros [[j o] q] Hc.
  destruct (plan_sides tc HD train features j o q Ht Hf Hc) as (Hj & N1 & N2 & _). pose proof (Hf j Hj) as Hjl.
  assert (Hc' : In (j, o, q) (candidates (plan tc' train' features))) by (rewrite <- plan_same with (train := train); auto).
  destruct (plan_sides tc' HD' train' features j o q Ht' ltac:(rewrite Hnf; auto) Hc') as (_ & N1' & N2' & _).
  assert (Ewl : wl_of tc train (j, o, q) = wl_of tc' train' (j, o, q)).
  { unfold wl_of, w_left. f_equal. apply map_ext. intro b. apply wb_same; auto. }
  assert (Ewr : wr_of tc train (j, o, q) = wr_of tc' train' (j, o, q)).
  { unfold wr_of, w_right. replace (P_Split.wtot tc' train') with (P_Split.wtot tc train) by (apply total_same; auto). f_equal. apply map_ext. intro b. apply wb_same; auto. }
  assert (Esl : sl ts tc train j q = sl ts tc' train' j q) by (unfold sl, stat_run; rewrite hist_same by auto; auto).
  assert (Esr : sr ts tc train j q = sr ts tc' train' j q) by (unfold sr, stat_run; rewrite hist_same by auto; auto).
  split; [|split; [|split]].
  - unfold adm_of, admissible_j, admissible. rewrite Hmsl, Hmsl', Hagg, Hcat, Hcat'.
    apply Nat.leb_le in N1, N2, N1', N2'. rewrite N1, N2, N1', N2'. destruct (tc_aggregation tc) eqn:Ea; [|reflexivity].
    cbn [negb orb andb]. unfold v_right, vl, seen. rewrite Hagg, Ea.
    set (f := fun i => left_test false q (bin tc j i)). set (f' := fun i => left_test false q (bin tc' j i)).
    assert (Hff : forall i', In i' valid' -> f' i' = f (orig i')).
    { intros i' Hi'. unfold f, f'. rewrite (copy_bin _ _ j i' MV Hjl Hi'). auto. }
    f_equal; [apply matching_one; auto|].
    pose proof (filter_length_total f valid) as T1. pose proof (filter_length_total f' valid') as T2.
    replace (length valid - length (filter f valid)) with (length (filter (fun i => negb (f i)) valid)) by lia.
    replace (length valid' - length (filter f' valid')) with (length (filter (fun i => negb (f' i)) valid')) by lia.
    apply matching_one; auto. intros i' Hi'. rewrite Hff; auto.
  - unfold imp_of. rewrite Ewl, Ewr, Esl, Esr. reflexivity.
  - intros i. unfold gain_of. rewrite Ewl, Ewr. reflexivity.
  - intros i part. cbn [wl_of wr_of] in Ewl, Ewr. unfold cand3, cand, uncounted.
    cbn [sp_found sp_gain sp_feature sp_threshold sp_imp_left sp_imp_right sp_w_train_left sp_w_train_right sp_stat_left sp_stat_right sp_is_cat sp_bins sp_partition].
    rewrite Ewl, Ewr, Esl, Esr, Hcat, Hcat'. reflexivity.
Qed.

Lemma search_same : forall cs best best', (forall c, In c cs -> In c (candidates (plan tc train features))) ->
  uncounted best = uncounted best' ->
  match foldM (consider3 ts tc train valid) cs best, foldM (consider3 ts tc' train' valid') cs best' with
  | Ok b, Ok b' => uncounted b = uncounted b'
  | Err e, Err e' => e = e'
  | _, _ => False
  end.
Proof.
  induction cs as [|c cs IH]; intros best best' Hcs Hb; [exact Hb|]. cbn [foldM].
  rewrite !consider3_eq. destruct (considered_same c (Hcs c (or_introl eq_refl))) as (A1 & A2 & A3 & A4).
  rewrite <- A1. destruct (adm_of tc train valid c); [|apply IH; auto; intros; apply Hcs; right; auto].
  rewrite <- A2. destruct (imp_of ts tc train c) as [i|e]; [|reflexivity]. cbn [bind]. rewrite <- A3.
  assert (Eg : sp_gain best = sp_gain best') by (apply (f_equal (@sp_gain _ _ tk) Hb)).
  assert (Ep : sp_partition best = sp_partition best') by (apply (f_equal (@sp_partition _ _ tk) Hb)).
  rewrite <- Eg. destruct (gain_gt (gain_of tc train c i) (sp_gain best)).
  - apply IH; [intros; apply Hcs; right; auto|]. rewrite <- Ep. apply A4.
  - apply IH; [intros; apply Hcs; right; auto|auto].
Qed.

Lemma search_not_cat : forall tc0 train0 valid0 cs best b, (forall j, cat tc0 j = false) -> sp_is_cat best = false ->
  foldM (consider3 ts tc0 train0 valid0) cs best = Ok b -> sp_is_cat b = false.
Proof.
  intros tc0 train0 valid0 cs. induction cs as [|c cs IH]; intros best b Hc Hb H; [inversion H; subst; auto|]. cbn [foldM] in H.
  rewrite consider3_eq in H. destruct (adm_of tc0 train0 valid0 c); [|eapply IH; eauto].
  destruct (imp_of ts tc0 train0 c) as [i|e]; [|discriminate]. cbn [bind] in H. eapply IH; [exact Hc| |exact H].
  destruct (gain_gt _ _); auto. destruct c as [[j o] q]. simpl. auto.
Qed.

Context (p : tk_P tk).
Notation nc := (nctx_spec ts tc features train valid p).
Notation nc' := (nctx_spec ts tc' features train' valid' p).

Lemma find_same : forall s, (tc_aggregation tc = true -> valid <> []) ->
  match find_node_split tk tc nc s, find_node_split tk tc' nc' s with
  | Ok (sp, s1), Ok (sp', s1') => uncounted sp = uncounted sp' /\ s1 = s1'
  | Err e, Err e' => e = e'
  | _, _ => False
  end.
Proof.
  intros s Ha.
  rewrite (find_node_split_spec ts tc HD train valid Ht Hv s features p _ s Hf Ha (tried_plan tc train s features Hcat)).
  rewrite (find_node_split_spec ts tc' HD' train' valid' Ht' Hv' s features p (plan tc' train' features) s);
    [|rewrite Hnf; auto|rewrite Hagg; intros Eg Ev; apply (Ha Eg); apply (matching_nil _ _ MV); auto|apply tried_plan; auto].
  rewrite <- (plan_same train train' features Hf MT).
  pose proof (search_same (candidates (plan tc train features)) (reset_split tk) (reset_split tk) (fun c Hc => Hc) eq_refl) as HS.
  destruct (foldM (consider3 ts tc train valid) _ _) as [b|e] eqn:E1; destruct (foldM (consider3 ts tc' train' valid') _ _) as [b'|e'] eqn:E2;
    try contradiction; cbn [bind]; [|auto].
  unfold finish. rewrite (search_not_cat tc train valid _ (reset_split tk) _ Hcat eq_refl E1), (search_not_cat tc' train' valid' _ (reset_split tk) _ Hcat' eq_refl E2).
  rewrite !Bool.andb_false_r. cbn [bind]. auto.
Qed.

(** One row, with any weight: nothing to split. *)
Lemma find_one_row : forall s, (tc_aggregation tc = true -> valid <> []) -> length train < 2 \/ (tc_aggregation tc = true /\ length valid < 2) ->
  find_node_split tk tc' nc' s = Ok (reset_split tk, s).
Proof.
  intros s Ha Hs.
  rewrite (find_node_split_spec ts tc' HD' train' valid' Ht' Hv' s features p (plan tc' train' features) s);
    [|rewrite Hnf; auto|rewrite Hagg; intros Eg Ev; apply (Ha Eg); apply (matching_nil _ _ MV); auto|apply tried_plan; auto].
  assert (G : foldM (consider3 ts tc' train' valid') (candidates (plan tc' train' features)) (reset_split tk) = Ok (reset_split tk)); [|rewrite G; reflexivity].
  assert (Hrow : forall l l' j, matching l l' -> length l < 2 -> j < nf -> forall i1 i2, In i1 l' -> In i2 l' -> bin tc' j i1 = bin tc' j i2).
  { intros l l' j M Hl Hj i1 i2 H1 H2. rewrite (copy_bin _ _ j i1 M Hj H1), (copy_bin _ _ j i2 M Hj H2).
    apply (orig_in _ _ _ M) in H1. apply (orig_in _ _ _ M) in H2. destruct l as [|i [|k l]]; [destruct H1| |simpl in Hl; lia].
    destruct H1 as [<-|[]], H2 as [<-|[]]. auto. }
  destruct Hs as [Hs|[Eg Hs]].
  - assert (Hp : plan tc' train' features = []).
    { unfold plan. clear -Hrow MT Hs Hf. induction features as [|j l IH]; auto. cbn [flat_map]. rewrite IH by (intros; apply Hf; right; auto).
      assert (HL : length (ne tc' train' j) < 2).
      { unfold ne. pose proof (distinct_nodup (map (bin tc' j) train')) as HN.
        destruct (distinct (map (bin tc' j) train')) as [|b1 [|b2 l0]] eqn:Ed; simpl; try lia. exfalso.
        assert (I1 : In b1 (distinct (map (bin tc' j) train'))) by (rewrite Ed; left; auto).
        assert (I2 : In b2 (distinct (map (bin tc' j) train'))) by (rewrite Ed; right; left; auto).
        apply (proj1 (distinct_in _ _)), in_map_iff in I1, I2. destruct I1 as (i1 & <- & I1), I2 as (i2 & <- & I2).
        inversion HN as [|? ? Hn _]; subst. apply Hn. left. apply (Hrow train train' j MT Hs (Hf j (or_introl eq_refl))); auto. }
      clear - HL. destruct (1 <? length (ne tc' train' j)) eqn:E1; auto. apply Nat.ltb_lt in E1. lia. }
    rewrite Hp. reflexivity.
  - assert (Hadm : forall c, In c (candidates (plan tc' train' features)) -> adm_of tc' train' valid' c = false).
    { intros [[j o] q] Hc.
      destruct (plan_sides tc' HD' train' features j o q Ht' ltac:(rewrite Hnf; auto) Hc) as (Hj & _).
      unfold adm_of, admissible_j, admissible. rewrite Hmsl', Hagg, Hcat', Eg. cbn [negb orb]. rewrite Bool.andb_false_iff. right.
      unfold v_right, vl, seen. rewrite Hagg, Eg. set (f' := fun i => left_test false q (bin tc' j i)).
      pose proof (filter_length_total f' valid') as T2.
      assert (Hall : forall i1 i2, In i1 valid' -> In i2 valid' -> f' i1 = f' i2).
      { intros i1 i2 H1 H2. unfold f'. rewrite (Hrow valid valid' j MV Hs (Hf j Hj) i1 i2); auto. }
      destruct (filter f' valid') as [|i1 t1] eqn:EF1; [reflexivity|].
      destruct (filter (fun x => negb (f' x)) valid') as [|i2 t2] eqn:EF2.
      - apply Bool.andb_false_iff. right. apply Nat.leb_gt. simpl in *. lia.
      - exfalso. assert (I1 : In i1 (filter f' valid')) by (rewrite EF1; left; auto).
        assert (I2 : In i2 (filter (fun x => negb (f' x)) valid')) by (rewrite EF2; left; auto).
        apply filter_In in I1, I2. destruct I1 as [I1 B1], I2 as [I2 B2]. rewrite (Hall i2 i1) in B2; auto. rewrite B1 in B2. discriminate. }
    revert Hadm. generalize (candidates (plan tc' train' features)). intros cs. induction cs as [|c cs IH]; intros Hadm; auto.
    cbn [foldM]. rewrite consider3_eq, Hadm by (left; auto). cbn [bind]. apply IH. intros; apply Hadm; right; auto.
Qed.

Lemma choose_same : forall s depth imp leaf sp s1 leaf' sp' s1',
  choose_split tk tc nc s depth imp = Ok (leaf, sp, s1) -> choose_split tk tc' nc' s depth imp = Ok (leaf', sp', s1') ->
  leaf = leaf' /\ uncounted sp = uncounted sp' /\ s1 = s1'.
Proof.
  intros s depth imp leaf sp s1 leaf' sp' s1' H H'. unfold choose_split, stop_test in H, H'.
  cbn [nctx_spec nc_n_train nc_n_valid] in H, H'. rewrite Hmss', Hdepth, Hagg in H'. rewrite Hmss in H.
  set (rest := ((match imp with None => false | Some x => aleb x a0 end) || (tc_max_depth tc <=? N.of_nat depth)%N)%bool) in *.
  set (small := if tc_aggregation tc then ((length train <? 2) || (length valid <? 2))%bool else length train <? 2) in *.
  set (small' := if tc_aggregation tc then ((length train' <? 2) || (length valid' <? 2))%bool else length train' <? 2) in *.
  rewrite <- Bool.orb_assoc in H, H'. fold rest in H, H'.
  pose proof (matching_length _ _ MT) as LT. pose proof (matching_length _ _ MV) as LV.
  destruct rest; [rewrite Bool.orb_true_r in *; inversion H; inversion H'; subst; auto|]. rewrite Bool.orb_false_r in *.
  destruct small' eqn:Es'.
  - assert (Es : small = true).
    { unfold small, small' in *. destruct (tc_aggregation tc).
      - apply Bool.orb_true_iff in Es'. apply Bool.orb_true_iff. destruct Es' as [Es'|Es']; apply Nat.ltb_lt in Es'; [left|right]; apply Nat.ltb_lt; lia.
      - apply Nat.ltb_lt in Es'. apply Nat.ltb_lt. lia. }
    rewrite Es in H. inversion H; inversion H'; subst; auto.
  - assert (Hne : tc_aggregation tc = true -> valid <> []).
    { intros Eg Ev. unfold small' in Es'. rewrite Eg in Es'. apply Bool.orb_false_iff in Es'. destruct Es' as [_ Es'].
      apply (proj1 (matching_nil _ _ MV)) in Ev. rewrite Ev in Es'. discriminate. }
    destruct small eqn:Es.
    + rewrite find_one_row in H'; auto.
      * cbn [bind] in H'. inversion H; inversion H'; subst; auto.
      * unfold small in Es. destruct (tc_aggregation tc).
        -- apply Bool.orb_true_iff in Es. destruct Es as [Es|Es]; apply Nat.ltb_lt in Es; auto.
        -- apply Nat.ltb_lt in Es; auto.
    + pose proof (find_same s Hne) as HF. destruct (find_node_split tk tc nc s) as [[sp0 s0]|e]; [|discriminate].
      destruct (find_node_split tk tc' nc' s) as [[sp0' s0']|e]; [|discriminate].
      cbn [bind] in H, H'. destruct HF as [HF ->]. inversion H; inversion H'; subst.
      split; auto. f_equal. apply (f_equal (@sp_found _ _ tk) HF).
Qed.
End Node.

(** ** The whole tree *)

Record same_data (d d' : bdata tk) : Prop := {
  sd_depth : bd_depth d = bd_depth d';
  sd_imp : bd_imp d = bd_imp d';
  sd_w_train : nc_w_train (bd_nc d) = nc_w_train (bd_nc d');
  sd_w_valid : nc_w_valid (bd_nc d) = nc_w_valid (bd_nc d');
  sd_loss : nc_loss (bd_nc d) = nc_loss (bd_nc d');
  sd_pred : nc_pred (bd_nc d) = nc_pred (bd_nc d');
  sd_split : uncounted (bd_sp d) = uncounted (bd_sp d')
}.
Inductive same_btree : btree tk -> btree tk -> Prop :=
| SLeaf : forall d d', same_data d d' -> same_btree (BLeaf d) (BLeaf d')
| SNode : forall d d' l l' r r', same_data d d' -> same_btree l l' -> same_btree r r' ->
    same_btree (BNode d l r) (BNode d' l' r').

Lemma to_left_uncounted : forall sp sp' b, uncounted sp = uncounted sp' -> to_left sp b = to_left sp' b.
Proof.
  intros sp sp' b H. unfold to_left.
  rewrite (f_equal (@sp_is_cat _ _ tk) H : sp_is_cat sp = sp_is_cat sp'),
          (f_equal (@sp_partition _ _ tk) H : sp_partition sp = sp_partition sp'),
          (f_equal (@sp_threshold _ _ tk) H : sp_threshold sp = sp_threshold sp'). reflexivity.
Qed.

Lemma in_range_filter : forall (tc0 : tctx R_arith (tk_Y tk)) f l, in_range tc0 l -> in_range tc0 (filter f l).
Proof. intros tc0 f l H i Hi. apply filter_In in Hi. apply H. tauto. Qed.

Lemma data_same : forall depth imp train train' valid valid' features p sp sp',
  matching train train' -> matching valid valid' -> uncounted sp = uncounted sp' ->
  same_data (mkBD depth imp train valid (nctx_spec ts tc features train valid p) sp)
            (mkBD depth imp train' valid' (nctx_spec ts tc' features train' valid' p) sp').
Proof.
  intros. constructor; cbn [bd_depth bd_imp bd_nc bd_sp nctx_spec nc_w_train nc_w_valid nc_loss nc_pred]; auto.
  - apply total_same; auto.
  - apply total_same. apply seen_same; auto.
  - apply Lloss. apply seen_same; auto.
Qed.

Theorem grows_same : forall depth imp train valid s fs b s1 fs1,
  grows ts tc depth imp train valid s fs b s1 fs1 -> forall train' valid' b' s1' fs1',
  in_range tc train -> in_range tc valid -> in_range tc' train' -> in_range tc' valid' ->
  matching train train' -> matching valid valid' ->
  grows ts tc' depth imp train' valid' s fs b' s1' fs1' ->
  same_btree b b' /\ s1 = s1' /\ fs1 = fs1'.
Proof.
  intros depth imp train valid s fs b s1 fs1 HG.
  induction HG as [depth imp train valid s fs s1 fs1 p s2 Hsf Hnd Hfe Hp nc Hch
                  |depth imp train valid s fs s1 fs1 p sp s2 r s3 fs3 l s4 fs4 c i Hsf Hnd Hfe Hp nc Hst Hfi Hcho HGr IHr HGl IHl];
    intros train' valid' b' s1' fs1' Ht Hv Ht' Hv' MT MV HG'; inversion HG' as
      [depth' imp' train'' valid'' s' fs' s1'' fs1'' p' s2' Hsf' Hnd' Hfe' Hp' nc' Hch'
      |depth' imp' train'' valid'' s' fs' s1'' fs1'' p' sp' s2' r' s3' fs3' l' s4' fs4' c' i' Hsf' Hnd' Hfe' Hp' nc' Hst' Hfi' Hcho' HGr' HGl'];
    subst depth' imp' train'' valid'' s' fs' b';
    rewrite Hsf in Hsf'; injection Hsf' as Ea Eb; 
    match type of Ea with _ = ?x => subst x end; match type of Eb with _ = ?x => subst x end;
    rewrite <- (Lpred _ _ MT), <- (total_same _ _ MT), Hp in Hp'; injection Hp' as Ec; subst p'.
  - destruct (choose_same train train' valid valid' (fs_sampled fs1) Ht Ht' Hv Hv' MT MV Hfe p _ _ _ _ _ _ _ _ _ Hch Hch') as (_ & _ & E3).
    subst. split; auto. constructor. apply data_same; auto.
  - exfalso. assert (Hc2 : choose_split tk tc' nc' s1 depth imp = Ok (false, sp', s2')).
    { unfold choose_split. rewrite Hst', Hfi'. cbn [bind]. rewrite (ch_found Hcho'). reflexivity. }
    destruct (choose_same train train' valid valid' (fs_sampled fs1) Ht Ht' Hv Hv' MT MV Hfe p _ _ _ _ _ _ _ _ _ Hch Hc2) as (E1 & _). discriminate.
  - exfalso. assert (Hc2 : choose_split tk tc nc s1 depth imp = Ok (false, sp, s2)).
    { unfold choose_split. rewrite Hst, Hfi. cbn [bind]. rewrite (ch_found Hcho). reflexivity. }
    destruct (choose_same train train' valid valid' (fs_sampled fs1) Ht Ht' Hv Hv' MT MV Hfe p _ _ _ _ _ _ _ _ _ Hc2 Hch') as (E1 & _). discriminate.
  - assert (Hc1 : choose_split tk tc nc s1 depth imp = Ok (false, sp, s2)).
    { unfold choose_split. rewrite Hst, Hfi. cbn [bind]. rewrite (ch_found Hcho). reflexivity. }
    assert (Hc2 : choose_split tk tc' nc' s1 depth imp = Ok (false, sp', s2')).
    { unfold choose_split. rewrite Hst', Hfi'. cbn [bind]. rewrite (ch_found Hcho'). reflexivity. }
    destruct (choose_same train train' valid valid' (fs_sampled fs1) Ht Ht' Hv Hv' MT MV Hfe p _ _ _ _ _ _ _ _ _ Hc1 Hc2) as (_ & Esp & E3).
    subst s2'.
    assert (Efe : sp_feature sp = sp_feature sp') by (apply (f_equal (@sp_feature _ _ tk) Esp)).
    assert (Eil : sp_imp_left sp = sp_imp_left sp') by (apply (f_equal (@sp_imp_left _ _ tk) Esp)).
    assert (Eir : sp_imp_right sp = sp_imp_right sp') by (apply (f_equal (@sp_imp_right _ _ tk) Esp)).
    pose proof (Hfe _ (ch_in Hcho)) as Hjl.
    assert (Hgo : forall l l', matching l l' -> forall i', In i' l' -> goes tc' sp' i' = goes tc sp (orig i')).
    { intros l0 l0' M i0 Hi0. unfold goes. rewrite <- Efe, (copy_bin _ _ _ i0 M Hjl Hi0). symmetry. apply to_left_uncounted. auto. }
    assert (Hgoes : forall l l', matching l l' -> matching (filter (goes tc sp) l) (filter (goes tc' sp') l')).
    { intros l0 l0' M. apply matching_filter; auto. intros. eapply Hgo; eauto. }
    assert (Hstays : forall l l', matching l l' -> matching (filter (stays tc sp) l) (filter (stays tc' sp') l')).
    { intros l0 l0' M. apply matching_filter; auto. intros. unfold stays. f_equal. eapply Hgo; eauto. }
    rewrite <- Eir in HGr'. rewrite <- Eil in HGl'.
    destruct (IHr _ _ _ _ _ (in_range_filter _ _ _ Ht) (in_range_filter _ _ _ Hv) (in_range_filter _ _ _ Ht') (in_range_filter _ _ _ Hv')
      (Hstays _ _ MT) (Hstays _ _ MV) HGr') as (S1 & -> & ->).
    destruct (IHl _ _ _ _ _ (in_range_filter _ _ _ Ht) (in_range_filter _ _ _ Hv) (in_range_filter _ _ _ Ht') (in_range_filter _ _ _ Hv')
      (Hgoes _ _ MT) (Hgoes _ _ MV) HGl') as (S2 & -> & ->).
    split; auto. constructor; auto. apply data_same; auto.
Qed.

(** ** The arrays *)

Notation W := (Wof tc).
Notation W' := (Wof tc').

Lemma lw_same : forall step b b', same_btree b b' -> lw step b = lw step b'.
Proof.
  intros step b b' H. induction H as [d d' Hd|d d' l l' r r' Hd Hl IHl Hr IHr]; cbn [lw]; rewrite (sd_loss _ _ Hd); congruence.
Qed.
Lemma W_same : forall b b', same_btree b b' -> W b = W' b'.
Proof. intros b b' H. unfold Wof. rewrite Hagg, Hstep. destruct (tc_aggregation tc); auto. f_equal. apply lw_same; auto. Qed.
Lemma bsize_same : forall b b', same_btree b b' -> bsize b = bsize b'.
Proof. intros b b' H. induction H; cbn [bsize]; congruence. Qed.
Lemma preds_same : forall b b', same_btree b b' -> preds b = preds b'.
Proof.
  intros b b' H. induction H as [d d' Hd|d d' l l' r r' Hd Hl IHl Hr IHr]; cbn [preds]; rewrite (sd_pred _ _ Hd); congruence.
Qed.

(** Corresponding places. *)
Definition same_place (q q' : place) : Prop := pl_id q = pl_id q' /\ pl_par q = pl_par q'.

Lemma hnode_same : forall b b' q q', same_btree b b' -> same_place q q' -> same_node (hnode W b q) (hnode W' b' q').
Proof.
  intros b b' q q' H [E1 E2]. pose proof (W_same _ _ H) as EW.
  destruct H as [d d' Hd|d d' l l' r r' Hd Hl Hr]; pose proof (sd_split _ _ Hd) as Hs;
    constructor; cbn [hnode mknode nd_id nd_parent nd_left nd_right nd_is_leaf nd_is_left nd_depth nd_feature nd_threshold nd_impurity nd_loss nd_logw nd_w_train nd_w_valid nd_is_cat];
    auto; try apply Hd; try (rewrite ?E1, ?(bsize_same _ _ Hr); reflexivity);
    try (f_equal; first [exact (f_equal (@sp_feature _ _ tk) Hs)|exact (f_equal (@sp_threshold _ _ tk) Hs)]);
    exact (f_equal (@sp_is_cat _ _ tk) Hs).
Qed.

Lemma inside_same : forall b0 b0' q0 q0' b q, inside b0 q0 b q -> same_btree b0 b0' -> same_place q0 q0' ->
  exists b' q', inside b0' q0' b' q' /\ same_btree b b' /\ same_place q q'.
Proof.
  intros b0 b0' q0 q0' b q HJ HS HP.
  induction HJ as [|d l r q HJ IH|d l r q HJ IH].
  - exists b0', q0'. split; [constructor|auto].
  - destruct IH as (b' & q' & HJ' & HS' & [E1 E2]). inversion HS' as [|d1 d' l1 l' r1 r' Hd Hl Hr]; subst.
    exists r', (rplace q' d' l' r'). split; [constructor; auto|]. split; auto. split; cbn [rplace pl_id pl_par]; congruence.
  - destruct IH as (b' & q' & HJ' & HS' & [E1 E2]). inversion HS' as [|d1 d' l1 l' r1 r' Hd Hl Hr]; subst.
    exists l', (lplace q' d' l' r'). split; [constructor; auto|]. split; auto.
    split; cbn [lplace pl_id pl_par]; rewrite ?(bsize_same _ _ Hr); congruence.
Qed.

(** Routes. *)
Lemma bleaf_same : forall row b b', same_btree b b' -> forall q q', same_place q q' ->
  same_btree (fst (bleaf row b q)) (fst (bleaf row b' q')) /\ same_place (snd (bleaf row b q)) (snd (bleaf row b' q')).
Proof.
  intros row b b' H. induction H as [d d' Hd|d d' l l' r r' Hd Hl IHl Hr IHr]; intros q q' [E1 E2].
  - cbn [bleaf fst snd]. split; [constructor; auto|split; auto].
  - cbn [bleaf]. pose proof (sd_split _ _ Hd) as Hs.
    rewrite (to_left_uncounted _ _ _ Hs), (f_equal (@sp_feature _ _ tk) Hs : sp_feature (bd_sp d) = sp_feature (bd_sp d')).
    destruct (to_left (bd_sp d') _); [apply IHl|apply IHr]; split; cbn [lplace rplace pl_id pl_par]; rewrite ?(bsize_same _ _ Hr); congruence.
Qed.
Definition same_step (x x' : btree tk * place) : Prop := same_btree (fst x) (fst x') /\ same_place (snd x) (snd x').
Lemma banc_same : forall row b b', same_btree b b' -> forall q q', same_place q q' ->
  Forall2 same_step (banc row b q) (banc row b' q').
Proof.
  intros row b b' H. induction H as [d d' Hd|d d' l l' r r' Hd Hl IHl Hr IHr]; intros q q' [E1 E2].
  - constructor.
  - cbn [banc]. constructor; [split; [constructor; auto|split; auto]|]. pose proof (sd_split _ _ Hd) as Hs.
    rewrite (to_left_uncounted _ _ _ Hs), (f_equal (@sp_feature _ _ tk) Hs : sp_feature (bd_sp d) = sp_feature (bd_sp d')).
    destruct (to_left (bd_sp d') _); [apply IHl|apply IHr]; split; cbn [lplace rplace pl_id pl_par]; rewrite ?(bsize_same _ _ Hr); congruence.
Qed.
Lemma Forall2_rev' : forall {X Y} (P : X -> Y -> Prop) l l', Forall2 P l l' -> Forall2 P (rev l) (rev l').
Proof. induction 1; simpl; auto. apply Forall2_app; auto. Qed.

(** ** What fit returns *)
Theorem fits_same : forall train valid train' valid' s g g' b b',
  fb_n_features (tc_fb tc') = fb_n_features (tc_fb tc) -> tc_max_features tc' = tc_max_features tc ->
  in_range tc train -> in_range tc valid -> in_range tc' train' -> in_range tc' valid' ->
  matching train train' -> matching valid valid' ->
  fitted ts tc train valid s g b -> fitted ts tc' train' valid' s g' b' ->
  same_tree (g_tree g) (g_tree g') /\
  forall mix fbx i agg step, fba_wf fbx -> i < fb_n_samples fbx -> fb_n_features fbx = nf ->
    predict_one mix (g_tree g) fbx agg step i = predict_one mix (g_tree g') fbx agg step i.
Proof.
  intros train valid train' valid' s g g' b b' Enf Emf Ht Hv Ht' Hv' MT MV F F'.
  destruct (ft_grows _ _ _ _ _ _ _ F) as (s1 & fs1 & G). destruct (ft_grows _ _ _ _ _ _ _ F') as (s1' & fs1' & G').
  rewrite Enf, Emf in G'.
  destruct (grows_same _ _ _ _ _ _ _ _ _ G _ _ _ _ _ Ht Hv Ht' Hv' MT MV G') as (HS & _ & _).
  assert (HR : same_place root_place root_place) by (split; auto).
  assert (Ep : preds b = preds b') by (apply preds_same; auto).
  assert (Hyp : exists z z', tr_y_pred (g_tree g) = preds b ++ z /\ tr_y_pred (g_tree g') = preds b ++ z').
  { destruct (ft_tree _ _ _ _ _ _ _ F) as (k & yq & bq & _ & _ & _ & _ & H2 & _).
    destruct (ft_tree _ _ _ _ _ _ _ F') as (k' & yq' & bq' & _ & _ & _ & _ & H2' & _).
    exists yq, yq'. rewrite Ep at 2. auto. }
  destruct Hyp as (z & z' & Hy & Hy').
  assert (Hpred : forall id, id < bsize b -> nth_error (tr_y_pred (g_tree g)) id = nth_error (tr_y_pred (g_tree g')) id).
  { intros id Hid. rewrite Hy, Hy'. rewrite !nth_error_app1; auto; rewrite preds_length; auto. }
  pose proof (fitted_count ts tc train valid s g b F) as Hc. pose proof (fitted_count ts tc' train' valid' s g' b' F') as Hc'.
  pose proof (bsize_same _ _ HS) as Eb.
  split.
  - constructor; [congruence| |intros id Hid; apply Hpred; congruence].
    intros id n n' [N1 N2] [N1' N2'].
    destruct (ft_tree _ _ _ _ _ _ _ F) as (k & yq & bq & _ & _ & _ & H1 & _).
    rewrite H1, nth_error_app1 in N2 by (rewrite layp_length; congruence).
    destruct (layp_inside _ _ _ _ _ N2) as (b1 & q1 & HI1 & -> & Hq1).
    destruct (inside_same b b' root_place root_place b1 q1 HI1 HS HR) as (b1' & q1' & HI1' & HS1 & HP1).
    destruct (inside_node ts tc' train' valid' s g' b' F' b1' q1' HI1') as [_ M2]. destruct HP1 as [P1 P2].
    rewrite <- P1, Hq1 in M2. cbn [root_place pl_id Nat.add] in M2.
    assert (n' = hnode W' b1' q1') by congruence. subst n'. apply hnode_same; [auto|split; auto].
  - intros mix fbx i agg step Hwf Hi Hnfx. unfold predict_one.
    rewrite (find_leaf_fitted ts tc train valid s g b F fbx i Hwf Hi Hnfx).
    assert (Hnfx' : fb_n_features fbx = fb_n_features (tc_fb tc')) by congruence.
    rewrite (find_leaf_fitted ts tc' train' valid' s g' b' F' fbx i Hwf Hi Hnfx'). cbn [bind].
    destruct (bleaf_same (bin_of fbx i) b b' HS root_place root_place HR) as (_ & El & _).
    assert (Hget : forall id, id < bsize b -> get (tr_y_pred (g_tree g)) id = get (tr_y_pred (g_tree g')) id).
    { intros id Hid. unfold get. rewrite Hpred by auto. auto. }
    assert (Hid : forall b1 q1, inside b root_place b1 q1 -> pl_id q1 < bsize b).
    { intros b1 q1 HI1. pose proof (inside_node ts tc train valid s g b F b1 q1 HI1) as [H1 _]. congruence. }
    rewrite <- El, <- Hget by (eapply Hid; apply bleaf_inside).
    destruct (get (tr_y_pred (g_tree g)) _) as [v|e] eqn:Ev; [|reflexivity]. cbn [bind]. destruct agg; [|reflexivity].
    rewrite (climb_fitted ts tc train valid s g b F fbx i). rewrite El. rewrite (climb_fitted ts tc' train' valid' s g' b' F' fbx i).
    pose proof (Forall2_rev' _ _ _ (banc_same (bin_of fbx i) b b' HS root_place root_place HR)) as HB.
    assert (HIn : forall x, In x (rev (banc (bin_of fbx i) b root_place)) -> inside b root_place (fst x) (snd x)).
    { intros x Hx. apply in_rev in Hx. eapply banc_inside; eauto. }
    clear Ev. revert v HIn. induction HB as [|x x' l l' Hx HB IH]; intros v HIn; [reflexivity|]. cbn [foldM].
    assert (Em : mix_at W step (fun idx _ => get (tr_y_pred (g_tree g)) idx) mix v x =
                 mix_at W' step (fun idx _ => get (tr_y_pred (g_tree g')) idx) mix v x').
    { unfold mix_at. destruct Hx as [Hx [Hx1 Hx2]]. rewrite <- Hx1, <- Hget by (eapply Hid; apply HIn; left; auto).
      assert (Ea : node_alpha step (hnode W (fst x) (snd x)) = node_alpha step (hnode W' (fst x') (snd x'))).
      { pose proof (hnode_same _ _ _ _ Hx (conj Hx1 Hx2)) as HN. unfold node_alpha. rewrite (sn_logw _ _ HN), (sn_loss _ _ HN). auto. }
      rewrite Ea. reflexivity. }
    rewrite Em. destruct (mix_at W' step _ mix v x'); [|reflexivity]. cbn [bind]. apply IH. intros; apply HIn; right; auto.
Qed.
End Trees.

(** ** The sums of both tasks are linear in the weights *)
Section Linear.
Context {E : env R_arith}.
Section Clf.
Context (K : nat) (d : R) (crit : criterion) (st : cat_strategy) (tc tc' : tctx R_arith (tk_Y (clf_task E K d crit st))).
Notation ts := (clf_shape E K d crit st).
Context (orig times : nat -> nat).
Context (HI : integer_weights times (tc_weights tc)) (HU : unit_weights (tc_weights tc')).
Notation matching := (matching orig times (tc_fb tc) (tc_fb tc') (tc_y tc) (tc_y tc') (tc_weights tc) (tc_weights tc')).

Lemma clf_Lhist : forall n j l l', j < fb_n_features (tc_fb tc) -> matching l l' ->
  ts_hist ts n (map (fun i => (bin tc j i, lab ts tc i, wt tc i)) l) =
  ts_hist ts n (map (fun i => (bin tc' j i, lab ts tc' i, wt tc' i)) l').
Proof.
  intros n j l l' Hj M. cbn [ts_hist clf_shape]. unfold clf_hist. apply map_ext. intros b. apply map_ext. intros k.
  rewrite !filter_map_comm', !map_map. cbn [fst snd].
  apply (total_matching orig times (tc_fb tc) (tc_fb tc') (tc_y tc) (tc_y tc') (tc_weights tc) (tc_weights tc') HI HU). apply matching_filter; auto.
  intros i' Hi'. destruct M as (HC & HR). destruct (HC i' Hi') as [B _]. unfold bin, lab. 
  change (binv (tc_fb tc') j i') with (bin_of (tc_fb tc') i' j). change (binv (tc_fb tc) j (orig i')) with (bin_of (tc_fb tc) (orig i') j).
  rewrite (B j Hj). rewrite (matching_label orig times (tc_fb tc) (tc_fb tc') (tc_y tc) (tc_y tc') (tc_weights tc) (tc_weights tc') l l' _ i' (conj HC HR) Hi'). reflexivity.
Qed.
Lemma clf_Lpred : forall l l', matching l l' -> pred_spec ts tc l = pred_spec ts tc' l'.
Proof.
  intros l l' M. unfold pred_spec. cbn [ts_pred clf_shape]. unfold clf_pred. apply map_ext. intros k.
  rewrite !filter_map_comm', !map_map. cbn [fst snd].
  apply (total_matching orig times (tc_fb tc) (tc_fb tc') (tc_y tc) (tc_y tc') (tc_weights tc) (tc_weights tc') HI HU). apply matching_filter; auto.
  intros i' Hi'. unfold lab. rewrite (matching_label orig times (tc_fb tc) (tc_fb tc') (tc_y tc) (tc_y tc') (tc_weights tc) (tc_weights tc') l l' _ i' M Hi'). reflexivity.
Qed.
Lemma clf_Lloss : forall p l l', matching l l' -> loss_spec ts tc p l = loss_spec ts tc' p l'.
Proof. intros p l l' M. apply (log_loss_matching orig times (tc_fb tc) (tc_fb tc') (tc_y tc) (tc_y tc') (tc_weights tc) (tc_weights tc') HI HU (fun k => nth k p 0%R) l l' M). Qed.
End Clf.

Section Reg.
Context (tc tc' : tctx R_arith (tk_Y (reg_task E))).
Notation ts := (reg_shape E).
Context (orig times : nat -> nat).
Context (HI : integer_weights times (tc_weights tc)) (HU : unit_weights (tc_weights tc')).
Notation matching := (matching orig times (tc_fb tc) (tc_fb tc') (tc_y tc) (tc_y tc') (tc_weights tc) (tc_weights tc')).

Lemma reg_Lhist : forall n j l l', j < fb_n_features (tc_fb tc) -> matching l l' ->
  ts_hist ts n (map (fun i => (bin tc j i, lab ts tc i, wt tc i)) l) =
  ts_hist ts n (map (fun i => (bin tc' j i, lab ts tc' i, wt tc' i)) l').
Proof.
  intros n j l l' Hj M. cbn [ts_hist reg_shape]. unfold reg_hist.
  assert (MF : forall b, matching (filter (fun i => bin tc j i =? b) l) (filter (fun i => bin tc' j i =? b) l')).
  { intros b. apply matching_filter; auto. intros i' Hi'. destruct M as (HC & HR). destruct (HC i' Hi') as [B _]. unfold bin.
    change (binv (tc_fb tc') j i') with (bin_of (tc_fb tc') i' j). change (binv (tc_fb tc) j (orig i')) with (bin_of (tc_fb tc) (orig i') j).
    rewrite (B j Hj). reflexivity. }
  f_equal; apply map_ext; intros b; rewrite !filter_map_comm', !map_map; cbn [fst snd].
  - apply (label_sum_matching orig times (tc_fb tc) (tc_fb tc') (tc_y tc) (tc_y tc') (tc_weights tc) (tc_weights tc') HI HU _ _ (MF b)).
  - apply (label_sq_sum_matching orig times (tc_fb tc) (tc_fb tc') (tc_y tc) (tc_y tc') (tc_weights tc) (tc_weights tc') HI HU _ _ (MF b)).
Qed.
Lemma reg_Lpred : forall l l', matching l l' -> pred_spec ts tc l = pred_spec ts tc' l'.
Proof.
  intros l l' M. unfold pred_spec. cbn [ts_pred reg_shape]. unfold reg_pred. rewrite !map_map. cbn [fst snd].
  apply (label_sum_matching orig times (tc_fb tc) (tc_fb tc') (tc_y tc) (tc_y tc') (tc_weights tc) (tc_weights tc') HI HU _ _ M).
Qed.
Lemma reg_Lloss : forall p l l', matching l l' -> loss_spec ts tc p l = loss_spec ts tc' p l'.
Proof. intros p l l' M. apply (sq_loss_matching orig times (tc_fb tc) (tc_fb tc') (tc_y tc) (tc_y tc') (tc_weights tc) (tc_weights tc') HI HU p l l' M). Qed.
End Reg.
End Linear.

(** ** Calls of fit *)
Lemma matching_of : forall {Y} orig times fb fb' (y y' : list Y) (w w' : list R) l l' n n',
  copies orig fb fb' y y' l' -> repeated orig times l l' -> length w = n -> length w' = n' ->
  (forall i, In i l -> i < n) -> (forall i, In i l' -> i < n') -> matching orig times fb fb' y y' w w' l l'.
Proof. intros Y orig times fb fb' y y' w w' l l' n n' HC HR <- <- Hl Hl'. repeat split; auto; apply HC; auto. Qed.

Lemma copies_left : forall {Y} orig fb fb' (y y' : list Y) l l', copies orig fb fb' y y' (l ++ l') -> copies orig fb fb' y y' l.
Proof. intros Y orig fb fb' y y' l l' H i Hi. apply H, in_app_iff. auto. Qed.
Lemma copies_right : forall {Y} orig fb fb' (y y' : list Y) l l', copies orig fb fb' y y' (l ++ l') -> copies orig fb fb' y y' l'.
Proof. intros Y orig fb fb' y y' l l' H i Hi. apply H, in_app_iff. auto. Qed.

Lemma integer_positive : forall times w, integer_weights times w -> positive_weights w.
Proof. intros times w H x Hx. apply In_nth_error in Hx. destruct Hx as [i Hi]. destruct (H i x Hi) as [H1 ->]. apply lt_0_INR. lia. Qed.
Lemma unit_positive : forall w, unit_weights w -> positive_weights w.
Proof. intros w H x Hx. rewrite (H x Hx). lra. Qed.

Lemma contexts_bins : forall {E : env R_arith} {tk : task R_arith E} (p p' : @tree_params R_arith) fb fb' (y y' : list (tk_Y tk))
  (w w' : list R) tc tc',
  init_tree_context tk p fb y w = Ok tc -> init_tree_context tk p' fb' y' w' = Ok tc' ->
  fb_max_values fb' = fb_max_values fb -> tc_max_n_bins tc' = tc_max_n_bins tc.
Proof.
  intros E tk p p' fb fb' y y' w w' tc tc' H H' Hmv. unfold init_tree_context, init_max_n_bins in *. rewrite Hmv in H'.
  destruct (fb_max_values fb); [discriminate|]. cbn [bind] in *. injection H as <-. injection H' as <-. reflexivity.
Qed.

Lemma repeat_contexts : forall {E : env R_arith} {tk : task R_arith E} (ts : task_shape tk) (p p' : @tree_params R_arith) fb fb' (y y' : list (tk_Y tk))
  (w w' : list R) (train0 valid0 train0' valid0' : list nat) tc tc',
  call_ctx ts p fb y w tc -> call_ctx ts p' fb' y' w' tc' ->
  valid_fit p fb y train0 valid0 w -> valid_fit p' fb' y' train0' valid0' w' ->
  init_tree_context tk p fb y w = Ok tc -> init_tree_context tk p' fb' y' w' = Ok tc' ->
  fb_max_values fb' = fb_max_values fb ->
  fb_n_features (tc_fb tc') = fb_n_features (tc_fb tc) /\ tc_max_n_bins tc' = tc_max_n_bins tc.
Proof.
  intros E tk ts p p' fb fb' y y' w w' train0 valid0 train0' valid0' tc tc' C C' V V' H H' Hmv. split.
  - rewrite (cc_fb _ _ _ _ _ _ C), (cc_fb _ _ _ _ _ _ C').
    destruct (vf_packed _ _ _ _ _ _ V) as [W _]. destruct (vf_packed _ _ _ _ _ _ V') as [W' _].
    rewrite <- (wf_nf fb W), <- (wf_nf fb' W'). congruence.
  - eapply contexts_bins; eauto.
Qed.

Lemma no_cat : forall {E : env R_arith} {tk : task R_arith E} (tc : tctx R_arith (tk_Y tk)),
  ~ In true (tc_is_categorical tc) -> forall j, cat tc j = false.
Proof.
  intros E tk tc H j. unfold cat. destruct (nth j (tc_is_categorical tc) false) eqn:Ej; auto. exfalso. apply H.
  rewrite <- Ej. apply nth_In. destruct (Nat.lt_ge_cases j (length (tc_is_categorical tc))); auto.
  rewrite nth_overflow in Ej by auto. discriminate.
Qed.

Theorem trees_same : forall {E : env R_arith} {tk : task R_arith E} (ts : task_shape tk) (p : @tree_params R_arith) fb fb' (y y' : list (tk_Y tk))
  (w w' : list R) (train valid train' valid' : list nat),
  good_env E -> valid_fit p fb y train valid w -> valid_fit p fb' y' train' valid' w' ->
  (forall k, In k y -> ts_Yok ts k) -> (In true (tp_is_categorical p) -> ts_cat ts) ->
  (forall k, In k y' -> ts_Yok ts k) -> (In true (tp_is_categorical p) -> ts_cat ts) ->
  fb_max_values fb' = fb_max_values fb ->
  tp_min_samples_split p = 2 -> tp_min_samples_leaf p = 1 -> ~ In true (tp_is_categorical p) ->
  forall orig times, integer_weights times w -> unit_weights w' ->
  copies orig fb fb' y y' (train' ++ valid') ->
  repeated orig times train train' -> repeated orig times valid valid' ->
  (forall tc tc' : tctx R_arith (tk_Y tk), integer_weights times (tc_weights tc) -> unit_weights (tc_weights tc') ->
    (forall n j l l', j < fb_n_features (tc_fb tc) -> matching orig times (tc_fb tc) (tc_fb tc') (tc_y tc) (tc_y tc') (tc_weights tc) (tc_weights tc') l l' ->
       ts_hist ts n (map (fun i => (bin tc j i, lab ts tc i, wt tc i)) l) = ts_hist ts n (map (fun i => (bin tc' j i, lab ts tc' i, wt tc' i)) l')) /\
    (forall l l', matching orig times (tc_fb tc) (tc_fb tc') (tc_y tc) (tc_y tc') (tc_weights tc) (tc_weights tc') l l' ->
       pred_spec ts tc l = pred_spec ts tc' l') /\
    (forall q l l', matching orig times (tc_fb tc) (tc_fb tc') (tc_y tc) (tc_y tc') (tc_weights tc) (tc_weights tc') l l' ->
       loss_spec ts tc q l = loss_spec ts tc' q l')) ->
  forall s tc g tc' g', tree_fit tk p fb y train valid w s = Ok (tc, g) -> tree_fit tk p fb' y' train' valid' w' s = Ok (tc', g') ->
  same_tree (g_tree g) (g_tree g') /\
  forall mix fbx i agg step, fba_wf fbx -> i < fb_n_samples fbx -> fb_n_features fbx = fb_n_features fb ->
    predict_one mix (g_tree g) fbx agg step i = predict_one mix (g_tree g') fbx agg step i.
Proof.
  intros E tk ts p fb fb' y y' w w' train valid train' valid' HE V V' Hy Hc Hy' Hc' Hmv Hmss Hmsl Hcat orig times HI HU HC HRt HRv HLin
    s tc g tc' g' Hfit Hfit'.
  destruct (call_context ts p fb y train valid w V Hy Hc) as (tc1 & Hi & C).
  destruct (call_context ts p fb' y' train' valid' w' V' Hy' Hc') as (tc1' & Hi' & C').
  pose proof (fit_fitted_gen ts p fb y train valid w HE V Hy Hc True tc1 s Hi) as HO.
  rewrite Hfit in HO. cbn [okz fst snd] in HO. destruct HO as [<- [b F]].
  { intros l Hl _. eapply okz_weaken; [exact (fun z => z)| |apply (ts_pred_end _ ts)]; auto. }
  { intros l lv s0 features os s' c Hl Hlv Hf Htr Hin _. eapply imp_of_okz; eauto. apply (cc_data _ _ _ _ _ _ C). }
  { auto. }
  pose proof (fit_fitted_gen ts p fb' y' train' valid' w' HE V' Hy' Hc' True tc1' s Hi') as HO.
  rewrite Hfit' in HO. cbn [okz fst snd] in HO. destruct HO as [<- [b' F']].
  { intros l Hl _. eapply okz_weaken; [exact (fun z => z)| |apply (ts_pred_end _ ts)]; auto. }
  { intros l lv s0 features os s' c Hl Hlv Hf Htr Hin _. eapply imp_of_okz; eauto. apply (cc_data _ _ _ _ _ _ C'). }
  { auto. }
  pose proof (repeat_contexts ts p p fb fb' y y' w w' train valid train' valid' tc tc' C C' V V' Hi Hi' Hmv) as (E1 & E2).
  assert (HCt : copies orig fb fb' y y' train') by (intros i' Hi1; apply HC, in_app_iff; auto).
  assert (HCv : copies orig fb fb' y y' valid') by (intros i' Hi1; apply HC, in_app_iff; auto).
  pose proof (vf_train _ _ _ _ _ _ V) as R1. pose proof (vf_valid _ _ _ _ _ _ V) as R2.
  pose proof (vf_train _ _ _ _ _ _ V') as R1'. pose proof (vf_valid _ _ _ _ _ _ V') as R2'.
  pose proof (matching_of _ _ _ _ _ _ _ _ _ _ _ _ HCt HRt (vf_w _ _ _ _ _ _ V) (vf_w _ _ _ _ _ _ V') R1 R1') as MT.
  pose proof (matching_of _ _ _ _ _ _ _ _ _ _ _ _ HCv HRv (vf_w _ _ _ _ _ _ V) (vf_w _ _ _ _ _ _ V') R2 R2') as MV.
  destruct C as [HD C1 C2 C3 C4 C5 C6 C7 C8 C9 C10]. destruct C' as [HD' C1' C2' C3' C4' C5' C6' C7' C8' C9' C10'].
  assert (N1 : forall j, cat tc j = false) by (apply no_cat; rewrite C10; auto).
  assert (N2 : forall j, cat tc' j = false) by (apply no_cat; rewrite C10'; auto).
  subst fb y w fb' y' w'.
  destruct (HLin tc tc' HI HU) as (L1 & L2 & L3).
  apply (fits_same ts tc tc' HD HD' orig times HI HU E1 E2) with (train := train) (valid := valid) (train' := train') (valid' := valid') (s := s) (b := b) (b' := b');
    auto; congruence.
Qed.
