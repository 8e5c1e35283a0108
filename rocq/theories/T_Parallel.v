(** * C39: predictions do not depend on the schedule of the threads *)

Require Import String Bool List Arith Lia NArith ZArith Reals Lra Permutation.
Require Import Verif.Base Verif.Num Verif.M_Bitarray Verif.P_Bitarray Verif.M_Utils Verif.M_Impurity Verif.M_Context Verif.M_Node Verif.M_Split
  Verif.M_Tree Verif.M_Grow Verif.M_Object Verif.M_Forest Verif.S_Fit Verif.S_Tree Verif.S_Split Verif.S_Object Verif.S_Impurity Verif.S_Params Verif.S_Forest
  Verif.P_Impurity Verif.P_Prune Verif.T_GrowR Verif.T_Aggregate Verif.T_Setters Verif.T_Bootstrap Verif.T_Params Verif.P_List Verif.P_Forest Verif.P_ForestR Verif.T_Forest Verif.T_ForestR Verif.M_Parallel Verif.P_Parallel Verif.P_ParallelForest.
Import ListNotations.
Local Open Scope list_scope.
Local Open Scope nat_scope.

(** ** Any arithmetic: every execution is the sequential one for some order of the trees *)
Section Any.
Context {A : arith} {L D : Type} {EC : encoding D}.
Notation T := (num A).

Lemma zero_shape : forall K n, shape K (repeat (repeat (a0 : T) K) n).
Proof. intros K n row H. apply repeat_spec in H. subst. apply repeat_length. Qed.

Lemma jobs_length : forall n_est ovr K fb (ts : list (tobj A (list T) nat)), length (proba_jobs n_est ovr K fb ts) = length ts.
Proof. intros. unfold proba_jobs, indexed. rewrite map_length, combine_length, seq_length. apply Nat.min_id. Qed.

Definition is_ovr (m : multi) : bool := match m with Ovr => true | Multinomial => false end.

Theorem C39_predict_proba : forall small sched (o : clf_forest A L EC) X rows,
  predict_proba_run small sched o X = Some rows ->
  exists order, Permutation order (seq 0 (n_trees o)) /\ predict_proba small order o X = Ok rows.
Proof.
  intros small sched o X rows H. unfold predict_proba_run in H. unfold predict_proba.
  destruct (predict_helper o X) as [[fb ts]|e] eqn:Eh; [|discriminate]. cbn [bind].
  assert (Hn : n_trees o = length ts).
  { unfold predict_helper in Eh. unfold n_trees. destruct (fo_encoder o); [|discriminate]. destruct (ec_transform EC _ X); cbn [bind] in Eh; [|discriminate].
    destruct (fo_trees o); [|discriminate]. congruence. }
  destruct (negb (fo_fitted o)); [discriminate|]. rewrite Hn. cbv zeta in *.
  set (K := length (fo_classes o)) in *. set (n_est := Z.to_nat (fo_n_estimators o)) in *.
  change (match fo_multiclass o with Ovr => true | Multinomial => false end) with (is_ovr (fo_multiclass o)) in H.
  set (jobs := proba_jobs n_est (is_ovr (fo_multiclass o)) K fb ts) in *.
  destruct (run true jobs sched _) as [st|] eqn:Er; [|discriminate]. destruct (finished st) eqn:Ef; [|discriminate].
  destruct (executions_are_serial _ _ _ _ Er Ef) as (order & HP & HS). unfold jobs in HP. rewrite jobs_length in HP.
  exists order. split; [exact HP|].
  pose proof (agree_ok _ _ _ (serial_proba n_est (is_ovr (fo_multiclass o)) K fb ts order _ (zero_shape K _) (repeat_length _ _)) HS) as HA.
  change (accumulate_proba n_est (is_ovr (fo_multiclass o)) ts fb order K = Ok (ms_mem st)) in HA.
  injection H as <-. destruct (fo_multiclass o); cbn [is_ovr] in HA; rewrite HA; reflexivity.
Qed.

Theorem C39_predict_reg : forall sched (o : reg_forest A L EC) X rows,
  predict_reg_run sched o X = Some rows ->
  exists order, Permutation order (seq 0 (n_trees o)) /\ predict_reg order o X = Ok rows.
Proof.
  intros sched o X rows H. unfold predict_reg_run in H. unfold predict_reg.
  destruct (predict_helper o X) as [[fb ts]|e] eqn:Eh; [|discriminate]. cbn [bind].
  assert (Hn : n_trees o = length ts).
  { unfold predict_helper in Eh. unfold n_trees. destruct (fo_encoder o); [|discriminate]. destruct (ec_transform EC _ X); cbn [bind] in Eh; [|discriminate].
    destruct (fo_trees o); [|discriminate]. congruence. }
  rewrite Hn. cbv zeta in *. destruct (run true _ sched _) as [st|] eqn:Er; [|discriminate]. destruct (finished st) eqn:Ef; [|discriminate].
  destruct (executions_are_serial _ _ _ _ Er Ef) as (order & HP & HS). rewrite map_length in HP.
  exists order. split; [exact HP|].
  pose proof (agree_ok _ _ _ (serial_reg fb ts order _ (repeat_length _ _)) HS) as HA.
  change (accumulate (fun q p => Ok (aadd q p)) ts mix_num fb order a0 = Ok (ms_mem st)) in HA.
  rewrite HA. cbn [bind]. congruence.
Qed.

(** apply, predict_proba_trees and the weighted depths: the same array for every schedule,
    whatever the fresh array contained. *)
Lemma mapM_split : forall {X V} (f : X -> res (list V)) n l vs, mapM f l = Ok vs -> (forall v, In v vs -> length v = n) ->
  Forall2 (fun p v => p = Ok v /\ length v = n) (map f l) vs.
Proof.
  intros X V f n l. induction l as [|x l IH]; intros vs H Hv; cbn [mapM map] in *.
  - injection H as <-. constructor.
  - destruct (f x) as [v|] eqn:Ef; cbn [bind] in H; [|discriminate]. destruct (mapM f l) as [r|]; cbn [bind] in H; [|discriminate]. injection H as <-.
    constructor; [split; [reflexivity|apply Hv; simpl; auto]|]. apply IH; [reflexivity|]. intros w Hw. apply Hv. simpl; auto.
Qed.

Theorem C39_rows : forall {P Y V} (one : tobj A P Y -> fba -> res (list V)) sched junk (o : fobj A L EC P Y) X fb ts vs rows,
  predict_helper o X = Ok (fb, ts) ->
  mapM (fun t => one t fb) ts = Ok vs -> (forall v, In v vs -> length v = fb_n_samples fb) ->
  length junk = length ts -> (forall row, In row junk -> length row = fb_n_samples fb) ->
  per_tree_run one sched junk o X = Some rows -> rows = vs.
Proof.
  intros P Y V one sched junk o X fb ts vs rows Eh Hm Hv J1 J2 H. unfold per_tree_run in H. rewrite Eh in H. cbv zeta in H.
  destruct (run true _ sched _) as [st|] eqn:Er; [|discriminate]. destruct (finished st) eqn:Ef; [|discriminate].
  destruct (executions_are_serial _ _ _ _ Er Ef) as (order & HP & HS).
  assert (El : length (write_jobs (fb_n_samples fb) (map (fun t => one t fb) ts)) = length (map (fun t => one t fb) ts)).
  { unfold write_jobs, indexed. rewrite map_length, combine_length, seq_length. apply Nat.min_id. }
  rewrite El in HP. rewrite (writes_all _ _ vs order junk (mapM_split _ _ _ _ Hm Hv) J2) in HS; [congruence|rewrite map_length; exact J1|exact HP].
Qed.
End Any.
Print Assumptions C39_predict_proba.
Print Assumptions C39_predict_reg.
Print Assumptions C39_rows.

(** No schedule blocks or goes on for ever: the number of steps is bounded, and any execution
    under way can be continued until all threads have stopped. *)
Theorem C39_no_deadlock : forall {M L} (jobs : list (res (list (op M L)))) m sched st, run true jobs sched (initial m jobs) = Some st ->
  length sched <= todo_all jobs (initial m jobs) /\
  ((forall t p, nth_error (ms_pcs st) t = Some p -> stopped p) \/ exists t st', tstep true jobs st t = Some st') /\
  exists more st', run true jobs (sched ++ more) (initial m jobs) = Some st' /\ forall t p, nth_error (ms_pcs st') t = Some p -> stopped p.
Proof.
  intros M L jobs m sched st H. split; [eapply executions_end; eauto|]. split; [|eapply schedules_complete; eauto].
  destruct (stopped_dec (ms_pcs st)) as [D|D]; [right; eapply no_deadlock; eauto|left; exact D].
Qed.
Print Assumptions C39_no_deadlock.

(** ** Exact arithmetic: the result is the mean over the trees *)

(** Row [i] of the answer, from the predictions [ps] of the trees (tree, row, class). *)
Definition forest_row (small : R -> bool) (ovr : bool) (n_est K : nat) (ps : list (list (list R))) (i : nat) : list R :=
  if ovr then
    (* the trees [k * n_est, ..., (k + 1) * n_est - 1] are those of class k *)
    let score k := Rsum (map (fun t => nth 1 (nth i (nth t ps []) []) 0%R) (seq (k * n_est) n_est)) in
    let s := Rsum (map score (seq 0 K)) in
    map (fun k => if small s then (1 / INR K)%R else (score k / s)%R) (seq 0 K)
  else map (fun k => (Rsum (map (fun pt => nth k (nth i pt []) 0%R) ps) / INR (length ps))%R) (seq 0 K).

Lemma Rsum_app : forall a b, Rsum (a ++ b) = (Rsum a + Rsum b)%R.
Proof. induction a as [|x a IH]; intros b; cbn [app Rsum]; [lra|]. rewrite IH. lra. Qed.

Lemma sum_nth : forall {X} (f : X -> R) (l : list X) d, Rsum (map f l) = Rsum (map (fun t => f (nth t l d)) (seq 0 (length l))).
Proof.
  intros X f l d. induction l as [|x l IH]; [reflexivity|]. cbn [map length seq Rsum nth]. f_equal. rewrite IH, <- seq_shift, map_map. reflexivity.
Qed.

(** Sum over the trees of class k. *)
Lemma sum_class : forall (f : nat -> R) n_est K k, 1 <= n_est -> k < K ->
  Rsum (map (fun t => if k =? t / n_est then f t else 0%R) (seq 0 (n_est * K))) = Rsum (map f (seq (k * n_est) n_est)).
Proof.
  intros f n_est K k Hn Hk.
  assert (E : seq 0 (n_est * K) = seq 0 (k * n_est) ++ seq (k * n_est) n_est ++ seq (k * n_est + n_est) (n_est * (K - S k))).
  { rewrite <- seq_app, <- seq_app. f_equal. nia. }
  rewrite E, !map_app, !Rsum_app.
  assert (Z : forall l, (forall t, In t l -> k <> t / n_est) -> Rsum (map (fun t => if k =? t / n_est then f t else 0%R) l) = 0%R).
  { induction l as [|t l IH]; intros Hl; cbn [map Rsum]; [reflexivity|]. rewrite IH by (intros; apply Hl; simpl; auto).
    destruct (Nat.eqb_spec k (t / n_est)) as [Ek|]; [exfalso; apply (Hl t); simpl; auto|lra]. }
  rewrite (Z (seq 0 (k * n_est))).
  2: { intros t Ht Ek. apply in_seq in Ht. assert (t / n_est < k) by (apply Nat.div_lt_upper_bound; nia). lia. }
  rewrite (Z (seq (k * n_est + n_est) _)).
  2: { intros t Ht Ek. apply in_seq in Ht. assert (S k <= t / n_est) by (apply Nat.div_le_lower_bound; nia). lia. }
  rewrite Rplus_0_l, Rplus_0_r. apply Rsum_ext. intros t Ht. apply in_seq in Ht.
  assert (Ek : t / n_est = k). { symmetry. apply (Nat.div_unique t n_est k (t - k * n_est)); nia. }
  rewrite Ek, Nat.eqb_refl. reflexivity.
Qed.

Lemma matrix_rows : forall out n K f, matrix out n K f -> out = map (fun i => map (fun k => f i k) (seq 0 K)) (seq 0 n).
Proof.
  intros out n K f [H1 H2]. apply nth_error_ext. intros i. rewrite nth_error_map.
  destruct (Nat.lt_ge_cases i n) as [Hi|Hi].
  - destruct (H2 i Hi) as (row & R1 & R2 & R3). rewrite R1. rewrite (nth_error_nth' (seq 0 n) 0) by (rewrite seq_length; exact Hi). rewrite seq_nth by exact Hi. cbn [option_map Nat.add].
    f_equal. rewrite <- R2 in *. clear - R3. apply nth_ext with (d := 0%R) (d' := f i 0); [rewrite map_length, seq_length; reflexivity|].
    intros k Hk. rewrite R3 by exact Hk. rewrite map_nth, seq_nth by exact Hk. reflexivity.
  - rewrite (proj2 (nth_error_None out i)) by lia. rewrite (proj2 (nth_error_None (seq 0 n) i)) by (rewrite seq_length; lia). reflexivity.
Qed.

Lemma mean_entry : forall (ps : list (list (list R))) n i k, length ps = n ->
  (Rsum (map (fun t => tree_entry ps t i k) (seq 0 n)) / INR n = Rsum (map (fun pt => nth k (nth i pt []) 0%R) ps) / INR (length ps))%R.
Proof. intros ps n i k <-. f_equal. rewrite (sum_nth (fun pt => nth k (nth i pt []) 0%R) ps []). reflexivity. Qed.

Lemma normalise_R : forall (small : R -> bool) K (score : nat -> R),
  @normalise_ovr R_arith small K (map score (seq 0 K)) =
  map (fun k => if small (Rsum (map score (seq 0 K))) then (1 / INR K)%R else (score k / Rsum (map score (seq 0 K)))%R) (seq 0 K).
Proof.
  intros small K score. unfold normalise_ovr. assert (Ea : @asum R_arith (map score (seq 0 K)) = Rsum (map score (seq 0 K))) by apply asum_R. rewrite Ea.
  destruct (small (Rsum (map score (seq 0 K)))).
  - change (repeat (1 / INR K)%R K = map (fun _ => (1 / INR K)%R) (seq 0 K)). generalize (1 / INR K)%R. clear. intros v. generalize 0 at 1.
    induction K as [|K' IH]; intros a; [reflexivity|]. cbn [repeat seq map]. f_equal. apply IH.
  - rewrite map_map. reflexivity.
Qed.

Lemma mean_vector : forall (ps : list (list R)) (out : list R) n m, length ps = n ->
  vector out m (fun i => Rsum (map (fun t => nth i (nth t ps []) 0%R) (seq 0 n))) ->
  map (fun x => (x / INR n)%R) out = map (fun i => (Rsum (map (fun pt => nth i pt 0) ps) / INR (length ps))%R) (seq 0 m).
Proof.
  intros ps out n m <- [V1 V2]. apply nth_ext with (d := (0 / INR (length ps))%R) (d' := (Rsum (map (fun pt => nth 0 pt 0) ps) / INR (length ps))%R); [rewrite !map_length, seq_length; exact V1|].
  intros i Hi. rewrite map_length, V1 in Hi. rewrite (map_nth (fun x => (x / INR (length ps))%R)). rewrite V2 by exact Hi.
  rewrite (map_nth (fun i => (Rsum (map (fun pt => nth i pt 0) ps) / INR (length ps))%R) (seq 0 m) 0 i). rewrite seq_nth by exact Hi. cbn [Nat.add]. f_equal. symmetry.
  apply (sum_nth (fun pt => nth i pt 0%R) ps []).
Qed.

Section Exact.
Context {L D : Type} {EC : encoding D}.

(** Whatever the order of the trees. *)
Lemma proba_formula : forall small order (o : clf_forest R_arith L EC) X fb ts ps,
  fo_fitted o = true -> predict_helper o X = Ok (fb, ts) -> predict_proba_trees o X = Ok ps ->
  shaped ps (fb_n_samples fb) (if is_ovr (fo_multiclass o) then 2 else length (fo_classes o)) ->
  (fo_multiclass o = Ovr -> 1 <= Z.to_nat (fo_n_estimators o) /\ length ts = Z.to_nat (fo_n_estimators o) * length (fo_classes o)) ->
  Permutation order (seq 0 (length ts)) ->
  predict_proba small order o X =
  Ok (map (forest_row small (is_ovr (fo_multiclass o)) (Z.to_nat (fo_n_estimators o)) (length (fo_classes o)) ps) (seq 0 (fb_n_samples fb))).
Proof.
  intros small order o X fb ts ps Hf Eh Hp Hs Ho HP.
  unfold predict_proba_trees in Hp. rewrite Eh in Hp. cbn [bind] in Hp. unfold predict_proba. rewrite Eh, Hf. cbn [bind negb].
  assert (Lp : length ps = length ts) by exact (mapM_length _ _ _ Hp). set (K := length (fo_classes o)) in *. set (n_est := Z.to_nat (fo_n_estimators o)) in *.
  destruct (fo_multiclass o); cbn [is_ovr] in *.
  - destruct (accumulate_multinomial n_est ts fb ps K order Hp Hs HP) as (out & A1 & A2). apply matrix_rows in A2. rewrite A1. cbn [bind]. f_equal.
    rewrite A2, map_map. apply map_ext. intros i. rewrite map_map. unfold forest_row. apply map_ext. intros k.
    exact (mean_entry ps (length ts) i k Lp).
  - destruct (Ho eq_refl) as [O1 O2].
    destruct (accumulate_ovr n_est ts fb ps K order O1 O2 Hp Hs HP) as (out & A1 & A2). apply matrix_rows in A2. rewrite A1. cbn [bind]. f_equal.
    rewrite A2, map_map. apply map_ext. intros i. unfold forest_row.
    set (score := fun k => Rsum (map (fun t => nth 1 (nth i (nth t ps []) []) 0%R) (seq (k * n_est) n_est))).
    assert (Es : map (fun k => Rsum (map (fun t => if k =? t / n_est then tree_entry ps t i 1 else 0%R) (seq 0 (length ts)))) (seq 0 K) = map score (seq 0 K)).
    { apply map_ext_in. intros k Hk. apply in_seq in Hk. rewrite O2. apply (sum_class (fun t => tree_entry ps t i 1)); [exact O1|lia]. }
    etransitivity; [exact (f_equal (@normalise_ovr R_arith small K) Es)|]. exact (normalise_R small K score).
Qed.

Lemma finished_all : forall {M V} (st : mstate M V), (forall t p, nth_error (ms_pcs st) t = Some p -> stopped p) ->
  finished st = true \/ exists t e, nth_error (ms_pcs st) t = Some (Failed e).
Proof.
  intros M V st. unfold finished. induction (ms_pcs st) as [|p l IH]; intros H; [auto|]. cbn [forallb].
  destruct (IH (fun t q Hq => H (S t) q Hq)) as [E|(t & e & E)]; [|right; exists (S t), e; exact E].
  specialize (H 0 p eq_refl). destruct p; try contradiction; [left; exact E|right; exists 0, e; reflexivity].
Qed.

(** Some schedule completes as soon as no order of the trees raises. *)
Lemma some_schedule : forall small (o : clf_forest R_arith L EC) X fb ts, fo_fitted o = true -> predict_helper o X = Ok (fb, ts) ->
  (forall order, Permutation order (seq 0 (length ts)) -> exists rows, predict_proba small order o X = Ok rows) ->
  exists sched rows, predict_proba_run small sched o X = Some rows.
Proof.
  intros small o X fb ts Hf Eh Hok. unfold predict_proba_run. rewrite Eh, Hf. cbn [negb].
  change (match fo_multiclass o with Ovr => true | Multinomial => false end) with (is_ovr (fo_multiclass o)).
  set (K := length (fo_classes o)) in *. set (n_est := Z.to_nat (fo_n_estimators o)) in *. cbv zeta.
  set (jobs := proba_jobs n_est (is_ovr (fo_multiclass o)) K fb ts) in *. set (m0 := repeat (repeat a0 K) (fb_n_samples fb)).
  destruct (schedules_complete jobs m0 [] (initial m0 jobs) eq_refl) as (sched & st & H1 & H2). cbn [app] in H1.
  exists sched. rewrite H1. destruct (finished_all st H2) as [E|(t & e & E)]; [rewrite E; eauto|]. exfalso.
  destruct (failures_are_serial _ _ _ _ _ _ H1 E) as (order & e' & HP & HS). unfold jobs in HP. rewrite jobs_length in HP.
  destruct (agree_err _ _ _ (serial_proba n_est (is_ovr (fo_multiclass o)) K fb ts order m0 (zero_shape K _) (repeat_length _ _)) HS) as (e2 & HA).
  change (accumulate_proba n_est (is_ovr (fo_multiclass o)) ts fb order K = Err e2) in HA.
  destruct (Hok order HP) as (rows & Hr). unfold predict_proba in Hr. rewrite Eh, Hf in Hr. cbn [bind negb] in Hr.
  fold K in Hr. fold n_est in Hr. destruct (fo_multiclass o); cbn [is_ovr] in HA; rewrite HA in Hr; discriminate.
Qed.

Lemma some_schedule_reg : forall (o : reg_forest R_arith L EC) X fb ts, predict_helper o X = Ok (fb, ts) ->
  (forall order, Permutation order (seq 0 (length ts)) -> exists rows, predict_reg order o X = Ok rows) ->
  exists sched rows, predict_reg_run sched o X = Some rows.
Proof.
  intros o X fb ts Eh Hok. unfold predict_reg_run. rewrite Eh. cbv zeta. set (jobs := map (reg_job fb) ts) in *. set (m0 := repeat a0 (fb_n_samples fb)).
  destruct (schedules_complete jobs m0 [] (initial m0 jobs) eq_refl) as (sched & st & H1 & H2). cbn [app] in H1.
  exists sched. rewrite H1. destruct (finished_all st H2) as [E|(t & e & E)]; [rewrite E; eauto|]. exfalso.
  destruct (failures_are_serial _ _ _ _ _ _ H1 E) as (order & e' & HP & HS). unfold jobs in HP. rewrite map_length in HP.
  destruct (agree_err _ _ _ (serial_reg fb ts order m0 (repeat_length _ _)) HS) as (e2 & HA).
  change (accumulate (fun q p => Ok (aadd q p)) ts mix_num fb order a0 = Err e2) in HA.
  destruct (Hok order HP) as (rows & Hr). unfold predict_reg in Hr. rewrite Eh in Hr. cbn [bind] in Hr. rewrite HA in Hr. discriminate.
Qed.

Context {E : env R_arith} (ME : menv E) (float : num R_arith -> Prop).
Context (GM : good_menv float ME) (GE : good_env E) (GK : good_encoding EC).

Theorem C39_classifier : forall leb (HO : total_order leb) (o o1 : clf_forest R_arith L EC) X y sw c,
  legal float o -> enough_classes leb o X y -> positive_sample_weights sw -> (forall d, fo_dirichlet o = Some d -> (0 <= d)%R) ->
  clf_fit leb ME o X y sw = ((o1, None), c) ->
  forall X' enc fb' small, fo_encoder o1 = Some enc -> ec_transform EC enc X' = Ok fb' ->
  exists ps, predict_proba_trees o1 X' = Ok ps /\ length ps = n_trees o1 /\
    (exists sched rows, predict_proba_run small sched o1 X' = Some rows) /\
    forall sched rows, predict_proba_run small sched o1 X' = Some rows ->
      rows = map (forest_row small (is_ovr (fo_multiclass o1)) (Z.to_nat (fo_n_estimators o1)) (length (fo_classes o1)) ps) (seq 0 (fst (ec_shape EC X'))).
Proof.
  intros leb HO o o1 X y sw c HL HC HW Hd H X' enc fb' small Henc Ht.
  destruct (clf_trees_rows ME float GM GE GK leb HO o o1 X y sw c HL HC HW Hd H) as (seeds & enc' & ts & H1 & H2 & H3 & H4 & H5 & H6).
  set (o2 := clf_ready leb o y) in *. subst o1. cbn [fo_encoder fitted_as w_fitted w_trees w_encoder] in Henc. injection Henc as ->.
  destruct (H6 X' fb' Ht) as (Hn & ps & P1 & P2).
  set (o1 := fitted_as o2 seeds enc ts (clf_k o2)) in *.
  assert (Eh : predict_helper o1 X' = Ok (fb', ts)) by (unfold o1; rewrite fitted_as_helper, Ht; reflexivity).
  assert (Ep : predict_proba_trees o1 X' = Ok ps) by (unfold predict_proba_trees; rewrite Eh; exact P1).
  assert (Hf : fo_fitted o1 = true) by reflexivity.
  assert (Hsh : shaped ps (fb_n_samples fb') (if is_ovr (fo_multiclass o1) then 2 else length (fo_classes o1))).
  { intros pt Hpt. destruct (P2 pt Hpt) as [P3 P4]. split; [exact P3|]. intros row Hr. destruct (P4 row Hr) as [P5 _].
    change (fo_multiclass o1) with (fo_multiclass o2). change (fo_classes o1) with (fo_classes o2). unfold clf_k in P5. destruct (fo_multiclass o2); exact P5. }
  assert (Hov : fo_multiclass o1 = Ovr -> 1 <= Z.to_nat (fo_n_estimators o1) /\ length ts = Z.to_nat (fo_n_estimators o1) * length (fo_classes o1)).
  { intros Em. change (fo_multiclass o2 = Ovr) in Em. change (fo_n_estimators o1) with (fo_n_estimators o2). change (fo_classes o1) with (fo_classes o2).
    split; [lia|]. rewrite H2. unfold clf_repeats. rewrite Em. reflexivity. }
  pose proof (fun order => proba_formula small order o1 X' fb' ts ps Hf Eh Ep Hsh Hov) as F.
  exists ps. split; [exact Ep|]. split; [exact (mapM_length _ _ _ P1)|]. split.
  - apply (some_schedule small o1 X' fb' ts Hf Eh). intros order HP. eexists. apply F. exact HP.
  - intros sched rows Hr. destruct (C39_predict_proba _ _ _ _ _ Hr) as (order & HP & Ho). change (n_trees o1) with (length ts) in HP.
    rewrite (F order HP) in Ho. rewrite <- Hn. congruence.
Qed.

Theorem C39_regressor : forall (o o1 : reg_forest R_arith L EC) X y sw c,
  legal float o -> positive_sample_weights sw ->
  reg_fit ME o X y sw = ((o1, None), c) ->
  forall X' enc fb', fo_encoder o1 = Some enc -> ec_transform EC enc X' = Ok fb' ->
  exists ts (ps : list (list R)), fo_trees o1 = Some ts /\ mapM (fun t => obj_predict mix_num t fb') ts = Ok ps /\
    (exists sched rows, predict_reg_run sched o1 X' = Some rows) /\
    forall sched rows, predict_reg_run sched o1 X' = Some rows ->
      rows = map (fun i => (Rsum (map (fun pt => nth i pt 0) ps) / INR (length ps))%R) (seq 0 (fst (ec_shape EC X'))).
Proof.
  intros o o1 X y sw c HL HW H X' enc fb' Henc Ht.
  destruct (reg_trees_rows ME float GM GE GK o o1 X y sw c (- Rsum (map Rabs y))%R (Rsum (map Rabs y)) HL HW) as (seeds & enc' & ts & H1 & HT & H6); [|exact H|].
  { intros v Hv. assert (Hb : (Rabs v <= Rsum (map Rabs y))%R).
    { clear - Hv. change (list R) in y. change (In v (y : list R)) in Hv. revert Hv. generalize (y : list R). intros l. induction l as [|x l IH]; intros Hv; [destruct Hv|]. cbn [map Rsum].
      assert (P : (0 <= Rsum (map Rabs l))%R) by (apply Rsum_nonneg; intros z Hz; apply in_map_iff in Hz; destruct Hz as (q & <- & _); apply Rabs_pos).
      destruct Hv as [<-|Hv]; [lra|]. pose proof (IH Hv). pose proof (Rabs_pos x). lra. }
    revert Hb. unfold Rabs at 1. destruct (Rcase_abs v); intros; lra. }
  subst o1. cbn [fo_encoder fitted_as w_fitted w_trees w_encoder] in Henc. injection Henc as ->.
  destruct (H6 X' fb' Ht) as (Hn & ps & P1 & P2). set (o1 := fitted_as o seeds enc ts 0) in *.
  assert (Eh : predict_helper o1 X' = Ok (fb', ts)) by (unfold o1; rewrite fitted_as_helper, Ht; reflexivity).
  assert (F : forall order, Permutation order (seq 0 (length ts)) -> predict_reg order o1 X' = Ok (map (fun i => (Rsum (map (fun pt => nth i pt 0) ps) / INR (length ps))%R) (seq 0 (fb_n_samples fb')))).
  { intros order HP. unfold predict_reg. rewrite Eh. cbn [bind]. destruct (accumulate_reg ts fb' ps order P1) as (out & A1 & A2 & A3); [intros pt Hpt; apply (P2 pt Hpt)|exact HP|].
    rewrite A1. cbn [bind]. f_equal. exact (mean_vector ps out (length ts) (fb_n_samples fb') (mapM_length _ _ _ P1) (conj A2 A3)). }
  exists ts, ps. split; [reflexivity|]. split; [exact P1|]. split.
  - apply (some_schedule_reg o1 X' fb' ts Eh). intros order HP. eexists. apply F. exact HP.
  - intros sched rows Hr. destruct (C39_predict_reg _ _ _ _ Hr) as (order & HP & Ho). change (n_trees o1) with (length ts) in HP.
    rewrite (F order HP) in Ho. rewrite <- Hn. injection Ho as Ho. exact (eq_sym Ho).
Qed.
End Exact.
Print Assumptions C39_classifier.
Print Assumptions C39_regressor.
