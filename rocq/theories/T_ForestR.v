(** * Whole forests in exact arithmetic: C34, C35, C38 and C48 *)

Require Import String Bool List Arith Lia NArith ZArith Reals Lra Permutation.
Require Import Verif.Base Verif.Num Verif.M_Bitarray Verif.P_Bitarray Verif.M_Utils Verif.M_Impurity Verif.M_Context Verif.M_Node Verif.M_Split
  Verif.M_Tree Verif.M_Grow Verif.M_Object Verif.M_Forest Verif.S_Fit Verif.S_Tree Verif.S_Split Verif.S_Object Verif.S_Impurity Verif.S_Params Verif.S_Forest
  Verif.P_Impurity Verif.P_Prune Verif.T_GrowR Verif.T_Aggregate Verif.T_Setters Verif.T_Bootstrap Verif.T_Params Verif.P_List Verif.P_Forest Verif.P_ForestR Verif.T_Forest.
Import ListNotations.
Local Open Scope list_scope.
Local Open Scope nat_scope.

(** ** The specification *)

(** A row of probabilities of [K] classes. *)
Definition distribution (K : nat) (row : list R) : Prop :=
  length row = K /\ (forall x, In x row -> (0 <= x)%R) /\ Rsum row = 1%R.

(** Sample weights of the caller: none, or positive numbers. *)
Definition positive_sample_weights (sw : option (bool * list R)) : Prop :=
  match sw with None => True | Some (_, w) => positive_weights w end.

Definition n_trees {A : arith} {L D} {EC : encoding D} {P Y} (o : fobj A L EC P Y) : nat :=
  match fo_trees o with None => 0 | Some ts => length ts end.

(** ** Predictions of the trees *)

Lemma mapM_each : forall {X Y} (f : X -> res Y) (Q : Y -> Prop) l, (forall x, In x l -> exists v, f x = Ok v /\ Q v) ->
  exists r, mapM f l = Ok r /\ length r = length l /\ forall v, In v r -> Q v.
Proof.
  intros X Y f Q l. induction l as [|x l IH]; intros H; cbn [mapM].
  - exists []. repeat split. intros v [].
  - destruct (H x) as (v & Hv & HQ); [simpl; auto|]. rewrite Hv. cbn [bind].
    destruct IH as (r & Hr & Hl & HQr); [intros; apply H; simpl; auto|]. rewrite Hr. cbn [bind].
    exists (v :: r). repeat split; simpl; auto. intros u [<-|Hu]; auto.
Qed.

Lemma clf_tree_rows : forall (E : env R_arith) K d crit st p fb y train valid w s obj,
  good_env E -> valid_fit p fb y train valid w -> valid_labels K st (tp_is_categorical p) y ->
  positive_weights w -> (0 <= d)%R -> train <> [] ->
  clf_obj_fit E K d crit st p fb y train valid w s = Ok obj ->
  forall fb', fba_wf fb' -> fb_n_features fb' = fb_n_features fb ->
  exists pt, obj_predict mix_vec obj fb' = Ok pt /\ length pt = fb_n_samples fb' /\ forall row, In row pt -> distribution K row.
Proof.
  intros E K d crit st p fb y train valid w s obj HE V HL HW Hd Hne H fb' Hwf Hnf.
  unfold clf_obj_fit, obj_fit in H. apply bind_ok in H. destruct H as ([tc g] & Hfit & H). inversion H; subst obj; clear H.
  unfold obj_predict. cbn [ob_tree ob_aggregation ob_step]. unfold tree_predict.
  destruct (mapM_each (predict_one mix_vec (g_tree g) fb' (tp_aggregation p) (tp_step p)) (distribution K) (seq 0 (fb_n_samples fb'))) as (r & R1 & R2 & R3).
  { intros i Hi. apply in_seq in Hi.
    destruct (C34_tree E K d crit st p fb y train valid w s tc g HE V HL HW Hd Hne Hfit fb' i (tp_aggregation p) Hwf ltac:(lia) Hnf (fun e => e)) as (v & V1 & V2 & V3 & V4).
    exists v. split; [exact V1|]. split; [exact V2|]. split; [exact V3|exact V4]. }
  exists r. split; [exact R1|]. split; [rewrite R2, seq_length; reflexivity|exact R3].
Qed.

Lemma reg_tree_rows : forall (E : env R_arith) p fb y train valid w s obj lo hi,
  good_env E -> valid_fit p fb y train valid w -> positive_weights w -> train <> [] ->
  (forall i, In i train -> (lo <= nth i y 0 <= hi)%R) ->
  obj_fit (reg_task E) a0 p fb y train valid w s = Ok obj ->
  forall fb', fba_wf fb' -> fb_n_features fb' = fb_n_features fb ->
  exists pt, obj_predict mix_num obj fb' = Ok pt /\ length pt = fb_n_samples fb' /\ forall v, In v pt -> (lo <= v <= hi)%R.
Proof.
  intros E p fb y train valid w s obj lo hi HE V HW Hne Hb H fb' Hwf Hnf.
  unfold obj_fit in H. apply bind_ok in H. destruct H as ([tc g] & Hfit & H). inversion H; subst obj; clear H.
  unfold obj_predict. cbn [ob_tree ob_aggregation ob_step]. unfold tree_predict.
  destruct (mapM_each (predict_one mix_num (g_tree g) fb' (tp_aggregation p) (tp_step p)) (fun v => (lo <= v <= hi)%R) (seq 0 (fb_n_samples fb'))) as (r & R1 & R2 & R3).
  { intros i Hi. apply in_seq in Hi.
    destruct (C35_tree E p fb y train valid w s tc g HE V HW Hne Hfit lo hi Hb fb' i (tp_aggregation p) Hwf ltac:(lia) Hnf (fun e => e)) as (v & V1 & V2).
    exists v. split; [exact V1|exact V2]. }
  exists r. split; [exact R1|]. split; [rewrite R2, seq_length; reflexivity|exact R3].
Qed.

Section Trees.
Context {E : env R_arith} {L D : Type} {EC : encoding D} (ME : menv E) (float : num R_arith -> Prop).
Context (GM : good_menv float ME) (GE : good_env E) (GK : good_encoding EC).

(** The predictions of the trees of a fitted classifier. *)
Lemma clf_trees_rows : forall leb (HO : total_order leb) (o o1 : clf_forest R_arith L EC) X y sw c,
  legal float o -> enough_classes leb o X y -> positive_sample_weights sw -> (forall d, fo_dirichlet o = Some d -> (0 <= d)%R) ->
  clf_fit leb ME o X y sw = ((o1, None), c) ->
  let o2 := clf_ready leb o y in
  exists seeds enc ts, o1 = fitted_as o2 seeds enc ts (clf_k o2) /\ length ts = Z.to_nat (fo_n_estimators o2) * clf_repeats o2 /\
  (1 <= fo_n_estimators o2)%Z /\ fo_classes o2 = uniq leb y /\ (fo_multiclass o2 = Ovr -> 3 <= length (uniq leb y)) /\
  forall X' fb', ec_transform EC enc X' = Ok fb' -> fb_n_samples fb' = fst (ec_shape EC X') /\
  exists ps, mapM (fun t => obj_predict mix_vec t fb') ts = Ok ps /\
    forall pt, In pt ps -> length pt = fb_n_samples fb' /\ forall row, In row pt -> distribution (clf_k o2) row.
Proof.
  intros leb HO o o1 X y sw c HL HC HW Hd H o2.
  destruct (clf_fit_trees ME float GM GK leb HO o o1 X y sw c HL HC H) as (w & d & mf & rs & enc & fb & ts & H1 & Hy & Hw & Hdd & Hrs & Ha & He & Ht & PK & AL & HT).
  cbv zeta in *. fold o2 in H1, HT.
  destruct (clf_ready_same leb o y) as (Q1 & Q2 & Q3 & Q4 & Q5 & Q6 & Q7 & Q8 & Q9 & Q10 & Q11 & Q12 & Q13). fold o2 in Q1, Q3, Q13.
  exists (all_seeds ME o2 rs (clf_repeats o2)), enc, ts. split; [exact H1|]. split.
  { rewrite <- (Forall2_len _ _ _ HT). rewrite combine_length, seq_length, Nat.min_id. apply (all_seeds_length ME float o2 rs (clf_repeats o2) GM). }
  split; [rewrite Q3; apply (lg_trees _ _ HL)|]. split; [exact Q1|]. split; [intros Ho; apply Q13; exact Ho|].
  intros X' fb' Ht'. destruct (gk_packed _ GK _ _ _ _ _ He Ht') as (K1 & K2 & K3 & K4). destruct (gk_packed _ GK _ _ _ _ _ He Ht) as (_ & _ & K5 & K6).
  split; [exact K3|].
  destruct (mapM_each (fun t => obj_predict mix_vec t fb') (fun pt => length pt = fb_n_samples fb' /\ forall row, In row pt -> distribution (clf_k o2) row) ts) as (ps & P1 & P2 & P3).
  { assert (HF : Forall (fun t => exists v, obj_predict mix_vec t fb' = Ok v /\ length v = fb_n_samples fb' /\ forall row, In row v -> distribution (clf_k o2) row) ts).
    { apply (Forall2_same _ _ _ HT). intros x obj _ (train & valid & counts & w' & B1 & B2 & B3 & V & VL & Hne). cbv zeta in *.
      eapply (clf_tree_rows E (clf_k o2) d); eauto.
      - eapply boot_positive; [exact (gm_draws _ _ GM)|exact B1| |exact B2|].
        + rewrite weights_length; [rewrite codes_length; congruence|]. rewrite codes_length. apply check_weights_length in Hw. congruence.
        + apply clf_weights_positive. eapply check_weights_positive; [exact Hw|]. destruct sw as [[b l]|]; [exact HW|exact I].
      - apply (pk_layout _ K1).
      - congruence. }
    rewrite Forall_forall in HF. exact HF. }
  exists ps. split; [exact P1|exact P3].
Qed.


Lemma mapM_length : forall {X Y} (f : X -> res Y) l r, mapM f l = Ok r -> length r = length l.
Proof. intros X Y f l r H. apply mapM_Forall2 in H. symmetry. eapply Forall2_len; eauto. Qed.

Lemma entry_row : forall (ps : list (list (list R))) n K t i, t < length ps -> i < n ->
  (forall pt, In pt ps -> length pt = n /\ forall row, In row pt -> distribution K row) ->
  distribution K (nth i (nth t ps []) []).
Proof.
  intros ps n K t i Ht Hi H. destruct (H (nth t ps []) (nth_In _ _ Ht)) as [H1 H2]. apply H2. apply nth_In. lia.
Qed.

Lemma distribution_entry : forall K row k, distribution K row -> (0 <= nth k row 0)%R.
Proof.
  intros K row k (H1 & H2 & H3). destruct (Nat.lt_ge_cases k (length row)) as [H|H]; [apply H2; apply nth_In; auto|].
  rewrite nth_overflow by auto. lra.
Qed.

Lemma row_of_entries : forall (row : list R) K f, length row = K -> (forall k, k < K -> nth k row 0%R = f k) ->
  Rsum row = Rsum (map f (seq 0 K)) /\ forall x, In x row -> exists k, k < K /\ x = f k.
Proof.
  intros row K f HK Hf. split.
  - rewrite nth_sum, HK. apply Rsum_ext. intros k Hk. apply in_seq in Hk. apply Hf. lia.
  - intros x Hx. destruct (In_nth row x 0%R Hx) as (k & H1 & H2). exists k. split; [lia|]. rewrite <- H2. apply Hf. lia.
Qed.

Lemma in_matrix : forall (out : list (list R)) n K f r0, matrix out n K f -> In r0 out -> exists i, i < n /\ length r0 = K /\ forall k, k < K -> nth k r0 0%R = f i k.
Proof.
  intros out n K f r0 [H1 H2] Hr. destruct (In_nth_error _ _ Hr) as (i & Hi). exists i.
  assert (Hlt : i < n) by (rewrite <- H1; apply nth_error_Some; congruence). split; [exact Hlt|].
  destruct (H2 i Hlt) as (r1 & R1 & R2 & R3). assert (r1 = r0) by congruence. subst r1. auto.
Qed.

(** ** C34 *)

Theorem C34_forest : forall leb (HO : total_order leb) (o o1 : clf_forest R_arith L EC) X y sw c,
  legal float o -> enough_classes leb o X y -> positive_sample_weights sw -> (forall d, fo_dirichlet o = Some d -> (0 <= d)%R) ->
  clf_fit leb ME o X y sw = ((o1, None), c) ->
  (* any data the encoder accepts, any order of the threads, any threshold *)
  forall X' enc fb', fo_encoder o1 = Some enc -> ec_transform EC enc X' = Ok fb' ->
  forall small order, (forall s, small s = false -> s <> 0%R) -> Permutation order (seq 0 (n_trees o1)) ->
  exists ps rows,
    predict_proba_trees o1 X' = Ok ps /\ length ps = n_trees o1 /\
    (forall pt, In pt ps -> length pt = fst (ec_shape EC X') /\ forall row, In row pt -> distribution (fo_tree_classes o1) row) /\
    predict_proba small order o1 X' = Ok rows /\ length rows = fst (ec_shape EC X') /\
    forall row, In row rows -> distribution (length (fo_classes o1)) row.
Proof.
  intros leb HO o o1 X y sw c HL HC HW Hd H X' enc fb' Henc Ht small order Hs HP.
  destruct (clf_trees_rows leb HO o o1 X y sw c HL HC HW Hd H) as (seeds & enc' & ts & H1 & H2 & H3 & H4 & H5 & H6).
  set (o2 := clf_ready leb o y) in *. subst o1. cbn [fo_encoder fitted_as w_fitted w_trees w_encoder] in Henc. injection Henc as ->.
  destruct (H6 X' fb' Ht) as (Hn & ps & P1 & P2). rewrite <- Hn.
  cbn [n_trees fo_trees fitted_as w_fitted w_trees] in HP. change (n_trees (fitted_as o2 seeds enc ts (clf_k o2))) with (length ts) in *.
  assert (HT : 1 <= length ts).
  { rewrite H2. unfold clf_repeats. rewrite H4. assert (1 <= Z.to_nat (fo_n_estimators o2)) by lia.
    destruct (fo_multiclass o2); [lia|]. specialize (H5 eq_refl). nia. }
  pose proof (mapM_length _ _ _ P1) as Lp. change (@length (list (list R)) ps = length ts) in Lp.
  assert (Eh : predict_helper (fitted_as o2 seeds enc ts (clf_k o2)) X' = Ok (fb', ts)).
  { rewrite fitted_as_helper, Ht. reflexivity. }
  exists ps. unfold predict_proba_trees, predict_proba. rewrite Eh. cbn [bind].
  cbn [fo_fitted fitted_as w_fitted negb fo_multiclass fo_n_estimators fo_classes w_trees w_encoder w_seeds fo_tree_classes].
  destruct (fo_multiclass o2) eqn:Em.
  - assert (EK : clf_k o2 = length (fo_classes o2)) by (unfold clf_k; rewrite Em; reflexivity). rewrite EK in *.
    destruct (accumulate_multinomial (Z.to_nat (fo_n_estimators o2)) ts fb' ps (length (fo_classes o2)) order P1) as (out & A1 & A2 & A3).
    { intros pt Hpt. destruct (P2 pt Hpt) as [P3 P4]. split; [exact P3|]. intros row Hr. apply (P4 row Hr). }
    { exact HP. }
    rewrite A1. cbn [bind]. exists (map (map (fun x => @adiv R_arith x (aofnat (length ts)))) out).
    split; [exact P1|]. split; [exact Lp|]. split; [exact P2|]. split; [reflexivity|]. split; [rewrite map_length; exact A2|].
    intros row Hr. apply in_map_iff in Hr. destruct Hr as (r0 & <- & Hr). destruct (in_matrix out _ _ _ r0 (conj A2 A3) Hr) as (i & Hlt & R2 & R3).
    assert (HD : forall t, In t (seq 0 (length ts)) -> distribution (length (fo_classes o2)) (nth i (nth t ps []) [])).
    { intros t Ht'. apply in_seq in Ht'. apply (entry_row ps (fb_n_samples fb')); auto. rewrite Lp. lia. }
    destruct (row_of_entries r0 _ _ R2 R3) as [S1 S2].
    assert (HTp : (0 < INR (length ts))%R) by (apply lt_0_INR; lia).
    split; [rewrite map_length; exact R2|]. split.
    + intros x Hx. apply in_map_iff in Hx. destruct Hx as (z & <- & Hz). destruct (S2 z Hz) as (k & Hk & ->).
      apply Rmult_le_pos; [|left; apply Rinv_0_lt_compat; exact HTp]. apply Rsum_nonneg. intros v Hv. apply in_map_iff in Hv.
      destruct Hv as (t & <- & Ht'). unfold tree_entry. eapply distribution_entry; eauto.
    + transitivity (Rsum r0 / INR (length ts))%R.
      { change (map (fun x => @adiv R_arith x (aofnat (length ts))) r0) with (map (fun x => (x / INR (length ts))%R) r0).
        unfold Rdiv. rewrite Rmult_comm. rewrite <- (map_id r0) at 2. rewrite <- (Rsum_scal (fun x => x)). apply Rsum_ext. intros; lra. }
      rewrite S1. rewrite Rsum_swap.
      rewrite (Rsum_ext _ (fun _ => 1%R)).
      { rewrite Rsum_const, seq_length. field. lra. }
      intros t Ht'. destruct (HD t Ht') as (D1 & D2 & D3). unfold tree_entry.
      transitivity (Rsum (nth i (nth t ps []) [])); [|exact D3]. rewrite (nth_sum (nth i (nth t ps []) [])). change (@length R (nth i (nth t ps []) []) = length (fo_classes o2)) in D1. rewrite D1. reflexivity.
  - assert (EK : clf_k o2 = 2) by (unfold clf_k; rewrite Em; reflexivity). rewrite EK in *.
    assert (ET : length ts = Z.to_nat (fo_n_estimators o2) * length (fo_classes o2)) by (rewrite H2; unfold clf_repeats; rewrite Em; reflexivity).
    destruct (accumulate_ovr (Z.to_nat (fo_n_estimators o2)) ts fb' ps (length (fo_classes o2)) order) as (out & A1 & A2 & A3); auto.
    { lia. }
    { intros pt Hpt. destruct (P2 pt Hpt) as [P3 P4]. split; [exact P3|]. intros row Hr. apply (P4 row Hr). }
    rewrite A1. cbn [bind]. exists (map (@normalise_ovr R_arith small (length (fo_classes o2))) out).
    split; [exact P1|]. split; [exact Lp|]. split; [exact P2|]. split; [reflexivity|]. split; [rewrite map_length; exact A2|].
    intros row Hr. apply in_map_iff in Hr. destruct Hr as (r0 & <- & Hr). destruct (in_matrix out _ _ _ r0 (conj A2 A3) Hr) as (i & Hlt & R2 & R3).
    destruct (row_of_entries r0 _ _ R2 R3) as [S1 S2].
    assert (Hpos : forall x, In x r0 -> (0 <= x)%R).
    { intros x Hx. destruct (S2 x Hx) as (k & Hk & ->). apply Rsum_nonneg. intros v Hv. apply in_map_iff in Hv.
      destruct Hv as (t & <- & Ht'). apply in_seq in Ht'. destruct (k =? t / Z.to_nat (fo_n_estimators o2)); [|lra]. unfold tree_entry.
      apply (distribution_entry 2). apply (entry_row ps (fb_n_samples fb')); auto. rewrite Lp. lia. }
    pose proof (Rsum_nonneg r0 Hpos) as Hs0. unfold normalise_ovr.
    assert (Ea : @asum R_arith r0 = Rsum r0) by apply asum_R. rewrite Ea.
    assert (HK : (0 < INR (length (fo_classes o2)))%R). { apply lt_0_INR. rewrite H4. specialize (H5 eq_refl). lia. }
    destruct (small (Rsum r0)) eqn:Es.
    + split; [apply repeat_length|]. split.
      * intros x Hx. apply repeat_spec in Hx. subst x. change (0 <= 1 / INR (length (fo_classes o2)))%R. left. apply Rdiv_lt_0_compat; lra.
      * set (K := length (fo_classes o2)) in *.
        assert (Hrep : forall m v, Rsum (repeat v m) = (INR m * v)%R).
        { induction m as [|m IH]; intros v; cbn [repeat Rsum]; [simpl; lra|]. rewrite IH, S_INR. lra. }
        change (Rsum (repeat (1 / INR K)%R K) = 1%R). rewrite Hrep. field. lra.
    + pose proof (Hs _ Es) as Hne.
      change (distribution (length (fo_classes o2)) (map (fun x => (x / Rsum r0)%R) r0)).
      split; [rewrite map_length; exact R2|]. split.
      * intros x Hx. apply in_map_iff in Hx. destruct Hx as (z & <- & Hz). apply Rmult_le_pos; [apply Hpos; auto|]. left. apply Rinv_0_lt_compat. lra.
      * transitivity (Rsum r0 / Rsum r0)%R; [|field; exact Hne]. unfold Rdiv. rewrite (Rmult_comm (Rsum r0)). rewrite <- (map_id r0) at 3.
        rewrite <- (Rsum_scal (fun x => x)). apply Rsum_ext. intros; lra.
Qed.

(** ** C35 *)

Lemma reg_trees_rows : forall (o o1 : reg_forest R_arith L EC) X y sw c lo hi,
  legal float o -> positive_sample_weights sw -> (forall v, In v y -> (lo <= v <= hi)%R) ->
  reg_fit ME o X y sw = ((o1, None), c) ->
  exists seeds enc ts, o1 = fitted_as o seeds enc ts 0 /\ 1 <= length ts /\
  forall X' fb', ec_transform EC enc X' = Ok fb' -> fb_n_samples fb' = fst (ec_shape EC X') /\
  exists ps, mapM (fun t => obj_predict mix_num t fb') ts = Ok ps /\
    forall pt, In pt ps -> length pt = fb_n_samples fb' /\ forall v, In v pt -> (lo <= v <= hi)%R.
Proof.
  intros o o1 X y sw c lo hi HL HW Hb H.
  destruct (reg_fit_trees ME float GM GK o o1 X y sw c HL H) as (w & mf & rs & enc & fb & ts & H1 & Hy & Hw & Hrs & He & Ht & PK & AL & HT).
  cbv zeta in *. destruct (gk_packed _ GK _ _ _ _ _ He Ht) as (_ & _ & K5 & K6).
  exists (all_seeds ME o rs 1), enc, ts. split; [exact H1|]. split.
  { pose proof (Forall2_len _ _ _ HT) as Hl. rewrite combine_length, seq_length, Nat.min_id in Hl. rewrite (all_seeds_length ME float o rs 1 GM) in Hl.
    pose proof (lg_trees _ _ HL). apply (Nat.le_trans _ (Z.to_nat (fo_n_estimators o) * 1)); [lia|]. apply Nat.eq_le_incl. exact Hl. }
  intros X' fb' Ht'. destruct (gk_packed _ GK _ _ _ _ _ He Ht') as (K1 & K2 & K3 & K4). split; [exact K3|].
  destruct (mapM_each (fun t => obj_predict mix_num t fb') (fun pt => length pt = fb_n_samples fb' /\ forall v, In v pt -> (lo <= v <= hi)%R) ts) as (ps & P1 & P2 & P3).
  { assert (HF : Forall (fun t => exists v, obj_predict mix_num t fb' = Ok v /\ length v = fb_n_samples fb' /\ forall z, In z v -> (lo <= z <= hi)%R) ts).
    { apply (Forall2_same _ _ _ HT). intros x obj _ (train & valid & counts & w' & B1 & B2 & B3 & V & Hne). cbv zeta in *.
      eapply (reg_tree_rows E); eauto.
      - eapply boot_positive; [exact (gm_draws _ _ GM)|exact B1| |exact B2|].
        + apply check_weights_length in Hw. congruence.
        + eapply check_weights_positive; [exact Hw|]. destruct sw as [[b l]|]; [exact HW|exact I].
      - intros i Hi. apply Hb. apply nth_In. pose proof (vf_train _ _ _ _ _ _ V i Hi) as Hv. pose proof (vf_y _ _ _ _ _ _ V) as Hvy. rewrite <- Hvy in Hv. exact Hv.
      - apply (pk_layout _ K1).
      - congruence. }
    rewrite Forall_forall in HF. exact HF. }
  exists ps. split; [exact P1|exact P3].
Qed.

Theorem C35_forest : forall (o o1 : reg_forest R_arith L EC) X y sw c lo hi,
  legal float o -> positive_sample_weights sw -> (forall v, In v y -> (lo <= v <= hi)%R) ->
  reg_fit ME o X y sw = ((o1, None), c) ->
  forall X' enc fb', fo_encoder o1 = Some enc -> ec_transform EC enc X' = Ok fb' ->
  forall order, Permutation order (seq 0 (n_trees o1)) ->
  exists rows, predict_reg order o1 X' = Ok rows /\ length rows = fst (ec_shape EC X') /\
    forall v, In v rows -> (lo <= v <= hi)%R.
Proof.
  intros o o1 X y sw c lo hi HL HW Hb H X' enc fb' Henc Ht order HP.
  destruct (reg_trees_rows o o1 X y sw c lo hi HL HW Hb H) as (seeds & enc' & ts & H1 & HT & H6).
  subst o1. cbn [fo_encoder fitted_as w_fitted w_trees w_encoder] in Henc. injection Henc as ->.
  destruct (H6 X' fb' Ht) as (Hn & ps & P1 & P2). rewrite <- Hn.
  change (n_trees (fitted_as o seeds enc ts 0)) with (length ts) in *.
  pose proof (mapM_length _ _ _ P1) as Lp. change (@length (list R) ps = length ts) in Lp.
  unfold predict_reg. rewrite fitted_as_helper, Ht. cbn [bind].
  destruct (accumulate_reg ts fb' ps order P1) as (out & A1 & A2 & A3).
  { intros pt Hpt. apply (P2 pt Hpt). } { exact HP. }
  rewrite A1. cbn [bind]. exists (map (fun x => @adiv R_arith x (aofnat (length ts))) out).
  split; [reflexivity|]. split; [rewrite map_length; exact A2|].
  intros v Hv. apply in_map_iff in Hv. destruct Hv as (z & <- & Hz). destruct (In_nth out z 0%R Hz) as (i & Hi & Ez).
  change (@length R out = fb_n_samples fb') in A2. change (i < @length R out) in Hi. rewrite A2 in Hi. change (nth i out 0%R = z) in Ez. rewrite A3 in Ez by exact Hi. subst z.
  set (f := fun t : nat => nth i (nth t ps []) 0%R) in *. change (lo <= Rsum (map f (seq 0 (length ts))) / INR (length ts) <= hi)%R.
  assert (HTp : (0 < INR (length ts))%R) by (apply lt_0_INR; lia).
  assert (Hf : forall t, In t (seq 0 (length ts)) -> (lo <= f t <= hi)%R).
  { intros t Ht'. apply in_seq in Ht'. destruct (P2 (nth t ps []) (nth_In ps [] (eq_ind_r (fun m => t < m) (proj2 Ht') Lp))) as [P3 P4].
    apply P4. exact (@nth_In R i (nth t ps []) 0%R (eq_ind_r (fun m => i < m) Hi P3)). }
  assert (H1 : (INR (length ts) * lo <= Rsum (map f (seq 0 (length ts))))%R).
  { rewrite <- (seq_length (length ts) 0) at 1. rewrite <- Rsum_const. apply Rsum_le. intros t Ht'. apply Hf; auto. }
  assert (H2 : (Rsum (map f (seq 0 (length ts))) <= INR (length ts) * hi)%R).
  { rewrite <- (seq_length (length ts) 0) at 2. rewrite <- Rsum_const. apply Rsum_le. intros t Ht'. apply Hf; auto. }
  split; [apply Rmult_le_reg_r with (INR (length ts)); [exact HTp|]|apply Rmult_le_reg_r with (INR (length ts)); [exact HTp|]];
    unfold Rdiv; rewrite Rmult_assoc, Rinv_l by lra; lra.
Qed.

(** ** C38 *)

Lemma ready_dirichlet : forall leb (o : clf_forest R_arith L EC) y v, clf_ready leb (w_dirichlet o v) y = w_dirichlet (clf_ready leb o y) v.
Proof.
  intros leb o y v. unfold clf_ready. cbn [fo_multiclass w_dirichlet]. destruct (fo_multiclass o); [reflexivity|].
  destruct (length (uniq leb y) <=? 2); reflexivity.
Qed.

Lemma fitted_dirichlet : forall (o : clf_forest R_arith L EC) seeds enc ts k d x, fo_dirichlet o = Some d -> (0 <= x)%R -> num_eqb d x = false ->
  forall ts', each_tree (set_dirichlet E k x) ts = (ts', None) ->
  set_fdirichlet E (PyFloat x) (fitted_as o seeds enc ts k) = (fitted_as (w_dirichlet o (Some x)) seeds enc ts' k, None).
Proof.
  intros o seeds enc ts k d x Hd Hx Hn ts' H. unfold set_fdirichlet. cbn [as_float].
  assert (Hlt : altb x a0 = false) by (apply Rltb_false; exact Hx). rewrite Hlt.
  change (fo_dirichlet (fitted_as o seeds enc ts k)) with (fo_dirichlet o). rewrite Hd, Hn.
  change (fo_fitted (fitted_as o seeds enc ts k)) with true. cbn [negb andb].
  change (fo_tree_classes (fitted_as o seeds enc ts k)) with k.
  unfold on_trees. change (fo_trees (w_dirichlet (fitted_as o seeds enc ts k) (Some x))) with (Some ts). cbv beta iota. rewrite H. reflexivity.
Qed.

Theorem C38_forest : forall leb (HO : total_order leb) (o o1 : clf_forest R_arith L EC) X y sw c x,
  legal float o -> enough_classes leb o X y -> fo_fitted o = false -> fo_aggregation o = true ->
  positive_sample_weights sw -> (forall d, fo_dirichlet o = Some d -> (0 <= d)%R) -> (0 < x)%R ->
  clf_fit leb ME o X y sw = ((o1, None), c) ->
  exists o' o2, set_fdirichlet E (PyFloat x) o = (o', None) /\ set_fdirichlet E (PyFloat x) o1 = (o2, None) /\
    clf_fit leb ME o' X y sw = ((o2, None), c).
Proof.
  intros leb HO o o1 X y sw c x HL HC Hf Hagg HW Hd Hx H.
  destruct (clf_fit_conds leb ME o X y sw o1 c H) as (w & d & C1 & C2 & C3 & C4 & C5).
  exists (w_dirichlet o (Some x)).
  assert (Hlt : @altb R_arith x a0 = false) by (apply Rltb_false; left; exact Hx).
  assert (S1 : set_fdirichlet E (PyFloat x) o = (w_dirichlet o (Some x), None)).
  { unfold set_fdirichlet. cbn [as_float]. rewrite Hlt, Hf. reflexivity. }
  assert (Hxz : @aisz R_arith x = false).
  { change ((if Req_EM_T x 0 then true else false) = false). destruct (Req_EM_T x 0); [lra|reflexivity]. }
  destruct (num_eqb d x) eqn:En.
  - (* the same value *)
    pose proof (num_eqb_R d x En) as ->. assert (Eo : w_dirichlet o (Some x) = o) by (destruct o; cbn in *; subst; reflexivity).
    rewrite Eo. exists o1. split; [rewrite <- Eo at 2; exact S1|]. split; [|exact H].
    rewrite (clf_fit_eq leb ME o X y sw w x C1 C2 C3 C4 C5) in H. injection H as H Hc.
    destruct (fit_end_inv ME _ _ _ _ _ _ H) as (mf & rs & enc & fb & ts & _ & _ & _ & _ & _ & H6).
    assert (E1 : fo_dirichlet o1 = Some x). { rewrite H6. cbn. unfold clf_ready. destruct (fo_multiclass o); [exact C4|]. destruct (length (uniq leb y) <=? 2); exact C4. }
    unfold set_fdirichlet. cbn [as_float]. rewrite Hlt, E1, En. cbn [negb]. rewrite andb_false_r.
    assert (E2 : w_dirichlet o1 (Some x) = o1) by (destruct o1; cbn in *; subst; reflexivity). exact (f_equal (fun z => (z, @None err)) E2).
  - set (o2 := clf_ready leb o y). assert (H' := H). rewrite (clf_fit_eq leb ME o X y sw w d C1 C2 C3 C4 C5) in H'. injection H' as H' Hc.
    destruct (clf_ready_same leb o y) as (Q1 & Q2 & Q3 & Q4 & Q5 & Q6 & Q7 & Q8 & Q9 & Q10 & Q11 & Q12 & Q13).
    assert (Ed2 : fo_dirichlet o2 = Some d). { unfold o2, clf_ready. destruct (fo_multiclass o); [exact C4|]. destruct (length (uniq leb y) <=? 2); exact C4. }
    destruct (fit_end_change ME o2 (w_dirichlet o2 (Some x)) X (clf_repeats o2) (clf_k o2) (clf_build leb ME o2 y w d) (clf_build leb ME o2 y w x) (set_dirichlet E (clf_k o2) x) o1)
      as (rs & enc & ts & ts' & G1 & G2 & G3); try reflexivity; [exact H'| |].
    { intros mf enc fb t seed obj Hmf He Ht Hb.
      destruct (clf_fit_call ME float GM GK leb HO o X y w d mf enc fb t seed obj HL HC C1 ltac:(apply check_weights_length in C2; congruence) Hmf He Ht Hb)
        as (train & valid & counts & w' & B1 & B2 & B3 & V & VL & Hne). fold o2 in B2, B3, V, VL.
      destruct (params_ok ME float GM GK o2 X mf enc fb (ready_legal leb float o y HL) Hmf He Ht) as (PK & AL & Hn & _).
      assert (HP : positive_weights w').
      { eapply boot_positive; [exact (gm_draws _ _ GM)|exact B1| |exact B2|].
        + rewrite weights_length; [rewrite codes_length; congruence|]. rewrite codes_length. apply check_weights_length in C2. congruence.
        + apply clf_weights_positive. eapply check_weights_positive; [exact C2|]. destruct sw as [[b l]|]; [exact HW|exact I]. }
      assert (Hag : tp_aggregation (tree_params_of o2 mf (ec_cats EC enc)) = true) by (cbn [tree_params_of tp_aggregation]; unfold o2; rewrite Q6; exact Hagg).
      destruct (C38_dirichlet_positive E (clf_k o2) d x (crit_of (fo_criterion o2)) (fo_strategy o2) _ fb _ train valid w' (me_seed ME seed) GE V VL Hag HP Hne (Hd d C4) ltac:(lra))
        as (a & b & D1 & D2 & D3).
      assert (a = obj) by congruence. subst a. exists b. split; [exact D3|].
      unfold clf_build, build_tree. cbn [fo_multiclass w_dirichlet]. rewrite B1. cbn [bind]. rewrite B2. cbn [bind]. exact D2. }
    exists (fitted_as (w_dirichlet o2 (Some x)) (all_seeds ME o2 rs (clf_repeats o2)) enc ts' (clf_k o2)).
    split; [exact S1|]. split.
    { rewrite G1. eapply fitted_dirichlet; eauto. lra. }
    rewrite (clf_fit_eq leb ME (w_dirichlet o (Some x)) X y sw w x); auto.
    + rewrite ready_dirichlet. fold o2. f_equal; [exact G3|]. rewrite <- Hc. reflexivity.
    + cbn [fo_aggregation w_dirichlet]. rewrite Hxz. apply andb_false_r.
Qed.

(** ** C48 *)

Lemma mapM_err : forall {X Y} (f : X -> res Y) l e, mapM f l = Err e -> exists x, In x l /\ f x = Err e.
Proof.
  intros X Y f l e. induction l as [|x l IH]; cbn [mapM]; intros H; [discriminate|].
  destruct (f x) as [v|e'] eqn:Ef; cbn [bind] in H.
  - destruct (mapM f l) as [r|e'']; cbn [bind] in H; [discriminate|]. destruct IH as (z & Hz & Hf); [congruence|]. exists z. simpl; auto.
  - exists x. split; [simpl; auto|]. congruence.
Qed.

Lemma bootstrap_err : forall limit randint s n e, in_range_draws randint -> generate_train_valid limit randint s n = Err e ->
  e = Recursion /\ forall k, k < limit -> ~ leaves_out (randint (attempt s k) n) n.
Proof.
  intros limit randint s n e HR H.
  assert (G : forall k, k < limit -> ~ leaves_out (randint (attempt s k) n) n).
  { intros k Hk Hl. destruct (C15_returns limit randint s n HR) as (a & b & c & Ho); [eauto|]. congruence. }
  split; [|exact G]. rewrite (C15_fails limit randint s n HR G) in H. congruence.
Qed.

(** When each tree is built or stops with a RecursionError, so does the forest. *)
Lemma fit_end_total : forall {P Y} (o : fobj R_arith L EC P Y) X r k build mf rs enc fb (fails : N -> Prop),
  get_max_features ME (fo_max_features o) (snd (ec_shape EC X)) = Ok mf -> fo_random_state o = Some rs ->
  ec_fit EC (fo_max_bins o) X = Ok enc -> ec_transform EC enc X = Ok fb ->
  (forall t seed, (exists obj, build (tree_params_of o mf (ec_cats EC enc)) fb t seed = Ok obj) \/
                  (build (tree_params_of o mf (ec_cats EC enc)) fb t seed = Err Recursion /\ fails seed)) ->
  exists o1 e, fit_end ME o X r k build = (o1, e) /\
    (e = None \/ (e = Some Recursion /\ exists seed, In seed (me_seeds ME rs (Z.to_nat (fo_n_estimators o))) /\ fails seed)).
Proof.
  intros P Y o X r k build mf rs enc fb fails H1 H2 H3 H4 H5. unfold fit_end. rewrite H1, H2, H3. cbn [bind]. rewrite H4. cbn [bind].
  fold (all_seeds ME o rs r). set (seeds := all_seeds ME o rs r).
  destruct (mapM _ _) as [ts|e] eqn:Em.
  - eexists _, _. split; [reflexivity|]. auto.
  - apply mapM_err in Em. destruct Em as ([t seed] & Hin & Hb).
    destruct (H5 t seed) as [(obj & Ho)|[He Hfl]]; [congruence|]. assert (e = Recursion) by congruence. subst e.
    eexists _, _. split; [reflexivity|]. right. split; [reflexivity|]. exists seed. split; [|exact Hfl].
    apply in_combine_r, in_flat_map in Hin. destruct Hin as (s & Hs & Hr). apply repeat_spec in Hr. subst. exact Hs.
Qed.

Theorem C48_forest_classifier : forall leb (HO : total_order leb) (o : clf_forest R_arith L EC) X y sw d rs mf enc fb,
  legal float o -> enough_classes leb o X y -> length y = fst (ec_shape EC X) ->
  positive_sample_weights sw -> (forall b l, sw = Some (b, l) -> length l = length y) ->
  fo_dirichlet o = Some d -> (0 <= d)%R -> (fo_aggregation o = true -> (0 < d)%R) ->
  (fo_multiclass o = Ovr -> length (uniq leb y) <= 2 -> fo_fitted o = false) ->
  fo_random_state o = Some rs -> get_max_features ME (fo_max_features o) (snd (ec_shape EC X)) = Ok mf ->
  ec_fit EC (fo_max_bins o) X = Ok enc -> ec_transform EC enc X = Ok fb ->
  (* fit succeeds, unless the bootstrap of some tree reaches the recursion limit *)
  exists o1 e c, clf_fit leb ME o X y sw = ((o1, e), c) /\
    (e = None \/ (e = Some Recursion /\ exists seed, In seed (me_seeds ME rs (Z.to_nat (fo_n_estimators o))) /\
       forall k, k < me_limit ME -> ~ leaves_out (me_randint ME (attempt seed k) (length y)) (length y))).
Proof.
  intros leb HO o X y sw d rs mf enc fb HL HC Hy HW Hsw Hd Hd0 Hda Hm Hrs Hmf He Ht.
  assert (Ew : exists w, check_weights (fst (ec_shape EC X)) (option_map snd sw) = Ok w).
  { unfold check_weights. destruct sw as [[b l]|]; cbn [option_map snd]; [|eauto].
    pose proof (eq_trans (Hsw b l eq_refl) Hy) as Hlen. apply Nat.eqb_eq in Hlen. change (num R_arith) with R in *. rewrite Hlen. eauto. }
  destruct Ew as (w & Hw).
  assert (Ha : (fo_aggregation o && @aisz R_arith d)%bool = false).
  { destruct (fo_aggregation o); [|reflexivity]. specialize (Hda eq_refl). change ((if Req_EM_T d 0 then true else false) = false). destruct (Req_EM_T d 0); [lra|reflexivity]. }
  rewrite (clf_fit_eq leb ME o X y sw w d Hy Hw Hm Hd Ha). set (o2 := clf_ready leb o y).
  destruct (clf_ready_same leb o y) as (Q1 & Q2 & Q3 & Q4 & Q5 & Q6 & Q7 & Q8 & Q9 & Q10 & Q11 & Q12 & Q13). fold o2 in Q2, Q11, Q12, Q7.
  rewrite <- Q2 in Hmf. rewrite <- Q11 in Hrs. rewrite <- Q12 in He.
  destruct (params_ok ME float GM GK o2 X mf enc fb (ready_legal leb float o y HL) Hmf He Ht) as (PK & AL & Hn & P1 & P2 & P3 & P4).
  destruct (fit_end_total o2 X (clf_repeats o2) (clf_k o2) (clf_build leb ME o2 y w d) mf rs enc fb
    (fun seed => forall k, k < me_limit ME -> ~ leaves_out (me_randint ME (attempt seed k) (length y)) (length y)) Hmf Hrs He Ht) as (o1 & e & E1 & E2).
  - intros t seed. unfold clf_build, build_tree. rewrite Hn, <- Hy.
    destruct (generate_train_valid (me_limit ME) (me_randint ME) seed (length y)) as [[[train valid] counts]|e] eqn:Eg.
    + left. assert (Hwl : length w = length y) by (apply check_weights_length in Hw; congruence).
      set (cw := clf_weights o2 w (clf_codes leb o2 y t)) in *.
      assert (Lw : length cw = length y) by (unfold cw; rewrite weights_length; rewrite codes_length; auto).
      destruct (@C14_weights R_arith _ _ _ _ _ _ _ cw (gm_draws _ _ GM) Eg Lw) as (w' & l & B2 & _).
      assert (Eg' : generate_train_valid (me_limit ME) (me_randint ME) seed (fb_n_samples fb) = Ok (train, valid, counts)) by congruence.
      destruct (build_tree_valid ME float (tree_params_of o2 mf (ec_cats EC enc)) fb (clf_codes leb o2 y t) cw seed train valid counts w' GM PK) as (V & V1 & V2); auto.
      { rewrite codes_length. congruence. } { congruence. }
      assert (VL : valid_labels (clf_k o2) (fo_strategy o2) (ec_cats EC enc) (clf_codes leb o2 y t)).
      { apply ready_labels; auto.
        - intros Hc Hs. rewrite Q12 in He. eapply HC; eauto.
        - intros ->. destruct train as [|i train]; [congruence|]. pose proof (vf_train _ _ _ _ _ _ V i ltac:(simpl; auto)). simpl in Hy. lia. }
      assert (HP : positive_weights w').
      { eapply boot_positive; [exact (gm_draws _ _ GM)|exact Eg|exact Lw|exact B2|].
        apply clf_weights_positive. eapply check_weights_positive; [exact Hw|]. destruct sw as [[b q]|]; [exact HW|exact I]. }
      destruct (C48_classifier E (clf_k o2) d (crit_of (fo_criterion o2)) (fo_strategy o2) _ fb _ train valid w' (me_seed ME seed) GE V VL HP Hd0 V1) as (tc & g & Hf).
      cbn [bind]. rewrite B2. cbn [bind]. unfold obj_fit. rewrite Hf. eexists. reflexivity.
    + right. destruct (bootstrap_err _ _ _ _ _ (gm_draws _ _ GM) Eg) as [-> Hfl]. split; [reflexivity|exact Hfl].
  - exists o1, e, (clf_caller leb o2 y w sw). rewrite E1. split; [reflexivity|].
    assert (En : fo_n_estimators o2 = fo_n_estimators o).
    { unfold o2, clf_ready. destruct (fo_multiclass o); [reflexivity|]. destruct (length (uniq leb y) <=? 2); reflexivity. }
    rewrite En in E2. exact E2.
Qed.

Theorem C48_forest_regressor : forall (o : reg_forest R_arith L EC) X y (sw : option (bool * list (num R_arith))) rs mf enc fb,
  legal float o -> length y = fst (ec_shape EC X) ->
  positive_sample_weights sw -> (forall b l, sw = Some (b, l) -> length l = length y) ->
  fo_random_state o = Some rs -> get_max_features ME (fo_max_features o) (snd (ec_shape EC X)) = Ok mf ->
  ec_fit EC (fo_max_bins o) X = Ok enc -> ec_transform EC enc X = Ok fb ->
  exists o1 e c, reg_fit ME o X y sw = ((o1, e), c) /\
    (e = None \/ (e = Some Recursion /\ exists seed, In seed (me_seeds ME rs (Z.to_nat (fo_n_estimators o))) /\
       forall k, k < me_limit ME -> ~ leaves_out (me_randint ME (attempt seed k) (length y)) (length y))).
Proof.
  intros o X y sw rs mf enc fb HL Hy HW Hsw Hrs Hmf He Ht.
  assert (Ew : exists w, check_weights (fst (ec_shape EC X)) (option_map snd sw) = Ok w).
  { unfold check_weights. destruct sw as [[b l]|]; cbn [option_map snd]; [|eauto].
    pose proof (eq_trans (Hsw b l eq_refl) Hy) as Hlen. apply Nat.eqb_eq in Hlen. rewrite Hlen. eauto. }
  destruct Ew as (w & Hw).
  destruct (params_ok ME float GM GK o X mf enc fb HL Hmf He Ht) as (PK & AL & Hn & P1 & P2 & P3 & P4).
  unfold reg_fit. assert (Hyb : negb (length y =? fst (ec_shape EC X)) = false) by (apply negb_false_iff, Nat.eqb_eq; exact Hy). rewrite Hyb, Hw.
  destruct (fit_end_total o X 1 0 (fun p fb (_ : nat) seed => build_tree ME (reg_task E) a0 p fb y w seed) mf rs enc fb
    (fun seed => forall k, k < me_limit ME -> ~ leaves_out (me_randint ME (attempt seed k) (length y)) (length y)) Hmf Hrs He Ht) as (o1 & e & E1 & E2).
  - intros t seed. unfold build_tree. rewrite Hn, <- Hy.
    destruct (generate_train_valid (me_limit ME) (me_randint ME) seed (length y)) as [[[train valid] counts]|e] eqn:Eg.
    + left. assert (Hwl : length w = length y) by (apply check_weights_length in Hw; congruence).
      destruct (@C14_weights R_arith _ _ _ _ _ _ _ w (gm_draws _ _ GM) Eg Hwl) as (w' & l & B2 & _).
      assert (Eg' : generate_train_valid (me_limit ME) (me_randint ME) seed (fb_n_samples fb) = Ok (train, valid, counts)) by (rewrite Hn, <- Hy; exact Eg).
      destruct (build_tree_valid ME float (tree_params_of o mf (ec_cats EC enc)) fb y w seed train valid counts w' GM PK) as (V & V1 & V2); auto.
      { rewrite Hn. exact Hy. } { rewrite Hn, <- Hy. exact Hwl. }
      assert (HP : positive_weights w').
      { eapply boot_positive; [exact (gm_draws _ _ GM)|exact Eg|exact Hwl|exact B2|].
        eapply check_weights_positive; [exact Hw|]. destruct sw as [[b q]|]; [exact HW|exact I]. }
      destruct (C48_regressor E _ fb y train valid w' (me_seed ME seed) GE V HP V1) as (tc & g & Hf).
      cbn [bind]. rewrite B2. cbn [bind]. unfold obj_fit. rewrite Hf. eexists. reflexivity.
    + right. destruct (bootstrap_err _ _ _ _ _ (gm_draws _ _ GM) Eg) as [-> Hfl]. split; [reflexivity|exact Hfl].
  - eexists o1, e, _. rewrite E1. split; [reflexivity|exact E2].
Qed.
End Trees.
Print Assumptions C34_forest.
Print Assumptions C35_forest.
Print Assumptions C38_forest.
Print Assumptions C48_forest_classifier.
Print Assumptions C48_forest_regressor.
