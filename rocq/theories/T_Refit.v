(** * C41, C46 and C52: one-versus-rest seeds, changes after fit, failing fits *)

Require Import String Bool List Arith Lia NArith ZArith QArith.
Require Import Verif.Base Verif.Num Verif.M_Bitarray Verif.M_Utils Verif.M_Context Verif.M_Split
  Verif.M_Tree Verif.M_Grow Verif.M_Object Verif.M_Forest Verif.S_Forest Verif.P_Forest Verif.T_Forest
  Verif.Ex_Data Verif.Ex_Forest Verif.Ex_ForestQ.
Import ListNotations.
Local Open Scope list_scope.
Local Open Scope nat_scope.

(** ** C41: the seeds of the trees of a one-versus-rest forest *)

Lemma nth_flat_repeat : forall {T} (l : list T) K t, 0 < K -> nth_error (flat_map (fun s => repeat s K) l) t = nth_error l (t / K).
Proof.
  intros T l K t HK. revert t. induction l as [|x l IH]; intros t; cbn [flat_map]; [destruct t, (_ / K); reflexivity|].
  destruct (Nat.lt_ge_cases t K) as [Ht|Ht].
  - rewrite nth_error_app1 by (rewrite repeat_length; exact Ht). rewrite (Nat.div_small t K Ht).
    cbn [nth_error]. apply nth_error_repeat. exact Ht.
  - rewrite nth_error_app2 by (rewrite repeat_length; exact Ht). rewrite repeat_length, IH.
    replace (t / K) with (S ((t - K) / K)); [reflexivity|]. replace t with (t - K + 1 * K) at 2 by lia.
    rewrite Nat.div_add by lia. lia.
Qed.

Lemma nth_combine_seq : forall {T} (l : list T) s t, nth_error (combine (seq s (length l)) l) t = option_map (fun x => (s + t, x)) (nth_error l t).
Proof.
  intros T l. induction l as [|x l IH]; intros s t; cbn [length seq combine]; [destruct t; reflexivity|].
  destruct t as [|t]; cbn [nth_error option_map]; [rewrite Nat.add_0_r; reflexivity|]. rewrite IH. destruct (nth_error l t); cbn; [|reflexivity]. do 2 f_equal. lia.
Qed.

Lemma Forall2_nth : forall {S T} (Q : S -> T -> Prop) l r t x, Forall2 Q l r -> nth_error r t = Some x -> exists s, nth_error l t = Some s /\ Q s x.
Proof.
  intros S T Q l r t x H. revert t. induction H as [|a b l r Hab Hl IH]; intros [|t] Hx; cbn in *; try discriminate; [injection Hx as <-; eauto|auto].
Qed.

Section Fits.
Context {A : arith} {E : env A} {L D : Type} (leb : L -> L -> bool) {EC : encoding D} (ME : menv E).
Notation T := (num A).
Notation forest := (clf_forest A L EC).

(** Tree number [t] is trained for class [t / n] and its seed is the one number [t / K]:
    [n] trees per class, [K] classes. *)
Theorem C41_actual_seeds : forall (o o1 : forest) X y sw c, (forall rs n, length (me_seeds ME rs n) = n) ->
  fo_multiclass o = Ovr -> 2 < length (uniq leb y) -> clf_fit leb ME o X y sw = ((o1, None), c) ->
  let n := Z.to_nat (fo_n_estimators o) in let K := length (uniq leb y) in
  exists (seeds : list N) ts (grown : N -> nat -> res (tobj A (list T) nat)),
    fo_trees o1 = Some ts /\ length ts = n * K /\ length seeds = n /\
    forall t tree, nth_error ts t = Some tree -> exists seed, nth_error seeds (t / K) = Some seed /\ grown seed (t / n) = Ok tree.
Proof.
  intros o o1 X y sw c HS Hm HK H n K. destruct (clf_fit_conds leb ME o X y _ o1 c H) as (w & d & C1 & C2 & C3 & C4 & C5).
  rewrite (clf_fit_eq leb ME o X y _ w d C1 C2 C3 C4 C5) in H. injection H as H Hc.
  destruct (fit_end_inv ME _ _ _ _ _ _ H) as (mf & rs & enc & fb & ts & H1 & H2 & H3 & H4 & H5 & H6).
  assert (Er : clf_ready leb o y = w_classes o (uniq leb y)).
  { unfold clf_ready. rewrite Hm. destruct (Nat.leb_spec (length (uniq leb y)) 2); [lia|reflexivity]. }
  rewrite Er in *. set (o2 := w_classes o (uniq leb y)) in *.
  assert (Em : fo_multiclass o2 = Ovr) by exact Hm.
  assert (Erep : clf_repeats o2 = K) by (unfold clf_repeats; rewrite Em; reflexivity).
  rewrite Erep in *. unfold all_seeds in H5.
  assert (Hn : Z.to_nat (fo_n_estimators o2) = n) by reflexivity. rewrite Hn in H5.
  exists (me_seeds ME rs n), ts, (fun seed k => build_tree ME (clf_task E (clf_k o2) d (crit_of (fo_criterion o2)) (fo_strategy o2)) d
      (tree_params_of o2 mf (ec_cats EC enc)) fb (binarize (encode_labels leb (fo_classes o2) y) k)
      (clf_weights o2 w (binarize (encode_labels leb (fo_classes o2) y) k)) seed).
  split; [rewrite H6; reflexivity|]. split; [|split; [apply HS|]].
  - pose proof (Forall2_len _ _ _ H5) as HL. rewrite <- HL, combine_length, seq_length, Nat.min_id.
    clear - HS. specialize (HS rs n). revert HS. generalize (me_seeds ME rs n). generalize n. clear n. intros n l. revert n. induction l as [|x l IH]; intros n Hn; cbn in *; [subst; reflexivity|].
    subst. rewrite app_length, repeat_length, (IH _ eq_refl). reflexivity.
  - intros t tree Ht. destruct (Forall2_nth _ _ _ _ _ H5 Ht) as ([t' s] & G1 & G2). rewrite nth_combine_seq in G1.
    rewrite nth_flat_repeat in G1 by lia. destruct (nth_error _ (t / K)) as [s'|] eqn:Es; [|discriminate]. injection G1 as <- <-.
    exists s'. split; [reflexivity|]. cbn [fst snd Nat.add] in G2. unfold clf_build, clf_codes in G2. rewrite Em in G2. exact G2.
Qed.

(** Hence trees with the same seed and the same class are the same trees. *)
Theorem C41_same_trees : forall (o o1 : forest) X y sw c, (forall rs n, length (me_seeds ME rs n) = n) ->
  fo_multiclass o = Ovr -> 2 < length (uniq leb y) -> clf_fit leb ME o X y sw = ((o1, None), c) ->
  let n := Z.to_nat (fo_n_estimators o) in let K := length (uniq leb y) in
  exists ts, fo_trees o1 = Some ts /\ length ts = n * K /\
    forall t t', t < n * K -> t' < n * K -> t / K = t' / K -> t / n = t' / n -> nth_error ts t = nth_error ts t'.
Proof.
  intros o o1 X y sw c HS Hm HK H n K. destruct (C41_actual_seeds o o1 X y sw c HS Hm HK H) as (seeds & ts & grown & H1 & H2 & H3 & H4).
  exists ts. split; [exact H1|]. split; [exact H2|]. intros t t' Ht Ht' E1 E2. fold n in H2, H4. fold K in H2, H4.
  destruct (nth_error ts t) as [x|] eqn:Ex; [|apply nth_error_None in Ex; lia].
  destruct (nth_error ts t') as [x'|] eqn:Ex'; [|apply nth_error_None in Ex'; lia].
  destruct (H4 _ _ Ex) as (s & S1 & S2). destruct (H4 _ _ Ex') as (s' & S3 & S4).
  rewrite E1 in S1. rewrite E2 in S2. congruence.
Qed.

(** Whatever the data and the seeds, as soon as there are two trees per class the first two
    trees of the first class are identical... *)
Theorem C41_refuted : forall (o o1 : forest) X y sw c, (forall rs n, length (me_seeds ME rs n) = n) ->
  fo_multiclass o = Ovr -> 2 < length (uniq leb y) -> clf_fit leb ME o X y sw = ((o1, None), c) -> (2 <= fo_n_estimators o)%Z ->
  exists tree tree' rest, fo_trees o1 = Some (tree :: tree' :: rest) /\ tree = tree'.
Proof.
  intros o o1 X y sw c HS Hm HK H Hn. destruct (C41_same_trees o o1 X y sw c HS Hm HK H) as (ts & H1 & H2 & H3).
  set (n := Z.to_nat (fo_n_estimators o)) in *. set (K := length (uniq leb y)) in *. assert (Hn2 : 2 <= n) by lia.
  assert (H01 : nth_error ts 0 = nth_error ts 1).
  { apply H3; try nia; rewrite !Nat.div_small by lia; reflexivity. }
  assert (HL : 2 <= length ts) by nia. destruct ts as [|a [|b r]]; cbn in HL; try lia. cbn in H01. injection H01 as <-. exists a, a, r. auto.
Qed.

(** ... and of the [n * K] trees at most [n + K - 1] are different. *)
Theorem C41_few_trees : forall (o o1 : forest) X y sw c, (forall rs n, length (me_seeds ME rs n) = n) ->
  fo_multiclass o = Ovr -> 2 < length (uniq leb y) -> clf_fit leb ME o X y sw = ((o1, None), c) -> (1 <= fo_n_estimators o)%Z ->
  let n := Z.to_nat (fo_n_estimators o) in let K := length (uniq leb y) in
  exists ts different, fo_trees o1 = Some ts /\ length ts = n * K /\ length different <= n + K - 1 /\ incl ts different.
Proof.
  intros o o1 X y sw c HS Hm HK H Hn. destruct (C41_same_trees o o1 X y sw c HS Hm HK H) as (ts & H1 & H2 & H3).
  set (n := Z.to_nat (fo_n_estimators o)) in *. set (K := length (uniq leb y)) in *. assert (Hn1 : 1 <= n) by lia. cbv zeta.
  set (pick v := match find (fun t => t / K + t / n =? v) (seq 0 (n * K)) with Some t => match nth_error ts t with Some x => [x] | None => [] end | None => [] end).
  exists ts, (flat_map pick (seq 0 (n + K - 1))). split; [exact H1|]. split; [exact H2|]. split.
  - rewrite <- (seq_length (n + K - 1) 0) at 2. generalize (seq 0 (n + K - 1)). intros l. induction l as [|v l IH]; cbn [flat_map length]; [lia|].
    rewrite app_length. assert (length (pick v) <= 1); [|lia]. unfold pick. destruct (find _ _); [destruct (nth_error ts n0)|]; cbn; lia.
  - intros x Hx. destruct (In_nth_error _ _ Hx) as (t & Ht). assert (Lt : t < n * K) by (rewrite <- H2; apply nth_error_Some; congruence).
    assert (B1 : t / K < n) by (apply Nat.div_lt_upper_bound; lia).
    assert (B2 : t / n < K) by (apply Nat.div_lt_upper_bound; lia).
    apply in_flat_map. exists (t / K + t / n). split; [apply in_seq; lia|]. unfold pick.
    destruct (find _ _) as [t'|] eqn:Ef.
    + apply find_some in Ef. destruct Ef as [F1 F2]. apply in_seq in F1. apply Nat.eqb_eq in F2.
      assert (Es : t' / K = t / K /\ t' / n = t / n).
      { destruct (Nat.le_ge_cases t t') as [Hle|Hle]; pose proof (Nat.div_le_mono _ _ K ltac:(lia) Hle); pose proof (Nat.div_le_mono _ _ n ltac:(lia) Hle); lia. }
      rewrite (H3 t' t) by (tauto || lia). rewrite Ht. simpl. auto.
    + exfalso. pose proof (find_none _ _ Ef t) as F. cbv beta in F. rewrite Nat.eqb_refl in F. discriminate F. apply in_seq. lia.
Qed.

(** ** C46: setting aggregation after fit *)

Theorem C46_no_effect : forall (o : forest) v o', fo_fitted o = true -> set_aggregation v o = (o', None) ->
  fo_trees o' = fo_trees o /\ forall small order X, predict_proba small order o' X = predict_proba small order o X.
Proof.
  intros o v o' Hf H. unfold set_aggregation, raise in H. destruct (as_bool v) as [b|]; [|discriminate]. injection H as <-. split; reflexivity.
Qed.
Theorem C46_no_effect_regressor : forall (o : reg_forest A L EC) v o', fo_fitted o = true -> set_aggregation v o = (o', None) ->
  fo_trees o' = fo_trees o /\ forall order X, predict_reg order o' X = predict_reg order o X.
Proof.
  intros o v o' Hf H. unfold set_aggregation, raise in H. destruct (as_bool v) as [b|]; [|discriminate]. injection H as <-. split; reflexivity.
Qed.

(** ** C52: fits that raise *)

(** A fit that raises keeps the trees and the parameters; the forest remains fitted if it
    was. *)
Lemma fit_end_raises : forall {P Y} (o : fobj A L EC P Y) X repeats k build o' e, fit_end ME o X repeats k build = (o', Some e) ->
  fo_trees o' = fo_trees o /\ fo_fitted o' = fo_fitted o /\ fo_classes o' = fo_classes o /\ fo_tree_classes o' = fo_tree_classes o.
Proof.
  intros P Y o X repeats k build o' e H. unfold fit_end, raise in H.
  destruct (get_max_features _ _ _); [|injection H as <- _; auto]. destruct (fo_random_state o); [|injection H as <- _; auto].
  destruct (bind _ _) as [[enc fb]|e']; [|injection H as <- _; auto]. destruct (mapM _ _); [discriminate|]. injection H as <- _. auto.
Qed.

Theorem C52_trees_kept : forall (o o' : forest) X y sw e c, clf_fit leb ME o X y sw = ((o', Some e), c) ->
  fo_trees o' = fo_trees o /\ fo_fitted o' = fo_fitted o /\ (fo_classes o' = fo_classes o \/ fo_classes o' = uniq leb y).
Proof.
  intros o o' X y sw e c H. unfold clf_fit, raise in H.
  destruct (negb _); [injection H as <- _ _; auto|]. destruct (check_weights _ _) as [w|e']; [|injection H as <- _ _; auto].
  assert (K : forall o2 e2, (match fo_multiclass o with
        | Ovr => if length (uniq leb y) <=? 2 then set_multiclass (PyStr "multinomial") (w_classes o (uniq leb y)) else (w_classes o (uniq leb y), None)
        | Multinomial => (w_classes o (uniq leb y), None) end) = (o2, e2) ->
       fo_trees o2 = fo_trees o /\ fo_fitted o2 = fo_fitted o /\ fo_classes o2 = uniq leb y).
  { intros o2 e2 H2. destruct (fo_multiclass o); [injection H2 as <- _; auto|]. destruct (_ <=? 2); [|injection H2 as <- _; auto].
    unfold set_multiclass, raise in H2. cbn in H2. destruct (fo_fitted o) eqn:Ef; injection H2 as <- _; cbn; auto. }
  cbv zeta in H. destruct (match fo_multiclass o with Ovr => _ | Multinomial => _ end) as [o2 e2] eqn:E2. destruct (K _ _ eq_refl) as (K1 & K2 & K3).
  destruct e2; [injection H as <- _ _; auto|]. destruct (fo_dirichlet o2); [|injection H as <- _ _; auto]. destruct (_ && _)%bool; [injection H as <- _ _; auto|].
  destruct (fo_multiclass o2); injection H as H _; destruct (fit_end_raises _ _ _ _ _ _ _ H) as (F1 & F2 & F3 & _); rewrite F1, F2, F3; auto.
Qed.
Theorem C52_trees_kept_regressor : forall (o o' : reg_forest A L EC) X y sw e c, reg_fit ME o X y sw = ((o', Some e), c) ->
  fo_trees o' = fo_trees o /\ fo_fitted o' = fo_fitted o.
Proof.
  intros o o' X y sw e c H. unfold reg_fit, raise in H.
  destruct (negb _); [injection H as <- _ _; auto|]. destruct (check_weights _ _) as [w|e']; [|injection H as <- _ _; auto].
  injection H as H _. destruct (fit_end_raises _ _ _ _ _ _ _ H) as (F1 & F2 & F3 & _). auto.
Qed.
End Fits.
Print Assumptions C41_actual_seeds.
Print Assumptions C41_same_trees.
Print Assumptions C41_refuted.
Print Assumptions C41_few_trees.
Print Assumptions C46_no_effect.
Print Assumptions C46_no_effect_regressor.
Print Assumptions C52_trees_kept.
Print Assumptions C52_trees_kept_regressor.


(** ** Concrete executions *)

Lemma ok_run : forall (r : mresult QA nat ex_encoding (list (num QA)) nat * list (num QA)) c, okQ r = true -> snd r = c -> r = ((objQ r, None), c).
Proof. intros [[o1 [e|]] c0] c H1 H2; cbn in *; [discriminate|]. subst. reflexivity. Qed.
Lemma failed_run : forall (r : mresult QA nat ex_encoding (list (num QA)) nat * list (num QA)) e c, snd (fst r) = Some e -> snd r = c -> r = ((objQ r, Some e), c).
Proof. intros [[o1 e1] c0] e c H1 H2; cbn in *. subst. reflexivity. Qed.
Lemma ok_set : forall (r : mresult QA nat ex_encoding (list (num QA)) nat), snd r = None -> r = (fst r, None).
Proof. intros [o1 [e|]] H; [discriminate|reflexivity]. Qed.

(** The hypotheses of C41: three classes, three trees per class. *)
Example C41_applies : let o := exQ 3 MFNone Ovr false false in exists o1 c,
  (forall rs n, length (me_seeds menv_Q rs n) = n) /\ fo_multiclass o = Ovr /\ length (uniq Nat.leb ex_names) = 3 /\ fo_n_estimators o = 3%Z /\
  clf_fit Nat.leb menv_Q o X2 ex_names None = ((o1, None), c) /\
  (exists ts, fo_trees o1 = Some ts /\ length ts = 9 /\ nth_error ts 0 <> nth_error ts 3).
Proof.
  cbv zeta. exists (objQ (clf_fit Nat.leb menv_Q (exQ 3 MFNone Ovr false false) X2 ex_names None)), [].
  split; [intros rs n; cbn; rewrite map_length, seq_length; reflexivity|]. split; [reflexivity|]. split; [vm_compute; reflexivity|]. split; [reflexivity|].
  split; [apply ok_run; vm_compute; reflexivity|].
  assert (G : forall o : option (list (tobj QA (list (num QA)) nat)), (match o with Some ts => (Nat.eqb (length ts) 9 && match nth_error ts 0, nth_error ts 3 with
      Some a, Some b => match ob_train a, ob_train b with Some u, Some v => if list_eq_dec Nat.eq_dec u v then false else true | _, _ => false end | _, _ => false end)%bool | None => false end) = true ->
      exists ts, o = Some ts /\ length ts = 9 /\ nth_error ts 0 <> nth_error ts 3).
  { intros [ts|] H; [|discriminate]. apply andb_true_iff in H. destruct H as [H1 H2]. exists ts. split; [reflexivity|]. split; [apply Nat.eqb_eq; exact H1|].
    intros Heq. rewrite Heq in H2. destruct (nth_error ts 3) as [x|]; [|discriminate]. destruct (ob_train x) as [u|]; [|discriminate]. destruct (list_eq_dec Nat.eq_dec u u); [discriminate|congruence]. }
  apply G. vm_compute. reflexivity.
Qed.

(** Setting aggregation after fit does not give the predictions of a forest fitted with it. *)
Theorem C46_refuted : exists (o_without o_with fitted_without fitted_with changed : clf_forest QA nat ex_encoding) X y c c',
  set_aggregation (PyBool true) o_without = (o_with, None) /\
  clf_fit Nat.leb menv_Q o_without X y None = ((fitted_without, None), c) /\
  clf_fit Nat.leb menv_Q o_with X y None = ((fitted_with, None), c') /\
  set_aggregation (PyBool true) fitted_without = (changed, None) /\
  predict_class smallQ [0; 1; 2] changed X <> predict_class smallQ [0; 1; 2] fitted_with X.
Proof.
  exists (exQ 3 MFNone Multinomial false false), (exQ 3 MFNone Multinomial false true),
    (objQ (clf_fit Nat.leb menv_Q (exQ 3 MFNone Multinomial false false) X2 ex_names None)),
    (objQ (clf_fit Nat.leb menv_Q (exQ 3 MFNone Multinomial false true) X2 ex_names None)),
    (w_aggregation (objQ (clf_fit Nat.leb menv_Q (exQ 3 MFNone Multinomial false false) X2 ex_names None)) true), X2, ex_names, [], [].
  split; [reflexivity|]. split; [apply ok_run; vm_compute; reflexivity|]. split; [apply ok_run; vm_compute; reflexivity|]. split; [reflexivity|].
  vm_compute. discriminate.
Qed.
Print Assumptions C46_refuted.

(** A value of dirichlet that fit rejects is accepted after fit; and the fit that raises
    because of it changes the labels that the forest predicts. *)
Definition other_names : list nat := map (fun x => x + 5) ex_names.
Theorem C52_refuted : exists (o fitted zero failed : clf_forest QA nat ex_encoding) X y y' labels c c',
  clf_fit Nat.leb menv_Q o X y None = ((fitted, None), c) /\
  set_fdirichlet env_Q (PyFloat (0%Q : num QA)) fitted = (zero, None) /\ fo_aggregation zero = true /\
  clf_fit Nat.leb menv_Q zero X y' None = ((failed, Some ValueErr), c') /\
  predict_class smallQ [0; 1; 2] failed X = Ok labels /\ Forall (fun l => ~ In l y) labels /\ labels <> [].
Proof.
  set (r1 := clf_fit Nat.leb menv_Q (exQ 3 MFNone Multinomial false true) X2 ex_names None).
  set (r2 := set_fdirichlet env_Q (PyFloat (0%Q : num QA)) (objQ r1)).
  set (r3 := clf_fit Nat.leb menv_Q (fst r2) X2 other_names None).
  exists (exQ 3 MFNone Multinomial false true), (objQ r1), (fst r2), (objQ r3), X2, ex_names, other_names, [15; 15; 35; 15; 15; 15; 15; 15], [], [].
  split; [apply ok_run; vm_compute; reflexivity|]. split; [apply ok_set; vm_compute; reflexivity|]. split; [vm_compute; reflexivity|].
  split; [apply failed_run; vm_compute; reflexivity|]. split; [vm_compute; reflexivity|]. split; [|discriminate].
  repeat constructor; vm_compute; intuition discriminate.
Qed.
Print Assumptions C52_refuted.
