(** * C63: a forest predicts the average of its trees

    Whatever the arithmetic, the objects and the order in which the threads add up the
    predictions of the trees. *)

Require Import String Bool List Arith Lia NArith ZArith Reals Lra Permutation.
Require Import Verif.Base Verif.Num Verif.M_Bitarray Verif.M_Utils Verif.M_Context Verif.M_Split
  Verif.M_Tree Verif.M_Grow Verif.M_Object Verif.M_Forest Verif.S_Impurity Verif.S_Forest Verif.P_List Verif.P_Forest Verif.P_Impurity Verif.P_Prune Verif.P_Encoder.
Import ListNotations.
Local Open Scope list_scope.
Local Open Scope nat_scope.

Section Sums.
Context {A : arith}.
Notation T := (num A).

(** What tree [t] says of class [k] for row [i]. *)
Definition says (ps : list (list (list T))) (t i k : nat) : T := nth k (nth i (nth t ps []) []) a0.

(** [out] is the array whose entries are [f i k], for [i < n] and [k < K]. *)
Definition array (out : list (list T)) (n K : nat) (f : nat -> nat -> T) : Prop := out = map (fun i => map (f i) (seq 0 K)) (seq 0 n).

Lemma array_nth : forall out n K f i, array out n K f -> i < n -> nth_error out i = Some (map (f i) (seq 0 K)).
Proof. intros out n K f i -> Hi. rewrite nth_error_map, (nth_error_nth' _ 0), seq_nth by (rewrite ?seq_length; exact Hi). reflexivity. Qed.

Lemma list_by_nth : forall {X} (l : list X) (f : nat -> X) n, length l = n -> (forall i, i < n -> nth_error l i = Some (f i)) -> l = map f (seq 0 n).
Proof.
  intros X l f n Hl H. apply nth_error_ext. intros i. destruct (Nat.lt_ge_cases i n) as [Hi|Hi].
  - rewrite (H i Hi), nth_error_map, (nth_error_nth' _ 0), seq_nth by (rewrite ?seq_length; exact Hi). reflexivity.
  - rewrite (proj2 (nth_error_None l i)) by lia. symmetry. apply nth_error_None. rewrite map_length, seq_length. exact Hi.
Qed.

Lemma array_zero : forall n K, array (repeat (repeat a0 K) n) n K (fun _ _ => a0).
Proof.
  intros n K. unfold array. assert (H : forall m {X} (x : X) s, repeat x m = map (fun _ => x) (seq s m)).
  { induction m as [|m IH]; intros X x s; [reflexivity|]. cbn. f_equal. apply IH. }
  rewrite (H n _ _ 0). apply map_ext. intros _. apply H.
Qed.

Lemma zipM_ok : forall (l m r : list T), zipM aadd l m = Ok r -> length m = length l /\ length r = length l /\
  forall k, k < length l -> nth_error r k = Some (aadd (nth k l a0) (nth k m a0)).
Proof.
  induction l as [|x l IH]; intros [|y m] r H; try discriminate H; cbn in H.
  - injection H as <-. repeat split; intros; cbn in *; lia.
  - destruct (zipM aadd l m) as [r'|] eqn:Ez; [|discriminate H]. injection H as <-. destruct (IH _ _ Ez) as (H1 & H2 & H3).
    repeat split; cbn; try lia. intros [|k] Hk; [reflexivity|]. apply H3. lia.
Qed.

Lemma add_at_ok : forall (l r : list T) i v, add_at l i v = Ok r -> i < length l /\ length r = length l /\
  forall k, k < length l -> nth_error r k = Some (if k =? i then aadd (nth k l a0) v else nth k l a0).
Proof.
  intros l r i v H. unfold add_at, get in H. destruct (nth_error l i) as [x|] eqn:Ex; [|discriminate H]. cbn in H.
  assert (Hi : i < length l) by (apply nth_error_Some; congruence). split; [exact Hi|].
  apply set_ok in H. destruct H as (_ & ->). split; [apply upd_length|].
  intros k Hk. destruct (Nat.eqb_spec k i) as [->|Hne].
  - rewrite (nth_error_nth _ _ _ Ex). apply nth_error_upd_eq. exact Hi.
  - rewrite nth_error_upd_neq by auto. apply nth_error_nth'. exact Hk.
Qed.

(** One tree: every row of the array gets the row of the tree. *)
Lemma add_step : forall (add : list T -> list T -> res (list T)) (h : nat -> nat -> T -> T) preds out out' n K f,
  array out n K f -> length preds = n ->
  (forall i p r, i < n -> nth_error preds i = Some p -> add (map (f i) (seq 0 K)) p = Ok r -> r = map (fun k => h i k (f i k)) (seq 0 K)) ->
  mapM (fun '(q, p) => add q p) (combine out preds) = Ok out' -> array out' n K (fun i k => h i k (f i k)).
Proof.
  intros add h preds out out' n K f HA Hp Hadd H. apply mapM_Forall2 in H. assert (Hl := Forall2_len _ _ _ H).
  assert (Ho : length out = n) by (rewrite HA, map_length, seq_length; reflexivity).
  rewrite combine_length, Ho, Hp, Nat.min_id in Hl. apply list_by_nth; [lia|]. intros i Hi.
  destruct (nth_error preds i) as [p|] eqn:Ep; [|apply nth_error_None in Ep; lia].
  destruct (nth_error out' i) as [r|] eqn:Er; [|apply nth_error_None in Er; lia]. f_equal.
  assert (Hc : nth_error (combine out preds) i = Some (map (f i) (seq 0 K), p)).
  { apply nth_error_combine. split; [apply (array_nth out n K f i HA Hi)|exact Ep]. }
  apply (Hadd i p r Hi Ep). clear - H Hc Er. revert Hc. generalize (map (f i) (seq 0 K)). intros q Hc. revert i Hc Er.
  induction H as [|[q' p'] r' l l' Hx H IH]; intros [|i] Hc Er; try discriminate; cbn in *; [congruence|eauto].
Qed.

Lemma add_fold : forall (step : list (list T) -> nat -> res (list (list T))) (h : nat -> nat -> nat -> T -> T) n K order,
  (forall t out out' f, In t order -> array out n K f -> step out t = Ok out' -> array out' n K (fun i k => h t i k (f i k))) ->
  forall out out' f, array out n K f -> foldM step order out = Ok out' ->
  array out' n K (fun i k => fold_left (fun x t => h t i k x) order (f i k)).
Proof.
  intros step h n K order. induction order as [|t order IH]; intros Hs out out' f HA H; cbn in H; [injection H as <-; exact HA|].
  destruct (step out t) as [out2|] eqn:Et; [|discriminate H]. cbn in H.
  apply (IH (fun t out out' f Ht => Hs t out out' f (or_intror Ht)) out2 out' (fun i k => h t i k (f i k))); [|exact H]. apply (Hs t out out2 f); auto. left. reflexivity.
Qed.

Lemma fold_filter : forall {X} (c : X -> bool) (v : X -> T) l (x : T),
  fold_left (fun x t => if c t then aadd x (v t) else x) l x = fold_left aadd (map v (filter c l)) x.
Proof. intros X c v l. induction l as [|t l IH]; intros x; [reflexivity|]. cbn. destruct (c t); cbn; apply IH. Qed.
Lemma fold_map : forall {X} (v : X -> T) l (x : T), fold_left (fun x t => aadd x (v t)) l x = fold_left aadd (map v l) x.
Proof. intros X v l. induction l as [|t l IH]; intros x; [reflexivity|]. cbn. apply IH. Qed.

Section Trees.
Context (ts : list (tobj A (list T) nat)) (fb : fba) (ps : list (list (list T))) (HP : mapM (fun t => obj_predict mix_vec t fb) ts = Ok ps).

Lemma tree_preds : forall t tr preds, get ts t = Ok tr -> obj_predict mix_vec tr fb = Ok preds -> nth t ps [] = preds /\ t < length ps.
Proof.
  intros t tr preds H1 H2. apply get_ok in H1. pose proof (proj1 (mapM_Forall2 _ _ _) HP) as HF. clear HP.
  assert (Hn : nth_error ps t = Some preds).
  { revert t H1. induction HF as [|a b l l' Hx HF IH]; intros [|t] H1; try discriminate; cbn in *; [congruence|auto]. }
  split; [apply nth_error_nth; exact Hn|apply nth_error_Some; congruence].
Qed.

Lemma multinomial_sums : forall n_est order K out, accumulate_proba n_est false ts fb order K = Ok out ->
  array out (fb_n_samples fb) K (fun i k => asum (map (fun t => says ps t i k) order)) /\ (forall t, In t order -> t < length ps).
Proof.
  intros n_est order K out H. unfold accumulate_proba in H. split.
  - eapply add_fold with (h := fun t i k x => aadd x (says ps t i k)) in H; [| |apply array_zero].
    + unfold array in *. rewrite H. apply map_ext. intros i. apply map_ext. intros k. unfold asum. apply fold_map.
    + intros t o1 o2 f Ht HA Hs. cbv beta in Hs. destruct (get ts t) as [tr|] eqn:Eg; [|discriminate Hs]. cbn [bind] in Hs.
      destruct (obj_predict mix_vec tr fb) as [preds|] eqn:Eo; [|discriminate Hs]. cbn [bind] in Hs.
      assert (Ho : length o1 = fb_n_samples fb) by (rewrite HA, map_length, seq_length; reflexivity).
      destruct (Nat.eqb_spec (length o1) (length preds)) as [Hl|Hl]; [|discriminate Hs]. cbn [negb] in Hs.
      destruct (tree_preds t tr preds Eg Eo) as [Hps _].
      eapply (add_step (fun q p => add_proba n_est false t q p) (fun i k x => aadd x (says ps t i k))); [exact HA|exact (eq_trans (eq_sym Hl) Ho)| |exact Hs].
      intros i p r Hi Hp Ha. cbn [add_proba] in Ha. destruct (zipM_ok _ _ _ Ha) as (_ & Z2 & Z3). rewrite map_length, seq_length in *.
      apply list_by_nth; [exact Z2|]. intros k Hk. rewrite (Z3 k Hk). f_equal. f_equal.
      * apply nth_error_nth. rewrite nth_error_map, (nth_error_nth' _ 0), seq_nth by (rewrite ?seq_length; exact Hk). reflexivity.
      * unfold says. rewrite Hps. rewrite (nth_error_nth _ _ _ Hp). reflexivity.
  - clear - H HP. revert H. generalize (repeat (repeat (@a0 A) K) (fb_n_samples fb)). intros x H t Ht. revert x H.
    induction order as [|t' order IH]; intros x H; [destruct Ht|]. cbn [foldM bind] in H.
    destruct (get ts t') as [tr|] eqn:Eg; [|discriminate H]. cbn [bind] in H.
    destruct (obj_predict mix_vec tr fb) as [preds|] eqn:Eo; [|discriminate H]. cbn [bind] in H.
    destruct Ht as [<-|Ht]; [apply (tree_preds _ _ _ Eg Eo)|].
    destruct (negb _); [discriminate H|]. destruct (mapM _ _) as [o2|] eqn:Em in H; [|discriminate H]. cbn [bind] in H. eauto.
Qed.

Lemma ovr_sums : forall n_est order K out, accumulate_proba n_est true ts fb order K = Ok out ->
  array out (fb_n_samples fb) K (fun i k => asum (map (fun t => says ps t i 1) (filter (fun t => k =? t / n_est) order))) /\ (forall t, In t order -> t < length ps).
Proof.
  intros n_est order K out H. unfold accumulate_proba in H. split.
  - eapply add_fold with (h := fun t i k x => if k =? t / n_est then aadd x (says ps t i 1) else x) in H; [| |apply array_zero].
    + unfold array in *. rewrite H. apply map_ext. intros i. apply map_ext. intros k. unfold asum. apply (fold_filter (fun t => k =? t / n_est) (fun t => says ps t i 1)).
    + intros t o1 o2 f Ht HA Hs. cbv beta in Hs. destruct (get ts t) as [tr|] eqn:Eg; [|discriminate Hs]. cbn [bind] in Hs.
      destruct (obj_predict mix_vec tr fb) as [preds|] eqn:Eo; [|discriminate Hs]. cbn [bind] in Hs.
      assert (Ho : length o1 = fb_n_samples fb) by (rewrite HA, map_length, seq_length; reflexivity).
      destruct (Nat.eqb_spec (length o1) (length preds)) as [Hl|Hl]; [|discriminate Hs]. cbn [negb] in Hs.
      destruct (tree_preds t tr preds Eg Eo) as [Hps _].
      eapply (add_step (fun q p => add_proba n_est true t q p) (fun i k x => if k =? t / n_est then aadd x (says ps t i 1) else x)); [exact HA|exact (eq_trans (eq_sym Hl) Ho)| |exact Hs].
      intros i p r Hi Hp Ha. cbn [add_proba] in Ha. destruct (get p 1) as [v|] eqn:Ev; [|discriminate Ha]. cbn [bind] in Ha.
      destruct (add_at_ok _ _ _ _ Ha) as (_ & Z2 & Z3). rewrite map_length, seq_length in *.
      assert (Hv : says ps t i 1 = v). { unfold says. rewrite Hps, (nth_error_nth _ _ _ Hp). apply nth_error_nth. apply get_ok. exact Ev. }
      apply list_by_nth; [exact Z2|]. intros k Hk. rewrite (Z3 k Hk), Hv.
      assert (Hf : nth k (map (f i) (seq 0 K)) a0 = f i k).
      { apply nth_error_nth. rewrite nth_error_map, (nth_error_nth' _ 0), seq_nth by (rewrite ?seq_length; exact Hk). reflexivity. }
      rewrite Hf. reflexivity.
  - clear - H HP. revert H. generalize (repeat (repeat (@a0 A) K) (fb_n_samples fb)). intros x H t Ht. revert x H.
    induction order as [|t' order IH]; intros x H; [destruct Ht|]. cbn [foldM bind] in H.
    destruct (get ts t') as [tr|] eqn:Eg; [|discriminate H]. cbn [bind] in H.
    destruct (obj_predict mix_vec tr fb) as [preds|] eqn:Eo; [|discriminate H]. cbn [bind] in H.
    destruct Ht as [<-|Ht]; [apply (tree_preds _ _ _ Eg Eo)|].
    destruct (negb _); [discriminate H|]. destruct (mapM _ _) as [o2|] eqn:Em in H; [|discriminate H]. cbn [bind] in H. eauto.
Qed.
End Trees.
End Sums.

Section Forests.
Context {A : arith} {L D : Type} {EC : encoding D}.
Notation T := (num A).

(** One forest for all classes: the sum of what the trees say, divided by their number. *)
Theorem C63_multinomial : forall (o : clf_forest A L EC) X small order rows ps, fo_multiclass o = Multinomial ->
  predict_proba small order o X = Ok rows -> predict_proba_trees o X = Ok ps ->
  (forall t, In t order -> t < length ps) /\
  forall i row, nth_error rows i = Some row ->
    row = map (fun k => adiv (asum (map (fun t => says ps t i k) order)) (aofnat (length ps))) (seq 0 (length (fo_classes o))).
Proof.
  intros o X small order rows ps Hm H Hps. unfold predict_proba in H. unfold predict_proba_trees in Hps.
  destruct (predict_helper o X) as [[fb ts]|] eqn:Eh; [|discriminate H]. cbn [bind] in *. rewrite Hm in H.
  destruct (fo_fitted o); [|discriminate H]. cbn [negb] in H.
  destruct (accumulate_proba _ _ _ _ _ _) as [out|] eqn:Ea in H; [|discriminate H]. cbn [bind] in H. injection H as <-.
  destruct (multinomial_sums ts fb ps Hps _ _ _ _ Ea) as (S1 & S2). split; [exact S2|].
  intros i row Hi. rewrite S1, map_map, nth_error_map in Hi.
  destruct (nth_error (seq 0 (fb_n_samples fb)) i) as [i'|] eqn:Ei; [|discriminate Hi]. cbn in Hi. injection Hi as <-.
  assert (i' = i). { assert (Hl : i < fb_n_samples fb) by (rewrite <- (seq_length (fb_n_samples fb) 0); apply nth_error_Some; congruence).
    apply (nth_error_nth _ _ 0) in Ei. rewrite seq_nth in Ei by exact Hl. lia. }
  subst i'. rewrite map_map. apply map_ext. intros k. f_equal. f_equal.
  apply mapM_Forall2 in Hps. exact (Forall2_len _ _ _ Hps).
Qed.

(** One forest for each class: class [k] gets what the trees of number [t] with
    [t / n_estimators = k] say of "yes"; these scores are divided by their sum, and all classes
    get the same probability if it is too small. *)
Theorem C63_ovr : forall (o : clf_forest A L EC) X small order rows ps, fo_multiclass o = Ovr ->
  predict_proba small order o X = Ok rows -> predict_proba_trees o X = Ok ps ->
  (forall t, In t order -> t < length ps) /\
  forall i row, nth_error rows i = Some row ->
    let K := length (fo_classes o) in
    let score k := asum (map (fun t => says ps t i 1) (filter (fun t => t / Z.to_nat (fo_n_estimators o) =? k) order)) in
    let total := asum (map score (seq 0 K)) in
    row = map (fun k => if small total then adiv a1 (aofnat K) else adiv (score k) total) (seq 0 K).
Proof.
  intros o X small order rows ps Hm H Hps. unfold predict_proba in H. unfold predict_proba_trees in Hps.
  destruct (predict_helper o X) as [[fb ts]|] eqn:Eh; [|discriminate H]. cbn [bind] in *. rewrite Hm in H.
  destruct (fo_fitted o); [|discriminate H]. cbn [negb] in H.
  destruct (accumulate_proba _ _ _ _ _ _) as [out|] eqn:Ea in H; [|discriminate H]. cbn [bind] in H. injection H as <-.
  destruct (ovr_sums ts fb ps Hps _ _ _ _ Ea) as (S1 & S2). split; [exact S2|].
  intros i row Hi. cbv zeta. rewrite S1, map_map, nth_error_map in Hi.
  destruct (nth_error (seq 0 (fb_n_samples fb)) i) as [i'|] eqn:Ei; [|discriminate Hi]. cbn [option_map] in Hi. injection Hi as <-.
  assert (i' = i). { assert (Hl : i < fb_n_samples fb) by (rewrite <- (seq_length (fb_n_samples fb) 0); apply nth_error_Some; congruence).
    apply (nth_error_nth _ _ 0) in Ei. rewrite seq_nth in Ei by exact Hl. lia. }
  subst i'. assert (Hsc : forall k, asum (map (fun t => says ps t i 1) (filter (fun t => k =? t / Z.to_nat (fo_n_estimators o)) order)) =
    asum (map (fun t => says ps t i 1) (filter (fun t => t / Z.to_nat (fo_n_estimators o) =? k) order))).
  { intros k. do 2 f_equal. apply filter_ext. intros t. apply Nat.eqb_sym. }
  unfold normalise_ovr. rewrite (map_ext _ _ Hsc). set (sc := fun k => asum (map (fun t => says ps t i 1) (filter (fun t => t / Z.to_nat (fo_n_estimators o) =? k) order))).
  match goal with |- (if small (asum ?l) then _ else _) = _ => change l with (map sc (seq 0 (length (fo_classes o)))) end. cbv beta.
  destruct (small (asum (map sc (seq 0 (length (fo_classes o)))))).
  - generalize 0. generalize (length (fo_classes o)) at 2 4. intros m. induction m as [|m IH]; intros s; [reflexivity|]. cbn. f_equal. apply IH.
  - rewrite map_map. reflexivity.
Qed.

(** Regression: the sum of the predictions of the trees, divided by their number. *)
Theorem C63_regressor : forall (o : reg_forest A L EC) X order rows enc fb ts ps,
  fo_encoder o = Some enc -> ec_transform EC enc X = Ok fb -> fo_trees o = Some ts ->
  mapM (fun t => obj_predict mix_num t fb) ts = Ok ps -> predict_reg order o X = Ok rows ->
  (forall t, In t order -> t < length ps) /\
  forall i v, nth_error rows i = Some v -> v = adiv (asum (map (fun t => nth i (nth t ps []) a0) order)) (aofnat (length ps)).
Proof.
  intros o X order rows enc fb ts ps He Ht Hts HP H. unfold predict_reg, predict_helper in H. rewrite He, Ht in H. cbn [bind] in H. rewrite Hts in H. cbn [bind] in H.
  destruct (accumulate _ _ _ _ _ _) as [out|] eqn:Ea in H; [|discriminate H]. cbn [bind] in H. injection H as <-.
  assert (HL : length ts = length ps) by (apply mapM_Forall2 in HP; exact (Forall2_len _ _ _ HP)).
  assert (HT : forall t tr preds, get ts t = Ok tr -> obj_predict mix_num tr fb = Ok preds -> nth t ps [] = preds /\ t < length ps).
  { intros t tr preds H1 H2. apply get_ok in H1. apply mapM_Forall2 in HP. assert (Hn : nth_error ps t = Some preds).
    { clear - HP H1 H2. revert t H1. induction HP as [|a b l l' Hx HF IH]; intros [|t] H1; try discriminate; cbn in *; [congruence|auto]. }
    split; [apply nth_error_nth; exact Hn|apply nth_error_Some; congruence]. }
  unfold accumulate in Ea.
  assert (G : forall order x out, foldM (fun out t => let* tr := get ts t in let* preds := obj_predict mix_num tr fb in
      if negb (length out =? length preds) then Err ValueErr else mapM (fun '(q, p) => Ok (aadd q p)) (combine out preds)) order x = Ok out ->
    (forall t, In t order -> t < length ps) /\ length out = length x /\
    forall i v, nth_error out i = Some v -> v = fold_left (fun s t => aadd s (nth i (nth t ps []) a0)) order (nth i x a0)).
  { clear - HT. induction order as [|t order IH]; intros x out H.
    - cbn in H. injection H as <-. split; [intros t []|]. split; [reflexivity|]. intros i v Hi. symmetry. apply nth_error_nth. exact Hi.
    - cbn [foldM bind] in H. destruct (get ts t) as [tr|] eqn:Eg; [|discriminate H]. cbn [bind] in H.
      destruct (obj_predict mix_num tr fb) as [preds|] eqn:Eo; [|discriminate H]. cbn [bind] in H. destruct (HT t tr preds Eg Eo) as [T1 T2].
      destruct (Nat.eqb_spec (length x) (length preds)) as [Hl|Hl]; [|discriminate H]. cbn [negb] in H.
      destruct (mapM _ _) as [x2|] eqn:Em in H; [|discriminate H]. cbn [bind] in H. destruct (IH _ _ H) as (I1 & I2 & I3).
      apply mapM_Forall2 in Em. assert (Hl2 := Forall2_len _ _ _ Em). rewrite combine_length, Hl, Nat.min_id in Hl2.
      split; [intros t' [<-|Ht']; auto|]. split; [lia|]. intros i v Hi. rewrite (I3 i v Hi). cbn [fold_left]. f_equal.
      assert (Hi' : i < length x) by (rewrite Hl, Hl2, <- I2; apply nth_error_Some; congruence).
      rewrite T1. clear - Em Hi' Hl. revert preds Hl i Hi' Em. revert x2. induction x as [|a x IH]; intros x2 [|b preds] Hl i Hi Em; cbn in *; try lia.
      inversion Em as [|q r l l' Hq HF]; subst. injection Hq as <-. destruct i as [|i]; [reflexivity|]. cbn. apply IH; auto; lia. }
  destruct (G order _ out Ea) as (G1 & G2 & G3). split; [exact G1|]. intros i v Hi. rewrite nth_error_map in Hi.
  destruct (nth_error out i) as [u|] eqn:Eu; [|discriminate Hi]. cbn in Hi. injection Hi as <-. rewrite HL. f_equal. rewrite (G3 i u Eu). rewrite fold_map.
  unfold asum. f_equal. destruct (nth_error (repeat (@a0 A) (fb_n_samples fb)) i) as [z|] eqn:Ez.
  - rewrite (nth_error_nth _ _ _ Ez). apply nth_error_In, repeat_spec in Ez. exact Ez.
  - apply nth_overflow. apply nth_error_None. exact Ez.
Qed.
End Forests.
Print Assumptions C63_multinomial.
Print Assumptions C63_ovr.
Print Assumptions C63_regressor.

(** In exact arithmetic this is the mean over all the trees, whatever the order. *)
Lemma sum_any_order : forall (f : nat -> R) order n, Permutation order (seq 0 n) -> @asum R_arith (map f order) = Rsum (map f (seq 0 n)).
Proof. intros f order n H. etransitivity; [apply asum_R|]. apply Rsum_perm. apply Permutation_map. exact H. Qed.

Theorem C63_mean : forall {L D} {EC : encoding D} (o : clf_forest R_arith L EC) X small order rows ps, fo_multiclass o = Multinomial ->
  predict_proba small order o X = Ok rows -> predict_proba_trees o X = Ok ps -> Permutation order (seq 0 (length ps)) ->
  forall i row k, nth_error rows i = Some row -> k < length (fo_classes o) ->
    nth k row 0%R = (Rsum (map (fun t => says ps t i k) (seq 0 (length ps))) / INR (length ps))%R.
Proof.
  intros L D EC o X small order rows ps Hm H Hps HO i row k Hi Hk. destruct (C63_multinomial o X small order rows ps Hm H Hps) as (_ & H2).
  rewrite (H2 i row Hi). apply nth_error_nth. rewrite nth_error_map, (nth_error_nth' _ 0), seq_nth by (rewrite ?seq_length; exact Hk).
  cbn [option_map plus]. f_equal. change (@adiv R_arith) with Rdiv. rewrite (sum_any_order _ _ _ HO). reflexivity.
Qed.
Print Assumptions C63_mean.
