(** * C71: labels in another unit, for regression

    The labels [a * y + b] instead of [y], with [a > 0] (degrees Fahrenheit instead of
    Celsius): the trees have the same structure and every prediction [p] becomes
    [a * p + b]. With aggregation the parameter [step] has to be given in the new unit too:
    it is divided by [a * a], as it multiplies squared errors. Numbers are exact. *)

Require Import String Bool List Arith NArith ZArith Lia Reals Lra Permutation.
Require Import Verif.Base Verif.Num Verif.M_Bitarray Verif.M_Utils Verif.M_Impurity Verif.M_Context Verif.M_Node Verif.M_Split
  Verif.M_Tree Verif.M_Grow Verif.M_Object Verif.M_Forest Verif.S_Fit Verif.S_Tree Verif.S_Object Verif.S_Params Verif.S_Forest
  Verif.T_Grow Verif.T_Params Verif.P_List Verif.P_Forest Verif.T_Forest Verif.T_ForestR Verif.S_Units Verif.P_Affine.
Import ListNotations.
Local Open Scope nat_scope.
Local Open Scope list_scope.

Section Units.
Context {E : env R_arith} {L D : Type} {EC : encoding D} (ME : menv E) (float : num R_arith -> Prop).
Context (GM : good_menv float ME) (GE : good_env E) (GK : good_encoding EC).
Context (a b : R) (Ha : (0 < a)%R).
Notation c := (a * a)%R.
Notation objR := (tobj R_arith R R).
Notation forest := (reg_forest R_arith L EC).

Lemma predict_obj_rel : forall s s' agg (x x' : objR) fb, orel a b s s' agg x x' -> (forall t, ob_tree x = Some t -> well_formed t) ->
  (agg = true -> (s' * c)%R = s) ->
  rr (Forall2 (fun p p' => p' = new_unit a b p)) (obj_predict mix_num x fb) (obj_predict mix_num x' fb).
Proof.
  intros s s' agg [st d ag tr ct i v] [st' d' ag' tr' ct' i' v'] fb (E1 & E2 & E3 & E4 & t & t' & T1 & T2 & HT) W Hs. cbn [ob_step ob_aggregation ob_tree] in *. subst.
  apply (predict_rel a b t t' fb agg s s'); auto.
Qed.

(** The sums over the first trees. *)
Definition outrel (k : nat) (l l' : list R) : Prop := Forall2 (fun x x' => x' = (a * x + INR k * b)%R) l l'.

Lemma out_zero : forall n, outrel 0 (repeat 0%R n) (repeat 0%R n).
Proof. induction n; cbn [repeat]; constructor; auto. cbn. ring. Qed.

Lemma add_rel : forall k l l' p p', outrel k l l' -> Forall2 (fun p p' => p' = new_unit a b p) p p' ->
  rr (outrel (S k)) (mapM (fun '(q, x) => Ok (aadd q x)) (combine l p)) (mapM (fun '(q, x) => @Ok (num R_arith) (aadd q x)) (combine l' p')).
Proof.
  intros k l l' p p' HO. revert p p'. induction HO as [|x x' l l' Hx HO IH]; intros p p' HP; [constructor|].
  destruct HP as [|q q' p p' Hq HP]; [constructor|]. cbn [combine mapM bind]. eapply rr_bind; [apply IH; exact HP|].
  intros r r' _ _ HR. cbn [rr]. constructor; [|exact HR]. rewrite Hx, Hq, S_INR. unfold new_unit. cbn. ring.
Qed.

Lemma accumulate_rel : forall s s' agg (ts ts' : list objR) fb order, Forall2 (fun x x' => orel a b s s' agg x x' /\ forall t, ob_tree x = Some t -> well_formed t) ts ts' ->
  (agg = true -> (s' * c)%R = s) -> forall k out out', outrel k out out' ->
  rr (outrel (k + length order))
    (foldM (fun out t => let* tr := get ts t in let* preds := obj_predict mix_num tr fb in
       if negb (length out =? length preds) then Err ValueErr else mapM (fun '(q, p) => Ok (aadd q p)) (combine out preds)) order out)
    (foldM (fun out t => let* tr := get ts' t in let* preds := obj_predict mix_num tr fb in
       if negb (length out =? length preds) then Err ValueErr else mapM (fun '(q, p) => @Ok (num R_arith) (aadd q p)) (combine out preds)) order out').
Proof.
  intros s s' agg ts ts' fb order HT Hs. induction order as [|t order IH]; intros k out out' HO; cbn [foldM length].
  - rewrite Nat.add_0_r. exact HO.
  - apply rr_bind with (R := outrel (S k)).
    + eapply rr_bind; [apply (get_F2 _ _ _ t HT)|]. intros x x' _ _ [Hx W]. eapply rr_bind; [eapply predict_obj_rel; eauto|]. intros p p' _ _ HP.
      pose proof (Forall2_len _ _ _ HO) as L1. pose proof (Forall2_len _ _ _ HP) as L2.
      change (num R_arith) with R in *. rewrite <- L1, <- L2. destruct (negb (length out =? length p)); [reflexivity|]. apply add_rel; auto.
    + intros o1 o1' _ _ H1. replace (k + S (length order)) with (S k + length order) by lia. apply IH. exact H1.
Qed.

(** Without a categorical column; with one, when the labels are only multiplied. *)
Theorem C71_regressor : forall (o o1 o2 : forest) s' X y sw e e' w w',
  legal float o ->
  (fo_aggregation o = true -> (s' * c)%R = fo_step o) ->
  (forall enc, ec_fit EC (fo_max_bins o) X = Ok enc -> In true (ec_cats EC enc) -> b = 0%R /\ comparison_sort E) ->
  reg_fit ME o X y sw = ((o1, e), w) ->
  reg_fit ME (w_step o s') X (map (new_unit a b) y) sw = ((o2, e'), w') ->
  e' = e /\ w' = w /\
  (e = None ->
   (forall X' order, Permutation order (seq 0 (n_trees o1)) -> predict_reg order o2 X' = in_new_unit a b (predict_reg order o1 X')) /\
   (forall X', fapply o2 X' = fapply o1 X') /\
   ((s' * c)%R = fo_step o -> forall X', fweighted_depth o2 X' = fweighted_depth o1 X')).
Proof.
  intros o o1 o2 s' X y sw e e' w w' HL Hs Hc H H'.
  assert (HW : e = None -> forall ts, fo_trees o1 = Some ts -> 1 <= length ts /\ forall x t, In x ts -> ob_tree x = Some t -> well_formed t).
  { intros He ts Ht. subst e. destruct (reg_fit_trees ME float GM GK o o1 X y sw w HL H) as (wt & mf & rs & enc & fb & ts1 & H1 & _ & _ & _ & _ & _ & _ & _ & HT).
    cbv zeta in HT. subst o1. cbn [fo_trees fitted_as w_fitted w_trees] in Ht. injection Ht as <-. split.
    - pose proof (Forall2_len _ _ _ HT) as Hl. rewrite combine_length, seq_length, Nat.min_id in Hl. rewrite (all_seeds_length ME float o rs 1 GM) in Hl.
      pose proof (lg_trees _ _ HL). apply (Nat.le_trans _ (Z.to_nat (fo_n_estimators o) * 1)); [lia|]. apply Nat.eq_le_incl. exact Hl.
    - intros x t Hx Ht. assert (HF : Forall (fun x => forall t, ob_tree x = Some t -> well_formed t) ts1).
      { apply (Forall2_same _ _ _ HT). intros q x0 _ (train & valid & counts & w1 & B1 & B2 & B3 & V & Hne) t0 Ht0.
        unfold obj_fit in B3. destruct (tree_fit _ _ _ _ _ _ _ _) as [[tc g]|] eqn:Ef in B3; [|discriminate]. cbn [bind] in B3. injection B3 as <-. cbn in Ht0. injection Ht0 as <-.
        exact (C25_well_formed (reg_task E) _ _ _ _ _ _ _ _ _ (VC_regressor _ _ _ _ _ _ GE V) Ef). }
      rewrite Forall_forall in HF. eauto. }
  assert (Hlen : @length (num R_arith) (map (new_unit a b) y) = @length (num R_arith) y) by (apply map_length).
  unfold reg_fit, raise in H, H'. rewrite Hlen in H'.
  destruct (negb (length y =? fst (ec_shape EC X))).
  { injection H as <- <- <-. injection H' as <- <- <-. split; [auto|]. split; [auto|]. discriminate. }
  destruct (check_weights (fst (ec_shape EC X)) (option_map snd sw)) as [wt|e0].
  2: { injection H as <- <- <-. injection H' as <- <- <-. split; [auto|]. split; [auto|]. discriminate. }
  injection H as H Ew. injection H' as H' Ew'.
  unfold fit_end, raise in H, H'. cbn [fo_max_features fo_random_state fo_max_bins fo_n_estimators w_step] in H'.
  assert (Hfail : forall e0, e = Some e0 -> e' = Some e0 -> e' = e /\ w' = w /\ (e = None ->
   (forall X' order, Permutation order (seq 0 (n_trees o1)) -> predict_reg order o2 X' = in_new_unit a b (predict_reg order o1 X')) /\
   (forall X', fapply o2 X' = fapply o1 X') /\ ((s' * c)%R = fo_step o -> forall X', fweighted_depth o2 X' = fweighted_depth o1 X'))).
  { intros e0 -> ->. split; [auto|]. split; [congruence|]. discriminate. }
  match type of H with (match ?m with _ => _ end) = _ => destruct m as [mf|e0] eqn:Emf end; [|injection H as _ <-; injection H' as _ <-; eauto].
  match type of H with (match ?m with _ => _ end) = _ => destruct m as [rs|] end; [|injection H as _ <-; injection H' as _ <-; eauto].
  match type of H with context [ec_fit EC ?q X] => destruct (ec_fit EC q X) as [enc|e0] eqn:Ee end; [|injection H as _ <-; injection H' as _ <-; eauto]. cbn [bind] in H, H'.
  destruct (ec_transform EC enc X) as [fb|e0] eqn:Et; [|injection H as _ <-; injection H' as _ <-; eauto].
  set (seeds := flat_map _ _) in H, H'.
  pose proof (params_ok ME float GM GK o X mf enc fb HL Emf Ee Et) as HP. cbv zeta in HP. destruct HP as (_ & _ & _ & [Hmf _] & _).
  cbn [bind] in H, H'.
  match type of H with context [mapM ?f ?l] => match type of H' with context [mapM ?f' l] =>
    assert (HB : rr (Forall2 (orel a b (fo_step o) s' (fo_aggregation o))) (mapM f l) (mapM f' l)) end end.
  { apply rr_map. intros [t seed] _. unfold build_tree. apply rr_same. intros [[train valid] counts] _. apply rr_same. intros w1 _.
    change (tree_params_of (w_step o s') mf (ec_cats EC enc)) with (params_with_step (tree_params_of o mf (ec_cats EC enc)) s').
    apply (obj_fit_rel a b Ha (tree_params_of o mf (ec_cats EC enc))); auto. intros Hin. eapply Hc; eauto. }
  match type of H with context [mapM ?f ?l] => destruct (mapM f l) as [ts|e0] end;
  match type of H' with context [mapM ?f ?l] => destruct (mapM f l) as [ts'|e1] end; cbn [rr] in HB; try contradiction.
  2: { subst e1. injection H as _ <-. injection H' as _ <-. eauto. }
  injection H as E1 E2. injection H' as E1' E2'. subst e e'. split; [auto|]. split; [congruence|]. intros _.
  specialize (HW eq_refl). subst o1 o2. destruct (HW ts eq_refl) as [Hn HWt]. clear HW.
  assert (HB' : Forall2 (fun x x' => orel a b (fo_step o) s' (fo_aggregation o) x x' /\ forall t, ob_tree x = Some t -> well_formed t) ts ts').
  { clear - HB HWt. induction HB as [|x x' l l' Hx HB IH]; constructor.
    - split; [exact Hx|]. intros t Ht. apply (HWt x t (or_introl eq_refl) Ht).
    - apply IH. intros z t Hz Ht. apply (HWt z t (or_intror Hz) Ht). }
  split; [|split].
  - intros X' order HO. unfold predict_reg, predict_helper. cbn [fo_encoder fo_trees w_fitted w_trees w_encoder].
    destruct (ec_transform EC enc X') as [fb'|e0]; [|reflexivity]. cbn [bind].
    pose proof (accumulate_rel _ _ _ ts ts' fb' order HB' Hs 0 (repeat 0%R (fb_n_samples fb')) (repeat 0%R (fb_n_samples fb'))) as HA.
    assert (Hz : outrel 0 (repeat 0%R (fb_n_samples fb')) (repeat 0%R (fb_n_samples fb'))).
    { apply out_zero. }
    specialize (HA Hz). unfold accumulate. change (@a0 R_arith) with 0%R.
    match goal with |- bind ?r' _ = in_new_unit a b (bind ?r _) => change (rr (outrel (0 + length order)) r r') in HA; destruct r as [out|e0], r' as [out'|e1] end; cbn [rr] in HA; try contradiction.
    2: { subst e1. reflexivity. }
    cbn [bind in_new_unit]. f_equal. apply Permutation_length in HO. rewrite seq_length in HO. cbn [n_trees] in HO.
    unfold n_trees in HO. cbn [fo_trees w_fitted w_trees] in HO. cbn [Nat.add] in HA. rewrite HO in HA. pose proof (Forall2_len _ _ _ HB) as Hl.
    change (num R_arith) with R in *. rewrite <- Hl. clear - HA Hn. induction HA as [|x x' l l' Hx HA IH]; [reflexivity|]. cbn [map]. rewrite IH. f_equal.
    rewrite Hx. unfold new_unit. cbn. field. apply not_0_INR. lia.
  - intros X'. unfold fapply, predict_helper. cbn [fo_encoder fo_trees w_fitted w_trees w_encoder].
    destruct (ec_transform EC enc X') as [fb'|e0]; [|reflexivity]. cbn [bind]. clear - HB. induction HB as [|x x' l l' Hx HB IH]; [reflexivity|]. cbn [mapM]. rewrite IH.
    destruct Hx as (_ & _ & _ & _ & t & t' & T1 & T2 & HT). unfold obj_apply. 
    change (num R_arith) with R. rewrite T1, T2, (apply_rel a b _ t t' fb' HT). reflexivity.
  - intros Hst X'. unfold fweighted_depth, predict_helper. cbn [fo_encoder fo_trees w_fitted w_trees w_encoder].
    destruct (ec_transform EC enc X') as [fb'|e0]; [|reflexivity]. cbn [bind]. clear - HB Hst. induction HB as [|x x' l l' Hx HB IH]; [reflexivity|]. cbn [mapM]. rewrite IH.
    destruct Hx as (S1 & S2 & _ & _ & t & t' & T1 & T2 & HT). unfold obj_weighted_depth. 
    change (num R_arith) with R. rewrite T1, T2, S1, S2, (depth_rel a b t t' fb' _ s' _ HT Hst). reflexivity.
Qed.

(** Adding a constant to the labels needs no other change. *)
Lemma same_step : forall o : forest, w_step o (fo_step o) = o.
Proof. intros []; reflexivity. Qed.
End Units.

Theorem C71_shift : forall {E : env R_arith} {L D : Type} {EC : encoding D} (ME : menv E) (float : num R_arith -> Prop),
  good_menv float ME -> good_env E -> good_encoding EC ->
  forall (o o1 o2 : reg_forest R_arith L EC) X y (b : R) sw e e' w w',
  legal float o ->
  (forall enc, ec_fit EC (fo_max_bins o) X = Ok enc -> ~ In true (ec_cats EC enc)) ->
  reg_fit ME o X y sw = ((o1, e), w) ->
  reg_fit ME o X (map (fun v => v + b)%R y) sw = ((o2, e'), w') ->
  e' = e /\ w' = w /\
  (e = None ->
   (forall X' order, Permutation order (seq 0 (n_trees o1)) ->
      predict_reg order o2 X' = (let* p := predict_reg order o1 X' in Ok (map (fun v => v + b)%R p))) /\
   (forall X', fapply o2 X' = fapply o1 X') /\
   (forall X', fweighted_depth o2 X' = fweighted_depth o1 X')).
Proof.
  intros E L D EC ME float GM GE GK o o1 o2 X y b sw e e' w w' HL Hc H H'.
  assert (Hm : forall l : list R, map (new_unit 1 b) l = map (fun v => v + b)%R l) by (intros l; apply map_ext; intros v; unfold new_unit; ring).
  pose proof (Hm y) as Hy. change (num R_arith) with R in *. rewrite <- Hy, <- (same_step o) in H'.
  destruct (C71_regressor ME float GM GE GK 1%R b Rlt_0_1 o o1 o2 (fo_step o) X y sw e e' w w' HL) as (H1 & H2 & H3); auto.
  - intros _. ring.
  - intros enc He Hin. exfalso. eapply Hc; eauto.
  - split; [exact H1|]. split; [exact H2|]. intros He. destruct (H3 He) as (K1 & K2 & K3). split; [|split].
    + intros X' order HO. rewrite (K1 X' order HO). unfold in_new_unit. destruct (predict_reg order o1 X') as [p|e0]; [|reflexivity]. cbn [bind]. f_equal. apply Hm.
    + exact K2.
    + apply K3. ring.
Qed.
Print Assumptions C71_regressor.
Print Assumptions C71_shift.
