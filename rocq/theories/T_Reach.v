(** * Forests that programs can build: the hypotheses of the theorems on forests are met, and
    C34, C35, C42 and C48 from the constructor to the predictions *)

Require Import String Bool List Arith Lia NArith ZArith Reals Lra Permutation.
Require Import Verif.Base Verif.Num Verif.M_Bitarray Verif.P_Bitarray Verif.M_Utils Verif.M_Context Verif.M_Split Verif.M_Tree Verif.M_Grow Verif.M_Object Verif.M_Forest
  Verif.S_Fit Verif.S_Split Verif.S_Object Verif.S_Impurity Verif.S_Params Verif.S_Forest Verif.P_BinningR Verif.T_Bootstrap Verif.T_Params Verif.T_ForestR Verif.T_Clone Verif.M_Parallel Verif.T_Parallel Verif.T_Labels
  Verif.M_Encoder Verif.S_Encoder Verif.M_EncoderForest Verif.T_EncoderForest.
Import ListNotations.
Local Open Scope nat_scope.
Local Open Scope list_scope.

(** ** Every reachable forest is legal *)

Section Reach.
Context {A : arith} {E : env A} {L D : Type} (leb : L -> L -> bool) {EC : encoding D} (ME : menv E).
Context (float : num A -> Prop).

(** The values of type float which are given are floats. *)
Definition float_value (v : pyval A) : Prop := forall x, v = PyFloat x -> float x.
Definition float_ops {Y} (ops : list (clf_op (A := A) Y D)) : Prop := forall p v, In (OSet p v) ops -> float_value v.

Definition mf_float {P Y} (o : fobj A L EC P Y) : Prop := match fo_max_features o with MFFloat x => float x | _ => True end.

Lemma mf_attr : forall {P Y} (o o' : fobj A L EC P Y), getattr P_max_features o' = getattr P_max_features o -> mf_float o -> mf_float o'.
Proof.
  intros P Y o o' H. unfold mf_float. cbn [getattr] in H. injection H as H.
  destruct (fo_max_features o), (fo_max_features o'); try discriminate; auto. injection H as <-. auto.
Qed.

Lemma setattr_mf : forall {P Y} crits losses p v (o : fobj A L EC P Y), float_value v -> mf_float o -> mf_float (fst (setattr crits losses p v o)).
Proof.
  intros P Y crits losses p v o Hv Ho. destruct p; cbn [setattr]; try exact Ho;
    unfold set_n_estimators, set_criterion, set_loss, set_aggregation, set_max_depth, set_min_samples_split, set_min_samples_leaf,
      set_max_bins, set_n_jobs, set_random_state, set_verbose, raise;
    repeat match goal with
    | |- context [if fo_fitted ?o then _ else _] => destruct (fo_fitted o)
    | |- context [match as_int ?v with Some _ => _ | None => _ end] => destruct (as_int v)
    | |- context [match as_str ?v with Some _ => _ | None => _ end] => destruct (as_str v)
    | |- context [match as_bool ?v with Some _ => _ | None => _ end] => destruct (as_bool v)
    end; try exact Ho; repeat (match goal with |- context [if ?b then _ else _] => destruct b end); try exact Ho.
  all: try (destruct v; try exact Ho; cbn [as_int]; repeat (match goal with |- context [if ?b then _ else _] => destruct b end); exact Ho).
  - unfold set_fstep, raise. destruct (as_float v); [|exact Ho]. destruct (aleb n a0); [exact Ho|]. destruct (fo_fitted o); [|exact Ho].
    match goal with |- context [on_trees ?f ?o1] => destruct (on_trees_getattr f o1 P_max_features) as [Hg _]; eapply mf_attr; [exact Hg|exact Ho] end.
  - unfold set_max_features, raise. destruct v; try exact Ho; try exact I; cbn [as_int];
      repeat (match goal with |- context [if ?b then _ else _] => destruct b end); try exact Ho; try exact I.
    apply (Hv x). reflexivity.
Qed.

Lemma setattr_clf_mf : forall p v (o : clf_forest A L EC), float_value v -> mf_float o -> mf_float (fst (setattr_clf E p v o)).
Proof.
  intros p v o Hv Ho. destruct p; cbn [setattr_clf]; try (apply setattr_mf; assumption).
  - unfold set_fdirichlet, raise. destruct (as_float v); [|exact Ho]. destruct (altb n a0); [exact Ho|].
    match goal with |- context [if ?b then _ else _] => destruct b end; [|exact Ho].
    match goal with |- context [on_trees ?f ?o1] => destruct (on_trees_getattr f o1 P_max_features) as [Hg _]; eapply mf_attr; [exact Hg|exact Ho] end.
  - unfold set_class_weight, raise. destruct v; try exact Ho; match goal with |- context [if ?b then _ else _] => destruct b end; exact Ho.
  - unfold set_multiclass, raise. destruct (fo_fitted o); [exact Ho|]. destruct (as_str v); [|exact Ho].
    repeat (match goal with |- context [if ?b then _ else _] => destruct b end); exact Ho.
  - unfold set_cat_split_strategy, raise. destruct (fo_fitted o); [exact Ho|]. destruct (as_str v); [|exact Ho].
    repeat (match goal with |- context [if ?b then _ else _] => destruct b end); exact Ho.
Qed.

Lemma set_all_mf : forall {P Y} (set : param -> pyval A -> fobj A L EC P Y -> mresult A L EC P Y),
  (forall p v o, float_value v -> mf_float o -> mf_float (fst (set p v o))) ->
  forall l o o', (forall p v, In (p, v) l -> float_value v) -> mf_float o -> set_all set l o = Ok o' -> mf_float o'.
Proof.
  intros P Y set HS l. induction l as [|[p v] l IH]; intros o o' Hl Ho H; cbn [set_all] in H; [injection H as <-; exact Ho|].
  destruct (set p v o) as [o1 [e|]] eqn:Es; [discriminate|]. apply (IH o1 o'); [intros q w Hq; apply (Hl q w); right; exact Hq| |exact H].
  change o1 with (fst (o1, @None err)). rewrite <- Es. apply HS; [|exact Ho]. apply (Hl p v). left; reflexivity.
Qed.

Lemma read_legal : forall {P Y} crits losses (o : fobj A L EC P Y),
  (forall p, In p base_params -> read_ok crits losses p o) -> mf_float o -> legal float o.
Proof.
  intros P Y crits losses o H M.
  assert (H1 := H P_n_estimators ltac:(vm_compute; tauto)). assert (H2 := H P_min_samples_split ltac:(vm_compute; tauto)).
  assert (H3 := H P_min_samples_leaf ltac:(vm_compute; tauto)). assert (H4 := H P_max_features ltac:(vm_compute; tauto)).
  unfold read_ok in *. cbn [getattr readable] in *.
  apply Z.ltb_ge in H1, H2, H3. constructor; auto. unfold mf_float in M.
  destruct (fo_max_features o); auto; cbn [readable] in H4; [apply Z.ltb_ge in H4; exact H4|].
  apply orb_false_iff in H4. tauto.
Qed.

(** Every classifier: the constructor with any arguments, then any calls, which may raise. *)
Theorem reachable_classifier : forall args (o : clf_forest A L EC) ops,
  new_clf E EC args = Ok o -> (forall p, float_value (args p)) -> float_ops ops ->
  let o1 := fold_left (clf_run leb ME) ops o in
  legal float o1 /\ (forall d, fo_dirichlet o1 = Some d -> altb d a0 = false) /\ fo_dirichlet o1 <> None.
Proof.
  intros args o ops Hnew Ha Hops o1.
  assert (HR := reachable_read leb ME args o ops Hnew). fold o1 in HR.
  assert (M0 : mf_float o).
  { unfold new_clf in Hnew. eapply (set_all_mf (setattr_clf E)); [intros; apply setattr_clf_mf; assumption| | |exact Hnew]; [|exact I].
    intros p v Hin. apply in_map_iff in Hin. destruct Hin as (q & Hq & _). injection Hq as <- <-. apply Ha. }
  assert (M1 : mf_float o1).
  { unfold o1. clear HR Hnew o1. revert o M0. induction ops as [|op ops IH]; intros o M0; cbn [fold_left]; [exact M0|].
    apply IH; [intros p v Hin; apply (Hops p v); right; exact Hin|]. destruct op as [p v|X y sw|]; cbn [clf_run].
    - apply setattr_clf_mf; [|exact M0]. apply (Hops p v). left; reflexivity.
    - destruct (clf_fit_attrs leb ME o X y sw) as (F1 & _). eapply mf_attr; [apply F1; discriminate|exact M0].
    - unfold flighten. destruct (on_trees_getattr lighten o P_max_features) as [Hg _]. eapply mf_attr; [exact Hg|exact M0]. }
  split; [apply (read_legal _ _ _ (fun p _ => HR p) M1)|].
  pose proof (HR P_dirichlet) as Hd. unfold read_ok in Hd. cbn [getattr] in Hd.
  destruct (fo_dirichlet o1) as [d|]; cbn [option_map readable] in Hd; [|discriminate].
  split; [intros d' [= <-]; exact Hd|discriminate].
Qed.

Theorem reachable_regressor : forall args (o : reg_forest A L EC) ops,
  new_reg EC args = Ok o -> (forall p, float_value (args p)) -> float_ops ops ->
  legal float (fold_left (reg_run ME) ops o).
Proof.
  intros args o ops Hnew Ha Hops. set (o1 := fold_left (reg_run ME) ops o).
  assert (HR := reg_reachable_read ME args o ops Hnew). fold o1 in HR.
  assert (M0 : mf_float o).
  { unfold new_reg in Hnew. eapply (set_all_mf setattr_reg); [intros; apply setattr_mf; assumption| | |exact Hnew]; [|exact I].
    intros p v Hin. apply in_map_iff in Hin. destruct Hin as (q & Hq & _). injection Hq as <- <-. apply Ha. }
  assert (M1 : mf_float o1).
  { unfold o1. clear HR Hnew o1. revert o M0. induction ops as [|op ops IH]; intros o M0; cbn [fold_left]; [exact M0|].
    apply IH; [intros p v Hin; apply (Hops p v); right; exact Hin|]. destruct op as [p v|X y sw|]; cbn [reg_run].
    - apply setattr_mf; [|exact M0]. apply (Hops p v). left; reflexivity.
    - eapply mf_attr; [apply reg_fit_attrs|exact M0].
    - unfold flighten. destruct (on_trees_getattr lighten o P_max_features) as [Hg _]. eapply mf_attr; [exact Hg|exact M0]. }
  exact (read_legal _ _ _ HR M1).
Qed.
End Reach.
Print Assumptions reachable_classifier.
Print Assumptions reachable_regressor.

(** ** From the constructor to the predictions

    Any table of values, read from a data frame or an array, and any settings of the encoder
    ([st]); the trees in exact arithmetic. *)
Section EndToEnd.
(* the values of the cells and the environment of the encoder, in any arithmetic *)
Context {A' : arith} (V : values A') (GV : good_values V) (NM : Type) (nm_eqb : NM -> NM -> bool) (EE : eenv A') (to_int : num A' -> res Z).
Context (names : forall a b, nm_eqb a b = true <-> a = b).
Context (choices : forall n k, k < n -> length (ee_choice EE n k) = k).
Context (st : settings (A := A')).
Notation EC := (forest_encoding V NM nm_eqb EE to_int st).
(* the environment of the forest *)
Context {E : env R_arith} (GE : good_env E) (ME : menv E) (GM : good_menv (fun _ => True) ME).
Context {L : Type} (leb : L -> L -> bool) (HO : total_order leb).

Let GK : good_encoding EC := encoder_is_good V GV NM nm_eqb EE to_int names choices st.

Lemma any_float_ops : forall {D Y} (ops : list (clf_op (A := R_arith) Y D)), float_ops (fun _ => True) ops.
Proof. intros D Y ops p v _ x _. exact I. Qed.

Lemma reach_R : forall args (o : clf_forest R_arith L EC) ops, new_clf E EC args = Ok o ->
  let o1 := fold_left (clf_run leb ME) ops o in
  legal (fun _ => True) o1 /\ (forall d, fo_dirichlet o1 = Some d -> (0 <= d)%R).
Proof.
  intros args o ops Hnew o1.
  destruct (reachable_classifier leb ME (fun _ => True) args o ops Hnew (fun _ _ _ => I) (any_float_ops ops)) as (H1 & H2 & _).
  split; [exact H1|]. intros d Hd. specialize (H2 d Hd). apply Rltb_false in H2. exact H2.
Qed.

(** Whatever was done with a classifier before, if a fit succeeds then it predicts
    probabilities, for every table the encoder accepts and every schedule of the threads, and
    the labels it answers are labels of the training data with the largest probability. *)
Theorem C34_from_constructor : forall args (o o1 : clf_forest R_arith L EC) ops X y sw c,
  new_clf E EC args = Ok o ->
  enough_classes leb (fold_left (clf_run leb ME) ops o) X y -> positive_sample_weights sw ->
  clf_fit leb ME (fold_left (clf_run leb ME) ops o) X y sw = ((o1, None), c) ->
  forall X' enc fb' small, fo_encoder o1 = Some enc -> ec_transform EC enc X' = Ok fb' -> (forall s, small s = false -> s <> 0%R) ->
  (exists sched probas, predict_proba_run small sched o1 X' = Some probas) /\
  forall sched probas, predict_proba_run small sched o1 X' = Some probas ->
    length probas = fst (ec_shape EC X') /\ (forall row, In row probas -> distribution (length (fo_classes o1)) row) /\
    exists labels, predict_class_run small sched o1 X' = Some labels /\
      Forall2 (fun row c => exists k, nth_error (fo_classes o1) k = Some c /\ first_largest Rltb row k) probas labels /\
      forall l, In l labels -> In l y.
Proof.
  intros args o o1 ops X y sw c Hnew HC HW H X' enc fb' small Henc Ht Hs.
  destruct (reach_R args o ops Hnew) as [HL Hd].
  split.
  - destruct (C39_classifier ME (fun _ => True) GM GE GK leb HO _ o1 X y sw c HL HC HW Hd H X' enc fb' small Henc Ht) as (ps & _ & _ & Hex & _). exact Hex.
  - intros sched probas HR. destruct (C39_predict_proba small sched o1 X' probas HR) as (order & HP & Hpp).
    destruct (C34_forest ME (fun _ => True) GM GE GK leb HO _ o1 X y sw c HL HC HW Hd H X' enc fb' Henc Ht small order Hs HP) as (ps & rows & _ & _ & _ & G4 & G5 & G6).
    rewrite Hpp in G4. injection G4 as <-. split; [exact G5|]. split; [exact G6|].
    exact (C40_classifier ME (fun _ => True) GM GE GK leb HO _ o1 X y sw c HL HC HW Hd H X' enc fb' small sched probas Henc Ht Hs HR).
Qed.

(** Whatever was done with a regressor before, its predictions stay in the range of the
    labels of the last fit. *)
Theorem C35_from_constructor : forall args (o o1 : reg_forest R_arith L EC) ops X y sw c lo hi,
  new_reg EC args = Ok o -> positive_sample_weights sw -> (forall v, In v y -> (lo <= v <= hi)%R) ->
  reg_fit ME (fold_left (reg_run ME) ops o) X y sw = ((o1, None), c) ->
  forall X' enc fb', fo_encoder o1 = Some enc -> ec_transform EC enc X' = Ok fb' ->
  (exists sched values, predict_reg_run sched o1 X' = Some values) /\
  forall sched values, predict_reg_run sched o1 X' = Some values ->
    length values = fst (ec_shape EC X') /\ forall v, In v values -> (lo <= v <= hi)%R.
Proof.
  intros args o o1 ops X y sw c lo hi Hnew HW Hy H X' enc fb' Henc Ht.
  pose proof (reachable_regressor ME (fun _ => True) args o ops Hnew (fun _ _ _ => I) (any_float_ops ops)) as HL.
  split.
  - destruct (C39_regressor ME (fun _ => True) GM GE GK _ o1 X y sw c HL HW H X' enc fb' Henc Ht) as (ts & ps & _ & _ & Hex & _). exact Hex.
  - intros sched values HR. destruct (C39_predict_reg sched o1 X' values HR) as (order & HP & Hpp).
    destruct (C35_forest ME (fun _ => True) GM GE GK _ o1 X y sw c lo hi HL HW Hy H X' enc fb' Henc Ht order HP) as (rows & G1 & G2 & G3).
    rewrite Hpp in G1. injection G1 as <-. auto.
Qed.
End EndToEnd.
Print Assumptions C34_from_constructor.
Print Assumptions C35_from_constructor.
