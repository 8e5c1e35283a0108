(** * C57: get_params, set_params and clone *)

Require Import String Bool List Arith Lia NArith ZArith QArith Reals Lra.
Require Import Verif.Base Verif.Num Verif.M_Utils Verif.M_Context Verif.M_Tree Verif.M_Grow Verif.M_Object Verif.M_Forest
  Verif.M_Clone Verif.S_Params Verif.P_BinningR Verif.T_Params Verif.Ex_Data Verif.Ex_Forest Verif.Ex_ForestQ.
Import ListNotations.
Local Open Scope nat_scope.
Local Open Scope list_scope.

Section Clone.
Context {A : arith} {E : env A} {L D : Type} (leb : L -> L -> bool) {EC : encoding D} (ME : menv E).

(** ** The values that the getters can return *)

Definition readable (crits losses : list string) (p : param) (v : pyval A) : Prop :=
  match p, v with
  | P_n_estimators, PyInt z | P_min_samples_leaf, PyInt z => (z <? 1)%Z = false
  | P_criterion, PyStr s => existsb (String.eqb s) crits = true
  | P_loss, PyStr s => existsb (String.eqb s) losses = true
  | P_step, PyFloat x => aleb x a0 = false
  | P_max_depth, PyInt z | P_min_samples_split, PyInt z => (z <? 2)%Z = false
  | P_max_bins, PyInt z => (z <? 3)%Z = false
  | P_max_features, PyInt z => (z <? 1)%Z = false
  | P_max_features, PyFloat x => (altb a1 x || aleb x a0)%bool = false
  | P_n_jobs, PyInt z => ((z <? -1)%Z || (z =? 0)%Z)%bool = false
  | P_random_state, PyInt z => (0 <=? z)%Z = true
  | P_dirichlet, PyFloat x => altb x a0 = false
  | _, _ => True
  end.

Section Any.
Context {P Y : Type} (crits losses : list string).
Implicit Types o : fobj A L EC P Y.

Definition read_ok (p : param) o : Prop :=
  match getattr p o with Some v => readable crits losses p v | None => p = P_random_state end.

Lemma setattr_read : forall p v o q, In p base_params -> (read_ok q o \/ q = p /\ p <> P_random_state /\ snd (setattr crits losses p v o) = None) ->
  read_ok q (fst (setattr crits losses p v o)).
Proof.
  intros p v o q Hp Hq.
  assert (HT : forall f o1, read_ok q o1 -> read_ok q (fst (on_trees f o1))).
  { intros f o1 H. unfold read_ok. destruct (on_trees_getattr f o1 q) as [-> _]. exact H. }
  assert (HN : forall e, snd (setattr crits losses p v o) = Some e -> fst (setattr crits losses p v o) = o -> read_ok q (fst (setattr crits losses p v o))).
  { intros e H1 H2. rewrite H2. destruct Hq as [Hq|(_ & _ & Hq)]; [exact Hq|congruence]. }
  assert (HS : forall o', (forall r, r <> p -> getattr r o' = getattr r o) -> read_ok p o' -> read_ok q o').
  { intros o' H1 H2. assert (Hd : q = p \/ q <> p) by (destruct q, p; auto; right; discriminate).
    destruct Hd as [->|Hd]; [exact H2|]. destruct Hq as [Hq|(Hq & _)]; [|contradiction]. unfold read_ok. rewrite H1; auto. }
  assert (HO : p = P_random_state -> read_ok q o) by (intros H; destruct Hq as [Hq|(_ & Hq & _)]; [exact Hq|contradiction]).
  clear Hq.
  destruct p; cbn [setattr] in *;
    unfold set_n_estimators, set_criterion, set_loss, set_aggregation, set_max_depth, set_min_samples_split, set_min_samples_leaf,
          set_max_bins, set_n_jobs, set_random_state, set_verbose, set_fstep, set_max_features, raise in *;
    try (exfalso; cbn in Hp; repeat (destruct Hp as [Hp|Hp]; [discriminate|]); exact Hp);
    clear Hp;
    repeat match goal with
    | |- context [fo_fitted ?o] => destruct (fo_fitted o)
    | |- context [match as_int ?v with Some _ => _ | None => _ end] => destruct (as_int v)
    | |- context [match as_str ?v with Some _ => _ | None => _ end] => destruct (as_str v)
    | |- context [match as_float ?v with Some _ => _ | None => _ end] => destruct (as_float v)
    | |- context [match as_bool ?v with Some _ => _ | None => _ end] => destruct (as_bool v)
    | |- context [match ?v with PyNone => _ | _ => _ end] => destruct v; cbn [as_int] in *
    | |- context [if ?b then _ else _] => let H := fresh "Hb" in destruct b eqn:H
    end; try (eapply HN; reflexivity); try (apply HO; reflexivity); try apply HT; cbn [fst];
    (apply HS; [intros [] Hr; try reflexivity; try (exfalso; apply Hr; reflexivity)|]); try exact I; try assumption; reflexivity.
Qed.

Lemma setattr_other : forall p v o, ~ In p base_params -> setattr crits losses p v o = (o, None).
Proof. intros [] v o H; cbn in H; try (exfalso; apply H; tauto); reflexivity. Qed.

End Any.

Notation clf_ok := (read_ok ["gini"; "entropy"]%string ["log"]%string).

Lemma setattr_clf_read : forall p v (o : clf_forest A L EC) q, (clf_ok q o \/ q = p /\ p <> P_random_state /\ snd (setattr_clf E p v o) = None) ->
  clf_ok q (fst (setattr_clf E p v o)).
Proof.
  intros p v o q Hq.
  assert (HB : In p base_params -> setattr_clf E p v o = setattr ["gini"; "entropy"]%string ["log"]%string p v o)
    by (intros H; destruct p; try reflexivity; cbn in H; repeat (destruct H as [H|H]; [discriminate|]); destruct H).
  assert (Hdec : In p base_params \/ ~ In p base_params) by (destruct p; cbn; (left; solve [tauto]) || (right; intros HH; repeat (destruct HH as [HH|HH]; [discriminate|]); exact HH)).
  destruct Hdec as [Hd|Hd]; [rewrite HB in * by exact Hd; apply setattr_read; auto|].
  assert (HT : forall f (o1 : clf_forest A L EC), clf_ok q o1 -> clf_ok q (fst (on_trees f o1))).
  { intros f o1 H. unfold read_ok. destruct (on_trees_getattr f o1 q) as [-> _]. exact H. }
  assert (HN : forall e, snd (setattr_clf E p v o) = Some e -> fst (setattr_clf E p v o) = o -> clf_ok q (fst (setattr_clf E p v o))).
  { intros e H1 H2. rewrite H2. destruct Hq as [Hq|(_ & _ & Hq)]; [exact Hq|congruence]. }
  assert (HS : forall o' : clf_forest A L EC, (forall r, r <> p -> getattr r o' = getattr r o) -> clf_ok p o' -> clf_ok q o').
  { intros o' H1 H2. assert (Hd' : q = p \/ q <> p) by (destruct q, p; auto; right; discriminate).
    destruct Hd' as [->|Hd']; [exact H2|]. destruct Hq as [Hq|(Hq & _)]; [|contradiction]. unfold read_ok. rewrite H1; auto. }
  clear Hq HB.
  destruct p; try (exfalso; apply Hd; cbn; tauto); clear Hd; cbn [setattr_clf] in *;
    unfold set_class_weight, set_multiclass, set_cat_split_strategy, set_fdirichlet, raise in *.
  - destruct (as_float v) as [x|]; [|eapply HN; reflexivity]. destruct (altb x a0) eqn:Ex; [eapply HN; reflexivity|].
    assert (HR : clf_ok q (w_dirichlet o (Some x))).
    { apply HS; [intros [] Hr; try reflexivity; exfalso; apply Hr; reflexivity|]. exact Ex. }
    cbv zeta. match goal with |- context [if ?b then _ else _] => destruct b end; [apply HT|]; exact HR.
  - destruct v; try (eapply HN; reflexivity).
    + apply HS; [intros [] Hr; try reflexivity; exfalso; apply Hr; reflexivity|]. exact I.
    + destruct (String.eqb s "balanced"); [|eapply HN; reflexivity].
      apply HS; [intros [] Hr; try reflexivity; exfalso; apply Hr; reflexivity|]. exact I.
  - destruct (fo_fitted o); [eapply HN; reflexivity|]. destruct (as_str v) as [s|]; [|eapply HN; reflexivity].
    destruct (String.eqb s "multinomial"); [|destruct (String.eqb s "ovr"); [|eapply HN; reflexivity]];
      (apply HS; [intros [] Hr; try reflexivity; exfalso; apply Hr; reflexivity|]; exact I).
  - destruct (fo_fitted o); [eapply HN; reflexivity|]. destruct (as_str v) as [s|]; [|eapply HN; reflexivity].
    destruct (String.eqb s "binary"); [|destruct (String.eqb s "all"); [|destruct (String.eqb s "random"); [|eapply HN; reflexivity]]];
      (apply HS; [intros [] Hr; try reflexivity; exfalso; apply Hr; reflexivity|]; exact I).
Qed.

Lemma set_all_read : forall l (o1 o2 : clf_forest A L EC) q, set_all (setattr_clf E) l o1 = Ok o2 ->
  (clf_ok q o1 \/ In q (map fst l) /\ q <> P_random_state) -> clf_ok q o2.
Proof.
  induction l as [|[p v] l IH]; intros o1 o2 q Hs Hq.
  - injection Hs as <-. destruct Hq as [Hq|[[] _]]; exact Hq.
  - cbn [set_all] in Hs. destruct (setattr_clf E p v o1) as [o3 [e|]] eqn:Es; [discriminate|].
    eapply IH; eauto. destruct Hq as [Hq|[[Hq|Hq] Hr]]; [|cbn [fst] in Hq; subst q|right; auto];
      left; change o3 with (fst (o3, @None err)); rewrite <- Es; apply setattr_clf_read; auto.
    right. rewrite Es. auto.
Qed.

(** The parameters of every object that a program can build. *)
Lemma reachable_read : forall args (o : clf_forest A L EC) ops, new_clf E EC args = Ok o -> forall p, clf_ok p (fold_left (clf_run leb ME) ops o).
Proof.
  intros args o ops Hnew.
  assert (H1 : forall p, clf_ok p o).
  { intros p. unfold new_clf in Hnew. eapply set_all_read; eauto. destruct p; try (right; split; [vm_compute; tauto|discriminate]).
    left. reflexivity. }
  clear Hnew. revert o H1. induction ops as [|op ops IH]; intros o Ho; cbn [fold_left]; auto. apply IH. intros p.
  destruct op as [q v|X y sw|]; cbn [clf_run].
  - apply setattr_clf_read. auto.
  - destruct (clf_fit_attrs leb ME o X y sw) as (F1 & F2 & _). unfold read_ok.
    assert (Hd : p = P_multiclass \/ p <> P_multiclass) by (destruct p; auto; right; discriminate).
    destruct Hd as [->|Hd].
    + destruct F2 as [F2|[_ F2]]; rewrite F2; [apply (Ho P_multiclass)|]. exact I.
    + rewrite F1 by auto. apply Ho.
  - unfold flighten. unfold read_ok. destruct (on_trees_getattr lighten o p) as [-> _]. apply Ho.
Qed.

(** ** The constructor called with values that were read *)

(** The object as it was before any call to fit. *)
Definition unfit {P Y} (o : fobj A L EC P Y) : fobj A L EC P Y :=
  mkF false (fo_n_estimators o) (fo_step o) (fo_aggregation o) (fo_max_depth o) (fo_min_samples_split o) (fo_min_samples_leaf o)
    (fo_max_bins o) (fo_max_features o) (fo_n_jobs o) (fo_random_state o) (fo_verbose o) (fo_criterion o) (fo_loss o)
    (fo_dirichlet o) (fo_balanced o) (fo_multiclass o) (fo_strategy o) [] [] None None 0.

Ltac opened o H := destruct o as [fit nest step agg md mss msl mb mf nj rs vb cr lo di ba mu st cl se en tr tc];
  pose proof (H P_n_estimators) as H1; pose proof (H P_criterion) as H2; pose proof (H P_loss) as H3; pose proof (H P_step) as H4;
  pose proof (H P_max_depth) as H5; pose proof (H P_min_samples_split) as H6; pose proof (H P_min_samples_leaf) as H7;
  pose proof (H P_max_bins) as H8; pose proof (H P_max_features) as H9; pose proof (H P_n_jobs) as H10;
  pose proof (H P_random_state) as H11; pose proof (H P_dirichlet) as H12; clear H;
  cbn [read_ok getattr readable fo_fitted fo_n_estimators fo_step fo_aggregation fo_max_depth fo_min_samples_split
    fo_min_samples_leaf fo_max_bins fo_max_features fo_n_jobs fo_random_state fo_verbose fo_criterion fo_loss fo_dirichlet fo_balanced
    fo_multiclass fo_strategy option_map] in *; unfold read_ok in *; cbn [getattr readable fo_fitted fo_n_estimators fo_step fo_aggregation fo_max_depth fo_min_samples_split
    fo_min_samples_leaf fo_max_bins fo_max_features fo_n_jobs fo_random_state fo_verbose fo_criterion fo_loss fo_dirichlet fo_balanced
    fo_multiclass fo_strategy option_map] in *.

Ltac flat := cbv beta iota zeta delta [blank w_n_estimators w_criterion w_loss w_step w_aggregation w_max_depth w_min_samples_split
  w_min_samples_leaf w_max_bins w_max_features w_n_jobs w_random_state w_verbose w_dirichlet w_balanced w_multiclass w_strategy
  fo_fitted fo_n_estimators fo_step fo_aggregation fo_max_depth fo_min_samples_split
  fo_min_samples_leaf fo_max_bins fo_max_features fo_n_jobs fo_random_state fo_verbose fo_criterion fo_loss fo_dirichlet fo_balanced
  fo_multiclass fo_strategy fo_classes fo_seeds fo_encoder fo_trees fo_tree_classes].
Ltac next tac := eapply set_all_step; [cbn [setattr_clf setattr setattr_reg]; tac|flat].

Lemma clone_clf_unfit : forall (o : clf_forest A L EC), (forall p, clf_ok p o) -> fo_random_state o <> None -> fo_dirichlet o <> None ->
  clone_clf E o = Ok (unfit o).
Proof.
  intros o H Hr Hd. opened o H.
  destruct rs as [rs|]; [|contradiction]. destruct di as [di|]; [|contradiction]. clear Hr Hd.
  unfold clone_clf, get_params. cbn [clf_params base_params app mapM getattr fo_fitted fo_n_estimators fo_step fo_aggregation fo_max_depth fo_min_samples_split
    fo_min_samples_leaf fo_max_bins fo_max_features fo_n_jobs fo_random_state fo_verbose fo_criterion fo_loss fo_dirichlet fo_balanced
    fo_multiclass fo_strategy option_map bind unfit].
  next ltac:(unfold set_n_estimators; cbn [blank fo_fitted as_int]; rewrite H1; reflexivity).
  next ltac:(unfold set_criterion; cbn [as_str]; rewrite H2; reflexivity).
  next ltac:(unfold set_loss; cbn [as_str]; rewrite H3; reflexivity).
  next ltac:(unfold set_fstep; cbn [as_float]; rewrite H4; reflexivity).
  next ltac:(reflexivity).
  next ltac:(instantiate (1 := ltac:(refine (w_max_depth _ md))); unfold set_max_depth; destruct md as [md|]; cbn [as_int]; [rewrite H5|]; reflexivity).
  next ltac:(unfold set_min_samples_split; cbn [as_int]; rewrite H6; reflexivity).
  next ltac:(unfold set_min_samples_leaf; cbn [as_int]; rewrite H7; reflexivity).
  next ltac:(unfold set_max_bins; cbn [as_int]; rewrite H8; reflexivity).
  next ltac:(instantiate (1 := ltac:(refine (w_max_features _ mf))); unfold set_max_features; destruct mf as [| | | |mz|mx]; cbn [as_int]; [| | | |rewrite H9|rewrite H9]; reflexivity).
  next ltac:(unfold set_n_jobs; cbn [as_int]; rewrite H10; reflexivity).
  next ltac:(instantiate (1 := ltac:(refine (w_random_state _ (Some rs)))); unfold set_random_state; destruct rs as [rs|]; cbn [as_int]; [rewrite H11|]; reflexivity).
  next ltac:(reflexivity).
  next ltac:(unfold set_fdirichlet; cbn [as_float]; rewrite H12; reflexivity).
  next ltac:(instantiate (1 := ltac:(refine (w_balanced _ ba))); destruct ba; reflexivity).
  next ltac:(instantiate (1 := ltac:(refine (w_multiclass _ mu))); destruct mu; reflexivity).
  next ltac:(instantiate (1 := ltac:(refine (w_strategy _ st))); destruct st; reflexivity).
  reflexivity.
Qed.

(** ** Setters on forests that are not fitted *)

Ltac setters := unfold set_n_estimators, set_criterion, set_loss, set_aggregation, set_max_depth, set_min_samples_split, set_min_samples_leaf,
    set_max_bins, set_n_jobs, set_random_state, set_verbose, set_fstep, set_max_features, set_class_weight, set_multiclass, set_cat_split_strategy,
    set_fdirichlet, raise;
  cbv zeta;
  repeat match goal with
  | |- context [if fo_fitted ?o then _ else _] => destruct (fo_fitted o)
  | |- context [match as_int ?v with Some _ => _ | None => _ end] => destruct (as_int v)
  | |- context [match as_str ?v with Some _ => _ | None => _ end] => destruct (as_str v)
  | |- context [match as_float ?v with Some _ => _ | None => _ end] => destruct (as_float v)
  | |- context [match as_bool ?v with Some _ => _ | None => _ end] => destruct (as_bool v)
  | |- context [match ?v with PyNone => _ | _ => _ end] => destruct v; cbn [as_int]
  | |- context [if ?b then _ else _] => destruct b
  end.

Lemma setattr_unfit : forall {P Y} crits losses p v (o : fobj A L EC P Y), unfit o = o ->
  unfit (fst (setattr crits losses p v o)) = fst (setattr crits losses p v o).
Proof.
  intros P Y crits losses p v o H. rewrite <- H. generalize o. clear o H. intros o. assert (HF : fo_fitted (unfit o) = false) by reflexivity.
  destruct p; cbn [setattr]; setters; try reflexivity; discriminate.
Qed.

Lemma setattr_clf_unfit : forall p v (o : clf_forest A L EC), unfit o = o -> unfit (fst (setattr_clf E p v o)) = fst (setattr_clf E p v o).
Proof.
  intros p v o H. destruct p; try (apply setattr_unfit; exact H); rewrite <- H; generalize o; clear o H; intros o; cbn [setattr_clf].
  2-4: setters; reflexivity.
  unfold set_fdirichlet, raise. destruct (as_float v); [|reflexivity]. destruct (altb _ _); reflexivity.
Qed.

Lemma set_all_unfit : forall l (o o' : clf_forest A L EC), unfit o = o -> set_all (setattr_clf E) l o = Ok o' -> unfit o' = o'.
Proof.
  induction l as [|[p v] l IH]; intros o o' H Hs; cbn [set_all] in Hs; [injection Hs as <-; exact H|].
  destruct (setattr_clf E p v o) as [o1 [e|]] eqn:Es; [discriminate|]. apply (IH o1); [|exact Hs].
  change o1 with (fst (o1, @None err)). rewrite <- Es. apply setattr_clf_unfit. exact H.
Qed.

(** ** Random states *)

Lemma random_state_kept : forall p v (o : clf_forest A L EC), getattr P_random_state o <> None ->
  getattr P_random_state (fst (setattr_clf E p v o)) <> None.
Proof.
  intros p v o H.
  assert (HT : forall f (o1 : clf_forest A L EC), getattr P_random_state o1 <> None -> getattr P_random_state (fst (on_trees f o1)) <> None)
    by (intros f o1 H1; destruct (on_trees_getattr f o1 P_random_state) as [-> _]; exact H1).
  destruct p; cbn [setattr_clf setattr]; setters; try apply HT; try exact H; discriminate.
Qed.

Lemma run_random_state : forall ops (o : clf_forest A L EC), getattr P_random_state o <> None ->
  getattr P_random_state (fold_left (clf_run leb ME) ops o) <> None.
Proof.
  induction ops as [|op ops IH]; intros o H; cbn [fold_left]; [exact H|]. apply IH. destruct op as [p v|X y sw|]; cbn [clf_run].
  - apply random_state_kept. exact H.
  - destruct (clf_fit_attrs leb ME o X y sw) as (F1 & _). rewrite F1 by discriminate. exact H.
  - unfold flighten. destruct (on_trees_getattr lighten o P_random_state) as [-> _]. exact H.
Qed.

Lemma new_random_state : forall args (o : clf_forest A L EC), new_clf E EC args = Ok o ->
  (args P_random_state = PyNone \/ int_from 0 (args P_random_state)) -> getattr P_random_state o <> None.
Proof.
  intros args o H Hr. unfold new_clf in H.
  assert (HS : forall l (o1 : clf_forest A L EC), unfit o1 = o1 -> In P_random_state l \/ getattr P_random_state o1 <> None ->
    set_all (setattr_clf E) (map (fun p => (p, args p)) l) o1 = Ok o -> getattr P_random_state o <> None).
  { induction l as [|p l IH]; intros o1 Hu Hin Hs.
    - cbn in Hs. injection Hs as <-. destruct Hin as [[]|Hin]; exact Hin.
    - cbn [map set_all] in Hs. destruct (setattr_clf E p (args p) o1) as [o2 [e|]] eqn:Es; [discriminate|].
      assert (E2 : o2 = fst (setattr_clf E p (args p) o1)) by (rewrite Es; reflexivity). apply (IH o2); [| |exact Hs].
      + rewrite E2. apply setattr_clf_unfit. exact Hu.
      + destruct Hin as [[Hin|Hin]|Hin]; [right|left; exact Hin|right; rewrite E2; apply random_state_kept; exact Hin].
        subst p. rewrite E2. cbn [setattr_clf setattr]. unfold set_random_state. rewrite <- Hu. cbn [unfit fo_fitted].
        destruct (int_from_dec (args P_random_state) 0) as [(z & Hz & Hz' & _)|[_ Hn]].
        * destruct (args P_random_state); try discriminate; cbn [as_int] in *; injection Hz as <-;
            (match goal with |- context [(0 <=? ?x)%Z] => destruct (Z.leb_spec 0 x) end); try discriminate; lia.
        * destruct Hr as [->|Hr]; [discriminate|contradiction]. }
  apply (HS clf_params blank); [reflexivity|left; cbn; tauto|exact H].
Qed.

(** ** C57, classifiers *)

(** Whatever was done with a forest, sklearn's clone gives a forest with the same parameters
    and without anything learned. The only condition is on the argument [random_state] of the
    constructor. *)
Theorem C57_clone_classifier : forall args (o : clf_forest A L EC) ops,
  new_clf E EC args = Ok o -> (args P_random_state = PyNone \/ int_from 0 (args P_random_state)) ->
  let o1 := fold_left (clf_run leb ME) ops o in
  exists o', clone_clf E o1 = Ok o' /\ (forall p, getattr p o' = getattr p o1) /\
    fo_fitted o' = false /\ fo_trees o' = None /\ fo_encoder o' = None /\ fo_classes o' = [] /\ fo_seeds o' = [].
Proof.
  intros args o ops Hnew Hr o1. exists (unfit o1).
  pose proof (reachable_read args o ops Hnew) as HR. fold o1 in HR.
  assert (Hs : getattr P_random_state o1 <> None) by (apply run_random_state; apply (new_random_state args); assumption).
  split; [|split; [intros []; reflexivity|repeat split]].
  apply clone_clf_unfit; [exact HR| |].
  - intros H. apply Hs. cbn [getattr]. rewrite H. reflexivity.
  - intros H. specialize (HR P_dirichlet). unfold read_ok in HR. cbn [getattr] in HR. rewrite H in HR. discriminate.
Qed.

(** A copy of a forest that was only configured is equal to it. *)
Definition only_sets (ops : list (clf_op (A := A) L D)) : Prop := forall op, In op ops -> exists p v, op = OSet p v.

Theorem C57_clone_unfitted : forall args (o : clf_forest A L EC) ops,
  new_clf E EC args = Ok o -> (args P_random_state = PyNone \/ int_from 0 (args P_random_state)) -> only_sets ops ->
  let o1 := fold_left (clf_run leb ME) ops o in clone_clf E o1 = Ok o1.
Proof.
  intros args o ops Hnew Hr Hops o1. destruct (C57_clone_classifier args o ops Hnew Hr) as (o' & Ho' & _).
  pose proof (reachable_read args o ops Hnew) as HR. fold o1 in Ho', HR.
  assert (Hs : getattr P_random_state o1 <> None) by (apply run_random_state; apply (new_random_state args); assumption).
  rewrite clone_clf_unfit; [|exact HR| |].
  - f_equal. assert (Hu : unfit o = o) by (eapply set_all_unfit; [|exact Hnew]; reflexivity).
    unfold o1. clear - Hu Hops. revert o Hu. induction ops as [|op ops IH]; intros o Hu; cbn [fold_left]; [exact Hu|].
    apply IH; [intros op' H; apply Hops; right; exact H|]. destruct (Hops op (or_introl eq_refl)) as (p & v & ->). cbn [clf_run].
    apply setattr_clf_unfit. exact Hu.
  - intros H. apply Hs. cbn [getattr]. rewrite H. reflexivity.
  - intros H. specialize (HR P_dirichlet). unfold read_ok in HR. cbn [getattr] in HR. rewrite H in HR. discriminate.
Qed.

Lemma fit_end_unfit : forall {P Y} (o : fobj A L EC P Y) X r tc build, unfit (fst (fit_end ME o X r tc build)) = unfit o.
Proof.
  intros P Y o X r tc build. unfold fit_end, raise. destruct (get_max_features _ _ _); [|reflexivity]. destruct (fo_random_state o) eqn:Er; [|reflexivity].
  cbv zeta. destruct (let* enc := ec_fit EC (fo_max_bins o) X in _) as [[enc fb]|e]; [|reflexivity].
  destruct (mapM _ _); reflexivity.
Qed.

(** After a fit, the copy fitted on the same data gives the same result, as long as the
    oracles of the run are the same. *)
Theorem C57_clone_refit : forall args (o : clf_forest A L EC) ops X y sw o1 w,
  new_clf E EC args = Ok o -> (args P_random_state = PyNone \/ int_from 0 (args P_random_state)) -> only_sets ops ->
  clf_fit leb ME (fold_left (clf_run leb ME) ops o) X y sw = ((o1, None), w) ->
  exists o', clone_clf E o1 = Ok o' /\ clf_fit leb ME o' X y sw = ((o1, None), w).
Proof.
  intros args o ops X y sw o1 w Hnew Hr Hops Hfit.
  set (o0 := fold_left (clf_run leb ME) ops o) in *.
  assert (H0 : clone_clf E o0 = Ok o0) by (apply (C57_clone_unfitted args); assumption).
  destruct (C57_clone_classifier args o (ops ++ [OFit X y sw]) Hnew Hr) as (o' & Ho' & Hg & _).
  rewrite fold_left_app in *. fold o0 in Ho', Hg. cbn [fold_left clf_run] in Ho', Hg. rewrite Hfit in Ho', Hg. cbn [fst] in Ho', Hg.
  exists o'. split; [exact Ho'|].
  assert (HU : o' = unfit o1).
  { pose proof (reachable_read args o (ops ++ [OFit X y sw]) Hnew) as HR. rewrite fold_left_app in HR. fold o0 in HR. cbn [fold_left clf_run] in HR.
    rewrite Hfit in HR. cbn [fst] in HR.
    assert (Hs : getattr P_random_state o0 <> None) by (apply run_random_state; apply (new_random_state args); assumption).
    destruct (clf_fit_attrs leb ME o0 X y sw) as (F1 & _). rewrite Hfit in F1. cbn [fst] in F1. rewrite <- F1 in Hs by discriminate.
    rewrite clone_clf_unfit in Ho'; [injection Ho' as <-; reflexivity|exact HR| |].
    - intros H. apply Hs. cbn [getattr]. rewrite H. reflexivity.
    - intros H. specialize (HR P_dirichlet). unfold read_ok in HR. cbn [getattr] in HR. rewrite H in HR. discriminate. }
  assert (Hu : unfit o0 = o0).
  { rewrite (clone_clf_unfit o0) in H0; [injection H0 as H0; exact H0|apply (reachable_read args); exact Hnew| |].
    - intros H. assert (Hs : getattr P_random_state o0 <> None) by (apply run_random_state; apply (new_random_state args); assumption).
      apply Hs. cbn [getattr]. rewrite H. reflexivity.
    - intros H. pose proof (reachable_read args o ops Hnew P_dirichlet) as HR. fold o0 in HR. unfold read_ok in HR. cbn [getattr] in HR. rewrite H in HR. discriminate. }
  subst o'. clear - Hfit Hu.
  assert (HC : unfit o1 = o0 \/
    (fo_multiclass o0 = Ovr /\ length (uniq leb y) <= 2 /\ unfit o1 = w_multiclass o0 Multinomial)).
  { revert Hfit. unfold clf_fit, raise. destruct (negb _); [discriminate|]. destruct (check_weights _ _) as [wl|e]; [|discriminate]. cbv zeta.
    assert (HE : forall (o2 : clf_forest A L EC) o3 b X r tc build (w1 w2 : list (num A)), unfit o2 = b -> (fit_end ME o2 X r tc build, w1) = ((o3, None), w2) -> unfit o3 = b).
    { intros o2 o3 b X' r tc build w1 w2 Hb Hf. injection Hf as Hf _. rewrite <- Hb, <- (fit_end_unfit o2 X' r tc build), Hf. reflexivity. }
    destruct (fo_multiclass o0) eqn:Em.
    - destruct (fo_dirichlet _); [|discriminate]. destruct (_ && _)%bool; [discriminate|]. cbn [fo_multiclass w_classes]. rewrite Em. intros Hf. left.
      eapply HE; [|exact Hf]. exact Hu.
    - destruct (Nat.leb_spec (length (uniq leb y)) 2) as [HK|HK].
      + unfold set_multiclass, raise. replace (fo_fitted (w_classes o0 (uniq leb y))) with false by (rewrite <- Hu; reflexivity). cbn [as_str].
        change (String.eqb "multinomial" "multinomial") with true. cbn iota.
        destruct (fo_dirichlet _); [|discriminate]. destruct (_ && _)%bool; [discriminate|]. cbn [fo_multiclass w_multiclass]. intros Hf. right.
        repeat split; [exact HK|]. eapply HE; [|exact Hf]. rewrite <- Hu. reflexivity.
      + destruct (fo_dirichlet _); [|discriminate]. destruct (_ && _)%bool; [discriminate|]. cbn [fo_multiclass w_classes]. rewrite Em. intros Hf. left.
        eapply HE; [|exact Hf]. exact Hu. }
  destruct HC as [->|(HO & HK & ->)]; [exact Hfit|]. revert Hfit. unfold clf_fit, raise.
  destruct (negb _); [discriminate|]. destruct (check_weights _ _) as [wl|e]; [|discriminate]. intros <-.
  rewrite HO. replace (length (uniq leb y) <=? 2)%nat with true by (symmetry; apply Nat.leb_le; exact HK).
  unfold set_multiclass. replace (fo_fitted (w_classes o0 (uniq leb y))) with false by (rewrite <- Hu; reflexivity). cbn [as_str].
  change (String.eqb "multinomial" "multinomial") with true. cbn iota. cbn [fo_multiclass w_multiclass w_classes].
  reflexivity.
Qed.

(** On a forest that is not fitted, setting parameters to their current values changes
    nothing. *)
Lemma setattr_same : forall p v (o : clf_forest A L EC), fo_fitted o = false -> clf_ok p o -> getattr p o = Some v -> setattr_clf E p v o = (o, None).
Proof.
  intros p v o Hf Hr Hg. unfold read_ok in Hr. rewrite Hg in Hr.
  destruct o as [fit nest step agg md mss msl mb mf nj rs vb cr lo di ba mu st cl se en tr tc]. cbn [fo_fitted] in Hf. subst fit.
  destruct p; cbn [getattr option_map fo_n_estimators fo_step fo_aggregation fo_max_depth fo_min_samples_split
    fo_min_samples_leaf fo_max_bins fo_max_features fo_n_jobs fo_random_state fo_verbose fo_criterion fo_loss fo_dirichlet fo_balanced
    fo_multiclass fo_strategy] in Hg; cbn [setattr_clf setattr].
  - injection Hg as <-. cbn in Hr. unfold set_n_estimators. cbn [fo_fitted as_int]. rewrite Hr. reflexivity.
  - injection Hg as <-. cbn in Hr. unfold set_criterion. cbn [fo_fitted as_str]. cbn. rewrite Hr. reflexivity.
  - injection Hg as <-. cbn in Hr. unfold set_loss. cbn [fo_fitted as_str]. cbn. rewrite Hr. reflexivity.
  - injection Hg as <-. cbn in Hr. unfold set_fstep. cbn [fo_fitted as_float]. rewrite Hr. reflexivity.
  - injection Hg as <-. reflexivity.
  - injection Hg as <-. destruct md; cbn in Hr; unfold set_max_depth; cbn [as_int]; [rewrite Hr|]; reflexivity.
  - injection Hg as <-. cbn in Hr. unfold set_min_samples_split. cbn [as_int]. rewrite Hr. reflexivity.
  - injection Hg as <-. cbn in Hr. unfold set_min_samples_leaf. cbn [as_int]. rewrite Hr. reflexivity.
  - injection Hg as <-. cbn in Hr. unfold set_max_bins. cbn [as_int]. rewrite Hr. reflexivity.
  - injection Hg as <-. destruct mf; cbn in Hr; unfold set_max_features; cbn [as_int]; try rewrite Hr; reflexivity.
  - injection Hg as <-. cbn in Hr. unfold set_n_jobs. cbn [as_int]. rewrite Hr. reflexivity.
  - destruct rs as [rs|]; [|discriminate]. injection Hg as <-. destruct rs; cbn in Hr; unfold set_random_state; cbn [as_int fo_fitted]; [rewrite Hr|]; reflexivity.
  - injection Hg as <-. reflexivity.
  - destruct di as [di|]; [|discriminate]. injection Hg as <-. cbn in Hr. unfold set_fdirichlet. cbn [as_float fo_fitted]. rewrite Hr. reflexivity.
  - injection Hg as <-. destruct ba; reflexivity.
  - injection Hg as <-. destruct mu; reflexivity.
  - injection Hg as <-. destruct st; reflexivity.
Qed.

Theorem C57_set_params : forall args (o : clf_forest A L EC) ops values,
  new_clf E EC args = Ok o ->
  let o1 := fold_left (clf_run leb ME) ops o in
  fo_fitted o1 = false -> (forall p v, In (p, v) values -> getattr p o1 = Some v) ->
  set_params (setattr_clf E) values o1 = (o1, None).
Proof.
  intros args o ops values Hnew o1 Hf Hv. pose proof (reachable_read args o ops Hnew) as HR. fold o1 in HR.
  induction values as [|[p v] l IH]; cbn [set_params]; [reflexivity|].
  rewrite setattr_same; [|exact Hf|apply HR|apply Hv; left; reflexivity]. apply IH. intros p' v' H. apply Hv. right. exact H.
Qed.

(** set_params stops at the first value that a setter refuses: the exception is that of this
    setter, the values before it are stored and those after it are not looked at. *)
Theorem C57_set_params_stops : forall {P Y : Type} (set : param -> pyval A -> fobj A L EC P Y -> mresult A L EC P Y) before p v after o o1 o2 e,
  set_params set before o = (o1, None) -> set p v o1 = (o2, Some e) ->
  set_params set (before ++ (p, v) :: after) o = (o2, Some e).
Proof.
  intros P Y set before. induction before as [|[q w] before IH]; intros p v after o o1 o2 e H1 H2; cbn [set_params app] in *.
  - injection H1 as <-. rewrite H2. reflexivity.
  - destruct (set q w o) as [o' [e'|]]; [discriminate|]. eapply IH; eauto.
Qed.

(** ** C57, regressors *)

Notation reg_ok := (read_ok ["mse"]%string ["mse"]%string).

Definition reg_run (o : reg_forest A L EC) (op : clf_op (A := A) (num A) D) : reg_forest A L EC :=
  match op with
  | OSet p v => fst (setattr_reg p v o)
  | OFit X y sw => fst (fst (reg_fit ME o X y sw))
  | OLighten => fst (flighten o)
  end.

Lemma setattr_reg_read : forall p v (o : reg_forest A L EC) q, (reg_ok q o \/ In p base_params /\ q = p /\ p <> P_random_state /\ snd (setattr_reg p v o) = None) ->
  reg_ok q (fst (setattr_reg p v o)).
Proof.
  intros p v o q Hq. unfold setattr_reg in *.
  assert (Hdec : In p base_params \/ ~ In p base_params) by (destruct p; cbn; (left; solve [tauto]) || (right; intros HH; repeat (destruct HH as [HH|HH]; [discriminate|]); exact HH)).
  destruct Hdec as [Hd|Hd]; [apply setattr_read; [exact Hd|]; destruct Hq as [Hq|(_ & Hq)]; auto|].
  rewrite setattr_other by exact Hd. destruct Hq as [Hq|(Hq & _)]; [exact Hq|contradiction].
Qed.

Lemma set_all_reg_read : forall l (o1 o2 : reg_forest A L EC) q, (forall p, In p (map fst l) -> In p base_params) -> set_all setattr_reg l o1 = Ok o2 ->
  (reg_ok q o1 \/ In q (map fst l) /\ q <> P_random_state) -> reg_ok q o2.
Proof.
  induction l as [|[p v] l IH]; intros o1 o2 q Hb Hs Hq.
  - injection Hs as <-. destruct Hq as [Hq|[[] _]]; exact Hq.
  - cbn [set_all] in Hs. destruct (setattr_reg p v o1) as [o3 [e|]] eqn:Es; [discriminate|].
    apply (IH o3 o2); [intros p' H'; apply Hb; right; exact H'|exact Hs|]. destruct Hq as [Hq|[[Hq|Hq] Hr]]; [|cbn [fst] in Hq; subst q|right; auto];
      left; change o3 with (fst (o3, @None err)); rewrite <- Es; apply setattr_reg_read; auto.
    right. rewrite Es. split; [apply Hb; left; reflexivity|auto].
Qed.

Lemma reg_fit_attrs : forall (o : reg_forest A L EC) X y sw p, getattr p (fst (fst (reg_fit ME o X y sw))) = getattr p o.
Proof.
  intros o X y sw p. unfold reg_fit, raise. destruct (negb _); [reflexivity|]. destruct (check_weights _ _) as [wl|e]; [|reflexivity]. cbn [fst].
  destruct (fit_end_attrs ME o X 1 0 (fun p fb _ seed => build_tree ME (reg_task E) a0 p fb y wl seed)) as [F _]. apply F.
Qed.

Lemma reg_reachable_read : forall args (o : reg_forest A L EC) ops, new_reg EC args = Ok o -> forall p, In p base_params -> reg_ok p (fold_left reg_run ops o).
Proof.
  intros args o ops Hnew.
  assert (H1 : forall p, In p base_params -> reg_ok p o).
  { intros p Hp. unfold new_reg in Hnew. eapply set_all_reg_read; [|exact Hnew|].
    - intros q Hq. rewrite map_map, map_id in Hq. exact Hq.
    - destruct p; try (right; split; [rewrite map_map, map_id; exact Hp|discriminate]). left. reflexivity. }
  clear Hnew. revert o H1. induction ops as [|op ops IH]; intros o Ho; cbn [fold_left]; auto. apply IH. intros p Hp.
  destruct op as [q v|X y sw|]; cbn [reg_run].
  - apply setattr_reg_read. left. apply Ho. exact Hp.
  - unfold read_ok. rewrite reg_fit_attrs. apply Ho. exact Hp.
  - unfold flighten. unfold read_ok. destruct (on_trees_getattr lighten o p) as [-> _]. apply Ho. exact Hp.
Qed.

(** The attributes that regressors do not have keep the placeholders of [blank]. *)
Definition plain (o : reg_forest A L EC) : Prop :=
  fo_dirichlet o = None /\ fo_balanced o = false /\ fo_multiclass o = Multinomial /\ fo_strategy o = BinaryMod.

Lemma on_trees_plain : forall f (o : reg_forest A L EC), plain o -> plain (fst (on_trees f o)).
Proof. intros f o H. unfold on_trees, raise. destruct (fo_trees o); [|exact H]. destruct (each_tree f l). exact H. Qed.

Lemma fit_end_plain : forall (o : reg_forest A L EC) X r tc build, plain o -> plain (fst (fit_end ME o X r tc build)).
Proof.
  intros o X r tc build H. unfold fit_end, raise. destruct (get_max_features _ _ _); [|exact H]. destruct (fo_random_state o); [|exact H].
  cbv zeta. destruct (let* enc := ec_fit EC (fo_max_bins o) X in _) as [[enc fb]|e]; [|exact H].
  destruct (mapM _ _); exact H.
Qed.

Lemma setattr_reg_plain : forall p v (o : reg_forest A L EC), plain o -> plain (fst (setattr_reg p v o)).
Proof. intros p v o H. unfold setattr_reg. destruct p; cbn [setattr]; setters; try apply on_trees_plain; exact H. Qed.

Lemma reg_reachable_plain : forall args (o : reg_forest A L EC) ops, new_reg EC args = Ok o -> plain (fold_left reg_run ops o).
Proof.
  intros args o ops Hnew.
  assert (HA : forall l (o1 o2 : reg_forest A L EC), plain o1 -> set_all setattr_reg l o1 = Ok o2 -> plain o2).
  { induction l as [|[p v] l IH]; intros o1 o2 H Hs; cbn [set_all] in Hs; [injection Hs as <-; exact H|].
    destruct (setattr_reg p v o1) as [o3 [e|]] eqn:Es; [discriminate|]. apply (IH o3); [|exact Hs].
    change o3 with (fst (o3, @None err)). rewrite <- Es. apply setattr_reg_plain. exact H. }
  assert (H0 : plain o) by (eapply HA; [|exact Hnew]; repeat split).
  clear HA Hnew. revert o H0. induction ops as [|op ops IH]; intros o Ho; cbn [fold_left]; auto. apply IH.
  destruct op as [q v|X y sw|]; cbn [reg_run].
  - apply setattr_reg_plain. exact Ho.
  - unfold reg_fit, raise. destruct (negb _); [exact Ho|]. destruct (check_weights _ _); [|exact Ho]. cbn [fst]. apply fit_end_plain. exact Ho.
  - apply on_trees_plain. exact Ho.
Qed.

Lemma reg_random_state_kept : forall ops (o : reg_forest A L EC), getattr P_random_state o <> None -> getattr P_random_state (fold_left reg_run ops o) <> None.
Proof.
  induction ops as [|op ops IH]; intros o H; cbn [fold_left]; [exact H|]. apply IH. destruct op as [p v|X y sw|]; cbn [reg_run].
  - assert (HT : forall f (o1 : reg_forest A L EC), getattr P_random_state o1 <> None -> getattr P_random_state (fst (on_trees f o1)) <> None)
      by (intros f o1 H1; destruct (on_trees_getattr f o1 P_random_state) as [-> _]; exact H1).
    unfold setattr_reg. destruct p; cbn [setattr]; setters; try apply HT; try exact H; discriminate.
  - rewrite reg_fit_attrs. exact H.
  - unfold flighten. destruct (on_trees_getattr lighten o P_random_state) as [-> _]. exact H.
Qed.

Lemma new_reg_random_state : forall args (o : reg_forest A L EC), new_reg EC args = Ok o ->
  (args P_random_state = PyNone \/ int_from 0 (args P_random_state)) -> getattr P_random_state o <> None.
Proof.
  intros args o H Hr. unfold new_reg in H.
  assert (HS : forall l (o1 : reg_forest A L EC), unfit o1 = o1 -> In P_random_state l \/ getattr P_random_state o1 <> None ->
    set_all setattr_reg (map (fun p => (p, args p)) l) o1 = Ok o -> getattr P_random_state o <> None).
  { induction l as [|p l IH]; intros o1 Hu Hin Hs.
    - cbn in Hs. injection Hs as <-. destruct Hin as [[]|Hin]; exact Hin.
    - cbn [map set_all] in Hs. destruct (setattr_reg p (args p) o1) as [o2 [e|]] eqn:Es; [discriminate|].
      assert (E2 : o2 = fst (setattr_reg p (args p) o1)) by (rewrite Es; reflexivity). apply (IH o2); [| |exact Hs].
      + rewrite E2. apply setattr_unfit. exact Hu.
      + destruct Hin as [[Hin|Hin]|Hin]; [right|left; exact Hin|right; rewrite E2; apply (reg_random_state_kept [OSet p (args p)]); exact Hin].
        subst p. rewrite E2. unfold setattr_reg. cbn [setattr]. unfold set_random_state. rewrite <- Hu. cbn [unfit fo_fitted].
        destruct (int_from_dec (args P_random_state) 0) as [(z & Hz & Hz' & _)|[_ Hn]].
        * destruct (args P_random_state); try discriminate; cbn [as_int] in *; injection Hz as <-;
            (match goal with |- context [(0 <=? ?x)%Z] => destruct (Z.leb_spec 0 x) end); try discriminate; lia.
        * destruct Hr as [->|Hr]; [discriminate|contradiction]. }
  apply (HS base_params blank); [reflexivity|left; cbn; tauto|exact H].
Qed.

Ltac in_base := cbn [base_params In]; repeat ((left; reflexivity) || right).

Lemma clone_reg_unfit : forall (o : reg_forest A L EC), (forall p, In p base_params -> reg_ok p o) -> plain o -> fo_random_state o <> None ->
  clone_reg o = Ok (unfit o).
Proof.
  intros o H (Hp1 & Hp2 & Hp3 & Hp4) Hr.
  destruct o as [fit nest step agg md mss msl mb mf nj rs vb cr lo di ba mu st cl se en tr tc].
  cbn [fo_dirichlet fo_balanced fo_multiclass fo_strategy] in *. subst di ba mu st.
  pose proof (H P_n_estimators ltac:(in_base)) as H1; pose proof (H P_criterion ltac:(in_base)) as H2; pose proof (H P_loss ltac:(in_base)) as H3; pose proof (H P_step ltac:(in_base)) as H4;
  pose proof (H P_max_depth ltac:(in_base)) as H5; pose proof (H P_min_samples_split ltac:(in_base)) as H6; pose proof (H P_min_samples_leaf ltac:(in_base)) as H7;
  pose proof (H P_max_bins ltac:(in_base)) as H8; pose proof (H P_max_features ltac:(in_base)) as H9; pose proof (H P_n_jobs ltac:(in_base)) as H10;
  pose proof (H P_random_state ltac:(in_base)) as H11; clear H.
  unfold read_ok in *. cbn [getattr readable fo_fitted fo_n_estimators fo_step fo_aggregation fo_max_depth fo_min_samples_split
    fo_min_samples_leaf fo_max_bins fo_max_features fo_n_jobs fo_random_state fo_verbose fo_criterion fo_loss option_map] in *.
  destruct rs as [rs|]; [|contradiction]. clear Hr.
  unfold clone_reg, get_params. cbn [base_params app mapM getattr fo_fitted fo_n_estimators fo_step fo_aggregation fo_max_depth fo_min_samples_split
    fo_min_samples_leaf fo_max_bins fo_max_features fo_n_jobs fo_random_state fo_verbose fo_criterion fo_loss fo_dirichlet fo_balanced
    fo_multiclass fo_strategy option_map bind unfit].
  next ltac:(unfold setattr_reg; cbn [setattr]; unfold set_n_estimators; cbn [blank fo_fitted as_int]; rewrite H1; reflexivity).
  next ltac:(unfold set_criterion; cbn [as_str]; rewrite H2; reflexivity).
  next ltac:(unfold set_loss; cbn [as_str]; rewrite H3; reflexivity).
  next ltac:(unfold set_fstep; cbn [as_float]; rewrite H4; reflexivity).
  next ltac:(reflexivity).
  next ltac:(instantiate (1 := ltac:(refine (w_max_depth _ md))); unfold set_max_depth; destruct md as [md|]; cbn [as_int]; [rewrite H5|]; reflexivity).
  next ltac:(unfold set_min_samples_split; cbn [as_int]; rewrite H6; reflexivity).
  next ltac:(unfold set_min_samples_leaf; cbn [as_int]; rewrite H7; reflexivity).
  next ltac:(unfold set_max_bins; cbn [as_int]; rewrite H8; reflexivity).
  next ltac:(instantiate (1 := ltac:(refine (w_max_features _ mf))); unfold set_max_features; destruct mf as [| | | |mz|mx]; cbn [as_int]; [| | | |rewrite H9|rewrite H9]; reflexivity).
  next ltac:(unfold set_n_jobs; cbn [as_int]; rewrite H10; reflexivity).
  next ltac:(instantiate (1 := ltac:(refine (w_random_state _ (Some rs)))); unfold set_random_state; destruct rs as [rs|]; cbn [as_int]; [rewrite H11|]; reflexivity).
  next ltac:(reflexivity).
  reflexivity.
Qed.

Theorem C57_clone_regressor : forall args (o : reg_forest A L EC) ops,
  new_reg EC args = Ok o -> (args P_random_state = PyNone \/ int_from 0 (args P_random_state)) ->
  let o1 := fold_left reg_run ops o in
  exists o', clone_reg o1 = Ok o' /\ (forall p, getattr p o' = getattr p o1) /\
    fo_fitted o' = false /\ fo_trees o' = None /\ fo_encoder o' = None /\ fo_classes o' = [] /\ fo_seeds o' = [].
Proof.
  intros args o ops Hnew Hr o1. exists (unfit o1).
  assert (Hs : getattr P_random_state o1 <> None) by (apply reg_random_state_kept; apply (new_reg_random_state args); assumption).
  split; [|split; [intros []; reflexivity|repeat split]].
  apply clone_reg_unfit; [apply (reg_reachable_read args o ops Hnew)|apply (reg_reachable_plain args o ops Hnew)|].
  intros H. apply Hs. cbn [getattr]. rewrite H. reflexivity.
Qed.

Theorem C57_clone_refit_regressor : forall args (o : reg_forest A L EC) ops X y sw o1 w,
  new_reg EC args = Ok o -> (args P_random_state = PyNone \/ int_from 0 (args P_random_state)) ->
  (forall op, In op ops -> exists p v, op = OSet p v) ->
  reg_fit ME (fold_left reg_run ops o) X y sw = ((o1, None), w) ->
  exists o', clone_reg o1 = Ok o' /\ reg_fit ME o' X y sw = ((o1, None), w).
Proof.
  intros args o ops X y sw o1 w Hnew Hr Hops Hfit.
  set (o0 := fold_left reg_run ops o) in *.
  assert (E1 : o1 = fold_left reg_run (ops ++ [OFit X y sw]) o) by (rewrite fold_left_app; fold o0; cbn [fold_left reg_run]; rewrite Hfit; reflexivity).
  exists (unfit o1).
  assert (Hs : getattr P_random_state o1 <> None) by (rewrite E1; apply reg_random_state_kept; apply (new_reg_random_state args); assumption).
  split.
  - apply clone_reg_unfit; [rewrite E1; apply (reg_reachable_read args); exact Hnew|rewrite E1; apply (reg_reachable_plain args); exact Hnew|].
    intros H. apply Hs. cbn [getattr]. rewrite H. reflexivity.
  - assert (Hu : unfit o0 = o0).
    { assert (H1 : unfit o = o).
      { clear - Hnew. unfold new_reg in Hnew. revert Hnew. generalize (map (fun p => (p, args p)) base_params).
        assert (HB : unfit (blank : reg_forest A L EC) = blank) by reflexivity. revert HB. generalize (blank : reg_forest A L EC).
        intros b Hb l. revert b Hb. induction l as [|[p v] l IH]; intros b Hb Hs; cbn [set_all] in Hs; [injection Hs as <-; exact Hb|].
        destruct (setattr_reg p v b) as [o3 [e|]] eqn:Es; [discriminate|]. apply (IH o3); [|exact Hs].
        change o3 with (fst (o3, @None err)). rewrite <- Es. apply setattr_unfit. exact Hb. }
      unfold o0. clear - H1 Hops. revert o H1. induction ops as [|op ops IH]; intros o H; cbn [fold_left]; [exact H|].
      apply IH; [intros op' H'; apply Hops; right; exact H'|]. destruct (Hops op (or_introl eq_refl)) as (p & v & ->). cbn [reg_run].
      apply setattr_unfit. exact H. }
    replace (unfit o1) with o0; [exact Hfit|]. revert Hfit. unfold reg_fit, raise. destruct (negb _); [discriminate|].
    destruct (check_weights _ _) as [wl|e]; [|discriminate]. intros Hf. injection Hf as Hf _.
    rewrite <- Hu, <- (fit_end_unfit o0 X 1 0 (fun p fb _ seed => build_tree ME (reg_task E) a0 p fb y wl seed)), Hf. reflexivity.
Qed.

End Clone.
Print Assumptions C57_clone_classifier.
Print Assumptions C57_clone_unfitted.
Print Assumptions C57_clone_refit.
Print Assumptions C57_set_params.
Print Assumptions C57_set_params_stops.
Print Assumptions C57_clone_regressor.
Print Assumptions C57_clone_refit_regressor.

(** ** What is false *)

(** A forest built with another [random_state], for instance a numpy RandomState, has no such
    attribute: reading the parameters raises an AttributeError, and so does clone. *)
Theorem C57_random_state_refuted : forall {E : env R_arith} {L D} {EC : encoding D}, exists o : clf_forest R_arith L EC,
  new_clf E EC (default_args PyOther) = Ok o /\ get_params clf_params o = Err AttrErr /\ clone_clf E o = Err AttrErr.
Proof.
  intros E L D EC. eexists. split; [|split].
  - apply (default_new PyOther None).
    + apply Rleb_false. change (0 < 1)%R. lra.
    + apply Rltb_false. change (0 <= / 2)%R. lra.
    + intros o Hf Hr. unfold set_random_state. rewrite Hf. destruct o. cbn in Hr |- *. rewrite Hr. reflexivity.
  - reflexivity.
  - reflexivity.
Qed.
Print Assumptions C57_random_state_refuted.

(** A fit with two classes changes the parameter [multiclass], and the copy keeps the change:
    the parameters of the copy are not those given to the constructor. *)
Definition ovr_args (p : param) : pyval QA :=
  match p with P_n_estimators => @PyInt QA 2 | P_multiclass => @PyStr QA "ovr" | P_random_state => @PyInt QA 7 | _ => default_args (@PyNone QA) p end.
Definition two_labels : list nat := [30; 30; 10; 10; 30; 30; 10; 10].

Lemma okQ_eq : forall {P Y} (r : mresult QA nat ex_encoding P Y * list (num QA)), okQ r = true -> r = ((objQ r, None), snd r).
Proof. intros P Y [[o [e|]] w] H; [discriminate|reflexivity]. Qed.

Lemma ovr_two_classes : forall (args : param -> pyval QA) (o : clf_forest QA nat ex_encoding) (X : binned) (y : list nat),
  new_clf env_Q ex_encoding args = Ok o -> int_from 0 (args P_random_state) -> getattr P_multiclass o = Some (PyStr "ovr") ->
  okQ (clf_fit Nat.leb menv_Q o X y None) = true -> length (uniq Nat.leb y) <= 2 ->
  exists o1 w o', clf_fit Nat.leb menv_Q o X y None = ((o1, None), w) /\ clone_clf env_Q o1 = Ok o' /\ getattr P_multiclass o' = Some (PyStr "multinomial").
Proof.
  intros args o X y H1 Hr H2 H3 HK. apply okQ_eq in H3.
  destruct (C57_clone_classifier Nat.leb menv_Q args o [OFit X y None] H1 (or_intror Hr)) as (o' & C1 & C2 & _).
  cbn [fold_left clf_run] in C1, C2. destruct (clf_fit Nat.leb menv_Q o X y None) as [[o1 e] w] eqn:Ef. cbn [fst snd] in *.
  injection H3 as ->. exists o1, w, o'. split; [reflexivity|]. split; [exact C1|]. rewrite C2.
  assert (HO : fo_multiclass o = Ovr) by (cbn [getattr] in H2; destruct (fo_multiclass o); [discriminate|reflexivity]).
  revert Ef. clear - HO HK. unfold clf_fit, raise. destruct (negb _); [discriminate|]. destruct (check_weights _ _) as [wl|e]; [|discriminate].
  cbv zeta. rewrite HO. replace (length (uniq Nat.leb y) <=? 2)%nat with true by (symmetry; apply Nat.leb_le; exact HK).
  unfold set_multiclass, raise. destruct (fo_fitted (w_classes o (uniq Nat.leb y))); [discriminate|]. cbn [as_str].
  change (String.eqb "multinomial" "multinomial") with true. cbn iota.
  destruct (fo_dirichlet _); [|discriminate]. destruct (_ && _)%bool; [discriminate|]. cbn [fo_multiclass w_multiclass]. intros Hf. injection Hf as Hf _.
  match type of Hf with fit_end _ ?a ?b ?c ?d ?e = _ => destruct (fit_end_attrs menv_Q a b c d e) as [F _] end.
  rewrite Hf in F. cbn [fst] in F. rewrite F. reflexivity.
Qed.

Definition ovr_object : clf_forest QA nat ex_encoding :=
  match new_clf env_Q ex_encoding ovr_args with Ok o => o | Err _ => blank end.
Lemma ovr_object_new : new_clf env_Q ex_encoding ovr_args = Ok ovr_object.
Proof. vm_compute. reflexivity. Qed.
Lemma ovr_object_fits : okQ (clf_fit Nat.leb menv_Q ovr_object X2 two_labels None) = true.
Proof. vm_compute. reflexivity. Qed.

Theorem C57_multiclass_refuted : exists (o o1 o' : clf_forest QA nat ex_encoding) X y w,
  new_clf env_Q ex_encoding ovr_args = Ok o /\ getattr P_multiclass o = Some (PyStr "ovr") /\
  clf_fit Nat.leb menv_Q o X y None = ((o1, None), w) /\
  clone_clf env_Q o1 = Ok o' /\ getattr P_multiclass o' = Some (PyStr "multinomial").
Proof.
  assert (Hg : getattr P_multiclass ovr_object = Some (PyStr "ovr")) by (vm_compute; reflexivity).
  assert (HK : length (uniq Nat.leb two_labels) <= 2) by (vm_compute; lia).
  assert (Hr : int_from 0 (ovr_args P_random_state)) by (exists 7%Z; split; [exact (iv_int 7)|lia]).
  destruct (ovr_two_classes ovr_args ovr_object X2 two_labels ovr_object_new Hr Hg ovr_object_fits HK) as (o1 & w & o' & F1 & F2 & F3).
  exists ovr_object, o1, o', X2, two_labels, w. split; [exact ovr_object_new|]. split; [exact Hg|]. split; [exact F1|]. split; [exact F2|exact F3].
Qed.
Print Assumptions C57_multiclass_refuted.

(** ** The hypotheses are met *)

Definition reg_args (p : param) : pyval QA :=
  match p with P_criterion | P_loss => @PyStr QA "mse" | P_n_estimators => @PyInt QA 2 | P_random_state => @PyInt QA 7 | _ => default_args (@PyNone QA) p end.

Definition two_sets : list (clf_op (A := QA) nat binned) := [OSet P_max_depth (@PyInt QA 3); OSet P_n_estimators (@PyInt QA 0)].

Example C57_applies :
  new_clf env_Q ex_encoding ovr_args = Ok ovr_object /\ int_from 0 (ovr_args P_random_state) /\ only_sets two_sets /\
  okQ (clf_fit Nat.leb menv_Q (fold_left (clf_run Nat.leb menv_Q) two_sets ovr_object) X2 two_labels None) = true /\
  getattr P_max_depth (fold_left (clf_run Nat.leb menv_Q) two_sets ovr_object) = Some (@PyInt QA 3).
Proof.
  split; [exact ovr_object_new|]. split; [exists 7%Z; split; [exact (iv_int 7)|lia]|]. split; [|split; vm_compute; reflexivity].
  intros op [<-|[<-|[]]]; eauto.
Qed.

Definition reg_object : reg_forest QA nat ex_encoding :=
  match new_reg ex_encoding reg_args with Ok o => o | Err _ => blank end.
Example C57_regressor_applies :
  new_reg ex_encoding reg_args = Ok reg_object /\ int_from 0 (reg_args P_random_state) /\
  okQ (reg_fit menv_Q reg_object X2 ([1; 3; 2; 0; 5; 1; 1; 2]%Q : list (num QA)) None) = true.
Proof. split; [vm_compute; reflexivity|]. split; [exists 7%Z; split; [exact (iv_int 7)|lia]|vm_compute; reflexivity]. Qed.

Example C57_set_params_applies : fo_fitted ovr_object = false /\ (let* values := get_params clf_params ovr_object in Ok (length values)) = Ok 17.
Proof. split; vm_compute; reflexivity. Qed.

(** Here max_depth is refused: the value of n_estimators is stored, that of verbose is not. *)
Example C57_set_params_stops_applies :
  let set := setattr_clf env_Q in
  exists o1 o2, set_params set [(P_n_estimators, PyInt 3)] ovr_object = (o1, None) /\ set P_max_depth (PyInt 1) o1 = (o2, Some ValueErr) /\
    set_params set ([(P_n_estimators, PyInt 3)] ++ (P_max_depth, PyInt 1) :: [(P_verbose, PyBool true)]) ovr_object = (o2, Some ValueErr) /\
    fo_n_estimators o2 = 3%Z.
Proof. eexists. eexists. split; [vm_compute; reflexivity|]. split; [vm_compute; reflexivity|]. split; vm_compute; reflexivity. Qed.
