(** * C16 and C42: hyper-parameters *)

Require Import String Bool List Arith Lia NArith ZArith Reals Lra Lia SpecFloat.
Require Import Verif.Base Verif.Num Verif.M_Utils Verif.M_Context Verif.M_Tree Verif.M_Grow Verif.M_Object Verif.M_Forest Verif.S_Params
  Verif.P_BinningR Verif.P_Float.
Import ListNotations.
Local Open Scope list_scope.

(** ** C16 *)

(** What is needed from the conversions of the platform; [float x] means that [x] is a value
    of the type float. *)
Record good_conversions {A : arith} {E : env A} (float : num A -> Prop) (ME : menv E) (n : nat) : Prop := {
  gc_sqrt : (me_isqrt ME n <= Z.of_nat n)%Z;
  gc_log2 : (me_ilog2 ME n <= Z.of_nat n)%Z;
  gc_frac : forall x, float x -> altb a1 x = false -> aleb x a0 = false ->
    (exists z, me_ifrac ME x n = Ok z /\ (z <= Z.of_nat n)%Z) \/ me_ifrac ME x n = Err ValueErr
}.

(** For every forest object whose [max_features] was accepted by the setter: *)
Theorem C16_max_features : forall {A : arith} {E : env A} (ME : menv E) {L D : Type} {EC : encoding D} {P Y} (float : num A -> Prop)
  (o o' : fobj A L EC P Y) (v : pyval A) (n : nat),
  1 <= n -> good_conversions float ME n -> (forall x, v = PyFloat x -> float x) -> set_max_features v o = (o', None) ->
  (exists z, get_max_features ME (fo_max_features o') n = Ok z /\ (1 <= z <= Z.of_nat n)%Z) \/
  get_max_features ME (fo_max_features o') n = Err ValueErr.
Proof.
  intros A E ME L D EC P Y float o o' v n Hn [G1 G2 G3] Hfl Hs. unfold set_max_features, raise in Hs.
  assert (HI : forall z, (z <? 1)%Z = false ->
     (exists z', get_max_features ME (MFInt z) n = Ok z' /\ (1 <= z' <= Z.of_nat n)%Z) \/ get_max_features ME (MFInt z) n = Err ValueErr).
  { intros z Hz. cbn [get_max_features]. destruct (Z.ltb_spec (Z.of_nat n) z); [right; auto|left].
    apply Z.ltb_ge in Hz. exists z. split; [auto|lia]. }
  destruct v as [|b|z|x|s|]; cbn [as_int] in Hs; try discriminate.
  - inversion Hs; subst o'. cbn [fo_max_features w_max_features get_max_features]. left. exists (Z.of_nat n). split; [auto|lia].
  - destruct b; cbn in Hs; [|discriminate]. inversion Hs; subst o'. cbn [fo_max_features w_max_features]. apply HI. reflexivity.
  - destruct (z <? 1)%Z eqn:Ez; [discriminate|]. inversion Hs; subst o'. cbn [fo_max_features w_max_features]. auto.
  - destruct (altb a1 x) eqn:E1; [discriminate|]. destruct (aleb x a0) eqn:E2; [discriminate|]. cbn [orb] in Hs.
    inversion Hs; subst o'. cbn [fo_max_features w_max_features get_max_features]. rewrite E1, E2. cbn [orb].
    destruct (G3 x (Hfl x eq_refl) E1 E2) as [(z & -> & Hz)| ->]; cbn [bind]; [left|right; auto]. exists (Z.max 1 z). split; [auto|lia].
  - destruct (String.eqb s "sqrt"); [|destruct (String.eqb s "log2"); [|destruct (String.eqb s "auto"); [|discriminate]]];
      inversion Hs; subst o'; cbn [fo_max_features w_max_features get_max_features]; left; eexists; (split; [reflexivity|lia]).
Qed.
Print Assumptions C16_max_features.

(** Fit raises this ValueError only for integers above the number of features, unless the
    float conversion fails. *)
Theorem C16_errors : forall {A : arith} {E : env A} (ME : menv E) {L D : Type} {EC : encoding D} {P Y} (float : num A -> Prop)
  (o o' : fobj A L EC P Y) (v : pyval A) (n : nat),
  1 <= n -> good_conversions float ME n -> (forall x, v = PyFloat x -> float x) -> set_max_features v o = (o', None) ->
  (forall x, v = PyFloat x -> me_ifrac ME x n <> Err ValueErr) ->
  (get_max_features ME (fo_max_features o') n = Err ValueErr <-> exists z, v = PyInt z /\ (Z.of_nat n < z)%Z).
Proof.
  intros A E ME L D EC P Y float o o' v n Hn [G1 G2 G3] Hfl Hs Hx. unfold set_max_features, raise in Hs.
  destruct v as [|b|z|x|s|]; cbn [as_int] in Hs; try discriminate.
  - inversion Hs; subst o'. cbn. split; [discriminate|intros (z & Hz & _); discriminate].
  - destruct b; cbn in Hs; [|discriminate]. inversion Hs; subst o'. cbn [fo_max_features w_max_features get_max_features].
    destruct (Z.ltb_spec (Z.of_nat n) 1); [lia|]. split; [discriminate|intros (z & Hz & _); discriminate].
  - destruct (z <? 1)%Z eqn:Ez; [discriminate|]. inversion Hs; subst o'. cbn [fo_max_features w_max_features get_max_features].
    destruct (Z.ltb_spec (Z.of_nat n) z); split; intros; eauto; try discriminate. destruct H0 as (z' & Hz' & Hl). injection Hz' as <-. lia.
  - destruct (altb a1 x) eqn:E1; [discriminate|]. destruct (aleb x a0) eqn:E2; [discriminate|]. cbn [orb] in Hs.
    inversion Hs; subst o'. cbn [fo_max_features w_max_features get_max_features]. rewrite E1, E2. cbn [orb].
    split; [|intros (z & Hz & _); discriminate].
    destruct (G3 x (Hfl x eq_refl) E1 E2) as [(z & -> & Hz)| He]; cbn [bind]; [discriminate|]. exfalso. eapply Hx; eauto.
  - destruct (String.eqb s "sqrt"); [|destruct (String.eqb s "log2"); [|destruct (String.eqb s "auto"); [|discriminate]]];
      inversion Hs; subst o'; cbn [fo_max_features w_max_features get_max_features];
      (split; [discriminate|intros (z & Hz & _); discriminate]).
Qed.
Print Assumptions C16_errors.

(** Exact arithmetic: [int] is the integer part of a positive number. *)
Definition ifrac_R (x : R) (n : nat) : res Z := Ok (up (x * INR n) - 1)%Z.

Theorem C16_exact : forall (E : env R_arith) (ME : menv E) n, 1 <= n ->
  me_isqrt ME n = Z.of_nat (Nat.sqrt n) -> me_ilog2 ME n = Z.of_nat (Nat.log2 n) -> (forall x, me_ifrac ME x n = ifrac_R x n) ->
  good_conversions (fun _ => True) ME n.
Proof.
  intros E ME n Hn H1 H2 H3. constructor.
  - rewrite H1. apply inj_le. apply Nat.sqrt_le_lin.
  - rewrite H2. apply inj_le. apply Nat.log2_le_lin. lia.
  - intros x _ Hx1 Hx2. left. exists (up (x * INR n) - 1)%Z. rewrite H3. split; [reflexivity|].
    change (Rltb 1 x = false) in Hx1. unfold Rltb in Hx1. destruct (Rlt_dec 1 x) as [|Hx]; [discriminate|].
    destruct (archimed (x * INR n)) as [_ Hu].
    assert (Hp : (0 <= INR n)%R) by apply pos_INR.
    assert (Hle : (x * INR n <= INR n)%R) by nra.
    assert (Hf : (IZR (up (x * INR n)) - 1 <= IZR (Z.of_nat n))%R) by (rewrite <- INR_IZR_INZ; lra).
    rewrite <- minus_IZR in Hf. apply le_IZR in Hf. lia.
Qed.
Print Assumptions C16_exact.

(** Double precision, for every double and at most 2^53 features. A NaN passes the tests of
    the setter; its conversion raises ValueError. *)
Theorem C16_binary64 : forall lnf expf (E : env (F64 lnf expf)) (ME : menv E) n, 1 <= n -> (Z.of_nat n < 2 ^ 53)%Z ->
  me_isqrt ME n = Z.of_nat (Nat.sqrt n) -> me_ilog2 ME n = Z.of_nat (Nat.log2 n) ->
  (forall x, me_ifrac ME x n = py_int (@amul (F64 lnf expf) x (aofnat n))) ->
  good_conversions (fun x : num (F64 lnf expf) => valid_binary 53 1024 x = true) ME n.
Proof.
  intros lnf expf E ME n Hn Hb H1 H2 H3. constructor.
  - rewrite H1. apply inj_le. apply Nat.sqrt_le_lin.
  - rewrite H2. apply inj_le. apply Nat.log2_le_lin. lia.
  - intros x Hv Hx1 Hx2. rewrite H3. apply ifrac_F64; auto.
Qed.
Print Assumptions C16_binary64.

(** ** C42: validation *)

Section Validation.
Context {L D : Type} {EC : encoding D}.

Lemma as_int_value : forall {A : arith} (v : pyval A) z, as_int v = Some z <-> int_value v z.
Proof.
  intros A v z. split.
  - destruct v as [|[]|z'|x|s|]; simpl; intros H; inversion H; constructor.
  - destruct 1; reflexivity.
Qed.

Lemma int_from_dec : forall {A : arith} (v : pyval A) lo,
  (exists z, as_int v = Some z /\ (z <? lo)%Z = false /\ int_from lo v) \/
  ((as_int v = None \/ exists z, as_int v = Some z /\ (z <? lo)%Z = true) /\ ~ int_from lo v).
Proof.
  intros A v lo. destruct (as_int v) as [z|] eqn:E.
  - destruct (Z.ltb_spec z lo) as [H|H].
    + right. split; [right; exists z; split; auto; apply Z.ltb_lt; auto|].
      intros (z' & H1 & H2). apply as_int_value in H1. rewrite E in H1. injection H1 as ->. lia.
    + left. exists z. split; auto. split; [apply Z.ltb_ge; auto|]. exists z. split; auto. apply as_int_value; auto.
  - right. split; auto. intros (z' & H1 & H2). apply as_int_value in H1. congruence.
Qed.

(** An object in which only [p] (and, for step and dirichlet of a fitted forest, the trees)
    may differ. *)
Definition same_but {A : arith} {P Y} (p : param) (o o' : fobj A L EC P Y) : Prop :=
  (forall q, q <> p -> getattr q o' = getattr q o) /\
  fo_fitted o' = fo_fitted o /\ fo_classes o' = fo_classes o /\ fo_seeds o' = fo_seeds o /\
  fo_encoder o' = fo_encoder o /\ fo_tree_classes o' = fo_tree_classes o /\
  (fo_fitted o = false \/ (p <> P_step /\ p <> P_dirichlet) -> fo_trees o' = fo_trees o).


Lemma same_but_refl : forall {A : arith} {P Y} p (o : fobj A L EC P Y), same_but p o o.
Proof. intros. repeat split; auto. Qed.

Lemma on_trees_attrs : forall {A : arith} {P Y} f (o o' : fobj A L EC P Y) e, on_trees f o = (o', e) ->
  o' = w_trees o (fo_trees o') (fo_tree_classes o).
Proof.
  intros A P Y f o o' e H. unfold on_trees, raise in H. destruct (fo_trees o) as [ts|] eqn:Et.
  - destruct (each_tree f ts) as [ts' e']. injection H as <- <-. reflexivity.
  - injection H as <- <-. rewrite Et. destruct o; simpl in *; subst; reflexivity.
Qed.

Lemma string_in : forall s l, existsb (String.eqb s) l = true <-> In s l.
Proof.
  intros s l. rewrite existsb_exists. split.
  - intros (x & Hx & Hs). apply String.eqb_eq in Hs. subst; auto.
  - intros H. exists s. split; auto. apply String.eqb_refl.
Qed.

Ltac same_tac := repeat split; intros; try reflexivity;
  match goal with q : param |- _ => destruct q; try reflexivity; congruence | _ => idtac end.

Ltac int_case v lo :=
  let z := fresh "z" in let H1 := fresh in let H2 := fresh in let H3 := fresh in
  destruct (int_from_dec v lo) as [(z & H1 & H2 & H3)|[[H1|(z & H1 & H2)] H3]];
  rewrite H1; [rewrite H2| |rewrite H2].

Lemma py_eq_int : forall {A : arith} (v : pyval A) z, as_int v = Some z -> py_eq (PyInt z) v.
Proof. intros A v z H. right. exists z. split; [constructor|apply as_int_value; auto]. Qed.

(** The statement for one setter. *)
Definition set_spec {P Y} (valid : pyval R_arith -> Prop) (p : param) (v : pyval R_arith)
  (o : fobj R_arith L EC P Y) (r : mresult R_arith L EC P Y) : Prop :=
  (* an accepted value is stored and nothing else changes *)
  (valid v -> (exists w, getattr p (fst r) = Some w /\ py_eq w v) /\ same_but p o (fst r) /\ (fo_fitted o = false -> snd r = None)) /\
  (* any other value raises ValueError and changes nothing *)
  (~ valid v -> r = (o, Some ValueErr)).


Ltac stored := split; [intros _; split; [eexists; split; [reflexivity|first [apply py_eq_int; assumption|left; reflexivity]]|split; [same_tac|auto]]
                      |let Hn := fresh in intros Hn; exfalso; apply Hn; auto].
Ltac rejected := split; [intros Hv; exfalso|intros _; reflexivity].

Ltac int_setter v lo := int_case v lo; [stored|rejected; auto|rejected; auto].

Context {P Y : Type}.
Implicit Types (v : pyval R_arith) (o : fobj R_arith L EC P Y).

Lemma set_n_estimators_spec : forall v o, fo_fitted o = false ->
  set_spec (int_from 1) P_n_estimators v o (set_n_estimators v o).
Proof. intros v o Hf. unfold set_n_estimators, raise. rewrite Hf. int_setter v 1%Z. Qed.

Lemma set_min_samples_split_spec : forall v o, set_spec (int_from 2) P_min_samples_split v o (set_min_samples_split v o).
Proof. intros v o. unfold set_min_samples_split, raise. int_setter v 2%Z. Qed.

Lemma set_min_samples_leaf_spec : forall v o, set_spec (int_from 1) P_min_samples_leaf v o (set_min_samples_leaf v o).
Proof. intros v o. unfold set_min_samples_leaf, raise. int_setter v 1%Z. Qed.

Lemma set_max_bins_spec : forall v o, set_spec (int_from 3) P_max_bins v o (set_max_bins v o).
Proof. intros v o. unfold set_max_bins, raise. int_setter v 3%Z. Qed.

Lemma set_max_depth_spec : forall v o, set_spec (fun v => v = PyNone \/ int_from 2 v) P_max_depth v o (set_max_depth v o).
Proof.
  intros v o. assert (Hn : v = PyNone \/ (v <> PyNone /\ set_max_depth v o =
    match as_int v with None => raise o ValueErr | Some z => if (z <? 2)%Z then raise o ValueErr else (w_max_depth o (Some z), None) end)).
  { destruct v; try (right; split; [discriminate|reflexivity]). auto. }
  destruct Hn as [->|[Hnn ->]]; [stored|]. unfold raise. int_case v 2%Z; [stored|rejected; tauto|rejected; tauto].
Qed.

Lemma set_n_jobs_spec : forall v o, set_spec (fun v => exists z, int_value v z /\ (z = -1 \/ 1 <= z)%Z) P_n_jobs v o (set_n_jobs v o).
Proof.
  intros v o. unfold set_n_jobs, raise. destruct (as_int v) as [z|] eqn:E.
  - destruct ((z <? -1)%Z || (z =? 0)%Z) eqn:Ez.
    + rejected. destruct Hv as (z' & H1 & H2). apply as_int_value in H1. rewrite E in H1. injection H1 as <-.
      apply orb_true_iff in Ez. rewrite Z.ltb_lt, Z.eqb_eq in Ez. lia.
    + stored. exists z. split; [apply as_int_value; auto|]. apply orb_false_iff in Ez. rewrite Z.ltb_ge, Z.eqb_neq in Ez. lia.
  - rejected. destruct Hv as (z' & H1 & H2). apply as_int_value in H1. congruence.
Qed.

Lemma bool_setters_spec : forall v o,
  set_spec (fun v => exists b, v = PyBool b) P_aggregation v o (set_aggregation v o) /\
  set_spec (fun v => exists b, v = PyBool b) P_verbose v o (set_verbose v o).
Proof.
  intros v o. unfold set_aggregation, set_verbose, raise. split; destruct v; simpl; try (rejected; destruct Hv; discriminate); stored; eauto.
Qed.

Lemma set_criterion_spec : forall allowed v o, set_spec (is_one_of allowed) P_criterion v o (set_criterion allowed v o).
Proof.
  intros allowed v o. unfold set_criterion, raise. destruct v; simpl; try (rejected; destruct Hv as (? & ? & ?); discriminate).
  destruct (existsb (String.eqb s) allowed) eqn:E.
  - stored. exists s. split; auto. apply string_in; auto.
  - rejected. destruct Hv as (s' & H & Hi). injection H as <-. apply string_in in Hi. congruence.
Qed.

Lemma set_loss_spec : forall allowed v o, set_spec (is_one_of allowed) P_loss v o (set_loss allowed v o).
Proof.
  intros allowed v o. unfold set_loss, raise. destruct v; simpl; try (rejected; destruct Hv as (? & ? & ?); discriminate).
  destruct (existsb (String.eqb s) allowed) eqn:E.
  - stored. exists s. split; auto. apply string_in; auto.
  - rejected. destruct Hv as (s' & H & Hi). injection H as <-. apply string_in in Hi. congruence.
Qed.

Ltac not_str := split; [let Hv := fresh in let He := fresh in let Hi := fresh in
  intros Hv; exfalso; destruct Hv as (? & He & Hi); first [discriminate|injection He as <-; simpl in Hi; intuition congruence]|intros _; reflexivity].

Lemma set_multiclass_spec : forall v o, fo_fitted o = false ->
  set_spec (is_one_of ["multinomial"; "ovr"]%string) P_multiclass v o (set_multiclass v o).
Proof.
  intros v o Hf. unfold set_multiclass, raise. rewrite Hf. destruct v; simpl; try not_str.
  destruct (String.eqb_spec s "multinomial"); [subst; stored; exists "multinomial"%string; simpl; auto|].
  destruct (String.eqb_spec s "ovr"); [subst; stored; exists "ovr"%string; simpl; auto|]. not_str.
Qed.

Lemma set_cat_split_strategy_spec : forall v o, fo_fitted o = false ->
  set_spec (is_one_of ["binary"; "all"; "random"]%string) P_cat_split_strategy v o (set_cat_split_strategy v o).
Proof.
  intros v o Hf. unfold set_cat_split_strategy, raise. rewrite Hf. destruct v; simpl; try not_str.
  destruct (String.eqb_spec s "binary"); [subst; stored; exists "binary"%string; simpl; auto|].
  destruct (String.eqb_spec s "all"); [subst; stored; exists "all"%string; simpl; auto|].
  destruct (String.eqb_spec s "random"); [subst; stored; exists "random"%string; simpl; auto|]. not_str.
Qed.

Lemma set_class_weight_spec : forall v o, set_spec (fun v => v = PyNone \/ v = PyStr "balanced") P_class_weight v o (set_class_weight v o).
Proof.
  intros v o. unfold set_class_weight, raise. destruct v; simpl; try (rejected; destruct Hv; discriminate); [stored|].
  destruct (String.eqb_spec s "balanced"); [subst; stored|]. rejected. destruct Hv as [H|H]; [discriminate|injection H as ->; auto].
Qed.

Lemma Rleb_false : forall x y : R, Rleb x y = false <-> (y < x)%R.
Proof. intros x y. unfold Rleb. destruct (Rle_dec x y); split; intros; try discriminate; try lra; auto. Qed.
Lemma Rltb_false : forall x y : R, Rltb x y = false <-> (y <= x)%R.
Proof. intros x y. unfold Rltb. destruct (Rlt_dec x y); split; intros; try discriminate; try lra; auto. Qed.

Lemma set_max_features_spec : forall v o,
  set_spec (fun v => v = PyNone \/ is_one_of ["auto"; "sqrt"; "log2"]%string v \/ int_from 1 v \/
                     exists x : R, v = PyFloat x /\ (0 < x <= 1)%R) P_max_features v o (set_max_features v o).
Proof.
  intros v o. unfold set_max_features, raise.
  assert (HI : forall v', (forall x, v' <> PyFloat x) -> (forall s, v' <> PyStr s) -> v' <> PyNone ->
    set_spec (fun v => v = PyNone \/ is_one_of ["auto"; "sqrt"; "log2"]%string v \/ int_from 1 v \/
                     exists x : R, v = PyFloat x /\ (0 < x <= 1)%R) P_max_features v' o
      match as_int v' with
      | None => (o, Some ValueErr)
      | Some z => if (z <? 1)%Z then (o, Some ValueErr) else (w_max_features o (MFInt z), None)
      end).
  { intros v' N1 N2 N3. int_case v' 1%Z; [stored|..]; rejected;
      destruct Hv as [Hv|[(s & Hv & _)|[Hv|(x & Hv & _)]]]; try contradiction; [eapply N2; eauto|eapply N1; eauto|eapply N2; eauto|eapply N1; eauto]. }
  destruct v as [|b|z|x|s|].
  - stored.
  - apply HI; discriminate.
  - apply HI; discriminate.
  - change (set_spec (fun v => v = PyNone \/ is_one_of ["auto"; "sqrt"; "log2"]%string v \/ int_from 1 v \/
                     exists x : R, v = PyFloat x /\ (0 < x <= 1)%R) P_max_features (PyFloat x) o
      (if (Rltb 1 x || Rleb x 0)%bool then (o, Some ValueErr) else (w_max_features o (MFFloat x), None))).
    destruct (Rltb 1 x || Rleb x 0)%bool eqn:E.
    + rejected. destruct Hv as [Hv|[(s & Hv & _)|[(z & Hv & _)|(x' & Hv & Hx)]]]; try discriminate; [inversion Hv|].
      injection Hv as ->. apply orb_true_iff in E. destruct E as [E|E].
      * unfold Rltb in E. destruct (Rlt_dec 1 x'); [lra|discriminate].
      * unfold Rleb in E. destruct (Rle_dec x' 0); [lra|discriminate].
    + apply orb_false_iff in E. destruct E as [E1 E2]. apply Rltb_false in E1. apply Rleb_false in E2.
      stored. right; right; right. exists x. auto.
  - destruct (String.eqb_spec s "sqrt"); [subst; stored; right; left; eexists; split; [reflexivity|simpl; auto]|].
    destruct (String.eqb_spec s "log2"); [subst; stored; right; left; eexists; split; [reflexivity|simpl; auto]|].
    destruct (String.eqb_spec s "auto"); [subst; stored; right; left; eexists; split; [reflexivity|simpl; auto]|].
    rejected. destruct Hv as [Hv|[(s' & Hv & Hi)|[(z & Hv & _)|(x' & Hv & Hx)]]]; try discriminate; [|inversion Hv].
    injection Hv as <-. simpl in Hi. intuition congruence.
  - apply HI; discriminate.
Qed.

(** The part of [random_state] that holds. *)
Lemma set_random_state_spec : forall v o, fo_fitted o = false -> (v = PyNone \/ int_from 0 v) ->
  set_spec (fun v => v = PyNone \/ int_from 0 v) P_random_state v o (set_random_state v o).
Proof.
  intros v o Hf Hv. destruct Hv as [->|Hv]; [unfold set_random_state, raise; rewrite Hf; stored|].
  destruct Hv as (z & Hz & Hl). assert (Hv' : int_from 0 v) by (exists z; auto). apply as_int_value in Hz.
  assert (E : set_random_state v o = (w_random_state o (Some (Some z)), None)).
  { unfold set_random_state. rewrite Hf. destruct v; try discriminate; rewrite Hz; destruct (Z.leb_spec 0 z); auto; lia. }
  rewrite E. stored.
Qed.

Lemma set_fstep_spec : forall v o, set_spec (fun v => exists x : R, v = PyFloat x /\ (0 < x)%R) P_step v o (set_fstep v o).
Proof.
  intros v o. unfold set_fstep, raise. destruct v; simpl; try (rejected; destruct Hv as (? & ? & ?); discriminate).
  destruct (Rleb x 0) eqn:E.
  - rejected. destruct Hv as (x' & Hv & Hx). injection Hv as ->. unfold Rleb in E. destruct (Rle_dec x' 0); [lra|discriminate].
  - apply Rleb_false in E. destruct (fo_fitted o) eqn:Hf.
    + destruct (on_trees (set_step x) (w_step o x)) as [o' e] eqn:Eo.
      assert (Ho := on_trees_attrs _ _ _ _ Eo). split; [intros _|intros Hn; exfalso; apply Hn; eauto]. cbn [fst snd].
      rewrite Ho. split; [exists (PyFloat x); split; [reflexivity|left; reflexivity]|]. split; [|rewrite Hf; discriminate].
      split; [intros q Hq; destruct q; try reflexivity; congruence|]. repeat split; auto.
      intros [Hc|[Hc _]]; [simpl in *; congruence|congruence].
    + stored. eauto.
Qed.

Lemma set_fdirichlet_spec : forall (E : env R_arith) v (o : clf_forest R_arith L EC),
  set_spec (fun v => exists x : R, v = PyFloat x /\ (0 <= x)%R) P_dirichlet v o (set_fdirichlet E v o).
Proof.
  intros E v o. unfold set_fdirichlet, raise. destruct v; cbn [as_float]; try (rejected; destruct Hv as (? & ? & ?); discriminate).
  change (altb x a0) with (Rltb x 0). destruct (Rltb x 0) eqn:Ex.
  - rejected. destruct Hv as (x' & Hv & Hx). injection Hv as ->. unfold Rltb in Ex. destruct (Rlt_dec x' 0); [lra|discriminate].
  - apply Rltb_false in Ex.
    set (rec := match fo_dirichlet o with Some d => negb (num_eqb d x) | None => false end).
    destruct (fo_fitted o && rec)%bool eqn:Hf.
    + apply andb_true_iff in Hf. destruct Hf as [Hf _].
      destruct (on_trees (set_dirichlet E (fo_tree_classes o) x) (w_dirichlet o (Some x))) as [o' e] eqn:Eo.
      assert (Ho := on_trees_attrs _ _ _ _ Eo). split; [intros _|intros Hn; exfalso; apply Hn; eauto]. cbn [fst snd].
      rewrite Ho. split; [exists (PyFloat x); split; [reflexivity|left; reflexivity]|]. split; [|rewrite Hf; discriminate].
      split; [intros q Hq; destruct q; try reflexivity; congruence|]. repeat split; auto.
      intros [Hc|[_ Hc]]; [simpl in *; congruence|congruence].
    + stored. eauto.
Qed.

End Validation.

(** *** C42: classifiers *)

Theorem C42_classifier : forall (E : env R_arith) {L D} {EC : encoding D} (p : param) (v : pyval R_arith) (o : clf_forest R_arith L EC),
  (* before fit, or for a parameter that is not frozen *)
  ((frozen p = false \/ fo_fitted o = false) -> (p <> P_random_state \/ v = PyNone \/ int_from 0 v) ->
   set_spec (valid_param ["gini"; "entropy"]%string ["log"]%string p) p v o (setattr_clf E p v o)) /\
  (* after fit, the frozen parameters *)
  (frozen p = true -> fo_fitted o = true ->
   setattr_clf E p v o = (o, Some ValueErr) \/ setattr_clf E p v o = (o, Some AttrErr)).
Proof.
  intros E L D EC p v o. split.
  - intros Hf Hr. destruct p; cbn [setattr_clf setattr valid_param]; cbn [frozen] in Hf;
      try (assert (Hf' : fo_fitted o = false) by (destruct Hf; [discriminate|auto])).
    + apply set_n_estimators_spec; auto.
    + apply set_criterion_spec.
    + apply set_loss_spec.
    + apply set_fstep_spec.
    + apply bool_setters_spec.
    + apply set_max_depth_spec.
    + apply set_min_samples_split_spec.
    + apply set_min_samples_leaf_spec.
    + apply set_max_bins_spec.
    + apply set_max_features_spec.
    + apply set_n_jobs_spec.
    + apply set_random_state_spec; auto. destruct Hr as [Hr|Hr]; [congruence|auto].
    + apply bool_setters_spec.
    + apply set_fdirichlet_spec.
    + apply set_class_weight_spec.
    + apply set_multiclass_spec; auto.
    + apply set_cat_split_strategy_spec; auto.
  - intros Hf Hfit. destruct p; try discriminate; cbn [setattr_clf setattr];
      unfold set_n_estimators, set_random_state, set_multiclass, set_cat_split_strategy, raise; rewrite Hfit; auto.
Qed.
Print Assumptions C42_classifier.

Theorem C42_regressor : forall {L D} {EC : encoding D} (p : param) (v : pyval R_arith) (o : reg_forest R_arith L EC),
  In p base_params ->
  ((frozen p = false \/ fo_fitted o = false) -> (p <> P_random_state \/ v = PyNone \/ int_from 0 v) ->
   set_spec (valid_param ["mse"]%string ["mse"]%string p) p v o (setattr_reg p v o)) /\
  (frozen p = true -> fo_fitted o = true -> setattr_reg p v o = (o, Some ValueErr)).
Proof.
  intros L D EC p v o Hp. split.
  - intros Hf Hr. destruct p; try (exfalso; simpl in Hp; intuition congruence); unfold setattr_reg; cbn [setattr valid_param]; cbn [frozen] in Hf;
      try (assert (Hf' : fo_fitted o = false) by (destruct Hf; [discriminate|auto])).
    + apply set_n_estimators_spec; auto.
    + apply set_criterion_spec.
    + apply set_loss_spec.
    + apply set_fstep_spec.
    + apply bool_setters_spec.
    + apply set_max_depth_spec.
    + apply set_min_samples_split_spec.
    + apply set_min_samples_leaf_spec.
    + apply set_max_bins_spec.
    + apply set_max_features_spec.
    + apply set_n_jobs_spec.
    + apply set_random_state_spec; auto. destruct Hr as [Hr|Hr]; [congruence|auto].
    + apply bool_setters_spec.
  - intros Hf Hfit. destruct p; try discriminate; try (exfalso; simpl in Hp; intuition congruence); unfold setattr_reg; cbn [setattr];
      unfold set_n_estimators, set_random_state, raise; rewrite Hfit; auto.
Qed.
Print Assumptions C42_regressor.

(** *** Histories *)

(** What a user can do with a classifier; an exception is caught and the object is used
    again. *)
Inductive clf_op {A : arith} (L D : Type) : Type :=
| OSet (p : param) (v : pyval A)
| OFit (X : D) (y : list L) (sw : option (bool * list (num A)))
| OLighten.
Arguments OSet {A L D}. Arguments OFit {A L D}. Arguments OLighten {A L D}.

Definition clf_run {A : arith} {E : env A} {L D} (leb : L -> L -> bool) {EC : encoding D} (ME : menv E)
  (o : clf_forest A L EC) (op : clf_op L D) : clf_forest A L EC :=
  match op with
  | OSet p v => fst (setattr_clf E p v o)
  | OFit X y sw => fst (fst (clf_fit leb ME o X y sw))
  | OLighten => fst (flighten o)
  end.

Lemma fit_end_attrs : forall {A : arith} {E : env A} {L D} {EC : encoding D} (ME : menv E) {P Y} (o : fobj A L EC P Y) X r tc build,
  let o' := fst (fit_end ME o X r tc build) in
  (forall p, getattr p o' = getattr p o) /\ (fo_fitted o = true -> fo_fitted o' = true).
Proof.
  intros A E L D EC ME P Y o X r tc build. unfold fit_end, raise.
  destruct (get_max_features ME (fo_max_features o) (snd (ec_shape EC X))); [|cbn; auto].
  destruct (fo_random_state o) eqn:Er; [|cbn; auto]. cbv zeta.
  match goal with |- context [match ?m with Ok _ => _ | Err _ => _ end] => destruct m as [[enc fb]|e] end.
  - match goal with |- context [match ?m with Ok _ => _ | Err _ => _ end] => destruct m as [ts|e] end;
      (split; [intros q; destruct q; reflexivity|auto]).
  - split; [intros q; destruct q; reflexivity|auto].
Qed.

Lemma on_trees_getattr : forall {A : arith} {L D} {EC : encoding D} {P Y} f (o : fobj A L EC P Y) q,
  getattr q (fst (on_trees f o)) = getattr q o /\ fo_fitted (fst (on_trees f o)) = fo_fitted o.
Proof.
  intros A L D EC P Y f o q. destruct (on_trees f o) as [o' e] eqn:Eo. rewrite (on_trees_attrs _ _ _ _ Eo).
  split; [destruct q; reflexivity|reflexivity].
Qed.

Lemma clf_fit_attrs : forall {A : arith} {E : env A} {L D} leb {EC : encoding D} (ME : menv E) (o : clf_forest A L EC) X y sw,
  let o' := fst (fst (clf_fit leb ME o X y sw)) in
  (forall p, p <> P_multiclass -> getattr p o' = getattr p o) /\
  (getattr P_multiclass o' = getattr P_multiclass o \/ fo_fitted o = false /\ getattr P_multiclass o' = Some (PyStr "multinomial")) /\
  (fo_fitted o = true -> fo_fitted o' = true).
Proof.
  intros A E L D leb EC ME o X y sw. unfold clf_fit, raise.
  destruct (negb (length y =? fst (ec_shape EC X))%nat); [cbn [fst]; auto|].
  destruct (check_weights (fst (ec_shape EC X)) (option_map snd sw)) as [w|e]; [|cbn [fst]; auto]. cbv zeta.
  set (classes := uniq leb y).
  set (m := match fo_multiclass o with Ovr => _ | Multinomial => _ end).
  assert (Hm : (forall p, p <> P_multiclass -> getattr p (fst m) = getattr p o) /\
    (getattr P_multiclass (fst m) = getattr P_multiclass o \/ fo_fitted o = false /\ getattr P_multiclass (fst m) = Some (PyStr "multinomial")) /\
    fo_fitted (fst m) = fo_fitted o).
  { unfold m. assert (H1 : forall p, getattr p (w_classes o classes) = getattr p o) by (intros []; reflexivity).
    destruct (fo_multiclass o); [cbn [fst]; auto|]. destruct (length classes <=? 2)%nat; [|cbn [fst]; auto].
    unfold set_multiclass. cbn [fo_fitted w_classes as_str]. destruct (fo_fitted o) eqn:Ef.
    - cbn [raise fst]. split; [auto|]. split; [left; apply H1|exact Ef].
    - cbn [String.eqb Ascii.eqb Bool.eqb fst]. split; [intros [] Hp; try reflexivity; congruence|]. split; [right; split; reflexivity|].
      exact Ef. }
  destruct m as [o2 e2]. cbn [fst] in Hm. destruct Hm as (M1 & M2 & M3).
  destruct e2 as [e|]; [cbn [fst]; split; [auto|split; [auto|congruence]]|].
  destruct (fo_dirichlet o2) as [d|]; [|cbn [fst]; split; [auto|split; [auto|congruence]]].
  destruct (fo_aggregation o2 && aisz d)%bool; [cbn [fst]; split; [auto|split; [auto|congruence]]|].
  assert (HF : forall r tc build, let o' := fst (fit_end ME o2 X r tc build) in
     (forall p, p <> P_multiclass -> getattr p o' = getattr p o) /\
     (getattr P_multiclass o' = getattr P_multiclass o \/ fo_fitted o = false /\ getattr P_multiclass o' = Some (PyStr "multinomial")) /\
     (fo_fitted o = true -> fo_fitted o' = true)).
  { intros r tc build. cbv zeta. destruct (fit_end_attrs ME o2 X r tc build) as [F1 F2]. split; [intros p Hp; rewrite F1; auto|].
    split; [rewrite F1; auto|intros H; apply F2; congruence]. }
  destruct (fo_multiclass o2); cbn [fst]; apply HF.
Qed.

(** Once fitted, the frozen parameters never change and the forest stays fitted. *)
Theorem C42_frozen : forall {A : arith} {E : env A} {L D} leb {EC : encoding D} (ME : menv E) (ops : list (clf_op L D)) (o : clf_forest A L EC),
  fo_fitted o = true ->
  let o' := fold_left (clf_run leb ME) ops o in
  fo_fitted o' = true /\ forall p, frozen p = true -> getattr p o' = getattr p o.
Proof.
  intros A E L D leb EC ME ops. induction ops as [|op ops IH]; intros o Hf; cbn [fold_left]; [cbv zeta; auto|].
  assert (Hs : fo_fitted (clf_run leb ME o op) = true /\ forall p, frozen p = true -> getattr p (clf_run leb ME o op) = getattr p o).
  { destruct op as [p v|X y sw|]; cbn [clf_run].
    - assert (HT : forall f (o1 : clf_forest A L EC), fo_fitted o1 = true -> (forall q, frozen q = true -> getattr q o1 = getattr q o) ->
        fo_fitted (fst (on_trees f o1)) = true /\ forall q, frozen q = true -> getattr q (fst (on_trees f o1)) = getattr q o).
      { intros f o1 H1 H2. split; [destruct (on_trees_getattr f o1 P_step) as [_ ->]; auto|].
        intros q Hq. destruct (on_trees_getattr f o1 q) as [-> _]. auto. }
      assert (HO : fo_fitted o = true /\ (forall q, frozen q = true -> getattr q o = getattr q o)) by auto.
      destruct p; cbn [setattr_clf setattr];
        unfold set_n_estimators, set_criterion, set_loss, set_aggregation, set_max_depth, set_min_samples_split, set_min_samples_leaf,
          set_max_bins, set_n_jobs, set_random_state, set_verbose, set_class_weight, set_multiclass, set_cat_split_strategy, raise;
        try rewrite Hf; try exact HO.
      + destruct (as_str v); [|exact HO]. match goal with |- context [if ?b then _ else _] => destruct b end; [|exact HO]. split; [exact Hf|intros [] Hq; try reflexivity; discriminate].
      + destruct (as_str v); [|exact HO]. match goal with |- context [if ?b then _ else _] => destruct b end; [|exact HO]. split; [exact Hf|intros [] Hq; try reflexivity; discriminate].
      + unfold set_fstep, raise. destruct (as_float v); [|exact HO]. destruct (aleb n a0); [exact HO|]. rewrite Hf. apply HT; [exact Hf|intros [] Hq; try reflexivity; discriminate].
      + destruct (as_bool v); [|exact HO]. split; [exact Hf|intros [] Hq; try reflexivity; discriminate].
      + destruct v; cbn [as_int]; try exact HO; try (match goal with |- context [if ?b then _ else _] => destruct b end; try exact HO); (split; [exact Hf|intros [] Hq; try reflexivity; discriminate]).
      + destruct (as_int v); [|exact HO]. match goal with |- context [if ?b then _ else _] => destruct b end; [exact HO|]. split; [exact Hf|intros [] Hq; try reflexivity; discriminate].
      + destruct (as_int v); [|exact HO]. match goal with |- context [if ?b then _ else _] => destruct b end; [exact HO|]. split; [exact Hf|intros [] Hq; try reflexivity; discriminate].
      + destruct (as_int v); [|exact HO]. match goal with |- context [if ?b then _ else _] => destruct b end; [exact HO|]. split; [exact Hf|intros [] Hq; try reflexivity; discriminate].
      + unfold set_max_features, raise.
        assert (HM : forall m, fo_fitted (w_max_features o m) = true /\ forall q, frozen q = true -> getattr q (w_max_features o m) = getattr q o)
          by (intros m; split; [exact Hf|intros [] Hq; try reflexivity; discriminate]).
        destruct v; cbn [as_int]; try exact HO; try apply HM; repeat (match goal with |- context [if ?b then _ else _] => destruct b end); try exact HO; try apply HM.
      + destruct (as_int v); [|exact HO]. match goal with |- context [if ?b then _ else _] => destruct b end; [exact HO|]. split; [exact Hf|intros [] Hq; try reflexivity; discriminate].
      + destruct (as_bool v); [|exact HO]. split; [exact Hf|intros [] Hq; try reflexivity; discriminate].
      + unfold set_fdirichlet, raise. destruct (as_float v); [|exact HO]. destruct (altb n a0); [exact HO|].
        match goal with |- context [if ?b then _ else _] => destruct b end.
        * apply HT; [exact Hf|intros [] Hq; try reflexivity; discriminate].
        * split; [exact Hf|intros [] Hq; try reflexivity; discriminate].
      + destruct v; try exact HO; try (match goal with |- context [if ?b then _ else _] => destruct b end; try exact HO); (split; [exact Hf|intros [] Hq; try reflexivity; discriminate]).
    - destruct (clf_fit_attrs leb ME o X y sw) as (F1 & F2 & F3). split; [auto|]. intros p Hp.
      assert (Hd : p = P_multiclass \/ p <> P_multiclass) by (destruct p; auto; right; discriminate).
      destruct Hd as [->|Hd]; [|auto]. destruct F2 as [F2|[F2 _]]; [auto|congruence].
    - unfold flighten. split; [destruct (on_trees_getattr lighten o P_step) as [_ ->]; auto|].
      intros q Hq. apply on_trees_getattr. }
  destruct Hs as [H1 H2]. cbv zeta in *. destruct (IH _ H1) as [H3 H4]. split; auto. intros p Hp. rewrite H4 by auto. auto.
Qed.
Print Assumptions C42_frozen.

(** Every object built by the constructor and then used in any way has documented values
    only; [random_state] is the only attribute that may be missing. *)
Definition attr_valid {L D} {EC : encoding D} (p : param) (o : clf_forest R_arith L EC) : Prop :=
  match getattr p o with
  | Some v => valid_param ["gini"; "entropy"]%string ["log"]%string p v
  | None => p = P_random_state
  end.

Lemma stored_valid : forall {L D} {EC : encoding D} crits losses p (o : clf_forest R_arith L EC) w v,
  getattr p o = Some w -> py_eq w v -> valid_param crits losses p v -> valid_param crits losses p w.
Proof.
  intros L D EC crits losses p o w v Hg [->|(z & Hw & Hv)] Hval; auto.
  assert (Hint : forall lo, int_from lo v -> int_from lo w).
  { intros lo (z' & H1 & H2). apply as_int_value in H1, Hv. rewrite Hv in H1. injection H1 as <-. exists z. auto. }
  assert (Hnf : forall x, w <> PyFloat x) by (intros x ->; inversion Hw).
  assert (Hns : forall s, w <> PyStr s) by (intros s ->; inversion Hw).
  destruct p; cbn [getattr] in Hg; cbn [valid_param] in *; auto;
    try (injection Hg as Hg; exfalso; first [apply (Hnf _ (eq_sym Hg))|apply (Hns _ (eq_sym Hg))]).
  - injection Hg as <-. eauto.
  - destruct Hval as [->|Hval]; [inversion Hv|auto].
  - destruct Hval as [->|[(s & -> & _)|[Hval|(x & -> & _)]]]; [inversion Hv|inversion Hv|auto|inversion Hv].
  - destruct Hval as (z' & H1 & H2). apply as_int_value in H1, Hv. rewrite Hv in H1. injection H1 as <-. exists z. auto.
  - destruct Hval as [->|Hval]; [inversion Hv|auto].
  - injection Hg as <-. eauto.
  - destruct (fo_dirichlet o); [|discriminate]. injection Hg as <-. exfalso. eapply Hnf; reflexivity.
  - destruct Hval as [->| ->]; inversion Hv.
Qed.

Lemma setattr_valid : forall {E : env R_arith} {L D} {EC : encoding D} p v (o : clf_forest R_arith L EC) q,
  (attr_valid q o \/ q = p /\ p <> P_random_state /\ snd (setattr_clf E p v o) = None) -> attr_valid q (fst (setattr_clf E p v o)).
Proof.
  intros E L D EC p v o q Hq.
  assert (Hunch : fst (setattr_clf E p v o) = o -> snd (setattr_clf E p v o) <> None \/ p = P_random_state -> attr_valid q (fst (setattr_clf E p v o))).
  { intros H1 H2. rewrite H1. destruct Hq as [Hq|(_ & H3 & H4)]; auto. destruct H2; contradiction. }
  destruct (C42_classifier E p v o) as [C1 C2].
  destruct (frozen p && fo_fitted o)%bool eqn:Ef.
  { apply andb_true_iff in Ef. destruct Ef as [Ef1 Ef2]. destruct (C2 Ef1 Ef2) as [C|C]; apply Hunch; rewrite C; auto; left; discriminate. }
  assert (Hf : frozen p = false \/ fo_fitted o = false) by (apply andb_false_iff in Ef; auto).
  assert (Hr : (p <> P_random_state \/ v = PyNone \/ int_from 0 v) \/ (p = P_random_state /\ v <> PyNone /\ ~ int_from 0 v)).
  { assert (Hp : p = P_random_state \/ p <> P_random_state) by (destruct p; auto; right; discriminate).
    destruct Hp as [->|Hp]; auto. destruct (int_from_dec v 0) as [(z & _ & _ & H)|[_ H]]; auto.
    assert (Hn : v = PyNone \/ v <> PyNone) by (destruct v; auto; right; discriminate). destruct Hn; auto. }
  destruct Hr as [Hr|(-> & Hr1 & Hr2)].
  - destruct (C1 Hf Hr) as [S1 S2].
    assert (Hdec : valid_param ["gini"; "entropy"]%string ["log"]%string p v \/ ~ valid_param ["gini"; "entropy"]%string ["log"]%string p v)
      by apply Classical_Prop.classic.
    destruct Hdec as [Hv|Hv].
    + destruct (S1 Hv) as ((w & W1 & W2) & (SB & _) & _).
      assert (Hd : q = p \/ q <> p) by (destruct q, p; auto; right; discriminate).
      unfold attr_valid. destruct Hd as [->|Hd].
      * rewrite W1. eapply stored_valid; eauto.
      * rewrite SB by auto. destruct Hq as [Hq|[Hq _]]; [exact Hq|contradiction].
    + apply Hunch; rewrite (S2 Hv); auto. left; discriminate.
  - apply Hunch; auto. cbn [setattr_clf setattr]. unfold set_random_state, raise. destruct (fo_fitted o) eqn:Ef'; [destruct Hf; discriminate|].
    destruct (int_from_dec v 0) as [(z & _ & _ & H)|[H _]]; [contradiction|].
    destruct H as [H|(z & H & Hz)]; destruct v; try contradiction; cbn [as_int] in *; auto; try discriminate;
      apply Z.ltb_lt in Hz; match goal with |- context [(0 <=? ?z)%Z] => destruct (Z.leb_spec 0 z) end; auto; injection H as <-; lia.
Qed.

Theorem C42_always_valid : forall {E : env R_arith} {L D} leb {EC : encoding D} (ME : menv E) args (o : clf_forest R_arith L EC) ops,
  new_clf E EC args = Ok o -> forall p, attr_valid p (fold_left (clf_run leb ME) ops o).
Proof.
  intros E L D leb EC ME args o ops Hnew.
  assert (H0 : forall l (o1 o2 : clf_forest R_arith L EC) q, set_all (setattr_clf E) l o1 = Ok o2 ->
     (attr_valid q o1 \/ In q (map fst l) /\ q <> P_random_state) -> attr_valid q o2).
  { induction l as [|[p v] l IH]; intros o1 o2 q Hs Hq.
    - injection Hs as <-. destruct Hq as [Hq|[[] _]]; auto.
    - cbn [set_all] in Hs. destruct (setattr_clf E p v o1) as [o3 [e|]] eqn:Es; [discriminate|].
      eapply IH; eauto. destruct Hq as [Hq|[[Hq|Hq] Hr]]; [|cbn [fst] in Hq; subst q|right; auto];
        left; change o3 with (fst (o3, @None err)); rewrite <- Es; apply setattr_valid; auto.
      right. rewrite Es. auto. }
  assert (H1 : forall p, attr_valid p o).
  { intros p. unfold new_clf in Hnew. eapply H0; eauto. destruct p; try (right; split; [vm_compute; tauto|discriminate]).
    left. reflexivity. }
  clear Hnew H0. revert o H1. induction ops as [|op ops IH]; intros o Ho; cbn [fold_left]; auto. apply IH. intros p.
  destruct op as [q v|X y sw|]; cbn [clf_run].
  - apply setattr_valid. auto.
  - destruct (clf_fit_attrs leb ME o X y sw) as (F1 & F2 & _). unfold attr_valid.
    assert (Hd : p = P_multiclass \/ p <> P_multiclass) by (destruct p; auto; right; discriminate).
    destruct Hd as [->|Hd].
    + destruct F2 as [F2|[_ F2]]; rewrite F2; [apply (Ho P_multiclass)|]. exists "multinomial"%string. simpl; auto.
    + rewrite F1 by auto. apply Ho.
  - unfold flighten. unfold attr_valid. destruct (on_trees_getattr lighten o p) as [-> _]. apply Ho.
Qed.
Print Assumptions C42_always_valid.

(** *** What is false *)

(** An invalid [random_state] is dropped without an exception. *)
Theorem C42_random_state_refuted : forall {A : arith} {L D} {EC : encoding D} (o : clf_forest A L EC) v (E : env A),
  fo_fitted o = false -> v <> PyNone -> ~ int_from 0 v -> setattr_clf E P_random_state v o = (o, None).
Proof.
  intros A L D EC o v E Hf Hn Hv. cbn [setattr_clf setattr]. unfold set_random_state. rewrite Hf.
  destruct (int_from_dec v 0) as [(z & _ & _ & H)|[H _]]; [contradiction|].
  destruct H as [H|(z & H & Hz)]; destruct v; try contradiction; cbn [as_int] in *; auto; try discriminate;
    apply Z.ltb_lt in Hz; match goal with |- context [(0 <=? ?z)%Z] => destruct (Z.leb_spec 0 z) end; auto; injection H as <-; lia.
Qed.
Print Assumptions C42_random_state_refuted.

(** The default arguments of ForestClassifier, with a given random_state. *)
Definition default_args {A : arith} (rs : pyval A) (p : param) : pyval A :=
  match p with
  | P_n_estimators => PyInt 10 | P_criterion => PyStr "gini" | P_loss => PyStr "log"
  | P_step => PyFloat a1 | P_aggregation => PyBool true | P_max_depth => PyNone
  | P_min_samples_split => PyInt 2 | P_min_samples_leaf => PyInt 1 | P_max_bins => PyInt 256
  | P_max_features => PyStr "auto" | P_n_jobs => PyInt 1 | P_random_state => rs | P_verbose => PyBool false
  | P_dirichlet => PyFloat ahalf | P_class_weight => PyNone | P_multiclass => PyStr "multinomial"
  | P_cat_split_strategy => PyStr "binary"
  end.

(** Such a constructor call succeeds and every later fit raises an exception. *)
Lemma fit_end_random_state : forall {A : arith} {E : env A} {L D} {EC : encoding D} (ME : menv E) {P Y} (o : fobj A L EC P Y) X r k build,
  fo_random_state o = None -> snd (fit_end ME o X r k build) <> None.
Proof.
  intros A E L D EC ME P Y o X r k build H. unfold fit_end, raise. destruct (get_max_features _ _ _); [|discriminate]. rewrite H. discriminate.
Qed.

Lemma clf_fit_random_state : forall {A : arith} {E : env A} {L D} leb {EC : encoding D} (ME : menv E) (o : clf_forest A L EC) X y sw,
  fo_random_state o = None -> snd (fst (clf_fit leb ME o X y sw)) <> None.
Proof.
  intros A E L D leb EC ME o X y sw H. unfold clf_fit, raise. destruct (negb _); [discriminate|].
  destruct (check_weights _ _) as [w|e]; [|discriminate]. cbv zeta.
  match goal with |- context [let '(_, _) := ?m in _] => assert (Hm : fo_random_state (fst m) = None); [|destruct m as [o2 [e|]]] end.
  { destruct (fo_multiclass o); [exact H|]. destruct (_ <=? 2)%nat; [|exact H]. unfold set_multiclass, raise. cbn [fo_fitted w_classes].
    destruct (fo_fitted o); exact H. }
  - discriminate.
  - cbn [fst] in Hm. destruct (fo_dirichlet o2); [|discriminate]. destruct (_ && _)%bool; [discriminate|].
    destruct (fo_multiclass o2); apply fit_end_random_state; exact Hm.
Qed.

Lemma set_all_step : forall {A : arith} {L D} {EC : encoding D} {P Y} set p v l (o o' : fobj A L EC P Y) r,
  set p v o = (o', None) -> set_all set l o' = r -> set_all set ((p, v) :: l) o = r.
Proof. intros A L D EC P Y set p v l o o' r H1 H2. cbn [set_all]. rewrite H1. exact H2. Qed.

(** The record is normalised at each step: chains of updates are expensive to compare. *)
Ltac normal_form := cbn; cbv beta delta [w_n_estimators w_criterion w_loss w_step w_aggregation w_max_depth w_min_samples_split w_min_samples_leaf w_max_bins w_max_features w_n_jobs w_random_state w_verbose w_dirichlet w_balanced w_multiclass w_strategy blank] ; cbn [fo_fitted fo_n_estimators fo_criterion fo_loss fo_step fo_aggregation fo_max_depth fo_min_samples_split fo_min_samples_leaf fo_max_bins fo_max_features fo_n_jobs fo_random_state fo_verbose fo_dirichlet fo_balanced fo_multiclass fo_strategy fo_classes fo_seeds fo_encoder fo_trees fo_tree_classes]; reflexivity.
Lemma default_new : forall {A : arith} {E : env A} {L D} {EC : encoding D} rs ors, @aleb A a1 a0 = false -> @altb A ahalf a0 = false ->
  (forall o : clf_forest A L EC, fo_fitted o = false -> fo_random_state o = None -> set_random_state rs o = (w_random_state o ors, None)) ->
  new_clf E EC (default_args rs) = Ok (mkF false 10 a1 true None 2 1 256 MFAuto 1 ors false "gini" "log" (Some ahalf) false Multinomial BinaryMod [] [] None None 0 : clf_forest A L EC).
Proof.
  intros A E L D EC rs ors Hp Hd Hr. unfold new_clf, clf_params, base_params. cbn [map app default_args].
  do 3 (eapply set_all_step; [normal_form|]).
  eapply set_all_step; [cbn [setattr_clf setattr]; unfold set_fstep; cbn [as_float]; rewrite Hp; normal_form|].
  do 7 (eapply set_all_step; [normal_form|]).
  eapply set_all_step; [cbn [setattr_clf setattr]; rewrite Hr by reflexivity; normal_form|].
  eapply set_all_step; [normal_form|].
  eapply set_all_step; [cbn [setattr_clf]; unfold set_fdirichlet; cbn [as_float]; rewrite Hd; normal_form|].
  do 3 (eapply set_all_step; [normal_form|]). reflexivity.
Qed.

Theorem C42_random_state_fit : forall {E : env R_arith} {L D} leb {EC : encoding D} (ME : menv E) (X : D) (y : list L) sw,
  exists o, new_clf E EC (default_args (PyInt (-1))) = Ok o /\ snd (fst (clf_fit leb ME o X y sw)) <> None.
Proof.
  intros E L D leb EC ME X y sw. eexists. split.
  - apply (default_new (PyInt (-1)) None).
    + apply Rleb_false. change (0 < 1)%R. lra.
    + apply Rltb_false. change (0 <= / 2)%R. lra.
    + intros o Hf Hr. unfold set_random_state. rewrite Hf. destruct o. cbn in Hr |- *. rewrite Hr. reflexivity.
  - apply clf_fit_random_state. reflexivity.
Qed.
Print Assumptions C42_random_state_fit.

(** NaN passes the tests of [step] and [dirichlet]. *)
Theorem C42_nan_refuted : forall lnf expf {L D} {EC : encoding D} (o : fobj (F64 lnf expf) L EC (list spec_float) nat) (E : env (F64 lnf expf)),
  fo_fitted o = false ->
  set_fstep (PyFloat (S754_nan : num (F64 lnf expf))) o = (w_step o (S754_nan : num (F64 lnf expf)), None) /\
  set_fdirichlet E (PyFloat (S754_nan : num (F64 lnf expf))) o = (w_dirichlet o (Some (S754_nan : num (F64 lnf expf))), None).
Proof. intros lnf expf L D EC o E Hf. unfold set_fstep, set_fdirichlet. cbn. rewrite Hf. split; reflexivity. Qed.
Print Assumptions C42_nan_refuted.

(** *** The hypotheses are met *)

Definition enc_unit : encoding (nat * nat) := mkEncoding (nat * nat) unit (fun X => X) (fun _ _ => Ok tt) (fun _ => []) (fun _ _ => Err ValueErr).

Example C42_applies : forall (E : env R_arith), exists o : clf_forest R_arith nat enc_unit,
  fo_fitted o = false /\ setattr_clf E P_max_depth (PyInt 5) o = (w_max_depth o (Some 5%Z), None) /\
  setattr_clf E P_max_depth (PyFloat a1) o = (o, Some ValueErr).
Proof. intros E. exists blank. repeat split. Qed.

Example C16_applies : exists o' : fobj R_arith nat enc_unit nat nat, set_max_features (PyStr "sqrt") blank = (o', None).
Proof. eexists. reflexivity. Qed.
