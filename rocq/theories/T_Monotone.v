(** * C69: increasing transformations of the columns change nothing

    A forest only uses the order of the numbers of a column: replacing the numbers of some
    columns by their images by strictly increasing functions (a logarithm, a change of units)
    gives the same trees and the same predictions for the rows seen by fit. The numbers of the
    tables are exact; the computations of the forest are in any arithmetic. *)

Require Import String Bool List Arith NArith ZArith Lia Reals Lra.
Require Import Verif.Base Verif.Num Verif.M_Bitarray Verif.M_Binning Verif.P_BinningR Verif.M_Utils Verif.M_Tree Verif.M_Grow Verif.M_Object Verif.M_Forest
  Verif.M_Encoder Verif.S_Encoder Verif.P_Encoder Verif.M_EncoderForest Verif.Cells Verif.S_Monotone Verif.P_Monotone.
Import ListNotations.
Local Open Scope list_scope.
Local Open Scope nat_scope.

(** ** One column of numbers *)

(** The bins of the numbers of a column do not change, whatever the number of different
    values. *)
Theorem C69_bins : forall (almost_inf : R) (col : list R) (max_bins missing_bin : nat) (g : R -> R) thr thr',
  0 < max_bins -> increasing_on (fun x => In x col) g ->
  (forall x, In x col -> (x <= almost_inf)%R /\ (g x <= almost_inf)%R) ->
  @find_binning_thresholds R_arith almost_inf col max_bins = Ok thr ->
  @find_binning_thresholds R_arith almost_inf (map g col) max_bins = Ok thr' ->
  length thr' = length thr /\
  @bin_continuous_column R_arith (map g col) thr' missing_bin = @bin_continuous_column R_arith col thr missing_bin.
Proof.
  intros ai col mb m g thr thr' Hmb inc Hai H H'.
  destruct (thresholds_recode (fun x => In x col) g inc ai col mb) as (t & t' & E1 & E2 & HF); auto.
  { apply Forall_forall. auto. }
  change (num R_arith) with R in *. assert (t = thr) by congruence. assert (t' = thr') by congruence. subst t t'. split.
  - clear - HF. induction HF; simpl; auto.
  - unfold bin_continuous_column.
    assert (HH : forall l : list R, incl l col -> mapM (@bin_value R_arith thr' m) (map g l) = mapM (@bin_value R_arith thr m) l).
    { induction l as [|x l IH]; intro HI; auto. cbn [map mapM].
      assert (E : @bin_value R_arith thr' m (g x) = @bin_value R_arith thr m x).
      { apply bin_value_ext; auto. specialize (HI x (or_introl eq_refl)). clear - HF HI. induction HF; constructor; auto. }
      change (num R_arith) with R in *. rewrite E, IH; [reflexivity|]. intros y Hy. apply HI. right. auto. }
    apply HH. intros x Hx. auto.
Qed.

Section Tables.
Context (r32 : R -> R) (NM : Type) (nm_eqb : NM -> NM -> bool) (EE : eenv (nan_arith R_arith)) (almost_inf : R).
Notation V := (exact_values r32).
Context (names : forall a b, nm_eqb a b = true <-> a = b).
Context (cap : ee_almost_inf EE = Some almost_inf).

(** ** The encoder *)

(** No subsampling: [subsample] is None or not below the number of rows. *)
Theorem C69_encoder : forall cf (X X' : xdata V NM) e, recoded r32 NM almost_inf X X' -> clean V X -> clean V X' -> 0 < c_max_bins cf ->
  match c_subsample cf with Some k => fst (shape V NM X) <= k | None => True end ->
  fit V NM EE cf (new_encoder V) X = (e, Ok tt) ->
  exists e', fit V NM EE cf (new_encoder V) X' = (e', Ok tt) /\
    option_map (map (is_cat V)) (e_cols V e') = option_map (map (is_cat V)) (e_cols V e) /\
    transform V NM nm_eqb EE cf e' X' = transform V NM nm_eqb EE cf e X.
Proof.
  intros cf X X' e HR Hc Hc' Hmb Hs Hf.
  assert (Hs' : subset_of EE cf (fst (shape V NM X)) = None).
  { unfold subset_of. destruct (c_subsample cf) as [k|]; auto. rewrite (proj2 (Nat.ltb_ge k _)); auto. }
  destruct (fit_transform_same r32 NM nm_eqb EE almost_inf names cap cf X X' e HR Hc Hc' Hmb Hs' Hf) as (e' & H1 & _ & _ & H2 & H3).
  exists e'. auto.
Qed.

(** ** The forests *)

Context (to_int : num (nan_arith R_arith) -> res Z) (st : settings (A := nan_arith R_arith)).
Notation EC := (forest_encoding V NM nm_eqb EE to_int st).
Context {A : arith} {E : env A} (ME : menv E) {L : Type} (leb : L -> L -> bool).

(** The parameter [subsample] does not make fit use a part of the rows. *)
Definition all_rows_used (n : nat) : Prop :=
  match st_subsample st with
  | PyInt z => (Z.of_nat n <= z)%Z
  | PyFloat x => forall z, to_int x = Ok z -> (Z.of_nat n <= z)%Z
  | _ => True
  end.

Lemma encoding_same : forall mb (X X' : table V NM) enc fb, recoded_table r32 NM almost_inf X X' -> all_rows_used (fst (ec_shape EC X)) ->
  ec_fit EC mb X = Ok enc -> ec_transform EC enc X = Ok fb ->
  exists enc', ec_fit EC mb X' = Ok enc' /\ ec_transform EC enc' X' = Ok fb /\ ec_cats EC enc' = ec_cats EC enc.
Proof.
  intros mb X X' enc fb [HR Hcf] Hall Hf Ht. cbn [forest_encoding ec_fit ec_shape ec_transform ec_cats ec_enc] in *.
  unfold forest_encode, encode_fit in *. cbn [snd] in *. rewrite Hcf, (recoded_shape r32 NM almost_inf _ _ HR).
  apply bind_ok in Hf. destruct Hf as (ic & Hic & Hf). rewrite Hic. cbn [bind].
  apply bind_ok in Hf. destruct Hf as (c & Hc & Hf). rewrite Hc. cbn [bind].
  destruct (fit V NM EE c (new_encoder V) (tb_X V NM X)) as [e r] eqn:Ef. apply bind_ok in Hf. destruct Hf as ([] & -> & Hf). injection Hf as <-.
  unfold encoder_init in Hc. apply bind_ok in Hc. destruct Hc as (mb' & Hmb & Hc). apply bind_ok in Hc. destruct Hc as (ss & Hss & Hc).
  apply bind_ok in Hc. destruct Hc as (cm & Hcm & Hc). apply bind_ok in Hc. destruct Hc as (hu & Hhu & Hc).
  assert (Ec : c = mkConfig mb' ss ic cm hu) by congruence.
  assert (H0 : 0 < c_max_bins c).
  { subst c. cbn [c_max_bins]. unfold check_max_bins in Hmb. destruct (as_int (PyInt mb)) as [z|] eqn:Ez; [|discriminate].
    destruct (z <? 3)%Z eqn:E3; [discriminate|]. injection Hmb as <-. apply Z.ltb_ge in E3. lia. }
  assert (HS : match c_subsample c with Some k => fst (shape V NM (tb_X V NM X)) <= k | None => True end).
  { subst c. cbn [c_subsample]. destruct ss as [k|]; auto. unfold check_subsample in Hss. unfold all_rows_used in Hall.
    replace (st_subsample (store_categorical st (tb_cf V NM X))) with (st_subsample st) in Hss by (destruct (tb_cf V NM X); reflexivity).
    destruct (st_subsample st); try discriminate.
    - match type of Hss with context [if ?b then _ else _] => destruct b; [|discriminate] end. injection Hss as <-. lia.
    - destruct (aleb _ _); [|discriminate]. apply bind_ok in Hss. destruct Hss as (z & Hz & Hss). injection Hss as <-. specialize (Hall z Hz). lia. }
  destruct (C69_encoder c _ _ e HR (tb_clean V NM X) (tb_clean V NM X') H0 HS Ef) as (e' & F1 & F2 & F3).
  exists (c, e'). rewrite F1. cbn [bind fst snd]. split; auto. split; [rewrite F3; exact Ht|].
  destruct (e_cols V e'), (e_cols V e); simpl in F2; try discriminate; auto. injection F2 as F2. auto.
Qed.

Lemma fit_end_same : forall {P Y} (o o1 : fobj A L EC P Y) X X' r tc build, recoded_table r32 NM almost_inf X X' -> all_rows_used (fst (ec_shape EC X)) ->
  fit_end ME o X r tc build = (o1, None) ->
  exists enc enc', fo_encoder o1 = Some enc /\ fit_end ME o X' r tc build = (w_encoder o1 (Some enc'), None) /\
    ec_transform EC enc' X' = ec_transform EC enc X.
Proof.
  intros P Y o o1 X X' r tc build HR Hall H. unfold fit_end in *.
  assert (Es : ec_shape EC X' = ec_shape EC X). { destruct HR as [HR _]. apply (recoded_shape r32 NM almost_inf _ _ HR). }
  rewrite Es. destruct (get_max_features ME _ _) as [mf|]; [|discriminate]. destruct (fo_random_state o) as [rs|]; [|discriminate].
  destruct (ec_fit EC (fo_max_bins o) X) as [enc|] eqn:Ef; [|discriminate]. cbn [bind] in H.
  destruct (ec_transform EC enc X) as [fb|] eqn:Et; [|discriminate]. cbn [bind] in H.
  destruct (encoding_same _ _ _ _ _ HR Hall Ef Et) as (enc' & F1 & F2 & F3). rewrite F1. cbn [bind]. rewrite F2. cbn [bind]. rewrite F3.
  match type of H with context [mapM ?f ?l] => destruct (mapM f l) as [ts|]; [|discriminate] end.
  injection H as <-. exists enc, enc'. split; [reflexivity|]. split; [reflexivity|]. congruence.
Qed.

Lemma helper_same : forall {P Y} (o : fobj A L EC P Y) X X' enc enc', fo_encoder o = Some enc -> ec_transform EC enc' X' = ec_transform EC enc X ->
  predict_helper (w_encoder o (Some enc')) X' = predict_helper o X.
Proof.
  intros P Y o X X' enc enc' H1 H2. unfold predict_helper. rewrite H1.
  transitivity (let* fb := ec_transform EC enc' X' in match fo_trees o with None => Err TypeErr | Some ts => Ok (fb, ts) end).
  - reflexivity.
  - rewrite H2. reflexivity.
Qed.

(** What a fitted forest consists of, besides its encoder. *)
Definition same_forest {P Y} (o o' : fobj A L EC P Y) : Prop :=
  fo_trees o' = fo_trees o /\ fo_classes o' = fo_classes o /\ fo_seeds o' = fo_seeds o /\ fo_fitted o' = fo_fitted o /\
  forall p, getattr p o' = getattr p o.

Lemma same_encoder : forall {P Y} (o : fobj A L EC P Y) enc, same_forest o (w_encoder o (Some enc)).
Proof. intros P Y o enc. repeat split. Qed.

Theorem C69_classifier : forall (o o1 : clf_forest A L EC) X X' y sw c, recoded_table r32 NM almost_inf X X' -> all_rows_used (fst (shape V NM (tb_X V NM X))) ->
  clf_fit leb ME o X y sw = ((o1, None), c) ->
  exists o1', clf_fit leb ME o X' y sw = ((o1', None), c) /\ same_forest o1 o1' /\
    (forall small order, predict_proba small order o1' X' = predict_proba small order o1 X) /\
    (forall small order, predict_class small order o1' X' = predict_class small order o1 X) /\
    predict_proba_trees o1' X' = predict_proba_trees o1 X /\
    fapply o1' X' = fapply o1 X.
Proof.
  intros o o1 X X' y sw c HR Hall H. unfold clf_fit in *.
  assert (Es : ec_shape EC X' = ec_shape EC X). { destruct HR as [HR' _]. apply (recoded_shape r32 NM almost_inf _ _ HR'). }
  rewrite Es. destruct (negb (length y =? fst (ec_shape EC X))); [discriminate|].
  destruct (check_weights (fst (ec_shape EC X)) (option_map snd sw)) as [w|]; [|discriminate].
  match type of H with context [let '(a, b) := ?m in _] => destruct m as [o2 [e2|]]; [discriminate|] end.
  destruct (fo_dirichlet o2) as [d|]; [|discriminate]. destruct (fo_aggregation o2 && aisz d)%bool; [discriminate|].
  match goal with |- exists o1', ?r = _ /\ _ =>
    assert (G : exists enc enc', fo_encoder o1 = Some enc /\ ec_transform EC enc' X' = ec_transform EC enc X /\ r = ((w_encoder o1 (Some enc'), None), c))
  end.
  { destruct (fo_multiclass o2); injection H as H Hc; destruct (fit_end_same _ _ _ _ _ _ _ HR Hall H) as (enc & enc' & F1 & F2 & F3);
    exists enc, enc'; (split; [exact F1|]); (split; [exact F3|]); rewrite F2, Hc; reflexivity. }
  destruct G as (enc & enc' & G1 & G2 & G4). exists (w_encoder o1 (Some enc')). split; [exact G4|].
  pose proof (helper_same o1 X X' enc enc' G1 G2) as HH. split; [apply same_encoder|].
  assert (HP : forall small order, predict_proba small order (w_encoder o1 (Some enc')) X' = predict_proba small order o1 X).
  { intros small order. unfold predict_proba. rewrite HH. reflexivity. }
  split; [exact HP|]. split; [|split].
  - intros small order. unfold predict_class. rewrite HP. reflexivity.
  - unfold predict_proba_trees. rewrite HH. reflexivity.
  - unfold fapply. rewrite HH. reflexivity.
Qed.

Theorem C69_regressor : forall (o o1 : reg_forest A L EC) X X' y sw c, recoded_table r32 NM almost_inf X X' -> all_rows_used (fst (shape V NM (tb_X V NM X))) ->
  reg_fit ME o X y sw = ((o1, None), c) ->
  exists o1', reg_fit ME o X' y sw = ((o1', None), c) /\ same_forest o1 o1' /\
    (forall order, predict_reg order o1' X' = predict_reg order o1 X) /\
    fweighted_depth o1' X' = fweighted_depth o1 X /\
    fapply o1' X' = fapply o1 X.
Proof.
  intros o o1 X X' y sw c HR Hall H. unfold reg_fit in *.
  assert (Es : ec_shape EC X' = ec_shape EC X). { destruct HR as [HR' _]. apply (recoded_shape r32 NM almost_inf _ _ HR'). }
  rewrite Es. destruct (negb (length y =? fst (ec_shape EC X))); [discriminate|].
  destruct (check_weights (fst (ec_shape EC X)) (option_map snd sw)) as [w|]; [|discriminate].
  injection H as H Hc. destruct (fit_end_same _ _ _ _ _ _ _ HR Hall H) as (enc & enc' & F1 & F2 & F3).
  exists (w_encoder o1 (Some enc')). rewrite F2, Hc. split; auto. split; [apply same_encoder|].
  pose proof (helper_same o1 X X' enc enc' F1 F3) as HH. split; [|split].
  - intros order. unfold predict_reg. rewrite HH. reflexivity.
  - unfold fweighted_depth. rewrite HH. reflexivity.
  - unfold fapply. rewrite HH. reflexivity.
Qed.
End Tables.

Print Assumptions C69_bins.
Print Assumptions C69_encoder.
Print Assumptions C69_classifier.
Print Assumptions C69_regressor.
