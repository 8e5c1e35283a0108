(** * C71: examples, and a change of unit that changes a tree *)

Require Import String Bool List Arith Lia NArith ZArith Reals Lra QArith Permutation.
Require Import Verif.Base Verif.Num Verif.M_Bitarray Verif.P_Bitarray Verif.M_Utils Verif.M_Context Verif.M_Split
  Verif.M_Tree Verif.M_Grow Verif.M_Object Verif.M_Forest Verif.S_Fit Verif.S_Split Verif.S_Object Verif.S_Params Verif.S_Forest
  Verif.T_Setters Verif.T_Bootstrap Verif.T_Params Verif.P_Forest Verif.T_Forest Verif.T_ForestR Verif.Ex_Data Verif.Ex_Valid Verif.Ex_R
  Verif.Ex_Forest Verif.Ex_ForestQ Verif.S_Units Verif.T_Affine.
Import ListNotations.
Local Open Scope list_scope.
Local Open Scope nat_scope.

(** ** The sort of the examples only compares *)
Lemma env_R_sort : comparison_sort env_R.
Proof.
  intros l l' Hlen HC. change (argsort_R l = argsort_R l'). unfold argsort_R. rewrite <- Hlen.
  set (Q := fun x x' : R * nat => snd x' = snd x /\ fst x = nth (snd x) l 0%R /\ fst x' = nth (snd x) l' 0%R /\ snd x < length l).
  assert (HI : forall x x' t t', Q x x' -> Forall2 Q t t' -> Forall2 Q (insert_posR x t) (insert_posR x' t')).
  { intros x x' t t' Hx Ht. induction Ht as [|y y' t t' Hy Ht IH]; cbn [insert_posR]; [repeat constructor; apply Hx|].
    assert (HR : (fst x <= fst y)%R <-> (fst x' <= fst y')%R).
    { destruct Hx as (_ & X2 & X3 & X4), Hy as (_ & Y2 & Y3 & Y4). rewrite X2, X3, Y2, Y3. pose proof (HC (snd y) (snd x) Y4 X4) as HCxy.
      split; intros Hle; apply Rnot_lt_le; intros Hlt; apply HCxy in Hlt; lra. }
    destruct (Rle_dec (fst x) (fst y)), (Rle_dec (fst x') (fst y')); try (exfalso; tauto); repeat (constructor; auto). }
  assert (HF : Forall2 Q (combine l (seq 0 (length l))) (combine l' (seq 0 (length l)))).
  { assert (G : forall (m m' pre pre' : list R), l = pre ++ m -> l' = pre' ++ m' -> length pre = length pre' -> length m = length m' ->
       Forall2 Q (combine m (seq (length pre) (length m))) (combine m' (seq (length pre) (length m)))).
    { induction m as [|v m IH]; intros [|v' m'] pre pre' E1 E2 E3 E4; try discriminate; cbn [length seq combine]; constructor.
      - split; [reflexivity|]. cbn [fst snd]. rewrite E1, E2. rewrite app_nth2, Nat.sub_diag by lia. rewrite app_nth2 by lia. rewrite <- E3, Nat.sub_diag.
        split; [reflexivity|]. split; [reflexivity|]. rewrite app_length. cbn. lia.
      - specialize (IH m' (pre ++ [v]) (pre' ++ [v'])). rewrite !app_length in IH. cbn [length] in IH. rewrite Nat.add_1_r in IH. apply IH.
        + rewrite <- app_assoc. exact E1.
        + rewrite <- app_assoc. exact E2.
        + lia.
        + cbn in E4. lia. }
    apply (G l l' [] []); auto. }
  assert (HS : Forall2 Q (fold_right insert_posR [] (combine l (seq 0 (length l)))) (fold_right insert_posR [] (combine l' (seq 0 (length l))))).
  { induction HF; cbn [fold_right]; [constructor|]. apply HI; auto. }
  induction HS as [|x x' t t' Hx HS IH]; [reflexivity|]. cbn [map]. destruct Hx as (-> & _). rewrite IH. reflexivity.
Qed.

(** ** Data without categorical columns *)
Definition plain_encoding : encoding binned := {|
  ec_enc := nat;
  ec_shape := fun X => (fb_n_samples (bd_fb X), fb_n_features (bd_fb X));
  ec_fit := fun _ X => Ok (fb_n_features (bd_fb X));
  ec_cats := fun n => repeat false n;
  ec_transform := fun n X => if fb_n_features (bd_fb X) =? n then Ok (bd_fb X) else Err ValueErr
|}.
Lemma plain_encoding_good : good_encoding plain_encoding.
Proof.
  constructor; cbn.
  - intros mb X enc H. inversion H. rewrite repeat_length. reflexivity.
  - intros mb X enc H. apply bd_columns.
  - intros mb X enc X' fb H1 H2. inversion H1; subst enc. destruct (Nat.eqb_spec (fb_n_features (bd_fb X')) (fb_n_features (bd_fb X))); inversion H2; subst fb.
    split; [apply bd_packed|]. split; [apply bd_allocated|]. auto.
Qed.
Definition plain_reg (step : R) : reg_forest R_arith nat plain_encoding :=
  mkF false 2 step true None 2 1 256 MFAuto 1 (Some (Some 7%Z)) false "mse" "mse" None false Multinomial BinaryMod [] [] None None 0.
Lemma plain_legal : forall s, legal (fun _ => True) (plain_reg s).
Proof. constructor; cbn; auto; try lia. Qed.
Lemma plain_facts : forall X : binned, bd_fb X = ex_fb ->
  ec_transform plain_encoding 2 X = Ok ex_fb /\ ec_shape plain_encoding X = (8, 2) /\ (forall mb, ec_fit plain_encoding mb X = Ok 2).
Proof. intros X HX. cbn. rewrite HX. vm_compute. auto. Qed.

Lemma plain_fits : forall X s y sw, bd_fb X = ex_fb -> length y = 8 -> sw = ex_weights true -> exists o1 c, reg_fit ex_menv (plain_reg s) X y sw = ((o1, None), c).
Proof.
  intros X s y sw HX Hy Hsw. destruct (plain_facts X HX) as (Et & Es & Ef).
  destruct (C48_forest_regressor ex_menv (fun _ => True) ex_menv_good env_R_good plain_encoding_good (plain_reg s) X y
     sw (Some 7%Z) 1%Z 2 ex_fb) as (o1 & e & c & H1 & H2).
  - apply plain_legal.
  - rewrite Es. exact Hy.
  - rewrite Hsw. apply ex_weights_positive.
  - intros b' l E. rewrite Hsw in E. inversion E. rewrite Hy. reflexivity.
  - reflexivity.
  - rewrite Es. reflexivity.
  - apply Ef.
  - exact Et.
  - exists o1, c. destruct H2 as [->|(-> & seed & Hin & Hall)]; [exact H1|]. exfalso.
    apply (Hall 0); [cbn [me_limit ex_menv]; lia|]. change (num R_arith) with R in *. rewrite Hy. apply ex_leaves. destruct Hin as [<-|[<-|[]]]; [left|right; left]; reflexivity.
Qed.

(** Celsius and Fahrenheit, two trees with aggregation. *)
Example C71_regressor_applies : forall X, bd_fb X = ex_fb -> exists o1 o2 w P,
  reg_fit ex_menv (plain_reg 1) X ex_targets (ex_weights true) = ((o1, None), w) /\
  reg_fit ex_menv (plain_reg (25 / 81)) X (map (fun v => 9 / 5 * v + 32)%R ex_targets) (ex_weights true) = ((o2, None), w) /\
  predict_reg [1; 0] o1 X = Ok P /\ length P = 8 /\ (forall v, In v P -> (-2 <= v <= 5)%R) /\
  predict_reg [1; 0] o2 X = Ok (map (fun v => 9 / 5 * v + 32)%R P).
Proof.
  intros X HX. destruct (plain_facts X HX) as (Et & Es & Ef).
  destruct (plain_fits X 1 ex_targets (ex_weights true) HX eq_refl eq_refl) as (o1 & w & H).
  destruct (plain_fits X (25 / 81) (map (fun v => 9 / 5 * v + 32)%R ex_targets) (ex_weights true) HX eq_refl eq_refl) as (o2 & w' & H').
  assert (Ha : (0 < 9 / 5)%R) by lra.
  destruct (C71_regressor ex_menv (fun _ => True) ex_menv_good env_R_good plain_encoding_good (9 / 5)%R 32%R Ha (plain_reg 1) o1 o2 (25 / 81)%R X ex_targets (ex_weights true) None None w w' (plain_legal 1)) as (_ & Ew & HP); auto.
  - intros _. cbn. lra.
  - intros enc He Hin. exfalso. cbn in Hin. apply repeat_spec in Hin. discriminate.
  - subst w'.
    assert (Henc : fo_encoder o1 = Some 2 /\ n_trees o1 = 2).
    { destruct (reg_fit_trees ex_menv (fun _ => True) ex_menv_good plain_encoding_good (plain_reg 1) o1 X ex_targets (ex_weights true) w (plain_legal 1) H)
        as (wt & mf & rs & enc' & fb' & ts' & G1 & _ & _ & G4 & G5 & _ & _ & _ & G9). cbv zeta in G9.
      assert (E2 : enc' = 2). { pose proof (eq_trans (eq_sym G5) (Ef (fo_max_bins (plain_reg 1)))) as Q0. injection Q0 as ->. reflexivity. }
      subst enc' o1. apply Forall2_len in G9. rewrite combine_length, seq_length, Nat.min_id in G9. split; [reflexivity|exact (eq_sym G9)]. }
    destruct Henc as [F1 F2].
    destruct (C35_forest ex_menv (fun _ => True) ex_menv_good env_R_good plain_encoding_good (plain_reg 1) o1 X ex_targets (ex_weights true) w (-2)%R 5%R (plain_legal 1) (ex_weights_positive true))
      with (X' := X) (enc := 2) (fb' := ex_fb) (order := [1; 0]) as (P & P1 & P2 & P3); auto.
    { intros v Hv. cbn in Hv. repeat (destruct Hv as [<-|Hv]; [lra|]). destruct Hv. }
    { rewrite F2. cbn. constructor. }
    exists o1, o2, w, P. split; [exact H|]. split; [exact H'|]. split; [exact P1|]. rewrite Es in P2. split; [exact P2|]. split; [exact P3|].
    destruct (HP eq_refl) as (K & _). rewrite (K X [1; 0]) by (rewrite F2; cbn; constructor). rewrite P1. reflexivity.
Qed.

Example C71_shift_applies : forall X, bd_fb X = ex_fb -> exists o1 o2 w,
  reg_fit ex_menv (plain_reg 1) X ex_targets (ex_weights true) = ((o1, None), w) /\
  reg_fit ex_menv (plain_reg 1) X (map (fun v => v + -7)%R ex_targets) (ex_weights true) = ((o2, None), w) /\
  (forall X', fapply o2 X' = fapply o1 X') /\ (forall X', fweighted_depth o2 X' = fweighted_depth o1 X').
Proof.
  intros X HX.
  destruct (plain_fits X 1 ex_targets (ex_weights true) HX eq_refl eq_refl) as (o1 & w & H).
  destruct (plain_fits X 1 (map (fun v => v + -7)%R ex_targets) (ex_weights true) HX eq_refl eq_refl) as (o2 & w' & H').
  destruct (C71_shift ex_menv (fun _ => True) ex_menv_good env_R_good plain_encoding_good (plain_reg 1) o1 o2 X ex_targets (-7)%R (ex_weights true) None None w w' (plain_legal 1)) as (_ & Ew & HP); auto.
  - intros enc He Hin. cbn in Hin. apply repeat_spec in Hin. discriminate.
  - subst w'. exists o1, o2, w. destruct (HP eq_refl) as (_ & K2 & K3). auto.
Qed.

(** A categorical column, the labels multiplied by 2. *)
Example C71_scale_applies : forall X, bd_fb X = ex_fb -> exists o1 o2 w,
  In true (ec_cats ex_encoding 2) /\ ec_fit ex_encoding 256 X = Ok 2 /\
  reg_fit ex_menv ex_forest_reg X ex_targets (ex_weights true) = ((o1, None), w) /\
  reg_fit ex_menv (w_step ex_forest_reg (1 / 4)%R) X (map (new_unit 2 0) ex_targets) (ex_weights true) = ((o2, None), w) /\
  predict_reg [1; 0] o2 X = in_new_unit 2 0 (predict_reg [1; 0] o1 X).
Proof.
  intros X HX. destruct (ex_X_facts X HX) as (Et & Es & Ef). destruct (ex_reg_fits X true (ex_weights true) HX (or_intror eq_refl)) as (o1 & w & H).
  destruct (reg_fit ex_menv (w_step ex_forest_reg (1 / 4)%R) X (map (new_unit 2 0) ex_targets) (ex_weights true)) as [[o2 e'] w'] eqn:H'.
  assert (Ha : (0 < 2)%R) by lra.
  destruct (C71_regressor ex_menv (fun _ => True) ex_menv_good env_R_good ex_encoding_good 2%R 0%R Ha ex_forest_reg o1 o2 (1 / 4)%R X ex_targets (ex_weights true) None e' w w' ex_legal_reg) as (-> & -> & HP); auto.
  { intros _. cbn. lra. }
  { intros enc He Hin. split; [reflexivity|apply env_R_sort]. }
  exists o1, o2, w. split; [vm_compute; auto|]. split; [apply Ef|]. split; [exact H|]. split; [reflexivity|].
  destruct (HP eq_refl) as (K & _). apply K.
  destruct (reg_fit_trees ex_menv (fun _ => True) ex_menv_good ex_encoding_good ex_forest_reg o1 X ex_targets (ex_weights true) w ex_legal_reg H)
    as (wt & mf & rs & enc & fb & ts & H1 & _ & _ & _ & He & _ & _ & _ & HT).
  assert (E2 : enc = 2). { pose proof (eq_trans (eq_sym He) (Ef (fo_max_bins ex_forest_reg))) as Q0. injection Q0 as ->. reflexivity. }
  subst enc. apply Forall2_len in HT. rewrite combine_length, seq_length, Nat.min_id in HT.
  assert (Hn : n_trees o1 = 2) by (subst o1; exact (eq_sym HT)). rewrite Hn. cbn. constructor.
Qed.

(** ** Refuted: adding a constant when a column is categorical.  The bins of a categorical column
    are ordered by the sum of their labels, wildwood/_split.py:888, not by their average. *)
Definition unitsQ : reg_forest QA nat ex_encoding :=
  @mkF QA nat binned ex_encoding _ _ false 1 1%Q false (Some 1%Z) 2 1 256 (MFInt 2) 1 (Some (Some 7%Z)) false "mse" "mse" None false Multinomial BinaryMod [] [] None None 0.
Definition y1 : list (num QA) := [0; 0; -(5); 0; 0; -(5); 0; 0]%Q.
Definition y2 : list (num QA) := map (fun v => v + -(10))%Q y1.
Lemma unitsQ_legal : legal (fun _ => True) unitsQ.
Proof. constructor; cbn; auto; try lia. Qed.

Lemma units_runs :
  let r1 := reg_fit menv_Q unitsQ X2 y1 None in let r2 := reg_fit menv_Q unitsQ X2 y2 None in
  (match snd (fst r1), snd (fst r2) with None, None => true | _, _ => false end &&
   match predict_reg [0] (fst (fst r1)) X2, predict_reg [0] (fst (fst r2)) X2 with
   | Ok (p :: _), Ok (q :: _) => (Qeq_bool p 0 && Qeq_bool q (-(25) # 2))%Q | _, _ => false end)%bool = true.
Proof. vm_compute. reflexivity. Qed.

Theorem C71_categorical_refuted : exists (o1 o2 : reg_forest QA nat ex_encoding) w w' p P q P',
  legal (fun _ => True) unitsQ /\
  reg_fit menv_Q unitsQ X2 y1 None = ((o1, None), w) /\
  reg_fit menv_Q unitsQ X2 (map (fun v => v + -(10))%Q y1) None = ((o2, None), w') /\
  predict_reg [0] o1 X2 = Ok (p :: P) /\ predict_reg [0] o2 X2 = Ok (q :: P') /\
  (p == 0)%Q /\ (q == -(25) # 2)%Q /\ ~ (q == p + -(10))%Q.
Proof.
  pose proof units_runs as H. cbv zeta in H. change (map (fun v => v + -(10))%Q y1) with y2.
  destruct (reg_fit menv_Q unitsQ X2 y1 None) as [[o1 e] w], (reg_fit menv_Q unitsQ X2 y2 None) as [[o2 e'] w']. cbn [fst snd] in H.
  destruct e, e'; try discriminate H. cbn [andb] in H.
  destruct (predict_reg [0] o1 X2) as [[|p P]|] eqn:E1; try discriminate H. destruct (predict_reg [0] o2 X2) as [[|q P']|] eqn:E2; try discriminate H.
  apply andb_true_iff in H. destruct H as [H1 H2]. apply Qeq_bool_iff in H1, H2.
  exists o1, o2, w, w', p, P, q, P'. repeat (split; [auto using unitsQ_legal|]). intros Q. rewrite H1, H2 in Q. discriminate Q.
Qed.
Print Assumptions C71_categorical_refuted.
