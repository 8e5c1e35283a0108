(** * Labels that are not negative, with rounding errors: regressors without aggregation

    The counterpart of T_Sign.v for C35. T_Single.v and T_Round.v show that a regressor can
    leave the range of its labels because of rounding. One bound survives without
    aggregation: if no label is negative, no prediction is, in any binary floating-point
    format. *)

Require Import String Bool List Arith Lia NArith ZArith SpecFloat Permutation.
Require Import Verif.Base Verif.Num Verif.M_Bitarray Verif.P_Bitarray Verif.M_Utils Verif.M_Impurity Verif.M_Context Verif.M_Node Verif.M_Split
  Verif.M_Tree Verif.M_Grow Verif.M_Object Verif.M_Forest Verif.S_Fit Verif.S_Tree Verif.S_Split Verif.S_Object Verif.S_Node Verif.S_Params Verif.S_Forest
  Verif.P_List Verif.P_Task Verif.P_Node Verif.P_Grow Verif.P_Fit Verif.P_FitTree Verif.P_Nodes Verif.P_Route Verif.P_Stack Verif.P_Tree Verif.P_Repr
  Verif.T_Prune Verif.T_Setters Verif.T_Params Verif.T_Bootstrap Verif.P_Forest Verif.T_Forest Verif.T_GrowR Verif.T_Sign
  Verif.Ex_Data Verif.Ex_Valid Verif.Ex_Forest Verif.Ex_ForestQ Verif.Ex_Sign.
Import ListNotations.
Local Open Scope list_scope.
Local Open Scope nat_scope.

Section Closed.
Context {A : arith} (nn : num A -> Prop) (C : closed nn).
Notation T := (num A).

Lemma label_nn : forall (w y : list T) l, (forall x, In x w -> nn x) -> (forall x, In x y -> nn x) -> nn (label_sum w y l).
Proof.
  intros w y l Hw Hy. unfold label_sum. apply (asum_nn nn C). intros x Hx. apply in_map_iff in Hx. destruct Hx as (i & <- & _).
  apply (cl_mul _ C); [apply (weight_nn nn C); exact Hw|apply (weight_nn nn C y i Hy)].
Qed.

Lemma reg_nn : forall (E : env A) p fb y train valid w s tc g,
  good_env E -> valid_fit p fb y train valid w -> (forall x, In x w -> nn x) -> (forall x, In x y -> nn x) ->
  tree_fit (reg_task E) p fb y train valid w s = Ok (tc, g) ->
  forall fb' i step mix v, fba_wf fb' -> i < fb_n_samples fb' -> fb_n_features fb' = fb_n_features fb ->
  predict_one mix (g_tree g) fb' false step i = Ok v -> nn v.
Proof.
  intros E p fb y train valid w s tc g HE V HW HY Hfit fb' i step mix v Hwf Hi Hnf Hv.
  destruct (reg_inv p fb y train valid w s tc g HE V Hfit) as (b0 & _ & CC & Htr & Hva & F).
  rewrite <- (cc_fb _ _ _ _ _ _ CC) in Hnf. unfold predict_one in Hv.
  rewrite (find_leaf_fitted (reg_shape E) tc train valid s g b0 F fb' i Hwf Hi Hnf) in Hv. cbn [bind] in Hv.
  set (leaf := bleaf _ b0 root_place) in *.
  assert (HI : inside b0 root_place (fst leaf) (snd leaf)) by apply bleaf_inside.
  pose proof (inside_node (reg_shape E) tc train valid s g b0 F _ _ HI) as Hn.
  destruct (C17_tree_regression p fb y train valid w s tc g HE V Hfit _ _ Hn) as (f & u & _ & _ & _ & _ & _ & N2 & Hu & _).
  unfold get in Hv. change (num A) with (tk_P (reg_task E)) in Hv. rewrite N2 in Hv. cbn [bind] in Hv. inversion Hv; subst v; clear Hv.
  rewrite Hu. apply (cl_div _ C); [apply label_nn; auto|apply (total_nn nn C); exact HW].
Qed.

Lemma obj_reg_nn : forall (E : env A) p fb y train valid w s obj,
  good_env E -> valid_fit p fb y train valid w -> (forall x, In x w -> nn x) -> (forall x, In x y -> nn x) -> tp_aggregation p = false ->
  obj_fit (reg_task E) a0 p fb y train valid w s = Ok obj ->
  forall fb' pt, fba_wf fb' -> fb_n_features fb' = fb_n_features fb ->
  obj_predict mix_num obj fb' = Ok pt -> forall x, In x pt -> nn x.
Proof.
  intros E p fb y train valid w s obj HE V HW HY Ha H fb' pt Hwf Hnf Hp x Hx.
  unfold obj_fit in H. apply bind_ok in H. destruct H as ([tc g] & Hfit & H). inversion H; subst obj; clear H.
  unfold obj_predict in Hp. cbn [ob_tree ob_aggregation ob_step] in Hp. unfold tree_predict in Hp. rewrite Ha in Hp.
  apply mapM_Forall2 in Hp.
  assert (HI : exists i, In i (seq 0 (fb_n_samples fb')) /\ predict_one mix_num (g_tree g) fb' false (tp_step p) i = Ok x).
  { clear - Hp Hx. induction Hp as [|i r l rs H1 H2 IH]; [destruct Hx|]. destruct Hx as [<-|Hx].
    - exists i. split; [simpl; auto|exact H1].
    - destruct (IH Hx) as (j & J1 & J2). exists j. split; [simpl; auto|exact J2]. }
  destruct HI as (i & Hi & Hone). apply in_seq in Hi.
  eapply (reg_nn E p fb y train valid w s tc g); eauto. lia.
Qed.

Lemma accumulate_reg_nn : forall (ts : list (tobj A T T)) fb order out,
  (forall t preds, In t ts -> obj_predict mix_num t fb = Ok preds -> forall x, In x preds -> nn x) ->
  accumulate (fun q p => Ok (aadd q p)) ts mix_num fb order a0 = Ok out -> forall x, In x out -> nn x.
Proof.
  intros ts fb order out HT. unfold accumulate.
  assert (H0 : forall x, In x (repeat (@a0 A) (fb_n_samples fb)) -> nn x).
  { intros x Hx. apply repeat_spec in Hx. subst x. apply (cl_0 _ C). }
  revert H0. generalize (repeat (@a0 A) (fb_n_samples fb)) as out0.
  induction order as [|t order IH]; intros out0 H0 E; cbn [foldM] in E; [inversion E; subst; exact H0|].
  apply bind_ok in E. destruct E as (out1 & E1 & E2). apply (IH out1); [|exact E2].
  apply bind_ok in E1. destruct E1 as (tr & Et & E1). apply bind_ok in E1. destruct E1 as (preds & Ep & E1).
  destruct (negb _); [discriminate|].
  assert (HP : forall x, In x preds -> nn x).
  { eapply HT; [|exact Ep]. unfold get in Et. destruct (nth_error ts t) eqn:En; inversion Et; subst. eapply nth_error_In; eauto. }
  clear - E1 H0 HP C. revert preds out1 HP E1. induction out0 as [|q out0 IH]; intros [|p preds] out1 HP E; cbn [combine mapM] in E; try (inversion E; subst; intros x []; fail).
  cbn [bind] in E. apply bind_ok in E. destruct E as (zs & Ezs & E). inversion E; subst. intros x [<-|Hx].
  - apply (cl_add _ C); [apply H0|apply HP]; simpl; auto.
  - eapply (IH (fun z Hz => H0 z (or_intror Hz)) preds zs); [|exact Ezs|exact Hx]. intros; apply HP; simpl; auto.
Qed.
End Closed.

Section Forests.
Context {prec emax : Z} {lnf expf : spec_float -> spec_float}.
Let A : arith := spec_arith prec emax lnf expf.
Context {E : env A} {L D : Type} {EC : encoding D} (ME : menv E) (float : num A -> Prop).
Context (GM : good_menv float ME) (GE : good_env E) (GK : good_encoding EC).

(** A regressor fitted with [aggregation=False] on labels that are zero or positive, with
    positive sample weights or none; any data set, any order of the threads. *)
Theorem C35_rounded_forest : forall (o o1 : reg_forest A L EC) X y sw c,
  legal float o -> fo_aggregation o = false ->
  match sw with None => True | Some (_, w) => forall x, In x w -> altb a0 x = true end ->
  (forall v, In v y -> v = a0 \/ altb a0 v = true) ->
  reg_fit ME o X y sw = ((o1, None), c) ->
  forall X' enc fb', fo_encoder o1 = Some enc -> ec_transform EC enc X' = Ok fb' ->
  forall order values, predict_reg order o1 X' = Ok values ->
  forall v, In v values -> SFltb v (S754_zero false) = false.
Proof.
  intros o o1 X y sw c HL Hagg HW HY H X' enc0 fb' Henc Ht' order values Hv v Hin.
  apply unsigned_not_negative. pose proof (unsigned_closed prec emax lnf expf) as C. fold A in C.
  assert (HY' : forall z, In z y -> unsigned z).
  { intros z Hz. destruct (HY z Hz) as [->|Hp]; [exact (cl_0 _ C)|exact (positive_unsigned prec emax lnf expf z Hp)]. }
  destruct (reg_fit_trees ME float GM GK o o1 X y sw c HL H) as (w & mf & rs & enc & fb & ts & H1 & Hy & Hw & Hrs & He & Ht & PK & AL & HT).
  cbv zeta in *.
  subst o1. cbn [fo_encoder fitted_as w_fitted w_trees w_encoder] in Henc. injection Henc as <-.
  destruct (gk_packed _ GK _ _ _ _ _ He Ht') as (K1 & K2 & K3 & K4). destruct (gk_packed _ GK _ _ _ _ _ He Ht) as (_ & _ & K5 & K6).
  assert (HTS : forall t preds, In t ts -> obj_predict (A := A) mix_num t fb' = Ok preds -> forall x : num A, In x preds -> unsigned x).
  { assert (HF : Forall (fun t => forall preds, obj_predict (A := A) mix_num t fb' = Ok preds -> forall x : num A, In x preds -> unsigned x) ts).
    { apply (Forall2_same _ _ _ HT). intros z obj _ (train & valid & counts & w' & B1 & B2 & B3 & V & Hne) pt Hpt.
      eapply (obj_reg_nn (A := A) unsigned C E); [exact GE|exact V| |exact HY'| |exact B3| | |exact Hpt].
      - eapply (boot_nn (A := A) unsigned C); [|exact B2]. eapply (check_nn (A := A) unsigned C); [exact Hw|].
        destruct sw as [[b l]|]; [|exact I]. intros u Hu. apply (positive_unsigned prec emax lnf expf). apply HW. exact Hu.
      - exact Hagg.
      - apply (pk_layout _ K1).
      - congruence. }
    rewrite Forall_forall in HF. intros t preds Hin' Hp. apply (HF t Hin' preds Hp). }
  unfold predict_reg in Hv. rewrite fitted_as_helper, Ht' in Hv. cbn [bind] in Hv.
  apply bind_ok in Hv. destruct Hv as (out & Eo & Hv). inversion Hv; subst values; clear Hv.
  pose proof (accumulate_reg_nn (A := A) unsigned C ts fb' order out HTS Eo) as HO.
  apply in_map_iff in Hin. destruct Hin as (z & <- & Hz). apply (cl_div _ C); [apply HO; exact Hz|apply (cl_nat _ C)].
Qed.
End Forests.
Print Assumptions C35_rounded_forest.

(** A regressor in single precision: two trees, the labels are tenths. *)
Definition exF_reg : reg_forest FA nat ex_encoding :=
  @mkF FA nat binned ex_encoding _ _ false 2 (f32 1) false None 2 1 256 MFAuto 1 (Some (Some 7%Z)) false "mse" "mse" None false Multinomial BinaryMod [] [] None None 0.
Definition exF_labels : list (num FA) := map (fun z => adiv (f32 z) (f32 10)) [0; 1; 2; 3; 5; 7; 11; 13]%Z.
Lemma exF_reg_runs : let r := reg_fit menv_F exF_reg X2 exF_labels None in
  (match snd (fst r) with None => true | Some _ => false end &&
   match fo_encoder (fst (fst r)) with Some _ => true | None => false end &&
   match predict_reg [1; 0] (fst (fst r)) X2 with Ok values => (length values =? 8) && negb (SFeqb (nth 0 values S754_nan) (nth 7 values S754_nan)) | Err _ => false end)%bool = true.
Proof. vm_compute. reflexivity. Qed.
Lemma exF_reg_legal : legal (fun _ => False) exF_reg.
Proof. constructor; cbn; auto; lia. Qed.

Example C35_rounded_forest_applies : exists o1 c values, reg_fit menv_F exF_reg X2 exF_labels None = ((o1, None), c) /\
  predict_reg [1; 0] o1 X2 = Ok values /\ length values = 8 /\ forall v, In v values -> SFltb v (S754_zero false) = false.
Proof.
  pose proof exF_reg_runs as H. cbv zeta in H.
  destruct (reg_fit menv_F exF_reg X2 exF_labels None) as [[o1 e] c] eqn:Hf. cbn [fst snd] in H.
  destruct e; [discriminate H|]. cbn [andb] in H.
  destruct (fo_encoder o1) as [enc|] eqn:He; [|discriminate H]. cbn [andb] in H.
  destruct (predict_reg [1; 0] o1 X2) as [values|] eqn:Hp; [|discriminate H].
  apply andb_true_iff in H. destruct H as [H1 _]. apply Nat.eqb_eq in H1.
  exists o1, c, values. split; [reflexivity|]. split; [exact Hp|]. split; [exact H1|].
  assert (Ht : exists fb', ec_transform ex_encoding enc X2 = Ok fb').
  { destruct (ec_transform ex_encoding enc X2) as [fb'|e] eqn:Et; [exists fb'; reflexivity|].
    exfalso. unfold predict_reg, predict_helper in Hp. rewrite He, Et in Hp. discriminate Hp. }
  destruct Ht as (fb' & Ht).
  assert (HY : forall v, In v exF_labels -> v = a0 \/ altb a0 v = true).
  { intros v Hv. cbn [exF_labels map In] in Hv. destruct Hv as [<-|Hv]; [left; reflexivity|right].
    repeat (destruct Hv as [<-|Hv]; [reflexivity|]). destruct Hv. }
  exact (C35_rounded_forest (prec := 24) (emax := 128) menv_F (fun _ => False) menv_F_good env_F_good ex_encoding_good exF_reg o1 X2 exF_labels None c
    exF_reg_legal eq_refl I HY Hf X2 enc fb' He Ht [1; 0] values Hp).
Qed.
