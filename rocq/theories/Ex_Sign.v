(** * The theorems of T_Sign.v apply: forests in single precision *)

Require Import String Bool List Arith Lia NArith ZArith SpecFloat.
Require Import Verif.Base Verif.Num Verif.M_Bitarray Verif.P_Bitarray Verif.M_Utils Verif.M_Context Verif.M_Split Verif.M_Tree Verif.M_Grow Verif.M_Object Verif.M_Forest
  Verif.S_Fit Verif.S_Object Verif.S_Params Verif.S_Forest Verif.T_Params Verif.T_Bootstrap Verif.T_Forest Verif.T_GrowR Verif.T_Single Verif.T_Sign
  Verif.Ex_Data Verif.Ex_Valid Verif.Ex_Forest Verif.Ex_ForestQ Verif.P_Libm.
Import ListNotations.
Local Open Scope nat_scope.
Local Open Scope list_scope.

(** The tree of [C34_single_precision_refuted], asked for a prediction without aggregation. *)
Definition no_ln (x : spec_float) : spec_float := x.
Lemma single_runs : after (single_clf_fit no_ln no_ln)
  (fun g => predict_one (A := F32 no_ln no_ln) mix_vec (g_tree g) single_fb false (single no_ln no_ln 1) 1) (fun v => length v =? 2) = true.
Proof. vm_compute. reflexivity. Qed.

Lemma rounded32 : forall lnf expf K d crit st p fb y train valid weights s (R : res (_ * _)),
  good_env (single_env lnf expf) -> valid_fit p fb y train valid weights -> valid_labels K st (tp_is_categorical p) y ->
  (forall w, In w weights -> altb (a0 : num (F32 lnf expf)) w = true) -> altb (a0 : num (F32 lnf expf)) d = true ->
  tree_fit (clf_task (single_env lnf expf) K d crit st) p fb y train valid weights s = R ->
  forall tc g, R = Ok (tc, g) -> forall i step v, fba_wf fb -> i < fb_n_samples fb ->
  predict_one (A := F32 lnf expf) mix_vec (g_tree g) fb false step i = Ok v ->
  forall x, In x v -> SFltb x (S754_zero false) = false.
Proof.
  intros lnf expf K d crit st p fb y train valid w s R HE V HL HW Hd HR tc g Hg i step v Hwf Hi Hv x Hx. rewrite Hg in HR.
  exact (C34_rounded_tree 24 128 lnf expf (single_env lnf expf) K d crit st p fb y train valid w s tc g HE V HL HW Hd HR fb i step v Hwf Hi eq_refl Hv x Hx).
Qed.

Example C34_rounded_tree_applies : exists tc g v, single_clf_fit no_ln no_ln = Ok (tc, g) /\
  predict_one (A := F32 no_ln no_ln) mix_vec (g_tree g) single_fb false (single no_ln no_ln 1) 1 = Ok v /\ length v = 2 /\
  forall x, In x v -> SFltb x (S754_zero false) = false.
Proof.
  destruct (after_spec _ _ _ single_runs) as (tc & g & v & E1 & E2 & E3). apply Nat.eqb_eq in E3.
  exists tc, g, v. split; [exact E1|]. split; [exact E2|]. split; [exact E3|].
  apply (rounded32 no_ln no_ln 2 (ahalf : num (F32 no_ln no_ln)) Gini AllMods (single_params no_ln no_ln) single_fb single_classes single_train single_valid
    (single_clf_weights no_ln no_ln) 0 (single_clf_fit no_ln no_ln)) with (tc := tc) (g := g) (i := 1) (step := single no_ln no_ln 1).
  - apply single_env_good.
  - apply single_fit_valid; reflexivity.
  - constructor; [intros k Hk; simpl in Hk; lia|intros [H|[]]; discriminate].
  - intros w [<-|[<-|[<-|[<-|[]]]]]; reflexivity.
  - reflexivity.
  - unfold single_clf_fit. reflexivity.
  - exact E1.
  - apply (pk_layout _ (vf_packed _ _ _ _ _ _ (single_fit_valid no_ln no_ln single_classes (single_clf_weights no_ln no_ln) eq_refl eq_refl))).
  - apply Nat.ltb_lt. vm_compute. reflexivity.
  - exact E2.
Qed.

(** A one-versus-rest forest with balanced class weights. *)
Definition menv_F : menv env_F :=
  @mkMenv FA env_F lcg_randint (fun _ n => map N.of_nat (seq 1 n)) N.to_nat 1000
    (fun n => Z.of_nat (Nat.sqrt n)) (fun n => Z.of_nat (Nat.log2 n)) (fun _ _ => Ok 1%Z).
Lemma menv_F_good : good_menv (fun _ => False) menv_F.
Proof.
  constructor; cbn.
  - apply lcg_in_range.
  - intros. rewrite map_length, seq_length. reflexivity.
  - intros n Hn. pose proof (Nat.sqrt_le_lin n). pose proof (Nat.log2_le_lin n). constructor; cbn; try (intros; contradiction); try lia.
Qed.
Lemma env_F_good : good_env env_F.
Proof. constructor; [|reflexivity]. intros s n H. cbn [draw env_F fst]. apply Nat.mod_upper_bound. lia. Qed.

Definition exF : clf_forest FA nat ex_encoding :=
  @mkF FA nat binned ex_encoding _ _ false 2 (f32 1) false None 2 1 256 MFAuto 1 (Some (Some 7%Z)) false "gini" "log" (Some (f32 1)) true Ovr BinaryMod [] [] None None 0.
Definition smallF (x : num FA) : bool := SFleb x (S754_zero false).

Lemma exF_runs : let r := clf_fit Nat.leb menv_F exF X2 ex_names None in
  (match snd (fst r) with None => true | Some _ => false end &&
   match fo_encoder (fst (fst r)) with Some _ => true | None => false end &&
   match predict_proba smallF (seq 0 6) (fst (fst r)) X2 with Ok rows => (length rows =? 8) && forallb (fun row => length row =? 3) rows | Err _ => false end)%bool = true.
Proof. vm_compute. reflexivity. Qed.
Lemma exF_legal : legal (fun _ => False) exF.
Proof. constructor; cbn; auto; lia. Qed.
Lemma exF_enough : enough_classes Nat.leb exF X2 ex_names.
Proof. intros enc _ _ _. vm_compute. lia. Qed.

Example C34_rounded_forest_applies : exists o1 c rows, clf_fit Nat.leb menv_F exF X2 ex_names None = ((o1, None), c) /\
  predict_proba smallF (seq 0 6) o1 X2 = Ok rows /\ length rows = 8 /\ (forall row, In row rows -> length row = 3) /\
  forall row x, In row rows -> In x row -> SFltb x (S754_zero false) = false.
Proof.
  pose proof exF_runs as H. cbv zeta in H.
  destruct (clf_fit Nat.leb menv_F exF X2 ex_names None) as [[o1 e] c] eqn:Hf. cbn [fst snd] in H.
  destruct e; [discriminate H|]. cbn [andb] in H.
  destruct (fo_encoder o1) as [enc|] eqn:He; [|discriminate H]. cbn [andb] in H.
  destruct (predict_proba smallF (seq 0 6) o1 X2) as [rows|] eqn:Hp; [|discriminate H].
  apply andb_true_iff in H. destruct H as [H1 H2]. apply Nat.eqb_eq in H1. rewrite forallb_forall in H2.
  exists o1, c, rows. split; [reflexivity|]. split; [exact Hp|]. split; [exact H1|]. split; [intros row Hr; apply Nat.eqb_eq; auto|].
  assert (Ht : exists fb', ec_transform ex_encoding enc X2 = Ok fb').
  { destruct (ec_transform ex_encoding enc X2) as [fb'|e] eqn:E; [exists fb'; reflexivity|].
    exfalso. unfold predict_proba, predict_helper in Hp. rewrite He, E in Hp. discriminate Hp. }
  destruct Ht as (fb' & Ht).
  exact (C34_rounded_forest (prec := 24) (emax := 128) menv_F (fun _ => False) menv_F_good env_F_good ex_encoding_good Nat.leb nat_order exF o1 X2 ex_names None c
    exF_legal exF_enough eq_refl I (fun d Hd => match Hd in _ = s return match s with Some z => altb a0 z = true | None => True end with eq_refl => eq_refl end) Hf
    X2 enc fb' He Ht smallF (seq 0 6) rows Hp).
Qed.
