(** * C34 and C35 fail in single precision

    C34 (predicted probabilities are probabilities) and C35 (a regressor predicts within
    the range of the training labels) are proved in exact arithmetic. The code computes in
    single precision: log_weight_tree is rounded to a multiple of its unit in the last
    place, which is 2^-11 once the loss of a node exceeds 4096, so the weight
    [alpha = 0.5 * exp(loss - log_weight_tree)] of a node can exceed 1 by 2 in 10000 and the
    weight [1 - alpha] of its subtree is negative. With a correctly rounded C library, four
    rows are enough: a classifier predicts a negative probability and a regressor trained
    on labels between 0 and 1 predicts a negative value.

    Every operation below is rounded to single precision. In the compiled code some
    intermediate results are doubles ([1 + exp(b - a)], [0.5 * exp(...)], [1 - alpha]); the
    values stored in log_weight_tree and alpha are single precision in both cases.
    [log_sum_2_exp] is compiled with fastmath; no reordering is modelled. *)

Require Import List Arith Lia NArith Bool Reals SpecFloat ZArith FunctionalExtensionality.
From Flocq Require Import Core BinarySingleNaN.
Require Import Verif.Base Verif.Num Verif.M_Bitarray Verif.P_Bitarray Verif.M_Utils Verif.M_Impurity
  Verif.M_Context Verif.M_Node Verif.M_Split Verif.M_Tree Verif.M_Grow Verif.S_Fit Verif.P_Fit Verif.P_Libm.
Import ListNotations.
Local Open Scope nat_scope.
Local Open Scope list_scope.

(** ** The data: four rows, two to train on and two to validate on *)

Section Data.
Context (lnf expf : spec_float -> spec_float).
Let A : arith := F32 lnf expf.

Definition single (z : Z) : num (F32 lnf expf) := sf_ofZ 24 128 z.
Definition single_env : env A := @mkEnv A nat (fun s n => (Nat.modulo (s * 7 + 3) n, S s)) (fun l => seq 0 (length l)) (fun i => i).
Definition single_X : list (list N) := [[0]; [1]; [0]; [1]]%N.
Definition single_fb : fba := match array_to_bitarray (fun _ => 0%N) 1 single_X with Ok fb => fb | Err _ => mkFba 0 0 [] [] [] [] [] [] end.
(** [max_features = 1], [min_samples_split = 2], [min_samples_leaf = 1], [aggregation = True], [step = 1]. *)
Definition single_params : @tree_params A := @mkTP A 1 2 1 100%N true (single 1) [false].
Definition single_train : list nat := [0; 1].
Definition single_valid : list nat := [2; 3].

(** Two classes, [dirichlet = 0.5], the Gini criterion. *)
Definition single_classes : list nat := [0; 1; 1; 0].
Definition single_clf_weights : list (num A) := map single [32768; 1; 500; 1]%Z.
Definition single_clf_fit := tree_fit (clf_task single_env 2 (ahalf : num A) Gini AllMods) single_params single_fb
  single_classes single_train single_valid single_clf_weights 0.

Definition single_labels : list (num A) := map single [0; 1; 1; 0]%Z.
Definition single_reg_weights : list (num A) := map single [32768; 1; 5000; 200]%Z.
Definition single_reg_fit := tree_fit (reg_task single_env) single_params single_fb
  single_labels single_train single_valid single_reg_weights 0.
End Data.

(** ** The points at which the C library is called *)

Definition fl (s : bool) (m : positive) (e : Z) : spec_float := S754_finite s m e.

(** 1.5 / 32770, 32768.5 / 32770, 0.5 / 32769, 1 / 4 and 1 / 2, in single precision. *)
Definition ln_args : list spec_float :=
  [fl false 12582144 (-38); fl false 16776448 (-24); fl false 16776704 (-40); fl false 8388608 (-25); fl false 8388608 (-24)].
(** -550.67..., -200.30... and 0.693359375. *)
Definition exp_args : list spec_float :=
  [fl true 9022304 (-14); fl true 13127168 (-16); fl false 11632640 (-24)].

Definition ln_table : list (spec_float * spec_float) := [
  (fl false 12582144 (-38), fl true 10477165 (-20));
  (fl false 16776448 (-24), fl true 12583200 (-38));
  (fl false 16776704 (-40), fl true 11629112 (-20));
  (fl false 8388608 (-25), fl true 11629080 (-23));
  (fl false 8388608 (-24), fl true 11629080 (-24))].
Definition exp_table (b1 b2 : bool) : list (spec_float * spec_float) := [
  (fl true 9022304 (-14), S754_zero b1);
  (fl true 13127168 (-16), S754_zero b2);
  (fl false 11632640 (-24), fl false 8390388 (-22))].

(** The right-hand sides are the correctly rounded values. *)
Lemma ln_values : Forall (fun p => round32 (ln (SF2R radix2 (fst p))) = SF2R radix2 (snd p)) ln_table.
Proof.
  repeat apply Forall_cons; try apply Forall_nil.
  - apply (ln_check_ok 12582144 38 (-10477165) 21). vm_compute. reflexivity.
  - apply (ln_check_ok 16776448 24 (-12583200) 39). vm_compute. reflexivity.
  - apply (ln_check_ok 16776704 40 (-11629112) 21). vm_compute. reflexivity.
  - apply (ln_check_ok 8388608 25 (-11629080) 24). vm_compute. reflexivity.
  - apply (ln_check_ok 8388608 24 (-11629080) 25). vm_compute. reflexivity.
Qed.

Lemma exp_values : forall b1 b2, Forall (fun p => round32 (exp (SF2R radix2 (fst p))) = SF2R radix2 (snd p)) (exp_table b1 b2).
Proof.
  intros b1 b2. repeat apply Forall_cons; try apply Forall_nil.
  - apply (exp_zero_check_ok (-9022304) 14). vm_compute. reflexivity.
  - apply (exp_zero_check_ok (-13127168) 16). vm_compute. reflexivity.
  - apply (exp_check_ok 11632640 24 8390388 23). vm_compute. reflexivity.
Qed.

Lemma ln_forced : forall lnf, Forall (correct_at ln lnf) ln_args -> Forall (fun p => lnf (fst p) = snd p) ln_table.
Proof.
  intros lnf H. pose proof ln_values as V. unfold ln_args in H. unfold ln_table in *.
  repeat match goal with HF : Forall _ (_ :: _) |- _ => apply Forall_cons_iff in HF; destruct HF as [? HF] end.
  repeat apply Forall_cons; [..|apply Forall_nil]; (eapply correct_forced; [eassumption|reflexivity|assumption]).
Qed.

Lemma exp_forced : forall expf, Forall (correct_at exp expf) exp_args ->
  exists b1 b2, Forall (fun p => expf (fst p) = snd p) (exp_table b1 b2).
Proof.
  intros expf H. pose proof (exp_values false false) as V. unfold exp_args in H. unfold exp_table in V.
  repeat match goal with HF : Forall _ (_ :: _) |- _ => apply Forall_cons_iff in HF; destruct HF as [? HF] end.
  destruct (correct_forced_zero exp expf (fl true 9022304 (-14))) as (b1 & E1); [assumption|assumption|].
  destruct (correct_forced_zero exp expf (fl true 13127168 (-16))) as (b2 & E2); [assumption|assumption|].
  exists b1, b2. unfold exp_table. repeat apply Forall_cons; [exact E1|exact E2| |apply Forall_nil].
  eapply correct_forced; [eassumption|reflexivity|assumption].
Qed.

(** ** Running the code with any such library *)

Definition sf_dec : forall x y : spec_float, {x = y} + {x <> y}.
Proof. decide equality; try apply Bool.bool_dec; [apply Z.eq_dec|apply Pos.eq_dec]. Defined.

Definition override (t : list (spec_float * spec_float)) (g : spec_float -> spec_float) (x : spec_float) : spec_float :=
  match find (fun p => if sf_dec (fst p) x then true else false) t with Some p => snd p | None => g x end.

Lemma override_id : forall t g, Forall (fun p => g (fst p) = snd p) t -> override t g = g.
Proof.
  intros t g H. apply functional_extensionality. intros x. unfold override.
  destruct (find _ t) as [p|] eqn:E; [|reflexivity].
  apply find_some in E. destruct E as [E1 E2]. rewrite Forall_forall in H. specialize (H p E1).
  destruct (sf_dec (fst p) x) as [<-|]; [auto|discriminate].
Qed.

(** A fit succeeded, a prediction of its tree succeeded, and [bad] is true of it. *)
Definition after {TC G V} (fit : res (TC * G)) (pred : G -> res V) (bad : V -> bool) : bool :=
  match fit with
  | Ok (_, g) => match pred g with Ok v => bad v | Err _ => false end
  | Err _ => false
  end.

Lemma after_spec : forall {TC G V} (fit : res (TC * G)) (pred : G -> res V) bad, after fit pred bad = true ->
  exists tc g v, fit = Ok (tc, g) /\ pred g = Ok v /\ bad v = true.
Proof.
  intros TC G V [[tc g]|e] pred bad H; [|discriminate]. simpl in H.
  destruct (pred g) as [v|e] eqn:E; [|discriminate]. exists tc, g, v. auto.
Qed.

Definition clf_pred (lnf expf : spec_float -> spec_float) (g : gstate (clf_task (single_env lnf expf) 2 (ahalf : num (F32 lnf expf)) Gini AllMods)) :=
  predict_one (A := F32 lnf expf) mix_vec (g_tree g) single_fb true (single lnf expf 1) 1.
Definition reg_pred (lnf expf : spec_float -> spec_float) (g : gstate (reg_task (single_env lnf expf))) :=
  predict_one (A := F32 lnf expf) mix_num (g_tree g) single_fb true (single lnf expf 1) 1.
Definition negative (x : spec_float) : bool := SFltb x (S754_zero false).

Lemma clf_negative_table : forall lnf expf b1 b2,
  after (single_clf_fit (override ln_table lnf) (override (exp_table b1 b2) expf))
    (clf_pred (override ln_table lnf) (override (exp_table b1 b2) expf)) (existsb negative) = true.
Proof. intros lnf expf [|] b2; vm_compute; reflexivity. Qed.

Lemma reg_negative_table : forall lnf expf b1 b2,
  after (single_reg_fit (override ln_table lnf) (override (exp_table b1 b2) expf))
    (reg_pred (override ln_table lnf) (override (exp_table b1 b2) expf)) negative = true.
Proof. intros lnf expf b1 [|]; vm_compute; reflexivity. Qed.

(** ** The theorems *)

Lemma single_env_good : forall lnf expf, good_env (single_env lnf expf).
Proof. intros lnf expf. constructor; [|reflexivity]. intros s n H. cbn [draw single_env fst]. apply Nat.mod_upper_bound. lia. Qed.

Lemma single_fit_valid : forall lnf expf {Y} (y : list Y) w, length y = 4 -> length w = 4 ->
  valid_fit (single_params lnf expf) single_fb y single_train single_valid w.
Proof.
  intros lnf expf Y y w Hy Hw.
  destruct (array_to_bitarray_packed (fun _ => 0%N) 1 single_X) as (fb & H1 & H2 & H3 & H4 & _).
  - discriminate.
  - intros row H. unfold single_X in H. simpl in H. intuition (subst; reflexivity).
  - intros row x H Hx. unfold single_X in H. simpl in H.
    repeat (destruct H as [<-|H]; [simpl in Hx; intuition (subst; reflexivity)|]). destruct H.
  - assert (Efb : single_fb = fb) by (unfold single_fb; rewrite H1; auto). rewrite Efb. clear Efb H1.
    change (length single_X) with 4 in *.
    constructor; cbn [tp_max_features tp_min_samples_split tp_min_samples_leaf tp_is_categorical single_params]; rewrite ?H3, ?H4.
    all: try exact H2; try assumption; try reflexivity; simpl; try lia.
Qed.

(** For every C library whose [logf] and [expf] are correctly rounded at the points above,
    the fit and the prediction below both succeed, all the weights are positive, and one of
    the predicted probabilities is negative. *)
Theorem C34_single_precision_refuted : forall lnf expf,
  Forall (correct_at ln lnf) ln_args -> Forall (correct_at exp expf) exp_args ->
  good_env (single_env lnf expf) /\
  valid_fit (single_params lnf expf) single_fb single_classes single_train single_valid (single_clf_weights lnf expf) /\
  valid_labels 2 AllMods [false] single_classes /\
  (forall w, In w (single_clf_weights lnf expf) -> altb a0 w = true) /\
  exists tc g v x,
    single_clf_fit lnf expf = Ok (tc, g) /\
    predict_one mix_vec (g_tree g) single_fb true (single lnf expf 1) 1 = Ok v /\
    In x v /\ SFltb x (S754_zero false) = true.
Proof.
  intros lnf expf HL HE. split; [apply single_env_good|]. split; [apply single_fit_valid; reflexivity|].
  split; [constructor; [intros k Hk; simpl in Hk; lia|intros [H|[]]; discriminate]|].
  split; [intros w [<-|[<-|[<-|[<-|[]]]]]; reflexivity|].
  destruct (exp_forced expf HE) as (b1 & b2 & HE'). apply ln_forced in HL.
  pose proof (clf_negative_table lnf expf b1 b2) as H. rewrite (override_id _ _ HL), (override_id _ _ HE') in H.
  destruct (after_spec _ _ _ H) as (tc & g & v & E1 & E2 & E3).
  apply existsb_exists in E3. destruct E3 as (x & Hx & Hneg). exists tc, g, v, x.
  split; [exact E1|]. split; [exact E2|]. split; [exact Hx|exact Hneg].
Qed.
Print Assumptions C34_single_precision_refuted.

(** The same for regression: every label is 0 or 1 and the prediction is negative. *)
Theorem C35_single_precision_refuted : forall lnf expf,
  Forall (correct_at ln lnf) ln_args -> Forall (correct_at exp expf) exp_args ->
  good_env (single_env lnf expf) /\
  valid_fit (single_params lnf expf) single_fb (single_labels lnf expf) single_train single_valid (single_reg_weights lnf expf) /\
  (forall w, In w (single_reg_weights lnf expf) -> altb a0 w = true) /\
  (forall y, In y (single_labels lnf expf) -> y = a0 \/ y = a1) /\
  exists tc g v,
    single_reg_fit lnf expf = Ok (tc, g) /\
    predict_one mix_num (g_tree g) single_fb true (single lnf expf 1) 1 = Ok v /\
    SFltb v (S754_zero false) = true.
Proof.
  intros lnf expf HL HE. split; [apply single_env_good|]. split; [apply single_fit_valid; reflexivity|].
  split; [intros w [<-|[<-|[<-|[<-|[]]]]]; reflexivity|].
  split; [intros y [<-|[<-|[<-|[<-|[]]]]]; auto|].
  destruct (exp_forced expf HE) as (b1 & b2 & HE'). apply ln_forced in HL.
  pose proof (reg_negative_table lnf expf b1 b2) as H. rewrite (override_id _ _ HL), (override_id _ _ HE') in H.
  destruct (after_spec _ _ _ H) as (tc & g & v & E1 & E2 & E3).
  exists tc, g, v. split; [exact E1|]. split; [exact E2|exact E3].
Qed.
Print Assumptions C35_single_precision_refuted.

(** There are such functions. *)
Example C34_single_precision_applies :
  Forall (correct_at ln (override ln_table (fun x => x))) ln_args /\
  Forall (correct_at exp (override (exp_table false false) (fun x => x))) exp_args.
Proof.
  pose proof ln_values as V. pose proof (exp_values false false) as V'. unfold ln_table in V. unfold exp_table in V'.
  repeat match goal with HF : Forall _ (_ :: _) |- _ => apply Forall_cons_iff in HF; destruct HF as [? HF] end.
  split; repeat apply Forall_cons; try apply Forall_nil; (split; [reflexivity|split; [reflexivity|]]); symmetry; assumption.
Qed.
