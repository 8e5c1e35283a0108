(** * Correctly rounded [log] and [exp] at given points

    Integer bounds of the exponential, proved from [1 + x <= exp x] and repeated squaring,
    and the deduction that a single precision number is the correct rounding of [ln x] or
    [exp x]. Nothing here models code of the repository: it is about the C library. *)

Require Import ZArith Reals Lra Lia SpecFloat Bool.
From Flocq Require Import Core BinarySingleNaN.
Local Open Scope Z_scope.

(** The real nearest to [x] among the single precision numbers, ties to even. *)
Definition round32 (x : R) : R := round radix2 (FLT_exp (-149) 24) ZnearestE x.

(** [g] is correctly rounded at [x]: [g x] is the single precision number nearest to the
    exact value of [f] there. *)
Definition correct_at (f : R -> R) (g : spec_float -> spec_float) (x : spec_float) : Prop :=
  valid_binary 24 128 (g x) = true /\ is_finite_SF (g x) = true /\
  SF2R radix2 (g x) = round32 (f (SF2R radix2 x)).

(** ** Bounds *)

Fixpoint sq_lo (B : Z) (n : nat) (l : Z) : Z :=
  match n with O => l | S n' => sq_lo B n' (l * l / 2 ^ B) end.
Fixpoint sq_hi (B : Z) (n : nat) (u : Z) : Z :=
  match n with O => u | S n' => sq_hi B n' (u * u / 2 ^ B + 1) end.

Lemma pow2_pos : forall B, 0 <= B -> (0 < IZR (2 ^ B))%R.
Proof. intros B H. apply (IZR_lt 0). apply Z.pow_pos_nonneg; lia. Qed.

Lemma div_le : forall a b, 0 < b -> (IZR (a / b) * IZR b <= IZR a)%R.
Proof. intros a b H. rewrite <- mult_IZR. apply IZR_le. rewrite Z.mul_comm. apply Z.mul_div_le. lia. Qed.

Lemma div_gt : forall a b, 0 < b -> (IZR a <= IZR (a / b + 1) * IZR b)%R.
Proof. intros a b H. rewrite <- mult_IZR. apply IZR_le. pose proof (Z.mul_succ_div_gt a b H). lia. Qed.

Lemma exp_sq : forall t, (exp (t + t) = exp t * exp t)%R.
Proof. intros t. apply exp_plus. Qed.

Lemma sq_lo_ok : forall B n l t, 0 <= B -> 0 <= l -> (IZR l <= exp t * IZR (2 ^ B))%R ->
  0 <= sq_lo B n l /\ (IZR (sq_lo B n l) <= exp (IZR (2 ^ Z.of_nat n) * t) * IZR (2 ^ B))%R.
Proof.
  intros B. induction n as [|n IH]; intros l t HB Hl H.
  - simpl. rewrite Rmult_1_l. auto.
  - pose proof (pow2_pos B HB) as P. assert (HP : 0 < 2 ^ B) by (apply Z.pow_pos_nonneg; lia).
    destruct (IH (l * l / 2 ^ B) (t + t)%R HB) as [I1 I2].
    + apply Z.div_pos; [nia|lia].
    + apply Rmult_le_reg_r with (IZR (2 ^ B)); [exact P|].
      apply Rle_trans with (1 := div_le (l * l) _ HP). rewrite mult_IZR, exp_sq.
      replace (exp t * exp t * IZR (2 ^ B) * IZR (2 ^ B))%R with ((exp t * IZR (2 ^ B)) * (exp t * IZR (2 ^ B)))%R by ring.
      apply IZR_le in Hl. apply Rmult_le_compat; auto.
    + simpl sq_lo. split; [exact I1|]. apply Rle_trans with (1 := I2). right. f_equal. f_equal.
      rewrite Nat2Z.inj_succ, Z.pow_succ_r by lia. rewrite mult_IZR. ring.
Qed.

Lemma sq_hi_ok : forall B n u t, 0 <= B -> (exp t * IZR (2 ^ B) <= IZR u)%R ->
  (exp (IZR (2 ^ Z.of_nat n) * t) * IZR (2 ^ B) <= IZR (sq_hi B n u))%R.
Proof.
  intros B. induction n as [|n IH]; intros u t HB H.
  - simpl. rewrite Rmult_1_l. auto.
  - pose proof (pow2_pos B HB) as P. assert (HP : 0 < 2 ^ B) by (apply Z.pow_pos_nonneg; lia).
    simpl sq_hi. apply Rle_trans with (2 := IH (u * u / 2 ^ B + 1) (t + t)%R HB
      ltac:(apply Rmult_le_reg_r with (IZR (2 ^ B)); [exact P|];
        apply Rle_trans with (2 := div_gt (u * u) _ HP); rewrite mult_IZR, exp_sq;
        replace (exp t * exp t * IZR (2 ^ B) * IZR (2 ^ B))%R with ((exp t * IZR (2 ^ B)) * (exp t * IZR (2 ^ B)))%R by ring;
        assert (0 <= exp t * IZR (2 ^ B))%R by (apply Rmult_le_pos; [left; apply exp_pos|lra]);
        apply Rmult_le_compat; auto)).
    right. f_equal. f_equal. rewrite Nat2Z.inj_succ, Z.pow_succ_r by lia. rewrite mult_IZR. ring.
Qed.

(** Bounds of [exp (a / 2 ^ k)], as multiples of [1 / 2 ^ 156]. *)
Definition BB : Z := 156.
Definition exp_lo (a k : Z) : Z := sq_lo BB 44 ((2 ^ (k + 44) + a) * 2 ^ BB / 2 ^ (k + 44)).
Definition exp_hi (a k : Z) : Z := sq_hi BB 44 (2 ^ (k + 44) * 2 ^ BB / (2 ^ (k + 44) - a) + 1).

Lemma exp_lo_ok : forall a k, 0 <= k -> 0 <= 2 ^ (k + 44) + a ->
  (IZR (exp_lo a k) <= exp (IZR a / IZR (2 ^ k)) * IZR (2 ^ BB))%R.
Proof.
  intros a k Hk Ha. pose proof (pow2_pos k Hk) as Pk. pose proof (pow2_pos (k + 44) ltac:(lia)) as Pn.
  assert (HP : 0 < 2 ^ (k + 44)) by (apply Z.pow_pos_nonneg; lia).
  destruct (sq_lo_ok BB 44 ((2 ^ (k + 44) + a) * 2 ^ BB / 2 ^ (k + 44)) (IZR a / IZR (2 ^ (k + 44)))%R) as [_ H].
  - unfold BB; lia.
  - apply Z.div_pos; [|lia]. apply Z.mul_nonneg_nonneg; [lia|]. apply Z.pow_nonneg. lia.
  - apply Rmult_le_reg_r with (IZR (2 ^ (k + 44))); [exact Pn|].
    apply Rle_trans with (1 := div_le _ _ HP). rewrite mult_IZR, plus_IZR.
    pose proof (exp_ineq1_le (IZR a / IZR (2 ^ (k + 44)))) as E.
    pose proof (pow2_pos BB ltac:(unfold BB; lia)) as PB.
    apply Rmult_le_compat_r with (r := (IZR (2 ^ (k + 44)))%R) in E; [|lra].
    replace ((1 + IZR a / IZR (2 ^ (k + 44))) * IZR (2 ^ (k + 44)))%R with (IZR (2 ^ (k + 44)) + IZR a)%R in E by (field; lra).
    apply Rmult_le_compat_r with (r := IZR (2 ^ BB)) in E; [|lra]. lra.
  - unfold exp_lo. apply Rle_trans with (1 := H). right. f_equal. f_equal.
    change (Z.of_nat 44) with 44. rewrite Z.pow_add_r by lia. rewrite mult_IZR.
    pose proof (pow2_pos 44 ltac:(lia)). field. lra.
Qed.

Lemma exp_hi_ok : forall a k, 0 <= k -> 0 < 2 ^ (k + 44) - a ->
  (exp (IZR a / IZR (2 ^ k)) * IZR (2 ^ BB) <= IZR (exp_hi a k))%R.
Proof.
  intros a k Hk Ha. pose proof (pow2_pos k Hk) as Pk. pose proof (pow2_pos (k + 44) ltac:(lia)) as Pn.
  pose proof (pow2_pos BB ltac:(unfold BB; lia)) as PB.
  set (t := (IZR a / IZR (2 ^ (k + 44)))%R).
  assert (H : (exp (IZR (2 ^ Z.of_nat 44) * t) * IZR (2 ^ BB) <= IZR (exp_hi a k))%R).
  { apply sq_hi_ok; [unfold BB; lia|].
    pose proof (IZR_lt _ _ Ha) as Ha'. rewrite minus_IZR in Ha'.
    assert (Hpos : (0 < IZR (2 ^ (k + 44) - a))%R) by (rewrite minus_IZR; lra).
    apply Rmult_le_reg_r with (IZR (2 ^ (k + 44) - a)); [exact Hpos|].
    apply Rle_trans with (2 := div_gt _ _ Ha). rewrite mult_IZR, minus_IZR.
    pose proof (exp_ineq1_le (- t)) as E. rewrite exp_Ropp in E.
    assert (E1 : (exp t * (1 - t) <= 1)%R).
    { apply Rmult_le_compat_l with (r := exp t) in E; [|left; apply exp_pos].
      rewrite Rinv_r in E by (apply Rgt_not_eq, exp_pos). lra. }
    apply Rmult_le_compat_r with (r := (IZR (2 ^ (k + 44)) * IZR (2 ^ BB))%R) in E1; [|apply Rmult_le_pos; lra].
    replace (exp t * (1 - t) * (IZR (2 ^ (k + 44)) * IZR (2 ^ BB)))%R
      with (exp t * IZR (2 ^ BB) * (IZR (2 ^ (k + 44)) - IZR a))%R in E1 by (unfold t; field; lra).
    lra. }
  apply Rle_trans with (2 := H). right. f_equal. f_equal. unfold t.
  change (Z.of_nat 44) with 44. rewrite Z.pow_add_r by lia. rewrite mult_IZR.
  pose proof (pow2_pos 44 ltac:(lia)). field. lra.
Qed.

(** ** Rounding *)

Lemma bpow_inv : forall k, 0 <= k -> bpow radix2 (- k) = (/ IZR (2 ^ k))%R.
Proof. intros k Hk. rewrite bpow_opp. f_equal. symmetry. apply (IZR_Zpower radix2). exact Hk. Qed.

Lemma round_is : forall v M e, 2 ^ 23 < Z.abs M < 2 ^ 24 -> -149 <= e ->
  (Rabs (v - IZR M * bpow radix2 e) < bpow radix2 e / 2)%R ->
  round32 v = F2R (Float radix2 M e).
Proof.
  intros v M e HM He H. pose proof (bpow_gt_0 radix2 e) as P.
  assert (HA : (IZR (2 ^ 23 + 1) <= Rabs (IZR M) <= IZR (2 ^ 24 - 1))%R).
  { rewrite <- abs_IZR. split; apply IZR_le; lia. }
  assert (Hmag : mag radix2 v = e + 24 :> Z).
  { apply mag_unique. rewrite !bpow_plus. replace (e + 24 - 1) with (e + 23) by lia. rewrite bpow_plus.
    change (bpow radix2 23) with (IZR (2 ^ 23)). change (bpow radix2 24) with (IZR (2 ^ 24)).
    assert (HMe : Rabs (IZR M * bpow radix2 e) = (Rabs (IZR M) * bpow radix2 e)%R).
    { rewrite Rabs_mult. f_equal. apply Rabs_pos_eq. lra. }
    pose proof (Rabs_triang_inv (IZR M * bpow radix2 e) v) as T1. pose proof (Rabs_triang_inv v (IZR M * bpow radix2 e)) as T2.
    rewrite Rabs_minus_sym in T1. rewrite HMe in T1, T2.
    assert (HL : (IZR (2 ^ 23 + 1) * bpow radix2 e <= Rabs (IZR M) * bpow radix2 e)%R) by (apply Rmult_le_compat_r; lra).
    assert (HU : (Rabs (IZR M) * bpow radix2 e <= IZR (2 ^ 24 - 1) * bpow radix2 e)%R) by (apply Rmult_le_compat_r; lra).
    rewrite plus_IZR in HL. rewrite minus_IZR in HU. lra. }
  assert (Hc : cexp radix2 (FLT_exp (-149) 24) v = e).
  { unfold cexp, FLT_exp. rewrite Hmag. lia. }
  unfold round32, round. unfold scaled_mantissa. rewrite Hc. f_equal. f_equal.
  apply Znearest_imp.
  replace (v * bpow radix2 (- e) - IZR M)%R with ((v - IZR M * bpow radix2 e) * bpow radix2 (- e))%R
    by (rewrite bpow_opp; field; lra).
  rewrite Rabs_mult. rewrite (Rabs_pos_eq (bpow radix2 (- e))) by apply bpow_ge_0.
  apply Rmult_lt_compat_r with (r := bpow radix2 (- e)) in H; [|apply bpow_gt_0].
  rewrite bpow_opp in *. replace (bpow radix2 e / 2 * / bpow radix2 e)%R with (/ 2)%R in H by (field; lra). exact H.
Qed.

Lemma correct_forced : forall f g x s m e, correct_at f g x -> valid_binary 24 128 (S754_finite s m e) = true ->
  round32 (f (SF2R radix2 x)) = SF2R radix2 (S754_finite s m e) -> g x = S754_finite s m e.
Proof.
  intros f g x s m e (V & F & E) V' E'. rewrite E' in E. clear E'.
  revert V F E. generalize (g x). intros y V F E.
  assert (Hn : SF2R radix2 (S754_finite s m e) <> 0%R).
  { simpl. apply F2R_neq_0. simpl. destruct s; discriminate. }
  destruct y as [b|b| |b m' e']; try discriminate F; [exfalso; apply Hn; symmetry; exact E|].
  assert (HB : SF2B _ V = SF2B _ V').
  { apply B2R_inj; [reflexivity|reflexivity|]. rewrite !B2R_SF2B. exact E. }
  apply (f_equal B2SF) in HB. rewrite !B2SF_SF2B in HB. exact HB.
Qed.

(** ** The two checks *)

Definition ln_check (m k M j : Z) : bool :=
  ((0 <=? k) && (1 <=? j) && (j <=? 150) && (0 <? m) && (2 ^ 23 <? Z.abs M) && (Z.abs M <? 2 ^ 24) &&
   (0 <? 2 ^ (j + 44) - (2 * M - 1)) && (0 <=? 2 ^ (j + 44) + (2 * M + 1)) &&
   (exp_hi (2 * M - 1) j * 2 ^ k <? m * 2 ^ BB) && (m * 2 ^ BB <? exp_lo (2 * M + 1) j * 2 ^ k))%bool.

Lemma ln_check_ok : forall m k M j, ln_check m k M j = true ->
  round32 (ln (F2R (Float radix2 m (- k)))) = F2R (Float radix2 M (1 - j)).
Proof.
  intros m k M j H. unfold ln_check in H. rewrite !andb_true_iff in H.
  destruct H as (((((((((H1 & H2) & H3) & H4) & H5) & H6) & H7) & H8) & H9) & H10).
  apply Z.leb_le in H1, H2, H3, H8. apply Z.ltb_lt in H4, H5, H6, H7, H9, H10.
  pose proof (pow2_pos k H1) as Pk. pose proof (pow2_pos j ltac:(lia)) as Pj. pose proof (pow2_pos BB ltac:(unfold BB; lia)) as PB.
  apply round_is; [lia|lia|].
  unfold F2R. simpl Fnum. simpl Fexp. rewrite bpow_inv by exact H1.
  replace (bpow radix2 (1 - j)) with (2 * / IZR (2 ^ j))%R
    by (rewrite <- (bpow_inv j) by lia; replace (1 - j) with (1 + - j) by lia; rewrite bpow_plus; reflexivity).
  pose proof (exp_hi_ok (2 * M - 1) j ltac:(lia) H7) as HU. pose proof (exp_lo_ok (2 * M + 1) j ltac:(lia) H8) as HL.
  apply IZR_lt in H9, H10. rewrite !mult_IZR in H9, H10.
  assert (Hx : (0 < IZR m * / IZR (2 ^ k))%R).
  { apply Rmult_lt_0_compat; [apply (IZR_lt 0); lia|]. apply Rinv_0_lt_compat. exact Pk. }
  assert (U : (exp (IZR (2 * M - 1) / IZR (2 ^ j)) < IZR m * / IZR (2 ^ k))%R).
  { apply Rmult_lt_reg_r with (IZR (2 ^ BB)); [exact PB|]. apply Rle_lt_trans with (1 := HU).
    apply Rmult_lt_reg_r with (IZR (2 ^ k)); [exact Pk|]. apply Rlt_le_trans with (1 := H9). right. field. lra. }
  assert (L : (IZR m * / IZR (2 ^ k) < exp (IZR (2 * M + 1) / IZR (2 ^ j)))%R).
  { apply Rmult_lt_reg_r with (IZR (2 ^ BB)); [exact PB|]. apply Rlt_le_trans with (2 := HL).
    apply Rmult_lt_reg_r with (IZR (2 ^ k)); [exact Pk|]. apply Rle_lt_trans with (2 := H10). right. field. lra. }
  apply ln_increasing in U; [|apply exp_pos]. apply ln_increasing in L; [|exact Hx]. rewrite ln_exp in U, L.
  assert (EU : (IZR (2 * M - 1) / IZR (2 ^ j) = IZR M * (2 * / IZR (2 ^ j)) - / IZR (2 ^ j))%R)
    by (rewrite minus_IZR, mult_IZR; field; lra).
  assert (EL : (IZR (2 * M + 1) / IZR (2 ^ j) = IZR M * (2 * / IZR (2 ^ j)) + / IZR (2 ^ j))%R)
    by (rewrite plus_IZR, mult_IZR; field; lra).
  rewrite EU in U. rewrite EL in L. apply Rabs_def1; lra.
Qed.

Definition exp_check (a k M j : Z) : bool :=
  ((0 <=? k) && (1 <=? j) && (j <=? 150) && (2 ^ 23 <? Z.abs M) && (Z.abs M <? 2 ^ 24) &&
   (0 <? 2 ^ (k + 44) - a) && (0 <=? 2 ^ (k + 44) + a) &&
   ((2 * M - 1) * 2 ^ BB <? exp_lo a k * 2 ^ j) && (exp_hi a k * 2 ^ j <? (2 * M + 1) * 2 ^ BB))%bool.

Lemma exp_check_ok : forall a k M j, exp_check a k M j = true ->
  round32 (exp (F2R (Float radix2 a (- k)))) = F2R (Float radix2 M (1 - j)).
Proof.
  intros a k M j H. unfold exp_check in H. rewrite !andb_true_iff in H.
  destruct H as ((((((((H1 & H2) & H3) & H5) & H6) & H7) & H8) & H9) & H10).
  apply Z.leb_le in H1, H2, H3, H8. apply Z.ltb_lt in H5, H6, H7, H9, H10.
  pose proof (pow2_pos k H1) as Pk. pose proof (pow2_pos j ltac:(lia)) as Pj. pose proof (pow2_pos BB ltac:(unfold BB; lia)) as PB.
  apply round_is; [lia|lia|].
  unfold F2R. simpl Fnum. simpl Fexp. rewrite bpow_inv by exact H1.
  replace (bpow radix2 (1 - j)) with (2 * / IZR (2 ^ j))%R
    by (rewrite <- (bpow_inv j) by lia; replace (1 - j) with (1 + - j) by lia; rewrite bpow_plus; reflexivity).
  pose proof (exp_hi_ok a k H1 H7) as HU. pose proof (exp_lo_ok a k H1 H8) as HL.
  apply IZR_lt in H9, H10. rewrite !mult_IZR in H9, H10. rewrite minus_IZR, mult_IZR in H9. rewrite plus_IZR, mult_IZR in H10.
  change (IZR a * / IZR (2 ^ k))%R with (IZR a / IZR (2 ^ k))%R.
  set (v := exp (IZR a / IZR (2 ^ k))) in *.
  assert (L : (IZR M * (2 * / IZR (2 ^ j)) - / IZR (2 ^ j) < v)%R).
  { apply Rmult_lt_reg_r with (IZR (2 ^ BB)); [exact PB|]. apply Rlt_le_trans with (2 := HL).
    apply Rmult_lt_reg_r with (IZR (2 ^ j)); [exact Pj|]. apply Rle_lt_trans with (2 := H9). right. field. lra. }
  assert (U : (v < IZR M * (2 * / IZR (2 ^ j)) + / IZR (2 ^ j))%R).
  { apply Rmult_lt_reg_r with (IZR (2 ^ BB)); [exact PB|]. apply Rle_lt_trans with (1 := HU).
    apply Rmult_lt_reg_r with (IZR (2 ^ j)); [exact Pj|]. apply Rlt_le_trans with (1 := H10). right. field. lra. }
  apply Rabs_def1; lra.
Qed.

(** A value below half the smallest positive number is rounded to zero. *)
Lemma round_tiny : forall v, (0 < v < bpow radix2 (-150))%R -> round32 v = 0%R.
Proof.
  intros v [H1 H2]. unfold round32. apply round_N_small_pos with (ex := mag radix2 v).
  - destruct (mag radix2 v) as [ex Hex]. simpl. specialize (Hex ltac:(lra)). rewrite Rabs_pos_eq in Hex by lra. exact Hex.
  - assert (mag radix2 v <= -150) by (apply mag_le_bpow; [lra|rewrite Rabs_pos_eq by lra; exact H2]).
    unfold FLT_exp. lia.
Qed.

Definition exp_zero_check (a k : Z) : bool :=
  ((0 <=? k) && (0 <? 2 ^ (k + 44) - a) && (exp_hi a k * 2 ^ 150 <? 2 ^ BB))%bool.

Lemma exp_zero_check_ok : forall a k, exp_zero_check a k = true -> round32 (exp (F2R (Float radix2 a (- k)))) = 0%R.
Proof.
  intros a k H. unfold exp_zero_check in H. rewrite !andb_true_iff in H. destruct H as ((H1 & H7) & H9).
  apply Z.leb_le in H1. apply Z.ltb_lt in H7, H9.
  apply round_tiny. split; [apply exp_pos|].
  unfold F2R. simpl Fnum. simpl Fexp. rewrite (bpow_inv k) by exact H1. change (bpow radix2 (-150)) with (bpow radix2 (- (150))). rewrite (bpow_inv 150) by lia.
  pose proof (exp_hi_ok a k H1 H7) as HU. pose proof (pow2_pos BB ltac:(unfold BB; lia)) as PB. pose proof (pow2_pos 150 ltac:(lia)) as P150.
  apply IZR_lt in H9. rewrite mult_IZR in H9.
  apply Rmult_lt_reg_r with (IZR (2 ^ BB)); [exact PB|]. apply Rle_lt_trans with (1 := HU).
  apply Rmult_lt_reg_r with (IZR (2 ^ 150)); [exact P150|]. apply Rlt_le_trans with (1 := H9). right. field. lra.
Qed.

Lemma correct_forced_zero : forall f g x, correct_at f g x -> round32 (f (SF2R radix2 x)) = 0%R ->
  exists b, g x = S754_zero b.
Proof.
  intros f g x (V & F & E) E'. rewrite E' in E. destruct (g x) as [b|b| |b m e]; try discriminate F; [eauto|].
  exfalso. revert E. simpl. apply F2R_neq_0. simpl. destruct b; discriminate.
Qed.
