(** * IEEE arithmetic: the operations of [spec_arith] round to nearest (through Flocq) *)

Require Import Bool ZArith Reals Lra Lia SpecFloat.
From Flocq Require Import Core BinarySingleNaN.
Require Import Verif.Base Verif.Num.

Section Float.
Context (prec emax : Z) {Hprec : Prec_gt_0 prec} {Hmax : Prec_lt_emax prec emax}.
Notation bfloat := (binary_float prec emax).
Notation fexp := (FLT_exp (3 - emax - prec) prec).
Notation rnd := (round radix2 fexp ZnearestE).

Lemma round_nearest_even_equiv : forall s m l, round_nearest_even m l = choice_mode mode_NE s m l.
Proof.
  intros s m l. case l; [reflexivity|intro c]. case c; [|reflexivity..].
  now simpl; unfold Round.cond_incr; case Z.even.
Qed.

Lemma binary_round_aux_equiv : forall sx mx ex lx,
  SpecFloat.binary_round_aux prec emax sx mx ex lx = BinarySingleNaN.binary_round_aux prec emax mode_NE sx mx ex lx.
Proof.
  intros. unfold SpecFloat.binary_round_aux, BinarySingleNaN.binary_round_aux.
  set (mrse' := shr_fexp _ _ _ _ _). case mrse'; intros mrs' e'; simpl. now rewrite (round_nearest_even_equiv sx).
Qed.

Lemma binary_round_equiv : forall s m e,
  SpecFloat.binary_round prec emax s m e = BinarySingleNaN.binary_round prec emax mode_NE s m e.
Proof.
  intros. unfold SpecFloat.binary_round, BinarySingleNaN.binary_round, shl_align_fexp.
  set (mez := shl_align _ _ _); case mez as [mz ez]. apply binary_round_aux_equiv.
Qed.

Lemma binary_normalize_equiv : forall m e szero,
  SpecFloat.binary_normalize prec emax m e szero = B2SF (BinarySingleNaN.binary_normalize prec emax Hprec Hmax mode_NE m e szero).
Proof. intros [|p|p] e szero; simpl; auto; rewrite B2SF_SF2B; apply binary_round_equiv. Qed.

Lemma SFmul_B : forall x y : bfloat, SFmul prec emax (B2SF x) (B2SF y) = B2SF (Bmult mode_NE x y).
Proof.
  intros [sx|sx| |sx mx ex Bx] [sy|sy| |sy my ey By]; try reflexivity.
  simpl. rewrite B2SF_SF2B. apply binary_round_aux_equiv.
Qed.

Lemma SFadd_B : forall x y : bfloat, SFadd prec emax (B2SF x) (B2SF y) = B2SF (Bplus mode_NE x y).
Proof.
  intros [sx|sx| |sx mx ex Bx] [sy|sy| |sy my ey By]; try reflexivity; try (simpl; case Bool.eqb; reflexivity).
  apply binary_normalize_equiv.
Qed.

Lemma SFsub_B : forall x y : bfloat, SFsub prec emax (B2SF x) (B2SF y) = B2SF (Bminus mode_NE x y).
Proof.
  intros [sx|sx| |sx mx ex Bx] [sy|sy| |sy my ey By]; try reflexivity; try (simpl; case Bool.eqb; reflexivity).
  simpl. unfold Zminus. rewrite <- cond_Zopp_negb. apply binary_normalize_equiv.
Qed.

Lemma SFdiv_B : forall x y : bfloat, SFdiv prec emax (B2SF x) (B2SF y) = B2SF (Bdiv mode_NE x y).
Proof.
  intros [sx|sx| |sx mx ex Bx] [sy|sy| |sy my ey By]; try reflexivity.
  simpl. rewrite B2SF_SF2B. set (melz := SFdiv_core_binary _ _ _ _ _ _). case melz as [[mz ez] lz]. apply binary_round_aux_equiv.
Qed.

Lemma sf_leb_B : forall x y : bfloat, sf_leb (B2SF x) (B2SF y) = Bleb x y.
Proof. reflexivity. Qed.
Lemma sf_ltb_B : forall x y : bfloat, sf_ltb (B2SF x) (B2SF y) = Bltb x y.
Proof. reflexivity. Qed.

(** Integers below 2^prec are converted exactly. *)
Definition ofZ (z : Z) : bfloat := BinarySingleNaN.binary_normalize prec emax Hprec Hmax mode_NE z 0 false.

Lemma sf_ofZ_B : forall z, sf_ofZ prec emax z = B2SF (ofZ z).
Proof. intros [|p|p]; unfold sf_ofZ, ofZ; [reflexivity| |]; apply binary_normalize_equiv. Qed.

Lemma int_format : forall z, (Z.abs z < 2 ^ prec)%Z -> generic_format radix2 fexp (IZR z).
Proof.
  intros z Hz. apply generic_format_FLT. exists (Float radix2 z 0); cbn [Fnum Fexp].
  - unfold F2R. simpl. ring.
  - exact Hz.
  - assert (H1 : (0 < prec)%Z) by exact Hprec. assert (H2 : (prec < emax)%Z) by exact Hmax. lia.
Qed.

Lemma ofZ_exact : forall z, (Z.abs z < 2 ^ prec)%Z -> B2R (ofZ z) = IZR z /\ is_finite (ofZ z) = true.
Proof.
  intros z Hz. unfold ofZ.
  generalize (binary_normalize_correct prec emax Hprec Hmax mode_NE z 0 false). cbv zeta. change (round_mode mode_NE) with ZnearestE.
  assert (Hf : F2R (Float radix2 z 0) = IZR z) by (unfold F2R; simpl; ring). rewrite Hf.
  rewrite round_generic; [|auto with typeclass_instances|apply int_format; auto].
  rewrite Rlt_bool_true.
  - intros (H1 & H2 & _). auto.
  - rewrite <- abs_IZR. apply Rlt_le_trans with (IZR (2 ^ prec)).
    + apply IZR_lt. auto.
    + rewrite <- (IZR_Zpower radix2) by (assert (H1 : (0 < prec)%Z) by exact Hprec; assert (H2 : (prec < emax)%Z) by exact Hmax; lia).
      apply IZR_le. change (radix_val radix2) with 2%Z. apply Z.pow_le_mono_r; [lia|].
      assert (H2 : (prec < emax)%Z) by exact Hmax. lia.
Qed.

End Float.

(** Conversion [int(x)] of a Python float. *)
Definition py_int (x : spec_float) : res Z :=
  match x with
  | S754_nan => Err ValueErr
  | S754_infinity _ => Err Overflow
  | S754_zero _ => Ok 0%Z
  | S754_finite s m e => Ok (cond_Zopp s (if (0 <=? e)%Z then Z.pos m * 2 ^ e else Z.pos m / 2 ^ (- e)))%Z
  end.

Lemma py_int_le : forall prec emax (x : binary_float prec emax) (n : Z), is_finite x = true -> (0 <= n)%Z ->
  (B2R x <= IZR n)%R -> exists z, py_int (B2SF x) = Ok z /\ (z <= n)%Z.
Proof.
  intros prec emax [s|s| |s m e H] n Hf Hn Hx; try discriminate; cbn [B2SF py_int].
  - exists 0%Z. split; auto.
  - eexists. split; [reflexivity|]. destruct s; [unfold cond_Zopp; destruct (0 <=? e)%Z eqn:E|].
    + assert (0 <= Z.pos m * 2 ^ e)%Z by (apply Z.mul_nonneg_nonneg; [lia|]; apply Z.pow_nonneg; lia). lia.
    + assert (0 <= Z.pos m / 2 ^ (- e))%Z by (apply Z_div_pos; [|lia]; assert (0 < 2 ^ (- e))%Z by (apply Z.pow_pos_nonneg; lia); lia). lia.
    + simpl in Hx. unfold F2R in Hx. simpl in Hx. unfold cond_Zopp. destruct (Z.leb_spec 0 e) as [He|He].
      * apply le_IZR. rewrite mult_IZR. change 2%Z with (radix_val radix2). rewrite IZR_Zpower by auto. exact Hx.
      * assert (Hp : (0 < 2 ^ (- e))%Z) by (apply Z.pow_pos_nonneg; lia).
        apply Z.div_le_upper_bound; auto. apply le_IZR. rewrite mult_IZR.
        change 2%Z with (radix_val radix2). rewrite IZR_Zpower by lia.
        replace (IZR (Z.pos m)) with (bpow radix2 (- e) * (IZR (Z.pos m) * bpow radix2 e))%R.
        { apply Rmult_le_compat_l; [apply bpow_ge_0|exact Hx]. }
        rewrite (Rmult_comm (IZR _)), <- Rmult_assoc, <- bpow_plus. replace (- e + e)%Z with 0%Z by lia. simpl. ring.
Qed.

(** [int(x * n)] in double precision, for a number of features below 2^53 (each of the
    [n + 1] values is exact). *)
Theorem ifrac_F64 : forall (x : spec_float) (n : nat) lnf expf, valid_binary 53 1024 x = true -> (Z.of_nat n < 2 ^ 53)%Z ->
  @altb (F64 lnf expf) (@a1 (F64 lnf expf)) x = false -> @aleb (F64 lnf expf) x (@a0 (F64 lnf expf)) = false ->
  let v := @amul (F64 lnf expf) x (@aofnat (F64 lnf expf) n) in
  (exists z, py_int v = Ok z /\ (z <= Z.of_nat n)%Z) \/ py_int v = Err ValueErr.
Proof.
  intros x n lnf expf Hv Hn H1 H2 v. unfold v. clear v. simpl in *.
  assert (Hprec : Prec_gt_0 53) by (unfold Prec_gt_0; lia). assert (Hmax : Prec_lt_emax 53 1024) by (unfold Prec_lt_emax; lia).
  destruct x as [s|s| |s m e]; try (simpl in *; discriminate).
  - destruct s; discriminate.
  - right. reflexivity.
  - left. set (X := B754_finite s m e Hv : binary_float 53 1024). change (S754_finite s m e) with (B2SF X) in H1, H2 |- *.
    change (sf_ltb (sf_ofZ 53 1024 1) (B2SF X) = false) in H1.
    rewrite (sf_ofZ_B 53 1024), sf_ltb_B in H1. destruct (ofZ_exact 53 1024 1 ltac:(simpl; lia)) as [O1 O2].
    rewrite Bltb_correct in H1 by auto. rewrite O1 in H1.
    assert (HX : (B2R X <= 1)%R) by (destruct (Rle_or_lt (B2R X) 1); auto; rewrite Rlt_bool_true in H1 by auto; discriminate).
    assert (HX0 : (0 < B2R X)%R).
    { assert (Hs : s = false) by (destruct s; [discriminate|auto]). subst s. simpl. apply F2R_gt_0. simpl. lia. }
    rewrite (sf_ofZ_B 53 1024), (SFmul_B 53 1024). destruct (ofZ_exact 53 1024 (Z.of_nat n) ltac:(lia)) as [N1 N2].
    generalize (Bmult_correct 53 1024 Hprec Hmax mode_NE X (ofZ 53 1024 (Z.of_nat n))). rewrite N1. change (round_mode mode_NE) with ZnearestE.
    assert (Hn0 : (0 <= IZR (Z.of_nat n))%R) by (apply IZR_le; lia).
    assert (Hr : (0 <= round radix2 (SpecFloat.fexp 53 1024) ZnearestE (B2R X * IZR (Z.of_nat n)) <= IZR (Z.of_nat n))%R).
    { change (SpecFloat.fexp 53 1024) with (FLT_exp (3 - 1024 - 53) 53). split.
      - apply round_ge_generic; auto with typeclass_instances. apply generic_format_0. nra.
      - apply round_le_generic; auto with typeclass_instances. apply int_format; auto. lia. nra. }
    rewrite Rlt_bool_true.
    + intros (M1 & M2 & _). apply py_int_le; [rewrite M2, N2; reflexivity|lia|]. rewrite M1. lra.
    + rewrite Rabs_pos_eq by lra. apply Rle_lt_trans with (IZR (Z.of_nat n)); [lra|].
      apply Rlt_le_trans with (IZR (2 ^ 53)); [apply IZR_lt; auto|]. change (2 ^ 53)%Z with (radix_val radix2 ^ 53)%Z.
      rewrite IZR_Zpower by lia. apply bpow_le. lia.
Qed.
