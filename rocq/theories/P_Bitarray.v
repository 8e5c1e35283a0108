(** * Proofs about the packed features *)

Require Import List NArith Arith Lia.
Require Import Verif.Base Verif.M_Bitarray.
Import ListNotations.
Local Open Scope res_scope.
Local Open Scope N_scope.

(** ** Packing [len] values [f start, f (start+1), ...] of [b] bits, first value in the
    most significant position. *)
Fixpoint packf (b : N) (f : nat -> N) (start len : nat) : N :=
  match len with
  | O => 0
  | S n => packf b f start n * 2 ^ b + f (start + n)%nat
  end.

Lemma pow2_pos : forall n, 0 < 2 ^ n.
Proof. intro n; apply N.neq_0_lt_0; apply N.pow_nonzero; lia. Qed.

Lemma packf_lt : forall b f start len,
  (forall i, (start <= i < start + len)%nat -> f i < 2 ^ b) ->
  packf b f start len < 2 ^ (b * N.of_nat len).
Proof.
  induction len; intros H.
  - simpl. rewrite N.mul_0_r. simpl. lia.
  - cbn [packf]. rewrite Nat2N.inj_succ, N.mul_succ_r, N.pow_add_r.
    assert (H1 : packf b f start len < 2 ^ (b * N.of_nat len)) by (apply IHlen; intros; apply H; lia).
    assert (H2 : f (start + len)%nat < 2 ^ b) by (apply H; lia).
    pose proof (pow2_pos b) as Hb.
    assert (packf b f start len + 1 <= 2 ^ (b * N.of_nat len)) by lia.
    assert ((packf b f start len + 1) * 2 ^ b <= 2 ^ (b * N.of_nat len) * 2 ^ b)
      by (apply N.mul_le_mono_r; auto).
    lia.
Qed.

Lemma packf_split : forall b f start n m,
  packf b f start (n + m) = packf b f start n * 2 ^ (b * N.of_nat m) + packf b f (start + n) m.
Proof.
  induction m.
  - simpl. rewrite Nat.add_0_r, N.mul_0_r. simpl. lia.
  - rewrite Nat.add_succ_r. cbn [packf]. rewrite IHm.
    rewrite Nat2N.inj_succ, N.mul_succ_r, N.pow_add_r.
    replace (start + n + m)%nat with (start + (n + m))%nat by lia. lia.
Qed.

Lemma packf_ext : forall b f g start len,
  (forall i, (start <= i < start + len)%nat -> f i = g i) ->
  packf b f start len = packf b g start len.
Proof.
  induction len; intros H; simpl; auto. rewrite IHlen by (intros; apply H; lia).
  rewrite H by lia. auto.
Qed.

Lemma packf_zeros : forall b f start len,
  (forall i, (start <= i < start + len)%nat -> f i = 0) -> packf b f start len = 0.
Proof.
  induction len; intros H; simpl; auto. rewrite IHlen by (intros; apply H; lia).
  rewrite H by lia. lia.
Qed.

(** Shifting out the lower values and masking isolates one value. *)
Lemma packf_read : forall b f start p r,
  (forall i, (start <= i < start + (p + 1 + r))%nat -> f i < 2 ^ b) ->
  (N.shiftr (packf b f start (p + 1 + r)) (N.of_nat r * b)) mod 2 ^ b = f (start + p)%nat.
Proof.
  intros b f start p r H.
  rewrite N.shiftr_div_pow2. rewrite packf_split.
  rewrite (N.mul_comm (N.of_nat r) b).
  assert (Hlt : packf b f (start + (p + 1)) r < 2 ^ (b * N.of_nat r))
    by (apply packf_lt; intros; apply H; lia).
  rewrite N.div_add_l by (apply N.pow_nonzero; lia).
  rewrite (N.div_small _ _ Hlt), N.add_0_r.
  replace (p + 1)%nat with (S p) by lia. cbn [packf].
  rewrite N.add_comm, N.mod_add by (apply N.pow_nonzero; lia).
  apply N.mod_small. apply H. lia.
Qed.

Lemma lor_add : forall a b x, x < 2 ^ b -> N.lor (N.shiftl a b) x = a * 2 ^ b + x.
Proof.
  intros a b x H. rewrite N.shiftl_mul_pow2.
  assert (HZ : N.land (a * 2 ^ b) x = 0).
  { apply N.bits_inj; intro n. rewrite N.land_spec, N.bits_0.
    destruct (N.ltb_spec n b).
    - rewrite N.mul_pow2_bits_low by auto. auto.
    - rewrite <- (N.mod_small x (2 ^ b)) by auto.
      rewrite N.mod_pow2_bits_high by auto. apply Bool.andb_false_r. }
  rewrite <- N.lxor_lor by auto. symmetry; apply N.add_nocarry_lxor; auto.
Qed.

Lemma w64_small : forall x, x < 2 ^ 64 -> w64 x = x.
Proof. intros; unfold w64; apply N.mod_small; auto. Qed.

(** ** Invariant of the fill loop *)
Definition cell (col : list N) (i : nat) : N := nth i col 0.

Lemma pow_le_64 : forall (nb nv : nat) (l : nat), (nb * nv <= 64)%nat -> (l <= nv)%nat ->
  2 ^ (N.of_nat nb * N.of_nat l) <= 2 ^ 64.
Proof. intros. apply N.pow_le_mono_r; nia. Qed.

Definition fill_inv (nb nv : nat) (col : list N) (cb0 : list N) (i : nat) (cb : list N) : Prop :=
  length cb = length cb0 /\
  (forall w, (w * nv < i)%nat ->
     get cb w = Ok (packf (N.of_nat nb) (cell col) (w * nv) (Nat.min nv (i - w * nv)))) /\
  (forall w, (i <= w * nv)%nat -> get cb w = get cb0 w).

Lemma fill_loop_spec : forall nb nv col cb0, (0 < nv)%nat -> (0 < nb)%nat -> (nb * nv <= 64)%nat ->
  (forall i, (i < length col)%nat -> cell col i < 2 ^ N.of_nat nb) ->
  (length col <= nv * length cb0)%nat ->
  forall rest i cb, (i + length rest = length col)%nat ->
  (forall k, (k < length rest)%nat -> nth k rest 0 = cell col (i + k)) ->
  fill_inv nb nv col cb0 i cb ->
  exists cb', fill_loop nb nv i rest cb = Ok cb' /\ fill_inv nb nv col cb0 (length col) cb'.
Proof.
  intros nb nv col cb0 Hnv Hnb H64 Hcol Hlen.
  induction rest as [|x rest IH]; intros i cb Hi Hrest Hinv.
  - simpl in Hi. rewrite Nat.add_0_r in Hi. subst i. exists cb; split; auto.
  - simpl in Hi.
    assert (Hx : x = cell col i).
    { specialize (Hrest 0%nat). simpl in Hrest. rewrite Nat.add_0_r in Hrest. apply Hrest; lia. }
    assert (Hxb : x < 2 ^ N.of_nat nb) by (rewrite Hx; apply Hcol; lia).
    assert (Hnb64 : 2 ^ N.of_nat nb <= 2 ^ 64) by (apply N.pow_le_mono_r; nia).
    assert (Hx64 : w64 x = x) by (apply w64_small; lia).
    cbn [fill_loop]. destruct nv as [|nv']; [lia|]. set (nv := S nv') in *.
    set (w := (i / nv)%nat). set (p := (i mod nv)%nat).
    assert (Hip : i = (w * nv + p)%nat /\ (p < nv)%nat).
    { unfold w, p. pose proof (Nat.div_mod i nv). pose proof (Nat.mod_upper_bound i nv). lia. }
    destruct Hip as [Hip Hp].
    destruct Hinv as [HL [Hlow Hhigh]].
    assert (Hw : (w < length cb)%nat) by (rewrite HL; nia).
    assert (Hstep : exists cb1,
      (if (p =? 0)%nat then set cb w (w64 x)
       else let* old := get cb w in let* s := shl64 old nb in set cb w (N.lor s (w64 x))) = Ok cb1
      /\ cb1 = upd cb w (packf (N.of_nat nb) (cell col) (w * nv) (S p))).
    { rewrite Hx64. cbn [packf]. destruct (Nat.eqb_spec p 0) as [Hp0|Hp0].
      - eexists; split; [apply set_ok; split; [exact Hw|reflexivity]|].
        rewrite Hp0 in *. cbn [packf]. rewrite Hx. f_equal.
        rewrite N.mul_0_l, N.add_0_l. f_equal. lia.
      - rewrite (Hlow w) by lia. cbn [bind].
        replace (Nat.min nv (i - w * nv)) with p by lia.
        assert (Hpl : packf (N.of_nat nb) (cell col) (w * nv) p < 2 ^ (N.of_nat nb * N.of_nat p)).
        { apply packf_lt. intros k Hk. apply Hcol. lia. }
        unfold shl64. replace (nb <? 64)%nat with true
          by (symmetry; apply Nat.ltb_lt; nia).
        cbn [bind].
        assert (Hs : w64 (N.shiftl (packf (N.of_nat nb) (cell col) (w * nv) p) (N.of_nat nb))
                   = N.shiftl (packf (N.of_nat nb) (cell col) (w * nv) p) (N.of_nat nb)).
        { apply w64_small. rewrite N.shiftl_mul_pow2.
          apply N.lt_le_trans with (2 ^ (N.of_nat nb * N.of_nat (S p))).
          - rewrite Nat2N.inj_succ, N.mul_succ_r, N.pow_add_r.
            apply N.mul_lt_mono_pos_r; auto using pow2_pos.
          - eapply pow_le_64; eauto; lia. }
        rewrite Hs. rewrite lor_add by auto.
        eexists; split; [apply set_ok; split; [exact Hw|reflexivity]|].
        rewrite Hx. do 2 f_equal. f_equal. lia. }
    destruct Hstep as [cb1 [Hset Hcb1]].
    cbv beta zeta. fold nv. fold w. fold p. rewrite Hset. cbn [bind].
    apply IH.
    + lia.
    + intros k Hk. specialize (Hrest (S k)). simpl in Hrest. rewrite Hrest by lia. f_equal; lia.
    + subst cb1. split; [rewrite upd_length; auto|]. split.
      * intros w' Hw'. destruct (Nat.eq_dec w w') as [<-|Hne].
        -- rewrite get_upd_eq by auto. do 2 f_equal. lia.
        -- rewrite get_upd_neq by auto.
           assert (w' * nv < i)%nat by nia.
           rewrite Hlow by auto. do 2 f_equal. nia.
      * intros w' Hw'. rewrite get_upd_neq by nia. apply Hhigh. lia.
Qed.

(** After a column is filled every word of the column holds [n_values] packed values
    (padded with zeros). *)
Lemma fill_column_raw_spec : forall nb nv col cb, (0 < nv)%nat -> (0 < nb)%nat -> (nb * nv <= 64)%nat ->
  (forall i, (i < length col)%nat -> cell col i < 2 ^ N.of_nat nb) ->
  (0 < length col)%nat ->
  (length col <= nv * length cb)%nat ->
  exists cb', fill_column_raw cb nb nv col = Ok cb' /\ length cb' = length cb /\
    forall w, (w * nv < length col)%nat ->
      get cb' w = Ok (packf (N.of_nat nb) (cell col) (w * nv) nv).
Proof.
  intros nb nv col cb Hnv Hnb H64 Hcol Hne Hlen.
  destruct (fill_loop_spec nb nv col cb Hnv Hnb H64 Hcol Hlen col 0%nat cb) as [cb1 [Hf Hinv]].
  - lia.
  - intros; unfold cell; auto.
  - split; auto. split; intros; [lia|auto].
  - unfold fill_column_raw. rewrite Hf. cbn [bind].
    destruct (length col) as [|lst] eqn:EL; [lia|].
    destruct Hinv as [HL [Hlow Hhigh]].
    set (w := (lst / nv)%nat). set (p := (lst mod nv)%nat).
    assert (Hip : lst = (w * nv + p)%nat /\ (p < nv)%nat).
    { unfold w, p. pose proof (Nat.div_mod lst nv). pose proof (Nat.mod_upper_bound lst nv). lia. }
    destruct Hip as [Hip Hp].
    rewrite (Hlow w) by lia. cbn [bind].
    replace (Nat.min nv (S lst - w * nv)) with (S p) by lia.
    assert (Hpl : packf (N.of_nat nb) (cell col) (w * nv) (S p) < 2 ^ (N.of_nat nb * N.of_nat (S p))).
    { apply packf_lt. intros k Hk. apply Hcol. lia. }
    unfold shl64. replace ((nv - p - 1) * nb <? 64)%nat with true
      by (symmetry; apply Nat.ltb_lt; nia).
    cbn [bind].
    assert (Hw : (w < length cb1)%nat) by (rewrite HL; nia).
    set (v := packf (N.of_nat nb) (cell col) (w * nv) nv).
    assert (Hv : w64 (N.shiftl (packf (N.of_nat nb) (cell col) (w * nv) (S p))
                 (N.of_nat ((nv - p - 1) * nb))) = v).
    { rewrite w64_small.
      - rewrite N.shiftl_mul_pow2. unfold v.
        pose proof (packf_split (N.of_nat nb) (cell col) (w * nv) (S p) (nv - p - 1)) as Hsp.
        replace (S p + (nv - p - 1))%nat with nv in Hsp by lia. rewrite Hsp.
        rewrite (packf_zeros _ _ (w * nv + S p)).
        + rewrite N.add_0_r. f_equal. f_equal. lia.
        + intros k Hk. unfold cell. apply nth_overflow. lia.
      - rewrite N.shiftl_mul_pow2.
        apply N.lt_le_trans with (2 ^ (N.of_nat nb * N.of_nat nv)).
        + replace (N.of_nat nb * N.of_nat nv)
            with (N.of_nat nb * N.of_nat (S p) + N.of_nat ((nv - p - 1) * nb)) by nia.
          rewrite N.pow_add_r. apply N.mul_lt_mono_pos_r; auto using pow2_pos.
        + eapply pow_le_64; eauto. }
    rewrite Hv.
    exists (upd cb1 w v). split; [apply set_ok; auto|].
    split; [rewrite upd_length; auto|].
    intros w' Hw'. destruct (Nat.eq_dec w w') as [<-|Hnew].
    + rewrite get_upd_eq by auto. auto.
    + rewrite get_upd_neq by auto. rewrite Hlow by auto. do 2 f_equal. nia.
Qed.

(** Reading one value of a filled column. *)
Lemma read_packed : forall nb nv f cb i, (0 < nv)%nat -> (0 < nb)%nat -> (nb * nv <= 64)%nat ->
  (forall k, f k < 2 ^ N.of_nat nb) ->
  get cb (i / nv) = Ok (packf (N.of_nat nb) f (i / nv * nv) nv) ->
  get_value_from_column i cb (2 ^ N.of_nat nb - 1) nv nb = Ok (f i).
Proof.
  intros nb nv f cb i Hnv Hnb H64 Hf Hg.
  unfold get_value_from_column. destruct nv as [|nv']; [lia|]. set (nv := S nv') in *.
  cbv zeta. rewrite Hg. cbn [bind].
  set (w := (i / nv)%nat) in *. set (p := (i mod nv)%nat).
  assert (Hip : i = (w * nv + p)%nat /\ (p < nv)%nat).
  { unfold w, p. pose proof (Nat.div_mod i nv). pose proof (Nat.mod_upper_bound i nv). lia. }
  destruct Hip as [Hip Hp].
  set (s := ((nv - p - 1) * nb)%nat).
  unfold shl64, shr64. replace (s <? 64)%nat with true
    by (symmetry; apply Nat.ltb_lt; unfold s; nia).
  cbn [bind]. f_equal.
  assert (Hm : w64 (N.shiftl (2 ^ N.of_nat nb - 1) (N.of_nat s))
             = N.shiftl (2 ^ N.of_nat nb - 1) (N.of_nat s)).
  { apply w64_small. rewrite N.shiftl_mul_pow2.
    apply N.lt_le_trans with (2 ^ N.of_nat nb * 2 ^ N.of_nat s).
    - apply N.mul_lt_mono_pos_r; [apply pow2_pos|]. pose proof (pow2_pos (N.of_nat nb)). lia.
    - rewrite <- N.pow_add_r. apply N.pow_le_mono_r; [lia|]. unfold s. nia. }
  rewrite Hm. rewrite N.shiftr_land, N.shiftr_shiftl_l by lia.
  rewrite N.sub_diag, N.shiftl_0_r.
  replace (2 ^ N.of_nat nb - 1) with (N.ones (N.of_nat nb))
    by (rewrite N.ones_equiv; lia).
  rewrite N.land_ones.
  pose proof (packf_read (N.of_nat nb) f (w * nv) p (nv - p - 1) (fun k _ => Hf k)) as Hr.
  replace (p + 1 + (nv - p - 1))%nat with nv in Hr by lia.
  replace (N.of_nat s) with (N.of_nat (nv - p - 1) * N.of_nat nb) by (unfold s; lia).
  rewrite Hr. f_equal. lia.
Qed.

(** ** Layout of the columns *)
Definition n_words_of (n : nat) (mv : N) : nat :=
  ((n + (column_n_values mv - 1)) / column_n_values mv)%nat.

Lemma column_layout : forall mv, mv < 2 ^ 63 ->
  (0 < column_n_bits mv < 64)%nat /\ (0 < column_n_values mv)%nat /\
  (column_n_bits mv * column_n_values mv <= 64)%nat /\
  mv < 2 ^ N.of_nat (column_n_bits mv) /\
  column_bitmask mv = Ok (2 ^ N.of_nat (column_n_bits mv) - 1).
Proof.
  intros mv Hmv. unfold column_bitmask, column_n_values.
  assert (Hb : (0 < column_n_bits mv < 64)%nat /\ mv < 2 ^ N.of_nat (column_n_bits mv)).
  { unfold column_n_bits. destruct (N.leb_spec mv 1).
    - split; [lia|]. simpl. lia.
    - pose proof (N.log2_up_spec (mv + 1)) as [_ H2]; [lia|].
      assert (H3 : N.log2_up (mv + 1) <= N.log2_up (2 ^ 63)) by (apply N.log2_up_le_mono; lia).
      rewrite N.log2_up_pow2 in H3 by lia.
      assert (H4 : 0 < N.log2_up (mv + 1)) by (apply N.log2_up_pos; lia).
      rewrite N2Nat.id. split; [|lia]. lia. }
  destruct Hb as [Hb Hlt]. split; [auto|].
  destruct (N.leb_spec mv 1) as [H1|H1].
  - assert (E : column_n_bits mv = 1%nat).
    { unfold column_n_bits. replace (mv <=? 1) with true by (symmetry; apply N.leb_le; auto). auto. }
    rewrite E in *. repeat split; auto; lia.
  - repeat split; auto.
    + apply Nat.div_str_pos. lia.
    + apply Nat.mul_div_le. lia.
    + unfold shl64. replace (column_n_bits mv <? 64)%nat with true
        by (symmetry; apply Nat.ltb_lt; lia).
      cbn [bind]. f_equal. rewrite N.shiftl_1_l.
      assert (Hp : 2 ^ N.of_nat (column_n_bits mv) <= 2 ^ 63) by (apply N.pow_le_mono_r; lia).
      pose proof (pow2_pos (N.of_nat (column_n_bits mv))) as Hpos.
      rewrite (w64_small (2 ^ N.of_nat (column_n_bits mv))) by (eapply N.le_lt_trans; [exact Hp|]; reflexivity).
      unfold w64.
      replace (2 ^ N.of_nat (column_n_bits mv) + (2 ^ 64 - 1))
        with ((2 ^ N.of_nat (column_n_bits mv) - 1) + 1 * 2 ^ 64) by lia.
      rewrite N.mod_add by (apply N.pow_nonzero; lia).
      apply N.mod_small. eapply N.le_lt_trans with (2 ^ 63); [lia|reflexivity].
Qed.

Lemma n_words_enough : forall n mv, mv < 2 ^ 63 ->
  (n <= column_n_values mv * n_words_of n mv)%nat.
Proof.
  intros n mv H. destruct (column_layout mv H) as [_ [Hv _]]. unfold n_words_of.
  set (v := column_n_values mv) in *.
  pose proof (Nat.div_mod (n + (v - 1)) v). pose proof (Nat.mod_upper_bound (n + (v - 1)) v). nia.
Qed.

Record fba_wf (fb : fba) : Prop := {
  wf_nf : length (fb_max_values fb) = fb_n_features fb;
  wf_mv : forall j mv, nth_error (fb_max_values fb) j = Some mv -> mv < 2 ^ 63;
  wf_bits : fb_n_bits fb = map column_n_bits (fb_max_values fb);
  wf_vals : fb_n_values fb = map column_n_values (fb_max_values fb);
  wf_masks : fb_bitmasks fb =
    map (fun mv => 2 ^ N.of_nat (column_n_bits mv) - 1) (fb_max_values fb);
  wf_off_len : length (fb_offsets fb) = S (fb_n_features fb);
  wf_off : forall j mv lo, nth_error (fb_max_values fb) j = Some mv ->
    nth_error (fb_offsets fb) j = Some lo ->
    nth_error (fb_offsets fb) (S j) = Some (lo + n_words_of (fb_n_samples fb) mv)%nat;
  wf_end : forall j lo, nth_error (fb_offsets fb) j = Some lo ->
    (lo <= length (fb_bitarray fb))%nat
}.

Lemma offsets_loop_spec : forall n mvs o,
  (forall j mv, nth_error mvs j = Some mv -> mv < 2 ^ 63) ->
  exists offs, offsets_loop n o mvs = Ok offs /\ length offs = S (length mvs) /\
    nth_error offs 0 = Some o /\
    (forall j mv lo, nth_error mvs j = Some mv -> nth_error offs j = Some lo ->
       nth_error offs (S j) = Some (lo + n_words_of n mv)%nat) /\
    (forall j lo, nth_error offs j = Some lo -> (lo <= last offs 0)%nat).
Proof.
  induction mvs as [|mv mvs IH]; intros o H.
  - exists [o]. simpl. repeat split; auto.
    + intros j mv lo Hj; destruct j; discriminate.
    + intros [|[|j]] lo Hj; simpl in Hj; inversion Hj; auto.
  - destruct (column_layout mv (H 0%nat mv eq_refl)) as [_ [Hv _]].
    simpl. unfold column_n_words.
    destruct (column_n_values mv) as [|v'] eqn:Ev; [lia|].
    cbn [bind]. rewrite <- Ev.
    destruct (IH (o + (n + (column_n_values mv - 1)) / column_n_values mv)%nat) as [offs [E [L [H0 [HS HE]]]]].
    { intros j m Hj; apply (H (S j) m Hj). }
    rewrite E. cbn [bind]. exists (o :: offs). split; [auto|]. split; [simpl; auto|].
    split; [auto|].
    assert (Hlast : last (o :: offs) 0%nat = last offs 0%nat).
    { destruct offs; [simpl in L; lia|]. auto. }
    split.
    + intros [|j] m lo Hj Hlo; simpl in Hj, Hlo.
      * inversion Hj; inversion Hlo; subst. simpl. unfold n_words_of. auto.
      * simpl. apply HS; auto.
    + intros [|j] lo Hj; rewrite Hlast; simpl in Hj.
      * inversion Hj; subst. specialize (HE 0%nat _ H0). lia.
      * apply (HE j). auto.
Qed.

Lemma fba_init_spec : forall mem n mvs,
  (forall j mv, nth_error mvs j = Some mv -> mv < 2 ^ 63) ->
  exists fb, fba_init mem n mvs = Ok fb /\ fba_wf fb /\
    fb_n_samples fb = n /\ fb_n_features fb = length mvs /\ fb_max_values fb = mvs.
Proof.
  intros mem n mvs H. unfold fba_init.
  rewrite (mapM_pure _ (fun mv => 2 ^ N.of_nat (column_n_bits mv) - 1)).
  - cbn [bind]. destruct (offsets_loop_spec n mvs 0%nat H) as [offs [E [L [H0 [HS HE]]]]].
    rewrite E. cbn [bind]. eexists; split; [reflexivity|].
    repeat split; simpl; auto.
    intros j lo Hj. rewrite map_length, seq_length. eauto.
  - intros mv Hin. apply In_nth_error in Hin. destruct Hin as [j Hj].
    apply (column_layout mv). eauto.
Qed.

Lemma wf_get_col : forall fb j, fba_wf fb -> (j < fb_n_features fb)%nat ->
  exists mv lo hi cb,
    nth_error (fb_max_values fb) j = Some mv /\ mv < 2 ^ 63 /\
    get (fb_offsets fb) j = Ok lo /\ get (fb_offsets fb) (S j) = Ok hi /\
    hi = (lo + n_words_of (fb_n_samples fb) mv)%nat /\
    slice (fb_bitarray fb) lo hi = Ok cb /\
    length cb = n_words_of (fb_n_samples fb) mv /\
    get (fb_n_values fb) j = Ok (column_n_values mv) /\
    get (fb_n_bits fb) j = Ok (column_n_bits mv) /\
    get (fb_bitmasks fb) j = Ok (2 ^ N.of_nat (column_n_bits mv) - 1).
Proof.
  intros fb j W Hj. destruct W as [W1 W2 W3 W4 W5 W6 W7 W8].
  destruct (get_in (fb_max_values fb) j) as [mv Hmv]; [lia|].
  destruct (get_in (fb_offsets fb) j) as [lo Hlo]; [lia|].
  apply get_ok in Hmv. pose proof (proj1 (get_ok _ _ _) Hlo) as Hlo'.
  pose proof (W7 _ _ _ Hmv Hlo') as Hhi'.
  pose proof (W8 _ _ Hhi') as Hle.
  assert (Hs : exists cb, slice (fb_bitarray fb) lo (lo + n_words_of (fb_n_samples fb) mv) = Ok cb).
  { eexists. apply slice_ok. split; [|reflexivity]. lia. }
  destruct Hs as [cb Hs].
  eexists mv, lo, _, cb. split; [auto|]. split; [eauto|]. split; [auto|].
  split; [apply get_ok; eauto|]. split; [reflexivity|].
  split; [exact Hs|].
  split; [apply slice_length in Hs; lia|].
  rewrite W3, W4, W5. 
  split; [|split]; apply get_ok; apply map_nth_error with (1 := Hmv).
Qed.

Lemma offsets_mono : forall fb j k lo lo', fba_wf fb -> (j <= k)%nat ->
  nth_error (fb_offsets fb) j = Some lo -> nth_error (fb_offsets fb) k = Some lo' -> (lo <= lo')%nat.
Proof.
  intros fb j k lo lo' W Hjk; revert lo'. induction Hjk as [|k Hjk IH]; intros lo' H1 H2.
  - assert (lo = lo') by congruence. lia.
  - assert (Hk : (S k < length (fb_offsets fb))%nat) by (apply nth_error_Some; congruence).
    rewrite (wf_off_len fb W) in Hk.
    destruct (get_in (fb_max_values fb) k) as [mv Hmv]; [rewrite (wf_nf fb W); lia|].
    destruct (get_in (fb_offsets fb) k) as [lk Hlk]; [rewrite (wf_off_len fb W); lia|].
    apply get_ok in Hmv; apply get_ok in Hlk.
    pose proof (wf_off fb W _ _ _ Hmv Hlk). specialize (IH _ H1 Hlk).
    assert (lo' = (lk + n_words_of (fb_n_samples fb) mv)%nat) by congruence. lia.
Qed.

(** ** Filling a column *)
Definition same_layout (fb fb' : fba) : Prop :=
  fb_n_samples fb' = fb_n_samples fb /\ fb_n_features fb' = fb_n_features fb /\
  fb_max_values fb' = fb_max_values fb.

Lemma fill_column_spec : forall fb j mv col, fba_wf fb ->
  nth_error (fb_max_values fb) j = Some mv ->
  (0 < fb_n_samples fb)%nat -> length col = fb_n_samples fb ->
  (forall x, In x col -> x <= mv) ->
  exists fb', fill_column fb j col = Ok fb' /\ fba_wf fb' /\ same_layout fb fb' /\
    (forall i x, nth_error col i = Some x -> get_value fb' i j = Ok x) /\
    (forall i j', j' <> j -> get_value fb' i j' = get_value fb i j') /\
    (forall k, (k < nth j (fb_offsets fb) 0 \/ nth (S j) (fb_offsets fb) 0 <= k)%nat ->
       nth_error (fb_bitarray fb') k = nth_error (fb_bitarray fb) k).
Proof.
  intros fb j mv col W Hmv Hn Hlen Hcol.
  assert (Hj : (j < fb_n_features fb)%nat).
  { rewrite <- (wf_nf fb W). apply nth_error_Some. congruence. }
  destruct (wf_get_col fb j W Hj) as (mv' & lo & hi & cb & Hmv' & Hlt & Hlo & Hhi & Ehi & Hcb & Lcb & Hv & Hb & Hm).
  assert (mv' = mv) by congruence; subst mv'. clear Hmv'.
  destruct (column_layout mv Hlt) as (Hnb & Hnv & H64 & Hmvb & _).
  unfold fill_column. rewrite Hlo, Hhi. cbn [bind]. rewrite Hcb, Hv, Hb. cbn [bind].
  assert (Hcell : forall i, cell col i < 2 ^ N.of_nat (column_n_bits mv)).
  { intros i. unfold cell. destruct (lt_dec i (length col)).
    - eapply N.le_lt_trans; [|exact Hmvb]. apply Hcol. apply nth_In. auto.
    - rewrite nth_overflow by lia. apply pow2_pos. }
  destruct (fill_column_raw_spec (column_n_bits mv) (column_n_values mv) col cb) as (cb' & Hf & Lcb' & Hw); auto; try lia.
  { rewrite Lcb, Hlen. apply n_words_enough; auto. }
  rewrite Hf. cbn [bind].
  assert (Hle : (lo + length cb' <= length (fb_bitarray fb))%nat).
  { apply slice_ok in Hcb. destruct Hcb as [Hc _]. rewrite Lcb', Lcb. lia. }
  destruct (splice (fb_bitarray fb) lo cb') as [b|e] eqn:Hsp.
  2:{ unfold splice in Hsp. apply Nat.leb_le in Hle. rewrite Hle in Hsp. discriminate. }
  cbn [bind]. pose proof (splice_length _ _ _ _ Hsp) as Lb.
  assert (W' : fba_wf {|
        fb_n_samples := fb_n_samples fb; fb_n_features := fb_n_features fb;
        fb_max_values := fb_max_values fb; fb_n_bits := fb_n_bits fb;
        fb_offsets := fb_offsets fb; fb_n_values := fb_n_values fb;
        fb_bitmasks := fb_bitmasks fb; fb_bitarray := b |}).
  { destruct W; constructor; simpl; auto. intros; rewrite Lb; eauto. }
  eexists; split; [reflexivity|]. split; [exact W'|].
  split; [repeat split|]. split; [|split].
  - intros i x Hx.
    assert (Hi : (i < length col)%nat) by (apply nth_error_Some; congruence).
    unfold get_value; simpl. rewrite Hv, Hlo, Hhi. cbn [bind].
    assert (Hs' : exists cb2, slice b lo hi = Ok cb2).
    { eexists; apply slice_ok; split; [|reflexivity]. rewrite Lb. subst hi. rewrite Lcb', Lcb in Hle. lia. }
    destruct Hs' as [cb2 Hs']. rewrite Hs', Hb, Hm. cbn [bind].
    rewrite (read_packed _ _ (cell col)); auto; try lia.
    + f_equal. unfold cell. apply nth_error_nth with (1 := Hx).
    + assert (Hwi : (i / column_n_values mv < hi - lo)%nat).
      { apply Nat.div_lt_upper_bound; [lia|].
        replace (hi - lo)%nat with (n_words_of (fb_n_samples fb) mv) by lia.
        pose proof (n_words_enough (fb_n_samples fb) mv Hlt). lia. }
      rewrite (get_slice _ _ _ _ _ Hs') by auto.
      rewrite (get_splice_in _ _ _ _ _ Hsp) by lia.
      apply Hw. pose proof (Nat.div_mod i (column_n_values mv)). nia.
  - intros i j' Hne. unfold get_value; simpl.
    destruct (get (fb_n_values fb) j') as [v|]; auto. cbn [bind].
    destruct (get (fb_offsets fb) j') as [lo'|] eqn:Hlo'; auto. cbn [bind].
    destruct (get (fb_offsets fb) (S j')) as [hi'|] eqn:Hhi'; auto. cbn [bind].
    assert (Hsl : slice b lo' hi' = slice (fb_bitarray fb) lo' hi').
    { destruct (slice (fb_bitarray fb) lo' hi') as [s1|e1] eqn:E1.
      - assert (E2 : exists s2, slice b lo' hi' = Ok s2).
        { apply slice_ok in E1. eexists; apply slice_ok; split; [|reflexivity]. rewrite Lb; tauto. }
        destruct E2 as [s2 E2]. rewrite E2. f_equal.
        pose proof (slice_length _ _ _ _ E1) as L1. pose proof (slice_length _ _ _ _ E2) as L2.
        apply get_ext; [lia|]. intros k Hk.
        rewrite (get_slice _ _ _ _ _ E1) by lia. rewrite (get_slice _ _ _ _ _ E2) by lia.
        apply (get_splice_out _ _ _ _ _ Hsp).
        apply get_ok in Hlo'. apply get_ok in Hhi'.
        destruct (lt_dec j' j) as [Hlt'|Hge].
        + left. apply get_ok in Hlo. pose proof (offsets_mono fb (S j') j _ _ W Hlt' Hhi' Hlo). lia.
        + right. apply get_ok in Hhi.
          pose proof (offsets_mono fb (S j) j' _ _ W ltac:(lia) Hhi Hlo'). lia.
      - unfold slice in *. rewrite Lb. destruct (((lo' <=? hi') && (hi' <=? length (fb_bitarray fb)))%nat)%bool;
          [discriminate|auto]. }
    rewrite Hsl. auto.
  - intros k Hk. simpl. rewrite (get_nth _ _ _ _ Hlo), (get_nth _ _ _ _ Hhi) in Hk.
    pose proof (get_splice_out _ _ _ _ k Hsp) as Hg. unfold get in Hg.
    assert (Hd : (k < lo \/ lo + length cb' <= k)%nat) by lia. specialize (Hg Hd).
    destruct (nth_error b k), (nth_error (fb_bitarray fb) k); congruence.
Qed.

(** ** Histories of fills *)
Definition fill_op (fb : fba) (op : nat * list N) : res fba := fill_column fb (fst op) (snd op).

Fixpoint last_write (ops : list (nat * list N)) (j : nat) : option (list N) :=
  match ops with
  | [] => None
  | (j', col) :: t =>
      match last_write t j with
      | Some c => Some c
      | None => if Nat.eqb j' j then Some col else None
      end
  end.

Definition valid_op (n : nat) (mvs : list N) (op : nat * list N) : Prop :=
  exists mv, nth_error mvs (fst op) = Some mv /\ length (snd op) = n /\
             forall x, In x (snd op) -> x <= mv.

Lemma fills_spec : forall ops fb, fba_wf fb -> (0 < fb_n_samples fb)%nat ->
  Forall (valid_op (fb_n_samples fb) (fb_max_values fb)) ops ->
  exists fb', foldM fill_op ops fb = Ok fb' /\ fba_wf fb' /\ same_layout fb fb' /\
    (forall i j, get_value fb' i j =
       match last_write ops j with
       | None => get_value fb i j
       | Some col => match nth_error col i with Some x => Ok x | None => get_value fb' i j end
       end).
Proof.
  induction ops as [|[j col] ops IH]; intros fb W Hn HV.
  - exists fb; simpl. split; [auto|]. split; [auto|]. split; [repeat split|]. auto.
  - inversion HV as [|? ? [mv [Hmv [Hl Hx]]] HV' E1]; subst.
    destruct (fill_column_spec fb j mv col W Hmv Hn Hl Hx) as (fb1 & Hf & W1 & (S1 & S2 & S3) & R1 & R2 & _).
    destruct (IH fb1 W1) as (fb2 & Hf2 & W2 & (T1 & T2 & T3) & R).
    { rewrite S1; auto. }
    { rewrite S1, S3. auto. }
    exists fb2. split; [simpl; unfold fill_op at 1; simpl; rewrite Hf; auto|].
    split; auto. split; [repeat split; congruence|].
    intros i j'. simpl. specialize (R i j').
    destruct (last_write ops j') as [c|]; auto.
    rewrite R. destruct (Nat.eqb_spec j j') as [<-|Hne].
    + destruct (nth_error col i) as [x|] eqn:E; auto.
    + auto.
Qed.

(** ** Matrices *)
Lemma fold_max_le : forall col a, (a <= fold_left N.max col a /\ forall x, In x col -> x <= fold_left N.max col a).
Proof.
  induction col as [|y col IH]; intros a; simpl.
  - split; [lia|tauto].
  - destruct (IH (N.max a y)) as [H1 H2]. split; [lia|]. intros x [<-|Hx]; [lia|auto].
Qed.

Lemma fold_max_bound : forall col a b, a < b -> (forall x, In x col -> x < b) -> fold_left N.max col a < b.
Proof.
  induction col as [|y col IH]; intros a b Ha H; simpl; auto.
  apply IH; [|intros; apply H; simpl; auto]. specialize (H y (or_introl eq_refl)). lia.
Qed.

Lemma column_of_spec : forall X nf j, (forall row, In row X -> length row = nf) -> (j < nf)%nat ->
  exists col, column_of X j = Ok col /\ length col = length X /\
    (forall i row, nth_error X i = Some row -> exists x, nth_error col i = Some x /\ nth_error row j = Some x) /\
    (forall x, In x col -> exists row, In row X /\ In x row).
Proof.
  induction X as [|row X IH]; intros nf j H Hj.
  - exists []. unfold column_of; simpl. split; [auto|]. split; [auto|].
    split; [intros [|i] ? E; discriminate | simpl; tauto].
  - destruct (IH nf j) as (col & E & L & Hi & Hin); [intros; apply H; simpl; auto|auto|].
    destruct (get_in row j) as [x Hx]; [rewrite (H row); simpl; auto|].
    exists (x :: col). unfold column_of in *. simpl. rewrite Hx; cbn [bind]. rewrite E; cbn [bind].
    split; auto. split; [simpl; auto|]. apply get_ok in Hx. split.
    + intros [|i] r Hr; simpl in Hr.
      * inversion Hr; subst. exists x; auto.
      * simpl. eauto.
    + intros y [<-|Hy].
      * exists row. split; [simpl; auto|]. eapply nth_error_In; eauto.
      * destruct (Hin y Hy) as [r [? ?]]. exists r; simpl; auto.
Qed.

Lemma fill_values_loop : forall X nf k s fb, (forall row, In row X -> length row = nf) ->
  (s + k <= nf)%nat -> fba_wf fb -> (0 < length X)%nat -> fb_n_samples fb = length X ->
  (forall j row x, nth_error (fb_max_values fb) j = None \/
     (In row X -> nth_error row j = Some x -> forall mv, nth_error (fb_max_values fb) j = Some mv -> x <= mv)) ->
  length (fb_max_values fb) = nf ->
  (forall i j row, (j < s)%nat -> nth_error X i = Some row ->
     exists x, nth_error row j = Some x /\ get_value fb i j = Ok x) ->
  exists fb', foldM (fun fb j => let* col := column_of X j in fill_column fb j col) (seq s k) fb = Ok fb' /\
    fba_wf fb' /\ same_layout fb fb' /\
    (forall i j row, (j < s + k)%nat -> nth_error X i = Some row ->
       exists x, nth_error row j = Some x /\ get_value fb' i j = Ok x).
Proof.
  intros X nf. induction k as [|k IH]; intros s fb HX Hs W Hne Hns Hmax Hlen Hdone.
  - exists fb. simpl. split; [auto|]. split; [auto|]. split; [repeat split|].
    intros i j row Hj; apply Hdone; lia.
  - simpl. destruct (column_of_spec X nf s HX) as (col & E & L & Hi & _); [lia|].
    rewrite E; cbn [bind].
    destruct (nth_error (fb_max_values fb) s) as [mv|] eqn:Emv.
    2:{ apply nth_error_None in Emv. lia. }
    assert (Hcol : forall x, In x col -> x <= mv).
    { intros x Hin. apply In_nth_error in Hin. destruct Hin as [i Hxi].
      destruct (nth_error X i) as [row|] eqn:Er.
      - destruct (Hi i row Er) as [y [Hy1 Hy2]].
        destruct (Hmax s row x) as [Hbad|Hok]; [congruence|].
        apply Hok; auto; [eapply nth_error_In; eauto | congruence].
      - apply nth_error_None in Er. assert (i < length col)%nat by (apply nth_error_Some; congruence). lia. }
    destruct (fill_column_spec fb s mv col W Emv) as (fb1 & Hf & W1 & (S1 & S2 & S3) & R1 & R2 & _); auto; try lia.
    rewrite Hf; cbn [bind].
    destruct (IH (S s) fb1) as (fb2 & Hf2 & W2 & (T1 & T2 & T3) & R); auto; try lia.
    + intros j row x. rewrite S3. apply Hmax.
    + rewrite S3; auto.
    + intros i j row Hj Hrow. destruct (Nat.eq_dec j s) as [->|Hns'].
      * destruct (Hi i row Hrow) as [x [Hx1 Hx2]]. exists x; auto.
      * rewrite R2 by auto. apply Hdone; auto; lia.
    + exists fb2. split; [exact Hf2|]. split; auto. split; [repeat split; congruence|].
      intros i j row Hj; apply R; lia.
Qed.

Lemma array_to_bitarray_spec : forall mem nf X, (0 < length X)%nat ->
  (forall row, In row X -> length row = nf) ->
  (forall row x, In row X -> In x row -> x < 2 ^ 63) ->
  exists fb, array_to_bitarray mem nf X = Ok fb /\ fba_wf fb /\
    fb_n_samples fb = length X /\ fb_n_features fb = nf /\
    (forall mv, In mv (fb_max_values fb) -> mv < 2 ^ 63) /\
    (forall i j row x, nth_error X i = Some row -> nth_error row j = Some x ->
       get_value fb i j = Ok x /\ exists mv, nth_error (fb_max_values fb) j = Some mv /\ x <= mv).
Proof.
  intros mem nf X Hne HX Hb. unfold array_to_bitarray.
  destruct (mapM_total (column_of X) (seq 0 nf)) as [cols Hcols].
  { intros j Hj. apply in_seq in Hj. destruct (column_of_spec X nf j HX) as (col & E & _); [lia|]. eauto. }
  rewrite Hcols; cbn [bind].
  apply mapM_ok in Hcols. destruct Hcols as [Lc Hc]. rewrite seq_length in Lc.
  assert (Hc' : forall j, (j < nf)%nat -> exists col, nth_error cols j = Some col /\ column_of X j = Ok col).
  { intros j Hj. destruct (Hc j j) as [col [H1 H2]]; [|eauto].
    rewrite nth_error_nth' with (d := 0%nat) by (rewrite seq_length; auto).
    rewrite seq_nth by auto. auto. }
  assert (Hmvs : forall j mv, nth_error (map col_max cols) j = Some mv -> mv < 2 ^ 63).
  { intros j mv Hj. assert (Hjl : (j < nf)%nat).
    { rewrite <- Lc, <- (map_length col_max cols). apply nth_error_Some; congruence. }
    destruct (Hc' j Hjl) as [col [H1 H2]].
    rewrite (map_nth_error col_max j cols H1) in Hj. assert (mv = col_max col) by congruence; subst mv.
    apply fold_max_bound; [reflexivity|]. intros x Hx.
    destruct (column_of_spec X nf j HX Hjl) as (col' & E & _ & _ & Hin).
    assert (col' = col) by congruence; subst col'. destruct (Hin x Hx) as [row [? ?]]. eauto. }
  destruct (fba_init_spec mem (length X) (map col_max cols) Hmvs) as (fb0 & E0 & W0 & N0 & F0 & M0).
  rewrite E0; cbn [bind]. unfold fill_values. rewrite F0, map_length, Lc.
  assert (Hle : forall i j row x, nth_error X i = Some row -> nth_error row j = Some x ->
     exists mv, nth_error (map col_max cols) j = Some mv /\ x <= mv).
  { intros i j row x Hr Hx. assert (Hjl : (j < nf)%nat).
    { rewrite <- (HX row) by (eapply nth_error_In; eauto). apply nth_error_Some; congruence. }
    destruct (Hc' j Hjl) as [col [H1 H2]].
    exists (col_max col). split; [apply map_nth_error; auto|].
    destruct (column_of_spec X nf j HX Hjl) as (col' & E & _ & Hi & _).
    assert (col' = col) by congruence; subst col'.
    destruct (Hi i row Hr) as [y [Hy1 Hy2]]. assert (y = x) by congruence; subst y.
    unfold col_max. apply (fold_max_le col 0). eapply nth_error_In; eauto. }
  destruct (fill_values_loop X nf nf 0%nat fb0) as (fb & Hf & W & (S1 & S2 & S3) & R); auto.
  - intros j row x. right. rewrite M0. intros Hr Hx mv Hmv.
    apply In_nth_error in Hr. destruct Hr as [i Hr].
    destruct (Hle i j row x Hr Hx) as [mv' [? ?]]. assert (mv' = mv) by congruence; subst; auto.
  - rewrite M0, map_length; auto.
  - intros; lia.
  - exists fb. split; [exact Hf|]. split; auto. split; [congruence|].
    split; [rewrite S2, F0, map_length; auto|].
    split.
    + intros mv Hin. rewrite S3, M0 in Hin. apply In_nth_error in Hin. destruct Hin as [j Hj]. eauto.
    + intros i j row x Hr Hx. rewrite S3, M0. split; [|eauto].
      assert (Hjl : (j < nf)%nat).
      { rewrite <- (HX row) by (eapply nth_error_In; eauto). apply nth_error_Some; congruence. }
      destruct (R i j row Hjl Hr) as [y [? ?]]. congruence.
Qed.

Lemma matrix_dtype_fits : forall mv, mv < 2 ^ 63 ->
  exists bits, matrix_dtype_bits mv = Ok bits /\ mv < 2 ^ bits.
Proof.
  intros mv H. unfold matrix_dtype_bits.
  destruct (N.leb_spec mv 255); [exists 8; split; auto; change (2 ^ 8) with 256; lia|].
  destruct (N.leb_spec mv 65535); [exists 16; split; auto; change (2 ^ 16) with 65536; lia|].
  destruct (N.leb_spec mv 4294967295); [exists 32; split; auto; change (2 ^ 32) with 4294967296; lia|].
  change (2 ^ 63) with 9223372036854775808 in H.
  replace (mv <=? 18446744073709551615) with true by (symmetry; apply N.leb_le; lia).
  exists 64; split; auto. change (2 ^ 64) with 18446744073709551616. lia.
Qed.

Lemma map_nth_seq : forall {A} (l : list A) d, map (fun i => nth i l d) (seq 0 (length l)) = l.
Proof.
  induction l; intros d; simpl; auto. f_equal. rewrite <- seq_shift, map_map. apply IHl.
Qed.

Lemma to_array_spec : forall fb X nf, (0 < nf)%nat ->
  fb_n_samples fb = length X -> fb_n_features fb = nf -> length (fb_max_values fb) = nf ->
  (forall row, In row X -> length row = nf) ->
  (forall mv, In mv (fb_max_values fb) -> mv < 2 ^ 63) ->
  (forall i j row x, nth_error X i = Some row -> nth_error row j = Some x ->
     get_value fb i j = Ok x /\ exists mv, nth_error (fb_max_values fb) j = Some mv /\ x <= mv) ->
  to_array fb = Ok X.
Proof.
  intros fb X nf Hnf Hns Hnfb Hlm HX Hmv HR. unfold to_array.
  destruct (fb_max_values fb) as [|m0 mvs] eqn:Em; [simpl in Hlm; lia|]. rewrite <- Em in *.
  destruct (matrix_dtype_fits (col_max (fb_max_values fb))) as [bits [Eb Hb]].
  { apply fold_max_bound; [reflexivity|auto]. }
  rewrite Eb; cbn [bind].
  rewrite (mapM_pure _ (fun i => nth i X [])).
  - f_equal. rewrite Hns. apply map_nth_seq.
  - intros i Hi. apply in_seq in Hi. rewrite Hns in Hi.
    destruct (nth_error X i) as [row|] eqn:Er; [|apply nth_error_None in Er; lia].
    rewrite (nth_error_nth _ _ _ Er).
    assert (Hlr : length row = nf) by (apply HX; eapply nth_error_In; eauto).
    rewrite (mapM_pure _ (fun j => nth j row 0)).
    + f_equal. rewrite Hnfb, <- Hlr. apply map_nth_seq.
    + intros j Hj. apply in_seq in Hj.
      destruct (nth_error row j) as [x|] eqn:Ex; [|apply nth_error_None in Ex; lia].
      destruct (HR i j row x Er Ex) as [Hg [mv [Hm Hle]]].
      rewrite Hg; cbn [bind]. rewrite (nth_error_nth _ _ _ Ex). f_equal.
      apply N.mod_small. eapply N.le_lt_trans; [|exact Hb].
      eapply N.le_trans; [exact Hle|]. unfold col_max. apply (fold_max_le (fb_max_values fb) 0).
      eapply nth_error_In; eauto.
Qed.
