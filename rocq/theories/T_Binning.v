(** * Property theorems: binning of continuous columns (C03, C04, C05) *)

Require Import List Arith ZArith Lia Permutation Reals Lra SpecFloat.
Require Import QArith.
Require Import Verif.Base Verif.Num Verif.M_Binning Verif.P_Binning Verif.P_BinningR.
Import ListNotations.
Local Open Scope nat_scope.

(** ** C03 *)

(** The documented meaning of a bin index: [x] is in bin [b] iff it is larger than the
    thresholds before [b] and not larger than the ones from [b] on. *)
Definition in_bin {A : arith} (thr : list (num A)) (x : num A) (b : nat) : Prop :=
  b <= length thr /\
  forall j t, nth_error thr j = Some t ->
    (j < b -> aleb x t = false) /\ (b <= j -> aleb x t = true).

(** C03, for every arithmetic with a transitive comparison: a column is binned without an
    error, each entry is sent to its interval, missing entries to the missing-values bin. *)
Theorem C03_bins_are_intervals : forall (A : arith) (col thr : list (num A)) (missing_bin : nat),
  (forall x y z : num A, aleb x y = true -> aleb y z = true -> aleb x z = true) ->
  (forall i j s t, i < j -> nth_error thr i = Some s -> nth_error thr j = Some t -> aleb s t = true) ->
  exists out, bin_continuous_column col thr missing_bin = Ok out /\ length out = length col /\
    forall i x, nth_error col i = Some x ->
      exists b, nth_error out i = Some b /\
        (anan x = true -> b = missing_bin) /\ (anan x = false -> in_bin thr x b).
Proof.
  intros A col thr mb HT HS. unfold bin_continuous_column.
  destruct (mapM_total (bin_value thr mb) col) as [out Hout].
  { intros x _. destruct (bin_value_spec thr mb x HT HS) as (b & Hb & _). eauto. }
  exists out. destruct (mapM_ok _ _ _ Hout) as [HL HN]. split; [auto|]. split; [auto|].
  intros i x Hx. destruct (HN i x Hx) as (b & Hb & Hv). exists b.
  destruct (bin_value_spec thr mb x HT HS) as (b' & Hb' & H1 & H2).
  rewrite Hv in Hb'. inversion Hb'; subst b'. repeat split; auto; try (apply H2; auto).
Qed.
Print Assumptions C03_bins_are_intervals.

(** The comparison of IEEE numbers is transitive. *)
Lemma sf_leb_trans : forall x y z, SFleb x y = true -> SFleb y z = true -> SFleb x z = true.
Proof.
  intros x y z. unfold SFleb, SFcompare.
  destruct x as [sx|sx| |sx mx ex], y as [sy|sy| |sy my ey], z as [sz|sz| |sz mz ez];
    try (destruct sx); try (destruct sy); try (destruct sz); try discriminate; auto;
    intros H1 H2;
    repeat match goal with
      | H : context [match Z.compare ?a ?b with _ => _ end] |- _ =>
          destruct (Z.compare_spec a b); try discriminate H
      end; subst; try discriminate;
    repeat match goal with
      | |- context [match Z.compare ?a ?b with _ => _ end] =>
          destruct (Z.compare_spec a b); try lia; auto
      end;
    repeat match goal with
      | H : context [CompOpp (Pcompare ?a ?b Eq)] |- _ => 
          change (Pcompare a b Eq) with (Pos.compare a b) in H
      | H : context [Pcompare ?a ?b Eq] |- _ => 
          change (Pcompare a b Eq) with (Pos.compare a b) in H
      | |- context [Pcompare ?a ?b Eq] => change (Pcompare a b Eq) with (Pos.compare a b)
      end;
    repeat match goal with
      | H : context [Pos.compare ?a ?b] |- _ =>
          destruct (Pos.compare_spec a b); simpl in H; try discriminate H
      | |- context [Pos.compare ?a ?b] =>
          destruct (Pos.compare_spec a b); simpl; try lia; auto
      end; subst; try lia; auto.
Qed.

(** C03 for IEEE double precision numbers. *)
Theorem C03_bins_are_intervals_binary64 :
  forall lnf expf (col thr : list spec_float) (missing_bin : nat),
  (forall i j s t, i < j -> nth_error thr i = Some s -> nth_error thr j = Some t -> SFleb s t = true) ->
  exists out, bin_continuous_column (A := F64 lnf expf) col thr missing_bin = Ok out /\
    length out = length col /\
    forall i x, nth_error col i = Some x ->
      exists b, nth_error out i = Some b /\
        (x = S754_nan -> b = missing_bin) /\
        (x <> S754_nan -> b <= length thr /\
           forall j t, nth_error thr j = Some t ->
             (j < b -> SFleb x t = false) /\ (b <= j -> SFleb x t = true)).
Proof.
  intros lnf expf col thr mb HS.
  destruct (C03_bins_are_intervals (F64 lnf expf) col thr mb sf_leb_trans HS) as (out & E & HL & H).
  exists out. split; auto. split; auto. intros i x Hx. destruct (H i x Hx) as (b & Hb & H1 & H2).
  exists b. split; auto. split.
  - intros ->. apply H1. reflexivity.
  - intros Hn. apply H2. destruct x; try reflexivity. congruence.
Qed.
Print Assumptions C03_bins_are_intervals_binary64.

(** The order of two values is never inverted. *)
Theorem C03_bins_monotone : forall (A : arith) (thr : list (num A)) x y bx by_,
  (forall x y z : num A, aleb x y = true -> aleb y z = true -> aleb x z = true) ->
  in_bin thr x bx -> in_bin thr y by_ -> aleb x y = true -> bx <= by_.
Proof.
  intros A thr x y bx by_ HT [Hx1 Hx2] [Hy1 Hy2] Hxy.
  destruct (le_lt_dec bx by_) as [|Hlt]; auto. exfalso.
  destruct (nth_error thr by_) as [t|] eqn:E; [|apply nth_error_None in E; lia].
  pose proof (proj1 (Hx2 _ _ E) Hlt) as F1. pose proof (proj2 (Hy2 _ _ E) (le_n _)) as F2.
  rewrite (HT x y t) in F1; auto. discriminate.
Qed.
Print Assumptions C03_bins_monotone.

(** Two different ways of going wrong are excluded by C03: here is a column with missing
    values and repeated thresholds. *)
Example C03_example : forall lnf expf,
  let f z := sf_ofZ 53 1024 z in
  bin_continuous_column (A := F64 lnf expf)
    [f 1; f 2; f 3; f (-7); S754_nan; f 100; S754_infinity false; S754_infinity true]%Z
    [f 1; f 2; f 2; f 50]%Z 5
  = Ok [0; 1; 3; 0; 5; 4; 4; 0].
Proof. intros. vm_compute. reflexivity. Qed.

(** ** C04 *)

(** C04, exact arithmetic. For a column with [d] different values and [max_bins >= 1] there
    are [min(d, max_bins) - 1] thresholds, so at most [max_bins] bins; they are
    non-decreasing and none exceeds the cap. [almost_inf] stands for [1e300]. *)
Theorem C04_thresholds_sorted_and_few : forall (almost_inf : R) (col : list R) (max_bins : nat),
  0 < max_bins ->
  exists thr, find_binning_thresholds (A := R_arith) almost_inf col max_bins = Ok thr /\
    length thr = Nat.min (length (nodup Req_EM_T col)) max_bins - 1 /\
    (forall i j s t, i <= j -> nth_error thr i = Some s -> nth_error thr j = Some t -> (s <= t)%R) /\
    (forall t, In t thr -> (t <= almost_inf)%R).
Proof.
  intros ai col mb Hm. destruct (thresholds_spec ai col mb Hm) as (thr & H1 & H2 & H3 & H4 & _).
  exists thr. auto.
Qed.
Print Assumptions C04_thresholds_sorted_and_few.

(** The two together: a whole column is binned, every bin is at most [max_bins - 1]. *)
Theorem C04_bins_below_max_bins : forall (almost_inf : R) (col : list R) (max_bins missing_bin : nat),
  0 < max_bins ->
  exists thr out, find_binning_thresholds (A := R_arith) almost_inf col max_bins = Ok thr /\
    bin_continuous_column (A := R_arith) col thr missing_bin = Ok out /\
    length out = length col /\ forall b, In b out -> b < max_bins.
Proof.
  intros ai col mb miss Hm. destruct (thresholds_spec ai col mb Hm) as (thr & H1 & H2 & H3 & _).
  destruct (C03_bins_are_intervals R_arith col thr miss) as (out & E & HL & H).
  { apply R_trans. }
  { intros i j s t Hij Hi Hj. apply Rleb_iff. eapply H3; [|exact Hi|exact Hj]. lia. }
  exists thr, out. split; auto. split; auto. split; auto. intros b Hb. change (num R_arith) with R in *.
  apply In_nth_error in Hb. destruct Hb as [i Hi].
  assert (i < length col) by (rewrite <- HL; apply nth_error_Some; congruence).
  destruct (nth_error col i) as [x|] eqn:Ex.
  2:{ apply nth_error_None in Ex. change (num R_arith) with R in *. lia. }
  destruct (H i x Ex) as (b' & Hb' & _ & H5). rewrite Hi in Hb'. inversion Hb'; subst b'.
  destruct (H5 eq_refl) as [H6 _]. change (num R_arith) with R in *. lia.
Qed.
Print Assumptions C04_bins_below_max_bins.

(** Both branches, run in rational arithmetic: 7 values in at most 10 bins, then in 3. *)
Example C04_example : forall lnf expf,
  let col := [5; 1; 1; 9; 4; 4; 8]%Q in
  find_binning_thresholds (A := Q_arith lnf expf) (1000)%Q col 10 = Ok [5 # 2; 9 # 2; 13 # 2; 17 # 2]%Q /\
  find_binning_thresholds (A := Q_arith lnf expf) (1000)%Q col 3 = Ok [4; 5]%Q.
Proof. intros; split; vm_compute; reflexivity. Qed.

(** ** C05 *)

(** C05, exact arithmetic. When a column has at most [max_bins] different values (below the
    cap [1e300]), the bin of a value is its rank among the different values. *)
Theorem C05_few_values_rank : forall (almost_inf : R) (col : list R) (max_bins missing_bin : nat),
  0 < max_bins -> length (nodup Req_EM_T col) <= max_bins ->
  (forall x, In x col -> (x <= almost_inf)%R) ->
  exists thr out, find_binning_thresholds (A := R_arith) almost_inf col max_bins = Ok thr /\
    bin_continuous_column (A := R_arith) col thr missing_bin = Ok out /\
    length out = length col /\
    forall i x, nth_error col i = Some x ->
      nth_error out i = Some (length (filter (fun v => Rltb v x) (nodup Req_EM_T col))).
Proof.
  intros ai col mb miss Hm Hd Hai.
  destruct (thresholds_spec ai col mb Hm) as (thr & H1 & H2 & H3 & _ & H4).
  specialize (H4 Hd).
  destruct (C03_bins_are_intervals R_arith col thr miss) as (out & E & HL & H).
  { apply R_trans. }
  { intros i j s t Hij Hi Hj. apply Rleb_iff. eapply H3; [|exact Hi|exact Hj]. lia. }
  exists thr, out. split; auto. split; auto. split; auto. intros i x Hx.
  destruct (H i x Hx) as (b & Hb & _ & Hin). specialize (Hin eq_refl).
  rewrite Hb. f_equal.
  set (u := @unique R_arith col) in *.
  assert (Hxu : In x u) by (apply unique_iff; eapply nth_error_In; eauto).
  apply In_nth_error in Hxu. destruct Hxu as [k Hk].
  pose proof (unique_sinc col) as HS. fold u in HS.
  rewrite <- (Permutation_length (filter_perm _ _ _ (unique_nodup col))). fold u.
  change (num R_arith) with R in *. rewrite (sinc_rank u k x HS Hk).
  assert (Hlen : length thr = length u - 1).
  { rewrite H4, map_length, middles_length. reflexivity. }
  assert (Hklt : k < length u) by (apply nth_error_Some; congruence).
  assert (Hthr : forall j t, nth_error thr j = Some t ->
            exists y z, nth_error u j = Some y /\ nth_error u (S j) = Some z /\ t = ((y + z) / 2)%R).
  { intros j t Hj. rewrite H4 in Hj. apply nth_error_map_inv in Hj. destruct Hj as (m & Em & ->).
    apply middles_nth_inv in Em.
    destruct Em as (y & z & Hy & Hz & ->). exists y, z. split; auto. split; auto.
    unfold clip_max. simpl.
    assert (y <= ai)%R by (apply Hai; apply (proj1 (unique_iff col y)); eapply nth_error_In; eauto).
    assert (z <= ai)%R by (apply Hai; apply (proj1 (unique_iff col z)); eapply nth_error_In; eauto).
    replace (Rltb ai ((y + z) * / 2)) with false by (symmetry; apply Rltb_false; lra). lra. }
  destruct Hin as [Hb1 Hb2]. change (num R_arith) with R in *.
  destruct (lt_eq_lt_dec b k) as [[L|L]|L]; auto; exfalso.
  - (* threshold b would be at least x although u_b, u_{b+1} <= x *)
    destruct (nth_error thr b) as [t|] eqn:Et; [|apply nth_error_None in Et; lia].
    pose proof (proj2 (Hb2 b t Et) (le_n _)) as G. apply Rleb_iff in G.
    destruct (Hthr b t Et) as (y & z & Hy & Hz & ->).
    pose proof (HS b k y x L Hy Hk).
    assert (z <= x)%R.
    { destruct (Nat.eq_dec (S b) k) as [<-|N]; [rewrite Hk in Hz; inversion Hz; lra|].
      left. apply (HS (S b) k z x); auto; lia. }
    lra.
  - destruct (nth_error thr k) as [t|] eqn:Et; [|apply nth_error_None in Et; lia].
    pose proof (proj1 (Hb2 k t Et) L) as G. apply Rleb_false in G.
    destruct (Hthr k t Et) as (y & z & Hy & Hz & ->).
    rewrite Hk in Hy. inversion Hy; subst y. pose proof (HS k (S k) x z ltac:(lia) Hk Hz). lra.
Qed.
Print Assumptions C05_few_values_rank.

(** In particular two different values never share a bin. *)
Theorem C05_few_values_separated : forall (almost_inf : R) (col : list R) (max_bins missing_bin : nat),
  0 < max_bins -> length (nodup Req_EM_T col) <= max_bins ->
  (forall x, In x col -> (x <= almost_inf)%R) ->
  exists thr out, find_binning_thresholds (A := R_arith) almost_inf col max_bins = Ok thr /\
    bin_continuous_column (A := R_arith) col thr missing_bin = Ok out /\
    forall i j x y b, nth_error col i = Some x -> nth_error col j = Some y ->
      nth_error out i = Some b -> (nth_error out j = Some b <-> x = y).
Proof.
  intros ai col mb miss Hm Hd Hai.
  destruct (C05_few_values_rank ai col mb miss Hm Hd Hai) as (thr & out & H1 & H2 & HL & H3).
  exists thr, out. split; auto. split; auto. intros i j x y b Hx Hy Hb.
  rewrite (H3 i x Hx) in Hb. rewrite (H3 j y Hy). inversion Hb as [Hb']. clear Hb. subst b.
  split; intro E; [|subst; auto]. inversion E as [E'].
  set (u := @unique R_arith col).
  rewrite <- !(Permutation_length (filter_perm _ _ _ (unique_nodup col))) in E'. fold u in E'.
  assert (Hxu : In x u) by (apply unique_iff; eapply nth_error_In; eauto).
  assert (Hyu : In y u) by (apply unique_iff; eapply nth_error_In; eauto).
  apply In_nth_error in Hxu. destruct Hxu as [k Hk]. apply In_nth_error in Hyu. destruct Hyu as [l Hl].
  pose proof (unique_sinc col) as HS. fold u in HS.
  change (num R_arith) with R in *. rewrite (sinc_rank u k x HS Hk), (sinc_rank u l y HS Hl) in E'. subst l.
  change (num R_arith) with R in *. congruence.
Qed.
Print Assumptions C05_few_values_separated.

Example C05_example : forall lnf expf,
  let col := [5; 1; 1; 9; 4; 4; 8]%Q in
  exists thr, find_binning_thresholds (A := Q_arith lnf expf) 1000%Q col 10 = Ok thr /\
    bin_continuous_column (A := Q_arith lnf expf) col thr 99 = Ok [2; 0; 0; 4; 1; 1; 3].
Proof. intros; eexists; split; vm_compute; reflexivity. Qed.

(** C05 fails for IEEE doubles, in three ways. The two values are different, there are only
    two of them, and they land in the same bin.
    (1) neighbouring doubles: the middle rounds to the larger one;
    (2) values above [1e300]: the threshold is capped;
    (3) the two infinities: their middle is NaN. *)
Definition f64_1e300 : spec_float := S754_finite false 6724873095247260 944.

Theorem C05_doubles_merged_refuted : forall lnf expf (x y : spec_float),
  In (x, y) [ (S754_finite false 4503599627370497 (-52), S754_finite false 4503599627370498 (-52));
              (S754_finite false 6724873095247260 945, S754_finite false 5043654821435445 946);
              (S754_infinity true, S754_infinity false) ] ->
  SFltb x y = true /\
  exists thr b, find_binning_thresholds (A := F64 lnf expf) f64_1e300 [x; y] 256 = Ok thr /\
    bin_continuous_column (A := F64 lnf expf) [x; y] thr 99 = Ok [b; b].
Proof.
  intros lnf expf x y H.
  destruct H as [H|[H|[H|[]]]]; inversion H; subst; (split; [reflexivity|]);
    do 2 eexists; (split; [vm_compute; reflexivity|]); vm_compute; reflexivity.
Qed.
Print Assumptions C05_doubles_merged_refuted.
