(** * Binning over the real numbers *)

Require Import List Arith Lia Permutation Reals Lra.
Require Import Verif.Base Verif.Num Verif.M_Binning Verif.P_Binning.
Import ListNotations.
Local Open Scope nat_scope.

Lemma Rleb_iff : forall x y, Rleb x y = true <-> (x <= y)%R.
Proof. intros; unfold Rleb; destruct (Rle_dec x y); split; intros; auto; try discriminate; lra. Qed.
Lemma Rleb_false : forall x y, Rleb x y = false <-> (y < x)%R.
Proof. intros; unfold Rleb; destruct (Rle_dec x y); split; intros; auto; try discriminate; lra. Qed.
Lemma Rltb_iff : forall x y, Rltb x y = true <-> (x < y)%R.
Proof. intros; unfold Rltb; destruct (Rlt_dec x y); split; intros; auto; try discriminate; lra. Qed.
Lemma Rltb_false : forall x y, Rltb x y = false <-> (y <= x)%R.
Proof. intros; unfold Rltb; destruct (Rlt_dec x y); split; intros; auto; try discriminate; lra. Qed.
Lemma Risz_iff : forall x, Risz x = true <-> x = 0%R.
Proof. intros; unfold Risz; destruct (Req_EM_T x 0); split; intros; auto; discriminate. Qed.
Lemma Risz_false : forall x, Risz x = false <-> x <> 0%R.
Proof. intros; unfold Risz; destruct (Req_EM_T x 0); split; intros; auto; try discriminate; contradiction. Qed.

Lemma R_trans : @le_trans_A R_arith.
Proof. intros x y z; simpl; rewrite !Rleb_iff; lra. Qed.
Lemma R_total : @le_total_A R_arith.
Proof. intros x y; simpl; rewrite !Rleb_iff; lra. Qed.

Lemma chain_map : forall {A} (R R' : num A -> num A -> Prop) f l,
  (forall x y, R x y -> R' (f x) (f y)) -> chain R l -> chain R' (map f l).
Proof.
  induction l; simpl; auto. intros H [H1 H2]. split; auto.
  intros y Hy. apply in_map_iff in Hy. destruct Hy as (x & <- & Hx). auto.
Qed.

Lemma nth_chain : forall {A} (R : num A -> num A -> Prop) l,
  (forall i j s t, i < j -> nth_error l i = Some s -> nth_error l j = Some t -> R s t) -> chain R l.
Proof.
  induction l; simpl; auto. intros H. split.
  - intros y Hy. apply In_nth_error in Hy. destruct Hy as [n Hn].
    apply (H 0 (S n)); auto; lia.
  - apply IHl. intros i j s t Hij Hi Hj. apply (H (S i) (S j)); auto; lia.
Qed.

Definition ndec (l : list R) : Prop :=
  forall i j s t, i <= j -> nth_error l i = Some s -> nth_error l j = Some t -> (s <= t)%R.

Definition sinc (l : list R) : Prop :=
  forall i j s t, i < j -> nth_error l i = Some s -> nth_error l j = Some t -> (s < t)%R.

Lemma sort_ndec : forall l, ndec (@sort_num R_arith l).
Proof.
  intros l i j s t Hij Hi Hj. destruct (Nat.eq_dec i j) as [->|N].
  - rewrite Hi in Hj. inversion Hj. lra.
  - pose proof (chain_nth _ _ (sort_num_sorted (A:=R_arith) l R_trans R_total) i j s t ltac:(lia) Hi Hj) as H.
    apply Rleb_iff in H. auto.
Qed.

Lemma unique_sinc : forall l, sinc (@unique R_arith l).
Proof.
  intros l i j s t Hij Hi Hj.
  pose proof (chain_nth _ _ (unique_strict (A:=R_arith) l R_trans R_total) i j s t Hij Hi Hj) as [_ H].
  apply Rleb_false in H. auto.
Qed.

Lemma unique_iff : forall l x, In x (@unique R_arith l) <-> In x l.
Proof.
  intros l x; split; [apply unique_In|]. intros H. unfold unique.
  destruct (dedupe_covers (A:=R_arith) (sort_num l) x) as (y & Hy & E1 & E2); auto.
  - apply R_trans.
  - apply sort_num_sorted; [apply R_trans|apply R_total].
  - intros y. apply Rleb_iff; lra.
  - eapply Permutation_in; [apply sort_num_perm|]; auto.
  - apply Rleb_iff in E1. apply Rleb_iff in E2. replace x with y by lra. auto.
Qed.

Lemma sinc_NoDup : forall l, sinc l -> NoDup l.
Proof.
  intros l H. apply NoDup_nth_error. intros i j Hi E.
  destruct (nth_error l i) as [x|] eqn:Ei; [|apply nth_error_None in Ei; lia].
  destruct (lt_eq_lt_dec i j) as [[L|L]|L]; auto.
  - pose proof (H i j x x L Ei (eq_sym E)); lra.
  - pose proof (H j i x x L (eq_sym E) Ei); lra.
Qed.

Lemma unique_nodup : forall l, Permutation (@unique R_arith l) (nodup Req_EM_T l).
Proof.
  intros l. apply NoDup_Permutation.
  - apply sinc_NoDup, unique_sinc.
  - apply NoDup_nodup.
  - intros x. rewrite unique_iff, nodup_In. reflexivity.
Qed.

Lemma filter_true : forall {X} (f : X -> bool) l, (forall x, In x l -> f x = true) -> filter f l = l.
Proof.
  induction l; simpl; intros H; auto. rewrite H by auto. rewrite IHl; auto.
Qed.

Lemma filter_R : forall l : list R, filter (fun x => negb (anan (a:=R_arith) x)) l = l.
Proof. intros. apply filter_true. auto. Qed.

(** In a strictly increasing list, the number of elements below the [i]-th is [i]. *)
Lemma sinc_rank : forall l i x, sinc l -> nth_error l i = Some x ->
  length (filter (fun v => Rltb v x) l) = i.
Proof.
  induction l; intros i x HS Hi; [destruct i; discriminate|].
  assert (HS' : sinc l).
  { intros p q s t Hpq Hp Hq. apply (HS (S p) (S q) s t); auto; lia. }
  simpl. destruct i; simpl in Hi.
  - inversion Hi; subst a. replace (Rltb x x) with false by (symmetry; apply Rltb_false; lra).
    assert (forall y, In y l -> Rltb y x = false).
    { intros y Hy. apply In_nth_error in Hy. destruct Hy as [n Hn].
      apply Rltb_false. left. apply (HS 0 (S n) x y); auto; lia. }
    clear -H. induction l; simpl; auto. rewrite H by (left; auto). apply IHl. intros; apply H; right; auto.
  - rewrite (proj2 (Rltb_iff a x)) by (apply (HS 0 (S i) a x); auto; lia).
    simpl. f_equal. apply IHl; auto.
Qed.

Lemma filter_perm : forall {X} (f : X -> bool) l l', Permutation l l' -> Permutation (filter f l) (filter f l').
Proof.
  induction 1; simpl; auto.
  - destruct (f x); auto.
  - destruct (f x), (f y); auto. apply perm_swap.
  - eapply perm_trans; eauto.
Qed.

Lemma percentile_spec : forall (s : list R) k mb, 0 < length s -> 0 < mb -> k < mb ->
  exists v, @percentile_midpoint R_arith s k mb = Ok v /\
    exists lo hi, nth_error s ((length s - 1) * k / mb) = Some lo /\
      (v = lo \/ (nth_error s ((length s - 1) * k / mb + 1) = Some hi /\
                  (length s - 1) * k mod mb <> 0 /\ v = ((lo + hi) / 2)%R)).
Proof.
  intros s k mb Hs Hm Hk. unfold percentile_midpoint. change (num R_arith) with R in *.
  set (v := (length s - 1) * k).
  assert (Hv : v = mb * (v / mb) + v mod mb) by (apply Nat.div_mod; lia).
  assert (Hf : v / mb <= length s - 1).
  { apply Nat.div_le_upper_bound; [lia|]. unfold v. nia. }
  destruct (get_in s (v / mb) ltac:(lia)) as [lo Hlo].
  destruct (v mod mb =? 0) eqn:E.
  - exists lo. split; [exact Hlo|]. exists lo, lo. split; [apply get_ok; auto|]. left; auto.
  - apply Nat.eqb_neq in E.
    assert (v / mb + 1 < length s).
    { destruct (Nat.eq_dec (v / mb) (length s - 1)) as [H|H]; [|lia]. exfalso.
      rewrite H in Hv. assert (v <= (length s - 1) * mb) by (unfold v; nia). nia. }
    destruct (get_in s (v / mb + 1) H) as [hi Hhi].
    rewrite Hlo. cbn [bind]. rewrite Hhi. cbn [bind]. eexists. split; [reflexivity|].
    exists lo, hi. split; [apply get_ok; auto|]. right. split; [apply get_ok; auto|].
    split; auto. simpl. lra.
Qed.

Lemma percentile_mono : forall (s : list R) k1 k2 mb v1 v2, ndec s ->
  0 < length s -> 0 < mb -> k1 < k2 -> k2 < mb ->
  @percentile_midpoint R_arith s k1 mb = Ok v1 -> @percentile_midpoint R_arith s k2 mb = Ok v2 ->
  (v1 <= v2)%R.
Proof.
  intros s k1 k2 mb v1 v2 HS Hs Hm H12 H2 E1 E2.
  destruct (percentile_spec s k1 mb Hs Hm ltac:(lia)) as (w1 & F1 & lo1 & hi1 & L1 & D1).
  destruct (percentile_spec s k2 mb Hs Hm ltac:(lia)) as (w2 & F2 & lo2 & hi2 & L2 & D2).
  change (num R_arith) with R in *. rewrite E1 in F1. rewrite E2 in F2. inversion F1; inversion F2; subst w1 w2.
  set (p1 := (length s - 1) * k1) in *. set (p2 := (length s - 1) * k2) in *.
  assert (Hp : p1 <= p2) by (unfold p1, p2; nia).
  assert (Hf : p1 / mb <= p2 / mb) by (apply Nat.div_le_mono; lia).
  pose proof (HS _ _ _ _ Hf L1 L2) as Hlo.
  destruct D1 as [->|(H1 & M1 & ->)]; destruct D2 as [->|(H2' & M2 & ->)].
  - auto.
  - pose proof (HS (p2 / mb) (p2 / mb + 1) _ _ ltac:(lia) L2 H2'). lra.
  - assert (p1 / mb < p2 / mb \/ p1 / mb = p2 / mb) as [Hlt|Heq] by lia.
    + pose proof (HS (p1 / mb + 1) (p2 / mb) _ _ ltac:(lia) H1 L2). lra.
    + (* the second one is exact: then the quotient grows *)
      destruct (percentile_spec s k2 mb Hs Hm ltac:(lia)) as (w2 & F2' & _).
      unfold percentile_midpoint in E2. change (num R_arith) with R in *. fold p2 in E2.
      destruct (p2 mod mb =? 0) eqn:E.
      * apply Nat.eqb_eq in E. exfalso.
        pose proof (Nat.div_mod p1 mb ltac:(lia)). pose proof (Nat.div_mod p2 mb ltac:(lia)).
        pose proof (Nat.mod_upper_bound p1 mb ltac:(lia)). nia.
      * apply bind_ok in E2. destruct E2 as (a & Ga & E2). apply bind_ok in E2. destruct E2 as (b & Gb & E2).
        inversion E2 as [Eq]. simpl in *. apply get_ok in Ga. apply get_ok in Gb.
        rewrite L2 in Ga. inversion Ga; subst a.
        rewrite Heq in H1. rewrite H1 in Gb. inversion Gb; subst b.
        rewrite Heq, L2 in L1. inversion L1; subst lo1. lra.
  - assert (p1 / mb < p2 / mb \/ p1 / mb = p2 / mb) as [Hlt|Heq] by lia.
    + pose proof (HS (p1 / mb + 1) (p2 / mb) _ _ ltac:(lia) H1 L2).
      pose proof (HS (p2 / mb) (p2 / mb + 1) _ _ ltac:(lia) L2 H2'). lra.
    + rewrite Heq in *. rewrite L2 in L1. rewrite H2' in H1. inversion L1; inversion H1; subst. lra.
Qed.

Lemma clip_mono : forall ai x y : R, (x <= y)%R ->
  (@clip_max R_arith ai x <= @clip_max R_arith ai y)%R.
Proof.
  intros ai x y H. unfold clip_max. simpl.
  destruct (Rltb ai x) eqn:E1, (Rltb ai y) eqn:E2;
    rewrite ?Rltb_iff, ?Rltb_false in *; lra.
Qed.

Lemma thresholds_spec : forall (ai : R) (col : list R) mb, 0 < mb ->
  exists thr, @find_binning_thresholds R_arith ai col mb = Ok thr /\
    length thr = Nat.min (length (nodup Req_EM_T col)) mb - 1 /\
    ndec thr /\ (forall t, In t thr -> (t <= ai)%R) /\
    (length (nodup Req_EM_T col) <= mb ->
       thr = map (@clip_max R_arith ai) (@middles R_arith (@unique R_arith col))).
Proof.
  intros ai col mb Hm. unfold find_binning_thresholds. rewrite filter_R.
  pose proof (Permutation_length (unique_nodup col)) as HL. change (num R_arith) with R in *.
  assert (Hclip : forall (l : list R) t, In t (map (@clip_max R_arith ai) l) -> (t <= ai)%R).
  { intros l t Ht. apply in_map_iff in Ht. destruct Ht as (x & <- & _). unfold clip_max. simpl.
    destruct (Rltb ai x) eqn:E; rewrite ?Rltb_iff, ?Rltb_false in *; lra. }
  assert (Hmap : forall l : list R, ndec l -> ndec (map (@clip_max R_arith ai) l)).
  { intros l H i j s t Hij Hi Hj. rewrite nth_error_map in Hi, Hj. change (num R_arith) with R in *.
    destruct (nth_error l i) eqn:Ei; [|discriminate]. destruct (nth_error l j) eqn:Ej; [|discriminate].
    cbn [option_map] in Hi, Hj. inversion Hi; inversion Hj. apply clip_mono. eapply H; eauto. }
  match goal with |- context [if ?c then _ else _] => destruct c eqn:E end.
  - apply Nat.leb_le in E. cbn [bind]. eexists; split; [reflexivity|].
    split; [rewrite map_length; rewrite middles_length; change (num R_arith) with R in *; lia|].
    split; [|split; [apply Hclip|auto]].
    apply Hmap. intros i j s t Hij Hi Hj. apply middles_nth_inv in Hi. apply middles_nth_inv in Hj.
    destruct Hi as (x & y & X1 & X2 & ->), Hj as (x' & y' & Y1 & Y2 & ->). simpl.
    destruct (Nat.eq_dec i j) as [->|N].
    + change (num R_arith) with R in *. rewrite X1 in Y1. rewrite X2 in Y2. inversion Y1; inversion Y2; subst; lra.
    + pose proof (unique_sinc col i j x x' ltac:(lia) X1 Y1).
      pose proof (unique_sinc col (S i) (S j) y y' ltac:(lia) X2 Y2). lra.
  - apply Nat.leb_gt in E.
    assert (Hs : 0 < length (@sort_num R_arith col)).
    { rewrite sort_num_length. destruct col; [simpl in *; lia|simpl; lia]. }
    destruct (mapM_total (fun k => @percentile_midpoint R_arith (sort_num col) k mb) (seq 1 (mb - 1))) as [r Hr].
    { intros k Hk. apply in_seq in Hk. destruct (percentile_spec (@sort_num R_arith col) k mb) as (v & Hv & _);
        auto; try lia. exists v; exact Hv. }
    match goal with |- context [bind ?m _] => replace m with (Ok (A:=list R) r) by (symmetry; exact Hr) end.
    cbn [bind]. eexists; split; [reflexivity|].
    destruct (mapM_ok _ _ _ Hr) as [HLr HNr]. rewrite seq_length in HLr.
    split; [rewrite map_length, Nat.min_r by lia; auto|].
    split; [|split; [apply Hclip|intros; lia]].
    apply Hmap. intros i j s t Hij Hi Hj.
    destruct (Nat.eq_dec i j) as [->|N]; [rewrite Hi in Hj; inversion Hj; lra|].
    assert (Hjl : j < mb - 1) by (rewrite <- HLr; apply nth_error_Some; intro K; change (num R_arith) with R in *; congruence).
    assert (Si : nth_error (seq 1 (mb - 1)) i = Some (1 + i)).
    { rewrite (nth_error_nth' _ 0); [|rewrite seq_length; lia]. rewrite seq_nth by lia. auto. }
    assert (Sj : nth_error (seq 1 (mb - 1)) j = Some (1 + j)).
    { rewrite (nth_error_nth' _ 0); [|rewrite seq_length; lia]. rewrite seq_nth by lia. auto. }
    destruct (HNr _ _ Si) as (s' & Hs' & Ps). destruct (HNr _ _ Sj) as (t' & Ht' & Pt).
    change (num R_arith) with R in *. rewrite Hi in Hs'. rewrite Hj in Ht'. inversion Hs'; inversion Ht'; subst s' t'.
    apply (percentile_mono (@sort_num R_arith col) (1 + i) (1 + j) mb); auto; try lia. apply sort_ndec.
Qed.
