(** * Two classes and the Gini index: sorting the bins by proportion is enough

    The weighted Gini index [2ab/(a+b)] is concave and homogeneous, so it is the minimum of
    its tangents. For a subset of the bins, replacing the two indices by their tangents gives
    a linear cost, minimal on a set of bins given by a threshold on the proportion. *)

Require Import List Arith Lia Reals Lra Sorted.
Require Import Verif.Base Verif.Num Verif.S_Impurity Verif.P_Impurity Verif.P_Bins Verif.P_SplitR Verif.P_SplitTasks Verif.P_Cuts.
Import ListNotations.
Local Open Scope R_scope.
Local Open Scope list_scope.

Definition gf (a b : R) : R := 2 * a * b / (a + b).

Lemma gf_tangent : forall a b a' b', 0 <= a -> 0 <= b -> 0 < a + b -> 0 <= a' -> 0 <= b' ->
  gf a' b' <= 2 * (b / (a + b)) * (b / (a + b)) * a' + 2 * (a / (a + b)) * (a / (a + b)) * b'.
Proof.
  intros a b a' b' Ha Hb Hab Ha' Hb'. unfold gf.
  set (q := b / (a + b)). set (p := a / (a + b)).
  assert (Hpq : p + q = 1) by (unfold p, q; field; lra).
  destruct (Req_dec (a' + b') 0) as [H0|H0].
  - assert (a' = 0) by lra. assert (b' = 0) by lra. subst. unfold Rdiv. lra.
  - assert (Hs : 0 < a' + b') by lra.
    apply Rmult_le_reg_r with (a' + b'); [lra|].
    replace (2 * a' * b' / (a' + b') * (a' + b')) with (2 * a' * b') by (field; lra).
    assert (E : (2 * q * q * a' + 2 * p * p * b') * (a' + b') - 2 * a' * b' = 2 * ((q * a' - p * b') * (q * a' - p * b'))).
    { replace q with (1 - p) by lra. ring. }
    assert (0 <= (q * a' - p * b') * (q * a' - p * b')) by apply Rle_0_sqr. lra.
Qed.

Lemma gf_self : forall a b, 0 < a + b ->
  gf a b = 2 * (b / (a + b)) * (b / (a + b)) * a + 2 * (a / (a + b)) * (a / (a + b)) * b.
Proof. intros a b H. unfold gf. field. lra. Qed.

Lemma gf_zero : gf 0 0 = 0.
Proof. unfold gf, Rdiv. ring. Qed.

(** The sum is not larger than the whole. *)
Lemma gf_super : forall a b a' b', 0 <= a -> 0 <= b -> 0 <= a' -> 0 <= b' -> 0 < a + a' + (b + b') ->
  gf a b + gf a' b' <= gf (a + a') (b + b').
Proof.
  intros a b a' b' Ha Hb Ha' Hb' H.
  pose proof (gf_tangent (a + a') (b + b') a b ltac:(lra) ltac:(lra) H Ha Hb) as H1.
  pose proof (gf_tangent (a + a') (b + b') a' b' ltac:(lra) ltac:(lra) H Ha' Hb') as H2.
  rewrite (gf_self (a + a') (b + b') H). lra.
Qed.

Section TwoClasses.
Context (u v : nat -> R).

Definition S1 (f : nat -> R) (l : list nat) : R := Rsum (map f l).
(** Cost of sending the bins of [l] on one side and those of [m] on the other. *)
Definition cost (l m : list nat) : R := gf (S1 u l) (S1 v l) + gf (S1 u m) (S1 v m).

Lemma cost_sym : forall l m, cost l m = cost m l.
Proof. intros. unfold cost. lra. Qed.

Context (o : list nat) (Hu : forall b, In b o -> 0 <= u b) (Hv : forall b, In b o -> 0 <= v b)
  (Huv : forall b, In b o -> 0 < u b + v b).

Lemma S1_nonneg : forall l, incl l o -> 0 <= S1 u l /\ 0 <= S1 v l.
Proof.
  intros l H. split; apply Rsum_nonneg; intros x Hx; apply in_map_iff in Hx; destruct Hx as [b [<- Hb]]; auto.
Qed.
Lemma S1_pos : forall l, incl l o -> l <> [] -> 0 < S1 u l + S1 v l.
Proof.
  intros l H Hl. unfold S1. rewrite <- Rsum_plus. apply Rsum_pos; auto.
Qed.
Lemma S1_filter : forall f (s : nat -> bool) l, S1 f (filter s l) + S1 f (filter (fun b => negb (s b)) l) = S1 f l.
Proof. intros. unfold S1. induction l as [|b l IH]; simpl; [lra|]. destruct (s b); simpl; lra. Qed.

(** The sum over a set is the largest for the set of the negative terms. *)
Lemma best_linear : forall (c : nat -> R) (s : nat -> bool) l,
  S1 c (filter (fun b => if Rlt_dec (c b) 0 then true else false) l) <= S1 c (filter s l).
Proof.
  intros c s l. unfold S1. induction l as [|b l IH]; simpl; [lra|].
  destruct (Rlt_dec (c b) 0), (s b); simpl; lra.
Qed.

Lemma S1_lin : forall x y l, S1 (fun b => x * u b + y * v b) l = x * S1 u l + y * S1 v l.
Proof.
  intros. unfold S1. rewrite Rsum_plus. rewrite (Rsum_scal u), (Rsum_scal v). auto.
Qed.

Lemma filter_split : forall (s : nat -> bool) p r, (forall b, In b p -> s b = true) -> (forall b, In b r -> s b = false) ->
  filter s (p ++ r) = p /\ filter (fun b => negb (s b)) (p ++ r) = r.
Proof.
  intros s p r Hp Hr.
  assert (G : forall (t : nat -> bool) l, (forall b, In b l -> t b = true) -> filter t l = l).
  { induction l; simpl; intros H; auto. rewrite H by auto. f_equal. apply IHl. intros; apply H; auto. }
  assert (G' : forall (t : nat -> bool) l, (forall b, In b l -> t b = false) -> filter t l = []).
  { induction l; simpl; intros H; auto. rewrite H by auto. apply IHl. intros; apply H; auto. }
  rewrite !filter_app. split.
  - rewrite (G s p), (G' s r), app_nil_r; auto.
  - rewrite (G' _ p), (G _ r); auto; intros b Hb; [rewrite Hr|rewrite Hp]; auto.
Qed.

(** [w] is the proportion of one of the two classes, by which the bins are sorted. *)
Context (w : nat -> R) (Hw : (forall b, In b o -> w b = v b / (u b + v b)) \/ (forall b, In b o -> w b = u b / (u b + v b)))
  (Hs : StronglySorted (fun b b' => w b <= w b') o).

(** A linear cost is an affine function of the proportion, up to a positive factor. *)
Lemma affine : forall x y, exists al be, forall b, In b o -> x * u b + y * v b = (u b + v b) * (al + be * w b).
Proof.
  intros x y. destruct Hw as [H|H].
  - exists x, (y - x). intros b Hb. rewrite H by auto. specialize (Huv b Hb). field. lra.
  - exists y, (x - y). intros b Hb. rewrite H by auto. specialize (Huv b Hb). field. lra.
Qed.

Theorem gini2_best_prefix : forall s : nat -> bool, filter s o <> [] -> filter (fun b => negb (s b)) o <> [] ->
  exists p r, o = p ++ r /\ p <> [] /\ r <> [] /\ cost p r <= cost (filter s o) (filter (fun b => negb (s b)) o).
Proof.
  intros s HL HR.
  set (L := filter s o) in *. set (Q := filter (fun b => negb (s b)) o) in *.
  assert (IL : incl L o) by (intros b Hb; apply filter_In in Hb; tauto).
  assert (IQ : incl Q o) by (intros b Hb; apply filter_In in Hb; tauto).
  pose proof (S1_pos L IL HL) as PL. pose proof (S1_pos Q IQ HR) as PQ.
  destruct (S1_nonneg L IL) as [NL1 NL2]. destruct (S1_nonneg Q IQ) as [NQ1 NQ2].
  (* the tangents at the two sides *)
  set (g1 := 2 * (S1 v L / (S1 u L + S1 v L)) * (S1 v L / (S1 u L + S1 v L))).
  set (g2 := 2 * (S1 u L / (S1 u L + S1 v L)) * (S1 u L / (S1 u L + S1 v L))).
  set (h1 := 2 * (S1 v Q / (S1 u Q + S1 v Q)) * (S1 v Q / (S1 u Q + S1 v Q))).
  set (h2 := 2 * (S1 u Q / (S1 u Q + S1 v Q)) * (S1 u Q / (S1 u Q + S1 v Q))).
  set (c := fun b => (g1 - h1) * u b + (g2 - h2) * v b).
  set (t := fun b => if Rlt_dec (c b) 0 then true else false).
  assert (Hcost : forall l m, incl l o -> incl m o -> cost l m <= g1 * S1 u l + g2 * S1 v l + (h1 * S1 u m + h2 * S1 v m)).
  { intros l m Hl Hm. unfold cost. destruct (S1_nonneg l Hl) as [A1 A2]. destruct (S1_nonneg m Hm) as [A3 A4].
    pose proof (gf_tangent _ _ _ _ NL1 NL2 PL A1 A2) as T1. pose proof (gf_tangent _ _ _ _ NQ1 NQ2 PQ A3 A4) as T2.
    fold g1 g2 in T1. fold h1 h2 in T2. lra. }
  assert (Hself : cost L Q = g1 * S1 u L + g2 * S1 v L + (h1 * S1 u Q + h2 * S1 v Q)).
  { unfold cost. rewrite (gf_self _ _ PL), (gf_self _ _ PQ). fold g1 g2 h1 h2. lra. }
  assert (Hopt : cost (filter t o) (filter (fun b => negb (t b)) o) <= cost L Q).
  { assert (I1 : incl (filter t o) o) by (intros b Hb; apply filter_In in Hb; tauto).
    assert (I2 : incl (filter (fun b => negb (t b)) o) o) by (intros b Hb; apply filter_In in Hb; tauto).
    pose proof (Hcost _ _ I1 I2) as HC. pose proof (best_linear c s o) as HB. fold t in HB.
    change (filter (fun b => if Rlt_dec (c b) 0 then true else false) o) with (filter t o) in HB. fold L in HB.
    unfold c in HB. rewrite !S1_lin in HB.
    pose proof (S1_filter u t o) as F1. pose proof (S1_filter v t o) as F2.
    pose proof (S1_filter u s o) as F3. pose proof (S1_filter v s o) as F4. fold L Q in F3, F4.
    rewrite Hself.
    assert (S1 v (filter (fun b => negb (t b)) o) = S1 v L + S1 v Q - S1 v (filter t o)) as E2 by lra.
    assert (S1 u (filter (fun b => negb (t b)) o) = S1 u L + S1 u Q - S1 u (filter t o)) as E1 by lra.
    rewrite E1, E2 in HC.
    lra. }
  (* a threshold on the proportion *)
  assert (Hpre : exists p r, o = p ++ r /\ cost p r <= cost L Q).
  { destruct (affine (g1 - h1) (g2 - h2)) as (al & be & Haff).
    assert (Ht : forall b, In b o -> t b = true <-> al + be * w b < 0).
    { intros b Hb. unfold t, c. rewrite Haff by auto. pose proof (Huv b Hb) as Hp.
      destruct (Rlt_dec ((u b + v b) * (al + be * w b)) 0) as [H|H]; split; intros H'; auto; try discriminate.
      - destruct (Rlt_dec (al + be * w b) 0); auto. exfalso.
        assert (0 <= (u b + v b) * (al + be * w b)) by (apply Rmult_le_pos; lra). lra.
      - exfalso. apply H. rewrite <- (Rmult_0_r (u b + v b)). apply Rmult_lt_compat_l; lra. }
    destruct (Rle_dec 0 be) as [Hbe|Hbe].
    - destruct (lower_prefix w t o Hs) as (p & r & E & H1 & H2).
      { intros b b' Hb Hb' Htb Hle. apply Ht; auto. apply Ht in Htb; auto.
        assert (be * w b <= be * w b') by (apply Rmult_le_compat_l; auto). lra. }
      exists p, r. split; auto. destruct (filter_split t p r H1 H2) as [F1 F2]. rewrite <- E in F1, F2.
      rewrite F1, F2 in Hopt. exact Hopt.
    - destruct (lower_prefix w (fun b => negb (t b)) o Hs) as (p & r & E & H1 & H2).
      { intros b b' Hb Hb' Htb Hle. apply Bool.negb_true_iff in Htb. apply Bool.negb_true_iff.
        destruct (t b) eqn:Eb; auto. apply Ht in Eb; auto.
        assert (Hn : ~ al + be * w b' < 0) by (intro Hn; apply Ht in Hn; auto; congruence).
        assert (be * w b' <= be * w b).
        { assert (0 <= (- be) * (w b' - w b)) by (apply Rmult_le_pos; lra). lra. }
        lra. }
      exists p, r. split; auto. destruct (filter_split (fun b => negb (t b)) p r H1 H2) as [F1 F2]. rewrite <- E in F1, F2.
      assert (F3 : filter (fun b => negb (negb (t b))) o = filter t o).
      { apply filter_ext. intro b. apply Bool.negb_involutive. }
      rewrite F3 in F2. rewrite F1, F2 in Hopt. rewrite cost_sym. exact Hopt. }
  (* if the threshold does not split, no cut improves on the node, and any prefix will do *)
  destruct Hpre as (p & r & E & Hc).
  assert (Htriv : cost o [] <= cost L Q -> exists p r, o = p ++ r /\ p <> [] /\ r <> [] /\ cost p r <= cost L Q).
  { intros Ho. destruct o as [|b1 [|b2 o']] eqn:Eo.
    - exfalso. apply HL. reflexivity.
    - exfalso. unfold L, Q in *. simpl in HL, HR. destruct (s b1); simpl in *; congruence.
    - exists [b1], (b2 :: o'). split; auto. split; [discriminate|]. split; [discriminate|].
      eapply Rle_trans; [|exact Ho]. rewrite <- Eo in *.
      assert (I1 : incl [b1] o) by (rewrite Eo; intros x [<-|[]]; simpl; auto).
      assert (I2 : incl (b2 :: o') o) by (rewrite Eo; intros x Hx; simpl in *; auto).
      destruct (S1_nonneg _ I1) as [A1 A2]. destruct (S1_nonneg _ I2) as [A3 A4].
      pose proof (S1_pos [b1] I1 ltac:(discriminate)) as P1.
      unfold cost. assert (E1 : S1 u [] = 0) by reflexivity. assert (E2 : S1 v [] = 0) by reflexivity.
      rewrite E1, E2, gf_zero. rewrite Rplus_0_r.
      assert (E3 : forall f, S1 f o = S1 f [b1] + S1 f (b2 :: o')) by (intro f; rewrite Eo; unfold S1; simpl; lra).
      rewrite !E3. apply gf_super; auto. lra. }
  destruct p as [|b p].
  - apply Htriv. simpl in E. subst r. rewrite cost_sym. exact Hc.
  - destruct r as [|b' r].
    + apply Htriv. rewrite app_nil_r in E. subst o. exact Hc.
    + exists (b :: p), (b' :: r). split; auto. split; [discriminate|]. split; [discriminate|]. exact Hc.
Qed.
End TwoClasses.
