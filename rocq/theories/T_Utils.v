(** * C13 (feature sampling) and C31 (log_sum_2_exp) *)

Require Import List Arith Lia Permutation Reals Lra.
Require Import Verif.Base Verif.Num Verif.M_Utils Verif.M_Node Verif.P_BinningR Verif.P_Utils.
Import ListNotations.
Local Open Scope nat_scope.
Local Open Scope list_scope.

(** ** C13 *)

(** The states of the feature sampler met while a tree is grown: the initial one and what
    sampling at a node makes of it. *)
Inductive sampler_reachable {A} (E : env A) (n_features max_features : nat) : fsamp -> Prop :=
| sr_init : sampler_reachable E n_features max_features (init_fsamp n_features max_features)
| sr_node : forall fs (s : rng E) s' fs',
    sampler_reachable E n_features max_features fs ->
    sample_features s fs = Ok (s', fs') ->
    sampler_reachable E n_features max_features fs'.

Lemma sampler_reachable_ok : forall {A} (E : env A) nf mf fs, good_draws E -> mf <= nf ->
  sampler_reachable E nf mf fs -> fs_ok nf mf fs.
Proof.
  intros A E nf mf fs HE Hm H. induction H.
  - apply init_fsamp_ok.
  - destruct (sample_features_spec E s fs nf mf HE Hm IHsampler_reachable)
      as [s1 [fs1 [H1 [Hok _]]]]. rewrite H1 in H0. inversion H0; subst. auto.
Qed.

(** At every node, whatever the draws, sampling succeeds and the tried features are
    [max_features] pairwise distinct column indices. *)
Theorem C13_features_distinct : forall (A : arith) (E : env A) n_features max_features fs (s : rng E),
  (forall s n, 0 < n -> fst (draw E s n) < n) ->
  max_features <= n_features ->
  sampler_reachable E n_features max_features fs ->
  exists s' fs', sample_features s fs = Ok (s', fs') /\
    length (fs_sampled fs') = max_features /\
    NoDup (fs_sampled fs') /\
    (forall j, In j (fs_sampled fs') -> j < n_features).
Proof.
  intros A E nf mf fs s HE Hm Hr.
  destruct (sample_features_spec E s fs nf mf HE Hm (sampler_reachable_ok E nf mf fs HE Hm Hr))
    as [s' [fs' [H [[_ [_ [Hl _]]] [Hnd Hlt]]]]].
  exists s', fs'. auto.
Qed.

(** All the columns are tried when [max_features = n_features]. *)
Theorem C13_all_features : forall (A : arith) (E : env A) n_features fs (s : rng E) s' fs',
  (forall s n, 0 < n -> fst (draw E s n) < n) ->
  sampler_reachable E n_features n_features fs ->
  sample_features s fs = Ok (s', fs') ->
  fs_sampled fs' = seq 0 n_features.
Proof.
  intros A E nf fs s s' fs' HE Hr H.
  destruct (sample_features_spec E s fs nf nf HE (le_n _) (sampler_reachable_ok E nf nf fs HE (le_n _) Hr))
    as [s1 [fs1 [H1 [[_ [_ [_ Hall]]] _]]]].
  rewrite H1 in H. inversion H; subst. auto.
Qed.

(** Every arrangement of distinct features is produced by exactly one sequence of draws
    [j_0 < n, j_1 < n - 1, ...]: uniform independent draws give every arrangement the same
    probability. [tape_env] plays back a sequence of draws. *)
Theorem C13_one_tape_per_arrangement : forall (A : arith) (pool out0 out : list nat),
  length out = length out0 -> length out <= length pool ->
  NoDup out -> (forall x, In x out -> x < length pool) ->
  exists js,
    (length js = length out /\ good_tape (length pool) js /\
     exists pool', sample_without_replacement (tape_env A) js pool out0 = Ok ([], pool', out)) /\
    (forall js', length js' = length out -> good_tape (length pool) js' ->
       (exists s' pool', sample_without_replacement (tape_env A) js' pool out0 = Ok (s', pool', out)) ->
       js' = js).
Proof.
  intros A pool out0 out Hl Hp Hnd Hlt.
  assert (Hseq : firstn (length pool) (seq 0 (length pool)) = seq 0 (length pool))
    by (apply firstn_all2; rewrite seq_length; lia).
  assert (Hrun : forall js, length js = length out0 -> good_tape (length pool) js ->
     exists pool', sample_without_replacement (tape_env A) js pool out0 =
       Ok ([], pool', arrange (seq 0 (length pool)) (length pool) js)).
  { intros js Hj Hg. unfold sample_without_replacement. rewrite init_pool_spec. cbn [bind].
    rewrite <- Hj.
    destruct (tape_run A js 0 (length pool) (seq 0 (length pool)) out0)
      as [pool' [out' [H [_ [_ Hs]]]]]; rewrite ?seq_length; try lia.
    { rewrite Nat.sub_0_r; auto. }
    simpl in Hs. rewrite Nat.sub_0_r in Hs. subst out'. eauto. }
  destruct (arrange_exists out (seq 0 (length pool)) (length pool)) as [js [Hj [Hg Ha]]].
  - rewrite seq_length; auto.
  - auto.
  - rewrite Hseq. intros x Hx. apply in_seq. specialize (Hlt x Hx). lia.
  - rewrite Hseq. apply seq_NoDup.
  - exists js. split.
    + split; [auto|]. split; [auto|]. destruct (Hrun js ltac:(lia) Hg) as [pool' H].
      rewrite Ha in H. eauto.
    + intros js' Hj' Hg' [s' [pool' H']].
      destruct (Hrun js' ltac:(lia) Hg') as [pool2 H2]. rewrite H2 in H'. inversion H' as [[X1 X2 X3]].
      eapply (arrange_inj js' js (seq 0 (length pool)) (length pool)); auto.
      * rewrite seq_length; auto.
      * rewrite Hseq. apply seq_NoDup.
      * congruence.
Qed.

Example C13_example :
  let E := tape_env R_arith in
  sample_features (E := E) [2; 0; 1] (init_fsamp 5 3) =
    Ok ([], mkFsamp true [3; 4; 4; 3; 4] [2; 0; 1]).
Proof. reflexivity. Qed.

(** The tape environment is a generator whose draws are in range when the tape is. *)
Example C13_good_generator :
  let E := mkEnv R_arith nat (fun s n => (s mod n, S s)) (fun l => seq 0 (length l)) (fun _ => 0) in
  (forall s n, 0 < n -> fst (draw E s n) < n) /\
  sampler_reachable E 5 3 (init_fsamp 5 3).
Proof. split; [intros; apply Nat.mod_upper_bound; simpl in *; lia | constructor]. Qed.

(** ** C31 *)

Local Open Scope R_scope.

Theorem C31_value : forall a b : R,
  @log_sum_2_exp R_arith a b = ln ((exp a + exp b) / 2).
Proof. exact log_sum_2_exp_R. Qed.

Theorem C31_symmetric : forall a b : R,
  @log_sum_2_exp R_arith a b = @log_sum_2_exp R_arith b a.
Proof. intros. rewrite !log_sum_2_exp_R. f_equal. f_equal. ring. Qed.

Lemma exp_le : forall x y, x <= y -> exp x <= exp y.
Proof. intros x y [H|H]; [left; apply exp_increasing; auto | right; congruence]. Qed.

Theorem C31_bounds : forall a b : R,
  Rmax a b - ln 2 <= @log_sum_2_exp R_arith a b <= Rmax a b.
Proof.
  intros a b. rewrite log_sum_2_exp_R.
  pose proof (exp_pos a). pose proof (exp_pos b).
  pose proof (exp_le a (Rmax a b) (Rmax_l a b)).
  pose proof (exp_le b (Rmax a b) (Rmax_r a b)).
  split.
  - rewrite <- (ln_exp (Rmax a b)) at 1.
    unfold Rminus. rewrite <- ln_Rinv by lra.
    rewrite <- ln_mult; [|apply exp_pos|lra].
    assert (He : exp (Rmax a b) * / 2 <= (exp a + exp b) / 2).
    { unfold Rmax. destruct (Rle_dec a b); lra. }
    destruct He as [He|He].
    + left. apply ln_increasing; auto.
      apply Rmult_lt_0_compat; [apply exp_pos|lra].
    + right. congruence.
  - replace (Rmax a b) with (ln (exp (Rmax a b))) by apply ln_exp.
    assert (He : (exp a + exp b) / 2 <= exp (Rmax a b)) by lra.
    destruct He as [He|He].
    + left. apply ln_increasing; auto. lra.
    + right. congruence.
Qed.

(** The arithmetic that records whether a number has been computed without ever calling
    [exp] on a positive number. *)
Definition tracked : Type := R * bool.
Definition tracked_arith : arith :=
  mkArith tracked (0, true) (1, true) (/ 2, true)
    (fun x y => (fst x + fst y, andb (snd x) (snd y)))
    (fun x y => (fst x - fst y, andb (snd x) (snd y)))
    (fun x y => (fst x * fst y, andb (snd x) (snd y)))
    (fun x y => (fst x / fst y, andb (snd x) (snd y)))
    (fun x => (- fst x, snd x))
    (fun x => (ln (fst x), snd x))
    (fun x => (exp (fst x), andb (snd x) (Rleb (fst x) 0)))
    (fun x y => Rleb (fst x) (fst y)) (fun x y => Rltb (fst x) (fst y))
    (fun x => Risz (fst x)) (fun _ => false) (fun _ => true) (fun n => (INR n, true)).

(** [exp] is only applied to non-positive numbers, so it cannot overflow. *)
Theorem C31_no_overflow : forall a b : R,
  @log_sum_2_exp tracked_arith (a, true) (b, true) = (ln ((exp a + exp b) / 2), true).
Proof.
  intros a b. rewrite <- log_sum_2_exp_R. unfold log_sum_2_exp. simpl.
  unfold Rltb, Rleb. destruct (Rlt_dec b a); simpl.
  - destruct (Rle_dec (b - a) 0); [reflexivity|lra].
  - destruct (Rle_dec (a - b) 0); [reflexivity|lra].
Qed.

Example C31_example : @log_sum_2_exp R_arith 0 0 = 0.
Proof. rewrite log_sum_2_exp_R, exp_0. replace ((1 + 1) / 2) with 1 by field. apply ln_1. Qed.

Print Assumptions C13_features_distinct.
Print Assumptions C13_all_features.
Print Assumptions C13_one_tape_per_arrangement.
Print Assumptions C31_value.
Print Assumptions C31_symmetric.
Print Assumptions C31_bounds.
Print Assumptions C31_no_overflow.
