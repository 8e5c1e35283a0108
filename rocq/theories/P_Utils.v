(** * Proofs about sampling without replacement, arrays and log_sum_2_exp *)

Require Import List Arith Lia Permutation Reals Lra.
Require Import Verif.Base Verif.Num Verif.M_Utils Verif.M_Node Verif.P_BinningR.
Import ListNotations.
Local Open Scope nat_scope.
Local Open Scope list_scope.

Lemma usub_ok : forall a b c, usub a b = Ok c <-> b <= a /\ c = a - b.
Proof.
  intros a b c; unfold usub. destruct (b <=? a) eqn:Hb.
  - apply Nat.leb_le in Hb. split; [inversion 1; auto| intros [_ ->]; auto].
  - apply Nat.leb_gt in Hb. split; [discriminate|lia].
Qed.

Lemma usub_le : forall a b, b <= a -> usub a b = Ok (a - b).
Proof. intros; apply usub_ok; auto. Qed.

Lemma upd_app_r : forall {A} (l1 l2 : list A) i x,
  upd (l1 ++ l2) (length l1 + i) x = l1 ++ upd l2 i x.
Proof. induction l1; simpl; intros; auto. f_equal; apply IHl1. Qed.

Lemma upd_app_l : forall {A} (l1 l2 : list A) i x, i < length l1 ->
  upd (l1 ++ l2) i x = upd l1 i x ++ l2.
Proof.
  induction l1; simpl; intros; [lia|]. destruct i; simpl; auto. f_equal; apply IHl1; lia.
Qed.

Lemma firstn_S_upd : forall {A} (l : list A) i x, i < length l ->
  firstn (S i) (upd l i x) = firstn i l ++ [x].
Proof.
  induction l; intros i x H; simpl in *; [lia|]. destruct i; simpl; auto.
  f_equal. apply IHl. lia.
Qed.

Lemma init_pool_spec : forall pool, init_pool pool = Ok (seq 0 (length pool)).
Proof.
  intros pool. unfold init_pool.
  assert (H : forall k p i, k + i = length p -> firstn i p = seq 0 i ->
    foldM (fun p i => set p i i) (seq i k) p = Ok (seq 0 (length p))).
  { induction k; intros p i Hk Hp; simpl.
    - simpl in Hk. subst i. rewrite firstn_all in Hp. congruence.
    - unfold set. destruct (Nat.ltb_spec i (length p)); [|lia]. simpl.
      rewrite IHk; rewrite ?upd_length; auto; [lia|].
      rewrite seq_S. simpl. rewrite <- Hp. apply firstn_S_upd. lia. }
  apply H; [lia|auto].
Qed.

(** Removing position [j] of the first [m] cells by moving the last one into it. *)
Lemma swap_remove_perm : forall (pool : list nat) m j x y, m <= length pool -> j < m ->
  nth_error pool j = Some x -> nth_error pool (m - 1) = Some y ->
  Permutation (x :: firstn (m - 1) (upd pool j y)) (firstn m pool).
Proof.
  intros pool m j x y Hm Hj Hx Hy.
  assert (Hf : firstn m pool = firstn (m - 1) pool ++ [y]).
  { rewrite <- (firstn_skipn (m - 1) (firstn m pool)). rewrite firstn_firstn.
    replace (Nat.min (m - 1) m) with (m - 1) by lia. f_equal.
    destruct (skipn (m - 1) (firstn m pool)) as [|z t] eqn:Es.
    - assert (length (skipn (m - 1) (firstn m pool)) = 0) by (rewrite Es; auto).
      rewrite skipn_length, firstn_length in *. lia.
    - assert (Hl : length (skipn (m - 1) (firstn m pool)) = 1)
        by (rewrite skipn_length, firstn_length; lia).
      rewrite Es in Hl. destruct t; [|simpl in Hl; lia].
      assert (Hz : nth_error (skipn (m - 1) (firstn m pool)) 0 = Some z) by (rewrite Es; auto).
      rewrite nth_error_skipn in Hz. rewrite Nat.add_0_r in Hz.
      rewrite nth_error_firstn in Hz by lia. congruence. }
  rewrite Hf. destruct (Nat.eq_dec j (m - 1)) as [->|Hne].
  - assert (x = y) by congruence. subst y.
    replace (firstn (m - 1) (upd pool (m - 1) x)) with (firstn (m - 1) pool).
    + rewrite Permutation_app_comm. simpl. auto.
    + apply nth_error_ext. intro i. destruct (Nat.lt_ge_cases i (m - 1)).
      * rewrite !nth_error_firstn by lia. rewrite nth_error_upd_neq by lia. auto.
      * rewrite !(proj2 (nth_error_None _ _)); auto; rewrite firstn_length; lia.
  - assert (Hj' : j < m - 1) by lia.
    rewrite <- (firstn_skipn (m - 1) pool) at 1.
    assert (Hl : length (firstn (m - 1) pool) = m - 1) by (rewrite firstn_length; lia).
    rewrite upd_app_l by lia. rewrite firstn_app, upd_length, Hl, Nat.sub_diag. simpl.
    rewrite app_nil_r. rewrite firstn_all2 by (rewrite upd_length; lia).
    assert (Hx' : nth_error (firstn (m - 1) pool) j = Some x) by (rewrite nth_error_firstn; auto).
    revert Hx'. generalize (firstn (m - 1) pool) as l. clear. intros l. revert j.
    induction l as [|z l IH]; intros j Hx; [destruct j; discriminate|].
    destruct j; simpl in *.
    + inversion Hx; subst. constructor. rewrite Permutation_app_comm. simpl. auto.
    + rewrite perm_swap. constructor. auto.
Qed.

Definition good_draws {A} (E : env A) : Prop := forall s n, 0 < n -> fst (draw E s n) < n.

(** Invariant of the sampling loop. *)
Definition sample_inv (pop k i : nat) (pool out : list nat) : Prop :=
  length pool = pop /\ length out = k /\
  Permutation (firstn (pop - i) pool ++ firstn i out) (seq 0 pop).

Lemma sample_step_inv : forall {A} (E : env A) pop k i s pool out, good_draws E ->
  i < k -> k <= pop -> sample_inv pop k i pool out ->
  exists s' pool' out', sample_step E pop (s, pool, out) i = Ok (s', pool', out') /\
    sample_inv pop k (S i) pool' out' /\ firstn i out' = firstn i out.
Proof.
  intros A E pop k i s pool out HE Hi Hk [Hp [Ho Hperm]].
  unfold sample_step. rewrite usub_le by lia. cbn [bind].
  unfold randint. destruct (Nat.eqb_spec (pop - i) 0); [lia|]. cbn [bind].
  pose proof (HE s (pop - i) ltac:(lia)) as Hd.
  destruct (draw E s (pop - i)) as [j s'] eqn:Ed. simpl in Hd.
  destruct (get_in pool j ltac:(lia)) as [x Hx]. rewrite Hx. cbn [bind].
  assert (Hs : set out i x = Ok (upd out i x)) by (apply set_ok; split; [lia|auto]).
  rewrite Hs. cbn [bind].
  rewrite usub_le by lia. cbn [bind].
  destruct (get_in pool (pop - i - 1) ltac:(lia)) as [y Hy]. rewrite Hy. cbn [bind].
  assert (Hs2 : set pool j y = Ok (upd pool j y)) by (apply set_ok; split; [lia|auto]).
  rewrite Hs2. cbn [bind].
  exists s', (upd pool j y), (upd out i x). split; [auto|].
  split; [split; [rewrite upd_length; auto|split; [rewrite upd_length; auto|]]|].
  - rewrite firstn_S_upd by lia.
    apply get_ok in Hx. apply get_ok in Hy.
    pose proof (swap_remove_perm pool (pop - i) j x y ltac:(lia) Hd Hx Hy) as Hsw.
    rewrite <- Hperm. rewrite <- Hsw.
    replace (pop - S i) with (pop - i - 1) by lia.
    rewrite Permutation_app_comm. rewrite <- app_assoc. simpl.
    rewrite <- Permutation_middle. rewrite <- (Permutation_app_comm (firstn i out)).
    simpl. constructor. rewrite Permutation_app_comm. auto.
  - apply nth_error_ext. intro q. destruct (Nat.lt_ge_cases q i).
    + rewrite !nth_error_firstn by lia. rewrite nth_error_upd_neq by lia. auto.
    + rewrite !(proj2 (nth_error_None _ _)); auto; rewrite firstn_length; lia.
Qed.

Lemma sample_loop_inv : forall {A} (E : env A) pop k n i s pool out, good_draws E ->
  i + n = k -> k <= pop -> sample_inv pop k i pool out ->
  exists s' pool' out', foldM (sample_step E pop) (seq i n) (s, pool, out) = Ok (s', pool', out') /\
    sample_inv pop k k pool' out'.
Proof.
  induction n; intros i s pool out HE Hi Hk Hinv.
  - simpl. replace i with k in * by lia. eauto.
  - cbn [seq foldM]. destruct (sample_step_inv E pop k i s pool out HE ltac:(lia) Hk Hinv)
      as [s' [pool' [out' [H [Hinv' _]]]]].
    rewrite H. cbn [bind]. apply IHn; auto; lia.
Qed.

Lemma sample_without_replacement_spec : forall {A} (E : env A) s pool out, good_draws E ->
  length out <= length pool ->
  exists s' pool' out', sample_without_replacement E s pool out = Ok (s', pool', out') /\
    length pool' = length pool /\ length out' = length out /\ NoDup out' /\
    (forall x, In x out' -> x < length pool).
Proof.
  intros A E s pool out HE Hlen. unfold sample_without_replacement.
  rewrite init_pool_spec. cbn [bind].
  destruct (sample_loop_inv E (length pool) (length out) (length out) 0 s (seq 0 (length pool)) out)
    as [s' [pool' [out' [H [Hp [Ho Hperm]]]]]]; auto.
  { split; [apply seq_length|]. split; auto. rewrite Nat.sub_0_r.
    rewrite firstn_all2 by (rewrite seq_length; lia). simpl. rewrite app_nil_r. auto. }
  exists s', pool', out'. split; [auto|]. split; [auto|]. split; [auto|].
  rewrite (firstn_all2 (n := length out) out') in Hperm by lia.
  assert (Hnd : NoDup (firstn (length pool - length out) pool' ++ out'))
    by (eapply Permutation_NoDup; [symmetry; apply Hperm | apply seq_NoDup]).
  split.
  - clear -Hnd. induction (firstn (length pool - length out) pool'); simpl in Hnd; auto.
    inversion Hnd; auto.
  - intros x Hx. assert (In x (seq 0 (length pool)))
      by (eapply Permutation_in; [apply Hperm | apply in_or_app; auto]).
    apply in_seq in H0. lia.
Qed.

(** ** Uniformity: draws and results are in one-to-one correspondence *)

(** The generator that plays back a tape of draws. *)
Definition tape_env (A : arith) : env A :=
  mkEnv A (list nat) (fun s _ => match s with [] => (0, []) | j :: t => (j, t) end)
    (fun l => seq 0 (length l)) (fun _ => 0).

(** A pure version of the loop: the list of sampled values. *)
Fixpoint arrange (pool : list nat) (m : nat) (js : list nat) : list nat :=
  match js with
  | [] => []
  | j :: t => nth j pool 0 :: arrange (upd pool j (nth (m - 1) pool 0)) (m - 1) t
  end.

Fixpoint good_tape (m : nat) (js : list nat) : Prop :=
  match js with [] => True | j :: t => j < m /\ good_tape (m - 1) t end.

Lemma tape_run : forall (A : arith) js i pop pool out, length pool = pop ->
  i + length js <= pop -> i + length js = length out -> good_tape (pop - i) js ->
  exists pool' out',
    foldM (sample_step (tape_env A) pop) (seq i (length js)) (js, pool, out) = Ok ([], pool', out') /\
    length out' = length out /\ firstn i out' = firstn i out /\
    skipn i out' = arrange pool (pop - i) js.
Proof.
  induction js as [|j t IH]; intros i pop pool out Hp Hi Ho Hg.
  - simpl. exists pool, out. split; [auto|]. split; [auto|]. split; [auto|].
    simpl in Ho. rewrite Nat.add_0_r in Ho. subst i. apply skipn_all.
  - cbn [length seq foldM]. simpl in Hi, Ho. destruct Hg as [Hj Hg].
    unfold sample_step at 1. rewrite usub_le by lia. cbn [bind].
    unfold randint. destruct (Nat.eqb_spec (pop - i) 0); [lia|]. cbn [bind draw tape_env].
    rewrite (nth_get pool j 0) by lia. cbn [bind].
    replace (set out i (nth j pool 0)) with (Ok (upd out i (nth j pool 0)))
      by (symmetry; apply set_ok; split; [lia|auto]).
    cbn [bind]. rewrite usub_le by lia. cbn [bind].
    rewrite (nth_get pool (pop - i - 1) 0) by lia. cbn [bind].
    replace (set pool j (nth (pop - i - 1) pool 0)) with (Ok (upd pool j (nth (pop - i - 1) pool 0)))
      by (symmetry; apply set_ok; split; [lia|auto]).
    cbn [bind].
    destruct (IH (S i) pop (upd pool j (nth (pop - i - 1) pool 0)) (upd out i (nth j pool 0)))
      as [pool' [out' [H [Hl [Hf Hs]]]]]; rewrite ?upd_length; try lia.
    { replace (pop - S i) with (pop - i - 1) by lia. auto. }
    rewrite upd_length in Hl.
    exists pool', out'. split; [exact H|]. split; [auto|].
    assert (Hni : nth_error out' i = Some (nth j pool 0)).
    { assert (He : nth_error (firstn (S i) out') i = Some (nth j pool 0)).
      { rewrite Hf, nth_error_firstn by lia. apply nth_error_upd_eq. lia. }
      rewrite nth_error_firstn in He by lia. auto. }
    split.
    + apply nth_error_ext. intro q. destruct (Nat.lt_ge_cases q i).
      * assert (He : nth_error (firstn (S i) out') q = nth_error (firstn (S i) (upd out i (nth j pool 0))) q)
          by (rewrite Hf; auto).
        rewrite !nth_error_firstn in He by lia. rewrite nth_error_upd_neq in He by lia.
        rewrite !nth_error_firstn by lia. auto.
      * rewrite !(proj2 (nth_error_None _ _)); auto; rewrite firstn_length; lia.
    + cbn [arrange]. replace (pop - i - 1) with (pop - S i) in * by lia. rewrite <- Hs.
      apply nth_error_ext. intro q. rewrite nth_error_skipn. destruct q.
      * rewrite Nat.add_0_r. simpl. auto.
      * cbn [nth_error]. rewrite nth_error_skipn. f_equal. lia.
Qed.

Lemma arrange_exists : forall out pool m, m <= length pool ->
  NoDup out -> incl out (firstn m pool) -> NoDup (firstn m pool) ->
  exists js, length js = length out /\ good_tape m js /\ arrange pool m js = out.
Proof.
  induction out as [|x t IH]; intros pool m Hm Hnd Hincl Hndp.
  - exists []. simpl; auto.
  - assert (Hx : In x (firstn m pool)) by (apply Hincl; simpl; auto).
    destruct (In_nth_error _ _ Hx) as [j Hj].
    assert (Hjm : j < m).
    { assert (j < length (firstn m pool)) by (apply nth_error_Some; congruence).
      rewrite firstn_length in *. lia. }
    rewrite nth_error_firstn in Hj by lia.
    assert (Hy : nth_error pool (m - 1) = Some (nth (m - 1) pool 0))
      by (apply nth_error_nth'; lia).
    pose proof (swap_remove_perm pool m j x _ Hm Hjm Hj Hy) as Hsw.
    assert (Hnd' : NoDup (x :: firstn (m - 1) (upd pool j (nth (m - 1) pool 0))))
      by (eapply Permutation_NoDup; [symmetry; apply Hsw|auto]).
    inversion Hnd; subst. inversion Hnd'; subst.
    destruct (IH (upd pool j (nth (m - 1) pool 0)) (m - 1)) as [js [Hl [Hg Ha]]].
    + rewrite upd_length; lia.
    + auto.
    + intros z Hz. assert (Hz' : In z (firstn m pool)) by (apply Hincl; simpl; auto).
      assert (Hz2 : In z (x :: firstn (m - 1) (upd pool j (nth (m - 1) pool 0))))
        by (eapply Permutation_in; [symmetry; apply Hsw | auto]).
      destruct Hz2; auto. subst z. contradiction.
    + auto.
    + exists (j :: js). simpl. split; [lia|]. split; [auto|]. f_equal; auto.
      apply nth_error_nth. auto.
Qed.

Lemma arrange_inj : forall js js' pool m, m <= length pool -> NoDup (firstn m pool) ->
  good_tape m js -> good_tape m js' -> arrange pool m js = arrange pool m js' -> js = js'.
Proof.
  induction js as [|j t IH]; intros js' pool m Hm Hnd Hg Hg' He.
  - destruct js'; simpl in *; [auto|discriminate].
  - destruct js' as [|j' t']; simpl in *; [discriminate|].
    destruct Hg as [Hj Hg]. destruct Hg' as [Hj' Hg']. inversion He as [[E1 E2]].
    assert (j = j').
    { assert (Hn : nth j (firstn m pool) 0 = nth j' (firstn m pool) 0).
      { rewrite <- (firstn_skipn m pool) in E1.
        rewrite !app_nth1 in E1 by (rewrite firstn_length; lia). auto. }
      eapply (proj1 (NoDup_nth (firstn m pool) 0)); eauto; rewrite firstn_length; lia. }
    subst j'. f_equal. apply (IH t' (upd pool j (nth (m - 1) pool 0)) (m - 1)); auto.
    + rewrite upd_length; lia.
    + assert (Hjx : nth_error pool j = Some (nth j pool 0)) by (apply nth_error_nth'; lia).
      assert (Hy : nth_error pool (m - 1) = Some (nth (m - 1) pool 0))
        by (apply nth_error_nth'; lia).
      pose proof (swap_remove_perm pool m j _ _ Hm Hj Hjx Hy) as Hsw.
      assert (Hnd' : NoDup (nth j pool 0 :: firstn (m - 1) (upd pool j (nth (m - 1) pool 0))))
        by (eapply Permutation_NoDup; [symmetry; apply Hsw|auto]).
      inversion Hnd'; auto.
Qed.

(** ** Sampling at a node *)

Definition fs_ok (n_features max_features : nat) (fs : fsamp) : Prop :=
  fs_sample fs = negb (max_features =? n_features) /\
  length (fs_pool fs) = n_features /\ length (fs_sampled fs) = max_features /\
  (max_features = n_features -> fs_sampled fs = seq 0 n_features).

Lemma init_fsamp_ok : forall nf mf, fs_ok nf mf (init_fsamp nf mf).
Proof.
  intros; unfold fs_ok, init_fsamp; simpl. rewrite !seq_length.
  split; [auto|]. split; [auto|]. split; [auto|]. intros ->; auto.
Qed.

Lemma sample_features_spec : forall {A} (E : env A) (s : rng E) fs nf mf, good_draws E ->
  mf <= nf -> fs_ok nf mf fs ->
  exists s' fs', sample_features s fs = Ok (s', fs') /\ fs_ok nf mf fs' /\
    NoDup (fs_sampled fs') /\ (forall j, In j (fs_sampled fs') -> j < nf).
Proof.
  intros A E s fs nf mf HE Hmf [Hs [Hp [Ho Hall]]].
  unfold sample_features. destruct (fs_sample fs) eqn:Ef.
  - destruct (sample_without_replacement_spec E s (fs_pool fs) (fs_sampled fs))
      as [s' [pool' [out' [H [Hp' [Ho' [Hnd Hlt]]]]]]]; [auto|lia|].
    rewrite H. cbn [bind]. eexists; eexists. split; [reflexivity|].
    split; [|split; [auto|intros; rewrite <- Hp; auto]].
    unfold fs_ok; simpl. split; [auto|]. split; [lia|]. split; [lia|].
    intros ->. rewrite Nat.eqb_refl in Hs. discriminate.
  - exists s, fs. split; [auto|]. split; [split; [congruence|split; auto]|].
    destruct (Nat.eqb_spec mf nf) as [->|]; [|discriminate].
    rewrite Hall by auto. split; [apply seq_NoDup|]. intros j Hj. apply in_seq in Hj. lia.
Qed.

(** ** log_sum_2_exp over the reals *)

Lemma log_sum_2_exp_R : forall a b : R,
  @log_sum_2_exp R_arith a b = ln ((exp a + exp b) / 2).
Proof.
  intros a b. unfold log_sum_2_exp. simpl.
  assert (H : forall x y : R, (x + ln ((1 + exp (y - x)) / (1 + 1)) = ln ((exp x + exp y) / 2))%R).
  { intros x y. rewrite <- (ln_exp x) at 1.
    rewrite <- ln_mult.
    - f_equal. replace (exp y) with (exp x * exp (y - x))%R.
      + field.
      + rewrite <- exp_plus. f_equal. ring.
    - apply exp_pos.
    - pose proof (exp_pos (y - x)). lra. }
  match goal with |- context [if ?c then _ else _] => destruct c end.
  - apply H.
  - rewrite H. f_equal. f_equal. ring.
Qed.
