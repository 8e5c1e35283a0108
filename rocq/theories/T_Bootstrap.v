(** * C14 and C15: bootstrap samples *)

Require Import Bool List Arith Lia NArith ZArith Permutation.
Require Import Verif.Base Verif.Num Verif.M_Utils Verif.M_Context Verif.M_Forest Verif.P_List.
Import ListNotations.
Local Open Scope list_scope.
Local Open Scope nat_scope.

(** ** The specification *)

(** A generator whose draws are in range: [randint s n] is an array of [n] numbers below [n]. *)
Definition in_range_draws (randint : N -> nat -> list nat) : Prop :=
  forall s n, length (randint s n) = n /\ forall i, In i (randint s n) -> i < n.

(** The seed of the [k]-th attempt. *)
Fixpoint attempt (s : N) (k : nat) : N := match k with O => s | S k' => attempt (next_seed s) k' end.

(** [rmap f m]: [f] applied to the value of [m]. *)
Definition rmap {X Y} (f : X -> Y) (m : res X) : res Y := match m with Ok x => Ok (f x) | Err e => Err e end.

(** Number of times [i] was drawn. *)
Definition times (l : list nat) (i : nat) : nat := length (filter (Nat.eqb i) l).

(** Some sample is left out of the draws. *)
Definition leaves_out (l : list nat) (n : nat) : Prop := exists i, i < n /\ ~ In i l.

(** ** Proofs *)

Lemma count_occ_times : forall l i, count_occ Nat.eq_dec l i = times l i.
Proof.
  induction l as [|x l IH]; intros i; unfold times; simpl; auto.
  destruct (Nat.eq_dec x i) as [->|H].
  - rewrite Nat.eqb_refl. simpl. rewrite IH. reflexivity.
  - rewrite IH. destruct (Nat.eqb_spec i x); [congruence|]. reflexivity.
Qed.

Lemma times_in : forall l i, times l i <> 0 <-> In i l.
Proof. intros l i. rewrite <- count_occ_times. rewrite (count_occ_In Nat.eq_dec). lia. Qed.

Lemma fold_max_range : forall l n, (forall i, In i l -> i < n) -> fold_right (fun x m => Nat.max (S x) m) n l = n.
Proof.
  induction l as [|x l IH]; intros n H; [reflexivity|]. cbn [fold_right]. rewrite IH by (intros; apply H; simpl; auto).
  assert (x < n) by (apply H; simpl; auto). lia.
Qed.

Lemma bincount_range : forall l n, (forall i, In i l -> i < n) -> bincount l n = map (times l) (seq 0 n).
Proof.
  intros l n H. unfold bincount. rewrite fold_max_range by auto. apply map_ext. apply count_occ_times.
Qed.

Lemma nth_map_seq : forall {X} (f : nat -> X) n i d, i < n -> nth i (map f (seq 0 n)) d = f i.
Proof.
  intros X f n i d H. rewrite nth_indep with (d' := f 0) by (rewrite map_length, seq_length; auto).
  rewrite map_nth. rewrite seq_nth; auto.
Qed.

Lemma filter_map_comm : forall {X Y} (f : X -> Y) (g : Y -> bool) l, filter g (map f l) = map f (filter (fun x => g (f x)) l).
Proof. induction l as [|x l IH]; simpl; auto. destruct (g (f x)); simpl; rewrite IH; auto. Qed.

Lemma generate_step : forall randint s n limit, in_range_draws randint ->
  generate_train_valid (S limit) randint s n =
  if length (filter (fun i => times (randint s n) i =? 0) (seq 0 n)) =? 0 then generate_train_valid limit randint (next_seed s) n
  else let train := filter (fun i => negb (times (randint s n) i =? 0)) (seq 0 n) in
       Ok (train, filter (fun i => times (randint s n) i =? 0) (seq 0 n), map (times (randint s n)) train).
Proof.
  intros randint s n limit H. destruct (H s n) as [Hl Hr]. cbn [generate_train_valid].
  rewrite bincount_range by auto. rewrite map_length, seq_length, Nat.eqb_refl. cbn [negb].
  assert (F : forall g : nat -> bool, filter (fun i => g (nth i (map (times (randint s n)) (seq 0 n)) 0)) (seq 0 n) = filter (fun i => g (times (randint s n) i)) (seq 0 n)).
  { intros g. apply filter_ext_in. intros i Hi. apply in_seq in Hi. rewrite nth_map_seq by lia. auto. }
  rewrite (F (fun x => x =? 0)), (F (fun x => negb (x =? 0))).
  destruct (length _ =? 0); auto. cbv zeta. rewrite filter_map_comm. reflexivity.
Qed.

Lemma no_valid : forall l n, (length (filter (fun i => times l i =? 0) (seq 0 n)) =? 0) = true <-> ~ leaves_out l n.
Proof.
  intros l n. rewrite Nat.eqb_eq, length_zero_iff_nil, filter_nil_iff. unfold leaves_out. split.
  - intros H (i & Hi & Hn). specialize (H i). rewrite in_seq in H. specialize (H ltac:(lia)).
    apply Nat.eqb_neq in H. apply times_in in H. auto.
  - intros H i Hi. apply in_seq in Hi. apply Nat.eqb_neq. apply times_in.
    destruct (in_dec Nat.eq_dec i l); auto. exfalso. apply H. exists i. split; [lia|auto].
Qed.

Lemma list_sum_filter_map : forall f n, list_sum (map f (filter (fun i => negb (f i =? 0)) (seq 0 n))) = list_sum (map f (seq 0 n)).
Proof.
  intros f n. assert (G : forall k, list_sum (map f (filter (fun i => negb (f i =? 0)) (seq k n))) = list_sum (map f (seq k n))); [|apply G].
  induction n as [|n IH]; intros k; simpl; auto.
  destruct (Nat.eqb_spec (f k) 0) as [E|E]; simpl; rewrite IH; lia.
Qed.

Lemma sum_times : forall l n, (forall i, In i l -> i < n) -> list_sum (map (times l) (seq 0 n)) = length l.
Proof.
  induction l as [|x l IH]; intros n H.
  - unfold times. simpl. generalize (seq 0 n). intros m. induction m; simpl; auto.
  - assert (E : forall k m, list_sum (map (times (x :: l)) (seq k m)) = list_sum (map (times l) (seq k m)) + (if (k <=? x) && (x <? k + m) then 1 else 0)%bool).
    { intros k m. revert k. induction m as [|m IHm]; intros k.
      - simpl. destruct (Nat.leb_spec k x), (Nat.ltb_spec x (k + 0)); simpl; lia.
      - cbn [seq map list_sum fold_right]. change (fold_right Init.Nat.add 0) with list_sum. rewrite IHm.
        unfold times at 1 3. cbn [filter].
        destruct (Nat.eqb_spec k x); destruct (Nat.leb_spec (S k) x), (Nat.ltb_spec x (S k + m)), (Nat.leb_spec k x), (Nat.ltb_spec x (k + S m)); simpl; lia. }
    rewrite E. assert (x < n) by (apply H; simpl; auto). rewrite IH by (intros; apply H; simpl; auto).
    destruct (Nat.leb_spec 0 x), (Nat.ltb_spec x (0 + n)); simpl; lia.
Qed.

(** ** C14 *)

Theorem C14_bootstrap : forall limit randint s n train valid counts, in_range_draws randint ->
  generate_train_valid limit randint s n = Ok (train, valid, counts) ->
  (* training and validation samples are the samples drawn and not drawn by some attempt *)
  exists k, k < limit /\
  (forall j, j < k -> ~ leaves_out (randint (attempt s j) n) n) /\
  let l := randint (attempt s k) n in
  (forall i, In i train <-> i < n /\ In i l) /\ (forall i, In i valid <-> i < n /\ ~ In i l) /\
  NoDup train /\ NoDup valid /\
  (* they partition the samples and none is empty *)
  Permutation (train ++ valid) (seq 0 n) /\ train <> [] /\ valid <> [] /\
  (* counts are the numbers of draws *)
  counts = map (times l) train /\ (forall c, In c counts -> 1 <= c) /\ list_sum counts = n.
Proof.
  induction limit as [|limit IH]; intros randint s n train valid counts HR H; [discriminate|].
  rewrite generate_step in H by auto. destruct (HR s n) as [Hl Hr].
  destruct (length (filter (fun i => times (randint s n) i =? 0) (seq 0 n)) =? 0) eqn:Ev.
  - destruct (IH _ _ _ _ _ _ HR H) as (k & K1 & K2 & K3). exists (S k). split; [lia|]. split; [|exact K3].
    intros [|j] Hj; [apply no_valid; auto|]. apply K2. lia.
  - cbv zeta in H. inversion H; subst train valid counts; clear H. exists 0. split; [lia|]. split; [lia|]. cbv zeta. cbn [attempt].
    set (l := randint s n) in *.
    assert (Hnv : filter (fun i => times l i =? 0) (seq 0 n) <> []).
    { intros E. rewrite E in Ev. discriminate. }
    split; [|split; [|split; [|split; [|split; [|split; [|split; [|split; [|split]]]]]]]].
    + intros i. rewrite filter_In, in_seq. rewrite negb_true_iff, Nat.eqb_neq, times_in. intuition lia.
    + intros i. rewrite filter_In, in_seq, Nat.eqb_eq. rewrite <- times_in. intuition lia.
    + apply NoDup_filter, seq_NoDup.
    + apply NoDup_filter, seq_NoDup.
    + rewrite Permutation_app_comm. clear. induction (seq 0 n) as [|x m IH]; simpl; auto.
      destruct (times l x =? 0); simpl; [constructor; auto|]. etransitivity; [symmetry; apply Permutation_middle|]. constructor. auto.
    + intros E. destruct n as [|n]; [apply Hnv; reflexivity|]. destruct l as [|x l'] eqn:El; [discriminate|].
      assert (Hx : In x (filter (fun i => negb (times (x :: l') i =? 0)) (seq 0 (S n)))).
      { rewrite filter_In, in_seq. split; [specialize (Hr x ltac:(simpl; auto)); lia|].
        apply negb_true_iff, Nat.eqb_neq, times_in. simpl; auto. }
      rewrite E in Hx. destruct Hx.
    + exact Hnv.
    + reflexivity.
    + intros c Hc. apply in_map_iff in Hc. destruct Hc as (i & <- & Hi). apply filter_In in Hi. destruct Hi as [_ Hi].
      apply negb_true_iff, Nat.eqb_neq in Hi. lia.
    + rewrite list_sum_filter_map. rewrite sum_times by auto. auto.
Qed.
Print Assumptions C14_bootstrap.

(** The weights given to the tree: those of the caller, times the count for the training
    samples. *)
Lemma bootstrap_fold : forall {A : arith} (l : list nat) (f : nat -> nat) (w : list (num A)), NoDup l -> (forall i, In i l -> i < length w) ->
  exists w', bootstrap_weights w l (map f l) = Ok w' /\ length w' = length w /\
    forall i, i < length w -> get w' i = if in_dec Nat.eq_dec i l then rmap (fun x => amul x (aofnat (f i))) (get w i) else get w i.
Proof.
  intros A l f. unfold bootstrap_weights. induction l as [|x l IH]; intros w Hn Hr.
  - exists w. split; [reflexivity|]. split; auto.
  - inversion Hn; subst. cbn [combine map foldM].
    destruct (get_in w x) as [v Hv]; [apply Hr; simpl; auto|]. rewrite Hv. cbn [bind].
    assert (Hs : set w x (amul v (aofnat (f x))) = Ok (upd w x (amul v (aofnat (f x))))).
    { unfold set. assert (Hx : x < length w) by (apply Hr; simpl; auto). apply Nat.ltb_lt in Hx. rewrite Hx. auto. }
    rewrite Hs. cbn [bind].
    destruct (IH (upd w x (amul v (aofnat (f x))))) as (w' & W1 & W2 & W3); auto.
    { intros i Hi. rewrite upd_length. apply Hr. simpl; auto. }
    exists w'. split; [exact W1|]. rewrite upd_length in *. split; [exact W2|]. intros i Hi. rewrite W3 by auto.
    destruct (Nat.eq_dec i x) as [->|Hne].
    + destruct (in_dec Nat.eq_dec x l); [contradiction|]. destruct (in_dec Nat.eq_dec x (x :: l)); [|exfalso; simpl in *; tauto].
      rewrite Hv. cbn [rmap bind]. apply get_ok. apply nth_error_upd_eq. auto.
    + assert (Eg : get (upd w x (amul v (aofnat (f x)))) i = get w i) by (unfold get; rewrite nth_error_upd_neq by auto; auto).
      rewrite Eg. destruct (in_dec Nat.eq_dec i l), (in_dec Nat.eq_dec i (x :: l)); simpl in *; auto; exfalso; intuition.
Qed.

Theorem C14_weights : forall {A : arith} limit randint s n train valid counts (w : list (num A)), in_range_draws randint ->
  generate_train_valid limit randint s n = Ok (train, valid, counts) -> length w = n ->
  exists w' l, bootstrap_weights w train counts = Ok w' /\ length w' = n /\ length l = n /\
    (forall i, In i train -> get w' i = rmap (fun x => amul x (aofnat (times l i))) (get w i) /\ 1 <= times l i) /\
    (forall i, In i valid -> get w' i = get w i).
Proof.
  intros A limit randint s n train valid counts w HR H Hw.
  destruct (C14_bootstrap _ _ _ _ _ _ _ HR H) as (k & _ & _ & T1 & T2 & T3 & T4 & T5 & T6 & T7 & T8 & T9 & T10). cbv zeta in *.
  set (l := randint (attempt s k) n) in *. subst counts.
  destruct (bootstrap_fold train (times l) w T3) as (w' & W1 & W2 & W3).
  { intros i Hi. apply T1 in Hi. lia. }
  exists w', l. split; [exact W1|]. split; [lia|]. split; [apply HR|]. split.
  - intros i Hi. rewrite W3 by (apply T1 in Hi; lia). destruct (in_dec Nat.eq_dec i train); [|contradiction].
    split; auto. apply T9. apply in_map. auto.
  - intros i Hi. rewrite W3 by (apply T2 in Hi; lia). destruct (in_dec Nat.eq_dec i train) as [Hc|]; auto.
    apply T1 in Hc. apply T2 in Hi. tauto.
Qed.
Print Assumptions C14_weights.

(** ** C15 *)

(** The procedure returns when an attempt within the recursion limit leaves a sample out,
    and this is the only way; otherwise it stops with a RecursionError. *)
Theorem C15_returns : forall limit randint s n, in_range_draws randint ->
  (exists k, k < limit /\ leaves_out (randint (attempt s k) n) n) ->
  exists train valid counts, generate_train_valid limit randint s n = Ok (train, valid, counts).
Proof.
  induction limit as [|limit IH]; intros randint s n HR (k & Hk & Hlo); [lia|].
  rewrite generate_step by auto. destruct (length (filter (fun i => times (randint s n) i =? 0) (seq 0 n)) =? 0) eqn:Ev.
  - apply IH; auto. destruct k as [|k]; [exfalso; apply no_valid in Ev; auto|]. exists k. split; [lia|exact Hlo].
  - cbv zeta. eauto.
Qed.
Print Assumptions C15_returns.

Theorem C15_fails : forall limit randint s n, in_range_draws randint ->
  (forall k, k < limit -> ~ leaves_out (randint (attempt s k) n) n) ->
  generate_train_valid limit randint s n = Err Recursion.
Proof.
  induction limit as [|limit IH]; intros randint s n HR H; [reflexivity|].
  rewrite generate_step by auto. destruct (length (filter (fun i => times (randint s n) i =? 0) (seq 0 n)) =? 0) eqn:Ev.
  - apply IH; auto. intros k Hk. exact (H (S k) ltac:(lia)).
  - exfalso. assert (Hn : ~ leaves_out (randint s n) n) by exact (H 0 ltac:(lia)). apply no_valid in Hn. congruence.
Qed.
Print Assumptions C15_fails.

(** With one sample every draw is this sample: fit cannot succeed, whatever the generator,
    the seed and the recursion limit. *)
Theorem C15_one_sample_refuted : forall limit randint s, in_range_draws randint ->
  generate_train_valid limit randint s 1 = Err Recursion.
Proof.
  intros limit randint s HR. apply C15_fails; auto. intros k _ (i & Hi & Hn).
  destruct (HR (attempt s k) 1) as [Hl Hr]. apply Hn. destruct (randint (attempt s k) 1) as [|x [|]]; try discriminate.
  specialize (Hr x ltac:(simpl; auto)). left. lia.
Qed.
Print Assumptions C15_one_sample_refuted.

(** ** Instances *)

(** A linear congruential generator. *)
Fixpoint lcg (n : nat) (s : N) (k : nat) : list nat :=
  match k with
  | O => []
  | S k' => let s' := ((1103515245 * s + 12345) mod 2147483648)%N in (N.to_nat (s' / 65536) mod n) :: lcg n s' k'
  end.
Definition lcg_randint (s : N) (n : nat) : list nat := lcg n s n.

Lemma lcg_in_range : in_range_draws lcg_randint.
Proof.
  intros s n. unfold lcg_randint. assert (G : forall k s, length (lcg n s k) = k /\ (0 < n -> forall i, In i (lcg n s k) -> i < n)).
  { induction k as [|k IH]; intros s'; [simpl; split; [auto|intros _ i []]|].
    cbn [lcg]. cbv zeta. destruct (IH ((1103515245 * s' + 12345) mod 2147483648)%N) as [H1 H2]. split; [cbn [length]; lia|].
    intros Hn i [<-|Hi]; [apply Nat.mod_upper_bound; lia|auto]. }
  destruct (G n s) as [H1 H2]. split; auto. intros i Hi. apply H2; auto. destruct n; [destruct Hi|lia].
Qed.

Example C14_applies : exists train valid counts, generate_train_valid 5 lcg_randint 42 8 = Ok (train, valid, counts) /\
  2 <= length train /\ 2 <= length valid /\ exists c, In c counts /\ 2 <= c.
Proof. vm_compute. do 3 eexists. split; [reflexivity|]. split; [lia|]. split; [lia|]. exists 2. split; [tauto|lia]. Qed.

(** A seed for which the first attempt draws every sample once. *)
Example C15_retries : exists s, ~ leaves_out (lcg_randint s 3) 3 /\ exists r, generate_train_valid 5 lcg_randint s 3 = Ok r.
Proof.
  exists 1%N. split; [|vm_compute; eauto]. apply no_valid. vm_compute. reflexivity.
Qed.
