(** * Lemmas about threads *)

Require Import List Arith Lia Permutation Bool.
Require Import Verif.Base Verif.M_Parallel.
Import ListNotations.

(** ** Executions under the lock are serial *)
Section Lock.
Context {M L : Type}.
Notation op := (op M L).
Notation pc := (pc M L).
Notation mstate := (mstate M L).

(** The updates of one job, without interruption; the jobs one after the other. *)
Definition run_ops (ops : list op) (m : M) : res M :=
  foldM (fun m o => let* v := op_load o m in op_store o v m) ops m.
Definition serial (jobs : list (res (list op))) (order : list nat) (m : M) : res M :=
  foldM (fun m t => let* j := get jobs t in let* ops := j in run_ops ops m) order m.

Definition inside (p : option pc) : Prop :=
  match p with Some (Inside _) => True | Some (Loaded _ _ _) => True | _ => False end.

Lemma foldM_app : forall {S X} (f : S -> X -> res S) l1 l2 s,
  foldM f (l1 ++ l2) s = (let* s' := foldM f l1 s in foldM f l2 s').
Proof.
  intros S X f l1. induction l1 as [|x l1 IH]; intros l2 s; cbn [foldM app bind]; [reflexivity|].
  destruct (f s x); cbn [bind]; auto.
Qed.

Lemma nth_upd_eq : forall {X} (l : list X) i x, i < length l -> nth_error (upd l i x) i = Some x.
Proof. induction l as [|y l IH]; intros [|i] x H; simpl in *; try lia; auto. apply IH. lia. Qed.
Lemma nth_upd_ne : forall {X} (l : list X) i j x, i <> j -> nth_error (upd l i x) j = nth_error l j.
Proof. induction l as [|y l IH]; intros [|i] [|j] x H; simpl; auto; try congruence. Qed.
Lemma len_upd : forall {X} (l : list X) i x, length (upd l i x) = length l.
Proof. induction l as [|y l IH]; intros [|i] x; simpl; auto. Qed.

Lemma nth_lt : forall {X} (l : list X) i x, nth_error l i = Some x -> i < length l.
Proof. intros. apply nth_error_Some. congruence. Qed.

(** The lock protects the inside of [with lock:]. *)
Definition lock_inv (jobs : list (res (list op))) (st : mstate) : Prop :=
  length (ms_pcs st) = length jobs /\ forall t, inside (nth_error (ms_pcs st) t) <-> ms_holder st = Some t.

Lemma lock_initial : forall m jobs, lock_inv jobs (initial m jobs).
Proof.
  intros m jobs. split; [apply map_length|]. intros t. cbn. split; [|discriminate].
  rewrite nth_error_map. destruct (nth_error jobs t); simpl; tauto.
Qed.

Ltac tstep_cases H :=
  unfold tstep in H;
  match type of H with context [nth_error (ms_pcs ?st) ?t] => destruct (nth_error (ms_pcs st) t) as [[|ops|[|o ops]|v o ops| |e]|] eqn:Ep end;
  try discriminate.

Lemma lock_step : forall jobs st t st', lock_inv jobs st -> tstep true jobs st t = Some st' -> lock_inv jobs st'.
Proof.
  intros jobs st t st' [HL HI] H.
  assert (K : forall h p, t < length (ms_pcs st) -> (inside (Some p) <-> h = Some t) -> (forall t', t' <> t -> inside (nth_error (ms_pcs st) t') <-> h = Some t') ->
    forall m, lock_inv jobs (mkM m h (upd (ms_pcs st) t p))).
  { intros h p Hlt H1 H2 m. split; [cbn; rewrite len_upd; exact HL|]. intros t'. cbn. destruct (Nat.eq_dec t' t) as [->|Hne].
    - rewrite nth_upd_eq by exact Hlt. exact H1.
    - rewrite nth_upd_ne by auto. apply H2. exact Hne. }
  assert (Hin := HI t).
  tstep_cases H; try rewrite Ep in Hin; pose proof (nth_lt _ _ _ Ep) as Hlt; cbn [inside] in Hin.
  - destruct (nth_error jobs t) as [[ops|e]|]; try discriminate; injection H as <-; apply K; auto; cbn; apply Hin.
  - destruct (ms_holder st) as [h|] eqn:Eh; [discriminate|]. injection H as <-. apply K; auto; [cbn; tauto|].
    intros t' Hne. rewrite HI. split; intros; congruence.
  - injection H as <-. apply K; auto; [cbn; split; [tauto|discriminate]|]. intros t' Hne. rewrite HI. destruct Hin as [Hin _]. rewrite (Hin I).
    split; intros; congruence.
  - destruct (op_load o (ms_mem st)) as [v|e]; injection H as <-; apply K; auto.
    + cbn. split; [tauto|discriminate].
    + intros t' Hne. rewrite HI. destruct Hin as [Hin _]. rewrite (Hin I). split; intros; congruence.
  - destruct (op_store o v (ms_mem st)) as [m|e]; injection H as <-; apply K; auto.
    + cbn. split; [tauto|discriminate].
    + intros t' Hne. rewrite HI. destruct Hin as [Hin _]. rewrite (Hin I). split; intros; congruence.
Qed.

(** Memory is that of the jobs already done, in some order, followed by a part of the job
    that holds the lock. *)
Definition midway (jobs : list (res (list op))) (p : option pc) (t : nat) (mb m : M) : Prop :=
  match p with
  | Some (Inside ops) => exists pre, nth_error jobs t = Some (Ok (pre ++ ops)) /\ run_ops pre mb = Ok m
  | Some (Loaded v o ops) => exists pre, nth_error jobs t = Some (Ok (pre ++ o :: ops)) /\ run_ops pre mb = Ok m /\ op_load o m = Ok v
  | _ => False
  end.

Definition good (jobs : list (res (list op))) (m0 : M) (st : mstate) : Prop :=
  exists fin mb, NoDup fin /\ (forall t, In t fin <-> nth_error (ms_pcs st) t = Some Done) /\
    (forall t ops, nth_error (ms_pcs st) t = Some (Ready ops) -> nth_error jobs t = Some (Ok ops)) /\
    (forall t e, nth_error (ms_pcs st) t <> Some (Failed e)) /\
    serial jobs fin m0 = Ok mb /\
    match ms_holder st with None => ms_mem st = mb | Some h => midway jobs (nth_error (ms_pcs st) h) h mb (ms_mem st) end.

(** Some serial execution of distinct jobs raises. *)
Definition bad (jobs : list (res (list op))) (m0 : M) : Prop :=
  exists fin t e, NoDup (fin ++ [t]) /\ (forall k, In k (fin ++ [t]) -> k < length jobs) /\ serial jobs (fin ++ [t]) m0 = Err e.

Lemma good_initial : forall m jobs, good jobs m (initial m jobs).
Proof.
  intros m jobs. exists [], m. cbn. split; [constructor|].
  assert (H : forall t p, nth_error (map (fun _ => Start) jobs) t = Some p -> p = (Start : pc)).
  { intros t p H. apply nth_error_In, in_map_iff in H. destruct H as (? & <- & _). reflexivity. }
  split; [intros t; split; [tauto|intros Hd; apply H in Hd; discriminate]|].
  split; [intros t ops Hd; apply H in Hd; discriminate|].
  split; [intros t e Hd; apply H in Hd; discriminate|]. auto.
Qed.

Lemma NoDup_snoc : forall (l : list nat) t, NoDup l -> ~ In t l -> NoDup (l ++ [t]).
Proof.
  intros l t H1 H2. apply (Permutation_NoDup (l := t :: l)); [apply Permutation_cons_append|]. constructor; auto.
Qed.

Lemma good_step : forall jobs m0 st t st', lock_inv jobs st -> good jobs m0 st -> tstep true jobs st t = Some st' ->
  good jobs m0 st' \/ (bad jobs m0 /\ exists e, nth_error (ms_pcs st') t = Some (Failed e)).
Proof.
  intros jobs m0 st t st' [HL HI] (fin & mb & G1 & G2 & G3 & G4 & G5 & G6) H.
  assert (Hin := HI t).
  (* states that differ by the position of thread t *)
  assert (K : forall h p m, t < length (ms_pcs st) -> nth_error (ms_pcs st) t <> Some Done -> p <> Done -> (forall e, p <> Failed e) ->
    (forall ops, p = Ready ops -> nth_error jobs t = Some (Ok ops)) ->
    match h with None => m = mb | Some k => midway jobs (nth_error (upd (ms_pcs st) t p) k) k mb m end ->
    good jobs m0 (mkM m h (upd (ms_pcs st) t p))).
  { intros h p m Hlt Hd Hp Hf Hr Hm. exists fin, mb. cbn. split; [exact G1|]. split.
    { intros t'. rewrite G2. destruct (Nat.eq_dec t' t) as [->|Hne]; [rewrite nth_upd_eq by auto|rewrite nth_upd_ne by auto; tauto]. split; intros; congruence. }
    split. { intros t' ops Ht'. destruct (Nat.eq_dec t' t) as [->|Hne]; [rewrite nth_upd_eq in Ht' by auto; apply Hr; congruence|rewrite nth_upd_ne in Ht' by auto; eauto]. }
    split. { intros t' e Ht'. destruct (Nat.eq_dec t' t) as [->|Hne]; [rewrite nth_upd_eq in Ht' by auto; injection Ht' as Ht'; eapply Hf; eauto|rewrite nth_upd_ne in Ht' by auto; eapply G4; eauto]. }
    split; [exact G5|exact Hm]. }
  assert (KF : forall e, t < length (ms_pcs st) -> ~ In t fin -> serial jobs (fin ++ [t]) m0 = Err e -> bad jobs m0).
  { intros e Hlt Hn Hs. exists fin, t, e. split; [apply NoDup_snoc; auto|]. split; [|exact Hs]. intros k Hk. rewrite <- HL. apply in_app_iff in Hk.
    destruct Hk as [Hk|[<-|[]]]; auto. apply G2 in Hk. apply nth_lt in Hk. exact Hk. }
  assert (Hser : forall ops, nth_error jobs t = Some (Ok ops) -> serial jobs (fin ++ [t]) m0 = run_ops ops mb).
  { intros ops Hj. unfold serial in *. rewrite foldM_app, G5. cbn [bind foldM]. unfold get. rewrite Hj. cbn [bind]. destruct (run_ops ops mb); reflexivity. }
  tstep_cases H; try rewrite Ep in Hin; pose proof (nth_lt _ _ _ Ep) as Hlt; cbn [inside] in Hin;
    (assert (Hnf : ~ In t fin) by (rewrite G2; congruence)).
  - (* the prediction *)
    destruct (nth_error jobs t) as [[ops|e]|] eqn:Ej; try discriminate; injection H as <-.
    + left. apply K; auto; try congruence. destruct (ms_holder st) as [h|] eqn:Eh; [|exact G6].
      assert (h <> t) by (intros ->; apply Hin; reflexivity). rewrite nth_upd_ne by auto. exact G6.
    + right. cbn. rewrite nth_upd_eq by auto. split; [|eauto]. apply (KF e); auto.
      unfold serial in *. rewrite foldM_app, G5. cbn [bind foldM]. unfold get. rewrite Ej. reflexivity.
  - (* take the lock *)
    destruct (ms_holder st) as [h|] eqn:Eh; [discriminate|]. injection H as <-. left. apply K; auto; try congruence.
    rewrite nth_upd_eq by auto. exists []. split; [apply G3; exact Ep|]. cbn. congruence.
  - (* release the lock *)
    injection H as <-. left. destruct Hin as [Hin _]. rewrite (Hin I) in G6. rewrite Ep in G6. destruct G6 as (pre & J1 & J2). rewrite app_nil_r in J1.
    exists (fin ++ [t]), (ms_mem st). cbn. split; [apply NoDup_snoc; auto|]. split.
    { intros t'. rewrite in_app_iff, G2. destruct (Nat.eq_dec t' t) as [->|Hne]; [rewrite nth_upd_eq by auto|rewrite nth_upd_ne by auto]; simpl; intuition congruence. }
    split. { intros t' ops Ht'. destruct (Nat.eq_dec t' t) as [->|Hne]; [rewrite nth_upd_eq in Ht' by auto; congruence|rewrite nth_upd_ne in Ht' by auto; eauto]. }
    split. { intros t' e Ht'. destruct (Nat.eq_dec t' t) as [->|Hne]; [rewrite nth_upd_eq in Ht' by auto; congruence|rewrite nth_upd_ne in Ht' by auto; eapply G4; eauto]. }
    split; [rewrite (Hser _ J1); exact J2|reflexivity].
  - (* read *)
    destruct Hin as [Hin _]. specialize (Hin I). rewrite Hin in *. rewrite Ep in G6. destruct G6 as (pre & J1 & J2).
    destruct (op_load o (ms_mem st)) as [v|e] eqn:Eo; injection H as <-.
    + left. apply K; auto; try congruence. rewrite nth_upd_eq by auto. exists pre. auto.
    + right. cbn. rewrite nth_upd_eq by auto. split; [|eauto]. apply (KF e); auto.
      rewrite (Hser _ J1). unfold run_ops in *. rewrite foldM_app, J2. cbn [bind foldM]. rewrite Eo. reflexivity.
  - (* write *)
    destruct Hin as [Hin _]. specialize (Hin I). rewrite Hin in *. rewrite Ep in G6. destruct G6 as (pre & J1 & J2 & J3).
    destruct (op_store o v (ms_mem st)) as [m|e] eqn:Eo; injection H as <-.
    + left. apply K; auto; try congruence. rewrite nth_upd_eq by auto. exists (pre ++ [o]). split; [rewrite <- app_assoc; exact J1|].
      unfold run_ops in *. rewrite foldM_app, J2. cbn [bind foldM]. rewrite J3. cbn [bind]. rewrite Eo. reflexivity.
    + right. cbn. rewrite nth_upd_eq by auto. split; [|eauto]. apply (KF e); auto.
      rewrite (Hser _ J1). unfold run_ops in *. rewrite foldM_app, J2. cbn [bind foldM]. rewrite J3. cbn [bind]. rewrite Eo. reflexivity.
Qed.

Lemma failed_step : forall locked jobs (st : mstate) t st' k ek, tstep locked jobs st t = Some st' -> nth_error (ms_pcs st) k = Some (Failed ek) -> nth_error (ms_pcs st') k = Some (Failed ek).
Proof.
  intros locked jobs st t st' k ek H Hk. assert (Hne : t <> k). { intros ->. unfold tstep in H. rewrite Hk in H. discriminate. }
  assert (K : forall m h p, nth_error (ms_pcs (mkM m h (upd (ms_pcs st) t p))) k = Some (Failed ek)) by (intros; cbn; rewrite nth_upd_ne; auto).
  tstep_cases H; repeat match type of H with
    | context [match ?x with _ => _ end] => destruct x; try discriminate
    end; injection H as <-; apply K.
Qed.

Lemma run_good : forall jobs m0 sched st st', lock_inv jobs st -> good jobs m0 st \/ (bad jobs m0 /\ exists t e, nth_error (ms_pcs st) t = Some (Failed e)) ->
  run true jobs sched st = Some st' ->
  lock_inv jobs st' /\ (good jobs m0 st' \/ (bad jobs m0 /\ exists t e, nth_error (ms_pcs st') t = Some (Failed e))).
Proof.
  intros jobs m0 sched. induction sched as [|t sched IH]; intros st st' HL HG H; cbn [run] in H.
  - injection H as <-. auto.
  - destruct (tstep true jobs st t) as [st1|] eqn:Es; [|discriminate]. eapply IH; [eapply lock_step; eauto| |exact H].
    destruct HG as [HG|(HB & k & e & Hk)].
    + destruct (good_step _ _ _ _ _ HL HG Es) as [H1|(H1 & e & H2)]; [left; auto|right; eauto].
    + right. split; [exact HB|]. exists k, e. eapply failed_step; eauto.
Qed.

Lemma finished_done : forall st : mstate, finished st = true -> forall t p, nth_error (ms_pcs st) t = Some p -> p = Done.
Proof.
  intros st H t p Hp. unfold finished in H. rewrite forallb_forall in H. specialize (H p (nth_error_In _ _ Hp)). destruct p; congruence.
Qed.

(** Every complete execution is a serial one. *)
Theorem executions_are_serial : forall jobs m0 sched st, run true jobs sched (initial m0 jobs) = Some st -> finished st = true ->
  exists order, Permutation order (seq 0 (length jobs)) /\ serial jobs order m0 = Ok (ms_mem st).
Proof.
  intros jobs m0 sched st H HF. destruct (run_good jobs m0 sched _ _ (lock_initial m0 jobs) (or_introl (good_initial m0 jobs)) H) as [[HL HI] [HG|(_ & t & e & He)]].
  - destruct HG as (fin & mb & G1 & G2 & G3 & G4 & G5 & G6). exists fin. split.
    + apply NoDup_Permutation; [exact G1|apply seq_NoDup|]. intros t. rewrite G2, in_seq. split.
      * intros Ht. apply nth_lt in Ht. lia.
      * intros Ht. destruct (nth_error (ms_pcs st) t) as [p|] eqn:Ep; [|apply nth_error_None in Ep; lia]. f_equal. eapply finished_done; eauto.
    + destruct (ms_holder st) as [h|] eqn:Eh; [|congruence]. exfalso. assert (Hh : inside (nth_error (ms_pcs st) h)) by (apply HI; reflexivity).
      destruct (nth_error (ms_pcs st) h) as [p|] eqn:Ep; [|exact Hh]. rewrite (finished_done st HF h p Ep) in Hh. exact Hh.
  - exfalso. pose proof (finished_done st HF t _ He). discriminate.
Qed.

(** When a thread raises, some order of the jobs raises too. *)
Theorem failures_are_serial : forall jobs m0 sched st t e, run true jobs sched (initial m0 jobs) = Some st -> nth_error (ms_pcs st) t = Some (Failed e) ->
  exists order e', Permutation order (seq 0 (length jobs)) /\ serial jobs order m0 = Err e'.
Proof.
  intros jobs m0 sched st t e H HF. destruct (run_good jobs m0 sched _ _ (lock_initial m0 jobs) (or_introl (good_initial m0 jobs)) H) as [_ [HG|(HB & _)]].
  - exfalso. destruct HG as (fin & mb & _ & _ & _ & G4 & _). exact (G4 t e HF).
  - destruct HB as (fin & k & e' & B1 & B2 & B3).
    set (rest := filter (fun i => negb (existsb (Nat.eqb i) (fin ++ [k]))) (seq 0 (length jobs))). exists ((fin ++ [k]) ++ rest), e'.
    assert (Hr : forall i, In i rest <-> i < length jobs /\ ~ In i (fin ++ [k])).
    { intros i. unfold rest. rewrite filter_In, in_seq, negb_true_iff. split; intros [H1 H2]; (split; [lia|]).
      - intros Hi. assert (existsb (Nat.eqb i) (fin ++ [k]) = true) by (apply existsb_exists; exists i; split; [exact Hi|apply Nat.eqb_refl]). congruence.
      - destruct (existsb (Nat.eqb i) (fin ++ [k])) eqn:Ee; [|reflexivity]. apply existsb_exists in Ee. destruct Ee as (j & Hj & Hij). apply Nat.eqb_eq in Hij. congruence. }
    split.
    + apply NoDup_Permutation; [|apply seq_NoDup|].
      * assert (N : forall l1 l2 : list nat, NoDup l1 -> NoDup l2 -> (forall x, In x l1 -> ~ In x l2) -> NoDup (l1 ++ l2)).
        { intros l1. induction l1 as [|x l1 IH]; intros l2 N1 N2 N3; [exact N2|]. inversion N1; subst. cbn. constructor.
          - rewrite in_app_iff. intros [Hx|Hx]; [auto|]. apply (N3 x); simpl; auto.
          - apply IH; auto. intros z Hz. apply N3. simpl; auto. }
        apply N; [exact B1|apply NoDup_filter, seq_NoDup|]. intros x Hx Hx'. apply Hr in Hx'. tauto.
      * intros i. rewrite in_app_iff, Hr, in_seq. split; [intros [Hi|[Hi _]]; [apply B2 in Hi|]; lia|]. intros Hi.
        destruct (in_dec Nat.eq_dec i (fin ++ [k])); [auto|]. right. split; [lia|auto].
    + unfold serial in *. rewrite foldM_app, B3. reflexivity.
Qed.

(** ** No deadlock, no endless execution *)
Lemma run_lock : forall jobs sched st st', lock_inv jobs st -> run true jobs sched st = Some st' -> lock_inv jobs st'.
Proof.
  intros jobs sched. induction sched as [|t sched IH]; intros st st' HL H; cbn [run] in H; [congruence|].
  destruct (tstep true jobs st t) as [st1|] eqn:Es; [|discriminate]. eapply IH; [eapply lock_step; eauto|exact H].
Qed.

Definition stopped (p : pc) : Prop := match p with Done => True | Failed _ => True | _ => False end.

Theorem no_deadlock : forall jobs m0 sched st, run true jobs sched (initial m0 jobs) = Some st ->
  (exists t p, nth_error (ms_pcs st) t = Some p /\ ~ stopped p) -> exists t st', tstep true jobs st t = Some st'.
Proof.
  intros jobs m0 sched st H (t & p & Hp & Hs). destruct (run_lock _ _ _ _ (lock_initial m0 jobs) H) as [HL HI].
  destruct (ms_holder st) as [h|] eqn:Eh.
  - assert (Hh : inside (nth_error (ms_pcs st) h)) by (apply HI; reflexivity). exists h. unfold tstep.
    destruct (nth_error (ms_pcs st) h) as [[|ops|[|o ops]|v o ops| |e]|]; try contradiction; eauto.
    + destruct (op_load o (ms_mem st)); eauto.
    + destruct (op_store o v (ms_mem st)); eauto.
  - exists t. unfold tstep. rewrite Hp. assert (Hi := HI t). rewrite Hp in Hi. pose proof (nth_lt _ _ _ Hp) as Hlt.
    destruct p as [|ops|ops|v o ops| |e]; try (exfalso; apply Hs; exact I).
    + destruct (nth_error jobs t) as [[ops|e]|] eqn:Ej; eauto. apply nth_error_None in Ej. lia.
    + rewrite Eh. eauto.
    + exfalso. destruct Hi as [Hi _]. specialize (Hi I). congruence.
    + exfalso. destruct Hi as [Hi _]. specialize (Hi I). congruence.
Qed.

Definition todo (j : res (list op)) (p : pc) : nat :=
  match p with
  | Start => match j with Ok ops => 3 + 2 * length ops | Err _ => 1 end
  | Ready ops => 2 + 2 * length ops
  | Inside ops => 1 + 2 * length ops
  | Loaded _ _ ops => 2 + 2 * length ops
  | Done | Failed _ => 0
  end.
Definition todo_all (jobs : list (res (list op))) (st : mstate) : nat :=
  fold_right (fun '(j, p) n => todo j p + n) 0 (combine jobs (ms_pcs st)).

Lemma todo_upd : forall jobs pcs t j p q, nth_error jobs t = Some j -> nth_error pcs t = Some p -> todo j q < todo j p ->
  fold_right (fun '(j, p) n => todo j p + n) 0 (combine jobs (upd pcs t q)) < fold_right (fun '(j, p) n => todo j p + n) 0 (combine jobs pcs).
Proof.
  induction jobs as [|j0 jobs IH]; intros pcs [|t] j p q Hj Hp Hlt; try discriminate; destruct pcs as [|p0 pcs]; try discriminate.
  - cbn in *. injection Hj as ->. injection Hp as ->. lia.
  - cbn in *. specialize (IH pcs t j p q Hj Hp Hlt). lia.
Qed.

Lemma todo_step : forall jobs st t st', lock_inv jobs st -> tstep true jobs st t = Some st' -> todo_all jobs st' < todo_all jobs st.
Proof.
  intros jobs st t st' [HL HI] H. unfold todo_all.
  assert (K : forall m h p q j, nth_error jobs t = Some j -> nth_error (ms_pcs st) t = Some p -> todo j q < todo j p ->
    fold_right (fun '(j, p) n => todo j p + n) 0 (combine jobs (ms_pcs (mkM m h (upd (ms_pcs st) t q)))) < fold_right (fun '(j, p) n => todo j p + n) 0 (combine jobs (ms_pcs st))).
  { intros. cbn. eapply todo_upd; eauto. }
  tstep_cases H; (destruct (nth_error jobs t) as [j|] eqn:Ej; [|apply nth_error_None in Ej; apply nth_lt in Ep; lia]).
  - destruct j as [ops|e]; injection H as <-; eapply K; eauto; cbn; lia.
  - destruct (ms_holder st); [discriminate|]. injection H as <-; eapply K; eauto; cbn; lia.
  - injection H as <-; eapply K; eauto; cbn; lia.
  - destruct (op_load o (ms_mem st)); injection H as <-; eapply K; eauto; cbn; lia.
  - destruct (op_store o v (ms_mem st)); injection H as <-; eapply K; eauto; cbn; lia.
Qed.

Theorem executions_end : forall jobs m0 sched st, run true jobs sched (initial m0 jobs) = Some st ->
  length sched <= todo_all jobs (initial m0 jobs).
Proof.
  intros jobs m0 sched st. assert (G : forall sched st st', lock_inv jobs st -> run true jobs sched st = Some st' -> length sched + todo_all jobs st' <= todo_all jobs st).
  { clear. induction sched as [|t sched IH]; intros st st' HL H; cbn [run length] in *; [injection H as <-; lia|].
    destruct (tstep true jobs st t) as [st1|] eqn:Es; [|discriminate]. pose proof (todo_step _ _ _ _ HL Es). pose proof (IH st1 st' (lock_step _ _ _ _ HL Es) H). lia. }
  intros H. specialize (G sched _ _ (lock_initial m0 jobs) H). lia.
Qed.

(** Hence some schedule completes, and every schedule can be completed. *)
Lemma stopped_dec : forall l : list pc, (exists t p, nth_error l t = Some p /\ ~ stopped p) \/ (forall t p, nth_error l t = Some p -> stopped p).
Proof.
  induction l as [|p l IH]; [right; intros [|t] q H; discriminate|].
  assert (D : stopped p \/ ~ stopped p) by (destruct p; cbn; tauto). destruct D as [D|D].
  - destruct IH as [(t & q & H1 & H2)|IH]; [left; exists (S t), q; auto|]. right. intros [|t] q H; [cbn in H; congruence|eauto].
  - left. exists 0, p. auto.
Qed.

Theorem schedules_complete : forall jobs m0 sched st, run true jobs sched (initial m0 jobs) = Some st ->
  exists more st', run true jobs (sched ++ more) (initial m0 jobs) = Some st' /\ forall t p, nth_error (ms_pcs st') t = Some p -> stopped p.
Proof.
  intros jobs m0 sched st H.
  assert (R : forall s1 s2 st0 st1, run true jobs s1 st0 = Some st1 -> run true jobs (s1 ++ s2) st0 = run true jobs s2 st1).
  { intros s1. induction s1 as [|t s1 IH]; intros s2 st0 st1 Hr; cbn [run app] in *; [congruence|]. destruct (tstep true jobs st0 t); [auto|discriminate]. }
  assert (G : forall n st, todo_all jobs st <= n -> forall sched, run true jobs sched (initial m0 jobs) = Some st ->
    exists more st', run true jobs (sched ++ more) (initial m0 jobs) = Some st' /\ forall t p, nth_error (ms_pcs st') t = Some p -> stopped p).
  { clear H. induction n as [|n IH]; intros st0 Hn s H; destruct (stopped_dec (ms_pcs st0)) as [D|D].
    - destruct (no_deadlock _ _ _ _ H D) as (t & st1 & Hs). pose proof (todo_step _ _ _ _ (run_lock _ _ _ _ (lock_initial m0 jobs) H) Hs). lia.
    - exists [], st0. rewrite app_nil_r. auto.
    - destruct (no_deadlock _ _ _ _ H D) as (t & st1 & Hs). pose proof (todo_step _ _ _ _ (run_lock _ _ _ _ (lock_initial m0 jobs) H) Hs).
      destruct (IH st1 ltac:(lia) (s ++ [t])) as (more & st' & H1 & H2).
      { rewrite (R s [t] _ _ H). cbn [run]. rewrite Hs. reflexivity. }
      exists (t :: more), st'. rewrite <- app_assoc in H1. auto.
    - exists [], st0. rewrite app_nil_r. auto. }
  eapply G; [apply Nat.le_refl|exact H].
Qed.
End Lock.
