(** * Lemmas about the worker threads of fit *)

Require Import String Bool List Arith Lia NArith ZArith.
Require Import Verif.Base Verif.Num Verif.M_Bitarray Verif.M_Utils Verif.M_Context Verif.M_Node Verif.M_Split Verif.M_Tree Verif.M_Grow
  Verif.M_Object Verif.M_Forest Verif.M_Parallel Verif.P_Parallel.
Import ListNotations.
Local Open Scope list_scope.
Local Open Scope nat_scope.

Section Workers.
Context {G X : Type}.
Notation prog := (prog G X).

(** A job whose result does not depend on the state of the generator it finds. *)
Definition seeded (p : prog) : Prop := forall g g', fst (exec p g) = fst (exec p g').

Definition wgood (jobs : list prog) (st : fstate G X) : Prop :=
  length (fs_gens st) = length (fs_workers st) /\ length (fs_results st) = length jobs /\ fs_next st <= length jobs /\
  (forall w j p g, nth_error (fs_workers st) w = Some (Busy j p) -> nth_error (fs_gens st) w = Some g ->
     exists q, nth_error jobs j = Some q /\ forall g0, fst (exec q g0) = fst (exec p g)) /\
  (forall j r, nth_error (fs_results st) j = Some (Some r) -> exists q, nth_error jobs j = Some q /\ forall g0, fst (exec q g0) = r) /\
  (* every job that was taken is in progress or has returned *)
  (forall j, j < fs_next st -> (exists w p, nth_error (fs_workers st) w = Some (Busy j p)) \/ exists r, nth_error (fs_results st) j = Some (Some r)).

Lemma wgood_initial : forall jobs gens, wgood jobs (winitial jobs gens).
Proof.
  intros jobs gens. unfold winitial. split; [cbn; rewrite map_length; reflexivity|]. split; [cbn; apply map_length|]. split; [cbn; lia|]. split; [|split; [|cbn; intros; lia]].
  - intros w j p g H. cbn in H. apply nth_error_In, in_map_iff in H. destruct H as (? & H & _). discriminate.
  - intros j r H. cbn in H. apply nth_error_In, in_map_iff in H. destruct H as (? & H & _). discriminate.
Qed.

Lemma wgood_step : forall jobs st w st', (forall p, In p jobs -> seeded p) -> wgood jobs st -> wstep jobs st w = Some st' -> wgood jobs st'.
Proof.
  intros jobs st w st' HS (I1 & I2 & I3 & I4 & I5 & I6) H. unfold wstep in H.
  destruct (nth_error (fs_workers st) w) as [[|j [r|next gen]]|] eqn:Ew; [| | |discriminate].
  - (* takes a job *)
    destruct (nth_error jobs (fs_next st)) as [p|] eqn:Ej; [|discriminate]. injection H as <-. pose proof (nth_lt _ _ _ Ew) as Hw. pose proof (nth_lt _ _ _ Ej) as Hj.
    unfold wgood. cbn [fs_next fs_gens fs_workers fs_results]. rewrite len_upd. split; [exact I1|]. split; [exact I2|]. split; [lia|]. split; [|split; [exact I5|]].
    + intros w' j' p' g H1 H2. destruct (Nat.eq_dec w w') as [<-|Hne].
      * rewrite nth_upd_eq in H1 by exact Hw. injection H1 as <- <-. exists p. split; [exact Ej|]. intros g0. apply HS. eapply nth_error_In; eauto.
      * rewrite nth_upd_ne in H1 by exact Hne. eapply I4; eauto.
    + intros j' Hj'. destruct (Nat.eq_dec j' (fs_next st)) as [->|Hne].
      * left. exists w, p. apply nth_upd_eq. exact Hw.
      * destruct (I6 j' ltac:(lia)) as [(w' & p' & H1)|H1]; [|right; exact H1]. left. exists w', p'. rewrite nth_upd_ne; [exact H1|]. intros ->. congruence.
  - (* returns *)
    injection H as <-. pose proof (nth_lt _ _ _ Ew) as Hw. assert (Hg : w < length (fs_gens st)) by lia.
    destruct (nth_error (fs_gens st) w) as [g|] eqn:Eg; [|apply nth_error_None in Eg; lia].
    destruct (I4 w j (Return r) g Ew Eg) as (q & Q1 & Q2). cbn in Q2. pose proof (nth_lt _ _ _ Q1) as Hj.
    unfold wgood. cbn [fs_next fs_gens fs_workers fs_results]. rewrite !len_upd. split; [exact I1|]. split; [exact I2|]. split; [exact I3|]. split; [|split].
    + intros w' j' p' g' H1 H2. destruct (Nat.eq_dec w w') as [<-|Hne]; [rewrite nth_upd_eq in H1 by exact Hw; discriminate|].
      rewrite nth_upd_ne in H1 by exact Hne. eapply I4; eauto.
    + intros j' r' H1. destruct (Nat.eq_dec j j') as [<-|Hne].
      * rewrite nth_upd_eq in H1 by (rewrite I2; exact Hj). injection H1 as <-. eauto.
      * rewrite nth_upd_ne in H1 by exact Hne. eapply I5; eauto.
    + intros j' Hj'. destruct (Nat.eq_dec j j') as [<-|Hne]; [right; exists r; apply nth_upd_eq; rewrite I2; exact Hj|].
      destruct (I6 j' Hj') as [(w' & p' & H1)|(r' & H1)]; [|right; exists r'; rewrite nth_upd_ne; auto].
      left. exists w', p'. rewrite nth_upd_ne; [exact H1|]. intros ->. congruence.
  - (* one step *)
    destruct (nth_error (fs_gens st) w) as [g|] eqn:Eg; [|discriminate]. injection H as <-. pose proof (nth_lt _ _ _ Ew) as Hw. pose proof (nth_lt _ _ _ Eg) as Hg.
    unfold wgood. cbn [fs_next fs_gens fs_workers fs_results]. rewrite !len_upd. split; [exact I1|]. split; [exact I2|]. split; [exact I3|]. split; [|split; [exact I5|]].
    + intros w' j' p' g' H1 H2. destruct (Nat.eq_dec w w') as [<-|Hne].
      * rewrite nth_upd_eq in H1 by exact Hw. rewrite nth_upd_eq in H2 by exact Hg. injection H1 as <- <-. injection H2 as <-.
        destruct (I4 w j _ g Ew Eg) as (q & Q1 & Q2). exists q. split; [exact Q1|]. exact Q2.
      * rewrite nth_upd_ne in H1 by exact Hne. rewrite nth_upd_ne in H2 by exact Hne. eapply I4; eauto.
    + intros j' Hj'. destruct (I6 j' Hj') as [(w' & p' & H1)|H1]; [|right; exact H1]. left.
      destruct (Nat.eq_dec w w') as [<-|Hne]; [|exists w', p'; rewrite nth_upd_ne; auto].
      exists w, (next g). rewrite nth_upd_eq by exact Hw. rewrite Ew in H1. injection H1 as -> _. reflexivity.
Qed.

Lemma wrun_good : forall jobs sched st st', (forall p, In p jobs -> seeded p) -> wgood jobs st -> wrun jobs sched st = Some st' -> wgood jobs st'.
Proof.
  intros jobs sched. induction sched as [|w sched IH]; intros st st' HS HG H; cbn [wrun] in H; [congruence|].
  destruct (wstep jobs st w) as [st1|] eqn:Es; [|discriminate]. eapply IH; [exact HS|eapply wgood_step; eauto|exact H].
Qed.

Lemma all_some_nth : forall (l : list (option X)) r, all_some l = Some r -> length r = length l /\ forall j x, nth_error r j = Some x -> nth_error l j = Some (Some x).
Proof.
  induction l as [|[x|] l IH]; intros r H; cbn [all_some] in H; try discriminate.
  - injection H as <-. split; [reflexivity|]. intros [|j] x Hx; discriminate.
  - destruct (all_some l) as [r0|]; [|discriminate]. injection H as <-. destruct (IH r0 eq_refl) as [H1 H2]. split; [cbn; lia|].
    intros [|j] z Hz; cbn in *; [congruence|auto].
Qed.

(** The results do not depend on the number of threads, on what their generators contain, or
    on the schedule. *)
Theorem workers_results : forall jobs gens sched st rs g, (forall p, In p jobs -> seeded p) ->
  wrun jobs sched (winitial jobs gens) = Some st -> all_some (fs_results st) = Some rs -> rs = map (fun p => fst (exec p g)) jobs.
Proof.
  intros jobs gens sched st rs g HS H HA. destruct (wrun_good _ _ _ _ HS (wgood_initial jobs gens) H) as (I1 & I2 & I3 & I4 & I5 & I6).
  destruct (all_some_nth _ _ HA) as [A1 A2].
  assert (K : forall j, nth_error rs j = nth_error (map (fun p => fst (exec p g)) jobs) j).
  { intros j. rewrite nth_error_map. destruct (nth_error rs j) as [x|] eqn:Ex.
    - destruct (I5 j x (A2 j x Ex)) as (q & Q1 & Q2). rewrite Q1. cbn. rewrite Q2. reflexivity.
    - apply nth_error_None in Ex. rewrite (proj2 (nth_error_None jobs j)) by lia. reflexivity. }
  revert K. generalize (map (fun p => fst (exec p g)) jobs). clear. induction rs as [|x rs IH]; intros [|y l] K; [reflexivity|specialize (K 0); discriminate|specialize (K 0); discriminate|].
  f_equal; [specialize (K 0); cbn in K; congruence|]. apply IH. intros j. exact (K (S j)).
Qed.

(** As long as a result is missing some worker can move. *)
Theorem workers_progress : forall jobs gens sched st, gens <> [] -> (forall p, In p jobs -> seeded p) ->
  wrun jobs sched (winitial jobs gens) = Some st -> all_some (fs_results st) = None -> exists w st', wstep jobs st w = Some st'.
Proof.
  intros jobs gens sched st Hg HS H HA. destruct (wrun_good _ _ _ _ HS (wgood_initial jobs gens) H) as (I1 & I2 & I3 & I4 & I5 & I6).
  assert (HW : length (fs_workers st) = length gens).
  { assert (G0 : forall sched st0 st1, wrun jobs sched st0 = Some st1 -> length (fs_workers st1) = length (fs_workers st0)).
    { clear. induction sched as [|w sched IH]; intros st0 st1 H; cbn [wrun] in H; [congruence|]. destruct (wstep jobs st0 w) as [st2|] eqn:Es; [|discriminate].
      rewrite (IH _ _ H). unfold wstep in Es. destruct (nth_error (fs_workers st0) w) as [[|j [r|next gen]]|]; try discriminate;
        repeat match type of Es with context [match ?x with _ => _ end] => destruct x; try discriminate end; injection Es as <-; cbn; apply len_upd. }
    rewrite (G0 _ _ _ H). cbn. apply map_length. }
  assert (Hmiss : exists j, j < length jobs /\ nth_error (fs_results st) j = Some None).
  { rewrite <- I2. revert HA. clear. induction (fs_results st) as [|[x|] l IH]; intros HA; [discriminate| |exists 0; cbn; split; [lia|reflexivity]].
    cbn [all_some] in HA. destruct (all_some l); [discriminate|]. destruct (IH eq_refl) as (j & J1 & J2). exists (S j). cbn. split; [lia|exact J2]. }
  destruct Hmiss as (j & J1 & J2).
  assert (Hbusy : (exists w j p, nth_error (fs_workers st) w = Some (Busy j p)) \/ nth_error jobs (fs_next st) <> None /\ forall w x, nth_error (fs_workers st) w = Some x -> x = Idle).
  { assert (D : (exists w j p, nth_error (fs_workers st) w = Some (Busy j p)) \/ forall w x, nth_error (fs_workers st) w = Some x -> x = Idle).
    { clear. induction (fs_workers st) as [|x l IH]; [right; intros [|w] y Hy; discriminate|]. destruct x as [|j p]; [|left; exists 0, j, p; reflexivity].
      destruct IH as [(w & j & p & Hw)|IH]; [left; exists (S w), j, p; exact Hw|]. right. intros [|w] y Hy; [cbn in Hy; congruence|eauto]. }
    destruct D as [D|D]; [left; exact D|]. right. split; [|exact D]. intros Hn. apply nth_error_None in Hn.
    destruct (I6 j ltac:(lia)) as [(w & p & Hw)|(r & Hr)]; [specialize (D w _ Hw); discriminate|congruence]. }
  destruct Hbusy as [(w & j' & p & Hw)|[Hn Hidle]].
  - exists w. unfold wstep. rewrite Hw. destruct p as [r|next gen]; [eauto|].
    destruct (nth_error (fs_gens st) w) as [g|] eqn:Eg; [eauto|]. apply nth_error_None in Eg. apply nth_lt in Hw. lia.
  - exists 0. unfold wstep. destruct (nth_error (fs_workers st) 0) as [x|] eqn:E0.
    + rewrite (Hidle 0 x E0). destruct (nth_error jobs (fs_next st)); [eauto|congruence].
    + apply nth_error_None in E0. destruct gens; [congruence|]. cbn in HW. lia.
Qed.
End Workers.

(** ** The job of one tree *)
Section Tree.
Context {A : arith} {E : env A} (tk : task A E).

Lemma with_rng_same : forall g : gstate tk, with_rng tk g (g_rng g) = g.
Proof. intros []. reflexivity. Qed.

Lemma loop_exec : forall fuel tc g finish s,
  fst (exec (loop_prog tk fuel tc g finish) s) = match grow_loop tk fuel tc (with_rng tk g s) with Ok g' => finish g' | Err e => Err e end.
Proof.
  induction fuel as [|fuel IH]; intros tc g finish s; cbn [loop_prog grow_loop].
  - change (g_records (with_rng tk g s)) with (g_records g). destruct (has_records (g_records g)); reflexivity.
  - change (g_records (with_rng tk g s)) with (g_records g). destruct (has_records (g_records g)); [|reflexivity].
    cbn [exec]. destruct (grow_step tk tc (with_rng tk g s)) as [g'|e]; cbn [bind]; [|reflexivity].
    rewrite IH, with_rng_same. reflexivity.
Qed.

Lemma tree_exec : forall ME d p fb y w seed s, fst (exec (tree_prog tk ME d p fb y w seed) s) = build_tree ME tk d p fb y w seed.
Proof.
  intros ME d p fb y w seed s. unfold tree_prog, build_tree.
  destruct (generate_train_valid _ _ _ _) as [[[train valid] counts]|e]; cbn [bind]; [|reflexivity].
  destruct (bootstrap_weights w train counts) as [w'|e]; cbn [bind]; [|reflexivity].
  cbn [exec]. unfold obj_fit, tree_fit. destruct (init_tree_context tk p fb y w') as [tc|e] eqn:Ei; cbn [bind]; [|reflexivity].
  unfold grow. cbv zeta. destruct (resize_tree _ _ _) as [t0|e]; cbn [bind]; [|reflexivity].
  destruct (push_record _ _ _) as [rs|e]; cbn [bind]; [|reflexivity].
  rewrite loop_exec. change (with_rng tk (mkG tk t0 ?ps ?x ?fs rs) ?y) with (mkG tk t0 ps y fs rs).
  assert (Ea : tc_aggregation tc = tp_aggregation p).
  { unfold init_tree_context in Ei. destruct (init_max_n_bins fb); [|discriminate]. cbn [bind] in Ei. injection Ei as <-. reflexivity. }
  destruct (grow_loop _ _ _ _) as [g|e]; cbn [bind]; [|reflexivity].
  destruct (tc_aggregation tc); [|reflexivity].
  destruct (compute_tree_weights _ _ _) as [nodes|e]; reflexivity.
Qed.

Lemma tree_seeded : forall ME d p fb y w seed, seeded (tree_prog tk ME d p fb y w seed).
Proof. intros ME d p fb y w seed g g'. rewrite !tree_exec. reflexivity. Qed.
End Tree.
