(** * C49: fits are reproducible, whatever the threads do *)

Require Import String Bool List Arith Lia NArith ZArith.
Require Import Verif.Base Verif.Num Verif.M_Bitarray Verif.M_Utils Verif.M_Context Verif.M_Node Verif.M_Split Verif.M_Tree Verif.M_Grow
  Verif.M_Object Verif.M_Forest Verif.M_Parallel Verif.P_Parallel Verif.P_Workers.
Import ListNotations.
Local Open Scope list_scope.
Local Open Scope nat_scope.

Section Fit.
Context {A : arith} {E : env A} {L D : Type} (leb : L -> L -> bool) {EC : encoding D} (ME : menv E).
Notation T := (num A).

Section AnyForest.
Context {P Y : Type}.

(** Every completed parallel execution returns what executing the jobs one after the other
    on one thread returns. *)
Lemma parallel_serial : forall (jobs : list (prog (rng E) (res (tobj A P Y)))) gens sched r g, (forall p, In p jobs -> seeded p) ->
  parallel gens sched jobs = Some r -> r = mapM (fun p => fst (exec p g)) jobs.
Proof.
  intros jobs gens sched r g HS H. unfold parallel in H. destruct (wrun _ _ _) as [st|] eqn:Er; [|discriminate].
  destruct (all_some _) as [rs|] eqn:Ea; [|discriminate]. injection H as <-.
  rewrite (workers_results jobs gens sched st rs g HS Er Ea). clear.
  induction jobs as [|p jobs IH]; [reflexivity|]. cbn [map mapM]. destruct (fst (exec p g)); cbn [bind]; [|reflexivity]. rewrite IH. reflexivity.
Qed.

Lemma fit_end_serial : forall gens sched (o : fobj A L EC P Y) X repeats k job build r (g : rng E),
  (forall p fb t seed s, fst (exec (job p fb t seed) s) = build p fb t seed) ->
  fit_end_run ME gens sched o X repeats k job = Some r -> r = fit_end ME o X repeats k build.
Proof.
  intros gens sched o X repeats k job build r g HJ H. unfold fit_end_run in H. unfold fit_end.
  destruct (get_max_features _ _ _) as [mf|e]; [|congruence]. destruct (fo_random_state o) as [rs|]; [|congruence].
  destruct (bind _ _) as [[enc fb]|e]; [|congruence].
  destruct (parallel _ _ _) as [x|] eqn:Ep; [|discriminate].
  apply (parallel_serial _ _ _ _ g) in Ep.
  - assert (Em : x = mapM (fun '(t, seed) => build (tree_params_of o mf (ec_cats EC enc)) fb t seed)
        (combine (seq 0 (length (flat_map (fun s => repeat s repeats) (me_seeds ME rs (Z.to_nat (fo_n_estimators o))))))
                 (flat_map (fun s => repeat s repeats) (me_seeds ME rs (Z.to_nat (fo_n_estimators o)))))).
    { rewrite Ep. clear - HJ. induction (combine _ _) as [|[t seed] l IH]; [reflexivity|]. cbn [map mapM]. rewrite HJ, IH. reflexivity. }
    rewrite <- Em. destruct x; congruence.
  - intros p Hp. apply in_map_iff in Hp. destruct Hp as ([t seed] & <- & _). intros g1 g2. rewrite !HJ. reflexivity.
Qed.

(** A pool with a worker has a schedule that completes. *)
Lemma wrun_app : forall (jobs : list (prog (rng E) (res (tobj A P Y)))) s1 s2 st, wrun jobs (s1 ++ s2) st = match wrun jobs s1 st with Some st' => wrun jobs s2 st' | None => None end.
Proof. induction s1 as [|w s1 IH]; intros s2 st; cbn [wrun app]; [reflexivity|]. destruct (wstep jobs st w); [apply IH|reflexivity]. Qed.

Lemma run_one : forall (jobs : list (prog (rng E) (res (tobj A P Y)))) p j next g gs ws rs,
  exists sched, wrun jobs sched (mkFs next (g :: gs) (Busy j p :: ws) rs) = Some (mkFs next (snd (exec p g) :: gs) (Idle :: ws) (upd rs j (Some (fst (exec p g))))).
Proof.
  intros jobs p. induction p as [x|nx IH gen]; intros j next g gs ws rs.
  - exists [0]. reflexivity.
  - destruct (IH g j next (gen g) gs ws rs) as (sched & Hs). exists (0 :: sched). cbn [wrun wstep nth_error fs_workers fs_gens]. cbn [upd fs_next fs_results]. exact Hs.
Qed.

Lemma run_rest : forall (jobs todo done : list (prog (rng E) (res (tobj A P Y)))) g gs ws rs, jobs = done ++ todo ->
  length rs = length done ->
  exists sched g' xs, wrun jobs sched (mkFs (length done) (g :: gs) (Idle :: ws) (map Some rs ++ map (fun _ => None) todo)) =
    Some (mkFs (length jobs) (g' :: gs) (Idle :: ws) (map Some xs)).
Proof.
  intros jobs todo. induction todo as [|p todo IH]; intros done g gs ws rs Hj Hl.
  - exists [], g, rs. cbn. subst jobs. rewrite !app_nil_r. reflexivity.
  - destruct (run_one jobs p (length done) (S (length done)) g gs ws (map Some rs ++ None :: map (fun _ => None) todo)) as (s1 & H1).
    destruct (IH (done ++ [p]) (snd (exec p g)) gs ws (rs ++ [fst (exec p g)])) as (s2 & g' & xs & H2).
    + subst jobs. rewrite <- app_assoc. reflexivity.
    + rewrite !app_length. cbn. lia.
    + exists (0 :: s1 ++ s2), g', xs. cbn [map]. cbn [wrun wstep nth_error fs_workers fs_next].
      assert (En : nth_error jobs (length done) = Some p) by (subst jobs; rewrite nth_error_app2, Nat.sub_diag by lia; reflexivity).
      rewrite En. cbn [upd fs_gens fs_results]. rewrite wrun_app, H1.
      assert (Eu : upd (map Some rs ++ None :: map (fun _ : prog (rng E) (res (tobj A P Y)) => None) todo) (length done) (Some (fst (exec p g))) =
                   map Some (rs ++ [fst (exec p g)]) ++ map (fun _ => None) todo).
      { rewrite <- Hl. clear. induction rs as [|x rs IH]; cbn; [reflexivity|]. f_equal. exact IH. }
      rewrite Eu. rewrite app_length in H2. cbn [length] in H2. rewrite Nat.add_1_r in H2. exact H2.
Qed.

Lemma all_some_map : forall (xs : list (res (tobj A P Y))), all_some (map Some xs) = Some xs.
Proof. induction xs as [|x xs IH]; cbn; [reflexivity|]. rewrite IH. reflexivity. Qed.

Lemma parallel_completes : forall (jobs : list (prog (rng E) (res (tobj A P Y)))) gens, gens <> [] -> exists sched r, parallel gens sched jobs = Some r.
Proof.
  intros jobs [|g gs] Hg; [congruence|]. destruct (run_rest jobs jobs [] g gs (map (fun _ => Idle) gs) [] eq_refl eq_refl) as (sched & g' & xs & H).
  exists sched. cbn in H. unfold parallel, winitial. cbn [map]. rewrite H. cbn [fs_results]. rewrite all_some_map. eauto.
Qed.

Lemma fit_end_completes : forall gens (o : fobj A L EC P Y) X repeats k job, gens <> [] -> exists sched r, fit_end_run ME gens sched o X repeats k job = Some r.
Proof.
  intros gens o X repeats k job Hg. unfold fit_end_run.
  destruct (get_max_features _ _ _) as [mf|e]; [|exists []; eauto]. destruct (fo_random_state o) as [rs|]; [|exists []; eauto].
  destruct (bind _ _) as [[enc fb]|e]; [|exists []; eauto].
  destruct (parallel_completes (map (fun '(t, seed) => job (tree_params_of o mf (ec_cats EC enc)) fb t seed)
       (combine (seq 0 (length (flat_map (fun s => repeat s repeats) (me_seeds ME rs (Z.to_nat (fo_n_estimators o))))))
                (flat_map (fun s => repeat s repeats) (me_seeds ME rs (Z.to_nat (fo_n_estimators o)))))) gens Hg) as (sched & r & H).
  exists sched. rewrite H. destruct r; eauto.
Qed.
End AnyForest.

(** The whole object after a fit, the exception, and the caller's weights: the same for every
    number of threads, every state of their generators and every schedule. *)
Theorem C49_classifier : forall gens sched (o : clf_forest A L EC) X y sw r, gens <> [] ->
  clf_fit_run leb ME gens sched o X y sw = Some r -> r = clf_fit leb ME o X y sw.
Proof.
  intros gens sched o X y sw r Hg H. destruct gens as [|g gens]; [congruence|]. unfold clf_fit_run in H. unfold clf_fit.
  destruct (negb _); [congruence|]. destruct (check_weights _ _) as [w|e]; [|congruence].
  destruct (match fo_multiclass o with Ovr => _ | Multinomial => _ end) as [o2 [e|]]; [congruence|].
  destruct (fo_dirichlet o2) as [d|]; [|congruence]. destruct (_ && _)%bool; [congruence|].
  destruct (fo_multiclass o2); cbv zeta in *;
    (match type of H with option_map _ ?f = _ => destruct f as [x|] eqn:Ex end; [|discriminate]); cbn [option_map] in H; injection H as <-; f_equal;
    (eapply fit_end_serial; [exact g| |exact Ex]); intros p fb t seed s;
    [exact (tree_exec (clf_task E (length (uniq leb y)) d (crit_of (fo_criterion o2)) (fo_strategy o2)) ME d p fb _ _ seed s)
    |exact (tree_exec (clf_task E 2 d (crit_of (fo_criterion o2)) (fo_strategy o2)) ME d p fb _ _ seed s)].
Qed.

Theorem C49_regressor : forall gens sched (o : reg_forest A L EC) X y sw r, gens <> [] ->
  reg_fit_run ME gens sched o X y sw = Some r -> r = reg_fit ME o X y sw.
Proof.
  intros gens sched o X y sw r Hg H. destruct gens as [|g gens]; [congruence|]. unfold reg_fit_run in H. unfold reg_fit.
  destruct (negb _); [congruence|]. destruct (check_weights _ _) as [w|e]; [|congruence].
  match type of H with option_map _ ?f = _ => destruct f as [x|] eqn:Ex end; [|discriminate]. cbn [option_map] in H. injection H as <-. f_equal.
  eapply fit_end_serial; [exact g| |exact Ex]. intros p fb t seed s. exact (tree_exec (reg_task E) ME a0 p fb y w seed s).
Qed.

(** Some schedule completes, whatever the number of threads. *)
Theorem C49_classifier_completes : forall gens (o : clf_forest A L EC) X y sw, gens <> [] ->
  exists sched, clf_fit_run leb ME gens sched o X y sw = Some (clf_fit leb ME o X y sw).
Proof.
  intros gens o X y sw Hg. assert (K : exists sched r, clf_fit_run leb ME gens sched o X y sw = Some r).
  { unfold clf_fit_run. destruct (negb _); [exists []; eauto|]. destruct (check_weights _ _) as [w|e]; [|exists []; eauto].
    destruct (match fo_multiclass o with Ovr => _ | Multinomial => _ end) as [o2 [e|]]; [exists []; eauto|].
    destruct (fo_dirichlet o2) as [d|]; [|exists []; eauto]. destruct (_ && _)%bool; [exists []; eauto|].
    destruct (fo_multiclass o2); cbv zeta;
    match goal with |- context [fit_end_run _ _ _ ?oo _ ?rep ?k ?job] => destruct (fit_end_completes gens oo X rep k job Hg) as (sched & r & Hr) end;
    exists sched; rewrite Hr; cbn; eauto. }
  destruct K as (sched & r & Hr). exists sched. rewrite Hr. f_equal. eapply C49_classifier; eauto.
Qed.

Theorem C49_regressor_completes : forall gens (o : reg_forest A L EC) X y sw, gens <> [] ->
  exists sched, reg_fit_run ME gens sched o X y sw = Some (reg_fit ME o X y sw).
Proof.
  intros gens o X y sw Hg. assert (K : exists sched r, reg_fit_run ME gens sched o X y sw = Some r).
  { unfold reg_fit_run. destruct (negb _); [exists []; eauto|]. destruct (check_weights _ _) as [w|e]; [|exists []; eauto].
    match goal with |- context [fit_end_run _ _ _ ?oo _ ?rep ?k ?job] => destruct (fit_end_completes gens oo X rep k job Hg) as (sched & r & Hr) end;
    exists sched; rewrite Hr; cbn; eauto. }
  destruct K as (sched & r & Hr). exists sched. rewrite Hr. f_equal. eapply C49_regressor; eauto.
Qed.
End Fit.

(** ** Two fits with the same integer random_state

    [me_seeds] of two fits may differ when random_state is None, since then numpy seeds its
    generator from the operating system; it is a function of the state when it is an integer. *)
Section TwoRuns.
Context {A : arith} {E : env A} {L D : Type} (leb : L -> L -> bool) {EC : encoding D}.
Notation T := (num A).

Definition same_generators (ME ME' : menv E) : Prop :=
  me_randint ME = me_randint ME' /\ (forall s n, me_seeds ME (Some s) n = me_seeds ME' (Some s) n) /\ me_seed ME = me_seed ME' /\
  me_limit ME = me_limit ME' /\ me_isqrt ME = me_isqrt ME' /\ me_ilog2 ME = me_ilog2 ME' /\ me_ifrac ME = me_ifrac ME'.

Lemma same_build : forall ME ME' tk d p fb y w seed, same_generators ME ME' -> build_tree ME tk d p fb y w seed = build_tree ME' tk d p fb y w seed.
Proof. intros ME ME' tk d p fb y w seed (H1 & _ & H3 & H4 & _). unfold build_tree. rewrite H1, H3, H4. reflexivity. Qed.

Lemma same_fit_end : forall P Y ME ME' (o : fobj A L EC P Y) X repeats k build build' s, same_generators ME ME' ->
  fo_random_state o = Some (Some s) -> (forall p fb t seed, build p fb t seed = build' p fb t seed) ->
  fit_end ME o X repeats k build = fit_end ME' o X repeats k build'.
Proof.
  intros P Y ME ME' o X repeats k build build' s (H1 & H2 & H3 & H4 & H5 & H6 & H7) Hr HB. unfold fit_end.
  assert (Em : get_max_features ME (fo_max_features o) (snd (ec_shape EC X)) = get_max_features ME' (fo_max_features o) (snd (ec_shape EC X))).
  { unfold get_max_features. rewrite H5, H6, H7. reflexivity. }
  rewrite Em. destruct (get_max_features ME' _ _) as [mf|e]; [|reflexivity]. rewrite Hr, H2.
  destruct (bind _ _) as [[enc fb]|e]; [|reflexivity].
  assert (Eb : forall (p : @tree_params A) l, mapM (fun '(t, seed) => build p fb t seed) l = mapM (fun '(t, seed) => build' p fb t seed) l).
  { intros p l. induction l as [|[t seed] l IH]; [reflexivity|]. cbn [mapM]. rewrite HB, IH. reflexivity. }
  rewrite Eb. reflexivity.
Qed.

Theorem C49_two_fits_classifier : forall ME ME' gens gens' sched sched' (o : clf_forest A L EC) X y sw s r r', same_generators ME ME' ->
  fo_random_state o = Some (Some s) -> gens <> [] -> gens' <> [] ->
  clf_fit_run leb ME gens sched o X y sw = Some r -> clf_fit_run leb ME' gens' sched' o X y sw = Some r' -> r = r'.
Proof.
  intros ME ME' gens gens' sched sched' o X y sw s r r' HM Hr Hg Hg' H H'.
  apply C49_classifier in H; [|exact Hg]. apply C49_classifier in H'; [|exact Hg']. subst r r'. unfold clf_fit.
  destruct (negb _); [reflexivity|]. destruct (check_weights _ _) as [w|e]; [|reflexivity].
  destruct (match fo_multiclass o with Ovr => _ | Multinomial => _ end) as [o2 e2] eqn:E2.
  assert (Hr2 : e2 = None -> fo_random_state o2 = Some (Some s)).
  { intros ->. destruct (fo_multiclass o); [|destruct (_ <=? 2)]; try (injection E2 as <-; exact Hr).
    unfold set_multiclass in E2. repeat match type of E2 with context [if ?b then _ else _] => destruct b | context [match ?b with _ => _ end] => destruct b end;
      try discriminate; injection E2 as <-; exact Hr. }
  destruct e2; [reflexivity|]. specialize (Hr2 eq_refl).
  destruct (fo_dirichlet o2) as [d|]; [|reflexivity]. destruct (_ && _)%bool; [reflexivity|].
  destruct (fo_multiclass o2); cbv zeta; f_equal; (eapply same_fit_end; [exact HM|exact Hr2|]); intros p fb t seed;
    [exact (same_build ME ME' (clf_task E (length (uniq leb y)) d (crit_of (fo_criterion o2)) (fo_strategy o2)) d p fb _ _ seed HM)
    |exact (same_build ME ME' (clf_task E 2 d (crit_of (fo_criterion o2)) (fo_strategy o2)) d p fb _ _ seed HM)].
Qed.

Theorem C49_two_fits_regressor : forall ME ME' gens gens' sched sched' (o : reg_forest A L EC) X y sw s r r', same_generators ME ME' ->
  fo_random_state o = Some (Some s) -> gens <> [] -> gens' <> [] ->
  reg_fit_run ME gens sched o X y sw = Some r -> reg_fit_run ME' gens' sched' o X y sw = Some r' -> r = r'.
Proof.
  intros ME ME' gens gens' sched sched' o X y sw s r r' HM Hr Hg Hg' H H'.
  apply C49_regressor in H; [|exact Hg]. apply C49_regressor in H'; [|exact Hg']. subst r r'. unfold reg_fit.
  destruct (negb _); [reflexivity|]. destruct (check_weights _ _) as [w|e]; [|reflexivity]. f_equal.
  eapply same_fit_end; [exact HM|exact Hr|]. intros p fb t seed. exact (same_build ME ME' (reg_task E) a0 p fb y w seed HM).
Qed.

End TwoRuns.

Print Assumptions C49_classifier.
Print Assumptions C49_regressor.
Print Assumptions C49_classifier_completes.
Print Assumptions C49_regressor_completes.
Print Assumptions C49_two_fits_classifier.
Print Assumptions C49_two_fits_regressor.
