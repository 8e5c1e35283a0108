(** * Concrete forests, threads and schedules; what fails without the lock or the seeding,
    and in floating point *)

Require Import String Bool List Arith Lia NArith ZArith QArith Reals Lra Permutation SpecFloat.
Require Import Verif.Base Verif.Num Verif.M_Bitarray Verif.P_Bitarray Verif.M_Utils Verif.M_Context Verif.M_Split
  Verif.M_Tree Verif.M_Grow Verif.M_Object Verif.M_Forest Verif.M_Parallel Verif.S_Fit Verif.S_Split Verif.S_Object Verif.S_Params Verif.S_Forest
  Verif.T_Setters Verif.T_Bootstrap Verif.T_Params Verif.P_Forest Verif.T_Forest Verif.T_ForestR Verif.T_Parallel Verif.T_Workers
  Verif.Ex_Data Verif.Ex_Valid Verif.Ex_R Verif.Ex_Forest.
Import ListNotations.
Local Open Scope list_scope.
Local Open Scope nat_scope.

(** ** The hypotheses are met *)

Example C39_classifier_applies : forall m b agg X sw, bd_fb X = ex_fb -> sw = None \/ sw = ex_weights b ->
  exists o1 c ps, clf_fit Nat.leb ex_menv (ex_forest m b agg) X ex_names sw = ((o1, None), c) /\
    predict_proba_trees o1 X = Ok ps /\ length ps = (match m with Multinomial => 2 | Ovr => 6 end) /\
    (exists sched rows, predict_proba_run (fun s => Rleb s 0) sched o1 X = Some rows /\ length rows = 8) /\
    (forall sched sched' rows rows', predict_proba_run (fun s => Rleb s 0) sched o1 X = Some rows -> predict_proba_run (fun s => Rleb s 0) sched' o1 X = Some rows' -> rows = rows').
Proof.
  intros m b agg X sw HX Hsw. destruct (ex_X_facts X HX) as (Et & Es & Ef). destruct (ex_fits m b agg X sw HX Hsw) as (o1 & c & H).
  destruct (ex_fitted m b agg X sw o1 c HX Hsw H) as (F1 & F2 & F3 & F4 & F5).
  destruct (C39_classifier ex_menv (fun _ => True) ex_menv_good env_R_good ex_encoding_good Nat.leb nat_order (ex_forest m b agg) o1 X ex_names sw c (ex_legal m b agg) (ex_enough m b agg X)
     (ex_sw_positive b sw Hsw) (ex_dirichlet m b agg) H X 2 ex_fb (fun s => Rleb s 0) F1 Et) as (ps & G1 & G2 & (sched & rows & G3) & G4).
  exists o1, c, ps. split; [exact H|]. split; [exact G1|]. split; [rewrite G2; exact F2|]. split.
  - exists sched, rows. split; [exact G3|]. rewrite (G4 sched rows G3), map_length, seq_length, Es. reflexivity.
  - intros s1 s2 r1 r2 H1 H2. rewrite (G4 _ _ H1), (G4 _ _ H2). reflexivity.
Qed.

Example C39_regressor_applies : forall X, bd_fb X = ex_fb ->
  exists o1 c, reg_fit ex_menv ex_forest_reg X ex_targets (ex_weights true) = ((o1, None), c) /\
    (exists sched rows, predict_reg_run sched o1 X = Some rows /\ length rows = 8) /\
    (forall sched sched' rows rows', predict_reg_run sched o1 X = Some rows -> predict_reg_run sched' o1 X = Some rows' -> rows = rows').
Proof.
  intros X HX. destruct (ex_X_facts X HX) as (Et & Es & Ef). destruct (ex_reg_fits X true (ex_weights true) HX (or_intror eq_refl)) as (o1 & c & H).
  destruct (reg_fit_trees ex_menv (fun _ => True) ex_menv_good ex_encoding_good ex_forest_reg o1 X ex_targets (ex_weights true) c ex_legal_reg H)
    as (w & mf & rs & enc & fb & ts & H1 & _ & _ & _ & He & _ & _ & _ & HT).
  assert (E2 : enc = 2). { pose proof (eq_trans (eq_sym He) (Ef (fo_max_bins ex_forest_reg))) as Q. injection Q as ->. reflexivity. }
  subst enc.
  destruct (C39_regressor ex_menv (fun _ => True) ex_menv_good env_R_good ex_encoding_good ex_forest_reg o1 X ex_targets (ex_weights true) c ex_legal_reg (ex_weights_positive true) H
     X 2 ex_fb) as (ts' & ps & G1 & G2 & (sched & rows & G3) & G4); [subst o1; reflexivity|exact Et|].
  exists o1, c. split; [exact H|]. split.
  - exists sched, rows. split; [exact G3|]. rewrite (G4 sched rows G3), map_length, seq_length, Es. reflexivity.
  - intros s1 s2 r1 r2 K1 K2. rewrite (G4 _ _ K1), (G4 _ _ K2). reflexivity.
Qed.

(** The rows written by the trees themselves, for every schedule and whatever the array
    contained before. *)
Example C39_rows_applies : forall m b agg X sw, bd_fb X = ex_fb -> sw = None \/ sw = ex_weights b ->
  exists o1 c ps, clf_fit Nat.leb ex_menv (ex_forest m b agg) X ex_names sw = ((o1, None), c) /\ predict_proba_trees o1 X = Ok ps /\
    forall sched junk rows, length junk = n_trees o1 -> (forall row, In row junk -> length row = 8) ->
      per_tree_run (obj_predict mix_vec) sched junk o1 X = Some rows -> rows = ps.
Proof.
  intros m b agg X sw HX Hsw. destruct (ex_X_facts X HX) as (Et & Es & Ef). destruct (ex_fits m b agg X sw HX Hsw) as (o1 & c & H).
  destruct (ex_fitted m b agg X sw o1 c HX Hsw H) as (F1 & F2 & F3 & F4 & t & ts & F5).
  destruct (C34_forest ex_menv (fun _ => True) ex_menv_good env_R_good ex_encoding_good Nat.leb nat_order (ex_forest m b agg) o1 X ex_names sw c (ex_legal m b agg) (ex_enough m b agg X)
     (ex_sw_positive b sw Hsw) (ex_dirichlet m b agg) H X 2 ex_fb F1 Et (fun s => Rleb s 0) (seq 0 (n_trees o1))) as (ps & rows & G1 & G2 & G3 & _).
  { intros s Hs. apply Rleb_false in Hs. lra. }
  { apply Permutation_refl. }
  exists o1, c, ps. split; [exact H|]. split; [exact G1|]. intros sched junk rs J1 J2 HR.
  assert (Eh : predict_helper o1 X = Ok (ex_fb, t :: ts)) by (unfold predict_helper; rewrite F1; cbn [bind]; rewrite Et, F5; reflexivity).
  assert (G1' := G1). unfold predict_proba_trees in G1'. rewrite Eh in G1'. cbn [bind] in G1'.
  eapply (C39_rows (obj_predict mix_vec) sched junk o1 X ex_fb (t :: ts) ps rs Eh G1').
  - intros v Hv. destruct (G3 v Hv) as [G _]. rewrite G, Es. reflexivity.
  - rewrite J1. unfold n_trees. rewrite F5. reflexivity.
  - exact J2.
  - exact HR.
Qed.

(** Two threads with unrelated generators, and one thread: the same forest. *)
Example C49_applies : forall m b agg X sw, bd_fb X = ex_fb -> sw = None \/ sw = ex_weights b ->
  exists o1 c sched sched', clf_fit_run Nat.leb ex_menv [5; 9] sched (ex_forest m b agg) X ex_names sw = Some ((o1, None), c) /\
    clf_fit_run Nat.leb ex_menv [0] sched' (ex_forest m b agg) X ex_names sw = Some ((o1, None), c).
Proof.
  intros m b agg X sw HX Hsw. destruct (ex_fits m b agg X sw HX Hsw) as (o1 & c & H).
  destruct (C49_classifier_completes Nat.leb ex_menv [5; 9] (ex_forest m b agg) X ex_names sw) as (s1 & H1); [discriminate|].
  destruct (C49_classifier_completes Nat.leb ex_menv [0] (ex_forest m b agg) X ex_names sw) as (s2 & H2); [discriminate|].
  rewrite H in H1, H2. eauto 8.
Qed.
Example C49_regressor_applies : forall X, bd_fb X = ex_fb ->
  exists o1 c sched, reg_fit_run ex_menv [5; 9; 1] sched ex_forest_reg X ex_targets (ex_weights true) = Some ((o1, None), c).
Proof.
  intros X HX. destruct (ex_reg_fits X true (ex_weights true) HX (or_intror eq_refl)) as (o1 & c & H).
  destruct (C49_regressor_completes ex_menv [5; 9; 1] ex_forest_reg X ex_targets (ex_weights true)) as (s1 & H1); [discriminate|].
  rewrite H in H1. eauto.
Qed.

(** Another numpy with other entropy when random_state is None. *)
Definition ex_menv' : menv env_R :=
  @mkMenv R_arith env_R lcg_randint (fun s n => match s with None => repeat 77%N n | Some _ => map N.of_nat (seq 1 n) end) N.to_nat 1000
    (fun n => Z.of_nat (Nat.sqrt n)) (fun n => Z.of_nat (Nat.log2 n)) ifrac_R.
Example C49_two_fits_applies : same_generators ex_menv ex_menv' /\ ex_menv <> ex_menv' /\ forall m b agg, fo_random_state (ex_forest m b agg) = Some (Some 7%Z).
Proof.
  split; [unfold same_generators; cbn; auto 10|]. split; [|reflexivity]. intros H.
  assert (K : me_seeds ex_menv None 1 = me_seeds ex_menv' None 1) by (rewrite H; reflexivity). discriminate.
Qed.

(** ** Without the lock, additions are lost *)
Theorem C39_without_lock_refuted :
  let jobs := [Ok (entries (A := QA) 0 [1%Q]); Ok (entries (A := QA) 0 [1%Q])] in
  (exists sched st, M_Parallel.run false jobs sched (initial [0%Q] jobs) = Some st /\ finished st = true /\ ms_mem st = [1%Q]) /\
  (exists sched st, M_Parallel.run true jobs sched (initial [0%Q] jobs) = Some st /\ finished st = true /\ ms_mem st = [2%Q]).
Proof.
  split.
  - exists [0; 1; 0; 1; 0; 1; 0; 1; 0; 1]. eexists. vm_compute. auto.
  - exists [0; 1; 0; 0; 0; 0; 1; 1; 1; 1]. eexists. vm_compute. auto.
Qed.

(** ** A job that draws before it seeds depends on the schedule *)
Theorem C49_unseeded_refuted : exists (jobs : list (prog nat nat)) gens sched sched' st st' r r',
  wrun jobs sched (winitial jobs gens) = Some st /\ wrun jobs sched' (winitial jobs gens) = Some st' /\
  all_some (fs_results st) = Some r /\ all_some (fs_results st') = Some r' /\ r <> r'.
Proof.
  exists [Tick Return S; Tick Return S], [0; 10], [0; 0; 0; 0; 0; 0], [0; 1; 0; 1; 0; 1].
  do 4 eexists. split; [vm_compute; reflexivity|]. split; [vm_compute; reflexivity|]. split; [vm_compute; reflexivity|]. split; [vm_compute; reflexivity|]. discriminate.
Qed.

(** ** In binary64 the order of the trees shows

    A regressor fitted with targets 1 and 2^53. Row 5 is given the prediction 1 or 2^53
    by every tree, which are float32 numbers: the tree-level rounding of the code plays no
    role. *)
Definition FD : arith := F64 (fun x => x) (fun x => x).
Definition env_D : env FD := @mkEnv FD nat (fun s n => (Nat.modulo (s * 7 + 3) n, S s)) (fun l => seq 0 (length l)) (fun i => i).
Definition menv_D : menv env_D :=
  @mkMenv FD env_D lcg_randint (fun _ n => map N.of_nat (seq 1 n)) N.to_nat 1000
    (fun n => Z.of_nat (Nat.sqrt n)) (fun n => Z.of_nat (Nat.log2 n)) (fun _ _ => Ok 1%Z).
Definition exD : reg_forest FD nat ex_encoding :=
  mkF false 6 a1 false None 2 1 256 MFAuto 1 (Some (Some 7%Z)) false "mse" "mse" None false Multinomial BinaryMod [] [] None None 0.
Definition D1 : num FD := aofnat 1.
Definition D53 : num FD := S754_finite false 4503599627370496 1.
Definition exD_y : list (num FD) := [D1; D53; D1; D53; D1; D1; D53; D1].
Definition ex_X : binned.
Proof.
  assert (H : 1 <= fb_n_features ex_fb) by (vm_compute; lia).
  exact (mkBinned ex_fb (proj1 ex_fb_packed) ex_fb_allocated H).
Defined.
Definition one_by_one (order : list nat) : list nat := flat_map (fun t => repeat t 19) order.

Definition runs_of {A : arith} (r : mresult A nat ex_encoding (num A) (num A) * list (num A)) (X : binned)
  : (bool * option (list (num A)) * option (list (num A)) * res (list (list (num A))))%type :=
  let o := fst (fst r) in
  (match snd (fst r) with None => true | Some _ => false end,
   predict_reg_run (one_by_one [0; 1; 2; 3; 4; 5]) o X, predict_reg_run (one_by_one [5; 4; 3; 2; 1; 0]) o X,
   let* ' (fb, ts) := predict_helper o X in mapM (fun t => obj_predict mix_num t fb) ts).

Lemma runs_of_eq : forall (A : arith) (r : mresult A nat ex_encoding (num A) (num A) * list (num A)) (X : binned) rows rows' ps,
  runs_of r X = (true, Some rows, Some rows', Ok ps) ->
  r = ((fst (fst r), None), snd r) /\ predict_reg_run (one_by_one [0; 1; 2; 3; 4; 5]) (fst (fst r)) X = Some rows /\
  predict_reg_run (one_by_one [5; 4; 3; 2; 1; 0]) (fst (fst r)) X = Some rows' /\
  exists fb ts, predict_helper (fst (fst r)) X = Ok (fb, ts) /\ mapM (fun t => obj_predict mix_num t fb) ts = Ok ps.
Proof.
  intros A [[o e] c] X rows rows' ps H. unfold runs_of in H. cbn [fst snd] in *. injection H as R1 R2 R3 R4.
  destruct e; [discriminate|]. split; [reflexivity|]. split; [exact R2|]. split; [exact R3|].
  destruct (predict_helper o X) as [[fb ts]|e]; cbn [bind] in R4; [exists fb, ts; split; [reflexivity|exact R4]|discriminate R4].
Qed.

Lemma exD_runs : exists rows rows' ps v v', runs_of (reg_fit menv_D exD ex_X exD_y None) ex_X = (true, Some rows, Some rows', Ok ps) /\
  nth_error rows 5 = Some v /\ nth_error rows' 5 = Some v' /\ v <> v' /\
  Forall (fun p => nth_error p 5 = Some D1 \/ nth_error p 5 = Some D53) ps.
Proof.
  do 5 eexists. split; [vm_compute; reflexivity|]. split; [reflexivity|]. split; [reflexivity|]. split; [discriminate|].
  repeat (constructor; [cbn; auto|]). constructor.
Qed.

Theorem C39_rounding_refuted : exists (o o1 : reg_forest FD nat ex_encoding) X y c sched sched' rows rows' v v',
  reg_fit menv_D o X y None = ((o1, None), c) /\
  predict_reg_run sched o1 X = Some rows /\ predict_reg_run sched' o1 X = Some rows' /\
  nth_error rows 5 = Some v /\ nth_error rows' 5 = Some v' /\ v <> v' /\
  exists fb ts ps, predict_helper o1 X = Ok (fb, ts) /\ mapM (fun t => obj_predict mix_num t fb) ts = Ok ps /\
    forall p, In p ps -> nth_error p 5 = Some D1 \/ nth_error p 5 = Some D53.
Proof.
  destruct exD_runs as (rows & rows' & ps & v & v' & HR & H1 & H2 & H3 & H4).
  destruct (runs_of_eq _ _ _ _ _ _ HR) as (R1 & R2 & R3 & fb & ts & R4 & R5).
  do 5 eexists. exists (one_by_one [0; 1; 2; 3; 4; 5]), (one_by_one [5; 4; 3; 2; 1; 0]), rows, rows', v, v'.
  split; [exact R1|]. split; [exact R2|]. split; [exact R3|]. split; [exact H1|]. split; [exact H2|]. split; [exact H3|].
  exists fb, ts, ps. split; [exact R4|]. split; [exact R5|]. intros p Hp. rewrite Forall_forall in H4. auto.
Qed.

Print Assumptions C39_without_lock_refuted.
Print Assumptions C49_unseeded_refuted.
Print Assumptions C39_rounding_refuted.
