(** * A concrete forest to which the theorems about forests apply *)

Require Import String Bool List Arith Lia NArith ZArith Reals Lra Permutation.
Require Import Verif.Base Verif.Num Verif.M_Bitarray Verif.P_Bitarray Verif.M_Utils Verif.M_Context Verif.M_Split
  Verif.M_Tree Verif.M_Grow Verif.M_Object Verif.M_Forest Verif.S_Fit Verif.S_Split Verif.S_Object Verif.S_Params Verif.S_Forest
  Verif.T_Setters Verif.T_Bootstrap Verif.T_Params Verif.P_Forest Verif.T_Forest Verif.T_ForestR Verif.Ex_Data Verif.Ex_Valid Verif.Ex_R.
Import ListNotations.
Local Open Scope list_scope.
Local Open Scope nat_scope.

(** Data that is already binned; the odd columns are categorical. *)
Record binned : Type := mkBinned { bd_fb : fba; bd_packed : packed bd_fb; bd_allocated : allocated bd_fb; bd_columns : 1 <= fb_n_features bd_fb }.

Definition ex_encoding : encoding binned := {|
  ec_enc := nat;
  ec_shape := fun X => (fb_n_samples (bd_fb X), fb_n_features (bd_fb X));
  ec_fit := fun _ X => Ok (fb_n_features (bd_fb X));
  ec_cats := fun n => map Nat.odd (seq 0 n);
  ec_transform := fun n X => if fb_n_features (bd_fb X) =? n then Ok (bd_fb X) else Err ValueErr
|}.

Lemma ex_encoding_good : good_encoding ex_encoding.
Proof.
  constructor; cbn.
  - intros mb X enc H. inversion H. rewrite map_length, seq_length. reflexivity.
  - intros mb X enc H. apply bd_columns.
  - intros mb X enc X' fb H1 H2. inversion H1; subst enc. destruct (Nat.eqb_spec (fb_n_features (bd_fb X')) (fb_n_features (bd_fb X))); inversion H2; subst fb.
    split; [apply bd_packed|]. split; [apply bd_allocated|]. auto.
Qed.

(** Eight samples and three labels. *)
Lemma ex_binned : exists X : binned, bd_fb X = ex_fb.
Proof.
  assert (H : 1 <= fb_n_features ex_fb) by (vm_compute; lia).
  exists (mkBinned ex_fb (proj1 ex_fb_packed) ex_fb_allocated H). reflexivity.
Qed.
Definition ex_names : list nat := [30; 30; 10; 10; 20; 30; 20; 10].

(** A toy numpy. *)
Definition ex_menv : menv env_R :=
  @mkMenv R_arith env_R lcg_randint (fun _ n => map N.of_nat (seq 1 n)) N.to_nat 1000
    (fun n => Z.of_nat (Nat.sqrt n)) (fun n => Z.of_nat (Nat.log2 n)) ifrac_R.

Lemma ex_menv_good : good_menv (fun _ : num R_arith => True) ex_menv.
Proof.
  constructor; cbn.
  - apply lcg_in_range.
  - intros. rewrite map_length, seq_length. reflexivity.
  - intros n Hn. apply C16_exact; auto.
Qed.

Definition ex_forest (m : multi) (balanced agg : bool) : clf_forest R_arith nat ex_encoding :=
  mkF false 2 1%R agg None 2 1 256 MFAuto 1 (Some (Some 7%Z)) false "gini" "log" (Some (/ 2)%R) balanced m BinaryMod [] [] None None 0.
Definition ex_forest_reg : reg_forest R_arith nat ex_encoding :=
  mkF false 2 1%R true None 2 1 256 MFAuto 1 (Some (Some 7%Z)) false "mse" "mse" None false Multinomial BinaryMod [] [] None None 0.

Lemma ex_legal : forall m b agg, legal (fun _ => True) (ex_forest m b agg).
Proof. intros. constructor; cbn; auto; try lia. Qed.
Lemma ex_legal_reg : legal (fun _ => True) ex_forest_reg.
Proof. constructor; cbn; auto; try lia. Qed.

Lemma nat_order : total_order Nat.leb.
Proof. constructor; intros; rewrite ?Nat.leb_le in *; lia. Qed.

Lemma ex_enough : forall m b agg X, enough_classes Nat.leb (ex_forest m b agg) X ex_names.
Proof. intros m b agg X enc _ _ _. vm_compute. lia. Qed.

(** The draws of each seed leave a sample out at the first attempt. *)
Lemma ex_leaves : forall seed, In seed [1%N; 2%N; 3%N; 4%N; 5%N; 6%N] -> leaves_out (lcg_randint (attempt seed 0) 8) 8.
Proof.
  intros seed H.
  assert (D : exists i, In i (seq 0 8) /\ times (lcg_randint (attempt seed 0) 8) i = 0).
  { destruct (filter (fun i => times (lcg_randint (attempt seed 0) 8) i =? 0) (seq 0 8)) as [|i r] eqn:Ef.
    - exfalso. repeat (destruct H as [<-|H]; [vm_compute in Ef; discriminate|]). destruct H.
    - exists i. assert (Hi : In i (i :: r)) by (simpl; auto). rewrite <- Ef in Hi. apply filter_In in Hi. rewrite Nat.eqb_eq in Hi. exact Hi. }
  destruct D as (i & H1 & H2). exists i. apply in_seq in H1. split; [lia|]. intros Hin. apply times_in in Hin. auto.
Qed.

Definition ex_weights (float32 : bool) : option (bool * list (num R_arith)) := Some (float32, [1; 2; 1; / 2; 1; 3; 1; 1]%R).
Lemma ex_weights_positive : forall b, positive_sample_weights (ex_weights b).
Proof.
  intros b. unfold positive_sample_weights, ex_weights, positive_weights. intros x Hx. cbn in Hx.
  repeat (destruct Hx as [<-|Hx]; [lra|]). destruct Hx.
Qed.

Lemma ex_X_facts : forall X : binned, bd_fb X = ex_fb ->
  ec_transform ex_encoding 2 X = Ok ex_fb /\ ec_shape ex_encoding X = (8, 2) /\ (forall mb, ec_fit ex_encoding mb X = Ok 2).
Proof. intros X HX. cbn. rewrite HX. vm_compute. auto. Qed.

Lemma ex_fits : forall m b agg X sw, bd_fb X = ex_fb -> sw = None \/ sw = ex_weights b -> exists o1 c, clf_fit Nat.leb ex_menv (ex_forest m b agg) X ex_names sw = ((o1, None), c).
Proof.
  intros m b agg X sw HX Hsw. destruct (ex_X_facts X HX) as (Et & Es & Ef).
  destruct (C48_forest_classifier ex_menv (fun _ => True) ex_menv_good env_R_good ex_encoding_good Nat.leb nat_order (ex_forest m b agg) X ex_names
     sw (/ 2)%R (Some 7%Z) 1%Z 2 ex_fb) as (o1 & e & c & H1 & H2).
  - apply ex_legal.
  - apply ex_enough.
  - rewrite Es. reflexivity.
  - destruct Hsw as [->| ->]; [exact I|apply ex_weights_positive].
  - intros b' l E. destruct Hsw as [->| ->]; inversion E. reflexivity.
  - reflexivity.
  - lra.
  - intros. lra.
  - intros _ H. vm_compute in H. lia.
  - reflexivity.
  - rewrite Es. reflexivity.
  - apply Ef.
  - exact Et.
  - exists o1, c. destruct H2 as [->|(-> & seed & Hin & Hall)]; [exact H1|]. exfalso.
    apply (Hall 0); [cbn [me_limit ex_menv]; lia|]. apply ex_leaves. destruct Hin as [<-|[<-|[]]]; [left|right; left]; reflexivity.
Qed.

Definition ex_targets : list (num R_arith) := [1; 3; -2; 0; 5; 1; 1; 2]%R.
Lemma ex_reg_fits : forall X b sw, bd_fb X = ex_fb -> sw = None \/ sw = ex_weights b -> exists o1 c, reg_fit ex_menv ex_forest_reg X ex_targets sw = ((o1, None), c).
Proof.
  intros X b sw HX Hsw. destruct (ex_X_facts X HX) as (Et & Es & Ef).
  destruct (C48_forest_regressor ex_menv (fun _ => True) ex_menv_good env_R_good ex_encoding_good ex_forest_reg X ex_targets
     sw (Some 7%Z) 1%Z 2 ex_fb) as (o1 & e & c & H1 & H2).
  - apply ex_legal_reg.
  - rewrite Es. reflexivity.
  - destruct Hsw as [->| ->]; [exact I|apply ex_weights_positive].
  - intros b' l E. destruct Hsw as [->| ->]; inversion E. reflexivity.
  - reflexivity.
  - rewrite Es. reflexivity.
  - apply Ef.
  - exact Et.
  - exists o1, c. destruct H2 as [->|(-> & seed & Hin & Hall)]; [exact H1|]. exfalso.
    apply (Hall 0); [cbn [me_limit ex_menv]; lia|]. apply ex_leaves. destruct Hin as [<-|[<-|[]]]; [left|right; left]; reflexivity.
Qed.

(** The hypotheses of the theorems about forests hold here: two trees per class, weights that
    are not all equal, both multiclass settings. *)
Lemma ex_fitted : forall m b agg X sw o1 c, bd_fb X = ex_fb -> sw = None \/ sw = ex_weights b ->
  clf_fit Nat.leb ex_menv (ex_forest m b agg) X ex_names sw = ((o1, None), c) ->
  fo_encoder o1 = Some 2 /\ n_trees o1 = (match m with Multinomial => 2 | Ovr => 6 end) /\ fo_classes o1 = [10; 20; 30] /\
  fo_fitted o1 = true /\ exists t ts, fo_trees o1 = Some (t :: ts).
Proof.
  intros m b agg X sw o1 c HX Hsw H. destruct (ex_X_facts X HX) as (Et & Es & Ef).
  destruct (clf_fit_trees ex_menv (fun _ => True) ex_menv_good ex_encoding_good Nat.leb nat_order _ o1 X ex_names sw c (ex_legal m b agg) (ex_enough m b agg X) H)
    as (w & d & mf & rs & enc & fb & ts & H1 & _ & _ & _ & _ & _ & He & _ & _ & _ & HT).
  assert (E2 : enc = 2). { pose proof (eq_trans (eq_sym He) (Ef (fo_max_bins (ex_forest m b agg)))) as Q. injection Q as ->. reflexivity. }
  subst enc. assert (E3 : clf_ready Nat.leb (ex_forest m b agg) ex_names = w_classes (ex_forest m b agg) [10; 20; 30]) by (destruct m; reflexivity).
  rewrite E3 in H1, HT. apply Forall2_len in HT. rewrite combine_length, seq_length, Nat.min_id in HT.
  assert (Hn : length ts = match m with Multinomial => 2 | Ovr => 6 end) by (destruct m; exact (eq_sym HT)).
  subst o1. split; [reflexivity|]. split; [exact Hn|]. split; [reflexivity|]. split; [reflexivity|].
  destruct ts as [|t ts]; [destruct m; discriminate|]. exists t, ts. reflexivity.
Qed.

Lemma ex_sw_positive : forall b sw, sw = None \/ sw = ex_weights b -> positive_sample_weights sw.
Proof. intros b sw [->| ->]; [exact I|apply ex_weights_positive]. Qed.
Lemma ex_dirichlet : forall m b agg d, fo_dirichlet (ex_forest m b agg) = Some d -> (0 <= d)%R.
Proof. intros m b agg d Ed. cbn in Ed. injection Ed as <-. lra. Qed.

Example C34_forest_applies : forall m b agg X sw, bd_fb X = ex_fb -> sw = None \/ sw = ex_weights b ->
  exists o1 c ps rows, clf_fit Nat.leb ex_menv (ex_forest m b agg) X ex_names sw = ((o1, None), c) /\
    predict_proba_trees o1 X = Ok ps /\ length ps = (match m with Multinomial => 2 | Ovr => 6 end) /\
    predict_proba (fun s => Rleb s 0) (rev (seq 0 (n_trees o1))) o1 X = Ok rows /\ length rows = 8 /\
    forall row, In row rows -> distribution 3 row.
Proof.
  intros m b agg X sw HX Hsw. destruct (ex_X_facts X HX) as (Et & Es & Ef). destruct (ex_fits m b agg X sw HX Hsw) as (o1 & c & H).
  destruct (ex_fitted m b agg X sw o1 c HX Hsw H) as (F1 & F2 & F3 & F4 & F5).
  destruct (C34_forest ex_menv (fun _ => True) ex_menv_good env_R_good ex_encoding_good Nat.leb nat_order (ex_forest m b agg) o1 X ex_names sw c (ex_legal m b agg) (ex_enough m b agg X)
     (ex_sw_positive b sw Hsw) (ex_dirichlet m b agg) H X 2 ex_fb F1 Et (fun s => Rleb s 0) (rev (seq 0 (n_trees o1)))) as (ps & rows & G1 & G2 & G3 & G4 & G5 & G6).
  - intros s Hs. apply Rleb_false in Hs. lra.
  - apply Permutation_sym, Permutation_rev.
  - exists o1, c, ps, rows. split; [exact H|]. split; [exact G1|]. split; [rewrite G2; exact F2|]. split; [exact G4|]. split; [rewrite G5, Es; reflexivity|].
    rewrite F3 in G6. exact G6.
Qed.

Example C35_forest_applies : forall X, bd_fb X = ex_fb ->
  exists o1 c rows, reg_fit ex_menv ex_forest_reg X ex_targets (ex_weights true) = ((o1, None), c) /\ predict_reg (rev (seq 0 2)) o1 X = Ok rows /\
  length rows = 8 /\ forall v, In v rows -> (-2 <= v <= 5)%R.
Proof.
  intros X HX. destruct (ex_X_facts X HX) as (Et & Es & Ef). destruct (ex_reg_fits X true (ex_weights true) HX (or_intror eq_refl)) as (o1 & c & H).
  destruct (reg_fit_trees ex_menv (fun _ => True) ex_menv_good ex_encoding_good ex_forest_reg o1 X ex_targets (ex_weights true) c ex_legal_reg H)
    as (w & mf & rs & enc & fb & ts & H1 & _ & _ & _ & He & _ & _ & _ & HT).
  assert (E2 : enc = 2). { pose proof (eq_trans (eq_sym He) (Ef (fo_max_bins ex_forest_reg))) as Q. injection Q as ->. reflexivity. }
  subst enc. apply Forall2_len in HT. rewrite combine_length, seq_length, Nat.min_id in HT.
  assert (Hn : n_trees o1 = 2) by (subst o1; exact (eq_sym HT)). 
  destruct (C35_forest ex_menv (fun _ => True) ex_menv_good env_R_good ex_encoding_good ex_forest_reg o1 X ex_targets (ex_weights true) c (-2)%R 5%R ex_legal_reg (ex_weights_positive true))
    with (X' := X) (enc := 2) (fb' := ex_fb) (order := rev (seq 0 2)) as (rows & G1 & G2 & G3); auto.
  - intros v Hv. cbn in Hv. repeat (destruct Hv as [<-|Hv]; [lra|]). destruct Hv.
  - subst o1. reflexivity.
  - rewrite Hn. apply Permutation_sym, Permutation_rev.
  - exists o1, c, rows. rewrite Es in G2. auto.
Qed.

Example C43_forest_applies : forall m b agg X sw, bd_fb X = ex_fb -> sw = None \/ sw = ex_weights b ->
  exists o1 o2 c, clf_fit Nat.leb ex_menv (ex_forest m b agg) X ex_names sw = ((o1, None), c) /\ flighten o1 = (o2, None) /\
    (forall X', predict_proba_trees o2 X' = predict_proba_trees o1 X') /\
    funpickle env_R (fun _ => 0%N) [] o1 = Ok o1 /\ (exists e, funpickle env_R (fun _ => 0%N) [] o2 = Err e).
Proof.
  intros m b agg X sw HX Hsw. destruct (ex_fits m b agg X sw HX Hsw) as (o1 & c & H).
  destruct (ex_fitted m b agg X sw o1 c HX Hsw H) as (F1 & F2 & F3 & F4 & t & ts & F5).
  destruct (C43_forest_classifier ex_menv (fun _ => True) ex_menv_good env_R_good ex_encoding_good Nat.leb nat_order (ex_forest m b agg) o1 X ex_names sw c (ex_legal m b agg) (ex_enough m b agg X) H)
    as (o2 & G1 & G2).
  exists o1, o2, c. split; [exact H|]. split; [exact G1|]. split; [intros X'; apply G2|]. split.
  - apply (C45_forest_classifier ex_menv (fun _ => True) ex_menv_good env_R_good ex_encoding_good Nat.leb nat_order _ _ _ _ _ _ _ _ (ex_legal m b agg) (ex_enough m b agg X) H).
  - exact (C44_forest_pickle env_R o1 o2 t ts _ _ F5 G1).
Qed.

Lemma Rnum_eqb : forall x y : R, @num_eqb R_arith x y = true -> x = y.
Proof.
  intros x y H. apply andb_true_iff in H. destruct H as [H1 H2]. change (Rleb x y = true) in H1. change (Rleb y x = true) in H2.
  unfold Rleb in *. destruct (Rle_dec x y); [|discriminate]. destruct (Rle_dec y x); [|discriminate]. lra.
Qed.

(** Changing the step of a fitted forest is refitting with that step; of a lightened one, it
    stops half-way. *)
Example C37_forest_applies : forall m b agg X sw, bd_fb X = ex_fb -> sw = None \/ sw = ex_weights b ->
  exists o' o1 o2 c, set_fstep (PyFloat 3%R) (ex_forest m b agg) = (o', None) /\
    clf_fit Nat.leb ex_menv (ex_forest m b agg) X ex_names sw = ((o1, None), c) /\
    set_fstep (PyFloat 3%R) o1 = (o2, None) /\ clf_fit Nat.leb ex_menv o' X ex_names sw = ((o2, None), c).
Proof.
  intros m b agg X sw HX Hsw. destruct (ex_fits m b agg X sw HX Hsw) as (o1 & c & H).
  destruct (C37_forest_classifier ex_menv (fun _ => True) ex_menv_good env_R_good ex_encoding_good Nat.leb nat_order (ex_forest m b agg) o1 X ex_names sw c 3%R (ex_legal m b agg) (ex_enough m b agg X))
    as (o' & o2 & G1 & G2 & G3); auto.
  - exact (proj2 (Rleb_false 3 0) ltac:(lra)).
  - intros E. exact (Rnum_eqb _ _ E).
  - exists o', o1, o2, c. auto.
Qed.

Example C38_forest_applies : forall m b X sw, bd_fb X = ex_fb -> sw = None \/ sw = ex_weights b ->
  exists o' o1 o2 c, set_fdirichlet env_R (PyFloat 3%R) (ex_forest m b true) = (o', None) /\
    clf_fit Nat.leb ex_menv (ex_forest m b true) X ex_names sw = ((o1, None), c) /\
    set_fdirichlet env_R (PyFloat 3%R) o1 = (o2, None) /\ clf_fit Nat.leb ex_menv o' X ex_names sw = ((o2, None), c).
Proof.
  intros m b X sw HX Hsw. destruct (ex_fits m b true X sw HX Hsw) as (o1 & c & H).
  destruct (C38_forest ex_menv (fun _ => True) ex_menv_good env_R_good ex_encoding_good Nat.leb nat_order (ex_forest m b true) o1 X ex_names sw c 3%R (ex_legal m b true) (ex_enough m b true X))
    as (o' & o2 & G1 & G2 & G3); auto.
  - exact (ex_sw_positive b sw Hsw).
  - apply (ex_dirichlet m b true).
  - lra.
  - exists o', o1, o2, c. auto.
Qed.

Lemma Forall2_in_r : forall {X Y} (P : X -> Y -> Prop) l l' y, Forall2 P l l' -> In y l' -> exists x, P x y.
Proof. intros X Y P l l' y H. induction H; intros Hy; [destruct Hy|]. destruct Hy as [<-|Hy]; eauto. Qed.

Theorem C44_forest_refuted : exists (o o1 o2 : clf_forest R_arith nat ex_encoding) X c t1 t2,
  clf_fit Nat.leb ex_menv (ex_forest Multinomial false true) X ex_names None = ((o, None), c) /\
  flighten o = (o1, None) /\ set_fstep (PyFloat 3%R) o1 = (o2, Some AttrErr) /\
  fo_trees o2 = Some [t1; t2] /\ fo_step o2 = 3%R /\ ob_step t1 = 3%R /\ ob_step t2 = 1%R.
Proof.
  destruct ex_binned as (X & HX). destruct (ex_X_facts X HX) as (Et & Es & Ef).
  destruct (ex_fits Multinomial false true X None HX (or_introl eq_refl)) as (o & c & H).
  destruct (C43_forest_classifier ex_menv (fun _ => True) ex_menv_good env_R_good ex_encoding_good Nat.leb nat_order (ex_forest Multinomial false true) o X ex_names None c (ex_legal _ _ _) (ex_enough _ _ _ X) H)
    as (o1 & G1 & _).
  destruct (clf_fit_trees ex_menv (fun _ => True) ex_menv_good ex_encoding_good Nat.leb nat_order _ o X ex_names None c (ex_legal _ _ _) (ex_enough _ _ _ X) H)
    as (w & d & mf & rs & enc & fb & ts & H1 & _ & _ & _ & _ & _ & He & _ & _ & _ & HT).
  cbv zeta in *. assert (HS : forall t, In t ts -> ob_step t = 1%R).
  { intros t Ht. destruct (Forall2_in_r _ _ _ _ HT Ht) as ((k & seed) & tr & va & cn & w' & _ & _ & Hb & _).
    unfold clf_obj_fit, obj_fit in Hb. destruct (tree_fit _ _ _ _ _ _ _ _) as [[[tt pr] g]|]; [|discriminate]. injection Hb as <-. reflexivity. }
  assert (Hn : length ts = 2). { apply Forall2_len in HT. rewrite combine_length, seq_length, Nat.min_id in HT. exact (eq_sym HT). }
  destruct ts as [|ta [|tb [|]]]; try discriminate.
  assert (Hto : fo_trees o = Some [ta; tb]) by (subst o; reflexivity). assert (Hfo : fo_fitted o = true) by (subst o; reflexivity).
  destruct (C44_forest_step o o1 ta [tb] 3%R Hfo Hto G1) as (o2 & t1 & t2 & rest & S1 & S2 & S3 & S4 & S5 & S6).
  - exact (proj2 (Rleb_false 3 0) ltac:(lra)).
  - rewrite (HS ta) by (simpl; auto). destruct (@num_eqb R_arith 1%R 3%R) eqn:E; [apply Rnum_eqb in E; lra|reflexivity].
  - assert (Hr : exists tb', rest = [tb'] /\ ob_step tb' = 1%R).
    { unfold flighten, on_trees in G1. rewrite Hto in G1. cbn [each_tree] in G1.
      destruct (lighten ta) as [ta' [e|]] eqn:La; [discriminate|]. destruct (lighten tb) as [tb' [e|]] eqn:Lb; [discriminate|]. injection G1 as <-.
      cbn [fo_trees w_trees] in S3. injection S3 as <- <-. exists tb'. split; [reflexivity|]. destruct (lighten_keeps tb tb' Lb) as [K _]. rewrite K. apply HS. simpl; auto. }
    destruct Hr as (tb' & -> & Hs). exists o, o1, o2, X, c, t2, tb'. repeat (split; [assumption|]). exact Hs.
Qed.
Print Assumptions C44_forest_refuted.
