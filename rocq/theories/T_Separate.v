(** * C73: every split separates rows that differ

    Whatever the arithmetic: in every tree of a fitted forest, the training rows of a node that
    is split do not all have the same bin in the column used for the split. A column with a
    single value is never used. *)

Require Import String Bool List Arith Lia NArith ZArith.
Require Import Verif.Base Verif.Num Verif.M_Bitarray Verif.M_Utils Verif.M_Context
  Verif.M_Tree Verif.M_Grow Verif.M_Object Verif.M_Forest Verif.S_Fit Verif.S_Node Verif.S_Tree Verif.S_Prune Verif.S_Object Verif.S_Params Verif.S_Forest
  Verif.S_Trained Verif.T_Forest Verif.T_Trained Verif.M_Encoder Verif.S_Encoder Verif.P_Encoder Verif.M_EncoderForest Verif.T_EncoderForest Verif.P_Rows Verif.T_Rows.
Import ListNotations.
Local Open Scope list_scope.
Local Open Scope nat_scope.

Section Routes.
Context {A : arith} {P : Type} (t : tree A P).

(** Two rows with the same bin go to the same side. *)
Lemma left_at_fun : forall n b l1 l2, left_at t n b l1 -> left_at t n b l2 -> l1 = l2.
Proof.
  intros n b l1 l2 H1 H2. unfold left_at in *. destruct (nd_is_cat n).
  - destruct H1 as (s & S1 & H1), H2 as (s2 & S2 & H2). rewrite S1 in S2. injection S2 as <-. destruct l1, l2; auto; [symmetry; apply H2, H1; auto | apply H1, H2; auto].
  - destruct H1 as (s & S1 & H1), H2 as (s2 & S2 & H2). rewrite S1 in S2. injection S2 as <-. destruct l1, l2; auto; [symmetry; apply H2, H1; auto | apply H1, H2; auto].
Qed.

(** A row that passes through the child of a node passes through the node, and goes to the side of
    this child. *)
Lemma route_parent : well_formed t -> forall row q path, route t row q path ->
  forall id n c, node_at t id n -> nd_is_leaf n = false -> child_of n c -> c <> q -> In c path ->
  In id path /\ exists f left, nd_feature n = Some f /\ left_at t n (row f) left /\ (if left then nd_left n else nd_right n) = Some c.
Proof.
  intros W row q path H. induction H as [q m Hm Hl | q m f left d path Hm Hl Hf Hleft Hc H IH]; intros id n c Hn Hnl Hch Hcq Hin.
  - destruct Hin as [->|[]]. congruence.
  - destruct Hin as [->|Hin]; [congruence|].
    destruct (Nat.eq_dec c d) as [->|Hcd].
    + assert (child_of m d). { split; [exact Hl|]. destruct left; auto. }
      assert (q = id) by (eapply wf_unique; eauto). subst q.
      assert (m = n) by (destruct Hm, Hn; congruence). subst m.
      split; [left; reflexivity|]. exists f, left. auto.
    + destruct (IH id n c Hn Hnl Hch Hcd Hin) as (K1 & K2). split; [right; exact K1|exact K2].
Qed.

Lemma passes_child : well_formed t -> forall row id n c, node_at t id n -> nd_is_leaf n = false -> child_of n c -> c <> 0 -> passes t row c ->
  passes t row id /\ exists f left, nd_feature n = Some f /\ left_at t n (row f) left /\ (if left then nd_left n else nd_right n) = Some c.
Proof.
  intros W row id n c Hn Hl Hc H0 (path & Hr & Hin). destruct (route_parent W row 0 path Hr id n c Hn Hl Hc H0 Hin) as (K1 & K2).
  split; [exists path; auto | exact K2].
Qed.

(** Among the rows [l], two pass through node [id] and differ in column [f]. *)
Definition differ (fb : fba) (l : list nat) (id f : nat) : Prop :=
  exists i j, In i l /\ In j l /\ passes t (bin_of fb i) id /\ passes t (bin_of fb j) id /\ bin_of fb i f <> bin_of fb j f.

(** Every node that is split separates rows of [l] that differ in its column. *)
Definition separates (fb : fba) (l : list nat) : Prop :=
  forall id n, node_at t id n -> nd_is_leaf n = false -> exists f, nd_feature n = Some f /\ differ fb l id f.

(** What it takes: every node but the root holds at least one row. *)
Lemma inhabited_separates : well_formed t -> forall fb l,
  (forall id n, node_at t id n -> id <> 0 -> exists i, In i l /\ passes t (bin_of fb i) id) -> separates fb l.
Proof.
  intros W fb l H id n Hn Hl. destruct (wf_children _ W id n Hn Hl) as (a & b & an & bn & La & Lb & Hab & Ia & Ib & Na & Nb & _).
  destruct (H a an Na) as (i & Ii & Pi); [lia|]. destruct (H b bn Nb) as (j & Ij & Pj); [lia|].
  destruct (passes_child W _ id n a Hn Hl (conj Hl (or_introl La)) ltac:(lia) Pi) as (Qi & f & s1 & F1 & L1 & C1).
  destruct (passes_child W _ id n b Hn Hl (conj Hl (or_intror Lb)) ltac:(lia) Pj) as (Qj & g & s2 & F2 & L2 & C2).
  rewrite F1 in F2. injection F2 as <-. exists f. split; [exact F1|]. exists i, j. repeat (split; [assumption|]).
  intros Heq. rewrite Heq in L1. assert (s1 = s2) by (eapply left_at_fun; eauto). subst s2. congruence.
Qed.
End Routes.

Section Forests.
Context {A : arith} {E : env A} {L D : Type} {EC : encoding D} (ME : menv E) (float : num A -> Prop).
Context (GM : good_menv float ME) (GE : good_env E) (GK : good_encoding EC).

(** In every tree: among the rows drawn for it, and with aggregation among the rows left out. *)
Definition trees_separate {Pr Y : Type} (o1 : fobj A L EC Pr Y) (aggregation : bool) (X : D) (n : nat) : Prop :=
  exists enc fb ts, fo_encoder o1 = Some enc /\ ec_transform EC enc X = Ok fb /\ fo_trees o1 = Some ts /\
  forall t obj, nth_error ts t = Some obj -> exists tree seed draws, ob_tree obj = Some tree /\
    nth_error (fo_seeds o1) t = Some seed /\ drawn_from ME seed n draws /\ bootstrap draws n /\
    separates tree fb (in_bag draws n) /\ (aggregation = true -> separates tree fb (out_of_bag draws n)).

Lemma describes_inhabited : forall {Pr} (tree : M_Tree.tree A Pr) fb n draws w agg say loss,
  describes tree fb n draws w agg say loss -> forall id nd, node_at tree id nd ->
  (1 <= nd_n_train nd -> exists i, In i (in_bag draws n) /\ passes tree (bin_of fb i) id) /\
  (1 <= nd_n_valid nd -> exists i, In i (out_of_bag draws n) /\ passes tree (bin_of fb i) id).
Proof.
  intros Pr tree fb n draws w agg say loss H id nd Hnd. destruct (H id nd Hnd) as (f & pred & Hf & N1 & N2 & _).
  split; intros Hle.
  - rewrite N1 in Hle. destruct (filter f (in_bag draws n)) as [|i l] eqn:Ef; [cbn in Hle; lia|].
    assert (Hi : In i (filter f (in_bag draws n))) by (rewrite Ef; left; reflexivity). apply filter_In in Hi. destruct Hi as [Hi Hfi].
    exists i. split; [exact Hi | apply Hf; exact Hfi].
  - rewrite N2 in Hle. destruct (filter f (out_of_bag draws n)) as [|i l] eqn:Ef; [cbn in Hle; lia|].
    assert (Hi : In i (filter f (out_of_bag draws n))) by (rewrite Ef; left; reflexivity). apply filter_In in Hi. destruct Hi as [Hi Hfi].
    exists i. split; [exact Hi | apply Hf; exact Hfi].
Qed.

Theorem C73_classifier : forall leb (o o1 : clf_forest A L EC) X y sw c,
  total_order leb -> legal float o -> enough_classes leb o X y ->
  clf_fit leb ME o X y sw = ((o1, None), c) -> trees_separate o1 (fo_aggregation o) X (length y).
Proof.
  intros leb o o1 X y sw c HO HL HC H.
  destruct (C62_classifier ME float GM GE GK leb o o1 X y sw c HO HL HC H) as (enc & fb & ts & d & He & Ht & Hn & Hts & _ & _ & HT).
  exists enc, fb, ts. repeat (split; [assumption|]). intros t obj Hobj.
  destruct (HT t obj Hobj) as (codes & draws & seed & tree & Htree & _ & Hb & Hs & Hd & HD). cbv zeta in HD.
  destruct (C62_limits_classifier ME float GM GE GK leb o o1 X y sw c ts obj tree HO HL HC H Hts (nth_error_In _ _ Hobj) Htree) as (W & HW).
  exists tree, seed, draws. repeat (split; [assumption|]). pose proof (lg_leaf _ _ HL) as Hleaf.
  split; [|intros Ha]; apply inhabited_separates; auto; intros id nd Hnd Hid; destruct (describes_inhabited _ _ _ _ _ _ _ _ HD id nd Hnd) as (K1 & K2); destruct (HW id nd Hnd) as (_ & _ & M); destruct (M Hid) as (M1 & M2).
  - apply K1. lia.
  - apply K2. specialize (M2 Ha). lia.
Qed.

Theorem C73_regressor : forall (o o1 : reg_forest A L EC) X y sw c,
  legal float o -> reg_fit ME o X y sw = ((o1, None), c) -> trees_separate o1 (fo_aggregation o) X (length y).
Proof.
  intros o o1 X y sw c HL H.
  destruct (C62_regressor ME float GM GE GK o o1 X y sw c HL H) as (enc & fb & ts & He & Ht & Hn & Hts & _ & HT).
  exists enc, fb, ts. repeat (split; [assumption|]). intros t obj Hobj.
  destruct (HT t obj Hobj) as (draws & seed & tree & Htree & Hb & Hs & Hd & HD). cbv zeta in HD.
  destruct (C62_limits_regressor ME float GM GE GK o o1 X y sw c ts obj tree HL H Hts (nth_error_In _ _ Hobj) Htree) as (W & HW).
  exists tree, seed, draws. repeat (split; [assumption|]). pose proof (lg_leaf _ _ HL) as Hleaf.
  split; [|intros Ha]; apply inhabited_separates; auto; intros id nd Hnd Hid; destruct (describes_inhabited _ _ _ _ _ _ _ _ HD id nd Hnd) as (K1 & K2); destruct (HW id nd Hnd) as (_ & _ & M); destruct (M Hid) as (M1 & M2).
  - apply K1. lia.
  - apply K2. specialize (M2 Ha). lia.
Qed.
End Forests.
Print Assumptions C73_classifier.
Print Assumptions C73_regressor.

(** ** The values in the user's table *)
Section Tables.
Context {A' : arith} (V : values A') (GV : good_values V) (NM : Type) (nm_eqb : NM -> NM -> bool) (EE : eenv A') (to_int : num A' -> res Z).
Context (names : forall a b, nm_eqb a b = true <-> a = b).
Context (choices : forall n k, k < n -> length (ee_choice EE n k) = k).
Context (st : settings (A := A')).
Notation EC := (forest_encoding V NM nm_eqb EE to_int st).

(** Two cells that differ: two values, or one that is missing and one that is not. *)
Definition cells_differ (x x' : val V) : Prop := x <> x' /\ ~ (isna V x = true /\ isna V x' = true).

Lemma bins_differ : forall mb X0 (enc : ec_enc EC) (X : table V NM) fb i j f,
  ec_fit EC mb X0 = Ok enc -> ec_transform EC enc X = Ok fb -> i < fb_n_samples fb -> j < fb_n_samples fb ->
  bin_of fb i f <> bin_of fb j f ->
  exists x x', cell_at V (tb_X V NM X) i f = Some x /\ cell_at V (tb_X V NM X) j f = Some x' /\ cells_differ x x'.
Proof.
  intros mb X0 [c e] X fb i j f Hf Ht Hi Hj Hb. cbn in Hf, Ht.
  destruct (encode_inv V NM EE to_int _ _ _ _ _ _ Hf) as (mask & _ & _ & Hfit).
  destruct (fit_inv V NM EE _ _ _ _ Hfit) as (cols & cm & F1 & F2 & F3 & _).
  destruct (transform_exact V NM nm_eqb EE GV names choices _ _ _ _ _ _ _ (tb_ok V NM X0) Hfit F2 (tb_ok V NM X) (tb_clean V NM X) Ht) as (W & N1 & N2 & N3 & N4 & _ & _ & HB).
  assert (Hlt : f < snd (shape V NM (tb_X V NM X))).
  { destruct (Nat.lt_ge_cases f (fb_n_features fb)) as [H|H]; [lia|]. exfalso. apply Hb. unfold bin_of. rewrite !get_value_out; auto. }
  rewrite N1 in Hi, Hj.
  destruct (cell_at_in V NM (tb_X V NM X) i f (tb_ok V NM X) Hi Hlt) as [x Hx]. destruct (cell_at_in V NM (tb_X V NM X) j f (tb_ok V NM X) Hj Hlt) as [x' Hx'].
  exists x, x'. split; [exact Hx|]. split; [exact Hx'|].
  destruct (HB i f x Hx) as (d & b & D1 & D2 & D3). destruct (HB j f x' Hx') as (d' & b' & D1' & D2' & D3'). rewrite D1 in D1'. injection D1' as <-.
  unfold bin_of in Hb. rewrite D2, D2' in Hb. split.
  - intros ->. apply Hb. rewrite (exact_bin_fun V _ _ _ _ _ D3 D3'). reflexivity.
  - intros [M M']. apply Hb. f_equal. f_equal. unfold exact_bin in D3, D3'. destruct d as [cats|thr].
    + unfold code in *. rewrite M in D3. rewrite M' in D3'. congruence.
    + rewrite M in D3. rewrite M' in D3'. congruence.
Qed.

Context {A : arith} {E : env A} {L : Type} (ME : menv E) (float : num A -> Prop) (GM : good_menv float ME) (GE : good_env E).

(** In every tree of the forest, for every node that is split: two of the rows drawn for the tree
    that pass through the node have different cells in the column of the split; with aggregation,
    also two of the rows left out. *)
Definition values_separated {Pr Y : Type} (o1 : fobj A L EC Pr Y) (aggregation : bool) (X : table V NM) (n : nat) : Prop :=
  exists enc fb ts, fo_encoder o1 = Some enc /\ ec_transform EC enc X = Ok fb /\ fo_trees o1 = Some ts /\
  forall t obj, nth_error ts t = Some obj -> exists tree seed draws, ob_tree obj = Some tree /\
    nth_error (fo_seeds o1) t = Some seed /\ drawn_from ME seed n draws /\ bootstrap draws n /\
    forall id nd, node_at tree id nd -> nd_is_leaf nd = false -> exists f, nd_feature nd = Some f /\
    let two l := exists i j x x', In i l /\ In j l /\ passes tree (bin_of fb i) id /\ passes tree (bin_of fb j) id /\
      cell_at V (tb_X V NM X) i f = Some x /\ cell_at V (tb_X V NM X) j f = Some x' /\ cells_differ x x' in
    two (in_bag draws n) /\ (aggregation = true -> two (out_of_bag draws n)).

(** The trees that use no column whose cells are all equal, or all missing. *)
Definition constant_column (X : table V NM) (f : nat) : Prop :=
  forall i j x x', cell_at V (tb_X V NM X) i f = Some x -> cell_at V (tb_X V NM X) j f = Some x' -> ~ cells_differ x x'.
Definition column_unused {Pr Y : Type} (o1 : fobj A L EC Pr Y) (f : nat) : Prop :=
  exists ts, fo_trees o1 = Some ts /\ forall obj, In obj ts -> exists tree, ob_tree obj = Some tree /\
  forall id nd, node_at tree id nd -> nd_is_leaf nd = false -> nd_feature nd <> Some f.

Lemma separated : forall {Pr Y} (o1 : fobj A L EC Pr Y) agg mb X n,
  (forall enc fb, fo_encoder o1 = Some enc -> ec_transform EC enc X = Ok fb -> ec_fit EC mb X = Ok enc /\ fb_n_samples fb = n) ->
  trees_separate ME o1 agg X n -> values_separated o1 agg X n.
Proof.
  intros Pr Y o1 agg mb X n Henc (enc & fb & ts & He & Ht & Hts & H). destruct (Henc enc fb He Ht) as (Hfit & Hn).
  exists enc, fb, ts. repeat (split; [assumption|]). intros t obj Hobj. destruct (H t obj Hobj) as (tree & seed & draws & H1 & H2 & H3 & H4 & S1 & S2).
  exists tree, seed, draws. repeat (split; [assumption|]). intros id nd Hnd Hl. destruct (S1 id nd Hnd Hl) as (f & Hf & D). exists f. split; [exact Hf|].
  assert (G : forall l, (forall i, In i l -> i < n) -> differ tree fb l id f -> exists i j x x', In i l /\ In j l /\ passes tree (bin_of fb i) id /\ passes tree (bin_of fb j) id /\
      cell_at V (tb_X V NM X) i f = Some x /\ cell_at V (tb_X V NM X) j f = Some x' /\ cells_differ x x').
  { intros l Hlt (i & j & Ii & Ij & Pi & Pj & Hb). destruct (bins_differ mb X enc X fb i j f Hfit Ht) as (x & x' & Hx & Hx' & Hd); auto.
    - rewrite Hn. auto.
    - rewrite Hn. auto.
    - exists i, j, x, x'. auto 10. }
  split.
  - apply G; [|exact D]. intros i Hi. apply filter_In in Hi. destruct Hi as [Hi _]. apply in_seq in Hi. lia.
  - intros Ha. apply G.
    + intros i Hi. apply filter_In in Hi. destruct Hi as [Hi _]. apply in_seq in Hi. lia.
    + destruct (S2 Ha id nd Hnd Hl) as (f' & Hf' & D'). rewrite Hf in Hf'. injection Hf' as <-. exact D'.
Qed.

Theorem C73_values_classifier : forall leb (o o1 : clf_forest A L EC) X y sw c,
  total_order leb -> legal float o -> enough_classes leb o X y ->
  clf_fit leb ME o X y sw = ((o1, None), c) -> values_separated o1 (fo_aggregation o) X (length y).
Proof.
  intros leb o o1 X y sw c HO HL HC H. pose proof (encoder_is_good V GV NM nm_eqb EE to_int names choices st) as GK.
  pose proof (C73_classifier ME float GM GE GK leb o o1 X y sw c HO HL HC H) as HS.
  destruct (clf_fit_trees ME float GM GK leb HO o o1 X y sw c HL HC H) as (w & d & mf & rs & enc & fb & ts & H1 & Hy & Hw & Hdd & Hrs & Ha & He & Ht & PK & AL & HT).
  cbv zeta in *. eapply separated; [|exact HS]. intros enc' fb' He' Ht'. assert (enc' = enc) by (subst o1; cbn in He'; congruence). subst enc'.
  split; [exact He|]. destruct (C62_classifier ME float GM GE GK leb o o1 X y sw c HO HL HC H) as (enc2 & fb2 & ts2 & d2 & He2 & Ht2 & Hn & _). congruence.
Qed.

Theorem C73_values_regressor : forall (o o1 : reg_forest A L EC) X y sw c,
  legal float o -> reg_fit ME o X y sw = ((o1, None), c) -> values_separated o1 (fo_aggregation o) X (length y).
Proof.
  intros o o1 X y sw c HL H. pose proof (encoder_is_good V GV NM nm_eqb EE to_int names choices st) as GK.
  pose proof (C73_regressor ME float GM GE GK o o1 X y sw c HL H) as HS.
  destruct (reg_fit_trees ME float GM GK o o1 X y sw c HL H) as (w & mf & rs & enc & fb & ts & H1 & Hy & Hw & Hrs & He & Ht & PK & AL & HT).
  cbv zeta in *. eapply separated; [|exact HS]. intros enc' fb' He' Ht'. assert (enc' = enc) by (subst o1; cbn in He'; congruence). subst enc'.
  split; [exact He|]. destruct (C62_regressor ME float GM GE GK o o1 X y sw c HL H) as (enc2 & fb2 & ts2 & He2 & Ht2 & Hn & _). congruence.
Qed.

Lemma constant_unused : forall {Pr Y} (o1 : fobj A L EC Pr Y) agg X n f, values_separated o1 agg X n -> constant_column X f -> column_unused o1 f.
Proof.
  intros Pr Y o1 agg X n f (enc & fb & ts & _ & _ & Hts & H) HC. exists ts. split; [exact Hts|]. intros obj Hin.
  apply In_nth_error in Hin. destruct Hin as (t & Ht). destruct (H t obj Ht) as (tree & seed & draws & H1 & _ & _ & _ & HN). exists tree. split; [exact H1|].
  intros id nd Hnd Hl Hf. destruct (HN id nd Hnd Hl) as (f' & Hf' & (i & j & x & x' & _ & _ & _ & _ & Hx & Hx' & Hd) & _). rewrite Hf in Hf'. injection Hf' as <-.
  exact (HC i j x x' Hx Hx' Hd).
Qed.

Theorem C73_constant_classifier : forall leb (o o1 : clf_forest A L EC) X y sw c f,
  total_order leb -> legal float o -> enough_classes leb o X y ->
  clf_fit leb ME o X y sw = ((o1, None), c) -> constant_column X f -> column_unused o1 f.
Proof. intros. eapply constant_unused; [|eassumption]. eapply C73_values_classifier; eauto. Qed.
Theorem C73_constant_regressor : forall (o o1 : reg_forest A L EC) X y sw c f,
  legal float o -> reg_fit ME o X y sw = ((o1, None), c) -> constant_column X f -> column_unused o1 f.
Proof. intros. eapply constant_unused; [|eassumption]. eapply C73_values_regressor; eauto. Qed.
End Tables.
Print Assumptions C73_values_classifier.
Print Assumptions C73_values_regressor.
Print Assumptions C73_constant_classifier.
Print Assumptions C73_constant_regressor.
