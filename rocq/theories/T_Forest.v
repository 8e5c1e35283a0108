(** * Whole forests: C37, C38, C43, C44, C45 and C48

    The theorems of T_Setters and T_GrowR for the trees, lifted to forest objects. *)

Require Import String Bool List Arith Lia NArith ZArith Reals Lra Permutation.
Require Import Verif.Base Verif.Num Verif.M_Bitarray Verif.M_Utils Verif.M_Impurity Verif.M_Context Verif.M_Node Verif.M_Split
  Verif.M_Tree Verif.M_Grow Verif.M_Object Verif.M_Forest Verif.S_Fit Verif.S_Tree Verif.S_Split Verif.S_Object Verif.S_Params Verif.S_Forest
  Verif.T_GrowR Verif.T_Setters Verif.T_Bootstrap Verif.T_Params Verif.P_List Verif.P_Forest.
Import ListNotations.
Local Open Scope list_scope.
Local Open Scope nat_scope.

(** ** The trees of a fitted forest *)
Section Trees.
Context {A : arith} {E : env A} {L D : Type} {EC : encoding D} (ME : menv E) (float : num A -> Prop).
Context (GM : good_menv float ME) (GE : good_env E) (GK : good_encoding EC).

Lemma params_ok : forall {P Y} (o : fobj A L EC P Y) X mf enc fb, legal float o ->
  get_max_features ME (fo_max_features o) (snd (ec_shape EC X)) = Ok mf ->
  ec_fit EC (fo_max_bins o) X = Ok enc -> ec_transform EC enc X = Ok fb ->
  let p := tree_params_of o mf (ec_cats EC enc) in
  packed fb /\ allocated fb /\ fb_n_samples fb = fst (ec_shape EC X) /\
  1 <= tp_max_features p <= fb_n_features fb /\ 2 <= tp_min_samples_split p /\ 1 <= tp_min_samples_leaf p /\
  length (tp_is_categorical p) = fb_n_features fb.
Proof.
  intros P Y o X mf enc fb HL Hmf He Ht p. destruct (gk_packed _ GK _ _ _ _ _ He Ht) as (K1 & K2 & K3 & K4).
  pose proof (gk_columns _ GK _ _ _ He) as Hc. pose proof (legal_mf ME float o _ _ HL GM Hc Hmf) as Hm.
  destruct HL as [L1 L2 L3 L4]. subst p. cbn [tp_max_features tp_min_samples_split tp_min_samples_leaf tp_is_categorical tree_params_of].
  rewrite K4. split; [exact K1|]. split; [exact K2|]. split; [exact K3|]. split; [lia|]. split; [lia|]. split; [lia|].
  apply (gk_cats _ GK _ _ _ He).
Qed.

(** A change [f] of every tree after fit against a fit with other parameters. *)
Lemma fit_end_change : forall {P Y} (o o' : fobj A L EC P Y) X r k build build' f o1,
  fo_max_features o' = fo_max_features o -> fo_random_state o' = fo_random_state o ->
  fo_max_bins o' = fo_max_bins o -> fo_n_estimators o' = fo_n_estimators o ->
  fit_end ME o X r k build = (o1, None) ->
  (forall mf enc fb t seed obj, get_max_features ME (fo_max_features o) (snd (ec_shape EC X)) = Ok mf ->
     ec_fit EC (fo_max_bins o) X = Ok enc -> ec_transform EC enc X = Ok fb ->
     build (tree_params_of o mf (ec_cats EC enc)) fb t seed = Ok obj ->
     exists obj', f obj = (obj', None) /\ build' (tree_params_of o' mf (ec_cats EC enc)) fb t seed = Ok obj') ->
  exists rs enc ts ts', o1 = fitted_as o (all_seeds ME o rs r) enc ts k /\ each_tree f ts = (ts', None) /\
    fit_end ME o' X r k build' = (fitted_as o' (all_seeds ME o rs r) enc ts' k, None).
Proof.
  intros P Y o o' X r k build build' f o1 E1 E2 E3 E4 H Hc.
  destruct (fit_end_inv ME o X r k build o1 H) as (mf & rs & enc & fb & ts & H1 & H2 & H3 & H4 & H5 & H6).
  destruct (Forall2_through _ (fun t t' => f t = (t', None))
    (fun p t' => build' (tree_params_of o' mf (ec_cats EC enc)) fb (fst p) (snd p) = Ok t') _ _ H5) as (ts' & T1 & T2).
  { intros [t s] obj _ Hb. cbn [fst snd] in *. eapply Hc; eauto. }
  exists rs, enc, ts, ts'. split; [exact H6|]. split; [apply each_tree_all; auto|].
  assert (Es : all_seeds ME o' rs r = all_seeds ME o rs r) by (unfold all_seeds; rewrite E4; reflexivity).
  rewrite <- Es. apply (fit_end_eq ME o' X r k build' mf rs enc fb ts'); rewrite ?E1, ?E2, ?E3, ?Es; auto.
Qed.

(** The call of each tree is valid. *)
Lemma clf_call : forall leb (HO : total_order leb) (o : clf_forest A L EC) y w d p fb t seed obj,
  (In true (tp_is_categorical p) -> fo_strategy o = BinaryMod -> 2 <= length (uniq leb y)) ->
  packed fb -> fb_n_samples fb = length y -> length w = length y ->
  1 <= tp_max_features p <= fb_n_features fb -> 2 <= tp_min_samples_split p -> 1 <= tp_min_samples_leaf p ->
  length (tp_is_categorical p) = fb_n_features fb ->
  clf_build leb ME (clf_ready leb o y) y w d p fb t seed = Ok obj ->
  let o2 := clf_ready leb o y in
  exists train valid counts w', generate_train_valid (me_limit ME) (me_randint ME) seed (fb_n_samples fb) = Ok (train, valid, counts) /\
    bootstrap_weights (clf_weights o2 w (clf_codes leb o2 y t)) train counts = Ok w' /\
    clf_obj_fit E (clf_k o2) d (crit_of (fo_criterion o2)) (fo_strategy o2) p fb (clf_codes leb o2 y t) train valid w' (me_seed ME seed) = Ok obj /\
    valid_fit p fb (clf_codes leb o2 y t) train valid w' /\
    valid_labels (clf_k o2) (fo_strategy o2) (tp_is_categorical p) (clf_codes leb o2 y t) /\ train <> [].
Proof.
  intros leb HO o y w d p fb t seed obj He PK Hn Hw P1 P2 P3 P4 H o2. unfold clf_build in H. fold o2 in H.
  destruct (build_tree_inv _ _ _ _ _ _ _ _ _ H) as (train & valid & counts & w' & B1 & B2 & B3).
  exists train, valid, counts, w'. split; [exact B1|]. split; [exact B2|]. split; [exact B3|].
  assert (Lc : length (clf_codes leb o2 y t) = fb_n_samples fb) by (rewrite codes_length; auto).
  destruct (build_tree_valid ME float p fb (clf_codes leb o2 y t) (clf_weights o2 w (clf_codes leb o2 y t)) seed train valid counts w' GM PK)
    as (V & V1 & V2); auto.
  { rewrite weights_length; auto. rewrite codes_length. auto. }
  split; [exact V|]. split; [|exact V1]. apply ready_labels; auto.
  intros ->. destruct train as [|i train]; [congruence|]. pose proof (vf_train _ _ _ _ _ _ V i ltac:(simpl; auto)). simpl in Hn. lia.
Qed.

Lemma reg_call : forall (y : list (num A)) w p fb seed obj,
  packed fb -> fb_n_samples fb = length y -> length w = length y ->
  1 <= tp_max_features p <= fb_n_features fb -> 2 <= tp_min_samples_split p -> 1 <= tp_min_samples_leaf p ->
  length (tp_is_categorical p) = fb_n_features fb ->
  build_tree ME (reg_task E) a0 p fb y w seed = Ok obj ->
  exists train valid counts w', generate_train_valid (me_limit ME) (me_randint ME) seed (fb_n_samples fb) = Ok (train, valid, counts) /\
    bootstrap_weights w train counts = Ok w' /\
    obj_fit (reg_task E) a0 p fb y train valid w' (me_seed ME seed) = Ok obj /\
    valid_fit p fb y train valid w' /\ train <> [].
Proof.
  intros y w p fb seed obj PK Hn Hw P1 P2 P3 P4 H.
  destruct (build_tree_inv _ _ _ _ _ _ _ _ _ H) as (train & valid & counts & w' & B1 & B2 & B3).
  exists train, valid, counts, w'. split; [exact B1|]. split; [exact B2|]. split; [exact B3|].
  destruct (build_tree_valid ME float p fb y w seed train valid counts w' GM PK) as (V & V1 & V2); auto. congruence.
Qed.

(** The same for the trees of a forest that was fitted. *)
Lemma clf_fit_call : forall leb (HO : total_order leb) (o : clf_forest A L EC) X y w d mf enc fb t seed obj,
  legal float o -> enough_classes leb o X y -> length y = fst (ec_shape EC X) -> length w = length y ->
  let o2 := clf_ready leb o y in let p := tree_params_of o2 mf (ec_cats EC enc) in
  get_max_features ME (fo_max_features o2) (snd (ec_shape EC X)) = Ok mf ->
  ec_fit EC (fo_max_bins o2) X = Ok enc -> ec_transform EC enc X = Ok fb ->
  clf_build leb ME o2 y w d p fb t seed = Ok obj ->
  exists train valid counts w', generate_train_valid (me_limit ME) (me_randint ME) seed (fb_n_samples fb) = Ok (train, valid, counts) /\
    bootstrap_weights (clf_weights o2 w (clf_codes leb o2 y t)) train counts = Ok w' /\
    clf_obj_fit E (clf_k o2) d (crit_of (fo_criterion o2)) (fo_strategy o2) p fb (clf_codes leb o2 y t) train valid w' (me_seed ME seed) = Ok obj /\
    valid_fit p fb (clf_codes leb o2 y t) train valid w' /\
    valid_labels (clf_k o2) (fo_strategy o2) (tp_is_categorical p) (clf_codes leb o2 y t) /\ train <> [].
Proof.
  intros leb HO o X y w d mf enc fb t seed obj HL HC Hy Hw o2 p Hmf He Ht Hb.
  destruct (clf_ready_same leb o y) as (Q1 & Q2 & Q3 & Q4 & Q5 & Q6 & Q7 & Q8 & Q9 & Q10 & Q11 & Q12 & Q13).
  destruct (params_ok o2 X mf enc fb (ready_legal leb float o y HL) Hmf He Ht) as (PK & AL & Hn & P1 & P2 & P3 & P4).
  apply (clf_call leb HO o y w d p fb t seed obj); auto; [|congruence].
  cbn [p tree_params_of tp_is_categorical]. intros Hc Hs. fold o2 in Q12. rewrite Q12 in He. eapply HC; eauto.
Qed.

Lemma reg_fit_call : forall (o : reg_forest A L EC) X (y : list (num A)) w mf enc fb seed obj,
  legal float o -> length y = fst (ec_shape EC X) -> length w = length y ->
  let p := tree_params_of o mf (ec_cats EC enc) in
  get_max_features ME (fo_max_features o) (snd (ec_shape EC X)) = Ok mf ->
  ec_fit EC (fo_max_bins o) X = Ok enc -> ec_transform EC enc X = Ok fb ->
  build_tree ME (reg_task E) a0 p fb y w seed = Ok obj ->
  exists train valid counts w', generate_train_valid (me_limit ME) (me_randint ME) seed (fb_n_samples fb) = Ok (train, valid, counts) /\
    bootstrap_weights w train counts = Ok w' /\
    obj_fit (reg_task E) a0 p fb y train valid w' (me_seed ME seed) = Ok obj /\
    valid_fit p fb y train valid w' /\ train <> [].
Proof.
  intros o X y w mf enc fb seed obj HL Hy Hw p Hmf He Ht Hb.
  destruct (params_ok o X mf enc fb HL Hmf He Ht) as (PK & AL & Hn & P1 & P2 & P3 & P4).
  apply (reg_call y w p fb seed obj); auto. congruence.
Qed.

(** ** C37: setting the step of a fitted forest gives the forest fitted with that step *)

Lemma fitted_with_step : forall {P Y} (o : fobj A L EC P Y) seeds enc ts k x,
  aleb x a0 = false -> forall ts', each_tree (set_step x) ts = (ts', None) ->
  set_fstep (PyFloat x) (fitted_as o seeds enc ts k) = (fitted_as (w_step o x) seeds enc ts' k, None).
Proof.
  intros P Y o seeds enc ts k x Hx ts' H. unfold set_fstep. cbn [as_float]. rewrite Hx. cbn [fo_fitted fitted_as w_fitted].
  unfold on_trees. cbn [fo_trees w_step fitted_as w_fitted w_trees]. rewrite H. reflexivity.
Qed.

Theorem C37_forest_classifier : forall leb (HO : total_order leb) (o o1 : clf_forest A L EC) X y sw c x,
  legal float o -> enough_classes leb o X y -> fo_fitted o = false ->
  aleb x a0 = false -> (num_eqb (fo_step o) x = true -> fo_step o = x) ->
  clf_fit leb ME o X y sw = ((o1, None), c) ->
  exists o' o2, set_fstep (PyFloat x) o = (o', None) /\ set_fstep (PyFloat x) o1 = (o2, None) /\
    clf_fit leb ME o' X y sw = ((o2, None), c).
Proof.
  intros leb HO o o1 X y sw c x HL HC Hf Hx Heq H.
  destruct (clf_fit_conds leb ME o X y sw o1 c H) as (w & d & C1 & C2 & C3 & C4 & C5).
  rewrite (clf_fit_eq leb ME o X y sw w d C1 C2 C3 C4 C5) in H. injection H as H Hc.
  assert (Hr : clf_ready leb (w_step o x) y = w_step (clf_ready leb o y) x).
  { unfold clf_ready. cbn [fo_multiclass w_step]. destruct (fo_multiclass o); [reflexivity|]. destruct (_ <=? 2); reflexivity. }
  destruct (clf_ready_same leb o y) as (Q1 & Q2 & Q3 & Q4 & Q5 & Q6 & Q7 & Q8 & Q9 & Q10 & Q11 & Q12 & Q13).
  destruct (fit_end_change (clf_ready leb o y) (w_step (clf_ready leb o y) x) X _ _ _
    (clf_build leb ME (w_step (clf_ready leb o y) x) y w d) (set_step x) o1 eq_refl eq_refl eq_refl eq_refl H)
    as (rs & enc & ts & ts' & F1 & F2 & F3).
  { intros mf enc fb t seed obj Hmf He Ht Hb.
    destruct (clf_fit_call leb HO o X y w d mf enc fb t seed obj HL HC C1) as (train & valid & counts & w' & B1 & B2 & B3 & V & VL & Hne); auto.
    { apply check_weights_length in C2. congruence. }
    destruct (C37_step (clf_task E (clf_k (clf_ready leb o y)) d (crit_of (fo_criterion (clf_ready leb o y))) (fo_strategy (clf_ready leb o y))) d
      (tree_params_of (clf_ready leb o y) mf (ec_cats EC enc)) x fb (clf_codes leb (clf_ready leb o y) y t) train valid w' (me_seed ME seed) obj) as (obj' & S1 & S2).
    - apply VC_classifier; auto.
    - cbn [tp_step tree_params_of]. rewrite Q9. exact Heq.
    - exact B3.
    - exists obj'. split; [exact S1|]. unfold clf_build, build_tree.
      change (clf_codes leb (w_step (clf_ready leb o y) x) y t) with (clf_codes leb (clf_ready leb o y) y t).
      change (clf_weights (w_step (clf_ready leb o y) x) w (clf_codes leb (clf_ready leb o y) y t)) with (clf_weights (clf_ready leb o y) w (clf_codes leb (clf_ready leb o y) y t)).
      rewrite B1. cbn [bind]. rewrite B2. cbn [bind]. exact S2. }
  exists (w_step o x), (fitted_as (w_step (clf_ready leb o y) x) (all_seeds ME (clf_ready leb o y) rs (clf_repeats (clf_ready leb o y))) enc ts' (clf_k (clf_ready leb o y))).
  split; [|split].
  - unfold set_fstep. cbn [as_float]. rewrite Hx, Hf. reflexivity.
  - rewrite F1. apply fitted_with_step; auto.
  - rewrite (clf_fit_eq leb ME (w_step o x) X y sw w d C1 C2 C3 C4 C5). rewrite Hr. f_equal; [exact F3|].
    rewrite <- Hc. reflexivity.
Qed.

Theorem C37_forest_regressor : forall (o o1 : reg_forest A L EC) X y sw c x,
  legal float o -> fo_fitted o = false ->
  aleb x a0 = false -> (num_eqb (fo_step o) x = true -> fo_step o = x) ->
  reg_fit ME o X y sw = ((o1, None), c) ->
  exists o' o2, set_fstep (PyFloat x) o = (o', None) /\ set_fstep (PyFloat x) o1 = (o2, None) /\
    reg_fit ME o' X y sw = ((o2, None), c).
Proof.
  intros o o1 X y sw c x HL Hf Hx Heq H. unfold reg_fit, raise in *.
  destruct (Nat.eqb_spec (length y) (fst (ec_shape EC X))) as [Hy|Hy]; cbn [negb] in *; [|inversion H].
  destruct (check_weights (fst (ec_shape EC X)) (option_map snd sw)) as [w|e] eqn:Ew; [|inversion H]. injection H as H Hc.
  destruct (fit_end_change o (w_step o x) X _ _ _
    (fun p fb _ seed => build_tree ME (reg_task E) a0 p fb y w seed) (set_step x) o1 eq_refl eq_refl eq_refl eq_refl H)
    as (rs & enc & ts & ts' & F1 & F2 & F3).
  { intros mf enc fb t seed obj Hmf He Ht Hb.
    destruct (reg_fit_call o X y w mf enc fb seed obj HL Hy) as (train & valid & counts & w' & B1 & B2 & B3 & V & Hne); auto.
    { apply check_weights_length in Ew. congruence. }
    destruct (C37_step (reg_task E) a0 (tree_params_of o mf (ec_cats EC enc)) x fb y train valid w' (me_seed ME seed) obj) as (obj' & S1 & S2).
    - apply VC_regressor; auto.
    - cbn [tp_step tree_params_of]. exact Heq.
    - exact B3.
    - exists obj'. split; [exact S1|]. unfold build_tree. rewrite B1. cbn [bind]. rewrite B2. cbn [bind]. exact S2. }
  exists (w_step o x), (fitted_as (w_step o x) (all_seeds ME o rs 1) enc ts' 0).
  split; [|split].
  - unfold set_fstep. cbn [as_float]. rewrite Hx, Hf. reflexivity.
  - rewrite F1. apply fitted_with_step; auto.
  - f_equal; [|exact Hc]. exact F3.
Qed.

(** Any sequence of changes of the step. *)
Fixpoint set_fsteps {P Y} (xs : list (num A)) (o : fobj A L EC P Y) : mresult A L EC P Y :=
  match xs with
  | [] => (o, None)
  | x :: xs' => match set_fstep (PyFloat x) o with (o', None) => set_fsteps xs' o' | r => r end
  end.

Theorem C37_forest_sequence : forall leb (HO : total_order leb) xs (o o1 : clf_forest A L EC) X y sw c,
  legal float o -> enough_classes leb o X y -> fo_fitted o = false ->
  (forall x, In x xs -> aleb x a0 = false) ->
  (forall x z, In x (fo_step o :: xs) -> In z (fo_step o :: xs) -> num_eqb x z = true -> x = z) ->
  clf_fit leb ME o X y sw = ((o1, None), c) ->
  exists o2, set_fsteps xs o = (w_step o (last xs (fo_step o)), None) /\ set_fsteps xs o1 = (o2, None) /\
    clf_fit leb ME (w_step o (last xs (fo_step o))) X y sw = ((o2, None), c).
Proof.
  intros leb HO xs. induction xs as [|x xs IH]; intros o o1 X y sw c HL HC Hf Hx Heq H.
  - exists o1. cbn [set_fsteps last]. assert (Eo : w_step o (fo_step o) = o) by (destruct o; reflexivity). rewrite Eo. auto.
  - destruct (C37_forest_classifier leb HO o o1 X y sw c x) as (o' & o2 & S1 & S2 & S3); auto.
    { apply Hx; simpl; auto. } { apply Heq; simpl; auto. }
    assert (Eo' : o' = w_step o x).
    { unfold set_fstep in S1. cbn [as_float] in S1. rewrite (Hx x ltac:(simpl; auto)), Hf in S1. congruence. }
    subst o'. destruct (IH (w_step o x) o2 X y sw c) as (o3 & T1 & T2 & T3).
    + destruct HL. constructor; auto.
    + exact HC.
    + exact Hf.
    + intros z Hz. apply Hx; simpl; auto.
    + cbn [fo_step w_step]. intros a b Ha Hb. apply Heq; simpl; auto.
    + exact S3.
    + exists o3. cbn [set_fsteps]. rewrite S1, S2.
      assert (El : last (x :: xs) (fo_step o) = last xs x).
      { clear. revert x. induction xs as [|a xs IH]; intros x; [reflexivity|]. cbn [last]. destruct xs; [reflexivity|]. rewrite <- (IH x). reflexivity. }
      rewrite El. cbn [fo_step w_step] in T1, T3. auto.
Qed.

(** ** C43: lighten *)

Definition same_answers {P Y} (t t' : tobj A P Y) : Prop :=
  (forall mix fb, obj_predict mix t' fb = obj_predict mix t fb) /\ (forall fb, obj_apply t' fb = obj_apply t fb) /\
  (forall fb, obj_weighted_depth t' fb = obj_weighted_depth t fb).

Lemma Forall2_get : forall {X Y} (R : X -> Y -> Prop) l r i, Forall2 R l r ->
  (exists x y, get l i = Ok x /\ get r i = Ok y /\ R x y) \/ (get l i = Err OOB /\ get r i = Err OOB).
Proof.
  intros X Y R l r i H. revert i. induction H as [|x y l r Hxy H IH]; intros [|i]; simpl; try (right; split; reflexivity).
  - left. exists x, y. auto.
  - destruct (IH i) as [(a & b & H1 & H2 & H3)|[H1 H2]]; [left|right]; unfold get in *; cbn [nth_error]; eauto.
Qed.

Lemma mapM_same : forall {X Y Z} (R : X -> Y -> Prop) (f : X -> res Z) (g : Y -> res Z) l r,
  Forall2 R l r -> (forall x y, R x y -> g y = f x) -> mapM g r = mapM f l.
Proof. intros X Y Z R f g l r H Hfg. induction H as [|x y l r Hxy H IH]; [reflexivity|]. cbn [mapM]. rewrite (Hfg x y Hxy), IH. reflexivity. Qed.

Lemma fitted_as_helper : forall {P Y} (o : fobj A L EC P Y) seeds enc ts k X,
  predict_helper (fitted_as o seeds enc ts k) X = (let* fb := ec_transform EC enc X in Ok (fb, ts)).
Proof. reflexivity. Qed.

Lemma accumulate_proba_same : forall n_est ovr (ts ts' : list (tobj A (list (num A)) nat)) fb order K,
  Forall2 same_answers ts ts' -> accumulate_proba n_est ovr ts' fb order K = accumulate_proba n_est ovr ts fb order K.
Proof.
  intros n_est ovr ts ts' fb order K H. unfold accumulate_proba. apply P_Setters.foldM_ext_all. intros out t.
  destruct (Forall2_get _ _ _ t H) as [(x & y & H1 & H2 & H3 & _)|[H1 H2]]; rewrite H1, H2; cbn [bind]; auto.
  rewrite H3. reflexivity.
Qed.

Lemma answers_proba : forall (o : clf_forest A L EC) seeds enc ts ts' k, Forall2 same_answers ts ts' ->
  let o1 := fitted_as o seeds enc ts k in let o2 := fitted_as o seeds enc ts' k in
  forall X, (forall small order, predict_proba small order o2 X = predict_proba small order o1 X) /\
    (forall small order, predict_class small order o2 X = predict_class small order o1 X) /\
    predict_proba_trees o2 X = predict_proba_trees o1 X /\ fapply o2 X = fapply o1 X.
Proof.
  intros o seeds enc ts ts' k H o1 o2 X.
  assert (HP : forall small order, predict_proba small order o2 X = predict_proba small order o1 X).
  { intros small order. unfold predict_proba, o1, o2. rewrite !fitted_as_helper. destruct (ec_transform EC enc X) as [fb|e]; cbn [bind]; auto.
    cbn [fo_fitted fitted_as w_fitted negb fo_multiclass fo_n_estimators fo_classes w_trees w_encoder w_seeds].
    rewrite !(accumulate_proba_same _ _ ts ts') by auto. rewrite (Forall2_len _ _ _ H). reflexivity. }
  split; [exact HP|]. split; [intros; unfold predict_class; rewrite HP; reflexivity|].
  unfold predict_proba_trees, fapply, o1, o2. rewrite !fitted_as_helper. destruct (ec_transform EC enc X) as [fb|e]; cbn [bind]; auto.
  split; (eapply mapM_same; [exact H|]); intros t t' (H1 & H2 & H3); auto.
Qed.

Lemma answers_reg : forall (o : reg_forest A L EC) seeds enc ts ts' k, Forall2 same_answers ts ts' ->
  let o1 := fitted_as o seeds enc ts k in let o2 := fitted_as o seeds enc ts' k in
  forall X, (forall order, predict_reg order o2 X = predict_reg order o1 X) /\
    fweighted_depth o2 X = fweighted_depth o1 X /\ fapply o2 X = fapply o1 X.
Proof.
  intros o seeds enc ts ts' k H o1 o2 X. split.
  - intros order. unfold predict_reg, o1, o2. rewrite !fitted_as_helper. destruct (ec_transform EC enc X) as [fb|e]; cbn [bind]; auto.
    rewrite (Forall2_len _ _ _ H).
    assert (Ea : accumulate (fun q p => Ok (aadd q p)) ts' mix_num fb order a0 = accumulate (fun q p => Ok (aadd q p)) ts mix_num fb order a0).
    { unfold accumulate. apply P_Setters.foldM_ext_all. intros out t.
      destruct (Forall2_get _ _ _ t H) as [(x & y & H1 & H2 & H3 & _)|[H1 H2]]; rewrite H1, H2; cbn [bind]; auto.
      rewrite H3. reflexivity. }
    rewrite Ea. reflexivity.
  - unfold fweighted_depth, fapply, o1, o2. rewrite !fitted_as_helper. destruct (ec_transform EC enc X) as [fb|e]; cbn [bind]; auto.
    split; (eapply mapM_same; [exact H|]); intros t t' (H1 & H2 & H3); auto.
Qed.

Lemma flighten_fitted : forall {P Y} (o : fobj A L EC P Y) seeds enc ts k ts', each_tree lighten ts = (ts', None) ->
  flighten (fitted_as o seeds enc ts k) = (fitted_as o seeds enc ts' k, None).
Proof. intros P Y o seeds enc ts k ts' H. unfold flighten, on_trees. cbn [fo_trees fitted_as w_fitted w_trees]. rewrite H. reflexivity. Qed.

Lemma lighten_all : forall {P Y} (ts : list (tobj A P Y)),
  Forall (fun t => exists t', lighten t = (t', None) /\ same_answers t t') ts ->
  exists ts', each_tree lighten ts = (ts', None) /\ Forall2 same_answers ts ts'.
Proof.
  intros P Y ts H. induction H as [|t ts (t' & H1 & H2) H (ts' & H3 & H4)]; [exists []; split; [reflexivity|constructor]|].
  exists (t' :: ts'). cbn [each_tree]. rewrite H1, H3. auto.
Qed.

(** The fitted trees of a classifier, and what is known of each. *)
Lemma clf_fit_trees : forall leb (HO : total_order leb) (o o1 : clf_forest A L EC) X y sw c,
  legal float o -> enough_classes leb o X y -> clf_fit leb ME o X y sw = ((o1, None), c) ->
  exists w d mf rs enc fb ts, let o2 := clf_ready leb o y in let p := tree_params_of o2 mf (ec_cats EC enc) in
    o1 = fitted_as o2 (all_seeds ME o2 rs (clf_repeats o2)) enc ts (clf_k o2) /\
    length y = fst (ec_shape EC X) /\ check_weights (fst (ec_shape EC X)) (option_map snd sw) = Ok w /\
    fo_dirichlet o = Some d /\ fo_random_state o = Some rs /\ (fo_aggregation o && aisz d)%bool = false /\
    ec_fit EC (fo_max_bins o) X = Ok enc /\ ec_transform EC enc X = Ok fb /\ packed fb /\ allocated fb /\
    Forall2 (fun ts obj => let t := fst ts in let seed := snd ts in
      exists train valid counts w', generate_train_valid (me_limit ME) (me_randint ME) seed (fb_n_samples fb) = Ok (train, valid, counts) /\
      bootstrap_weights (clf_weights o2 w (clf_codes leb o2 y t)) train counts = Ok w' /\
      clf_obj_fit E (clf_k o2) d (crit_of (fo_criterion o2)) (fo_strategy o2) p fb (clf_codes leb o2 y t) train valid w' (me_seed ME seed) = Ok obj /\
      valid_fit p fb (clf_codes leb o2 y t) train valid w' /\
      valid_labels (clf_k o2) (fo_strategy o2) (tp_is_categorical p) (clf_codes leb o2 y t) /\ train <> [])
      (combine (seq 0 (length (all_seeds ME o2 rs (clf_repeats o2)))) (all_seeds ME o2 rs (clf_repeats o2))) ts.
Proof.
  intros leb HO o o1 X y sw c HL HC H.
  destruct (clf_fit_conds leb ME o X y sw o1 c H) as (w & d & C1 & C2 & C3 & C4 & C5).
  rewrite (clf_fit_eq leb ME o X y sw w d C1 C2 C3 C4 C5) in H. injection H as H Hc.
  destruct (fit_end_inv ME _ _ _ _ _ _ H) as (mf & rs & enc & fb & ts & H1 & H2 & H3 & H4 & H5 & H6).
  destruct (clf_ready_same leb o y) as (Q1 & Q2 & Q3 & Q4 & Q5 & Q6 & Q7 & Q8 & Q9 & Q10 & Q11 & Q12 & Q13).
  exists w, d, mf, rs, enc, fb, ts. cbv zeta. split; [exact H6|].
  destruct (params_ok _ X mf enc fb (ready_legal leb float o y HL) H1 H3 H4) as (PK & AL & Hn & _).
  rewrite Q11 in H2. assert (H3' := H3). rewrite Q12 in H3'. repeat (split; [assumption|]).
  set (seeds := all_seeds ME _ _ _) in *. clearbody seeds. clear - H5 C1 C2 HL HC HO H1 H3 H4 GM GE GK.
  induction H5 as [|[t seed] obj l r Hb Hl IH]; constructor; [|exact IH]. cbn [fst snd] in *. cbv zeta.
  apply (clf_fit_call leb HO o X y w d mf enc fb t seed obj); auto. apply check_weights_length in C2. congruence.
Qed.

Theorem C43_forest_classifier : forall leb (HO : total_order leb) (o o1 : clf_forest A L EC) X y sw c,
  legal float o -> enough_classes leb o X y -> clf_fit leb ME o X y sw = ((o1, None), c) ->
  exists o2, flighten o1 = (o2, None) /\
  forall X', (forall small order, predict_proba small order o2 X' = predict_proba small order o1 X') /\
    (forall small order, predict_class small order o2 X' = predict_class small order o1 X') /\
    predict_proba_trees o2 X' = predict_proba_trees o1 X' /\ fapply o2 X' = fapply o1 X'.
Proof.
  intros leb HO o o1 X y sw c HL HC H.
  destruct (clf_fit_trees leb HO o o1 X y sw c HL HC H) as (w & d & mf & rs & enc & fb & ts & H1 & _ & _ & _ & _ & _ & _ & _ & _ & _ & HT).
  destruct (lighten_all ts) as (ts' & E1 & E2).
  { apply (Forall2_same _ _ _ HT). intros x obj _ (train & valid & counts & w' & B1 & B2 & B3 & V & VL & Hne). cbv zeta in *.
    destruct (C43_lighten (clf_task E _ d _ _) d _ fb _ train valid w' _ obj (VC_classifier _ _ _ _ _ _ _ _ _ _ GE V VL) B3) as (t' & L1 & L2 & L3 & L4).
    exists t'. split; [exact L1|]. repeat split; assumption. }
  exists (fitted_as (clf_ready leb o y) (all_seeds ME (clf_ready leb o y) rs (clf_repeats (clf_ready leb o y))) enc ts' (clf_k (clf_ready leb o y))).
  rewrite H1. split; [apply flighten_fitted; auto|]. intros X'. apply answers_proba. exact E2.
Qed.

Lemma reg_fit_trees : forall (o o1 : reg_forest A L EC) X y sw c,
  legal float o -> reg_fit ME o X y sw = ((o1, None), c) ->
  exists w mf rs enc fb ts, let p := tree_params_of o mf (ec_cats EC enc) in
    o1 = fitted_as o (all_seeds ME o rs 1) enc ts 0 /\
    length y = fst (ec_shape EC X) /\ check_weights (fst (ec_shape EC X)) (option_map snd sw) = Ok w /\ fo_random_state o = Some rs /\
    ec_fit EC (fo_max_bins o) X = Ok enc /\ ec_transform EC enc X = Ok fb /\ packed fb /\ allocated fb /\
    Forall2 (fun ts obj => exists train valid counts w', generate_train_valid (me_limit ME) (me_randint ME) (snd ts) (fb_n_samples fb) = Ok (train, valid, counts) /\
      bootstrap_weights w train counts = Ok w' /\
      obj_fit (reg_task E) a0 p fb y train valid w' (me_seed ME (snd ts)) = Ok obj /\
      valid_fit p fb y train valid w' /\ train <> [])
      (combine (seq 0 (length (all_seeds ME o rs 1))) (all_seeds ME o rs 1)) ts.
Proof.
  intros o o1 X y sw c HL H. unfold reg_fit, raise in H.
  destruct (Nat.eqb_spec (length y) (fst (ec_shape EC X))) as [Hy|Hy]; cbn [negb] in *; [|inversion H].
  destruct (check_weights (fst (ec_shape EC X)) (option_map snd sw)) as [w|e] eqn:Ew; [|inversion H]. injection H as H Hc.
  destruct (fit_end_inv ME _ _ _ _ _ _ H) as (mf & rs & enc & fb & ts & H1 & H2 & H3 & H4 & H5 & H6).
  exists w, mf, rs, enc, fb, ts. cbv zeta. split; [exact H6|].
  destruct (params_ok _ X mf enc fb HL H1 H3 H4) as (PK & AL & Hn & _).
  split; [assumption|]. split; [reflexivity|]. repeat (split; [assumption|]).
  set (seeds := all_seeds ME _ _ _) in *. clearbody seeds. clear - H5 Hy Ew HL H1 H3 H4 GM GE GK.
  induction H5 as [|[t seed] obj l r Hb Hl IH]; constructor; [|exact IH]. cbn [fst snd] in *.
  apply (reg_fit_call o X y w mf enc fb seed obj); auto. apply check_weights_length in Ew. congruence.
Qed.

Theorem C43_forest_regressor : forall (o o1 : reg_forest A L EC) X y sw c,
  legal float o -> reg_fit ME o X y sw = ((o1, None), c) ->
  exists o2, flighten o1 = (o2, None) /\
  forall X', (forall order, predict_reg order o2 X' = predict_reg order o1 X') /\
    fweighted_depth o2 X' = fweighted_depth o1 X' /\ fapply o2 X' = fapply o1 X'.
Proof.
  intros o o1 X y sw c HL H.
  destruct (reg_fit_trees o o1 X y sw c HL H) as (w & mf & rs & enc & fb & ts & H1 & _ & _ & _ & _ & _ & _ & _ & HT).
  destruct (lighten_all ts) as (ts' & E1 & E2).
  { apply (Forall2_same _ _ _ HT). intros x obj _ (train & valid & counts & w' & B1 & B2 & B3 & V & Hne). cbv zeta in *.
    destruct (C43_lighten (reg_task E) a0 _ fb _ train valid w' _ obj (VC_regressor _ _ _ _ _ _ GE V) B3) as (t' & L1 & L2 & L3 & L4).
    exists t'. split; [exact L1|]. repeat split; assumption. }
  exists (fitted_as o (all_seeds ME o rs 1) enc ts' 0).
  rewrite H1. split; [apply flighten_fitted; auto|]. intros X'. apply answers_reg. exact E2.
Qed.

(** ** C45: pickle *)

Lemma funpickle_fitted : forall {P Y} memN pred0 (o : fobj A L EC P Y) seeds enc ts k,
  Forall (fun t => unpickle E memN pred0 t = Ok t) ts ->
  funpickle E memN pred0 (fitted_as o seeds enc ts k) = Ok (fitted_as o seeds enc ts k).
Proof.
  intros P Y memN pr0 o seeds enc ts k H. unfold funpickle. cbn [fo_trees fitted_as w_fitted w_trees].
  rewrite (mapM_pure _ (fun t => t)). { cbn [bind]. rewrite map_id. reflexivity. }
  intros t Ht. rewrite Forall_forall in H. auto.
Qed.

Theorem C45_forest_classifier : forall leb (HO : total_order leb) (o o1 : clf_forest A L EC) X y sw c memN pred0,
  legal float o -> enough_classes leb o X y -> clf_fit leb ME o X y sw = ((o1, None), c) ->
  funpickle E memN pred0 o1 = Ok o1.
Proof.
  intros leb HO o o1 X y sw c memN pr0 HL HC H.
  destruct (clf_fit_trees leb HO o o1 X y sw c HL HC H) as (w & d & mf & rs & enc & fb & ts & H1 & _ & _ & _ & _ & _ & _ & _ & _ & AL & HT).
  rewrite H1. apply funpickle_fitted. apply (Forall2_same _ _ _ HT).
  intros x obj _ (train & valid & counts & w' & B1 & B2 & B3 & V & VL & Hne). cbv zeta in *.
  exact (C45_pickle (clf_task E _ d _ _) d _ fb _ train valid w' _ obj memN pr0 (VC_classifier _ _ _ _ _ _ _ _ _ _ GE V VL) AL B3).
Qed.

Theorem C45_forest_regressor : forall (o o1 : reg_forest A L EC) X y sw c memN pred0,
  legal float o -> reg_fit ME o X y sw = ((o1, None), c) -> funpickle E memN pred0 o1 = Ok o1.
Proof.
  intros o o1 X y sw c memN pr0 HL H.
  destruct (reg_fit_trees o o1 X y sw c HL H) as (w & mf & rs & enc & fb & ts & H1 & _ & _ & _ & _ & _ & _ & AL & HT).
  rewrite H1. apply funpickle_fitted. apply (Forall2_same _ _ _ HT).
  intros x obj _ (train & valid & counts & w' & B1 & B2 & B3 & V & Hne). cbv zeta in *.
  exact (C45_pickle (reg_task E) a0 _ fb _ train valid w' _ obj memN pr0 (VC_regressor _ _ _ _ _ _ GE V) AL B3).
Qed.
End Trees.
Print Assumptions C37_forest_classifier.
Print Assumptions C37_forest_regressor.
Print Assumptions C37_forest_sequence.
Print Assumptions C43_forest_classifier.
Print Assumptions C43_forest_regressor.
Print Assumptions C45_forest_classifier.
Print Assumptions C45_forest_regressor.

(** ** C44 (refuted): a lightened forest cannot be reconfigured or pickled *)

Lemma each_lighten_head : forall {A : arith} {P Y} (t : tobj A P Y) ts r, each_tree lighten (t :: ts) = (r, None) ->
  exists t' ts', r = t' :: ts' /\ lighten t = (t', None).
Proof.
  intros A P Y t ts r H. cbn [each_tree] in H. destruct (lighten t) as [t' [e|]]; [inversion H|].
  destruct (each_tree lighten ts) as [ts' e]. injection H as <- ->. eauto.
Qed.

Theorem C44_forest_step : forall {A : arith} {L D} {EC : encoding D} {P Y} (o o1 : fobj A L EC P Y) t ts x,
  fo_fitted o = true -> fo_trees o = Some (t :: ts) -> flighten o = (o1, None) ->
  aleb x a0 = false -> num_eqb (ob_step t) x = false ->
  (* the setter raises; the forest and its first tree have the new step, the other trees the old one *)
  exists o2 t1 t2 rest, set_fstep (PyFloat x) o1 = (o2, Some AttrErr) /\ fo_step o2 = x /\
    fo_trees o1 = Some (t1 :: rest) /\ fo_trees o2 = Some (t2 :: rest) /\ ob_step t2 = x /\ ob_step t1 = ob_step t.
Proof.
  intros A L D EC P Y o o1 t ts x Hf Ht Hl Hx Hn. unfold flighten, on_trees in Hl. rewrite Ht in Hl.
  destruct (each_tree lighten (t :: ts)) as [r e] eqn:Er. injection Hl as Ho1 ->. subst o1.
  destruct (each_lighten_head _ _ _ Er) as (t1 & rest & -> & Ht1).
  destruct (lighten_keeps t t1 Ht1) as [K1 _].
  destruct (C44_lightened_step t t1 x Ht1 Hn) as (t2 & S1 & S2 & S3).
  assert (Hs : set_fstep (PyFloat x) (w_trees o (Some (t1 :: rest)) (fo_tree_classes o)) =
    (w_trees (w_step (w_trees o (Some (t1 :: rest)) (fo_tree_classes o)) x) (Some (t2 :: rest)) (fo_tree_classes o), Some AttrErr)).
  { unfold set_fstep. cbn [as_float]. rewrite Hx. cbn [fo_fitted w_trees]. rewrite Hf. unfold on_trees. cbn [fo_trees w_step w_trees each_tree].
    rewrite S1. reflexivity. }
  exists (w_trees (w_step (w_trees o (Some (t1 :: rest)) (fo_tree_classes o)) x) (Some (t2 :: rest)) (fo_tree_classes o)), t1, t2, rest.
  split; [exact Hs|]. cbn. auto.
Qed.
Print Assumptions C44_forest_step.

Theorem C44_forest_pickle : forall {A : arith} (E : env A) {L D} {EC : encoding D} {P Y} (o o1 : fobj A L EC P Y) t ts memN pred0,
  fo_trees o = Some (t :: ts) -> flighten o = (o1, None) -> exists e, funpickle E memN pred0 o1 = Err e.
Proof.
  intros A E L D EC P Y o o1 t ts memN pr0 Ht Hl. unfold flighten, on_trees in Hl. rewrite Ht in Hl.
  destruct (each_tree lighten (t :: ts)) as [r e] eqn:Er. injection Hl as Ho1 ->. subst o1.
  destruct (each_lighten_head _ _ _ Er) as (t1 & rest & -> & Ht1).
  destruct (C44_lightened_pickle E memN pr0 t t1 Ht1) as (e & He).
  exists e. unfold funpickle. cbn [fo_trees w_trees mapM]. rewrite He. reflexivity.
Qed.
Print Assumptions C44_forest_pickle.
