(** * C70: the names of the classes do not matter

    Renaming the classes without changing their order (numbers instead of strings, for
    instance) gives the same forest: same exceptions, same trees, same probabilities, and the
    predicted labels are the renamed ones. *)

Require Import String Bool List Arith NArith ZArith Lia.
Require Import Verif.Base Verif.Num Verif.M_Bitarray Verif.M_Utils Verif.M_Tree Verif.M_Grow Verif.M_Object Verif.M_Forest
  Verif.T_Params Verif.Cells Verif.Ex_Data Verif.Ex_ForestQ Verif.T_Clone.
Import ListNotations.
Local Open Scope list_scope.
Local Open Scope nat_scope.

(** [f] renames the labels that satisfy [known] and keeps their order. *)
Definition keeps_order {L L' : Type} (leb : L -> L -> bool) (leb' : L' -> L' -> bool) (known : L -> Prop) (f : L -> L') : Prop :=
  forall a b, known a -> known b -> leb' (f a) (f b) = leb a b.

(** The same calls with the new names. *)
Definition renamed_op {A : arith} {L L' D : Type} (f : L -> L') (op : clf_op (A := A) L D) : clf_op L' D :=
  match op with OSet p v => OSet p v | OFit X y sw => OFit X (map f y) sw | OLighten => OLighten end.
Definition labels_known {A : arith} {L D : Type} (known : L -> Prop) (op : clf_op (A := A) L D) : Prop :=
  match op with OFit X y sw => forall l, In l y -> known l | _ => True end.

Section Renaming.
Context {A : arith} {E : env A} {L L' D : Type} {EC : encoding D} (ME : menv E).
Context (leb : L -> L -> bool) (leb' : L' -> L' -> bool) (known : L -> Prop) (f : L -> L').
Context (HF : keeps_order leb leb' known f).

Lemma l_eqb_renamed : forall a b, known a -> known b -> l_eqb leb' (f a) (f b) = l_eqb leb a b.
Proof. intros a b Ha Hb. unfold l_eqb. rewrite !HF; auto. Qed.
Lemma uinsert_renamed : forall x l, known x -> Forall known l -> uinsert leb' (f x) (map f l) = map f (uinsert leb x l).
Proof.
  intros x l Hx H. induction H as [|y l Hy H IH]; auto. cbn [map uinsert]. rewrite l_eqb_renamed, HF by auto.
  destruct (l_eqb leb x y); auto. destruct (leb x y); auto. cbn [map]. f_equal. auto.
Qed.
Lemma uinsert_known : forall x l, known x -> Forall known l -> Forall known (uinsert leb x l).
Proof. intros x l Hx H. induction H as [|y l Hy H IH]; cbn [uinsert]; auto. destruct (l_eqb leb x y); auto. destruct (leb x y); auto. Qed.
Lemma uniq_renamed : forall y, Forall known y -> uniq leb' (map f y) = map f (uniq leb y) /\ Forall known (uniq leb y).
Proof.
  intros y H. induction H as [|x y Hx H [IH1 IH2]]; [split; [auto|constructor]|]. unfold uniq in *. cbn [map fold_right]. rewrite IH1. split.
  - apply uinsert_renamed; auto.
  - apply uinsert_known; auto.
Qed.
Lemma index_renamed : forall l x, Forall known l -> known x -> index_of leb' (map f l) (f x) = index_of leb l x.
Proof. intros l x H Hx. induction H as [|y l Hy H IH]; auto. cbn [map index_of]. rewrite l_eqb_renamed, IH by auto. auto. Qed.
Lemma encode_renamed : forall classes y, Forall known classes -> Forall known y -> encode_labels leb' (map f classes) (map f y) = encode_labels leb classes y.
Proof.
  intros classes y Hc H. unfold encode_labels. rewrite map_map. apply map_ext_in. intros x Hx. rewrite Forall_forall in H. apply index_renamed; auto.
Qed.

Definition rename (o : clf_forest A L EC) : clf_forest A L' EC :=
  mkF (fo_fitted o) (fo_n_estimators o) (fo_step o) (fo_aggregation o) (fo_max_depth o) (fo_min_samples_split o) (fo_min_samples_leaf o)
    (fo_max_bins o) (fo_max_features o) (fo_n_jobs o) (fo_random_state o) (fo_verbose o) (fo_criterion o) (fo_loss o)
    (fo_dirichlet o) (fo_balanced o) (fo_multiclass o) (fo_strategy o)
    (map f (fo_classes o)) (fo_seeds o) (fo_encoder o) (fo_trees o) (fo_tree_classes o).
Definition renamed_result (r : mresult A L EC (list (num A)) nat) : mresult A L' EC (list (num A)) nat := (rename (fst r), snd r).

Ltac cases := repeat match goal with |- context [match ?m with _ => _ end] => destruct m eqn:? end.

Lemma on_trees_renamed : forall g o, on_trees g (rename o) = renamed_result (on_trees g o).
Proof.
  intros g o. unfold on_trees, renamed_result. change (fo_trees (rename o)) with (fo_trees o). destruct (fo_trees o) as [ts|]; [|reflexivity].
  destruct (each_tree g ts). reflexivity.
Qed.
Lemma set_renamed : forall p v o, setattr_clf E p v (rename o) = renamed_result (setattr_clf E p v o).
Proof.
  intros p v o. unfold setattr_clf, setattr.
  destruct p;
    unfold set_n_estimators, set_fstep, set_aggregation, set_max_depth, set_min_samples_split, set_min_samples_leaf, set_max_bins, set_max_features,
      set_n_jobs, set_random_state, set_verbose, set_criterion, set_loss, set_class_weight, set_multiclass, set_cat_split_strategy, set_fdirichlet, raise;
    change (fo_fitted (rename o)) with (fo_fitted o); change (fo_trees (rename o)) with (fo_trees o);
    change (fo_dirichlet (rename o)) with (fo_dirichlet o); change (fo_tree_classes (rename o)) with (fo_tree_classes o);
    cbv zeta; repeat match goal with
    | |- context [w_step (rename o) ?n] => change (w_step (rename o) n) with (rename (w_step o n))
    | |- context [w_dirichlet (rename o) ?n] => change (w_dirichlet (rename o) n) with (rename (w_dirichlet o n)) end;
    cases; try reflexivity;
    match goal with |- on_trees ?g (_ (rename ?o) ?n) = renamed_result (on_trees _ ?o1) => exact (on_trees_renamed g o1) end.
Qed.

Lemma set_all_renamed : forall l o,
  set_all (setattr_clf E) l (rename o) = match set_all (setattr_clf E) l o with Ok o1 => Ok (rename o1) | Err e => Err e end.
Proof.
  induction l as [|[p v] l IH]; intros o; [reflexivity|]. cbn [set_all]. rewrite set_renamed. unfold renamed_result.
  destruct (setattr_clf E p v o) as [o1 [e|]]; cbn [fst snd]; auto.
Qed.

Lemma fit_end_renamed : forall o X r tc build, fit_end ME (rename o) X r tc build = renamed_result (fit_end ME o X r tc build).
Proof.
  intros o X r tc build. unfold fit_end, renamed_result, raise, tree_params_of. cbv zeta.
  change (fo_max_features (rename o)) with (fo_max_features o). change (fo_random_state (rename o)) with (fo_random_state o).
  change (fo_n_estimators (rename o)) with (fo_n_estimators o). change (fo_max_bins (rename o)) with (fo_max_bins o).
  change (fo_min_samples_split (rename o)) with (fo_min_samples_split o). change (fo_min_samples_leaf (rename o)) with (fo_min_samples_leaf o).
  change (fo_max_depth (rename o)) with (fo_max_depth o). change (fo_aggregation (rename o)) with (fo_aggregation o). change (fo_step (rename o)) with (fo_step o).
  destruct (get_max_features ME (fo_max_features o) (snd (ec_shape EC X))) as [mf|e]; [|reflexivity].
  destruct (fo_random_state o) as [rs|]; [|reflexivity].
  destruct (ec_fit EC (fo_max_bins o) X) as [enc|e]; [|reflexivity]. cbn [bind].
  destruct (ec_transform EC enc X) as [fb|e]; [|reflexivity]. cbn [bind].
  match goal with |- context [mapM ?g ?l] => destruct (mapM g l) as [ts|e] end; reflexivity.
Qed.

Lemma fit_renamed : forall o X y sw, (forall l, In l y -> known l) ->
  clf_fit leb' ME (rename o) X (map f y) sw = (renamed_result (fst (clf_fit leb ME o X y sw)), snd (clf_fit leb ME o X y sw)).
Proof.
  intros o X y sw Hy. assert (Hk : Forall known y) by (apply Forall_forall; auto). destruct (uniq_renamed y Hk) as [Hu Hku].
  unfold clf_fit. rewrite map_length. destruct (negb (length y =? fst (ec_shape EC X))); [reflexivity|].
  destruct (check_weights (fst (ec_shape EC X)) (option_map snd sw)) as [w|e]; [|reflexivity]. cbv zeta.
  rewrite Hu, map_length, encode_renamed by auto. change (fo_multiclass (rename o)) with (fo_multiclass o).
  change (w_classes (rename o) (map f (uniq leb y))) with (rename (w_classes o (uniq leb y))).
  set (o1 := w_classes o (uniq leb y)). clearbody o1.
  assert (HK : forall (r : mresult A L EC (list (num A)) nat) (r' : mresult A L' EC (list (num A)) nat) (k : clf_forest A L EC -> option err -> mresult A L EC (list (num A)) nat * list (num A))
    (k' : clf_forest A L' EC -> option err -> mresult A L' EC (list (num A)) nat * list (num A)), r' = renamed_result r ->
    (forall o2 e2, k' (rename o2) e2 = (renamed_result (fst (k o2 e2)), snd (k o2 e2))) ->
    (let '(o2, e2) := r' in k' o2 e2) = (renamed_result (fst (let '(o2, e2) := r in k o2 e2)), snd (let '(o2, e2) := r in k o2 e2))).
  { intros [o2 e2] r' k k' -> Hk'. exact (Hk' o2 e2). }
  apply HK; clear HK.
  { destruct (fo_multiclass o); [reflexivity|]. destruct (length (uniq leb y) <=? 2); [|reflexivity]. exact (set_renamed P_multiclass (PyStr "multinomial") o1). }
  intros o2 [e|]; [reflexivity|].
  change (fo_dirichlet (rename o2)) with (fo_dirichlet o2). destruct (fo_dirichlet o2) as [d|]; [|reflexivity].
  change (fo_aggregation (rename o2)) with (fo_aggregation o2). destruct (fo_aggregation o2 && aisz d)%bool; [reflexivity|].
  change (fo_multiclass (rename o2)) with (fo_multiclass o2). change (fo_balanced (rename o2)) with (fo_balanced o2).
  change (fo_criterion (rename o2)) with (fo_criterion o2). change (fo_strategy (rename o2)) with (fo_strategy o2).
  change (fo_n_estimators (rename o2)) with (fo_n_estimators o2).
  destruct (fo_multiclass o2); rewrite fit_end_renamed; reflexivity.
Qed.

Lemma run_renamed : forall ops o, Forall (labels_known known) ops ->
  fold_left (clf_run leb' ME) (map (renamed_op f) ops) (rename o) = rename (fold_left (clf_run leb ME) ops o).
Proof.
  induction ops as [|op ops IH]; intros o H; [reflexivity|]. inversion H; subst. cbn [map fold_left].
  assert (Hs : clf_run leb' ME (rename o) (renamed_op f op) = rename (clf_run leb ME o op)).
  { destruct op as [p v|X y sw|]; cbn [renamed_op clf_run].
    - rewrite set_renamed. reflexivity.
    - rewrite fit_renamed by auto. reflexivity.
    - unfold flighten. rewrite on_trees_renamed. reflexivity. }
  rewrite Hs. auto.
Qed.

Lemma proba_renamed : forall small order o X, predict_proba small order (rename o) X = predict_proba small order o X.
Proof.
  intros small order o X. unfold predict_proba. change (predict_helper (rename o) X) with (predict_helper o X).
  destruct (predict_helper o X) as [[fb ts]|e]; [|reflexivity]. cbn [bind]. change (fo_fitted (rename o)) with (fo_fitted o).
  change (fo_classes (rename o)) with (map f (fo_classes o)). rewrite map_length. reflexivity.
Qed.
Lemma take_renamed : forall classes (probas : list (list (num A))),
  take_classes (map f classes) probas = match take_classes classes probas with Ok l => Ok (map f l) | Err e => Err e end.
Proof.
  intros classes probas. unfold take_classes. induction probas as [|r l IH]; [reflexivity|]. cbn [mapM].
  destruct (argmax r) as [k|e]; [|reflexivity]. cbn [bind]. rewrite nth_error_map.
  destruct (nth_error classes k) as [c|]; [|reflexivity]. cbn [option_map bind]. rewrite IH.
  match goal with |- context [mapM ?g l] => destruct (mapM g l) end; reflexivity.
Qed.
Lemma class_renamed : forall small order o X,
  predict_class small order (rename o) X = match predict_class small order o X with Ok l => Ok (map f l) | Err e => Err e end.
Proof.
  intros small order o X. unfold predict_class. rewrite proba_renamed. destruct (predict_proba small order o X); [|reflexivity].
  cbn [bind]. apply take_renamed.
Qed.

(** The two forests are built with the same arguments, and get the same calls. *)
Theorem C70_constructor : forall args e, new_clf (L := L) E EC args = Err e -> new_clf (L := L') E EC args = Err e.
Proof.
  intros args e H. unfold new_clf in *. change (@blank A L' D EC (list (num A)) nat) with (rename blank). rewrite set_all_renamed, H. reflexivity.
Qed.

Theorem C70_classifier : forall args (o : clf_forest A L EC), new_clf E EC args = Ok o ->
  exists o' : clf_forest A L' EC, new_clf E EC args = Ok o' /\
  forall ops, Forall (labels_known known) ops ->
  let o1 := fold_left (clf_run leb ME) ops o in
  let o1' := fold_left (clf_run leb' ME) (map (renamed_op f) ops) o' in
  (* the forests are the same, but for the names *)
  fo_trees o1' = fo_trees o1 /\ fo_seeds o1' = fo_seeds o1 /\ fo_encoder o1' = fo_encoder o1 /\ fo_fitted o1' = fo_fitted o1 /\
  (forall p, getattr p o1' = getattr p o1) /\
  fo_classes o1' = map f (fo_classes o1) /\
  (* so are the exceptions of the next call, and what fit leaves in the caller's weights *)
  (forall p v, snd (setattr_clf E p v o1') = snd (setattr_clf E p v o1)) /\
  (forall X y sw, (forall l, In l y -> known l) ->
     snd (fst (clf_fit leb' ME o1' X (map f y) sw)) = snd (fst (clf_fit leb ME o1 X y sw)) /\
     snd (clf_fit leb' ME o1' X (map f y) sw) = snd (clf_fit leb ME o1 X y sw)) /\
  (* and the predictions *)
  (forall small order X, predict_proba small order o1' X = predict_proba small order o1 X) /\
  (forall small order X, predict_class small order o1' X = match predict_class small order o1 X with Ok l => Ok (map f l) | Err e => Err e end) /\
  (forall X, predict_proba_trees o1' X = predict_proba_trees o1 X) /\
  (forall X, fapply o1' X = fapply o1 X).
Proof.
  intros args o H. exists (rename o). split.
  { unfold new_clf in *. change (@blank A L' D EC (list (num A)) nat) with (rename blank). rewrite set_all_renamed, H. reflexivity. }
  intros ops Hops. cbv zeta. rewrite run_renamed by auto. generalize (fold_left (clf_run leb ME) ops o). clear -HF. intros o.
  do 4 (split; [reflexivity|]). split; [intros []; reflexivity|]. split; [reflexivity|].
  split; [intros p v; rewrite set_renamed; reflexivity|].
  split; [intros X y sw Hy; rewrite fit_renamed by auto; split; reflexivity|].
  split; [intros; apply proba_renamed|]. split; [intros; apply class_renamed|]. split; reflexivity.
Qed.
End Renaming.

Print Assumptions C70_constructor.
Print Assumptions C70_classifier.
