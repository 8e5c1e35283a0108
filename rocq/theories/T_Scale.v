(** * C72: only the ratios of the sample weights matter

    All the sample weights multiplied by the same positive number. In a regression nothing
    changes (with aggregation, the parameter [step], which multiplies weighted losses, has to be
    divided by it); in a classification this is true when [dirichlet], which is added to the
    weights, is multiplied by it. Numbers are exact. *)

Require Import String Bool List Arith NArith ZArith Lia Reals Lra.
Require Import Verif.Base Verif.Num Verif.M_Bitarray Verif.M_Utils Verif.M_Context Verif.M_Node Verif.M_Split
  Verif.M_Tree Verif.M_Grow Verif.M_Object Verif.M_Forest Verif.S_Units Verif.P_Affine Verif.P_Scale.
Import ListNotations.
Local Open Scope nat_scope.
Local Open Scope list_scope.
Local Open Scope res_scope.

Section Scaling.
Context {E : env R_arith} {L D : Type} {EC : encoding D} (ME : menv E).
Context (k : R) (Hk : (0 < k)%R).
Notation kl := (map (Rmult k)).
Notation fobjR P Y := (fobj R_arith L EC P Y).

Lemma setk : forall (w : list (num R_arith)) i x, @set (num R_arith) (kl w) i (k * x)%R = rmap kl (@set (num R_arith) w i x).
Proof. intros w i x. exact (set_map (Rmult k) w i x). Qed.
Lemma bootstrap_k : forall (w : list R) train counts, bootstrap_weights (A := R_arith) (kl w) train counts = rmap kl (bootstrap_weights (A := R_arith) w train counts).
Proof.
  intros w train counts. unfold bootstrap_weights. revert w. induction (combine train counts) as [|[i c] l IH]; intros w; cbn [foldM]; [reflexivity|].
  rewrite (getk k w i). destruct (@get (num R_arith) w i) as [x|e]; [|reflexivity]. cbn [rmap bind].
  replace (@amul R_arith (k * x)%R (aofnat c)) with (k * @amul R_arith x (aofnat c))%R by (cbn; ring).
  rewrite (setk w i (@amul R_arith x (aofnat c))). destruct (@set (num R_arith) w i _) as [w1|e]; [|reflexivity]. cbn [rmap bind]. apply IH.
Qed.

Lemma build_k : forall (tk : task R_arith E) (pe : tk_P tk -> R -> res (tk_P tk)) hs ss ps okp, scales tk pe k hs ss ps okp -> forall d d' p s' fb y w seed,
  (tp_aggregation p = true -> (s' * k)%R = tp_step p) ->
  (In true (tp_is_categorical p) -> forall s h l, tk_cat_orders tk s (hs h) l = tk_cat_orders tk s h l) ->
  rr (fun x x' => owrel k x x' /\ ob_step x = tp_step p /\ ob_step x' = s') (build_tree ME tk d p fb y w seed)
    (build_tree ME (with_pred_end tk pe) d' (params_with_step p s') fb y (kl w) seed).
Proof.
  intros tk pe hs ss ps okp SK d d' p s' fb y w seed Hs Hc. unfold build_tree. apply rr_same. intros [[train valid] counts] _.
  change (num R_arith) with R. rewrite bootstrap_k. match goal with |- rr _ (bind ?m _) (bind (rmap _ ?m') _) => change m' with m; destruct m as [w1|e] end; [|reflexivity].
  cbn [rmap bind]. apply (obj_fit_w tk pe k Hk hs ss ps okp SK); auto.
Qed.

(** Two fitted forests. *)
Record frel {P Y} (s s' : R) (o o' : fobjR P Y) : Prop := {
  fr_encoder : fo_encoder o' = fo_encoder o; fr_fitted : fo_fitted o' = fo_fitted o; fr_classes : fo_classes o' = fo_classes o;
  fr_multiclass : fo_multiclass o' = fo_multiclass o; fr_n : fo_n_estimators o' = fo_n_estimators o;
  fr_trees : match fo_trees o, fo_trees o' with
             | Some ts, Some ts' => Forall2 (fun x x' => owrel k x x' /\ ob_step x = s /\ ob_step x' = s') ts ts'
             | None, None => True | _, _ => False end
}.
Lemma mapM_F2 : forall {X X' Z} (Q : X -> X' -> Prop) (f : X -> res Z) (f' : X' -> res Z) l l', Forall2 Q l l' -> (forall x x', Q x x' -> f' x' = f x) -> mapM f' l' = mapM f l.
Proof. intros X X' Z Q f f' l l' H Hf. induction H as [|x x' l l' Hx H IH]; cbn [mapM]; [reflexivity|]. rewrite (Hf x x' Hx), IH. reflexivity. Qed.
Lemma helper_k : forall {P Y Z Z'} s s' (o o' : fobjR P Y) X (body : fba -> list (tobj R_arith P Y) -> res Z) body' (Q : Z -> Z' -> Prop), frel s s' o o' ->
  (forall fb ts ts', Forall2 (fun x x' => owrel k x x' /\ ob_step x = s /\ ob_step x' = s') ts ts' -> rr Q (body fb ts) (body' fb ts')) ->
  rr Q (let* ' (fb, ts) := predict_helper o X in body fb ts) (let* ' (fb, ts) := predict_helper o' X in body' fb ts).
Proof.
  intros P Y Z Z' s s' o o' X body body' Q [F1 F2 F3 F4 F5 F6] Hb. unfold predict_helper. rewrite F1. destruct (fo_encoder o) as [enc|]; [|reflexivity].
  destruct (ec_transform EC enc X) as [fb|e]; [|reflexivity]. cbn [bind]. destruct (fo_trees o) as [ts|], (fo_trees o') as [ts'|]; try contradiction; [|reflexivity]. cbn [bind]. auto.
Qed.
Lemma rr_eq : forall {X} (r r' : res X), rr eq r r' -> r' = r.
Proof. intros X [x|e] [x'|e'] H; cbn in H; try contradiction; congruence. Qed.
Lemma eq_rr : forall {X} (r r' : res X), r' = r -> rr eq r r'.
Proof. intros X r r' ->. apply rr_refl. Qed.

Lemma get_trees : forall {P Y} s s' (ts ts' : list (tobj R_arith P Y)) t, Forall2 (fun x x' => owrel k x x' /\ ob_step x = s /\ ob_step x' = s') ts ts' ->
  rr (fun x x' => owrel k x x' /\ ob_step x = s /\ ob_step x' = s') (get ts t) (get ts' t).
Proof. intros P Y s s' ts ts' t H. apply get_F2. exact H. Qed.

Lemma fapply_k : forall {P Y} s s' (o o' : fobjR P Y) X, frel s s' o o' -> fapply o' X = fapply o X.
Proof.
  intros P Y s s' o o' X HF. apply rr_eq. unfold fapply. apply (helper_k s s'); [exact HF|]. intros fb ts ts' HT. apply eq_rr.
  apply (mapM_F2 _ (fun t => obj_apply t fb) (fun t => obj_apply t fb) ts ts' HT). intros x x' (Hx & _). apply (obj_apply_w k). exact Hx.
Qed.
Lemma fdepth_k : forall s s' (o o' : reg_forest R_arith L EC) X, frel s s' o o' -> (s' * k)%R = s -> fweighted_depth o' X = fweighted_depth o X.
Proof.
  intros s s' o o' X HF Hs. apply rr_eq. unfold fweighted_depth. apply (helper_k s s'); [exact HF|]. intros fb ts ts' HT. apply eq_rr.
  apply (mapM_F2 _ (fun t => obj_weighted_depth t fb) (fun t => obj_weighted_depth t fb) ts ts' HT). intros x x' (Hx & S1 & S2). apply (obj_depth_w k); [exact Hx|]. rewrite S1, S2. exact Hs.
Qed.
Lemma predict_reg_k : forall s s' order (o o' : reg_forest R_arith L EC) X, frel s s' o o' -> predict_reg order o' X = predict_reg order o X.
Proof.
  intros s s' order o o' X HF. apply rr_eq. unfold predict_reg. apply (helper_k s s'); [exact HF|]. intros fb ts ts' HT.
  assert (Hl : length ts' = length ts) by (clear - HT; induction HT; cbn; auto). rewrite Hl.
  apply rr_bind with (R := eq); [|intros out out' _ _ <-; apply rr_refl]. unfold accumulate. apply rr_fold; [reflexivity|]. intros out out' t _ <-.
  eapply rr_bind; [apply (get_trees s s'); exact HT|]. intros x x' _ _ (Hx & _). rewrite (obj_predict_w k mix_num x x' fb Hx). apply rr_refl.
Qed.
Lemma proba_k : forall s s' small order (o o' : clf_forest R_arith L EC) X, frel s s' o o' -> predict_proba small order o' X = predict_proba small order o X.
Proof.
  intros s s' small order o o' X HF. apply rr_eq. unfold predict_proba. apply (helper_k s s'); [exact HF|]. intros fb ts ts' HT. destruct HF as [F1 F2 F3 F4 F5 F6]. rewrite F2, F3, F4, F5.
  destruct (fo_fitted o); [|reflexivity]. cbn [negb].
  assert (Hl : length ts' = length ts) by (clear - HT; induction HT; cbn; auto). rewrite ?Hl.
  assert (HA : forall n ovr K, accumulate_proba n ovr ts' fb order K = accumulate_proba n ovr ts fb order K).
  { intros n ovr K. apply rr_eq. unfold accumulate_proba. apply rr_fold; [reflexivity|]. intros out out' t _ <-.
    eapply rr_bind; [apply (get_trees s s'); exact HT|]. intros x x' _ _ (Hx & _). rewrite (obj_predict_w k mix_vec x x' fb Hx). apply rr_refl. }
  rewrite !HA. apply rr_refl.
Qed.
Lemma proba_trees_k : forall s s' (o o' : clf_forest R_arith L EC) X, frel s s' o o' -> predict_proba_trees o' X = predict_proba_trees o X.
Proof.
  intros s s' o o' X HF. apply rr_eq. unfold predict_proba_trees. apply (helper_k s s'); [exact HF|]. intros fb ts ts' HT. apply eq_rr.
  apply (mapM_F2 _ (fun t => obj_predict mix_vec t fb) (fun t => obj_predict mix_vec t fb) ts ts' HT). intros x x' (Hx & _). apply (obj_predict_w k). exact Hx.
Qed.

(** The end of fit, forest.py:340-470. *)
Lemma fit_end_k : forall {P Y} (o o' o1 o2 : fobjR P Y) s' X rep tcl build build' e e',
  fo_max_features o' = fo_max_features o -> fo_random_state o' = fo_random_state o -> fo_n_estimators o' = fo_n_estimators o -> fo_max_bins o' = fo_max_bins o ->
  fo_classes o' = fo_classes o -> fo_multiclass o' = fo_multiclass o ->
  (forall mf cats, tree_params_of o' mf cats = params_with_step (tree_params_of o mf cats) s') ->
  (forall mf enc fb t seed, ec_fit EC (fo_max_bins o) X = Ok enc ->
     let p := tree_params_of o mf (ec_cats EC enc) in
     rr (fun x x' => owrel k x x' /\ ob_step x = tp_step p /\ ob_step x' = s') (build p fb t seed) (build' (params_with_step p s') fb t seed)) ->
  fit_end ME o X rep tcl build = (o1, e) -> fit_end ME o' X rep tcl build' = (o2, e') ->
  e' = e /\ (e = None -> frel (fo_step o) s' o1 o2).
Proof.
  intros P Y o o' o1 o2 s' X rep tcl build build' e e' H1 H2 H3 H4 H5 H6 HP HB H H'. unfold fit_end, raise in H, H'. rewrite H1, H2, H3, H4 in H'.
  match type of H with (match ?m with _ => _ end) = _ => destruct m as [mf|e0] end; [|injection H as _ <-; injection H' as _ <-; split; [auto|discriminate]].
  match type of H with (match ?m with _ => _ end) = _ => destruct m as [rs|] end; [|injection H as _ <-; injection H' as _ <-; split; [auto|discriminate]].
  destruct (ec_fit EC (fo_max_bins o) X) as [enc|e0] eqn:Ee; [|injection H as _ <-; injection H' as _ <-; split; [auto|discriminate]]. cbn [bind] in H, H'.
  destruct (ec_transform EC enc X) as [fb|e0]; [|injection H as _ <-; injection H' as _ <-; split; [auto|discriminate]]. cbn [bind] in H, H'.
  rewrite HP in H'.
  match type of H with context [mapM ?f ?l] => match type of H' with context [mapM ?f' l] =>
    assert (HR : rr (Forall2 (fun x x' => owrel k x x' /\ ob_step x = fo_step o /\ ob_step x' = s')) (mapM f l) (mapM f' l)) end end.
  { apply rr_map. intros [t seed] _. apply (HB mf enc fb t seed eq_refl). }
  match type of H with context [mapM ?f ?l] => destruct (mapM f l) as [ts|e0] end;
  match type of H' with context [mapM ?f ?l] => destruct (mapM f l) as [ts'|e1] end; cbn [rr] in HR; try contradiction.
  - injection H as <- <-. injection H' as <- <-. split; [auto|]. intros _. constructor; cbn; auto.
  - subst e1. injection H as _ <-. injection H' as _ <-. split; [auto|discriminate].
Qed.

Theorem C72_regressor : forall (o o1 o2 : reg_forest R_arith L EC) s' X y (f f' : bool) l e e' w w',
  (fo_aggregation o = true -> (s' * k)%R = fo_step o) ->
  (forall enc, ec_fit EC (fo_max_bins o) X = Ok enc -> In true (ec_cats EC enc) -> comparison_sort E) ->
  reg_fit ME o X y (Some (f, l)) = ((o1, e), w) ->
  reg_fit ME (w_step o s') X y (Some (f', kl l)) = ((o2, e'), w') ->
  e' = e /\
  (e = None ->
   (forall order X', predict_reg order o2 X' = predict_reg order o1 X') /\
   (forall X', fapply o2 X' = fapply o1 X') /\
   ((s' * k)%R = fo_step o -> forall X', fweighted_depth o2 X' = fweighted_depth o1 X')).
Proof.
  intros o o1 o2 s' X y f f' l e e' w w' Hs Hc H H'. unfold reg_fit, raise in H, H'.
  destruct (negb (length y =? fst (ec_shape EC X))); [injection H as _ <- _; injection H' as _ <- _; split; [auto|discriminate]|].
  cbn [option_map snd check_weights] in H, H'. assert (Hl : @length (num R_arith) (kl l) = @length (num R_arith) l) by apply map_length.
  rewrite Hl in H'. destruct (length l =? fst (ec_shape EC X)); [|injection H as _ <- _; injection H' as _ <- _; split; [auto|discriminate]].
  injection H as H _. injection H' as H' _.
  destruct (fit_end_k o (w_step o s') o1 o2 s' X 1 0 _ _ e e' eq_refl eq_refl eq_refl eq_refl eq_refl eq_refl (fun _ _ => eq_refl) (fun mf enc fb t seed He =>
     build_k (reg_task E) (fun p w => @divM R_arith p w) _ _ _ _ (reg_scales k Hk) 0%R 0%R (tree_params_of o mf (ec_cats EC enc)) s' fb y l seed Hs
       (fun Hin => reg_orders_k k Hk (Hc enc He Hin))) H H') as [E1 E2].
  split; [exact E1|]. intros He. specialize (E2 He). split; [|split].
  - intros order X'. apply (predict_reg_k (fo_step o) s'). exact E2.
  - intros X'. apply (fapply_k (fo_step o) s'). exact E2.
  - intros Hst X'. apply (fdepth_k (fo_step o) s'); auto.
Qed.

Context (leb : L -> L -> bool).

Lemma balanced_k : forall (w : list R) (bw : list R), map (fun '(a, b) => @amul R_arith a b) (combine (kl w) bw) = kl (map (fun '(a, b) => @amul R_arith a b) (combine w bw)).
Proof.
  intros w. induction w as [|x w IH]; intros [|b bw]; cbn [map combine]; try reflexivity. rewrite IH. f_equal. cbn. ring.
Qed.
Lemma isz_k : forall d : R, @aisz R_arith (k * d)%R = @aisz R_arith d.
Proof.
  intros d. change (Risz (k * d) = Risz d). unfold Risz. destruct (Req_EM_T (k * d) 0) as [H1|H1], (Req_EM_T d 0) as [H2|H2]; auto; exfalso.
  - apply Rmult_integral in H1. lra.
  - apply H1. rewrite H2. ring.
Qed.

Theorem C72_classifier : forall (o o1 o2 : clf_forest R_arith L EC) s' d X y (f f' : bool) l e e' w w',
  fo_dirichlet o = Some d ->
  (fo_aggregation o = true -> (s' * k)%R = fo_step o) ->
  clf_fit leb ME o X y (Some (f, l)) = ((o1, e), w) ->
  clf_fit leb ME (w_dirichlet (w_step o s') (Some (k * d)%R)) X y (Some (f', kl l)) = ((o2, e'), w') ->
  e' = e /\
  (e = None ->
   fo_classes o2 = fo_classes o1 /\
   (forall small order X', predict_proba small order o2 X' = predict_proba small order o1 X') /\
   (forall small order X', predict_class small order o2 X' = predict_class small order o1 X') /\
   (forall X', predict_proba_trees o2 X' = predict_proba_trees o1 X') /\
   (forall X', fapply o2 X' = fapply o1 X')).
Proof.
  intros o o1 o2 s' d X y f f' l e e' w w' Hd Hs H H'.
  assert (Hend : e' = e /\ (e = None -> frel (fo_step o) s' o1 o2)).
  2: { destruct Hend as [E1 E2]. split; [exact E1|]. intros He. specialize (E2 He). split; [apply E2|].
       assert (HPr : forall small order X', predict_proba small order o2 X' = predict_proba small order o1 X') by (intros; apply (proba_k (fo_step o) s'); exact E2).
       split; [exact HPr|]. split; [|split].
       - intros small order X'. unfold predict_class. rewrite HPr, (fr_classes _ _ _ _ E2). reflexivity.
       - intros X'. apply (proba_trees_k (fo_step o) s'). exact E2.
       - intros X'. apply (fapply_k (fo_step o) s'). exact E2. }
  unfold clf_fit, raise in H, H'.
  destruct (negb (length y =? fst (ec_shape EC X))); [injection H as _ <- _; injection H' as _ <- _; split; [auto|discriminate]|].
  cbn [option_map snd check_weights] in H, H'. assert (Hl : @length (num R_arith) (kl l) = @length (num R_arith) l) by apply map_length.
  rewrite Hl in H'. destruct (length l =? fst (ec_shape EC X)); [|injection H as _ <- _; injection H' as _ <- _; split; [auto|discriminate]].
  set (codes := encode_labels leb (uniq leb y) y) in H, H'. set (classes := uniq leb y) in H, H'.
  assert (HM : forall (oo oo1 oo2 : clf_forest R_arith L EC) rep tcl n (yy : nat -> list nat) (ww ww' : nat -> list R) ee ee', (forall t, ww' t = kl (ww t)) -> fo_step oo = fo_step o -> fo_aggregation oo = fo_aggregation o ->
    fit_end ME oo X rep tcl (fun p fb t seed => build_tree ME (clf_task E n d (crit_of (fo_criterion o)) (fo_strategy o)) d p fb (yy t) (ww t) seed) = (oo1, ee) ->
    fit_end ME (w_dirichlet (w_step oo s') (Some (k * d)%R)) X rep tcl (fun p fb t seed => build_tree ME (clf_task E n (k * d)%R (crit_of (fo_criterion o)) (fo_strategy o)) (k * d)%R p fb (yy t) (ww' t) seed) = (oo2, ee') ->
    ee' = ee /\ (ee = None -> frel (fo_step o) s' oo1 oo2)).
  { intros oo oo1 oo2 rep tcl n yy ww ww' ee ee' Hww Hst Hag G G'. rewrite <- Hst.
    eapply fit_end_k; [..|exact G|exact G']; try reflexivity. intros mf enc fb t seed _ p. cbv beta. rewrite Hww.
    apply (build_k (clf_task E n d (crit_of (fo_criterion o)) (fo_strategy o)) (clf_pe k n d (crit_of (fo_criterion o)) (fo_strategy o)) _ _ _ _ (clf_scales k Hk n d _ _)).
    - change (fo_aggregation oo = true -> (s' * k)%R = fo_step oo). rewrite Hst, Hag. exact Hs.
    - intros _. apply clf_orders_k. exact Hk. }
  assert (HW : forall bal cc, (if bal : bool then map (fun '(a, b) => @amul R_arith a b) (combine (kl l) (@balanced R_arith cc)) else kl l) = kl (if bal then map (fun '(a, b) => @amul R_arith a b) (combine l (@balanced R_arith cc)) else l)).
  { intros [|] cc; [apply balanced_k|reflexivity]. }
  assert (Hmul : forall (oo oo1 oo2 : clf_forest R_arith L EC) ee ee' (v v' : list R), fo_step oo = fo_step o -> fo_aggregation oo = fo_aggregation o -> fo_criterion oo = fo_criterion o -> fo_strategy oo = fo_strategy o ->
    (fit_end ME oo X 1 (length classes) (fun p fb (_ : nat) seed => build_tree ME (clf_task E (length classes) d (crit_of (fo_criterion oo)) (fo_strategy oo)) d p fb codes
       (if fo_balanced oo then map (fun '(a, b) => @amul R_arith a b) (combine l (@balanced R_arith codes)) else l) seed), v) = ((oo1, ee), v') ->
    forall (u u' : list R), (fit_end ME (w_dirichlet (w_step oo s') (Some (k * d)%R)) X 1 (length classes) (fun p fb (_ : nat) seed => build_tree ME (clf_task E (length classes) (k * d)%R (crit_of (fo_criterion oo)) (fo_strategy oo)) (k * d)%R p fb codes
       (if fo_balanced oo then map (fun '(a, b) => @amul R_arith a b) (combine (kl l) (@balanced R_arith codes)) else kl l) seed), u) = ((oo2, ee'), u') ->
    ee' = ee /\ (ee = None -> frel (fo_step o) s' oo1 oo2)).
  { intros oo oo1 oo2 ee ee' v v' I1 I2 I3 I4 G u u' G'. rewrite I3, I4 in G, G'. injection G as G _. injection G' as G' _. 
    apply (HM oo oo1 oo2 1 (length classes) (length classes) (fun _ => codes) (fun _ => if fo_balanced oo then map (fun '(a, b) => @amul R_arith a b) (combine l (@balanced R_arith codes)) else l) (fun _ => if fo_balanced oo then map (fun '(a, b) => @amul R_arith a b) (combine (kl l) (@balanced R_arith codes)) else kl l) ee ee' (fun _ => HW _ _) I1 I2 G G'). }
  cbn [fo_multiclass w_step w_dirichlet] in H'.
  destruct (fo_multiclass o) eqn:Em; [|destruct (length classes <=? 2)].
  - cbn [fo_dirichlet fo_aggregation fo_multiclass w_classes w_step w_dirichlet] in H, H'. rewrite Hd, Em in *. rewrite isz_k in H'.
    destruct (fo_aggregation o && aisz d)%bool; [injection H as _ <- _; injection H' as _ <- _; split; [auto|discriminate]|].
    eapply (Hmul (w_classes o classes)); [reflexivity|reflexivity|reflexivity|reflexivity|exact H|exact H'].
  - unfold set_multiclass, raise in H, H'. cbn [fo_fitted w_classes w_step w_dirichlet as_str] in H, H'.
    destruct (fo_fitted o); [injection H as _ <- _; injection H' as _ <- _; split; [auto|discriminate]|]. cbn [String.eqb Ascii.eqb Bool.eqb] in H, H'.
    cbn [fo_dirichlet fo_aggregation fo_multiclass w_classes w_multiclass w_step w_dirichlet] in H, H'. rewrite Hd in *. rewrite isz_k in H'.
    destruct (fo_aggregation o && aisz d)%bool; [injection H as _ <- _; injection H' as _ <- _; split; [auto|discriminate]|].
    eapply (Hmul (w_multiclass (w_classes o classes) Multinomial)); [reflexivity|reflexivity|reflexivity|reflexivity|exact H|exact H'].
  - cbn [fo_dirichlet fo_aggregation fo_multiclass w_classes w_step w_dirichlet] in H, H'. rewrite Hd, Em in *. rewrite isz_k in H'.
    destruct (fo_aggregation o && aisz d)%bool; [injection H as _ <- _; injection H' as _ <- _; split; [auto|discriminate]|].
    injection H as H _. injection H' as H' _.
    apply (HM (w_classes o classes) o1 o2 (length classes) 2 2 (fun t => binarize codes (t / Z.to_nat (fo_n_estimators o)))
      (fun t => if fo_balanced o then map (fun '(a, b) => @amul R_arith a b) (combine l (@balanced R_arith (binarize codes (t / Z.to_nat (fo_n_estimators o))))) else l)
      (fun t => if fo_balanced o then map (fun '(a, b) => @amul R_arith a b) (combine (kl l) (@balanced R_arith (binarize codes (t / Z.to_nat (fo_n_estimators o))))) else kl l)
      e e' (fun _ => HW _ _) eq_refl eq_refl H H').
Qed.
End Scaling.

(** Without weights the weights are equal to 1, in any arithmetic. *)
Theorem C72_no_weights_regressor : forall {A : arith} {E : env A} {L D} {EC : encoding D} (ME : menv E) (o : reg_forest A L EC) X y f,
  fst (reg_fit ME o X y (Some (f, repeat a1 (length y)))) = fst (reg_fit ME o X y None).
Proof.
  intros A E L D EC ME o X y f. unfold reg_fit. destruct (Nat.eqb_spec (length y) (fst (ec_shape EC X))) as [Hl|Hl]; [|reflexivity]. cbn [negb option_map snd check_weights].
  rewrite repeat_length, Hl, Nat.eqb_refl. reflexivity.
Qed.
Theorem C72_no_weights_classifier : forall {A : arith} {E : env A} {L D} {EC : encoding D} (ME : menv E) leb (o : clf_forest A L EC) X y f,
  fst (clf_fit leb ME o X y (Some (f, repeat a1 (length y)))) = fst (clf_fit leb ME o X y None).
Proof.
  intros A E L D EC ME leb o X y f. unfold clf_fit. destruct (Nat.eqb_spec (length y) (fst (ec_shape EC X))) as [Hl|Hl]; [|reflexivity]. cbn [negb option_map snd check_weights].
  rewrite repeat_length, Hl, Nat.eqb_refl.
  match goal with |- context [let '(_, _) := ?m in _] => destruct m as [o2 [e|]] end; [reflexivity|]. destruct (fo_dirichlet o2); [|reflexivity].
  match goal with |- context [if ?m then _ else _] => destruct m end; [reflexivity|]. destruct (fo_multiclass o2); reflexivity.
Qed.
Print Assumptions C72_regressor.
Print Assumptions C72_classifier.
Print Assumptions C72_no_weights_regressor.
Print Assumptions C72_no_weights_classifier.
