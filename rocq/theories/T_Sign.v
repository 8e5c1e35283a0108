(** * Without aggregation no predicted probability is negative, with rounding errors

    T_Single.v shows that with aggregation a predicted probability can be negative in single
    precision. Without aggregation this cannot happen, in single or in double precision,
    whatever the C library computes for [log] and [exp]: only sums, products and quotients
    of numbers which are not negative are formed. *)

Require Import String Bool List Arith Lia NArith ZArith SpecFloat Permutation.
Require Import Verif.Base Verif.Num Verif.M_Bitarray Verif.P_Bitarray Verif.M_Utils Verif.M_Impurity Verif.M_Context Verif.M_Node Verif.M_Split
  Verif.M_Tree Verif.M_Grow Verif.M_Object Verif.M_Forest Verif.S_Fit Verif.S_Tree Verif.S_Split Verif.S_Object Verif.S_Node Verif.S_Params Verif.S_Forest
  Verif.P_List Verif.P_Task Verif.P_Node Verif.P_Grow Verif.P_Fit Verif.P_FitTree Verif.P_Nodes Verif.P_Route Verif.P_Stack Verif.P_Tree Verif.P_Repr Verif.P_Route Verif.T_Prune Verif.T_Setters Verif.T_Params Verif.P_Forest Verif.T_Forest.
Import ListNotations.
Local Open Scope list_scope.
Local Open Scope nat_scope.

(** ** A set of numbers closed under the operations *)

Record closed {A : arith} (nn : num A -> Prop) : Prop := {
  cl_0 : nn a0;
  cl_1 : nn a1;
  cl_nat : forall n, nn (aofnat n);
  cl_add : forall x y, nn x -> nn y -> nn (aadd x y);
  cl_mul : forall x y, nn x -> nn y -> nn (amul x y);
  cl_div : forall x y, nn x -> nn y -> nn (adiv x y)
}.

Section Closed.
Context {A : arith} (nn : num A -> Prop) (C : closed nn).
Notation T := (num A).

Lemma asum_nn_from : forall l s, nn s -> (forall x, In x l -> nn x) -> nn (fold_left aadd l s).
Proof. induction l as [|x l IH]; intros s Hs H; [exact Hs|]. cbn [fold_left]. apply IH; [apply (cl_add _ C); [exact Hs|apply H; simpl; auto]|intros; apply H; simpl; auto]. Qed.
Lemma asum_nn : forall l, (forall x, In x l -> nn x) -> nn (asum l).
Proof. intros l H. apply asum_nn_from; [apply (cl_0 _ C)|exact H]. Qed.

Lemma weight_nn : forall (w : list T) i, (forall x, In x w -> nn x) -> nn (weight w i).
Proof. intros w i H. unfold weight. destruct (nth_in_or_default i w a0) as [H1|H1]; [auto|rewrite H1; apply (cl_0 _ C)]. Qed.

Lemma total_nn : forall (w : list T) l, (forall x, In x w -> nn x) -> nn (total_weight w l).
Proof. intros w l H. unfold total_weight. apply asum_nn. intros x Hx. apply in_map_iff in Hx. destruct Hx as (i & <- & _). apply weight_nn. exact H. Qed.

Lemma freq_nn : forall (w : list T) K d y l k, (forall x, In x w -> nn x) -> nn d -> nn (smoothed_freq w K d y l k).
Proof.
  intros w K d y l k H Hd. unfold smoothed_freq. apply (cl_div _ C).
  - apply (cl_add _ C); [apply total_nn; exact H|exact Hd].
  - apply (cl_add _ C); [apply total_nn; exact H|]. apply (cl_mul _ C); [apply (cl_nat _ C)|exact Hd].
Qed.

(** A tree. *)
Lemma tree_nn : forall (E : env A) K d crit st p fb y train valid w s tc g,
  good_env E -> valid_fit p fb y train valid w -> valid_labels K st (tp_is_categorical p) y ->
  (forall x, In x w -> nn x) -> nn d ->
  tree_fit (clf_task E K d crit st) p fb y train valid w s = Ok (tc, g) ->
  forall fb' i step mix v, fba_wf fb' -> i < fb_n_samples fb' -> fb_n_features fb' = fb_n_features fb ->
  predict_one mix (g_tree g) fb' false step i = Ok v ->
  forall x, In x v -> nn x.
Proof.
  intros E K d crit st p fb y train valid w s tc g HE V HL HW Hd Hfit fb' i step mix v Hwf Hi Hnf Hv x Hx.
  destruct (clf_inv K d crit st p fb y train valid w s tc g HE V HL Hfit) as (b0 & _ & CC & Htr & Hva & F).
  rewrite <- (cc_fb _ _ _ _ _ _ CC) in Hnf. unfold predict_one in Hv.
  rewrite (find_leaf_fitted (clf_shape E K d crit st) tc train valid s g b0 F fb' i Hwf Hi Hnf) in Hv. cbn [bind] in Hv.
  set (leaf := bleaf _ b0 root_place) in *.
  assert (HI : inside b0 root_place (fst leaf) (snd leaf)) by apply bleaf_inside.
  pose proof (inside_node (clf_shape E K d crit st) tc train valid s g b0 F _ _ HI) as Hn.
  destruct (C17_tree_classification K d crit st p fb y train valid w s tc g HE V HL Hfit _ _ Hn)
    as (f & u & _ & _ & _ & _ & _ & N2 & Hl & Hk & _).
  unfold get in Hv. change (list (num A)) with (tk_P (clf_task E K d crit st)) in Hv. rewrite N2 in Hv. cbn [bind] in Hv. inversion Hv; subst v; clear Hv.
  destruct (In_nth_error _ _ Hx) as (k & Ek).
  assert (HkK : k < K) by (rewrite <- Hl; apply nth_error_Some; intros Hcontra; pose proof (eq_trans (eq_sym Ek) Hcontra); discriminate).
  specialize (Hk k HkK). unfold get in Hk. rewrite Ek in Hk. inversion Hk. apply freq_nn; auto.
Qed.

(** The weights given to a tree. *)
Lemma upd_nn : forall (l : list T) i x, (forall z, In z l -> nn z) -> nn x -> forall z, In z (upd l i x) -> nn z.
Proof.
  induction l as [|a l IH]; intros i x H Hx z Hz; [destruct i; destruct Hz|].
  destruct i as [|i]; destruct Hz as [<-|Hz].
  - exact Hx.
  - apply H; simpl; auto.
  - apply H; simpl; auto.
  - eapply IH; [|exact Hx|exact Hz]. intros; apply H; simpl; auto.
Qed.

Lemma set_nn : forall (l : list T) i x l', (forall z, In z l -> nn z) -> nn x -> set l i x = Ok l' -> forall z, In z l' -> nn z.
Proof. intros l i x l' H Hx E. unfold set in E. destruct (i <? length l); inversion E; subst. apply upd_nn; auto. Qed.

Lemma get_nn : forall (l : list T) i x, (forall z, In z l -> nn z) -> get l i = Ok x -> nn x.
Proof. intros l i x H E. unfold get in E. destruct (nth_error l i) eqn:E1; inversion E; subst. apply H. eapply nth_error_In; eauto. Qed.

Lemma boot_nn : forall train counts (w w' : list T), (forall x, In x w -> nn x) -> bootstrap_weights w train counts = Ok w' ->
  forall x, In x w' -> nn x.
Proof.
  intros train counts. unfold bootstrap_weights. generalize (combine train counts) as l.
  induction l as [|[i c] l IH]; intros w w' H E; cbn [foldM] in E; [inversion E; subst; exact H|].
  apply bind_ok in E. destruct E as (w1 & E1 & E2). apply bind_ok in E1. destruct E1 as (x & Ex & E1).
  apply (IH w1 w'); [|exact E2]. eapply set_nn; [exact H| |exact E1]. apply (cl_mul _ C); [eapply get_nn; eauto|apply (cl_nat _ C)].
Qed.

Lemma check_nn : forall n sw (w : list T), check_weights n sw = Ok w -> match sw with None => True | Some l => forall x, In x l -> nn x end ->
  forall x, In x w -> nn x.
Proof.
  intros n [l|] w H Hp; cbn [check_weights] in H.
  - destruct (length l =? n); inversion H; subst. exact Hp.
  - inversion H; subst. intros x Hx. apply repeat_spec in Hx. subst x. apply (cl_1 _ C).
Qed.

Lemma clf_weights_nn : forall {L D} {EC : encoding D} (o2 : clf_forest A L EC) w codes, (forall x, In x w -> nn x) ->
  forall x, In x (clf_weights o2 w codes) -> nn x.
Proof.
  intros L D EC o2 w codes H x Hx. unfold clf_weights in Hx. destruct (fo_balanced o2); [|auto].
  apply in_map_iff in Hx. destruct Hx as ([a b] & <- & Hab). apply (cl_mul _ C).
  - apply H. eapply in_combine_l; eauto.
  - apply in_combine_r in Hab. unfold balanced in Hab. apply in_map_iff in Hab. destruct Hab as (k & <- & _). unfold balanced_weight.
    apply (cl_div _ C); [apply (cl_nat _ C)|]. apply (cl_mul _ C); apply (cl_nat _ C).
Qed.

(** Averages over the trees. *)
Definition rows_nn (m : list (list T)) : Prop := forall row x, In row m -> In x row -> nn x.

Lemma zip_nn : forall (l r z : list T), (forall x, In x l -> nn x) -> (forall x, In x r -> nn x) -> zipM aadd l r = Ok z -> forall x, In x z -> nn x.
Proof.
  induction l as [|a l IH]; intros [|b r] z Hl Hr E; cbn [zipM] in E; try discriminate.
  - inversion E; subst. intros x [].
  - apply bind_ok in E. destruct E as (z1 & E1 & E). inversion E; subst. intros x [<-|Hx].
    + apply (cl_add _ C); [apply Hl|apply Hr]; simpl; auto.
    + eapply IH; [| |exact E1|exact Hx]; intros; [apply Hl|apply Hr]; simpl; auto.
Qed.

Lemma add_nn : forall n ovr t row p z, (forall x, In x row -> nn x) -> (forall x, In x p -> nn x) ->
  add_proba n ovr t row p = Ok z -> forall x, In x z -> nn x.
Proof.
  intros n [|] t row p z H1 H2 E; cbn [add_proba] in E; [|exact (zip_nn _ _ _ H1 H2 E)].
  apply bind_ok in E. destruct E as (v & Ev & E). unfold add_at in E. apply bind_ok in E. destruct E as (u & Eu & E).
  refine (set_nn row _ _ z H1 _ E). apply (cl_add _ C); [exact (get_nn _ _ _ H1 Eu)|exact (get_nn _ _ _ H2 Ev)].
Qed.

Lemma add_all_nn : forall n ovr t out preds out', rows_nn out -> rows_nn preds ->
  mapM (fun '(q, p) => add_proba n ovr t q p) (combine out preds) = Ok out' -> rows_nn out'.
Proof.
  intros n ovr t. induction out as [|q out IH]; intros [|p preds] out' H1 H2 E; cbn [combine mapM] in E; try (inversion E; subst; intros r x []).
  apply bind_ok in E. destruct E as (z & Ez & E). apply bind_ok in E. destruct E as (zs & Ezs & E). inversion E; subst.
  intros row x [<-|Hr] Hx.
  - eapply add_nn; [| |exact Ez|exact Hx]; intros; [eapply H1|eapply H2]; eauto; simpl; auto.
  - eapply (IH preds zs); [| |exact Ezs|exact Hr|exact Hx]; intros r u Hr' Hu; [eapply H1|eapply H2]; eauto; simpl; auto.
Qed.

Lemma accumulate_nn : forall n ovr (ts : list (tobj A (list T) nat)) fb order K out,
  (forall t preds, In t ts -> obj_predict mix_vec t fb = Ok preds -> rows_nn preds) ->
  accumulate_proba n ovr ts fb order K = Ok out -> rows_nn out.
Proof.
  intros n ovr ts fb order K out HT. unfold accumulate_proba.
  assert (H0 : rows_nn (repeat (repeat a0 K) (fb_n_samples fb))).
  { intros row x Hr Hx. apply repeat_spec in Hr. subst row. apply repeat_spec in Hx. subst x. apply (cl_0 _ C). }
  revert H0. generalize (repeat (repeat (@a0 A) K) (fb_n_samples fb)) as out0.
  induction order as [|t order IH]; intros out0 H0 E; cbn [foldM] in E; [inversion E; subst; exact H0|].
  apply bind_ok in E. destruct E as (out1 & E1 & E2). apply (IH out1); [|exact E2].
  apply bind_ok in E1. destruct E1 as (tr & Et & E1). apply bind_ok in E1. destruct E1 as (preds & Ep & E1).
  destruct (negb _); [discriminate|]. eapply add_all_nn; [exact H0| |exact E1]. eapply HT; [|exact Ep].
  unfold get in Et. destruct (nth_error ts t) eqn:En; inversion Et; subst. eapply nth_error_In; eauto.
Qed.

(** A tree as an object, fitted without aggregation. *)
Lemma obj_nn : forall (E : env A) K d crit st p fb y train valid w s obj,
  good_env E -> valid_fit p fb y train valid w -> valid_labels K st (tp_is_categorical p) y ->
  (forall x, In x w -> nn x) -> nn d -> tp_aggregation p = false ->
  clf_obj_fit E K d crit st p fb y train valid w s = Ok obj ->
  forall fb' pt, fba_wf fb' -> fb_n_features fb' = fb_n_features fb ->
  obj_predict mix_vec obj fb' = Ok pt -> rows_nn pt.
Proof.
  intros E K d crit st p fb y train valid w s obj HE V HL HW Hd Ha H fb' pt Hwf Hnf Hp row x Hr Hx.
  unfold clf_obj_fit, obj_fit in H. apply bind_ok in H. destruct H as ([tc g] & Hfit & H). inversion H; subst obj; clear H.
  unfold obj_predict in Hp. cbn [ob_tree ob_aggregation ob_step] in Hp. unfold tree_predict in Hp. rewrite Ha in Hp.
  apply mapM_Forall2 in Hp.
  assert (HI : exists i, In i (seq 0 (fb_n_samples fb')) /\ predict_one mix_vec (g_tree g) fb' false (tp_step p) i = Ok row).
  { clear - Hp Hr. induction Hp as [|i r l rs H1 H2 IH]; [destruct Hr|]. destruct Hr as [<-|Hr].
    - exists i. split; [simpl; auto|exact H1].
    - destruct (IH Hr) as (j & J1 & J2). exists j. split; [simpl; auto|exact J2]. }
  destruct HI as (i & Hi & Hone). apply in_seq in Hi.
  eapply (tree_nn E K d crit st p fb y train valid w s tc g); eauto. lia.
Qed.
End Closed.

(** ** Rounded numbers without a minus sign *)

Definition unsigned (x : spec_float) : Prop :=
  match x with S754_zero s | S754_infinity s | S754_finite s _ _ => s = false | S754_nan => True end.

Lemma unsigned_not_negative : forall x, unsigned x -> SFltb x (S754_zero false) = false.
Proof. intros [s|s| |s m e] H; simpl in H; subst; reflexivity. Qed.

Section Rounded.
Context (prec emax : Z).

Lemma round_aux_unsigned : forall m e l, unsigned (binary_round_aux prec emax false m e l).
Proof.
  intros m e l. unfold binary_round_aux. destruct (shr_fexp prec emax m e l) as [r1 e1].
  destruct (shr_fexp prec emax _ e1 loc_Exact) as [r2 e2].
  destruct (shr_m r2) as [|q|q]; simpl; auto. destruct (Z.leb e2 (emax - prec)); reflexivity.
Qed.

Lemma normalize_unsigned : forall m e, (0 <= m)%Z -> unsigned (binary_normalize prec emax m e false).
Proof.
  intros [|m|m] e H; [reflexivity| |lia]. cbn [binary_normalize]. unfold binary_round.
  destruct (shl_align m e _) as [mz ez]. apply round_aux_unsigned.
Qed.

Lemma ofZ_unsigned : forall z, (0 <= z)%Z -> unsigned (sf_ofZ prec emax z).
Proof. intros [|z|z] H; [reflexivity|apply normalize_unsigned; lia|lia]. Qed.

Lemma add_unsigned : forall x y, unsigned x -> unsigned y -> unsigned (SFadd prec emax x y).
Proof.
  intros [s|s| |s m e] [s'|s'| |s' m' e'] H H'; simpl in H, H'; subst; try exact I; try reflexivity.
  cbn [SFadd]. apply normalize_unsigned. cbn [cond_Zopp]. lia.
Qed.

Lemma mul_unsigned : forall x y, unsigned x -> unsigned y -> unsigned (SFmul prec emax x y).
Proof.
  intros [s|s| |s m e] [s'|s'| |s' m' e'] H H'; simpl in H, H'; subst; try exact I; try reflexivity.
  cbn [SFmul xorb]. apply round_aux_unsigned.
Qed.

Lemma div_unsigned : forall x y, unsigned x -> unsigned y -> unsigned (SFdiv prec emax x y).
Proof.
  intros [s|s| |s m e] [s'|s'| |s' m' e'] H H'; simpl in H, H'; subst; try exact I; try reflexivity.
  cbn [SFdiv xorb]. destruct (SFdiv_core_binary prec emax (Z.pos m) e (Z.pos m') e') as [[mz ez] lz]. apply round_aux_unsigned.
Qed.

Lemma unsigned_closed : forall lnf expf, @closed (spec_arith prec emax lnf expf) unsigned.
Proof.
  intros lnf expf. constructor.
  - reflexivity.
  - apply ofZ_unsigned. lia.
  - intros n. apply ofZ_unsigned. lia.
  - apply add_unsigned.
  - apply mul_unsigned.
  - apply div_unsigned.
Qed.

Lemma positive_unsigned : forall lnf expf (x : num (spec_arith prec emax lnf expf)), altb a0 x = true -> unsigned x.
Proof. intros lnf expf [s|[|]| |[|] m e] H; try discriminate H; reflexivity. Qed.

End Rounded.

(** ** The theorems *)

(** Positive weights (of the rows of the tree) and a positive [dirichlet]: for every
    precision, every C library, every data set, every fitted tree, every row. *)
Theorem C34_rounded_tree : forall prec emax lnf expf (E : env (spec_arith prec emax lnf expf)) K dirichlet crit st p fb y train valid weights s tc g,
  good_env E -> valid_fit p fb y train valid weights -> valid_labels K st (tp_is_categorical p) y ->
  (forall w, In w weights -> altb a0 w = true) -> altb a0 dirichlet = true ->
  tree_fit (clf_task E K dirichlet crit st) p fb y train valid weights s = Ok (tc, g) ->
  forall fb' i step v, fba_wf fb' -> i < fb_n_samples fb' -> fb_n_features fb' = fb_n_features fb ->
  predict_one mix_vec (g_tree g) fb' false step i = Ok v ->
  forall x, In x v -> SFltb x (S754_zero false) = false.
Proof.
  intros prec emax lnf expf E K d crit st p fb y train valid w s tc g HE V HL HW Hd Hfit fb' i step v Hwf Hi Hnf Hv x Hx.
  apply unsigned_not_negative.
  apply (tree_nn (A := spec_arith prec emax lnf expf) unsigned (unsigned_closed prec emax lnf expf) E K d crit st p fb y train valid w s tc g HE V HL
    (fun z Hz => positive_unsigned prec emax lnf expf z (HW z Hz)) (positive_unsigned prec emax lnf expf d Hd) Hfit fb' i step mix_vec v Hwf Hi Hnf Hv x Hx).
Qed.
Print Assumptions C34_rounded_tree.

Section Forests.
Context {prec emax : Z} {lnf expf : spec_float -> spec_float}.
Let A : arith := spec_arith prec emax lnf expf.
Context {E : env A} {L D : Type} {EC : encoding D} (ME : menv E) (float : num A -> Prop).
Context (GM : good_menv float ME) (GE : good_env E) (GK : good_encoding EC).

(** A forest fitted with [aggregation=False], in multinomial or one-versus-rest mode, with or
    without class weights; any threshold below which scores are taken for zero, any order
    of the threads. *)
Theorem C34_rounded_forest : forall leb (HO : total_order leb) (o o1 : clf_forest A L EC) X y sw c,
  legal float o -> enough_classes leb o X y -> fo_aggregation o = false ->
  match sw with None => True | Some (_, w) => forall x, In x w -> altb a0 x = true end ->
  (forall d, fo_dirichlet o = Some d -> altb a0 d = true) ->
  clf_fit leb ME o X y sw = ((o1, None), c) ->
  forall X' enc fb', fo_encoder o1 = Some enc -> ec_transform EC enc X' = Ok fb' ->
  forall small order rows, predict_proba small order o1 X' = Ok rows ->
  forall row x, In row rows -> In x row -> SFltb x (S754_zero false) = false.
Proof.
  intros leb HO o o1 X y sw c HL HC Hagg HW Hd H X' enc0 fb' Henc Ht' small order rows Hrows row x Hr Hx.
  apply unsigned_not_negative. pose proof (unsigned_closed prec emax lnf expf) as C. fold A in C.
  destruct (clf_fit_trees ME float GM GK leb HO o o1 X y sw c HL HC H) as (w & d & mf & rs & enc & fb & ts & H1 & Hy & Hw & Hdd & Hrs & Ha & He & Ht & PK & AL & HT).
  cbv zeta in *. set (o2 := clf_ready leb o y) in *.
  assert (Ho2 : fo_aggregation o2 = false).
  { unfold o2, clf_ready. destruct (fo_multiclass o); [exact Hagg|]. destruct (length (uniq leb y) <=? 2); exact Hagg. }
  subst o1. cbn [fo_encoder fitted_as w_fitted w_trees w_encoder] in Henc. injection Henc as <-.
  destruct (gk_packed _ GK _ _ _ _ _ He Ht') as (K1 & K2 & K3 & K4). destruct (gk_packed _ GK _ _ _ _ _ He Ht) as (_ & _ & K5 & K6).
  assert (HTS : forall t preds, In t ts -> obj_predict mix_vec t fb' = Ok preds -> rows_nn (A := A) unsigned preds).
  { intros t preds Hin Hp.
    assert (HF : Forall (fun t => forall preds, obj_predict mix_vec t fb' = Ok preds -> rows_nn (A := A) unsigned preds) ts).
    { apply (Forall2_same _ _ _ HT). intros z obj _ (train & valid & counts & w' & B1 & B2 & B3 & V & VL & Hne) pt Hpt.
      eapply (obj_nn (A := A) unsigned C E (clf_k o2) d); [exact GE|exact V|exact VL| | | |exact B3| | |exact Hpt].
      - eapply (boot_nn (A := A) unsigned C); [|exact B2]. apply (clf_weights_nn (A := A) unsigned C). eapply (check_nn (A := A) unsigned C); [exact Hw|].
        destruct sw as [[b l]|]; [|exact I]. intros u Hu. apply (positive_unsigned prec emax lnf expf). apply HW. exact Hu.
      - apply (positive_unsigned prec emax lnf expf). apply Hd. exact Hdd.
      - exact Ho2.
      - apply (pk_layout _ K1).
      - congruence. }
    rewrite Forall_forall in HF. apply (HF t Hin preds Hp). }
  unfold predict_proba in Hrows. rewrite fitted_as_helper, Ht' in Hrows. cbn [bind] in Hrows.
  cbn [fo_fitted fitted_as w_fitted negb fo_multiclass fo_n_estimators fo_classes w_trees w_encoder w_seeds] in Hrows.
  destruct (fo_multiclass o2).
  - apply bind_ok in Hrows. destruct Hrows as (out & Eo & Hrows). inversion Hrows; subst rows; clear Hrows.
    apply (accumulate_nn (A := A) unsigned C _ _ ts fb' _ _ _ HTS) in Eo.
    apply in_map_iff in Hr. destruct Hr as (r0 & <- & Hr0). apply in_map_iff in Hx. destruct Hx as (z & <- & Hz).
    apply (cl_div _ C); [apply (Eo r0 z Hr0 Hz)|apply (cl_nat _ C)].
  - apply bind_ok in Hrows. destruct Hrows as (out & Eo & Hrows). inversion Hrows; subst rows; clear Hrows.
    apply (accumulate_nn (A := A) unsigned C _ _ ts fb' _ _ _ HTS) in Eo.
    apply in_map_iff in Hr. destruct Hr as (r0 & <- & Hr0). unfold normalise_ovr in Hx. cbv zeta in Hx.
    destruct (small (@asum A r0)).
    + apply repeat_spec in Hx. subst x. apply (cl_div _ C); [apply (cl_1 _ C)|apply (cl_nat _ C)].
    + apply in_map_iff in Hx. destruct Hx as (z & <- & Hz). apply (cl_div _ C); [apply (Eo r0 z Hr0 Hz)|].
      apply (asum_nn (A := A) unsigned C). intros u Hu. apply (Eo r0 u Hr0 Hu).
Qed.
End Forests.
Print Assumptions C34_rounded_forest.
