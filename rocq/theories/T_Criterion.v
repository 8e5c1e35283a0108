(** * C18 for whole forests: the splits are the best ones for the criterion the user chose *)

Require Import String Bool List Arith Lia NArith ZArith Reals Lra Permutation.
Require Import Verif.Base Verif.Num Verif.M_Bitarray Verif.P_Bitarray Verif.M_Utils Verif.M_Impurity Verif.M_Context Verif.M_Node Verif.M_Split
  Verif.M_Tree Verif.M_Grow Verif.M_Object Verif.M_Forest Verif.S_Fit Verif.S_Tree Verif.S_Split Verif.S_Object Verif.S_Impurity Verif.S_Params Verif.S_Forest
  Verif.S_Prune Verif.S_Trained Verif.P_Impurity Verif.P_List Verif.T_Grow Verif.T_GrowR Verif.T_Setters Verif.T_Bootstrap Verif.T_Params
  Verif.P_Forest Verif.P_ForestR Verif.T_Forest Verif.T_ForestR Verif.T_Trained
  Verif.Ex_Data Verif.Ex_Valid Verif.Ex_R Verif.Ex_Forest.
Import ListNotations.
Local Open Scope list_scope.
Local Open Scope nat_scope.

(** ** The specification *)

(** The names of the criteria. *)
Definition names_criterion (s : string) (c : criterion) : Prop :=
  (s = "gini"%string /\ c = Gini) \/ (s = "entropy"%string /\ c = Entropy).

(** At every node that was split: [n_tried] features were tried on the samples of the node,
    which [ps] lists; the split taken is one of those offered by them, its children record
    the impurities of their samples, and no split offered has a larger gain. [categorical]
    says which subsets of the bins of a categorical feature are offered. *)
Definition best_splits {E : env R_arith} (tk : task R_arith E) (fb : fba) (cats : list bool) (n_tried min_leaf : nat) (aggregation : bool)
  (w : list R) (impurity : list nat -> R) (categorical : nat -> list nat -> ((nat -> bool) -> Prop) -> Prop)
  (tree : M_Tree.tree R_arith (tk_P tk)) (ps : parts) : Prop :=
  forall id n, node_at tree id n -> nd_is_leaf n = false ->
  exists features here hereV lt lv l r ln rn (sp : split tk),
    NoDup features /\ length features = n_tried /\ (forall j, In j features -> j < fb_n_features fb) /\
    slice (p_train ps) (nd_start_train n) (nd_end_train n) = Ok lt /\ Permutation lt here /\
    slice (p_valid ps) (nd_start_valid n) (nd_end_valid n) = Ok lv /\ Permutation lv hereV /\
    nd_feature n = Some (sp_feature sp) /\ nd_is_cat n = sp_is_cat sp /\
    (forall b left, goes_left _ sp b = Ok left -> left_at tree n b left) /\
    nd_left n = Some l /\ nd_right n = Some r /\ node_at tree l ln /\ node_at tree r rn /\
    nd_impurity ln = Some (sp_imp_left sp) /\ nd_impurity rn = Some (sp_imp_right sp) /\
    describes_its_cut fb cats w min_leaf aggregation features here hereV impurity sp /\
    (forall j t, In j features -> nth_error cats j = Some false -> bin_present fb j here t ->
       at_least_as_good fb w min_leaf aggregation here hereV impurity sp j (fun b => b <=? t)) /\
    (forall j, In j features -> nth_error cats j = Some true ->
       (exists t, bin_present fb j here t /\ exists t', bin_present fb j here t' /\ t <> t') ->
       categorical j here (at_least_as_good fb w min_leaf aggregation here hereV impurity sp j)).

(** The first bins, for each length, in the order of the proportion of each class that the
    strategy looks at. *)
Definition class_prefixes (fb : fba) (st : cat_strategy) (K : nat) (w : list R) (codes : list nat) (j : nat) (here : list nat) (good : (nat -> bool) -> Prop) : Prop :=
  exists ks, ordering_classes st K ks /\ forall k, In k ks ->
  exists order, sorted_bins fb j here (class_proportion fb w codes here j k) order /\ forall q r, order = q ++ r -> good (bins_in q).
(** The first bins in the order of the sum of the labels. *)
Definition label_prefixes (fb : fba) (w y : list R) (j : nat) (here : list nat) (good : (nat -> bool) -> Prop) : Prop :=
  exists order, sorted_bins fb j here (bin_label_sum fb w y here j) order /\ forall q r, order = q ++ r -> good (bins_in q).

(** ** The theorems *)

Lemma reg_tried : forall {A : arith} {E : env A} {L D : Type} {EC : encoding D} (ME : menv E) (o o1 : reg_forest A L EC) X y sw c,
  reg_fit ME o X y sw = ((o1, None), c) ->
  exists w mf rs enc fb ts, length y = fst (ec_shape EC X) /\ check_weights (fst (ec_shape EC X)) (option_map snd sw) = Ok w /\
    get_max_features ME (fo_max_features o) (snd (ec_shape EC X)) = Ok mf /\ ec_fit EC (fo_max_bins o) X = Ok enc /\ ec_transform EC enc X = Ok fb /\
    Forall2 (fun ts t => build_tree ME (reg_task E) a0 (tree_params_of o mf (ec_cats EC enc)) fb y w (snd ts) = Ok t)
      (combine (seq 0 (length (all_seeds ME o rs 1))) (all_seeds ME o rs 1)) ts /\
    o1 = fitted_as o (all_seeds ME o rs 1) enc ts 0.
Proof.
  intros A E L D EC ME o o1 X y sw c H. unfold reg_fit, raise in H.
  destruct (Nat.eqb_spec (length y) (fst (ec_shape EC X))) as [Hy|Hy]; cbn [negb] in *; [|inversion H].
  destruct (check_weights (fst (ec_shape EC X)) (option_map snd sw)) as [w|e] eqn:Hw; [|inversion H]. injection H as H Hc.
  destruct (fit_end_inv ME _ _ _ _ _ _ H) as (mf & rs & enc & fb & ts & H1 & H2 & He & Ht & HT & H6).
  exists w, mf, rs, enc, fb, ts. repeat (split; [first [assumption|reflexivity]|]). exact H6.
Qed.

Section Forests.
Context {E : env R_arith} {L D : Type} {EC : encoding D} (ME : menv E) (float : num R_arith -> Prop).
Context (GM : good_menv float ME) (GE : good_env E) (GK : good_encoding EC) (HS : sorts E).

Lemma fit_tried : forall leb (o o1 : clf_forest R_arith L EC) X y sw c,
  total_order leb -> legal float o -> enough_classes leb o X y -> clf_fit leb ME o X y sw = ((o1, None), c) ->
  exists w d mf rs enc fb ts, let o2 := clf_ready leb o y in let p := tree_params_of o2 mf (ec_cats EC enc) in
    o1 = fitted_as o2 (all_seeds ME o2 rs (clf_repeats o2)) enc ts (clf_k o2) /\
    length y = fst (ec_shape EC X) /\ check_weights (fst (ec_shape EC X)) (option_map snd sw) = Ok w /\ fo_dirichlet o = Some d /\
    get_max_features ME (fo_max_features o) (snd (ec_shape EC X)) = Ok mf /\
    ec_fit EC (fo_max_bins o) X = Ok enc /\ ec_transform EC enc X = Ok fb /\
    Forall2 (fun ts obj => let t := fst ts in let seed := snd ts in
      exists train valid counts w', generate_train_valid (me_limit ME) (me_randint ME) seed (fb_n_samples fb) = Ok (train, valid, counts) /\
      bootstrap_weights (clf_weights o2 w (clf_codes leb o2 y t)) train counts = Ok w' /\
      clf_obj_fit E (clf_k o2) d (crit_of (fo_criterion o2)) (fo_strategy o2) p fb (clf_codes leb o2 y t) train valid w' (me_seed ME seed) = Ok obj /\
      valid_fit p fb (clf_codes leb o2 y t) train valid w' /\
      valid_labels (clf_k o2) (fo_strategy o2) (tp_is_categorical p) (clf_codes leb o2 y t) /\ train <> [])
      (combine (seq 0 (length (all_seeds ME o2 rs (clf_repeats o2)))) (all_seeds ME o2 rs (clf_repeats o2))) ts.
Proof.
  intros leb o o1 X y sw c HO HL HC H.
  destruct (clf_fit_conds leb ME o X y sw o1 c H) as (w & d & C1 & C2 & C3 & C4 & C5).
  rewrite (clf_fit_eq leb ME o X y sw w d C1 C2 C3 C4 C5) in H. injection H as H Hc.
  destruct (fit_end_inv ME _ _ _ _ _ _ H) as (mf & rs & enc & fb & ts & H1 & H2 & H3 & H4 & H5 & H6).
  destruct (clf_ready_same leb o y) as (Q1 & Q2 & Q3 & Q4 & Q5 & Q6 & Q7 & Q8 & Q9 & Q10 & Q11 & Q12 & Q13).
  exists w, d, mf, rs, enc, fb, ts. cbv zeta. split; [exact H6|].
  assert (H1' := H1). rewrite Q2 in H1'. assert (H3' := H3). rewrite Q12 in H3'. repeat (split; [assumption|]).
  set (seeds := all_seeds ME _ _ _) in *. clearbody seeds. clear - H5 C1 C2 HL HC HO H1 H3 H4 GM GE GK.
  induction H5 as [|[t seed] obj l r Hb Hl IH]; constructor; [|exact IH]. cbn [fst snd] in *. cbv zeta.
  apply (clf_fit_call ME float GM GK leb HO o X y w d mf enc fb t seed obj); auto. apply check_weights_length in C2. congruence.
Qed.

Theorem C18_forest_classifier : forall leb (o o1 : clf_forest R_arith L EC) X y sw c crit,
  total_order leb -> legal float o -> enough_classes leb o X y -> positive_sample_weights sw ->
  (forall d, fo_dirichlet o = Some d -> (0 <= d)%R) -> names_criterion (fo_criterion o) crit ->
  clf_fit leb ME o X y sw = ((o1, None), c) ->
  let n := length y in let classes := fo_classes o1 in
  exists enc fb ts dirichlet n_tried, fo_encoder o1 = Some enc /\ ec_transform EC enc X = Ok fb /\ fo_trees o1 = Some ts /\
  fo_dirichlet o = Some dirichlet /\ get_max_features ME (fo_max_features o) (snd (ec_shape EC X)) = Ok n_tried /\
  forall t obj, nth_error ts t = Some obj ->
  exists codes draws w tree ctx, ob_tree obj = Some tree /\ ob_ctx obj = Some ctx /\
    (* its labels *)
    match fo_multiclass o1 with
    | Multinomial => positions_of classes y codes
    | Ovr => one_versus_rest classes y (t / Z.to_nat (fo_n_estimators o)) codes
    end /\
    (* its rows and their weights *)
    bootstrap draws n /\ Permutation (p_train (cx_parts ctx)) (in_bag draws n) /\ Permutation (p_valid (cx_parts ctx)) (out_of_bag draws n) /\
    length w = n /\ (forall i, i < n -> nth i w 0%R = @tree_weight R_arith draws (row_weight (fo_balanced o) (option_map snd sw) codes) i) /\
    (* its splits *)
    let K := match fo_multiclass o1 with Multinomial => length classes | Ovr => 2 end in
    best_splits (clf_task E K dirichlet crit (fo_strategy o)) fb (ec_cats EC enc) (Z.to_nat n_tried) (Z.to_nat (fo_min_samples_leaf o)) (fo_aggregation o)
      w (clf_impurity w crit K codes) (class_prefixes fb (fo_strategy o) K w codes) tree (cx_parts ctx).
Proof.
  intros leb o o1 X y sw c crit HO HL HC HW Hd Hcrit H n classes.
  destruct (fit_tried leb o o1 X y sw c HO HL HC H) as (w & d & mf & rs & enc & fb & ts & H1 & Hy & Hw & Hdd & Hmf & He & Ht & HT).
  cbv zeta in *. set (o2 := clf_ready leb o y) in *.
  destruct (clf_ready_same leb o y) as (Q1 & Q2 & Q3 & Q4 & Q5 & Q6 & Q7 & Q8 & Q9 & Q10 & Q11 & Q12 & Q13). fold o2 in Q1, Q2, Q3, Q4, Q5, Q6, Q7, Q8, Q9, Q10, Q11, Q12, Q13.
  destruct (gk_packed _ GK _ _ _ _ _ He Ht) as (_ & _ & K3 & K4).
  assert (Hm : fo_multiclass o1 = fo_multiclass o2) by (subst o1; reflexivity).
  assert (Hcl : fo_classes o1 = uniq leb y) by (subst o1; exact Q1).
  assert (Ecrit : crit_of (fo_criterion o2) = crit).
  { rewrite Q10. destruct Hcrit as [[-> ->]|[-> ->]]; reflexivity. }
  assert (HK : match fo_multiclass o1 with Multinomial => length classes | Ovr => 2 end = clf_k o2).
  { subst classes. rewrite Hm, Hcl. unfold clf_k. rewrite Q1. reflexivity. }
  assert (Hls : length (all_seeds ME o2 rs (clf_repeats o2)) = Z.to_nat (fo_n_estimators o) * match fo_multiclass o1 with Multinomial => 1 | Ovr => length classes end).
  { rewrite (all_seeds_length ME float o2 rs _ GM), Q3, Hm. subst classes. rewrite Hcl. unfold clf_repeats. rewrite Q1. reflexivity. }
  exists enc, fb, ts, d, mf. split; [subst o1; reflexivity|]. split; [exact Ht|]. split; [subst o1; reflexivity|]. split; [exact Hdd|]. split; [exact Hmf|].
  intros t obj Hobj. destruct (Forall2_nth _ _ _ _ _ HT Hobj) as ([t' seed] & Hts & train & valid & counts & w' & B1 & B2 & B3 & V & VL & Hne).
  cbn [fst snd] in *. apply P_Encoder.nth_error_combine in Hts. destruct Hts as [Ht1 Ht2]. apply nth_error_seq_0 in Ht1. destruct Ht1 as [-> Htl].
  rewrite K3, <- Hy in B1. fold n in B1. rewrite <- Hy in Hw. fold n in Hw.
  set (codes := clf_codes leb o2 y t) in *.
  assert (Hlc : length codes = n) by (subst codes; apply codes_length).
  assert (Lw : length (clf_weights o2 w codes) = n).
  { rewrite weights_length; [exact Hlc|]. rewrite Hlc. eapply check_weights_length; eauto. }
  assert (HW' : positive_weights w').
  { eapply boot_positive; [exact (gm_draws _ _ GM)|exact B1|exact Lw|exact B2|]. apply clf_weights_positive. eapply check_weights_positive; [exact Hw|].
    destruct sw as [[b l]|]; [exact HW|exact I]. }
  destruct (generate_bags _ _ _ _ _ _ _ (gm_draws _ _ GM) B1) as (k & G1 & G2). cbv zeta in G2. set (draws := me_randint ME (attempt seed k) n) in *.
  destruct G2 as (-> & -> & -> & G3).
  destruct (boot_weights draws n (clf_weights o2 w codes) w' Lw B2) as (W1 & W2).
  unfold clf_obj_fit, obj_fit in B3. destruct (tree_fit _ _ _ _ _ _ _ _) as [[tc g]|] eqn:Ef; cbn [bind] in B3; [|discriminate B3].
  injection B3 as <-.
  destruct (C28_samples (clf_task E (clf_k o2) d (crit_of (fo_criterion o2)) (fo_strategy o2)) _ fb codes _ _ w' _ tc g
    (VC_classifier _ _ _ _ _ _ _ _ _ _ GE V VL) Ef) as (_ & _ & P1 & P2).
  exists codes, draws, w', (g_tree g). eexists. split; [reflexivity|]. split; [reflexivity|]. split.
  { subst classes. rewrite Hm, Hcl. unfold codes, clf_codes. rewrite Q1, Q3. destruct (fo_multiclass o2) eqn:Em.
    - apply encode_positions. exact HO.
    - destruct (nth_error (uniq leb y) (t / Z.to_nat (fo_n_estimators o))) as [cc|] eqn:Ec; [eapply binarize_positions; eauto|].
      exfalso. apply nth_error_None in Ec. rewrite Hls, Hm in Htl. rewrite Hcl in Htl.
      pose proof (lg_trees _ _ HL). assert (t / Z.to_nat (fo_n_estimators o) < length (uniq leb y)); [|lia].
      apply Nat.div_lt_upper_bound; lia. }
  split; [exact G3|]. cbn [cx_parts]. split; [exact P1|]. split; [exact P2|]. split; [exact W1|]. split.
  { intros i Hi. etransitivity; [exact (W2 i Hi)|]. unfold tree_weight. rewrite (row_weights_spec o2 n _ w codes Hw Hlc i Hi), Q8. reflexivity. }
  cbv zeta. rewrite HK, <- Ecrit, <- Q7, <- Q6, <- Q5. intros id nd Hnd Hleaf.
  destruct (C18_tree_classification E (clf_k o2) d (crit_of (fo_criterion o2)) (fo_strategy o2) _ fb codes _ _ w' _ tc g GE HS V HW' VL (Hd d Hdd) Ef id nd Hnd Hleaf)
    as (features & here & hereV & lt & lv & l & r & ln & rn & sp & A). exists features, here, hereV, lt, lv, l, r, ln, rn, sp. exact A.
Qed.

Theorem C18_forest_regressor : forall (o o1 : reg_forest R_arith L EC) X y sw c,
  legal float o -> positive_sample_weights sw -> reg_fit ME o X y sw = ((o1, None), c) ->
  let n := length y in
  exists enc fb ts n_tried, fo_encoder o1 = Some enc /\ ec_transform EC enc X = Ok fb /\ fo_trees o1 = Some ts /\
  get_max_features ME (fo_max_features o) (snd (ec_shape EC X)) = Ok n_tried /\
  forall t obj, nth_error ts t = Some obj ->
  exists draws w tree ctx, ob_tree obj = Some tree /\ ob_ctx obj = Some ctx /\
    bootstrap draws n /\ Permutation (p_train (cx_parts ctx)) (in_bag draws n) /\ Permutation (p_valid (cx_parts ctx)) (out_of_bag draws n) /\
    length w = n /\ (forall i, i < n -> nth i w 0%R = @tree_weight R_arith draws (given_weight (option_map snd sw)) i) /\
    best_splits (reg_task E) fb (ec_cats EC enc) (Z.to_nat n_tried) (Z.to_nat (fo_min_samples_leaf o)) (fo_aggregation o)
      w (reg_impurity w y) (label_prefixes fb w y) tree (cx_parts ctx).
Proof.
  intros o o1 X y sw c HL HW H n. destruct (reg_tried ME o o1 X y sw c H) as (w & mf & rs & enc & fb & ts & Hy & Hw & H1 & He & Ht & HT & H6).
  destruct (gk_packed _ GK _ _ _ _ _ He Ht) as (_ & _ & K3 & K4).
  exists enc, fb, ts, mf. split; [subst o1; reflexivity|]. split; [exact Ht|]. split; [subst o1; reflexivity|]. split; [exact H1|].
  intros t obj Hobj. destruct (Forall2_nth _ _ _ _ _ HT Hobj) as ([t' seed] & Hts & Hb). cbn [fst snd] in *.
  assert (Hlw := check_weights_length _ _ _ Hw).
  destruct (reg_fit_call ME float GM GK o X y w mf enc fb seed obj HL Hy (eq_trans Hlw (eq_sym Hy)) H1 He Ht Hb) as (train & valid & counts & w' & B1 & B2 & B3 & V & Hne).
  rewrite K3, <- Hy in B1. fold n in B1. rewrite <- Hy in Hw, Hlw. fold n in Hw, Hlw.
  assert (HW' : positive_weights w').
  { eapply boot_positive; [exact (gm_draws _ _ GM)|exact B1|exact Hlw|exact B2|]. eapply check_weights_positive; [exact Hw|].
    destruct sw as [[b l]|]; [exact HW|exact I]. }
  destruct (generate_bags _ _ _ _ _ _ _ (gm_draws _ _ GM) B1) as (k & G1 & G2). cbv zeta in G2. set (draws := me_randint ME (attempt seed k) n) in *.
  destruct G2 as (-> & -> & -> & G3).
  destruct (boot_weights draws n w w' Hlw B2) as (W1 & W2).
  unfold obj_fit in B3. destruct (tree_fit _ _ _ _ _ _ _ _) as [[tc g]|] eqn:Ef; cbn [bind] in B3; [|discriminate B3].
  injection B3 as <-.
  destruct (C28_samples (reg_task E) _ fb y _ _ w' _ tc g ltac:(apply VC_regressor; [exact GE|exact V]) Ef) as (_ & _ & P1 & P2).
  exists draws, w', (g_tree g). eexists. split; [reflexivity|]. split; [reflexivity|].
  split; [exact G3|]. cbn [cx_parts]. split; [exact P1|]. split; [exact P2|]. split; [exact W1|]. split.
  { intros i Hi. etransitivity; [exact (W2 i Hi)|]. unfold tree_weight. rewrite (given_spec n _ w Hw i Hi). reflexivity. }
  intros id nd Hnd Hleaf.
  destruct (C18_tree_regression E _ fb y _ _ w' _ tc g GE HS V HW' Ef id nd Hnd Hleaf)
    as (features & here & hereV & lt & lv & l & r & ln & rn & sp & A). exists features, here, hereV, lt, lv, l, r, ln, rn, sp. exact A.
Qed.
End Forests.
Print Assumptions C18_forest_classifier.
Print Assumptions C18_forest_regressor.

(** The forests of Ex_Forest.v: two trees per class, both multiclass settings. *)
Example C18_forest_classifier_applies : forall m b agg X sw, bd_fb X = ex_fb -> sw = None \/ sw = ex_weights b ->
  exists o1 c n_tried ts, clf_fit Nat.leb ex_menv (ex_forest m b agg) X ex_names sw = ((o1, None), c) /\ fo_trees o1 = Some ts /\
    length ts = (match m with Multinomial => 2 | Ovr => 6 end) /\
    forall t obj, nth_error ts t = Some obj -> exists codes w tree ctx, ob_tree obj = Some tree /\
      let K := match fo_multiclass o1 with Multinomial => 3 | Ovr => 2 end in
      best_splits (clf_task env_R K (/ 2)%R Gini BinaryMod) ex_fb (ec_cats ex_encoding 2) n_tried 1 agg
        w (clf_impurity w Gini K codes) (class_prefixes ex_fb BinaryMod K w codes) tree ctx.
Proof.
  intros m b agg X sw HX Hsw. destruct (ex_X_facts X HX) as (Et & Es & Ef). destruct (ex_fits m b agg X sw HX Hsw) as (o1 & c & H).
  destruct (ex_fitted m b agg X sw o1 c HX Hsw H) as (F1 & F2 & F3 & F4 & F5).
  destruct (C18_forest_classifier ex_menv (fun _ => True) ex_menv_good env_R_good ex_encoding_good env_R_sorts Nat.leb (ex_forest m b agg) o1 X ex_names sw c Gini
    nat_order (ex_legal m b agg) (ex_enough m b agg X) (ex_sw_positive b sw Hsw) (ex_dirichlet m b agg) (or_introl (conj eq_refl eq_refl)) H)
    as (enc & fb & ts & d & nt & G1 & G2 & G3 & G4 & G5 & G6).
  rewrite F1 in G1. injection G1 as <-. pose proof (eq_trans (eq_sym G2) Et) as Q. injection Q as ->.
  cbn in G4. injection G4 as <-.
  exists o1, c, (Z.to_nat nt), ts. split; [exact H|]. split; [exact G3|].
  split; [unfold n_trees in F2; rewrite G3 in F2; exact F2|].
  intros t obj Hobj. destruct (G6 t obj Hobj) as (codes & draws & w & tree & ctx & A1 & _ & _ & _ & _ & _ & _ & _ & A2).
  exists codes, w, tree, (cx_parts ctx). split; [exact A1|]. rewrite F3 in A2. exact A2.
Qed.

Example C18_forest_regressor_applies : forall X, bd_fb X = ex_fb ->
  exists o1 c n_tried ts, reg_fit ex_menv ex_forest_reg X ex_targets (ex_weights true) = ((o1, None), c) /\ fo_trees o1 = Some ts /\
    forall t obj, nth_error ts t = Some obj -> exists w tree ctx, ob_tree obj = Some tree /\
      best_splits (reg_task env_R) ex_fb (ec_cats ex_encoding 2) n_tried 1 true w (reg_impurity w ex_targets) (label_prefixes ex_fb w ex_targets) tree ctx.
Proof.
  intros X HX. destruct (ex_X_facts X HX) as (Et & Es & Ef). destruct (ex_reg_fits X true (ex_weights true) HX (or_intror eq_refl)) as (o1 & c & H).
  destruct (reg_tried ex_menv ex_forest_reg o1 X ex_targets (ex_weights true) c H) as (w0 & mf & rs & enc0 & fb0 & ts0 & _ & _ & _ & He & _ & _ & H1).
  assert (E2 : enc0 = 2). { pose proof (eq_trans (eq_sym He) (Ef (fo_max_bins ex_forest_reg))) as Q. injection Q as ->. reflexivity. }
  subst enc0.
  destruct (C18_forest_regressor ex_menv (fun _ => True) ex_menv_good env_R_good ex_encoding_good env_R_sorts ex_forest_reg o1 X ex_targets (ex_weights true) c
    ex_legal_reg (ex_weights_positive true) H) as (enc & fb & ts & nt & G1 & G2 & G3 & G5 & G6).
  assert (F1 : fo_encoder o1 = Some 2) by (subst o1; reflexivity).
  rewrite F1 in G1. injection G1 as <-. pose proof (eq_trans (eq_sym G2) Et) as Q. injection Q as ->.
  exists o1, c, (Z.to_nat nt), ts. split; [exact H|]. split; [exact G3|].
  intros t obj Hobj. destruct (G6 t obj Hobj) as (draws & w & tree & ctx & A1 & _ & _ & _ & _ & _ & _ & A2).
  exists w, tree, (cx_parts ctx). split; [exact A1|exact A2].
Qed.
