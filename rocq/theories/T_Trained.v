(** * C62: what the trees of a forest are trained on

    Whatever the arithmetic: every tree of a fitted forest describes the rows, the labels and
    the weights given by the user. *)

Require Import String Bool List Arith Lia NArith ZArith Permutation Sorted.
Require Import Verif.Base Verif.Num Verif.M_Bitarray Verif.M_Utils Verif.M_Impurity Verif.M_Context Verif.M_Node Verif.M_Split
  Verif.M_Tree Verif.M_Grow Verif.M_Object Verif.M_Forest Verif.S_Fit Verif.S_Node Verif.S_Tree Verif.S_Prune Verif.S_Split Verif.S_Object Verif.S_Params Verif.S_Forest
  Verif.S_Trained Verif.P_Encoder Verif.T_Bootstrap Verif.T_Params Verif.P_List Verif.P_Forest Verif.T_Forest Verif.T_Prune Verif.T_Grow.
Import ListNotations.
Local Open Scope list_scope.
Local Open Scope nat_scope.

(** ** The bootstrap *)
Lemma drawn_times : forall l i, drawn l i = times l i.
Proof. intros. unfold drawn. apply count_occ_times. Qed.

Lemma bags : forall l n, in_bag l n = filter (fun i => negb (times l i =? 0)) (seq 0 n) /\ out_of_bag l n = filter (fun i => times l i =? 0) (seq 0 n).
Proof.
  intros l n. unfold in_bag, out_of_bag. split; apply filter_ext; intros i; rewrite drawn_times; [|reflexivity].
  destruct (times l i); reflexivity.
Qed.

Lemma in_bag_in : forall l n i, In i (in_bag l n) <-> i < n /\ drawn l i <> 0.
Proof. intros. unfold in_bag. rewrite filter_In, in_seq, Nat.leb_le. lia. Qed.
Lemma out_of_bag_in : forall l n i, In i (out_of_bag l n) <-> i < n /\ drawn l i = 0.
Proof. intros. unfold out_of_bag. rewrite filter_In, in_seq, Nat.eqb_eq. lia. Qed.

(** The draws used are those of the first attempt that leaves a row out. *)
Lemma generate_bags : forall limit randint s n train valid counts, in_range_draws randint ->
  generate_train_valid limit randint s n = Ok (train, valid, counts) ->
  exists k, (forall j, j < k -> out_of_bag (randint (attempt s j) n) n = []) /\
  let l := randint (attempt s k) n in train = in_bag l n /\ valid = out_of_bag l n /\ counts = map (drawn l) train /\ bootstrap l n.
Proof.
  induction limit as [|limit IH]; intros randint s n train valid counts HR H; [discriminate|].
  rewrite (generate_step randint s n limit HR) in H. destruct (bags (randint s n) n) as [B1 B2].
  destruct (length _ =? 0) eqn:El in H.
  - destruct (IH _ _ _ _ _ _ HR H) as (k & K1 & K2). exists (S k). split; [|exact K2].
    intros [|j] Hj; [|apply (K1 j); lia]. cbn [attempt]. rewrite B2. apply Nat.eqb_eq in El. apply length_zero_iff_nil. exact El.
  - injection H as <- <- <-. exists 0. split; [intros j Hj; lia|]. cbn [attempt]. cbv zeta.
    split; [symmetry; exact B1|]. split; [symmetry; exact B2|].
    split; [apply map_ext; intros; symmetry; apply drawn_times|]. destruct (HR s n) as [R1 R2]. split; [exact R1|]. split; [exact R2|].
    assert (Hn : out_of_bag (randint s n) n <> []) by (rewrite B2; intros Hz; rewrite Hz in El; discriminate).
    split; [|exact Hn]. destruct n as [|n]; [exfalso; apply Hn; reflexivity|].
    destruct (randint s (S n)) as [|i l] eqn:Er; [discriminate R1|].
    intros Hz. assert (Hi : In i (in_bag (i :: l) (S n))).
    { apply in_bag_in. split; [apply R2; left; reflexivity|]. unfold drawn. apply Nat.neq_0_lt_0. apply count_occ_In. left. reflexivity. }
    rewrite Hz in Hi. destruct Hi.
Qed.

Lemma boot_weights : forall {A : arith} l n (w w' : list (num A)), length w = n ->
  bootstrap_weights w (in_bag l n) (map (drawn l) (in_bag l n)) = Ok w' ->
  length w' = n /\ forall i, i < n -> nth i w' a0 = tree_weight l (fun i => nth i w a0) i.
Proof.
  intros A l n w w' Hw H. destruct (bootstrap_fold (in_bag l n) (drawn l) w) as (w2 & H1 & H2 & H3).
  - unfold in_bag. apply NoDup_filter. apply seq_NoDup.
  - intros i Hi. apply in_bag_in in Hi. lia.
  - rewrite H in H1. injection H1 as <-. split; [lia|]. intros i Hi. assert (Hi' : i < length w) by lia. specialize (H3 i Hi').
    unfold tree_weight. destruct (in_dec Nat.eq_dec i (in_bag l n)) as [Hd|Hd].
    + apply in_bag_in in Hd. destruct (Nat.eqb_spec (drawn l i) 0) as [Hz|Hz]; [lia|].
      unfold get in H3. rewrite (nth_error_nth' w a0 Hi') in H3. cbn in H3.
      destruct (nth_error w' i) eqn:En; [|discriminate H3]. rewrite (nth_error_nth _ _ _ En). congruence.
    + destruct (Nat.eqb_spec (drawn l i) 0) as [Hz|Hz]; [|exfalso; apply Hd; apply in_bag_in; auto].
      unfold get in H3. rewrite (nth_error_nth' w a0 Hi') in H3. destruct (nth_error w' i) eqn:En; [|discriminate H3]. rewrite (nth_error_nth _ _ _ En). congruence.
Qed.

(** ** Labels and weights *)
Section Codes.
Context {A : arith} {L D : Type} (leb : L -> L -> bool) (HO : total_order leb) {EC : encoding D}.

Lemma encode_positions : forall y, positions_of (uniq leb y) y (encode_labels leb (uniq leb y) y).
Proof.
  intros y. unfold positions_of, encode_labels. rewrite map_length. split; [reflexivity|]. intros i Hi.
  destruct (nth_error y i) as [l|] eqn:El; [|apply nth_error_None in El; lia].
  assert (En : nth i (map (index_of leb (uniq leb y)) y) 0 = index_of leb (uniq leb y) l).
  { apply nth_error_nth. rewrite nth_error_map, El. reflexivity. }
  rewrite En. apply (index_of_in leb HO). apply (uniq_in leb HO). eapply nth_error_In; eauto.
Qed.

Lemma binarize_positions : forall y k c, nth_error (uniq leb y) k = Some c ->
  one_versus_rest (uniq leb y) y k (binarize (encode_labels leb (uniq leb y) y) k).
Proof.
  intros y k c Hc. destruct (encode_positions y) as [P1 P2]. unfold one_versus_rest, binarize. rewrite map_length. split; [exact P1|].
  exists c. split; [exact Hc|]. intros i Hi. specialize (P2 i Hi).
  assert (En : nth i (map (fun c0 => if c0 =? k then 1 else 0) (encode_labels leb (uniq leb y) y)) 0 = if nth i (encode_labels leb (uniq leb y) y) 0 =? k then 1 else 0).
  { apply nth_error_nth. rewrite nth_error_map, (nth_error_nth' _ 0); [reflexivity|]. rewrite P1. exact Hi. }
  rewrite En, <- P2. destruct (Nat.eqb_spec (nth i (encode_labels leb (uniq leb y) y) 0) k) as [->|Hne].
  - left. auto.
  - right. split; [|reflexivity]. intros Hb. apply Hne.
    assert (ND : NoDup (uniq leb y)) by (eapply sorted_lt_nodup; apply (uniq_sorted leb HO)).
    rewrite NoDup_nth_error in ND. apply ND; [|congruence]. apply nth_error_Some. congruence.
Qed.

Lemma present_length : forall codes, length (present codes) = length (nodup Nat.eq_dec codes).
Proof.
  intros codes. apply Permutation_length. apply NoDup_Permutation.
  - assert (HN : total_order Nat.leb).
    { constructor; intros x y; [intros H1 H2|intros z H1 H2|]; rewrite ?Nat.leb_le in *; lia. }
    eapply sorted_lt_nodup. apply (uniq_sorted Nat.leb HN).
  - apply NoDup_nodup.
  - assert (HN : total_order Nat.leb).
    { constructor; intros x y; [intros H1 H2|intros z H1 H2|]; rewrite ?Nat.leb_le in *; lia. }
    intros x. rewrite nodup_In. apply (uniq_in Nat.leb HN).
Qed.

Lemma given_spec : forall n (sw : option (list (num A))) w, check_weights n sw = Ok w -> forall i, i < n -> nth i w a0 = given_weight sw i.
Proof.
  intros n [l|] w H i Hi; simpl in H.
  - destruct (length l =? n); inversion H; subst. reflexivity.
  - inversion H. unfold given_weight. apply nth_error_nth. apply nth_error_repeat. exact Hi.
Qed.

Lemma row_weights_spec : forall (o2 : clf_forest A L EC) n sw w codes, check_weights n sw = Ok w -> length codes = n ->
  forall i, i < n -> nth i (clf_weights o2 w codes) a0 = row_weight (fo_balanced o2) sw codes i.
Proof.
  intros o2 n sw w codes Hw Hl i Hi. unfold clf_weights, row_weight. rewrite <- (given_spec n sw w Hw i Hi).
  pose proof (check_weights_length _ _ _ Hw) as Hlw. destruct (fo_balanced o2); [|reflexivity].
  apply nth_error_nth. rewrite nth_error_map.
  assert (Hc : nth_error (combine w (@balanced A codes)) i = Some (nth i w a0, balancing codes i)).
  { apply P_Encoder.nth_error_combine. split; [apply nth_error_nth'; lia|]. unfold balanced. rewrite nth_error_map.
    rewrite (nth_error_nth' codes 0) by lia. cbn [option_map]. unfold balanced_weight, balancing. rewrite present_length. reflexivity. }
  rewrite Hc. reflexivity.
Qed.
End Codes.

(** ** The nodes of one tree *)
Lemma filter_in_left : forall {X} (f : X -> bool) l x, In x (filter f l) -> In x l.
Proof. intros X f l x H. apply filter_In in H. tauto. Qed.

Lemma fold_left_ext : forall {X S} (f g : S -> X -> S) l s, (forall s x, In x l -> f s x = g s x) -> fold_left f l s = fold_left g l s.
Proof.
  intros X S f g l. induction l as [|x l IH]; intros s H; [reflexivity|]. cbn. rewrite H by (left; reflexivity). apply IH. intros. apply H. right. auto.
Qed.

Section Nodes.
Context {A : arith} {E : env A} (GE : good_env E).
Notation T := (num A).

Lemma total_ext : forall (w : list T) (v : nat -> T) l, (forall i, In i l -> nth i w a0 = v i) -> total_weight w l = asum (map v l).
Proof. intros w v l H. unfold total_weight, weight. f_equal. apply map_ext_in. exact H. Qed.

Lemma clf_describes : forall K dirichlet crit st p fb y draws n w s tc g (v : nat -> T),
  n = fb_n_samples fb -> valid_fit p fb y (in_bag draws n) (out_of_bag draws n) w -> valid_labels K st (tp_is_categorical p) y ->
  (forall i, i < n -> nth i w a0 = v i) ->
  tree_fit (clf_task E K dirichlet crit st) p fb y (in_bag draws n) (out_of_bag draws n) w s = Ok (tc, g) ->
  describes (g_tree g) fb n draws v (tp_aggregation p) (frequencies v y K dirichlet) (logarithmic_loss v y).
Proof.
  intros K d crit st p fb y draws n w s tc g v Hn V HL Hv Hf id nd Hnd.
  destruct (C17_tree_classification K d crit st p fb y _ _ w s tc g GE V HL Hf id nd Hnd) as (f & pred & F1 & Q). cbv zeta in Q.
  destruct Q as (Q1 & Q2 & Q3 & Q4 & Q5 & Q6 & Q7 & Q8).
  assert (HB : forall l i, l = in_bag draws n \/ l = out_of_bag draws n -> In i (filter f l) -> i < n).
  { intros l i Hl Hi. apply filter_in_left in Hi. destruct Hl as [->| ->]; [apply in_bag_in in Hi|apply out_of_bag_in in Hi]; tauto. }
  exists f, pred. split; [exact F1|]. cbv zeta.
  split; [exact Q1|]. split; [exact Q2|].
  split; [rewrite Q3; apply total_ext; intros i Hi; apply Hv; eapply HB; [|exact Hi]; auto|].
  split. { rewrite Q4. destruct (tp_aggregation p); [|reflexivity]. apply total_ext. intros i Hi. apply Hv. eapply HB; [|exact Hi]; auto. }
  split; [exact Q5|]. split.
  - split; [exact Q6|]. intros k Hk. specialize (Q7 k Hk). unfold get in Q7. destruct (nth_error pred k); [|discriminate Q7]. f_equal.
    injection Q7 as ->. unfold smoothed_freq. f_equal; f_equal.
    + unfold of_class. apply total_ext. intros i Hi. apply filter_in_left in Hi. apply Hv. eapply HB; [|exact Hi]; auto.
    + apply total_ext. intros i Hi. apply Hv. eapply HB; [|exact Hi]; auto.
  - rewrite Q8. destruct (tp_aggregation p); [|reflexivity]. unfold log_loss, logarithmic_loss, weight. apply fold_left_ext.
    intros x i Hi. rewrite Hv; [reflexivity|]. eapply HB; [|exact Hi]; auto.
Qed.

Lemma reg_describes : forall p fb (y : list T) draws n w s tc g (v : nat -> T),
  n = fb_n_samples fb -> valid_fit p fb y (in_bag draws n) (out_of_bag draws n) w ->
  (forall i, i < n -> nth i w a0 = v i) ->
  tree_fit (reg_task E) p fb y (in_bag draws n) (out_of_bag draws n) w s = Ok (tc, g) ->
  describes (g_tree g) fb n draws v (tp_aggregation p) (weighted_mean v y) (squared_loss v y).
Proof.
  intros p fb y draws n w s tc g v Hn V Hv Hf id nd Hnd.
  destruct (C17_tree_regression p fb y _ _ w s tc g GE V Hf id nd Hnd) as (f & pred & F1 & Q). cbv zeta in Q.
  destruct Q as (Q1 & Q2 & Q3 & Q4 & Q5 & Q6 & Q7).
  assert (HB : forall l i, l = in_bag draws n \/ l = out_of_bag draws n -> In i (filter f l) -> i < n).
  { intros l i Hl Hi. apply filter_in_left in Hi. destruct Hl as [->| ->]; [apply in_bag_in in Hi|apply out_of_bag_in in Hi]; tauto. }
  exists f, pred. split; [exact F1|]. cbv zeta.
  split; [exact Q1|]. split; [exact Q2|].
  split; [rewrite Q3; apply total_ext; intros i Hi; apply Hv; eapply HB; [|exact Hi]; auto|].
  split. { rewrite Q4. destruct (tp_aggregation p); [|reflexivity]. apply total_ext. intros i Hi. apply Hv. eapply HB; [|exact Hi]; auto. }
  split; [exact Q5|]. split.
  - unfold weighted_mean. rewrite Q6. unfold label_sum, weight. f_equal.
    + f_equal. apply map_ext_in. intros i Hi. rewrite Hv; [reflexivity|]. eapply HB; [|exact Hi]; auto.
    + apply total_ext. intros i Hi. apply Hv. eapply HB; [|exact Hi]; auto.
  - rewrite Q7. destruct (tp_aggregation p); [|reflexivity]. unfold sq_loss, squared_loss, weight. apply fold_left_ext.
    intros x i Hi. rewrite Hv; [reflexivity|]. eapply HB; [|exact Hi]; auto.
Qed.
End Nodes.

(** ** C62 *)
Lemma Forall2_nth : forall {X Y} (R : X -> Y -> Prop) l r i y, Forall2 R l r -> nth_error r i = Some y -> exists x, nth_error l i = Some x /\ R x y.
Proof.
  intros X Y R l r i y H. revert i. induction H as [|a b l r Hab H IH]; intros [|i] Hi; try discriminate; cbn in *; [injection Hi as <-; eauto|auto].
Qed.

Lemma nth_error_seq_0 : forall n i x, nth_error (seq 0 n) i = Some x -> x = i /\ i < n.
Proof.
  intros n i x H. assert (Hi : i < n) by (rewrite <- (seq_length n 0); apply nth_error_Some; congruence).
  apply (nth_error_nth _ _ 0) in H. rewrite seq_nth in H by exact Hi. lia.
Qed.

Section Forests.
Context {A : arith} {E : env A} {L D : Type} {EC : encoding D} (ME : menv E) (float : num A -> Prop).
Context (GM : good_menv float ME) (GE : good_env E) (GK : good_encoding EC).
Notation T := (num A).

(** The draws of a tree come from its seed: the first attempt that leaves a row out. *)
Definition drawn_from (seed : N) (n : nat) (draws : list nat) : Prop :=
  exists k, draws = me_randint ME (attempt seed k) n /\ forall j, j < k -> out_of_bag (me_randint ME (attempt seed j) n) n = [].

Theorem C62_classifier : forall leb (o o1 : clf_forest A L EC) X y sw c,
  total_order leb -> legal float o -> enough_classes leb o X y ->
  clf_fit leb ME o X y sw = ((o1, None), c) ->
  let n := length y in let classes := fo_classes o1 in
  exists enc fb ts dirichlet, fo_encoder o1 = Some enc /\ ec_transform EC enc X = Ok fb /\ fb_n_samples fb = n /\
  fo_trees o1 = Some ts /\ fo_dirichlet o = Some dirichlet /\
  length ts = Z.to_nat (fo_n_estimators o) * (match fo_multiclass o1 with Multinomial => 1 | Ovr => length classes end) /\
  forall t obj, nth_error ts t = Some obj ->
  exists codes draws seed tree, ob_tree obj = Some tree /\
    (* its labels *)
    match fo_multiclass o1 with
    | Multinomial => positions_of classes y codes
    | Ovr => one_versus_rest classes y (t / Z.to_nat (fo_n_estimators o)) codes
    end /\
    (* its rows *)
    bootstrap draws n /\ nth_error (fo_seeds o1) t = Some seed /\ drawn_from seed n draws /\
    (* its nodes *)
    let w := tree_weight draws (row_weight (fo_balanced o) (option_map snd sw) codes) in
    let K := match fo_multiclass o1 with Multinomial => length classes | Ovr => 2 end in
    describes tree fb n draws w (fo_aggregation o) (frequencies w codes K dirichlet) (logarithmic_loss w codes).
Proof.
  intros leb o o1 X y sw c HO HL HC H n classes.
  destruct (clf_fit_trees ME float GM GK leb HO o o1 X y sw c HL HC H) as (w & d & mf & rs & enc & fb & ts & H1 & Hy & Hw & Hdd & Hrs & Ha & He & Ht & PK & AL & HT).
  cbv zeta in *. set (o2 := clf_ready leb o y) in *.
  destruct (clf_ready_same leb o y) as (Q1 & Q2 & Q3 & Q4 & Q5 & Q6 & Q7 & Q8 & Q9 & Q10 & Q11 & Q12 & Q13). fold o2 in Q1, Q2, Q3, Q4, Q5, Q6, Q7, Q8, Q9, Q10, Q11, Q12, Q13.
  destruct (gk_packed _ GK _ _ _ _ _ He Ht) as (_ & _ & K3 & K4).
  assert (Hm : fo_multiclass o1 = fo_multiclass o2) by (subst o1; reflexivity).
  assert (Hcl : fo_classes o1 = uniq leb y) by (subst o1; exact Q1).
  assert (Hls : length (all_seeds ME o2 rs (clf_repeats o2)) = Z.to_nat (fo_n_estimators o) * match fo_multiclass o1 with Multinomial => 1 | Ovr => length classes end).
  { rewrite (all_seeds_length ME float o2 rs _ GM), Q3, Hm. subst classes. rewrite Hcl. unfold clf_repeats. rewrite Q1. reflexivity. }
  assert (Hlt : length ts = length (all_seeds ME o2 rs (clf_repeats o2))).
  { rewrite <- (Forall2_len _ _ _ HT). rewrite combine_length, seq_length, Nat.min_id. reflexivity. }
  exists enc, fb, ts, d. split; [subst o1; reflexivity|]. split; [exact Ht|]. split; [subst n; congruence|].
  split; [subst o1; reflexivity|]. split; [exact Hdd|]. split; [congruence|].
  intros t obj Hobj. destruct (Forall2_nth _ _ _ _ _ HT Hobj) as ([t' seed] & Hts & train & valid & counts & w' & B1 & B2 & B3 & V & VL & Hne).
  cbn [fst snd] in *. apply P_Encoder.nth_error_combine in Hts. destruct Hts as [Ht1 Ht2]. apply nth_error_seq_0 in Ht1. destruct Ht1 as [-> Htl].
  rewrite K3, <- Hy in B1. fold n in B1.
  destruct (generate_bags _ _ _ _ _ _ _ (gm_draws _ _ GM) B1) as (k & G1 & G2). cbv zeta in G2. set (draws := me_randint ME (attempt seed k) n) in *.
  destruct G2 as (-> & -> & -> & G3).
  set (codes := clf_codes leb o2 y t) in *.
  assert (Hlc : length codes = n) by (subst codes; apply codes_length).
  rewrite <- Hy in Hw. fold n in Hw.
  destruct (boot_weights draws n (clf_weights o2 w codes) w') as (W1 & W2).
  { rewrite weights_length; [exact Hlc|]. rewrite Hlc. eapply check_weights_length; eauto. }
  { exact B2. }
  unfold clf_obj_fit, obj_fit in B3. destruct (tree_fit _ _ _ _ _ _ _ _) as [[tc g]|] eqn:Ef; cbn [bind] in B3; [|discriminate B3].
  injection B3 as <-.
  exists codes, draws, seed, (g_tree g). split; [reflexivity|]. split.
  { subst classes. rewrite Hm, Hcl. unfold codes, clf_codes. rewrite Q1, Q3. destruct (fo_multiclass o2) eqn:Em.
    - apply encode_positions. exact HO.
    - destruct (nth_error (uniq leb y) (t / Z.to_nat (fo_n_estimators o))) as [cc|] eqn:Ec; [eapply binarize_positions; eauto|].
      exfalso. apply nth_error_None in Ec. rewrite Hls, Hm in Htl. rewrite Hcl in Htl.
      pose proof (lg_trees _ _ HL). assert (t / Z.to_nat (fo_n_estimators o) < length (uniq leb y)); [|lia].
      apply Nat.div_lt_upper_bound; lia. }
  split; [exact G3|]. split; [subst o1; exact Ht2|]. split; [exists k; split; [reflexivity|exact G1]|].
  cbv zeta. rewrite <- Q6, <- Q8. change (fo_aggregation o2) with (tp_aggregation (tree_params_of o2 mf (ec_cats EC enc))).
  assert (HK : match fo_multiclass o1 with Multinomial => length classes | Ovr => 2 end = clf_k o2).
  { subst classes. rewrite Hm, Hcl. unfold clf_k. rewrite Q1. reflexivity. }
  rewrite HK. eapply (clf_describes GE); [|exact V|exact VL| |exact Ef].
  - unfold n; congruence.
  - intros i Hi. rewrite (W2 i Hi). unfold tree_weight. cbv beta. rewrite (row_weights_spec o2 n _ w codes Hw Hlc i Hi). reflexivity.
Qed.

Theorem C62_regressor : forall (o o1 : reg_forest A L EC) X y sw c,
  legal float o -> reg_fit ME o X y sw = ((o1, None), c) ->
  let n := length y in
  exists enc fb ts, fo_encoder o1 = Some enc /\ ec_transform EC enc X = Ok fb /\ fb_n_samples fb = n /\
  fo_trees o1 = Some ts /\ length ts = Z.to_nat (fo_n_estimators o) /\
  forall t obj, nth_error ts t = Some obj ->
  exists draws seed tree, ob_tree obj = Some tree /\
    bootstrap draws n /\ nth_error (fo_seeds o1) t = Some seed /\ drawn_from seed n draws /\
    let w := tree_weight draws (given_weight (option_map snd sw)) in
    describes tree fb n draws w (fo_aggregation o) (weighted_mean w y) (squared_loss w y).
Proof.
  intros o o1 X y sw c HL H n.
  destruct (reg_fit_trees ME float GM GK o o1 X y sw c HL H) as (w & mf & rs & enc & fb & ts & H1 & Hy & Hw & Hrs & He & Ht & PK & AL & HT).
  cbv zeta in *. destruct (gk_packed _ GK _ _ _ _ _ He Ht) as (_ & _ & K3 & K4).
  assert (Hlt : length ts = length (all_seeds ME o rs 1)).
  { etransitivity; [symmetry; exact (Forall2_len _ _ _ HT)|]. rewrite combine_length, seq_length, Nat.min_id. reflexivity. }
  exists enc, fb, ts. split; [subst o1; reflexivity|]. split; [exact Ht|]. split; [subst n; congruence|].
  split; [subst o1; reflexivity|]. split; [etransitivity; [exact Hlt|]; rewrite (all_seeds_length ME float o rs _ GM); lia|].
  intros t obj Hobj. destruct (Forall2_nth _ _ _ _ _ HT Hobj) as ([t' seed] & Hts & train & valid & counts & w' & B1 & B2 & B3 & V & Hne).
  cbn [fst snd] in *. apply P_Encoder.nth_error_combine in Hts. destruct Hts as [Ht1 Ht2]. apply nth_error_seq_0 in Ht1. destruct Ht1 as [-> Htl].
  rewrite K3, <- Hy in B1. fold n in B1.
  destruct (generate_bags _ _ _ _ _ _ _ (gm_draws _ _ GM) B1) as (k & G1 & G2). cbv zeta in G2. set (draws := me_randint ME (attempt seed k) n) in *.
  destruct G2 as (-> & -> & -> & G3).
  rewrite <- Hy in Hw. fold n in Hw.
  destruct (boot_weights draws n w w') as (W1 & W2); [eapply check_weights_length; eauto|exact B2|].
  unfold obj_fit in B3. destruct (tree_fit _ _ _ _ _ _ _ _) as [[tc g]|] eqn:Ef; cbn [bind] in B3; [|discriminate B3].
  injection B3 as <-.
  exists draws, seed, (g_tree g). split; [reflexivity|].
  split; [exact G3|]. split; [subst o1; exact Ht2|]. split; [exists k; split; [reflexivity|exact G1]|].
  cbv zeta. change (fo_aggregation o) with (tp_aggregation (tree_params_of o mf (ec_cats EC enc))).
  eapply (reg_describes GE); [|exact V| |exact Ef].
  - unfold n; congruence.
  - intros i Hi. rewrite (W2 i Hi). unfold tree_weight. cbv beta. rewrite (given_spec n _ w Hw i Hi). reflexivity.
Qed.

(** The limits given by the user hold in every tree. *)
Definition within_limits {P Y : Type} (o : fobj A L EC P Y) (tree : M_Tree.tree A P) : Prop :=
  well_formed tree /\
  forall id nd, node_at tree id nd ->
    (forall z, fo_max_depth o = Some z -> (Z.of_nat (nd_depth nd) <= Z.max 0 z)%Z) /\
    (nd_is_leaf nd = false ->
      (fo_min_samples_split o <= Z.of_nat (nd_n_train nd))%Z /\
      (fo_aggregation o = true -> fo_min_samples_split o <= Z.of_nat (nd_n_valid nd))%Z) /\
    (id <> 0 ->
      (fo_min_samples_leaf o <= Z.of_nat (nd_n_train nd))%Z /\
      (fo_aggregation o = true -> fo_min_samples_leaf o <= Z.of_nat (nd_n_valid nd))%Z).

Lemma call_limits : forall (tk : task A E) {Y} (o o' : fobj A L EC (tk_P tk) Y) mf cats fb y train valid w s tc g,
  fo_max_depth o' = fo_max_depth o -> fo_min_samples_split o' = fo_min_samples_split o -> fo_min_samples_leaf o' = fo_min_samples_leaf o ->
  fo_aggregation o' = fo_aggregation o ->
  valid_call tk (tree_params_of o' mf cats) fb y train valid w -> tree_fit tk (tree_params_of o' mf cats) fb y train valid w s = Ok (tc, g) ->
  within_limits o (g_tree g).
Proof.
  intros tk Y o o' mf cats fb y train valid w s tc g E1 E2 E3 E4 V Hf. split; [eapply C25_well_formed; eauto|]. intros id nd Hnd.
  destruct (C26_limits tk _ fb y train valid w s tc g V Hf id nd Hnd) as (M1 & M2).
  assert (M3 := C19_min_samples_leaf tk _ fb y train valid w s tc g V Hf id nd Hnd).
  cbn [tp_max_depth tp_min_samples_split tp_min_samples_leaf tp_aggregation tree_params_of] in *. rewrite E1, E2, E3, E4 in *.
  split; [|split].
  - intros z Hz. rewrite Hz in M1. cbn [get_max_depth] in M1. lia.
  - intros Hl. destruct (M2 Hl) as (_ & N1 & N2 & _). split; [lia|]. intros Ha. specialize (N2 Ha). lia.
  - intros Hid. destruct (M3 Hid) as (N1 & N2). split; [lia|]. intros Ha. specialize (N2 Ha). lia.
Qed.

Theorem C62_limits_classifier : forall leb (o o1 : clf_forest A L EC) X y sw c ts obj tree,
  total_order leb -> legal float o -> enough_classes leb o X y ->
  clf_fit leb ME o X y sw = ((o1, None), c) -> fo_trees o1 = Some ts -> In obj ts -> ob_tree obj = Some tree ->
  within_limits o tree.
Proof.
  intros leb o o1 X y sw c ts0 obj tree HO HL HC H Hts0 Hin Htree.
  destruct (clf_fit_trees ME float GM GK leb HO o o1 X y sw c HL HC H) as (w & d & mf & rs & enc & fb & ts & H1 & Hy & Hw & Hdd & Hrs & Ha & He & Ht & PK & AL & HT).
  cbv zeta in *. set (o2 := clf_ready leb o y) in *.
  destruct (clf_ready_same leb o y) as (Q1 & Q2 & Q3 & Q4 & Q5 & Q6 & Q7 & Q8 & Q9 & Q10 & Q11 & Q12 & Q13). fold o2 in Q4, Q5, Q6.
  assert (ts0 = ts) by (subst o1; cbn in Hts0; congruence). subst ts0.
  apply In_nth_error in Hin. destruct Hin as (t & Hobj).
  destruct (Forall2_nth _ _ _ _ _ HT Hobj) as ([t' seed] & Hts & train & valid & counts & w' & B1 & B2 & B3 & V & VL & Hne).
  cbn [fst snd] in *. unfold clf_obj_fit, obj_fit in B3. destruct (tree_fit _ _ _ _ _ _ _ _) as [[tc g]|] eqn:Ef; cbn [bind] in B3; [|discriminate B3].
  injection B3 as <-. cbn [ob_tree] in Htree. injection Htree as <-.
  assert (Hmd : fo_max_depth o2 = fo_max_depth o).
  { unfold o2, clf_ready. destruct (fo_multiclass o); [|destruct (_ <=? 2)]; reflexivity. }
  eapply (call_limits (clf_task E (clf_k o2) d (crit_of (fo_criterion o2)) (fo_strategy o2)) o o2); eauto. constructor; auto.
Qed.

Theorem C62_limits_regressor : forall (o o1 : reg_forest A L EC) X y sw c ts obj tree,
  legal float o -> reg_fit ME o X y sw = ((o1, None), c) -> fo_trees o1 = Some ts -> In obj ts -> ob_tree obj = Some tree ->
  within_limits o tree.
Proof.
  intros o o1 X y sw c ts0 obj tree HL H Hts0 Hin Htree.
  destruct (reg_fit_trees ME float GM GK o o1 X y sw c HL H) as (w & mf & rs & enc & fb & ts & H1 & Hy & Hw & Hrs & He & Ht & PK & AL & HT).
  cbv zeta in *. assert (ts0 = ts) by (subst o1; cbn in Hts0; congruence). subst ts0.
  apply In_nth_error in Hin. destruct Hin as (t & Hobj).
  destruct (Forall2_nth _ _ _ _ _ HT Hobj) as ([t' seed] & Hts & train & valid & counts & w' & B1 & B2 & B3 & V & Hne).
  cbn [fst snd] in *. unfold obj_fit in B3. destruct (tree_fit _ _ _ _ _ _ _ _) as [[tc g]|] eqn:Ef; cbn [bind] in B3; [|discriminate B3].
  injection B3 as <-. cbn [ob_tree] in Htree. injection Htree as <-.
  eapply (call_limits (reg_task E) o o); eauto. constructor; auto.
Qed.
End Forests.
Print Assumptions C62_classifier.
Print Assumptions C62_regressor.
Print Assumptions C62_limits_classifier.
Print Assumptions C62_limits_regressor.
