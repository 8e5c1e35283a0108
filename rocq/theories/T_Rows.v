(** * C68: the prediction for a row depends on this row only

    Whatever the arithmetic and whatever was done with the forest before. *)

Require Import String Bool List Arith NArith ZArith Lia.
Require Import Verif.Base Verif.Num Verif.M_Bitarray Verif.M_Binning Verif.M_Utils Verif.M_Tree Verif.M_Grow Verif.M_Object Verif.M_Forest
  Verif.M_Encoder Verif.S_Encoder Verif.P_Encoder Verif.M_EncoderForest Verif.T_EncoderForest Verif.S_Rows Verif.P_Rows Verif.P_List Verif.T_Params Verif.T_Clone.
Import ListNotations.
Local Open Scope list_scope.
Local Open Scope nat_scope.

(** ** Methods on encoded tables *)

(** Row [i] of [fb] reads like row [i'] of [fb']. *)
Definition alike (fb : fba) (i : nat) (fb' : fba) (i' : nat) : Prop := forall j, get_value fb i j = get_value fb' i' j.

(** The results are [f] of each row. *)
Definition results {Q} (f : fba -> nat -> res Q) (fb : fba) (out : list Q) : Prop :=
  length out = fb_n_samples fb /\ forall i, i < fb_n_samples fb -> exists q, nth_error out i = Some q /\ f fb i = Ok q.

Definition rowwise {Q} (M : fba -> res (list Q)) : Prop :=
  exists f : fba -> nat -> res Q, (forall fb i fb' i', alike fb i fb' i' -> f fb i = f fb' i') /\
    forall fb out, 0 < fb_n_samples fb -> (M fb = Ok out <-> results f fb out).

Lemma mapM_results : forall {Q} (f : nat -> res Q) n out, mapM f (seq 0 n) = Ok out <->
  length out = n /\ forall i, i < n -> exists q, nth_error out i = Some q /\ f i = Ok q.
Proof.
  intros Q f n out. split.
  - intros H. destruct (mapM_ok _ _ _ H) as [HL HN]. rewrite seq_length in HL. split; auto. intros i Hi.
    destruct (HN i i) as (q & H1 & H2); [|eauto]. rewrite (nth_error_nth' _ 0) by (rewrite seq_length; auto). rewrite seq_nth; auto.
  - intros [HL HN]. destruct (mapM_total f (seq 0 n)) as [out' H'].
    + intros i Hi. apply in_seq in Hi. destruct (HN i) as (q & _ & Hq); [lia|eauto].
    + rewrite H'. f_equal. destruct (mapM_ok _ _ _ H') as [HL' HN']. rewrite seq_length in HL'. apply nth_error_ext. intros i.
      destruct (Nat.lt_ge_cases i n) as [Hi|Hi].
      * destruct (HN i Hi) as (q & E1 & E2). destruct (HN' i i) as (q' & E3 & E4).
        { rewrite (nth_error_nth' _ 0) by (rewrite seq_length; auto). rewrite seq_nth; auto. }
        congruence.
      * rewrite (proj2 (nth_error_None _ _)), (proj2 (nth_error_None _ _)); auto; lia.
Qed.

Lemma rowwise_mapM : forall {Q} (f : fba -> nat -> res Q), (forall fb i fb' i', alike fb i fb' i' -> f fb i = f fb' i') ->
  rowwise (fun fb => mapM (f fb) (seq 0 (fb_n_samples fb))).
Proof. intros Q f Hf. exists f. split; auto. intros fb out _. apply mapM_results. Qed.

Lemma rowwise_ext : forall {Q} (M M' : fba -> res (list Q)), (forall fb, M fb = M' fb) -> rowwise M -> rowwise M'.
Proof. intros Q M M' H (f & H1 & H2). exists f. split; auto. intros fb out Hn. rewrite <- H. auto. Qed.

Lemma rowwise_two : forall {Q} (M : fba -> res (list Q)) fb fb' out out' i i', rowwise M -> 0 < fb_n_samples fb -> 0 < fb_n_samples fb' ->
  M fb = Ok out -> M fb' = Ok out' -> i < fb_n_samples fb -> i' < fb_n_samples fb' -> alike fb i fb' i' -> nth_error out i = nth_error out' i'.
Proof.
  intros Q M fb fb' out out' i i' (f & H1 & H2) Hn Hn' HM HM' Hi Hi' Ha.
  apply (H2 fb out Hn) in HM. apply (H2 fb' out' Hn') in HM'. destruct HM as [_ HM], HM' as [_ HM'].
  destruct (HM i Hi) as (q & E1 & E2). destruct (HM' i' Hi') as (q' & E3 & E4). rewrite (H1 _ _ _ _ Ha) in E2. congruence.
Qed.

Lemma rowwise_pick : forall {Q} (M : fba -> res (list Q)) fb fb' out rows, rowwise M -> 0 < fb_n_samples fb -> 0 < fb_n_samples fb' ->
  M fb = Ok out -> fb_n_samples fb' = length rows ->
  (forall k i, nth_error rows k = Some i -> i < fb_n_samples fb /\ alike fb i fb' k) ->
  exists out', M fb' = Ok out' /\ picked rows out out'.
Proof.
  intros Q M fb fb' out rows (f & H1 & H2) Hn Hn' HM HL Hr. apply (H2 fb out Hn) in HM. destruct HM as [HMl HM].
  assert (G : forall rows0, (forall i, In i rows0 -> i < fb_n_samples fb) -> exists out', picked rows0 out out').
  { induction rows0 as [|i rows0 IH]; intros Hin; [exists []; constructor|].
    destruct IH as [out' Ho]; [intros; apply Hin; right; auto|].
    destruct (HM i) as (q & E1 & _); [apply Hin; left; auto|]. exists (q :: out'). constructor; auto. }
  destruct (G rows) as [out' Ho].
  { intros i Hi. apply In_nth_error in Hi. destruct Hi as [k Hk]. apply (Hr k i Hk). }
  exists out'. split; auto. apply (H2 fb' out' Hn'). split; [rewrite (picked_length _ _ _ Ho); auto|].
  intros k Hk. destruct (nth_error rows k) as [i|] eqn:Ek; [|apply nth_error_None in Ek; lia].
  destruct (picked_nth _ _ _ Ho k i Ek) as (x & E1 & E2). destruct (Hr k i Ek) as [Hi Ha].
  destruct (HM i Hi) as (q & E3 & E4). exists x. split; auto. rewrite <- (H1 _ _ _ _ Ha). congruence.
Qed.

Lemma rowwise_length : forall {Q} (M : fba -> res (list Q)) fb out, rowwise M -> 0 < fb_n_samples fb -> M fb = Ok out -> length out = fb_n_samples fb.
Proof. intros Q M fb out (f & H1 & H2) Hn HM. apply (H2 fb out Hn) in HM. apply HM. Qed.

(** One more computation on each row. *)
Lemma rowwise_then : forall {Q Q'} (M : fba -> res (list Q)) (g : Q -> res Q'), rowwise M ->
  rowwise (fun fb => let* out := M fb in mapM g out).
Proof.
  intros Q Q' M g (f & H1 & H2). exists (fun fb i => let* q := f fb i in g q). split.
  { intros fb i fb' i' Ha. rewrite (H1 _ _ _ _ Ha). reflexivity. }
  intros fb out' Hn. split.
  - intros H. apply bind_ok in H. destruct H as (out & HM & Hg). apply (H2 fb out Hn) in HM. destruct HM as [HL HM].
    destruct (mapM_ok _ _ _ Hg) as [HL' HN]. split; [congruence|]. intros i Hi. destruct (HM i Hi) as (q & E1 & E2).
    destruct (HN i q E1) as (q' & E3 & E4). exists q'. split; auto. rewrite E2. exact E4.
  - intros [HL HN]. destruct (mapM_total (f fb) (seq 0 (fb_n_samples fb))) as [out Hout].
    { intros i Hi. apply in_seq in Hi. destruct (HN i) as (q' & _ & E); [lia|]. apply bind_ok in E. destruct E as (q & E & _). eauto. }
    apply mapM_results in Hout. rewrite (proj2 (H2 fb out Hn) Hout). cbn [bind]. destruct Hout as [HLo HNo].
    destruct (mapM_total g out) as [out2 Hout2].
    { intros q Hq. apply In_nth_error in Hq. destruct Hq as [i Hi].
      assert (Hl : i < fb_n_samples fb) by (rewrite <- HLo; apply nth_error_Some; congruence).
      destruct (HN i Hl) as (q' & _ & E). destruct (HNo i Hl) as (q2 & E1 & E2). rewrite E2 in E. cbn [bind] in E.
      assert (q2 = q) by congruence. subst q2. eauto. }
    rewrite Hout2. f_equal. destruct (mapM_ok _ _ _ Hout2) as [HL2 HN2]. apply nth_error_ext. intros i.
    destruct (Nat.lt_ge_cases i (fb_n_samples fb)) as [Hi|Hi].
    + destruct (HN i Hi) as (q' & E0 & E). destruct (HNo i Hi) as (q2 & E1 & E2). rewrite E2 in E. cbn [bind] in E.
      destruct (HN2 i q2 E1) as (q3 & E3 & E4). congruence.
    + rewrite (proj2 (nth_error_None _ _)), (proj2 (nth_error_None _ _)); auto; lia.
Qed.

Lemma mapM_pure : forall {X Y} (g : X -> Y) l, mapM (fun x => Ok (g x)) l = Ok (map g l).
Proof. induction l as [|x l IH]; [reflexivity|]. cbn [mapM map bind]. rewrite IH. reflexivity. Qed.

Lemma rowwise_map : forall {Q Q'} (M : fba -> res (list Q)) (g : Q -> Q'), rowwise M ->
  rowwise (fun fb => let* out := M fb in Ok (map g out)).
Proof.
  intros Q Q' M g H. apply (rowwise_ext (fun fb => let* out := M fb in mapM (fun q => Ok (g q)) out)); [|apply rowwise_then; auto].
  intros fb. destruct (M fb); [|reflexivity]. cbn [bind]. apply mapM_pure.
Qed.

(** Each tree in its turn adds something to each row. *)
Lemma fold_results : forall {Q P} (pred : nat -> res (list P)) (f : nat -> nat -> res P) (add : nat -> Q -> P -> res Q) n, 0 < n ->
  (forall t out, pred t = Ok out <-> length out = n /\ forall i, i < n -> exists q, nth_error out i = Some q /\ f t i = Ok q) ->
  forall order init out, length init = n ->
  (foldM (fun out t => let* preds := pred t in
                       if negb (length out =? length preds) then Err ValueErr
                       else mapM (fun '(q, p) => add t q p) (combine out preds)) order init = Ok out <->
   length out = n /\ forall i, i < n -> exists z q, nth_error init i = Some z /\ nth_error out i = Some q /\
     foldM (fun q t => let* p := f t i in add t q p) order z = Ok q).
Proof.
  intros Q P pred f add n Hn Hp. induction order as [|t order IH]; intros init out HL; cbn [foldM].
  - split.
    + intros H. injection H as <-. split; auto. intros i Hi. destruct (nth_error init i) as [z|] eqn:E; [eauto|].
      apply nth_error_None in E. lia.
    + intros [HLo HN]. f_equal. apply nth_error_ext. intros i. destruct (Nat.lt_ge_cases i n) as [Hi|Hi].
      * destruct (HN i Hi) as (z & q & E1 & E2 & E3). injection E3 as ->. congruence.
      * rewrite (proj2 (nth_error_None _ _)), (proj2 (nth_error_None _ _)); auto; lia.
  - split.
    + intros H. apply bind_ok in H. destruct H as (out1 & H1 & H2). apply bind_ok in H1. destruct H1 as (preds & Hpr & H1).
      apply Hp in Hpr. destruct Hpr as [HLp HNp]. rewrite HL, HLp, Nat.eqb_refl in H1. cbn [negb] in H1.
      destruct (mapM_ok _ _ _ H1) as [HL1 HN1]. rewrite combine_length, HL, HLp, Nat.min_id in HL1.
      apply (IH out1 out HL1) in H2. destruct H2 as [HLo HN]. split; auto. intros i Hi.
      destruct (HN i Hi) as (z1 & q & E1 & E2 & E3). destruct (HNp i Hi) as (p & E4 & E5).
      destruct (nth_error init i) as [z|] eqn:Ez; [|apply nth_error_None in Ez; lia].
      exists z, q. split; auto. split; auto. rewrite E5. cbn [bind].
      destruct (HN1 i (z, p)) as (z1' & E6 & E7).
      { apply P_Encoder.nth_error_combine. auto. }
      rewrite E7. cbn [bind]. assert (z1' = z1) by congruence. subst. exact E3.
    + intros [HLo HN].
      destruct (mapM_total (f t) (seq 0 n)) as [preds Hpreds].
      { intros i Hi. apply in_seq in Hi. destruct (HN i) as (z & q & _ & _ & E); [lia|]. apply bind_ok in E. destruct E as (z1 & E & _).
        apply bind_ok in E. destruct E as (p & E & _). eauto. }
      apply mapM_results in Hpreds. pose proof (proj2 (Hp t preds) Hpreds) as Hpr. rewrite Hpr. cbn [bind]. destruct Hpreds as [HLp HNp].
      rewrite HL, HLp, Nat.eqb_refl. cbn [negb].
      destruct (mapM_total (fun '(q, p) => add t q p) (combine init preds)) as [out1 Hout1].
      { intros [z p] Hin. apply In_nth_error in Hin. destruct Hin as [i Hi]. apply P_Encoder.nth_error_combine in Hi. destruct Hi as [Hi1 Hi2].
        assert (Hi : i < n) by (rewrite <- HLp; apply nth_error_Some; congruence).
        destruct (HN i Hi) as (z0 & q & E1 & _ & E). destruct (HNp i Hi) as (p0 & E2 & E3). rewrite E3 in E. cbn [bind] in E.
        apply bind_ok in E. destruct E as (z1 & E & _). assert (z0 = z) by congruence. assert (p0 = p) by congruence. subst. eauto. }
      rewrite Hout1. cbn [bind]. destruct (mapM_ok _ _ _ Hout1) as [HL1 HN1]. rewrite combine_length, HL, HLp, Nat.min_id in HL1.
      apply (IH out1 out HL1). split; auto. intros i Hi. destruct (HN i Hi) as (z & q & E1 & E2 & E). destruct (HNp i Hi) as (p & E3 & E4).
      rewrite E4 in E. cbn [bind] in E. apply bind_ok in E. destruct E as (z1 & E5 & E6).
      destruct (HN1 i (z, p)) as (z1' & E7 & E8); [apply P_Encoder.nth_error_combine; auto|].
      exists z1', q. split; auto. split; auto. congruence.
Qed.

Lemma rowwise_fold : forall {Q P} (pred : nat -> fba -> res (list P)) (add : nat -> Q -> P -> res Q) order zero,
  (exists f : nat -> fba -> nat -> res P, (forall t fb i fb' i', alike fb i fb' i' -> f t fb i = f t fb' i') /\
     forall t fb out, 0 < fb_n_samples fb -> (pred t fb = Ok out <-> results (f t) fb out)) ->
  rowwise (fun fb => foldM (fun out t => let* preds := pred t fb in
                       if negb (length out =? length preds) then Err ValueErr
                       else mapM (fun '(q, p) => add t q p) (combine out preds)) order (repeat zero (fb_n_samples fb))).
Proof.
  intros Q P pred add order zero (f & H1 & H2).
  exists (fun fb i => foldM (fun q t => let* p := f t fb i in add t q p) order zero). split.
  { intros fb i fb' i' Ha. apply foldM_ext. intros q t _. rewrite (H1 _ _ _ _ _ Ha). reflexivity. }
  intros fb out Hn. rewrite (fold_results (fun t => pred t fb) (fun t i => f t fb i) add (fb_n_samples fb) Hn (fun t out => H2 t fb out Hn) order _ out (repeat_length _ _)).
  unfold results. split; intros [HL HN]; (split; [auto|]); intros i Hi.
  - destruct (HN i Hi) as (z & q & E1 & E2 & E3). apply nth_error_In in E1. apply repeat_spec in E1. subst z. eauto.
  - destruct (HN i Hi) as (q & E1 & E2). exists zero, q. split; auto. apply nth_error_repeat; auto.
Qed.

(** ** Trees *)

Section Trees.
Context {A : arith} {P Y : Type}.

Lemma find_leaf_alike : forall (t : tree A P) fb i fb' i', alike fb i fb' i' -> find_leaf t fb i = find_leaf t fb' i'.
Proof.
  intros t fb i fb' i' Ha. unfold find_leaf. generalize (S (tr_node_count t)) as fuel, 0 as idx.
  induction fuel as [|fuel IH]; intros idx; [reflexivity|]. cbn [find_leaf_loop]. destruct (get (tr_nodes t) idx) as [n|e]; [|reflexivity].
  cbn [bind]. destruct (nd_is_leaf n); [reflexivity|]. unfold next_node. destruct (idx_of (nd_feature n)) as [j|e]; [|reflexivity]. cbn [bind].
  rewrite (Ha j). destruct (let* v := get_value fb' i' j in _) as [c|e]; [|reflexivity]. cbn [bind]. apply IH.
Qed.

Lemma predict_alike : forall mix (t : tree A P) agg step fb i fb' i', alike fb i fb' i' ->
  predict_one mix t fb agg step i = predict_one mix t fb' agg step i'.
Proof. intros mix t agg step fb i fb' i' Ha. unfold predict_one. rewrite (find_leaf_alike t _ _ _ _ Ha). reflexivity. Qed.

Lemma depth_alike : forall (t : tree A P) step fb i fb' i', alike fb i fb' i' ->
  weighted_depth_one t fb step i = weighted_depth_one t fb' step i'.
Proof. intros t step fb i fb' i' Ha. unfold weighted_depth_one. rewrite (find_leaf_alike t _ _ _ _ Ha). reflexivity. Qed.

Lemma rowwise_err : forall {Q} e, rowwise (fun _ => Err e : res (list Q)).
Proof.
  intros Q e. exists (fun _ _ => Err e). split; auto. intros fb out Hn. split; [discriminate|]. intros [_ H]. destruct (H 0 Hn) as (q & _ & Hq). discriminate.
Qed.

Definition obj_row (mix : num A -> P -> P -> res P) (o : tobj A P Y) (fb : fba) (i : nat) : res P :=
  match ob_tree o with None => Err TypeErr | Some t => predict_one mix t fb (ob_aggregation o) (ob_step o) i end.

Lemma obj_row_alike : forall mix (o : tobj A P Y) fb i fb' i', alike fb i fb' i' -> obj_row mix o fb i = obj_row mix o fb' i'.
Proof. intros mix o fb i fb' i' Ha. unfold obj_row. destruct (ob_tree o); [|reflexivity]. apply predict_alike; auto. Qed.

Lemma obj_predict_results : forall mix (o : tobj A P Y) fb out, 0 < fb_n_samples fb -> (obj_predict mix o fb = Ok out <-> results (obj_row mix o) fb out).
Proof.
  intros mix o fb out Hn. unfold obj_predict, obj_row, results. destruct (ob_tree o) as [t|].
  - unfold tree_predict. apply mapM_results.
  - split; [discriminate|]. intros [_ H]. destruct (H 0 Hn) as (q & _ & Hq). discriminate.
Qed.

Lemma obj_predict_rowwise : forall mix (o : tobj A P Y), rowwise (obj_predict mix o).
Proof.
  intros mix o. exists (obj_row mix o). split; [intros; apply obj_row_alike; auto|]. intros fb out Hn. apply obj_predict_results; auto.
Qed.

Lemma obj_apply_rowwise : forall (o : tobj A P Y), rowwise (obj_apply o).
Proof.
  intros o. unfold obj_apply. destruct (ob_tree o) as [t|]; [|apply rowwise_err]. unfold tree_apply. apply rowwise_mapM.
  intros. apply find_leaf_alike; auto.
Qed.

Lemma obj_depth_rowwise : forall (o : tobj A P Y), rowwise (obj_weighted_depth o).
Proof.
  intros o. unfold obj_weighted_depth. destruct (ob_tree o) as [t|]; [|apply rowwise_err]. unfold tree_weighted_depth. apply rowwise_mapM.
  intros. apply depth_alike; auto.
Qed.

(** The sum over the trees. *)
Lemma sum_rowwise : forall {Q} mix (ts : list (tobj A P Y)) (add : nat -> Q -> P -> res Q) order zero,
  rowwise (fun fb => foldM (fun out t => let* tr := get ts t in
                      let* preds := obj_predict mix tr fb in
                      if negb (length out =? length preds) then Err ValueErr
                      else mapM (fun '(q, p) => add t q p) (combine out preds)) order (repeat zero (fb_n_samples fb))).
Proof.
  intros Q mix ts add order zero.
  apply (rowwise_ext (fun fb => foldM (fun out t => let* preds := (let* tr := get ts t in obj_predict mix tr fb) in
                       if negb (length out =? length preds) then Err ValueErr
                       else mapM (fun '(q, p) => add t q p) (combine out preds)) order (repeat zero (fb_n_samples fb)))).
  { intros fb. apply foldM_ext. intros out t _. destruct (get ts t); reflexivity. }
  apply (rowwise_fold (fun t fb => let* tr := get ts t in obj_predict mix tr fb)).
  exists (fun t fb i => let* tr := get ts t in obj_row mix tr fb i). split.
  - intros t fb i fb' i' Ha. destruct (get ts t); [|reflexivity]. cbn [bind]. apply obj_row_alike; auto.
  - intros t fb out Hn. destruct (get ts t) as [tr|e]; cbn [bind].
    + apply obj_predict_results; auto.
    + split; [discriminate|]. intros [_ H]. destruct (H 0 Hn) as (q & _ & Hq). discriminate.
Qed.
End Trees.

(** ** The encoder of a forest was fitted *)

Section Histories.
Context {A : arith} {E : env A} {L D : Type} {EC : encoding D} (ME : menv E).

Definition encoder_fitted {P Y} (o : fobj A L EC P Y) : Prop :=
  forall enc, fo_encoder o = Some enc -> exists mb X, ec_fit EC mb X = Ok enc.

Lemma on_trees_encoder : forall {P Y} f (o : fobj A L EC P Y), fo_encoder (fst (on_trees f o)) = fo_encoder o.
Proof. intros P Y f o. destruct (on_trees f o) as [o' e] eqn:Eo. rewrite (on_trees_attrs _ _ _ _ Eo). reflexivity. Qed.

Lemma fit_end_encoder : forall {P Y} (o : fobj A L EC P Y) X r tc build, encoder_fitted o -> encoder_fitted (fst (fit_end ME o X r tc build)).
Proof.
  intros P Y o X r tc build H. unfold fit_end, raise.
  destruct (get_max_features ME (fo_max_features o) (snd (ec_shape EC X))); [|exact H].
  destruct (fo_random_state o); [|exact H]. cbv zeta.
  destruct (ec_fit EC (fo_max_bins o) X) as [enc|e] eqn:Ef; cbn [bind]; [|exact H].
  destruct (ec_transform EC enc X) as [fb|e]; cbn [bind]; [|exact H].
  destruct (mapM _ _) as [ts|e]; cbn [fst]; intros enc' He; injection He as <-; eauto.
Qed.

Ltac branches := repeat match goal with
  | |- context [fst (on_trees ?f ?o)] => rewrite (on_trees_encoder f o)
  | |- context [match ?m with _ => _ end] => destruct m
  end; try reflexivity.

Lemma setattr_encoder : forall {P Y} crits losses p v (o : fobj A L EC P Y), fo_encoder (fst (setattr crits losses p v o)) = fo_encoder o.
Proof.
  intros P Y crits losses p v o. unfold setattr. destruct p; unfold set_n_estimators, set_criterion, set_loss, set_fstep, set_aggregation, set_max_depth,
    set_min_samples_split, set_min_samples_leaf, set_max_bins, set_max_features, set_n_jobs, set_random_state, set_verbose, raise; branches.
Qed.

Lemma setattr_clf_encoder : forall p v (o : clf_forest A L EC), fo_encoder (fst (setattr_clf E p v o)) = fo_encoder o.
Proof.
  intros p v o. unfold setattr_clf. destruct p; try apply setattr_encoder;
    unfold set_fdirichlet, set_class_weight, set_multiclass, set_cat_split_strategy, raise; branches.
Qed.

Lemma set_all_encoder : forall {P Y} set l (o o' : fobj A L EC P Y), (forall p v o, fo_encoder (fst (set p v o)) = fo_encoder o) ->
  set_all set l o = Ok o' -> fo_encoder o' = fo_encoder o.
Proof.
  intros P Y set l. induction l as [|[p v] l IH]; intros o o' Hs H; cbn [set_all] in H; [congruence|].
  destruct (set p v o) as [o1 [e|]] eqn:Es; [discriminate|]. rewrite (IH o1 o' Hs H). rewrite <- (Hs p v o), Es. reflexivity.
Qed.

Lemma clf_fit_encoder : forall leb (o : clf_forest A L EC) X y sw, encoder_fitted o -> encoder_fitted (fst (fst (clf_fit leb ME o X y sw))).
Proof.
  intros leb o X y sw H. unfold clf_fit, raise. cbv zeta.
  destruct (negb _); [exact H|]. destruct (check_weights _ _) as [w|e]; [|exact H].
  set (r := match fo_multiclass o with Ovr => _ | Multinomial => _ end).
  assert (Hr : fo_encoder (fst r) = fo_encoder o).
  { subst r. destruct (fo_multiclass o); [reflexivity|]. destruct (_ <=? 2); [|reflexivity]. unfold set_multiclass, raise. branches. }
  destruct r as [o2 e2]. cbn [fst] in Hr. assert (H2 : encoder_fitted o2) by (intros enc He; apply H; congruence).
  destruct e2 as [e|]; [exact H2|]. destruct (fo_dirichlet o2); [|exact H2]. destruct (_ && _); [exact H2|].
  destruct (fo_multiclass o2); apply fit_end_encoder; exact H2.
Qed.

Lemma reg_fit_encoder : forall (o : reg_forest A L EC) X y sw, encoder_fitted o -> encoder_fitted (fst (fst (reg_fit ME o X y sw))).
Proof.
  intros o X y sw H. unfold reg_fit, raise. cbv zeta.
  destruct (negb _); [exact H|]. destruct (check_weights _ _) as [w|e]; [|exact H]. apply fit_end_encoder; exact H.
Qed.

Lemma clf_history_encoder : forall leb args (o : clf_forest A L EC) ops, new_clf E EC args = Ok o ->
  encoder_fitted (fold_left (clf_run leb ME) ops o).
Proof.
  intros leb args o ops Hnew. assert (H0 : encoder_fitted o).
  { intros enc He. unfold new_clf in Hnew. rewrite (set_all_encoder _ _ _ _ setattr_clf_encoder Hnew) in He. discriminate. }
  clear Hnew. revert o H0. induction ops as [|op ops IH]; intros o H0; [exact H0|]. cbn [fold_left]. apply IH. destruct op as [p v|X y sw|]; cbn [clf_run].
  - intros enc He. rewrite setattr_clf_encoder in He. apply H0; auto.
  - apply clf_fit_encoder; auto.
  - intros enc He. unfold flighten in He. rewrite on_trees_encoder in He. apply H0; auto.
Qed.

Lemma reg_history_encoder : forall args (o : reg_forest A L EC) ops, new_reg EC args = Ok o ->
  encoder_fitted (fold_left (reg_run ME) ops o).
Proof.
  intros args o ops Hnew. assert (H0 : encoder_fitted o).
  { intros enc He. unfold new_reg in Hnew. rewrite (set_all_encoder _ _ _ _ (setattr_encoder _ _) Hnew) in He. discriminate. }
  clear Hnew. revert o H0. induction ops as [|op ops IH]; intros o H0; [exact H0|]. cbn [fold_left]. apply IH. destruct op as [p v|X y sw|]; cbn [reg_run].
  - intros enc He. unfold setattr_reg in He. rewrite setattr_encoder in He. apply H0; auto.
  - apply reg_fit_encoder; auto.
  - intros enc He. unfold flighten in He. rewrite on_trees_encoder in He. apply H0; auto.
Qed.
End Histories.

(** ** The theorems *)

Section Tables.
(* the values of the cells and the environment of the encoder *)
Context {A' : arith} (V : values A') (GV : good_values V) (NM : Type) (nm_eqb : NM -> NM -> bool) (EE : eenv A') (to_int : num A' -> res Z).
Context (names : forall a b, nm_eqb a b = true <-> a = b).
Context (choices : forall n k, k < n -> length (ee_choice EE n k) = k).
Context (st : settings (A := A')).
Notation EC := (forest_encoding V NM nm_eqb EE to_int st).
(* the forest, in any arithmetic *)
Context {A : arith} {E : env A} (ME : menv E) {L : Type} (leb : L -> L -> bool).

Lemma rows_alike : forall mb X0 (enc : ec_enc EC) (X X' : table V NM) fb fb',
  ec_fit EC mb X0 = Ok enc -> ec_transform EC enc X = Ok fb -> ec_transform EC enc X' = Ok fb' ->
  reading V (tb_X V NM X) = reading V (tb_X V NM X') ->
  0 < fb_n_samples fb /\ fb_n_samples fb = fst (shape V NM (tb_X V NM X)) /\
  forall i i', i < fst (shape V NM (tb_X V NM X)) -> same_row V (tb_X V NM X) i (tb_X V NM X') i' ->
    i' < fst (shape V NM (tb_X V NM X')) /\ alike fb i fb' i'.
Proof.
  intros mb X0 [c e] X X' fb fb' Hf Ht Ht' Hr. cbn in Hf, Ht, Ht'.
  destruct (encode_inv V NM EE to_int _ _ _ _ _ _ Hf) as (mask & _ & _ & Hfit).
  destruct (fit_inv V NM EE _ _ _ _ Hfit) as (cols & cm & F1 & F2 & F3 & _).
  destruct (transform_exact V NM nm_eqb EE GV names choices _ _ _ _ _ _ _ (tb_ok V NM X0) Hfit F2 (tb_ok V NM X) (tb_clean V NM X) Ht) as (_ & N1 & N2 & N3 & N4 & _).
  assert (Hn : 0 < fst (shape V NM (tb_X V NM X))).
  { pose proof (tb_ok V NM X) as HX. destruct (tb_X V NM X) as [n cs|k n cs| |]; try contradiction N4; simpl in *; lia. }
  split; [lia|]. split; [exact N1|]. intros i i' Hi Hs. split.
  - assert (Hc : 0 < snd (shape V NM (tb_X V NM X))).
    { rewrite N3. destruct (fit_inv V NM EE _ _ _ _ Hfit) as (cols' & cm' & _ & _ & _ & _ & _ & Hc & _). lia. }
    destruct (cell_at_in V NM (tb_X V NM X) i 0 (tb_ok V NM X) Hi Hc) as [x Hx]. rewrite (Hs 0) in Hx.
    apply (cell_at_lt V NM _ _ _ _ (tb_ok V NM X') Hx).
  - intros j. eapply (encoded_row V NM nm_eqb EE GV names choices); try exact Hfit; try exact Ht; try exact Ht'; auto using tb_ok, tb_clean.
Qed.

Lemma method_by_row : forall {Q} (method : table V NM -> res (list Q)) mb X0 (enc : ec_enc EC) (M : fba -> res (list Q)),
  ec_fit EC mb X0 = Ok enc -> (forall X, method X = let* fb := ec_transform EC enc X in M fb) -> rowwise M -> by_row V method.
Proof.
  intros Q method mb X0 enc M Hf Hm HR. split; [|split].
  - intros X out H. rewrite Hm in H. apply bind_ok in H. destruct H as (fb & Ht & H).
    destruct (rows_alike _ _ _ _ _ _ _ Hf Ht Ht eq_refl) as (Hn & Hs & _). rewrite <- Hs. eapply rowwise_length; eauto.
  - intros X X' out out' i i' H H' Hr Hi Hs. rewrite Hm in H, H'. apply bind_ok in H. destruct H as (fb & Ht & H). apply bind_ok in H'. destruct H' as (fb' & Ht' & H').
    destruct (rows_alike _ _ _ _ _ _ _ Hf Ht Ht' Hr) as (Hn & Hl & Ha). destruct (rows_alike _ _ _ _ _ _ _ Hf Ht' Ht (eq_sym Hr)) as (Hn' & Hl' & _).
    destruct (Ha i i' Hi Hs) as [Hi' Hal]. apply (rowwise_two M fb fb' out out' i i'); auto; lia.
  - intros X X' rows out H HP. rewrite Hm in H. apply bind_ok in H. destruct H as (fb & Ht & H).
    assert (Hfit : exists c e, enc = (c, e) /\ fit V NM EE c (new_encoder V) (tb_X V NM X0) = (e, Ok tt)).
    { destruct enc as [c e]. cbn in Hf. destruct (encode_inv V NM EE to_int _ _ _ _ _ _ Hf) as (mask & _ & _ & Hfit). eauto. }
    destruct Hfit as (c & e & -> & Hfit).
    destruct (encoded_picked V NM nm_eqb EE GV names choices _ _ _ _ _ _ _ _ (tb_ok V NM X0) Hfit (tb_ok V NM X) (tb_clean V NM X) Ht (tb_ok V NM X') (tb_clean V NM X') HP)
      as (fb' & Ht' & Hn'). change (ec_transform EC (c, e) X' = Ok fb') in Ht'. rewrite Hm, Ht'. cbn [bind].
    destruct (picked_shape V NM _ _ _ HP) as (_ & HRd & _).
    destruct (rows_alike _ _ _ _ _ _ _ Hf Ht Ht' (eq_sym HRd)) as (Hn & Hl & Ha). destruct (rows_alike _ _ _ _ _ _ _ Hf Ht' Ht HRd) as (Hn2 & Hl' & _).
    apply (rowwise_pick M fb fb' out rows HR Hn Hn2 H Hn').
    intros k i Hk. pose proof (picked_row V NM _ _ _ _ _ HP Hk) as Hs.
    (* the row exists in X *)
    assert (Hi : i < fst (shape V NM (tb_X V NM X))).
    { assert (Hc : 0 < snd (shape V NM (tb_X V NM X'))).
      { destruct (fit_inv V NM EE _ _ _ _ Hfit) as (cols' & cm' & F1 & F2 & _ & _ & _ & Hc & _).
        destruct (transform_exact V NM nm_eqb EE GV names choices _ _ _ _ _ _ _ (tb_ok V NM X0) Hfit F2 (tb_ok V NM X') (tb_clean V NM X') Ht') as (_ & _ & _ & N3 & _). lia. }
      assert (Hk' : k < fst (shape V NM (tb_X V NM X'))) by (rewrite <- Hl', Hn'; apply nth_error_Some; congruence).
      destruct (cell_at_in V NM (tb_X V NM X') k 0 (tb_ok V NM X') Hk' Hc) as [x Hx]. rewrite <- (Hs 0) in Hx.
      apply (cell_at_lt V NM _ _ _ _ (tb_ok V NM X) Hx). }
    split; [lia|]. apply (Ha i k Hi Hs).
Qed.

Lemma mapM_Forall2 : forall {X Y} (f : X -> res Y) l out, mapM f l = Ok out <-> Forall2 (fun x y => f x = Ok y) l out.
Proof.
  intros X Y f l. induction l as [|x l IH]; intros out; cbn [mapM].
  - split; [intros H; injection H as <-; constructor|]. intros H. inversion H. reflexivity.
  - split.
    + intros H. apply bind_ok in H. destruct H as (y & H1 & H). apply bind_ok in H. destruct H as (out' & H2 & H). injection H as <-.
      constructor; auto. apply IH; auto.
    + intros H. inversion H as [|x' y l' out' H1 H2]; subst. rewrite H1. cbn [bind]. rewrite (proj2 (IH out') H2). reflexivity.
Qed.

Lemma method_by_tree : forall {Q O} (method : table V NM -> res (list (list Q))) mb X0 (enc : ec_enc EC) (ts : list O) (M : O -> fba -> res (list Q)),
  ec_fit EC mb X0 = Ok enc -> (forall X, method X = let* fb := ec_transform EC enc X in mapM (fun t => M t fb) ts) -> (forall t, rowwise (M t)) -> by_tree_and_row V method.
Proof.
  intros Q O method mb X0 enc ts M Hf Hm HR.
  assert (G : forall t, by_row V (fun X => let* fb := ec_transform EC enc X in M t fb)).
  { intros t. eapply method_by_row; eauto. }
  assert (K : forall X out, method X = Ok out -> Forall2 (fun t l => (let* fb := ec_transform EC enc X in M t fb) = Ok l) ts out).
  { intros X out H. rewrite Hm in H. destruct (ec_transform EC enc X) as [fb|e]; [|discriminate]. cbn [bind] in *. apply mapM_Forall2. exact H. }
  split; [|split].
  - intros X out l H Hl. apply K in H. clear Hm K. revert Hl. induction H as [|t l' ts' out' H1 H2 IH]; intros Hl; [destruct Hl|].
    destruct Hl as [->|Hl]; [|auto]. apply (proj1 (G t) X l H1).
  - intros X X' out out' i i' H H' Hr Hi Hs. apply K in H. apply K in H'. clear Hm K. revert out' H'.
    induction H as [|t l ts' out H1 H2 IH]; intros out' H'; inversion H' as [|t' l' ts2 out2 H1' H2']; subst; constructor; auto.
    exact (proj1 (proj2 (G t)) X X' l l' i i' H1 H1' Hr Hi Hs).
  - intros X X' rows out H HP. pose proof H as H0. apply K in H.
    assert (S : exists fb', ec_transform EC enc X' = Ok fb').
    { assert (Hfit : exists c e, enc = (c, e) /\ fit V NM EE c (new_encoder V) (tb_X V NM X0) = (e, Ok tt)).
      { destruct enc as [c e]. cbn in Hf. destruct (encode_inv V NM EE to_int _ _ _ _ _ _ Hf) as (mask & _ & _ & Hfit). eauto. }
      destruct Hfit as (c & e & -> & Hfit). rewrite Hm in H0. apply bind_ok in H0. destruct H0 as (fb & Ht & _).
      destruct (encoded_picked V NM nm_eqb EE GV names choices _ _ _ _ _ _ _ _ (tb_ok V NM X0) Hfit (tb_ok V NM X) (tb_clean V NM X) Ht (tb_ok V NM X') (tb_clean V NM X') HP)
        as (fb' & Ht' & _). exists fb'. exact Ht'. }
    destruct S as [fb' Ht']. rewrite Hm, Ht'. cbn [bind].
    assert (S2 : exists out', Forall2 (fun t l => M t fb' = Ok l) ts out' /\ Forall2 (picked rows) out out').
    { clear Hm K H0. induction H as [|t l ts' out H1 H2 IH]; [exists []; split; constructor|]. destruct IH as (out' & I1 & I2).
      destruct (proj2 (proj2 (G t)) X X' rows l H1 HP) as (l' & E1 & E2). rewrite Ht' in E1. cbn [bind] in E1.
      exists (l' :: out'). split; constructor; auto. }
    destruct S2 as (out' & E1 & E2). exists out'. split; auto. apply mapM_Forall2. exact E1.
Qed.

Lemma by_row_err : forall {Q} e, by_row V (fun _ : table V NM => Err e : res (list Q)).
Proof. intros Q e. split; [|split]; intros; discriminate. Qed.
Lemma by_tree_err : forall {Q} e, by_tree_and_row V (fun _ : table V NM => Err e : res (list (list Q))).
Proof. intros Q e. split; [|split]; intros; discriminate. Qed.
Lemma by_row_ext : forall {Q} (m m' : table V NM -> res (list Q)), (forall X, m X = m' X) -> by_row V m -> by_row V m'.
Proof.
  intros Q m m' He (H1 & H2 & H3). split; [|split].
  - intros X out H. rewrite <- He in H. eauto.
  - intros X X' out out' i i' H H'. rewrite <- He in H. rewrite <- He in H'. eauto.
  - intros X X' rows out H HP. rewrite <- He in H. destruct (H3 _ _ _ _ H HP) as (out' & K1 & K2). exists out'. rewrite <- He. auto.
Qed.

(** What the methods of a forest do with the table. *)
Lemma helper_by_row : forall {P Y Q} (o : fobj A L EC P Y) (body : list (tobj A P Y) -> fba -> res (list Q)), encoder_fitted o ->
  (forall ts, fo_trees o = Some ts -> rowwise (body ts)) ->
  by_row V (fun X => let* ' (fb, ts) := predict_helper o X in body ts fb).
Proof.
  intros P Y Q o body Hf HR. unfold predict_helper. destruct (fo_encoder o) as [enc|] eqn:He; [|apply by_row_err].
  destruct (Hf enc He) as (mb & X0 & Hfit). destruct (fo_trees o) as [ts|].
  - apply (method_by_row _ mb X0 enc (body ts) Hfit); auto. intros X. destruct (ec_transform EC enc X); reflexivity.
  - apply (by_row_ext (fun X => let* fb := ec_transform EC enc X in (fun _ => Err TypeErr) fb)).
    { intros X. destruct (ec_transform EC enc X); reflexivity. }
    apply (method_by_row _ mb X0 enc (fun _ => Err TypeErr) Hfit); auto. apply rowwise_err.
Qed.

Lemma helper_by_tree : forall {P Y Q} (o : fobj A L EC P Y) (M : tobj A P Y -> fba -> res (list Q)), encoder_fitted o ->
  (forall t, rowwise (M t)) ->
  by_tree_and_row V (fun X => let* ' (fb, ts) := predict_helper o X in mapM (fun t => M t fb) ts).
Proof.
  intros P Y Q o M Hf HR. unfold predict_helper. destruct (fo_encoder o) as [enc|] eqn:He; [|apply by_tree_err].
  destruct (Hf enc He) as (mb & X0 & Hfit). destruct (fo_trees o) as [ts|].
  - apply (method_by_tree _ mb X0 enc ts M Hfit); auto. intros X. destruct (ec_transform EC enc X); reflexivity.
  - split; [|split]; intros X.
    + intros out l H. destruct (ec_transform EC enc X); discriminate.
    + intros X' out out' i i' H. destruct (ec_transform EC enc X); discriminate.
    + intros X' rows out H. destruct (ec_transform EC enc X); discriminate.
Qed.

(** [predict_proba] after the encoding. *)
Definition proba_body (small : num A -> bool) (order : list nat) (o1 : clf_forest A L EC) (ts : list (tobj A (list (num A)) nat)) (fb : fba) : res (list (list (num A))) :=
  if negb (fo_fitted o1) then Err ValueErr
  else match fo_multiclass o1 with
  | Ovr => let* out := accumulate_proba (Z.to_nat (fo_n_estimators o1)) true ts fb order (length (fo_classes o1)) in
           Ok (map (normalise_ovr small (length (fo_classes o1))) out)
  | Multinomial => let* out := accumulate_proba (Z.to_nat (fo_n_estimators o1)) false ts fb order (length (fo_classes o1)) in
           Ok (map (map (fun x => adiv x (aofnat (length ts)))) out)
  end.

Lemma proba_rowwise : forall small order o1 ts, rowwise (proba_body small order o1 ts).
Proof.
  intros small order o1 ts. unfold proba_body. destruct (negb (fo_fitted o1)); [apply rowwise_err|].
  destruct (fo_multiclass o1); unfold accumulate_proba.
  - apply (rowwise_map _ (map (fun x => adiv x (aofnat (length ts))))). apply (sum_rowwise mix_vec ts (add_proba (Z.to_nat (fo_n_estimators o1)) false)).
  - apply (rowwise_map _ (normalise_ovr small (length (fo_classes o1)))). apply (sum_rowwise mix_vec ts (add_proba (Z.to_nat (fo_n_estimators o1)) true)).
Qed.

(** Classifiers: predict_proba and predict, for any order in which the threads add their
    predictions, then predict_proba_trees and apply, for a forest on which anything was done
    since its construction. *)
Theorem C68_classifier : forall args (o : clf_forest A L EC) ops, new_clf E EC args = Ok o ->
  let o1 := fold_left (clf_run leb ME) ops o in
  (forall small order, by_row V (fun X => predict_proba small order o1 X)) /\
  (forall small order, by_row V (fun X => predict_class small order o1 X)) /\
  by_tree_and_row V (fun X => predict_proba_trees o1 X) /\
  by_tree_and_row V (fun X => fapply o1 X).
Proof.
  intros args o ops Hnew o1. pose proof (clf_history_encoder ME leb args o ops Hnew) as Hf. fold o1 in Hf. clearbody o1.
  split; [|split; [|split]].
  - intros small order. apply (helper_by_row o1 (proba_body small order o1) Hf). intros ts _. apply proba_rowwise.
  - intros small order. unfold predict_class.
    eapply by_row_ext; [|apply (helper_by_row o1 (fun ts fb => let* probas := proba_body small order o1 ts fb in take_classes (fo_classes o1) probas) Hf)].
    + intros X. unfold predict_proba. destruct (predict_helper o1 X) as [[fb ts]|e]; reflexivity.
    + intros ts _. unfold take_classes. apply (rowwise_then _ _ (proba_rowwise small order o1 ts)).
  - unfold predict_proba_trees. apply (helper_by_tree o1 (fun t fb => obj_predict mix_vec t fb) Hf). intros t. apply obj_predict_rowwise.
  - unfold fapply. apply (helper_by_tree o1 (fun t fb => obj_apply t fb) Hf). intros t. apply obj_apply_rowwise.
Qed.

(** Regressors: predict, the weighted depths and apply. *)
Theorem C68_regressor : forall args (o : reg_forest A L EC) ops, new_reg EC args = Ok o ->
  let o1 := fold_left (reg_run ME) ops o in
  (forall order, by_row V (fun X => predict_reg order o1 X)) /\
  by_tree_and_row V (fun X => fweighted_depth o1 X) /\
  by_tree_and_row V (fun X => fapply o1 X).
Proof.
  intros args o ops Hnew o1. pose proof (reg_history_encoder ME args o ops Hnew) as Hf. fold o1 in Hf. clearbody o1.
  split; [|split].
  - intros order. unfold predict_reg.
    apply (helper_by_row o1 (fun ts fb => let* out := accumulate (fun q p => Ok (aadd q p)) ts mix_num fb order a0 in Ok (map (fun x => adiv x (aofnat (length ts))) out)) Hf). intros ts _.
    apply (rowwise_map _ (fun x => adiv x (aofnat (length ts)))). unfold accumulate. apply (sum_rowwise mix_num ts (fun _ q p => Ok (aadd q p))).
  - unfold fweighted_depth. apply (helper_by_tree o1 (fun t fb => obj_weighted_depth t fb) Hf). intros t. apply obj_depth_rowwise.
  - unfold fapply. apply (helper_by_tree o1 (fun t fb => obj_apply t fb) Hf). intros t. apply obj_apply_rowwise.
Qed.

(** The encoder alone: the bins of a row depend on this row only, and any choice of rows of a
    table that it accepts is accepted. *)
Theorem C68_encoder : forall cf e0 (X0 : xdata V NM) e (X X' : xdata V NM) fb,
  data_ok V X0 -> fit V NM EE cf e0 X0 = (e, Ok tt) ->
  data_ok V X -> clean V X -> transform V NM nm_eqb EE cf e X = Ok fb -> data_ok V X' -> clean V X' ->
  (forall fb' i i' j, transform V NM nm_eqb EE cf e X' = Ok fb' -> reading V X = reading V X' ->
     i < fst (shape V NM X) -> same_row V X i X' i' -> get_value fb i j = get_value fb' i' j) /\
  (forall rows, picked_table V rows X X' -> exists fb', transform V NM nm_eqb EE cf e X' = Ok fb' /\
     fb_n_samples fb' = length rows /\
     forall k i j, nth_error rows k = Some i -> i < fst (shape V NM X) -> get_value fb' k j = get_value fb i j).
Proof.
  intros cf e0 X0 e X X' fb HX0 Hf HX Hcl Ht HX' Hcl'. split.
  - intros fb' i i' j Ht' Hr Hi Hs. exact (encoded_row V NM nm_eqb EE GV names choices cf e0 X0 e X X' fb fb' i i' HX0 Hf HX Hcl Ht HX' Hcl' Ht' Hr Hi Hs j).
  - intros rows HP. destruct (encoded_picked V NM nm_eqb EE GV names choices cf e0 X0 e X X' rows fb HX0 Hf HX Hcl Ht HX' Hcl' HP) as (fb' & Ht' & Hn).
    exists fb'. split; auto. split; auto. intros k i j Hk Hi. symmetry.
    destruct (picked_shape V NM _ _ _ HP) as (_ & HRd & _).
    exact (encoded_row V NM nm_eqb EE GV names choices cf e0 X0 e X X' fb fb' i k HX0 Hf HX Hcl Ht HX' Hcl' Ht' (eq_sym HRd) Hi (picked_row V NM _ _ _ _ _ HP Hk) j).
Qed.
End Tables.

Print Assumptions C68_classifier.
Print Assumptions C68_regressor.
Print Assumptions C68_encoder.
