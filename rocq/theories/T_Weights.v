(** * C51 and C54: sample weights and class weights *)

Require Import String Bool List Arith Lia NArith ZArith QArith Reals Lra.
Require Import Verif.Base Verif.Num Verif.M_Bitarray Verif.M_Utils Verif.M_Context Verif.M_Split
  Verif.M_Tree Verif.M_Grow Verif.M_Object Verif.M_Forest Verif.S_Impurity Verif.S_Split Verif.S_Forest Verif.P_Forest Verif.T_Forest
  Verif.Ex_Data Verif.Ex_Forest Verif.Ex_ForestQ.
Import ListNotations.
Local Open Scope list_scope.
Local Open Scope nat_scope.

(** ** C54: class_weight="balanced" *)

(** The total weight of the samples with label [k]. *)
Definition class_total (y : list nat) (w : list R) (k : nat) : R :=
  Rsum (map snd (filter (fun p => fst p =? k) (combine y w))).

(** Every class present in the data has the same total weight. *)
Theorem C54_totals : forall (y : list nat) k, In k y ->
  class_total y (@balanced R_arith y) k = (INR (length y) / INR (length (nodup Nat.eq_dec y)))%R.
Proof.
  assert (HU : forall y, length (present y) = length (nodup Nat.eq_dec y)).
  { intros y. assert (HO : total_order Nat.leb) by (constructor; intros; rewrite ?Nat.leb_le in *; lia).
    apply Nat.le_antisymm; apply NoDup_incl_length.
    - apply (sorted_lt_nodup Nat.leb). apply (uniq_sorted Nat.leb HO).
    - intros x Hx. apply nodup_In. apply (uniq_in Nat.leb HO). exact Hx.
    - apply NoDup_nodup.
    - intros x Hx. apply (uniq_in Nat.leb HO). apply nodup_In in Hx. exact Hx. }
  intros y k Hk. unfold class_total, balanced.
  assert (E : forall (f : nat -> R) l, Rsum (map snd (filter (fun p => fst p =? k) (combine l (map f l)))) = (INR (count_occ Nat.eq_dec l k) * f k)%R).
  { intros f l. induction l as [|x l IH]; cbn [map combine filter count_occ Rsum]; [cbn; lra|]. cbn [fst].
    destruct (Nat.eqb_spec x k) as [->|Hne].
    - cbn [map Rsum snd]. rewrite IH. destruct (Nat.eq_dec k k); [|congruence]. rewrite S_INR. lra.
    - destruct (Nat.eq_dec x k); [congruence|]. exact IH. }
  pose proof (E (@balanced_weight R_arith y) y) as E1. etransitivity; [exact E1|]. unfold balanced_weight. cbn.
  rewrite HU. apply (count_occ_In Nat.eq_dec) in Hk.
  assert (H1 : (INR (count_occ Nat.eq_dec y k) <> 0)%R) by (apply not_0_INR; lia).
  assert (H2 : (INR (length (nodup Nat.eq_dec y)) <> 0)%R).
  { apply not_0_INR. intros H0. apply length_zero_iff_nil in H0. assert (Hin : In k (nodup Nat.eq_dec y)) by (apply nodup_In, (count_occ_In Nat.eq_dec); lia).
    rewrite H0 in Hin. destruct Hin. }
  field. auto.
Qed.
Print Assumptions C54_totals.
Example C54_totals_applies : class_total [2; 2; 0; 0; 1; 2; 1; 0] (@balanced R_arith [2; 2; 0; 0; 1; 2; 1; 0]) 1 = (8 / 3)%R.
Proof. rewrite C54_totals by (simpl; auto 20). simpl. lra. Qed.

Section Fits.
Context {A : arith} {E : env A} {L D : Type} (leb : L -> L -> bool) {EC : encoding D} (ME : menv E).
Notation T := (num A).
Notation forest := (clf_forest A L EC).

Lemma fit_end_balanced : forall (o : forest) b X repeats k build,
  fit_end ME (w_balanced o b) X repeats k build = (w_balanced (fst (fit_end ME o X repeats k build)) b, snd (fit_end ME o X repeats k build)).
Proof.
  intros o b X repeats k build. unfold fit_end. cbn [fo_max_features w_balanced fo_random_state fo_n_estimators fo_max_bins].
  destruct (get_max_features _ _ _); [|reflexivity]. destruct (fo_random_state o); [|reflexivity].
  destruct (bind _ _) as [[enc fb]|e]; [|reflexivity].
  change (tree_params_of (w_balanced o b) a (ec_cats EC enc)) with (tree_params_of o a (ec_cats EC enc)).
  destruct (mapM _ _); reflexivity.
Qed.

(** The weights that the training uses for sample labels [codes]. *)
Definition times_balanced (w : list T) (codes : list nat) : list T := map (fun '(a, b) => amul a b) (combine w (balanced codes)).

(** With one forest for all classes, balanced class weights are the same thing as sample
    weights multiplied by them: same trees, same exception. *)
Theorem C54_multinomial : forall (o : forest) X y sw w, fo_balanced o = true -> fo_multiclass o = Multinomial ->
  length y = fst (ec_shape EC X) -> check_weights (length y) (option_map snd sw) = Ok w ->
  let w' := times_balanced w (encode_labels leb (uniq leb y) y) in
  let r := clf_fit leb ME (w_balanced o false) X y (Some (false, w')) in
  fst (clf_fit leb ME o X y sw) = (w_balanced (fst (fst r)) true, snd (fst r)).
Proof.
  intros o X y sw w Hb Hm Hl Hw w' r. unfold r, clf_fit. cbn [option_map snd fo_multiclass w_balanced].
  rewrite Hl, Nat.eqb_refl. cbn [negb]. rewrite <- Hl, Hw.
  assert (Lw : length w = length y).
  { destruct sw as [[f l]|]; cbn in Hw; [|injection Hw as <-; apply repeat_length]. destruct (length l =? length y) eqn:El; [|discriminate].
    injection Hw as <-. apply Nat.eqb_eq. exact El. }
  assert (Lw' : length w' = length y).
  { unfold w', times_balanced, balanced, encode_labels. rewrite map_length, combine_length, !map_length, Lw. apply Nat.min_id. }
  assert (Ec : check_weights (length y) (Some w') = Ok w') by (unfold check_weights; rewrite Lw', Nat.eqb_refl; reflexivity).
  rewrite Ec, Hm.
  set (o1 := w_classes o (uniq leb y)).
  assert (Ho : w_balanced o1 true = o1) by (unfold o1; destruct o; cbn in *; subst; reflexivity).
  change (w_classes (w_balanced o false) (uniq leb y)) with (w_balanced o1 false).
  cbn [fo_dirichlet fo_aggregation fo_criterion fo_strategy w_balanced].
  destruct (fo_dirichlet o1) as [d|]; cbn [raise fst snd]; [|change (w_balanced (w_balanced o1 false) true) with (w_balanced o1 true); rewrite Ho; reflexivity].
  destruct (fo_aggregation o1 && aisz d)%bool; cbn [raise fst snd]; [change (w_balanced (w_balanced o1 false) true) with (w_balanced o1 true); rewrite Ho; reflexivity|].
  assert (Em : fo_multiclass o1 = Multinomial) by exact Hm. assert (Eb : fo_balanced o1 = true) by exact Hb.
  cbn [fo_multiclass w_balanced]. rewrite Em, Eb. cbn [fo_balanced fst snd].
  rewrite fit_end_balanced. cbn [fst snd].
  match goal with |- fit_end ME o1 X 1 ?k ?b = (w_balanced (w_balanced (fst ?f) false) true, _) => change f with (fit_end ME o1 X 1 k b) end.
  change (forall p : fobj A L EC (list T) nat * option err, p = p) in |- * || idtac.
  pose proof (fit_end_balanced o1 true X 1 (length (uniq leb y)) (fun p fb _ seed =>
     build_tree ME (clf_task E (length (uniq leb y)) d (crit_of (fo_criterion o1)) (fo_strategy o1)) d p fb (encode_labels leb (uniq leb y) y) w' seed)) as F.
  rewrite Ho in F. exact F.
Qed.

(** ** C51: the caller's array *)
Theorem C51_untouched : forall (o : forest) X y sw,
  (fo_balanced o = false \/ (fo_multiclass o = Ovr /\ 2 < length (uniq leb y)) \/ match sw with Some (float32, _) => float32 = false | None => True end) ->
  snd (clf_fit leb ME o X y sw) = match sw with Some (_, l) => l | None => [] end.
Proof.
  intros o X y sw H. unfold clf_fit. destruct (negb _); [destruct sw as [[f l]|]; reflexivity|].
  destruct (check_weights _ _) as [w|e] eqn:Ew; [|destruct sw as [[f l]|]; reflexivity].
  assert (Kw : match sw with Some (_, l) => l = w | None => True end).
  { destruct sw as [[f l]|]; [|exact I]. cbn in Ew. destruct (length l =? _); [congruence|discriminate]. }
  destruct (match fo_multiclass o with Ovr => _ | Multinomial => _ end) as [o2 e2] eqn:E2.
  destruct e2; [destruct sw as [[f l]|]; reflexivity|].
  destruct (fo_dirichlet o2); [|destruct sw as [[f l]|]; reflexivity]. destruct (_ && _)%bool; [destruct sw as [[f l]|]; reflexivity|].
  assert (K2 : fo_balanced o2 = fo_balanced o /\ (2 < length (uniq leb y) -> fo_multiclass o2 = fo_multiclass o)).
  { destruct (fo_multiclass o) eqn:Em; [injection E2 as <-; auto|]. destruct (Nat.leb_spec (length (uniq leb y)) 2).
    - unfold set_multiclass in E2. repeat match type of E2 with context [if ?b then _ else _] => destruct b | context [match ?b with _ => _ end] => destruct b end;
        try discriminate; injection E2 as <-; split; auto; lia.
    - injection E2 as <-. auto. }
  destruct K2 as [K2 K3]. destruct (fo_multiclass o2) eqn:Em2; cbv zeta; cbn [snd].
  - destruct sw as [[[|] l]|]; try reflexivity. rewrite K2. destruct H as [H|[[H1 H2]|H]]; [rewrite H; auto| |discriminate].
    specialize (K3 H2). congruence.
  - destruct sw as [[f l]|]; reflexivity.
Qed.

Theorem C51_regressor : forall (o : reg_forest A L EC) X y sw, snd (reg_fit ME o X y sw) = match sw with Some (_, l) => l | None => [] end.
Proof.
  intros o X y sw. unfold reg_fit. destruct (negb _); [destruct sw as [[f l]|]; reflexivity|].
  destruct (check_weights _ _); destruct sw as [[f l]|]; reflexivity.
Qed.

(** What a float32 array contains after a successful fit with balanced class weights. *)
Theorem C51_overwritten : forall (o o1 : forest) X y l c, fo_balanced o = true -> fo_multiclass o = Multinomial ->
  clf_fit leb ME o X y (Some (true, l)) = ((o1, None), c) -> c = times_balanced l (encode_labels leb (uniq leb y) y).
Proof.
  intros o o1 X y l c Hb Hm H. destruct (clf_fit_conds leb ME o X y _ o1 c H) as (w & d & C1 & C2 & C3 & C4 & C5).
  rewrite (clf_fit_eq leb ME o X y _ w d C1 C2 C3 C4 C5) in H. injection H as H Hc. rewrite <- Hc.
  cbn in C2. destruct (length l =? _); [|discriminate]. injection C2 as <-.
  unfold clf_caller, clf_codes, clf_weights, clf_ready. rewrite Hm. cbn [w_classes fo_multiclass fo_balanced fo_classes]. rewrite Hm, Hb. reflexivity.
Qed.
End Fits.
Print Assumptions C54_multinomial.
Print Assumptions C51_untouched.
Print Assumptions C51_regressor.
Print Assumptions C51_overwritten.

(** Two fits with the same array as argument: the array changes each time. *)
Theorem C51_refuted : exists (o : clf_forest QA nat ex_encoding) X y l c c', 
  (exists o1, clf_fit Nat.leb menv_Q o X y (Some (true, l)) = ((o1, None), c)) /\
  (exists o2, clf_fit Nat.leb menv_Q o X y (Some (true, c)) = ((o2, None), c')) /\
  Forall (fun w => w = 1%Q) l /\ In (8 # 9)%Q c /\ In (4 # 3)%Q c /\ In (16 # 9)%Q c' /\ In (64 # 81)%Q c'.
Proof.
  assert (G : forall (r : mresult QA nat ex_encoding (list (num QA)) nat * list (num QA)) c, okQ r = true -> snd r = c -> exists o1, r = ((o1, None), c)).
  { intros [[o1 [e|]] c0] c H1 H2; cbn in *; [discriminate|]. subst. eauto. }
  exists (exQ 3 MFNone Multinomial true false), X2, ex_names, onesQ. do 2 eexists.
  split; [apply G; [vm_compute; reflexivity|vm_compute; reflexivity]|].
  split; [apply G; [vm_compute; reflexivity|vm_compute; reflexivity]|].
  split; [repeat constructor|]. cbn. auto 20.
Qed.
Print Assumptions C51_refuted.

(** The hypotheses of the theorems above. *)
Example C54_multinomial_applies : exists w, fo_balanced (exQ 3 MFNone Multinomial true false) = true /\
  check_weights (A := QA) 8 None = Ok w /\ fst (ec_shape ex_encoding X2) = 8 /\
  okQ (clf_fit Nat.leb menv_Q (exQ 3 MFNone Multinomial true false) X2 ex_names None) = true /\
  times_balanced (A := QA) w (encode_labels Nat.leb [10; 20; 30] ex_names) = [8 # 9; 8 # 9; 8 # 9; 8 # 9; 4 # 3; 8 # 9; 4 # 3; 8 # 9]%Q.
Proof. eexists. split; [reflexivity|]. split; [reflexivity|]. split; [reflexivity|]. split; vm_compute; reflexivity. Qed.
