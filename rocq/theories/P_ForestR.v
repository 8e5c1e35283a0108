(** * Lemmas about whole forests in exact arithmetic *)

Require Import String Bool List Arith Lia NArith ZArith Reals Lra Permutation.
Require Import Verif.Base Verif.Num Verif.M_Bitarray Verif.M_Utils Verif.M_Impurity Verif.M_Context Verif.M_Node Verif.M_Split
  Verif.M_Tree Verif.M_Grow Verif.M_Object Verif.M_Forest Verif.S_Fit Verif.S_Tree Verif.S_Split Verif.S_Object Verif.S_Impurity Verif.S_Params Verif.S_Forest
  Verif.P_Impurity Verif.P_Prune Verif.P_SplitTasks Verif.T_GrowR Verif.T_Setters Verif.T_Bootstrap Verif.T_Params Verif.P_List Verif.P_Forest.
Import ListNotations.
Local Open Scope list_scope.
Local Open Scope nat_scope.

(** ** Positive weights stay positive *)

Lemma balanced_positive : forall codes k, In k codes -> (0 < @balanced_weight R_arith codes k)%R.
Proof.
  intros codes k Hk. unfold balanced_weight.
  change (0 < INR (length codes) / (INR (length (present codes)) * INR (count_occ Nat.eq_dec codes k)))%R.
  assert (H1 : 0 < length codes) by (destruct codes; [destruct Hk|simpl; lia]).
  assert (H2 : 0 < count_occ Nat.eq_dec codes k) by (apply (count_occ_In Nat.eq_dec); auto).
  assert (H3 : 0 < length (present codes)).
  { unfold present. destruct (uniq Nat.leb codes) as [|a r] eqn:Ep; [|simpl; lia].
    assert (Hin : In k (uniq Nat.leb codes)).
    { apply uniq_in; [|exact Hk]. constructor; intros; rewrite ?Nat.leb_le in *; lia. }
    rewrite Ep in Hin. destruct Hin. }
  apply lt_0_INR in H1, H2, H3. apply Rdiv_lt_0_compat; [auto|]. apply Rmult_lt_0_compat; auto.
Qed.

Lemma mul_positive : forall (w b : list R), positive_weights w -> positive_weights b -> @positive_weights (map (fun '(x, z) => @amul R_arith x z) (combine w b)).
Proof.
  intros w b Hw Hb x Hx. apply in_map_iff in Hx. destruct Hx as ([u v] & <- & Hin).
  apply Rmult_lt_0_compat; [apply Hw; eapply in_combine_l; eauto|apply Hb; eapply in_combine_r; eauto].
Qed.

Lemma clf_weights_positive : forall {L D} {EC : encoding D} (o2 : clf_forest R_arith L EC) w codes, positive_weights w -> positive_weights (clf_weights o2 w codes).
Proof.
  intros L D EC o2 w codes Hw. unfold clf_weights. destruct (fo_balanced o2); [|exact Hw]. apply mul_positive; [exact Hw|].
  intros x Hx. unfold balanced in Hx. apply in_map_iff in Hx. destruct Hx as (k & <- & Hk). apply balanced_positive; auto.
Qed.

Lemma get_some : forall {X} (l : list X) i x, get l i = Ok x -> nth_error l i = Some x.
Proof. intros X l i x H. unfold get in H. destruct (nth_error l i); congruence. Qed.

Lemma boot_positive : forall limit randint s n train valid counts (w w' : list (num R_arith)), in_range_draws randint ->
  generate_train_valid limit randint s n = Ok (train, valid, counts) -> length w = n ->
  @bootstrap_weights R_arith w train counts = Ok w' -> positive_weights w -> positive_weights w'.
Proof.
  intros limit randint s n train valid counts w w' HR H Hw Hb HP x Hx.
  destruct (@C14_weights R_arith limit randint s n train valid counts w HR H Hw) as (w2 & l & W1 & W2 & W3 & W4 & W5).
  assert (w2 = w') by congruence. subst w2.
  destruct (C14_bootstrap _ _ _ _ _ _ _ HR H) as (k & _ & _ & _ & _ & _ & _ & T5 & _).
  destruct (@In_nth_error (num R_arith) w' x Hx) as (i & Hi).
  assert (Hin : In i (train ++ valid)).
  { eapply Permutation_in; [symmetry; exact T5|]. apply in_seq. assert (Hlt : i < length w') by (apply nth_error_Some; rewrite Hi; discriminate). lia. }
  apply get_ok in Hi. apply in_app_or in Hin. destruct Hin as [Hin|Hin].
  - destruct (W4 i Hin) as [Hg Ht]. rewrite Hi in Hg. destruct (get w i) as [v|e] eqn:Ev; cbn [rmap] in Hg; [|discriminate].
    injection Hg as ->. apply get_some in Ev. apply nth_error_In in Ev. apply Rmult_lt_0_compat; [apply HP; auto|].
    apply (lt_0_INR (times l i)). lia.
  - rewrite (W5 i Hin) in Hi. apply get_some in Hi. apply nth_error_In in Hi. apply HP; auto.
Qed.

Lemma check_weights_positive : forall n sw w, @check_weights R_arith n sw = Ok w -> match sw with None => True | Some l => positive_weights l end -> positive_weights w.
Proof.
  intros n sw w H Hp. unfold check_weights in H. destruct sw as [l|].
  - destruct (length l =? n); inversion H; subst; auto.
  - inversion H; subst. intros x Hx. apply repeat_spec in Hx. subst x. exact Rlt_0_1.
Qed.

(** ** Sums over the trees *)

Lemma Rsum_const : forall {X} (l : list X) c, Rsum (map (fun _ => c) l) = (INR (length l) * c)%R.
Proof. induction l as [|x l IH]; intros c; cbn [map Rsum length]; [simpl; lra|]. rewrite IH, S_INR. lra. Qed.

Lemma Rsum_swap : forall {X Y} (f : X -> Y -> R) l m,
  Rsum (map (fun x => Rsum (map (fun y => f x y) m)) l) = Rsum (map (fun y => Rsum (map (fun x => f x y) l)) m).
Proof.
  intros X Y f l m. induction l as [|x l IH]; cbn [map Rsum].
  - rewrite Rsum_const. lra.
  - rewrite IH. rewrite <- Rsum_plus. reflexivity.
Qed.

Lemma nth_sum : forall (l : list R), Rsum l = Rsum (map (fun k => nth k l 0%R) (seq 0 (length l))).
Proof.
  induction l as [|x l IH]; [reflexivity|]. cbn [length seq map Rsum nth]. rewrite <- seq_shift, map_map. cbn [nth]. rewrite <- IH. reflexivity.
Qed.

(** [out] is the matrix with entries [f i k], [i < n], [k < K]. *)
Definition matrix (out : list (list R)) (n K : nat) (f : nat -> nat -> R) : Prop :=
  length out = n /\ forall i, i < n -> exists row, nth_error out i = Some row /\ length row = K /\ forall k, k < K -> nth k row 0%R = f i k.

Lemma matrix_zero : forall n K, matrix (repeat (repeat 0%R K) n) n K (fun _ _ => 0%R).
Proof.
  intros n K. split; [apply repeat_length|]. intros i Hi. exists (repeat 0%R K). split; [|split; [apply repeat_length|intros; apply nth_repeat]].
  apply nth_error_repeat; auto.
Qed.

Lemma zipM_R : forall l m : list R, length l = length m -> exists r, @zipM R Rplus l m = Ok r /\ length r = length l /\
  forall k, k < length l -> nth k r 0%R = (nth k l 0 + nth k m 0)%R.
Proof.
  induction l as [|x l IH]; intros [|y m] H; try discriminate; cbn [zipM].
  - exists []. repeat split. intros k Hk. inversion Hk.
  - destruct (IH m) as (r & -> & H2 & H3); [simpl in H; lia|]. cbn [bind]. exists (x + y :: r)%R. split; [reflexivity|]. split; [simpl; lia|].
    intros [|k] Hk; cbn [nth]; auto. apply H3. simpl in Hk. lia.
Qed.

Lemma add_at_R : forall (l : list R) i v, i < length l -> exists r : list R, @add_at R_arith l i v = Ok r /\ length r = length l /\
  forall k, k < length l -> nth k r 0%R = (nth k l 0 + if k =? i then v else 0)%R.
Proof.
  intros l i v Hi. destruct (get_in l i Hi) as [x Hx].
  assert (Ha : @add_at R_arith l i v = Ok (upd l i (x + v)%R)).
  { unfold add_at. change (num R_arith) with R. rewrite Hx. cbn [bind]. unfold set. apply Nat.ltb_lt in Hi. rewrite Hi. auto. }
  rewrite Ha. exists (upd l i (x + v)%R). split; [reflexivity|]. rewrite upd_length. split; [reflexivity|].
  intros k Hk. apply get_some in Hx. destruct (Nat.eqb_spec k i) as [->|Hne].
  - rewrite (nth_error_nth (upd l i (x + v)%R) i 0%R (nth_error_upd_eq l i (x + v)%R Hi)). rewrite (nth_error_nth l i 0%R Hx). reflexivity.
  - rewrite Rplus_0_r. destruct (nth_error l k) as [z|] eqn:Ez; [|apply nth_error_None in Ez; lia].
    rewrite (nth_error_nth l k 0%R Ez). apply nth_error_nth. rewrite nth_error_upd_neq by auto. exact Ez.
Qed.

(** One step of the sum: every row of [out] gets its own row of [preds]. *)
Lemma add_rows : forall {P} (add : list R -> P -> res (list R)) (preds : list P) out n K f (g : nat -> nat -> R) (ok : nat -> P -> Prop),
  matrix out n K f -> length preds = n ->
  (forall i p, nth_error preds i = Some p -> ok i p) ->
  (forall i row p, i < n -> length row = K -> ok i p -> exists r, add row p = Ok r /\ length r = K /\ forall k, k < K -> nth k r 0%R = (nth k row 0 + g i k)%R) ->
  exists out', mapM (fun '(q, p) => add q p) (combine out preds) = Ok out' /\ matrix out' n K (fun i k => (f i k + g i k)%R).
Proof.
  intros P add preds out n. revert preds out. induction n as [|n IH]; intros preds out K f g ok [HM1 HM2] Hp Hok Hadd.
  - destruct out; [|discriminate]. exists []. split; [reflexivity|]. split; [reflexivity|]. intros i Hi. inversion Hi.
  - destruct out as [|row out]; [discriminate|]. destruct preds as [|p preds]; [discriminate|]. cbn [combine mapM].
    destruct (HM2 0 ltac:(lia)) as (r0 & E0 & L0 & V0). cbn [nth_error] in E0. injection E0 as <-.
    destruct (Hadd 0 row p) as (r & Er & Lr & Vr); [lia|auto|apply Hok; reflexivity|]. rewrite Er. cbn [bind].
    destruct (IH preds out K (fun i => f (S i)) (fun i => g (S i)) (fun i => ok (S i))) as (out' & Eo & Mo1 & Mo2).
    + split; [simpl in HM1; lia|]. intros i Hi. destruct (HM2 (S i) ltac:(lia)) as (r1 & E1 & H1). exists r1. cbn [nth_error] in E1. auto.
    + simpl in Hp. lia.
    + intros i q Hq. apply (Hok (S i)). exact Hq.
    + intros i row' q Hi. apply (Hadd (S i)). lia.
    + rewrite Eo. cbn [bind]. exists (r :: out'). split; [reflexivity|]. split; [simpl; lia|].
      intros [|i] Hi; cbn [nth_error].
      * exists r. split; [reflexivity|]. split; [exact Lr|]. intros k Hk. rewrite Vr by auto. rewrite V0 by auto. reflexivity.
      * apply Mo2. lia.
Qed.

(** The loop over the trees, in the order in which they take the lock. *)
Lemma add_trees : forall (step : list (list R) -> nat -> res (list (list R))) n K (g : nat -> nat -> nat -> R) order,
  (forall out t f, In t order -> matrix out n K f -> exists out', step out t = Ok out' /\ matrix out' n K (fun i k => (f i k + g t i k)%R)) ->
  forall out f, matrix out n K f -> exists out', foldM step order out = Ok out' /\ matrix out' n K (fun i k => (f i k + Rsum (map (fun t => g t i k) order))%R).
Proof.
  intros step n K g order. induction order as [|t order IH]; intros Hs out f HM.
  - exists out. split; [reflexivity|]. destruct HM as [H1 H2]. split; [exact H1|]. intros i Hi. destruct (H2 i Hi) as (row & R1 & R2 & R3).
    exists row. split; [exact R1|]. split; [exact R2|]. intros k Hk. rewrite R3 by auto. cbn [map Rsum]. lra.
  - cbn [foldM]. destruct (Hs out t f) as (out1 & E1 & M1); [simpl; auto|exact HM|]. rewrite E1. cbn [bind].
    destruct (IH (fun o t' f' Hin => Hs o t' f' (or_intror Hin)) out1 _ M1) as (out2 & E2 & [M2 M3]).
    exists out2. split; [exact E2|]. split; [exact M2|]. intros i Hi. destruct (M3 i Hi) as (row & R1 & R2 & R3).
    exists row. split; [exact R1|]. split; [exact R2|]. intros k Hk. rewrite R3 by auto. cbn [map Rsum]. lra.
Qed.

Lemma matrix_ext : forall out n K f g, matrix out n K f -> (forall i k, i < n -> k < K -> f i k = g i k) -> matrix out n K g.
Proof.
  intros out n K f g [H1 H2] He. split; [exact H1|]. intros i Hi. destruct (H2 i Hi) as (row & R1 & R2 & R3).
  exists row. split; [exact R1|]. split; [exact R2|]. intros k Hk. rewrite R3 by auto. auto.
Qed.

(** The predictions of one tree, as numbers. *)
Definition tree_entry (ps : list (list (list R))) (t i k : nat) : R := nth k (nth i (nth t ps []) []) 0%R.

Definition shaped (ps : list (list (list R))) (n K : nat) : Prop :=
  forall pt, In pt ps -> length pt = n /\ forall row, In row pt -> length row = K.

Lemma accumulate_multinomial : forall n_est (ts : list (tobj R_arith (list (num R_arith)) nat)) fb ps K order,
  mapM (fun t => obj_predict mix_vec t fb) ts = Ok ps -> shaped ps (fb_n_samples fb) K ->
  Permutation order (seq 0 (length ts)) ->
  exists out, @accumulate_proba R_arith n_est false ts fb order K = Ok out /\
    matrix out (fb_n_samples fb) K (fun i k => Rsum (map (fun t => tree_entry ps t i k) (seq 0 (length ts)))).
Proof.
  intros n_est ts fb ps K order Hm Hs HP. unfold accumulate_proba.
  destruct (add_trees (fun out t => let* tr := get ts t in let* preds := @obj_predict R_arith (list (num R_arith)) nat mix_vec tr fb in
      if negb (length out =? length preds) then Err ValueErr else mapM (fun '(q, p) => @add_proba R_arith n_est false t q p) (combine out preds))
      (fb_n_samples fb) K (fun t i k => tree_entry ps t i k) order) with (out := repeat (repeat 0%R K) (fb_n_samples fb)) (f := fun (_ _ : nat) => 0%R)
    as (out & Eo & Mo).
  - intros out t f Hin HM. assert (Ht : t < length ts). { eapply Permutation_in in Hin; [|exact HP]. apply in_seq in Hin. lia. }
    apply mapM_Forall2 in Hm. destruct (nth_error ts t) as [tr|] eqn:Et; [|apply nth_error_None in Et; lia].
    assert (Hp : exists pt, nth_error ps t = Some pt /\ obj_predict mix_vec tr fb = Ok pt).
    { clear - Hm Et. revert t Et. induction Hm as [|x y l r Hxy H IH]; intros [|t] Et; try discriminate; cbn [nth_error] in *; [injection Et as ->; eauto|auto]. }
    destruct Hp as (pt & Ep1 & Ep2). destruct (Hs pt (nth_error_In _ _ Ep1)) as [Hl Hr].
    apply get_ok in Et. rewrite Et. cbn [bind].
    rewrite Ep2. cbn [bind].
    destruct HM as [HM1 HM2].
    match goal with |- exists out', (if ?b then _ else _) = _ /\ _ => assert (Hb : b = false) end.
    { change (negb (Nat.eqb (@length (list R) out) (@length (list R) pt)) = false). rewrite HM1, Hl, Nat.eqb_refl. reflexivity. }
    rewrite Hb. clear Hb.
    apply (add_rows (@add_proba R_arith n_est false t) pt out (fb_n_samples fb) K f (fun i k => tree_entry ps t i k) (fun i p => length p = K /\ nth i pt [] = p)).
    + split; assumption.
    + exact Hl.
    + intros i p Hip. split; [apply Hr; eapply nth_error_In; eauto|apply nth_error_nth; auto].
    + intros i row p Hi Hrow [Hpl Hpn]. destruct (zipM_R row p) as (r & Z1 & Z2 & Z3); [exact (eq_trans Hrow (eq_sym Hpl))|]. exists r.
      split; [exact Z1|]. split; [exact (eq_trans Z2 Hrow)|]. intros k Hk. rewrite Z3 by (rewrite Hrow; exact Hk). unfold tree_entry.
      rewrite (@nth_error_nth (list (list R)) ps t pt [] Ep1). change (@nth (list R) i pt [] = p) in Hpn. rewrite Hpn. reflexivity.
  - apply matrix_zero.
  - exists out. split; [exact Eo|]. eapply matrix_ext; [exact Mo|]. intros i k Hi Hk. cbv beta. rewrite Rplus_0_l.
    apply Rsum_perm. apply Permutation_map. exact HP.
Qed.

Lemma accumulate_ovr : forall n_est (ts : list (tobj R_arith (list (num R_arith)) nat)) fb ps K order, 1 <= n_est -> length ts = n_est * K ->
  mapM (fun t => obj_predict mix_vec t fb) ts = Ok ps -> shaped ps (fb_n_samples fb) 2 ->
  Permutation order (seq 0 (length ts)) ->
  exists out, @accumulate_proba R_arith n_est true ts fb order K = Ok out /\
    matrix out (fb_n_samples fb) K (fun i k => Rsum (map (fun t => if k =? t / n_est then tree_entry ps t i 1 else 0%R) (seq 0 (length ts)))).
Proof.
  intros n_est ts fb ps K order Hn HK Hm Hs HP. unfold accumulate_proba.
  destruct (add_trees (fun out t => let* tr := get ts t in let* preds := @obj_predict R_arith (list (num R_arith)) nat mix_vec tr fb in
      if negb (length out =? length preds) then Err ValueErr else mapM (fun '(q, p) => @add_proba R_arith n_est true t q p) (combine out preds))
      (fb_n_samples fb) K (fun t i k => if k =? t / n_est then tree_entry ps t i 1 else 0%R) order) with (out := repeat (repeat 0%R K) (fb_n_samples fb)) (f := fun (_ _ : nat) => 0%R)
    as (out & Eo & Mo).
  - intros out t f Hin HM. assert (Ht : t < length ts). { eapply Permutation_in in Hin; [|exact HP]. apply in_seq in Hin. lia. }
    apply mapM_Forall2 in Hm. destruct (nth_error ts t) as [tr|] eqn:Et; [|apply nth_error_None in Et; lia].
    assert (Hp : exists pt, nth_error ps t = Some pt /\ obj_predict mix_vec tr fb = Ok pt).
    { clear - Hm Et. revert t Et. induction Hm as [|x y l r Hxy H IH]; intros [|t] Et; try discriminate; cbn [nth_error] in *; [injection Et as ->; eauto|auto]. }
    destruct Hp as (pt & Ep1 & Ep2). destruct (Hs pt (nth_error_In _ _ Ep1)) as [Hl Hr].
    apply get_ok in Et. rewrite Et. cbn [bind].
    rewrite Ep2. cbn [bind].
    destruct HM as [HM1 HM2].
    match goal with |- exists out', (if ?b then _ else _) = _ /\ _ => assert (Hb : b = false) end.
    { change (negb (Nat.eqb (@length (list R) out) (@length (list R) pt)) = false). rewrite HM1, Hl, Nat.eqb_refl. reflexivity. }
    rewrite Hb. clear Hb.
    apply (add_rows (@add_proba R_arith n_est true t) pt out (fb_n_samples fb) K f (fun i k => if k =? t / n_est then tree_entry ps t i 1 else 0%R) (fun i p => length p = 2 /\ nth i pt [] = p)).
    + split; assumption.
    + exact Hl.
    + intros i p Hip. split; [apply Hr; eapply nth_error_In; eauto|apply nth_error_nth; auto].
    + intros i row p Hi Hrow [Hpl Hpn]. unfold add_proba. destruct p as [|p0 [|p1 [|]]]; try discriminate. cbn [get nth_error bind].
      assert (Hq : t / n_est < length row). { rewrite Hrow. apply Nat.div_lt_upper_bound; lia. }
      destruct (add_at_R row (t / n_est) p1 Hq) as (r & Z1 & Z2 & Z3). exists r.
      split; [exact Z1|]. split; [exact (eq_trans Z2 Hrow)|]. intros k Hk. rewrite Z3 by (rewrite Hrow; exact Hk). unfold tree_entry.
      rewrite (@nth_error_nth (list (list R)) ps t pt [] Ep1). change (@nth (list R) i pt [] = [p0; p1]) in Hpn. rewrite Hpn. reflexivity.
  - apply matrix_zero.
  - exists out. split; [exact Eo|]. eapply matrix_ext; [exact Mo|]. intros i k Hi Hk. cbv beta. rewrite Rplus_0_l.
    apply Rsum_perm. apply Permutation_map. exact HP.
Qed.

(** The same for regressors. *)
Definition vector (out : list R) (n : nat) (f : nat -> R) : Prop := length out = n /\ forall i, i < n -> nth i out 0%R = f i.

Lemma add_values : forall (preds out : list R) n f, vector out n f -> length preds = n ->
  exists out', @mapM (R * R) R (fun '(q, p) => Ok (q + p)%R) (combine out preds) = Ok out' /\ vector out' n (fun i => (f i + nth i preds 0)%R).
Proof.
  intros preds out n. revert preds out. induction n as [|n IH]; intros preds out f [H1 H2] Hp.
  - destruct out; [|discriminate]. exists []. split; [reflexivity|]. split; [reflexivity|]. intros i Hi. inversion Hi.
  - destruct out as [|q out]; [discriminate|]. destruct preds as [|p preds]; [discriminate|]. cbn [combine mapM].
    destruct (IH preds out (fun i => f (S i))) as (out' & E1 & V1 & V2).
    + split; [simpl in H1; lia|]. intros i Hi. apply (H2 (S i)). lia.
    + simpl in Hp. lia.
    + rewrite E1. cbn [bind]. exists (q + p :: out')%R. split; [reflexivity|]. split; [simpl; lia|].
      intros [|i] Hi; cbn [nth]; [rewrite <- (H2 0) by lia; reflexivity|]. apply V2. lia.
Qed.

Lemma accumulate_reg : forall (ts : list (tobj R_arith (num R_arith) (num R_arith))) fb ps order,
  mapM (fun t => obj_predict mix_num t fb) ts = Ok ps -> (forall pt, In pt ps -> length pt = fb_n_samples fb) ->
  Permutation order (seq 0 (length ts)) ->
  exists out, @accumulate R_arith _ _ _ (fun q p => Ok (aadd q p)) ts mix_num fb order a0 = Ok out /\
    vector out (fb_n_samples fb) (fun i => Rsum (map (fun t => nth i (nth t ps []) 0%R) (seq 0 (length ts)))).
Proof.
  intros ts fb ps order Hm Hs HP. unfold accumulate.
  assert (G : forall ord, (forall t, In t ord -> t < length ts) -> forall (out : list R) f, vector out (fb_n_samples fb) f ->
    exists out' : list R, foldM (fun out t => let* tr := get ts t in let* preds := obj_predict mix_num tr fb in
      if negb (length out =? length preds) then Err ValueErr else mapM (fun '(q, p) => Ok (@aadd R_arith q p)) (combine out preds)) ord out = Ok out' /\
    vector out' (fb_n_samples fb) (fun i => (f i + Rsum (map (fun t => nth i (nth t ps []) 0%R) ord))%R)).
  { induction ord as [|t ord IH]; intros Ho out f HV.
    - exists out. split; [reflexivity|]. destruct HV as [V1 V2]. split; [exact V1|]. intros i Hi. rewrite V2 by auto. cbn [map Rsum]. lra.
    - assert (Ht : t < length ts) by (apply Ho; simpl; auto). cbn [foldM].
      apply mapM_Forall2 in Hm. destruct (nth_error ts t) as [tr|] eqn:Et; [|apply nth_error_None in Et; lia].
      assert (Hp : exists pt, nth_error ps t = Some pt /\ obj_predict mix_num tr fb = Ok pt).
      { clear - Hm Et. revert t Et. induction Hm as [|x y l r Hxy H IH]; intros [|t] Et; try discriminate; cbn [nth_error] in *; [injection Et as ->; eauto|auto]. }
      destruct Hp as (pt & Ep1 & Ep2). pose proof (Hs pt (nth_error_In _ _ Ep1)) as Hl. apply get_ok in Et. rewrite Et. cbn [bind]. rewrite Ep2. cbn [bind].
      destruct (add_values pt out (fb_n_samples fb) f HV Hl) as (out1 & A1 & A2).
      assert (Hb : negb (@length (num R_arith) out =? length pt) = false).
      { destruct HV as [V1 _]. apply negb_false_iff. apply Nat.eqb_eq. exact (eq_trans V1 (eq_sym Hl)). }
      rewrite Hb. change (num R_arith) with R.
      match goal with |- exists o, bind ?m _ = _ /\ _ => assert (Hm2 : m = Ok out1) by exact A1; rewrite Hm2; clear Hm2 end. cbn [bind].
      destruct (IH (fun t' Hin => Ho t' (or_intror Hin)) out1 _ A2) as (out2 & E2 & V1 & V2).
      exists out2. split; [exact E2|]. split; [exact V1|]. intros i Hi. rewrite V2 by auto. cbn [map Rsum].
      rewrite (@nth_error_nth (list R) ps t pt [] Ep1). rewrite Rplus_assoc. reflexivity. }
  destruct (G order) with (out := repeat 0%R (fb_n_samples fb)) (f := fun _ : nat => 0%R) as (out & E1 & V1 & V2).
  - intros t Hin. eapply Permutation_in in Hin; [|exact HP]. apply in_seq in Hin. lia.
  - split; [apply repeat_length|]. intros i Hi. apply nth_repeat.
  - exists out. split; [exact E1|]. split; [exact V1|]. intros i Hi. rewrite V2 by auto. rewrite Rplus_0_l.
    apply Rsum_perm. apply Permutation_map. exact HP.
Qed.
