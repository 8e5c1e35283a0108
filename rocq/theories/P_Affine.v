(** * Two runs of a regression whose labels differ by an increasing affine change of unit *)

Require Import List Arith Lia NArith ZArith Reals Lra Bool Permutation.
Require Import Verif.Base Verif.Num Verif.M_Bitarray Verif.M_Utils Verif.M_Impurity Verif.M_Context Verif.M_Node
  Verif.M_Split Verif.M_Tree Verif.M_Grow Verif.M_Object Verif.S_Impurity Verif.P_Impurity Verif.S_Tree Verif.S_Units.
Import ListNotations.
Local Open Scope nat_scope.
Local Open Scope list_scope.
Local Open Scope res_scope.

(** ** Results *)
Definition rr {X X'} (R : X -> X' -> Prop) (r : res X) (r' : res X') : Prop :=
  match r, r' with Ok x, Ok x' => R x x' | Err e, Err e' => e = e' | _, _ => False end.

Lemma rr_bind : forall {X X' Z Z'} (R : X -> X' -> Prop) (Q : Z -> Z' -> Prop) r r' k k', rr R r r' ->
  (forall x x', r = Ok x -> r' = Ok x' -> R x x' -> rr Q (k x) (k' x')) -> rr Q (bind r k) (bind r' k').
Proof. intros X X' Z Z' R Q [x|e] [x'|e'] k k' H Hk; cbn in *; try contradiction; auto. Qed.
Lemma rr_same : forall {X Z Z'} (Q : Z -> Z' -> Prop) (r : res X) k k',
  (forall x, r = Ok x -> rr Q (k x) (k' x)) -> rr Q (bind r k) (bind r k').
Proof. intros X Z Z' Q [x|e] k k' H; cbn; auto. Qed.
Lemma rr_refl : forall {X} (r : res X), rr eq r r.
Proof. intros X [x|e]; cbn; auto. Qed.
Lemma rr_imp : forall {X X'} (R Q : X -> X' -> Prop) r r', rr R r r' -> (forall x x', r = Ok x -> r' = Ok x' -> R x x' -> Q x x') -> rr Q r r'.
Proof. intros X X' R Q [x|e] [x'|e'] H HQ; cbn in *; auto. Qed.

Lemma rr_fold : forall {S S' X} (R : S -> S' -> Prop) (f : S -> X -> res S) (f' : S' -> X -> res S') l s s',
  R s s' -> (forall s s' x, In x l -> R s s' -> rr R (f s x) (f' s' x)) -> rr R (foldM f l s) (foldM f' l s').
Proof.
  intros S S' X R f f' l. induction l as [|x l IH]; intros s s' H Hf; cbn [foldM]; [exact H|].
  apply rr_bind with (R := R); [apply Hf; cbn; auto|]. intros y y' _ _ Hy. apply IH; auto. intros; apply Hf; cbn; auto.
Qed.
Lemma rr_map : forall {X Z Z'} (R : Z -> Z' -> Prop) (f : X -> res Z) (f' : X -> res Z') l,
  (forall x, In x l -> rr R (f x) (f' x)) -> rr (Forall2 R) (mapM f l) (mapM f' l).
Proof.
  intros X Z Z' R f f' l. induction l as [|x l IH]; intros Hf; cbn [mapM]; [constructor|].
  apply rr_bind with (R := R); [apply Hf; cbn; auto|]. intros y y' _ _ Hy.
  apply rr_bind with (R := Forall2 R); [apply IH; intros; apply Hf; cbn; auto|]. intros. constructor; auto.
Qed.

(** ** Lists *)
Lemma get_map : forall {X Z} (g : X -> Z) l i, get (map g l) i = match get l i with Ok x => Ok (g x) | Err e => Err e end.
Proof. intros. unfold get. rewrite nth_error_map. destruct (nth_error l i); reflexivity. Qed.
Lemma upd_map : forall {X Z} (g : X -> Z) l i x, upd (map g l) i (g x) = map g (upd l i x).
Proof. intros X Z g l. induction l as [|y l IH]; intros [|i] x; cbn; f_equal; auto. Qed.
Lemma set_map : forall {X Z} (g : X -> Z) l i x, set (map g l) i (g x) = match set l i x with Ok l' => Ok (map g l') | Err e => Err e end.
Proof. intros X Z g l i x. unfold set. rewrite map_length. destruct (i <? length l); [rewrite upd_map|]; reflexivity. Qed.
Lemma get_F2 : forall {X Z} (R : X -> Z -> Prop) l l' i, Forall2 R l l' -> rr R (get l i) (get l' i).
Proof.
  intros X Z R l l' i H. revert i. induction H as [|x z l l' Hx H IH]; intros [|i]; cbn; auto. apply IH.
Qed.
Lemma nth_upd : forall (l : list R) i x k, i < length l -> nth k (upd l i x) 0%R = if k =? i then x else nth k l 0%R.
Proof.
  induction l as [|y l IH]; intros i x k Hi; cbn [length] in Hi; [lia|]. destruct i as [|i], k as [|k]; cbn; auto. apply IH. lia.
Qed.
Lemma Rsum_upd : forall (l : list R) i x, i < length l -> Rsum (upd l i x) = (Rsum l - nth i l 0 + x)%R.
Proof.
  induction l as [|y l IH]; intros i x Hi; cbn [length] in Hi; [lia|]. destruct i as [|i]; cbn [upd Rsum nth]; [lra|]. rewrite IH by lia. lra.
Qed.
Lemma Rsum_zeros : forall n, Rsum (repeat 0%R n) = 0%R.
Proof. induction n; cbn; lra. Qed.
Lemma get_R : forall (l : list R) i x, get l i = Ok x -> i < length l /\ x = nth i l 0%R.
Proof. intros l i x H. split; [eapply get_lt; eauto|]. symmetry. apply get_nth. auto. Qed.
Lemma nth_zeros : forall n k, nth k (repeat 0%R n) 0%R = 0%R.
Proof. induction n; intros [|k]; cbn; auto. Qed.

(** ** The change of unit *)
Section Affine.
Context {E : env R_arith} (a b : R) (Ha : (0 < a)%R).
Notation c := (a * a)%R.
Notation unit_of := (new_unit a b).

Lemma c_pos : (0 < c)%R. Proof. nra. Qed.

Notation tk := (reg_task E).
Context (tc tc' : tctx R_arith (tk_Y tk)).
Context (Hfb : tc_fb tc' = tc_fb tc) (Hmb : tc_max_n_bins tc' = tc_max_n_bins tc) (Hy : tc_y tc' = map unit_of (tc_y tc))
  (Hw : tc_weights tc' = tc_weights tc) (Hmss : tc_min_samples_split tc' = tc_min_samples_split tc)
  (Hmsl : tc_min_samples_leaf tc' = tc_min_samples_leaf tc) (Hdepth : tc_max_depth tc' = tc_max_depth tc)
  (Hagg : tc_aggregation tc' = tc_aggregation tc) (Hflags : tc_is_categorical tc' = tc_is_categorical tc).
Context (Hstep : tc_aggregation tc = true -> (tc_step tc' * c)%R = tc_step tc).

(** Categorical features are split in the order of the sums of their labels. *)
Context (Hcat : forall j, get (tc_is_categorical tc) j = Ok true -> b = 0%R /\ comparison_sort E).

Lemma get_y : forall i, get (tc_y tc') i = match get (tc_y tc) i with Ok y => Ok (unit_of y) | Err e => Err e end.
Proof. intros i. rewrite Hy. exact (get_map unit_of (tc_y tc) i). Qed.

(** Sums of labels and of squares, for rows of total weight [w]. *)
Definition srel (w : R) (s s' : R * R) : Prop :=
  fst s' = (a * fst s + b * w)%R /\ snd s' = (c * snd s + 2 * a * b * fst s + b * b * w)%R.

Record hrel (W : list R) (h h' : list R * list R) : Prop := {
  hr_1 : length (fst h) = length W; hr_2 : length (snd h) = length W;
  hr_3 : length (fst h') = length W; hr_4 : length (snd h') = length W;
  hr_s : forall k, srel (nth k W 0%R) (nth k (fst h) 0%R, nth k (snd h) 0%R) (nth k (fst h') 0%R, nth k (snd h') 0%R)
}.

Record rrel (r r' : row tk) : Prop := {
  rl_nt : r_n_train r' = r_n_train r; rl_wt : r_w_train r' = r_w_train r; rl_nv : r_n_valid r' = r_n_valid r; rl_wv : r_w_valid r' = r_w_valid r;
  rl_net : r_ne_train r' = r_ne_train r; rl_nev : r_ne_valid r' = r_ne_valid r; rl_h : hrel (r_w_train r) (r_hist r) (r_hist r')
}.

Lemma row0_rel : forall n, rrel (row0 tk n) (row0 tk n).
Proof.
  intros n. constructor; try reflexivity. cbn. constructor; cbn; rewrite ?repeat_length; auto.
  intros k. change (@a0 R_arith) with 0%R. rewrite !nth_zeros. split; cbn; lra.
Qed.

Lemma add_at_R : forall (l : list R) k x, @add_at R_arith l k x = if k <? length l then Ok (upd l k (nth k l 0 + x)%R) else Err OOB.
Proof.
  intros l k x. unfold add_at. change (num R_arith) with R. destruct (k <? length l) eqn:H.
  - apply Nat.ltb_lt in H. rewrite (nth_get l k 0%R H). cbn [bind]. unfold set. apply Nat.ltb_lt in H. rewrite H. reflexivity.
  - unfold get. destruct (nth_error l k) eqn:Hn; [|reflexivity]. apply Nat.ltb_ge in H. apply nth_error_None in H. congruence.
Qed.

Lemma hist_add_rel : forall W h h' k y w, hrel W h h' -> k < length W ->
  rr (hrel (upd W k (nth k W 0 + w)%R)) (tk_hist_add tk h k y w) (tk_hist_add tk h' k (unit_of y) w).
Proof.
  intros W [s q] [s' q'] k y w [H1 H2 H3 H4 HS] Hk. cbn [fst snd] in *. cbn [tk_hist_add reg_task fst snd].
  change (num R_arith) with R in *. rewrite !add_at_R, H1, H2, H3, H4. apply Nat.ltb_lt in Hk. rewrite Hk. apply Nat.ltb_lt in Hk. cbn [bind rr].
  constructor; cbn [fst snd]; rewrite ?upd_length; auto. intros k'. specialize (HS k'). destruct HS as [S1 S2]. cbn [fst snd] in *.
  rewrite !nth_upd by congruence. destruct (Nat.eqb_spec k' k) as [->|_]; [|split; cbn [fst snd]; auto].
  change (@amul R_arith) with Rmult. unfold new_unit. split; cbn [fst snd].
  - rewrite S1. lra.
  - rewrite S2. nra.
Qed.

(** ** Statistics of a node *)
Definition tw (l : list nat) : R := Rsum (map (fun i => nth i (tc_weights tc) 0%R) l).

(** The state of the loop over the training rows; [first] is true for the first feature. *)
Definition train_rel (first : bool) (st st' : R * R * row tk) : Prop :=
  let '(w, p, r) := st in let '(w', p', r') := st' in
  w' = w /\ rrel r r' /\ p' = (if first then a * p + b * w else a * p + b)%R.

Lemma train_step_rel : forall f col st st' i, train_rel (f =? 0) st st' ->
  rr (train_rel (f =? 0)) (train_step tk tc f col st i) (train_step tk tc' f col st' i).
Proof.
  intros f col [[w p] r] [[w' p'] r'] i (-> & HR & Hp). unfold train_step. rewrite get_y, Hw, Hmb.
  apply rr_same. intros k Hk. destruct (get (tc_y tc) i) as [y|e] eqn:Ey; [|reflexivity]. cbn [bind].
  apply rr_same. intros sw Hsw.
  apply rr_bind with (R := fun x x' : R * R => fst x' = fst x /\ snd x' = (if f =? 0 then a * snd x + b * fst x else a * snd x + b)%R).
  { destruct (f =? 0); cbn; auto. split; auto. unfold new_unit. rewrite Hp. lra. }
  intros [w1 p1] [w1' p1'] _ _ [Hw1 Hp1]. cbn [fst snd] in *.
  destruct HR as [R1 R2 R3 R4 R5 R6 R7]. rewrite R1, R2, R3, R4, R5, R6.
  apply rr_same. intros n Hn. apply rr_same. intros ne Hne. apply rr_same. intros nt Hnt.
  pose proof (add_at_R (r_w_train r) k sw) as Ewt. match type of Ewt with _ = (if ?q then _ else _) => destruct q eqn:Hlt end; rewrite Ewt; cbn [bind]; [|cbn [rr]; reflexivity]. apply Nat.ltb_lt in Hlt.
  eapply rr_bind; [apply (hist_add_rel _ _ _ k y sw R7 Hlt)|]. intros h h' _ _ Hh. cbn [rr train_rel]. split; [auto|]. split; [|auto].
  constructor; cbn; auto.
Qed.

(** The weights of the bins of a feature add up to the weight of the rows. *)
Lemma train_step_sum : forall f col w p r i w1 p1 r1, train_step tk tc f col (w, p, r) i = Ok (w1, p1, r1) ->
  Rsum (r_w_train r1) = (Rsum (r_w_train r) + nth i (tc_weights tc) 0)%R /\ (f =? 0 = true -> w1 = (w + nth i (tc_weights tc) 0)%R) /\ (f =? 0 = false -> w1 = w).
Proof.
  intros f col w p r i w1 p1 r1 H. unfold train_step in H.
  apply bind_ok in H as (k & Hk & H). apply bind_ok in H as (y & Ey & H). apply bind_ok in H as (sw & Hsw & H).
  apply bind_ok in H as ([w2 p2] & Hwp & H). apply bind_ok in H as (n & Hn & H). apply bind_ok in H as (ne & Hne & H). apply bind_ok in H as (nt & Hnt & H).
  apply bind_ok in H as (wt & Hwt & H). apply bind_ok in H as (h & Hh & H). injection H as <- <- <-. cbn [r_w_train].
  pose proof (add_at_R (r_w_train r) k sw) as Ewt. match type of Ewt with _ = (if ?q then _ else _) => destruct q eqn:Hlt end; rewrite Ewt in Hwt; [|discriminate]. apply Nat.ltb_lt in Hlt.
  assert (Hu : upd (r_w_train r) k (nth k (r_w_train r) 0 + sw)%R = wt) by exact (f_equal (fun r => match r with Ok x => x | Err _ => wt end) Hwt). subst wt.
  apply get_R in Hsw as [_ ->]. rewrite Rsum_upd by auto. split; [change (num R_arith) with R; lra|]. destruct (f =? 0); split; intros; try discriminate.
  - cbn in Hwp. injection Hwp as <- <-. reflexivity.
  - injection Hwp as <- <-. reflexivity.
Qed.
Lemma train_loop_sum : forall f col l w p r w1 p1 r1, foldM (train_step tk tc f col) l (w, p, r) = Ok (w1, p1, r1) ->
  Rsum (r_w_train r1) = (Rsum (r_w_train r) + tw l)%R /\ (f =? 0 = true -> w1 = (w + tw l)%R) /\ (f =? 0 = false -> w1 = w).
Proof.
  intros f col l. unfold tw. induction l as [|i l IH]; intros w p r w1 p1 r1 H; cbn [foldM map Rsum] in *.
  - injection H as <- <- <-. repeat split; intros; lra.
  - apply bind_ok in H as ([[w2 p2] r2] & H1 & H2). apply train_step_sum in H1 as (S1 & S2 & S3). apply IH in H2 as (T1 & T2 & T3).
    repeat split.
    + rewrite T1, S1. lra.
    + intros Hf. rewrite T2, S2 by auto. lra.
    + intros Hf. rewrite T3, S3 by auto. auto.
Qed.

Definition valid_rel (st st' : R * R * row tk) : Prop :=
  let '(w, l, r) := st in let '(w', l', r') := st' in w' = w /\ l' = (c * l)%R /\ rrel r r'.
Lemma valid_step_rel : forall f col p st st' i, valid_rel st st' ->
  rr valid_rel (valid_step tk tc f p col st i) (valid_step tk tc' f (unit_of p) col st' i).
Proof.
  intros f col p [[w l] r] [[w' l'] r'] i (-> & -> & HR). unfold valid_step. rewrite get_y, Hw, Hmb.
  apply rr_same. intros k Hk. apply rr_same. intros sw Hsw.
  apply rr_bind with (R := fun x x' : R * R => fst x' = fst x /\ snd x' = (c * snd x)%R).
  { destruct (f =? 0); [|cbn; auto]. destruct (get (tc_y tc) i) as [y|e]; cbn; auto. split; auto. unfold new_unit. cbn. nra. }
  intros [w1 p1] [w1' p1'] _ _ [Hw1 Hp1]. cbn [fst snd] in *.
  destruct HR as [R1 R2 R3 R4 R5 R6 R7]. rewrite R1, R2, R3, R4, R5, R6.
  apply rr_same. intros n Hn. apply rr_same. intros ne Hne. apply rr_same. intros nt Hnt. apply rr_same. intros wv Hwv.
  cbn [rr valid_rel]. split; [auto|]. split; [auto|]. constructor; cbn; auto.
Qed.
Lemma valid_step_row : forall f col p st i st1, valid_step tk tc f p col st i = Ok st1 -> r_w_train (snd st1) = r_w_train (snd st).
Proof.
  intros f col p [[w l] r] i st1 H. unfold valid_step in H.
  apply bind_ok in H as (k & Hk & H). apply bind_ok in H as (sw & Hsw & H). apply bind_ok in H as ([w2 p2] & Hwp & H).
  apply bind_ok in H as (n & Hn & H). apply bind_ok in H as (ne & Hne & H). apply bind_ok in H as (nt & Hnt & H).
  apply bind_ok in H as (wt & Hwt & H). injection H as <-. reflexivity.
Qed.
Lemma valid_loop_row : forall f col p l st st1, foldM (valid_step tk tc f p col) l st = Ok st1 -> r_w_train (snd st1) = r_w_train (snd st).
Proof.
  intros f col p l. induction l as [|i l IH]; intros st st1 H; cbn [foldM] in H; [injection H as <-; auto|].
  apply bind_ok in H as (st2 & H1 & H2). apply valid_step_row in H1. apply IH in H2. congruence.
Qed.

(** The accumulators after some features. *)
Record arel (n : nat) (W : R) (x x' : acc tk) : Prop := {
  al_wt : ac_w_train x' = ac_w_train x; al_wv : ac_w_valid x' = ac_w_valid x; al_loss : ac_loss x' = (c * ac_loss x)%R;
  al_pred : if n =? 0 then ac_w_train x = 0%R /\ ac_pred x = 0%R /\ ac_pred x' = 0%R else ac_w_train x = W /\ ac_pred x' = unit_of (ac_pred x);
  al_rows : Forall2 (fun r r' => rrel r r' /\ Rsum (r_w_train r) = W) (ac_rows x) (ac_rows x')
}.

Lemma feature_step_rel : forall train valid x x' f j, arel f (tw train) x x' ->
  rr (arel (S f) (tw train)) (feature_step tk tc train valid x (f, j)) (feature_step tk tc' train valid x' (f, j)).
Proof.
  intros train valid x x' f j [A1 A2 A3 A4 A5]. unfold feature_step. rewrite Hfb, Hmb, Hagg. apply rr_same. intros col Hcol.
  apply rr_bind with (R := train_rel (f =? 0)).
  { apply rr_fold; [|intros; apply train_step_rel; auto]. cbn [train_rel]. split; [auto|]. split; [apply row0_rel|].
    destruct (f =? 0); [destruct A4 as (-> & -> & ->); lra|apply A4]. }
  intros [[w p] r] [[w' p'] r'] Hl _ (Ew & HR & Hp). subst w'. apply train_loop_sum in Hl as (L1 & L2 & L3).
  cbn [r_w_train row0] in L1. change (@a0 R_arith) with 0%R in L1. rewrite Rsum_zeros, Rplus_0_l in L1.
  assert (Hwt : w = tw train).
  { destruct (f =? 0); [destruct A4 as (Z & _); rewrite L2, Z by auto; lra|destruct A4 as (Z & _); rewrite L3, Z by auto; auto]. }
  apply rr_bind with (R := fun p p' => p' = unit_of p).
  { destruct (f =? 0); [|exact Hp]. cbn [tk_pred_end reg_task]. unfold divM. destruct (aisz w) eqn:Ez; [reflexivity|]. cbn [rr].
    change (@aisz R_arith w) with (Risz w) in Ez. unfold Risz in Ez. destruct (Req_EM_T w 0) as [|Hz]; [discriminate|].
    change (@adiv R_arith) with Rdiv. rewrite Hp. unfold new_unit. field. auto. }
  intros q q' _ _ ->.
  apply rr_bind with (R := fun st st' => valid_rel st st' /\ r_w_train (snd st) = r_w_train r).
  { destruct (tc_aggregation tc).
    - eapply rr_imp.
      + apply (rr_fold valid_rel); [|intros; apply valid_step_rel; auto]. cbn [valid_rel]. auto.
      + intros st st' H1 _ H3. split; [exact H3|]. apply valid_loop_row in H1. exact H1.
    - cbn. auto. }
  intros [[wv l] r1] [[wv' l'] r1'] _ _ [(-> & -> & HR1) Hr1]. cbn [snd] in Hr1. cbn [rr]. constructor; cbn; auto.
  apply Forall2_app; [auto|]. constructor; [|constructor]. split; [auto|]. rewrite Hr1, L1. auto.
Qed.

(** The context of a node. *)
Record nrel (x x' : nctx tk) : Prop := {
  nl_f : nc_features x' = nc_features x; nl_nt : nc_n_train x' = nc_n_train x; nl_nv : nc_n_valid x' = nc_n_valid x;
  nl_wt : nc_w_train x' = nc_w_train x; nl_wv : nc_w_valid x' = nc_w_valid x; nl_loss : nc_loss x' = (c * nc_loss x)%R;
  nl_pred : nc_pred x' = unit_of (nc_pred x);
  nl_rows : Forall2 (fun r r' => rrel r r' /\ Rsum (r_w_train r) = nc_w_train x) (nc_rows x) (nc_rows x')
}.

Lemma features_rel : forall train valid l k x x', arel k (tw train) x x' ->
  rr (arel (k + length l) (tw train)) (foldM (feature_step tk tc train valid) (combine (seq k (length l)) l) x)
    (foldM (feature_step tk tc' train valid) (combine (seq k (length l)) l) x').
Proof.
  intros train valid l. induction l as [|j l IH]; intros k x x' H; cbn [length seq combine foldM].
  - rewrite Nat.add_0_r. exact H.
  - eapply rr_bind; [apply feature_step_rel; exact H|]. intros y y' _ _ H1. replace (k + S (length l)) with (S k + length l) by lia. apply IH. exact H1.
Qed.
Lemma node_stats_rel : forall features train valid, features <> [] ->
  rr nrel (node_stats tk tc features train valid) (node_stats tk tc' features train valid).
Proof.
  intros features train valid Hne. unfold node_stats. eapply rr_bind.
  - apply (features_rel train valid features 0). constructor; cbn; auto. lra.
  - intros x x' _ _ [A1 A2 A3 A4 A5]. cbn [rr]. cbn [Nat.add] in A4. destruct features as [|j l]; [contradiction|]. cbn [length Nat.eqb] in A4. destruct A4 as [A4 A6].
    constructor; cbn; auto. rewrite A4. exact A5.
Qed.

(** ** Splits *)
Lemma mul0 : forall x y, (a * x + 0 * y)%R = (a * x)%R.
Proof. intros. ring. Qed.
Lemma getR : forall (l : list R) k, k < length l -> @get (num R_arith) l k = Ok (nth k l 0%R).
Proof. intros. apply (nth_get l k 0%R). auto. Qed.
Lemma stat_add_rel : forall W h h' k w x x', hrel W h h' -> srel w x x' -> k < length W ->
  rr (srel (w + nth k W 0)%R) (tk_stat_add tk x h k) (tk_stat_add tk x' h' k).
Proof.
  intros W [s q] [s' q'] k w [x1 x2] [x1' x2'] [H1 H2 H3 H4 HS] [X1 X2] Hk. cbn [fst snd] in *. cbn [tk_stat_add reg_task fst snd].
    rewrite (getR (s) k) by (rewrite H1; auto). rewrite (getR (q) k) by (rewrite H2; auto).
  rewrite (getR (s') k) by (rewrite H3; auto). rewrite (getR (q') k) by (rewrite H4; auto). cbn [bind rr].
  destruct (HS k) as [S1 S2]. cbn [fst snd] in *. change (num R_arith) with R in *. split; cbn; nra.
Qed.
Lemma stat_sub_rel : forall W h h' k w x x', hrel W h h' -> srel w x x' -> k < length W ->
  rr (srel (w - nth k W 0)%R) (tk_stat_sub tk x h k) (tk_stat_sub tk x' h' k).
Proof.
  intros W [s q] [s' q'] k w [x1 x2] [x1' x2'] [H1 H2 H3 H4 HS] [X1 X2] Hk. cbn [fst snd] in *. cbn [tk_stat_sub reg_task fst snd].
    rewrite (getR (s) k) by (rewrite H1; auto). rewrite (getR (q) k) by (rewrite H2; auto).
  rewrite (getR (s') k) by (rewrite H3; auto). rewrite (getR (q') k) by (rewrite H4; auto). cbn [bind rr].
  destruct (HS k) as [S1 S2]. cbn [fst snd] in *. change (num R_arith) with R in *. split; cbn; nra.
Qed.

Lemma Rsum_combination : forall al be ga (l1 l2 l3 l : list R), length l1 = length l -> length l2 = length l -> length l3 = length l ->
  (forall k, nth k l 0 = al * nth k l1 0 + be * nth k l2 0 + ga * nth k l3 0)%R ->
  Rsum l = (al * Rsum l1 + be * Rsum l2 + ga * Rsum l3)%R.
Proof.
  intros al be ga l1 l2 l3 l. revert l1 l2 l3. induction l as [|x l IH]; intros [|x1 l1] [|x2 l2] [|x3 l3] H1 H2 H3 H; try discriminate; cbn [Rsum]; [lra|].
  rewrite (IH l1 l2 l3); auto.
  - pose proof (H 0) as H0. cbn [nth] in H0. lra.
  - intros k. apply (H (S k)).
Qed.

Lemma stat_total_rel : forall W h h', hrel W h h' -> srel (Rsum W) (tk_stat_total tk h) (tk_stat_total tk h').
Proof.
  intros W [s q] [s' q'] [H1 H2 H3 H4 HS]. cbn [fst snd] in *. cbn [tk_stat_total reg_task fst snd]. rewrite !asum_R. split; cbn [fst snd].
  - rewrite (Rsum_combination a b 0 s W W s'); try congruence; [lra|]. intros k. destruct (HS k) as [S1 _]. cbn [fst snd] in S1. lra.
  - rewrite (Rsum_combination c (2 * a * b) (b * b) q s W q'); try congruence. intros k. destruct (HS k) as [_ S2]. cbn [fst snd] in S2. lra.
Qed.

Lemma mse_node_rel : forall w s s', srel w s s' -> rr (fun i i' => i' = (c * i)%R) (mse_node w (fst s) (snd s)) (mse_node w (fst s') (snd s')).
Proof.
  intros w [s q] [s' q'] [S1 S2]. cbn [fst snd] in *. subst s' q'. unfold mse_node, divM. destruct (aisz w) eqn:Ez; [reflexivity|]. cbn [bind rr].
  change (@aisz R_arith w) with (Risz w) in Ez. unfold Risz in Ez. destruct (Req_EM_T w 0) as [|Hz]; [discriminate|]. cbn. field. auto.
Qed.

Lemma impurity_rel : forall wl wr sl sr sl' sr', srel wl sl sl' -> srel wr sr sr' ->
  rr (fun i i' : R * R => fst i' = (c * fst i)%R /\ snd i' = (c * snd i)%R) (tk_impurity tk wl wr sl sr) (tk_impurity tk wl wr sl' sr').
Proof.
  intros wl wr sl sr sl' sr' Hl Hr. cbn [tk_impurity reg_task]. unfold mse_childs.
  eapply rr_bind; [apply mse_node_rel; exact Hl|]. intros i i' _ _ Hi. eapply rr_bind; [apply mse_node_rel; exact Hr|]. intros k k' _ _ Hk. cbn. auto.
Qed.

Definition scaled (g : option R) : option R := option_map (Rmult c) g.

(** Two splits; the sums of labels they store are not used. *)
Record sprel (x x' : split tk) : Prop := {
  sl_found : sp_found x' = sp_found x; sl_gain : sp_gain x' = scaled (sp_gain x); sl_feature : sp_feature x' = sp_feature x;
  sl_threshold : sp_threshold x' = sp_threshold x; sl_il : sp_imp_left x' = (c * sp_imp_left x)%R; sl_ir : sp_imp_right x' = (c * sp_imp_right x)%R;
  sl_cat : sp_is_cat x' = sp_is_cat x; sl_bins : sp_bins x' = sp_bins x; sl_part : sp_partition x' = sp_partition x
}.
Lemma reset_rel : sprel (reset_split tk) (reset_split tk).
Proof. constructor; try reflexivity; cbn; lra. Qed.

Lemma Rltb_scale : forall x y, Rltb (c * x) (c * y) = Rltb x y.
Proof. intros x y. pose proof c_pos. unfold Rltb. destruct (Rlt_dec (c * x) (c * y)), (Rlt_dec x y); auto; exfalso; nra. Qed.
Lemma gain_gt_rel : forall g best, @gain_gt R_arith (c * g)%R (scaled best) = gain_gt g best.
Proof. intros g [x|]; [exact (Rltb_scale x g)|reflexivity]. Qed.

Lemma gain_rel : forall il ir wl wr, @information_gain_proxy R_arith (c * il)%R (c * ir)%R wl wr = (c * information_gain_proxy (A := R_arith) il ir wl wr)%R.
Proof. intros. cbn. ring. Qed.

Record screl (s s' : scan tk) : Prop := {
  cl_nl : sc_n_left s' = sc_n_left s; cl_wl : sc_w_left s' = sc_w_left s; cl_nr : sc_n_right s' = sc_n_right s; cl_wr : sc_w_right s' = sc_w_right s;
  cl_v : sc_v_left s' = sc_v_left s;
  cl_sl : srel (sc_w_left s) (sc_stat_left s) (sc_stat_left s'); cl_sr : srel (sc_w_right s) (sc_stat_right s) (sc_stat_right s')
}.

Lemma scan_rel : forall n_valid feature is_cat r r' cumsum ordered bins s s' best best', rrel r r' -> screl s s' -> sprel best best' ->
  rr sprel (scan_loop tk tc n_valid feature is_cat r cumsum ordered bins s best) (scan_loop tk tc' n_valid feature is_cat r' cumsum ordered bins s' best').
Proof.
  intros n_valid feature is_cat r r' cumsum ordered bins. induction bins as [|k rest IH]; intros s s' best best' HR HS HB; cbn [scan_loop]; [exact HB|].
  pose proof HR as [R1 R2 R3 R4 R5 R6 R7]. destruct HS as [S1 S2 S3 S4 S5 S6 S7]. rewrite R1, R2, R3, S1, S2, S3, S4, S5, Hmsl, Hagg, Hmb.
  apply rr_same. intros n Hn. apply rr_same. intros w Hgw. apply get_R in Hgw as [Hk ->]. apply rr_same. intros nr Hnr.
  eapply rr_bind; [apply (stat_add_rel _ _ _ k _ _ _ R7 S6 Hk)|]. intros sl sl' _ _ HL.
  eapply rr_bind; [apply (stat_sub_rel _ _ _ k _ _ _ R7 S7 Hk)|]. intros sr sr' _ _ HRt.
  apply rr_same. intros vl Hvl. apply rr_same. intros vr Hvr.
  match goal with |- context [if ?q then _ else _] => destruct q end.
  { apply IH; auto. constructor; cbn; auto. }
  match goal with |- context [if ?q then _ else _] => destruct q end; [exact HB|].
  eapply rr_bind; [apply impurity_rel; [exact HL|exact HRt]|]. intros [il ir] [il' ir'] _ _ [Hil Hir]. cbn [fst snd] in Hil, Hir. subst il' ir'.
  apply rr_bind with (R := sprel).
  { rewrite gain_rel.
    pose proof HB as [B1 B2 B3 B4 B5 B6 B7 B8 B9]. rewrite B2, gain_gt_rel.
    match goal with |- context [if ?q then _ else _] => destruct q end; [|exact HB].
    match goal with |- context [if ?q then _ else _] => destruct q end; [|reflexivity]. cbn [rr]. constructor; cbn; auto. }
  intros best1 best1' _ _ HB1. apply IH; auto. constructor; cbn; auto.
Qed.

Lemma try_rel : forall nc nc' feature r r' is_cat cumsum best best' ordered, nrel nc nc' -> rrel r r' -> Rsum (r_w_train r) = nc_w_train nc -> sprel best best' ->
  rr sprel (try_feature_order tk tc nc feature r is_cat cumsum best ordered) (try_feature_order tk tc' nc' feature r' is_cat cumsum best' ordered).
Proof.
  intros nc nc' feature r r' is_cat cumsum best best' ordered [N1 N2 N3 N4 N5 N6 N7 N8] HR HW HB. unfold try_feature_order. rewrite N2, N3, N4.
  apply scan_rel; auto. constructor; cbn [sc_n_left sc_w_left sc_n_right sc_w_right sc_stat_left sc_stat_right sc_v_left]; auto.
  - split; cbn; lra.
  - rewrite <- HW. apply stat_total_rel. apply HR.
Qed.

Lemma argsort_scale : b = 0%R -> comparison_sort E -> forall l : list R, argsort E (map (Rmult a) l) = argsort E l.
Proof.
  intros _ HC l. symmetry. apply HC; [rewrite map_length; auto|]. intros i j Hi Hj.
  rewrite !(nth_indep (map (Rmult a) l) 0%R (a * 0)%R) by (rewrite map_length; auto). rewrite !map_nth. split; intros H; nra.
Qed.

Lemma along_rel : forall nc nc' s feature f best best', nrel nc nc' -> sprel best best' ->
  rr (fun x x' => sprel (fst x) (fst x') /\ snd x' = snd x)
    (find_best_split_along_feature tk tc nc s feature f best) (find_best_split_along_feature tk tc' nc' s feature f best').
Proof.
  intros nc nc' s feature f best best' HN HB. unfold find_best_split_along_feature.
  eapply rr_bind; [apply (get_F2 _ _ _ f (nl_rows _ _ HN))|]. intros r r' _ _ [HR HW]. rewrite Hflags.
  apply rr_same. intros is_cat Hc. destruct is_cat.
  - destruct (Hcat feature Hc) as [Hb HC]. pose proof HR as [R1 R2 R3 R4 R5 R6 R7]. rewrite R1, R5. cbn [tk_cat_orders reg_task]. unfold reg_cat_orders.
    apply rr_bind with (R := fun o o' => fst o' = fst o /\ snd o' = snd o).
    { apply rr_bind with (R := fun ys ys' : list R => ys' = map (Rmult a) ys).
      - destruct R7 as [H1 H2 H3 H4 HS]. generalize (r_ne_train r). induction l as [|k l IH]; cbn [mapM]; [reflexivity|].
        apply rr_bind with (R := fun y y' => y' = (a * y)%R).
        + destruct (Nat.lt_ge_cases k (length (r_w_train r))) as [Hk|Hk].
          * rewrite (getR (fst (r_hist r)) k (eq_ind_r (fun n => k < n) Hk H1)), (getR (fst (r_hist r')) k (eq_ind_r (fun n => k < n) Hk H3)).
            cbn [rr]. destruct (HS k) as [S1 _]. cbn [fst snd] in S1. rewrite Hb in S1. etransitivity; [exact S1|]. apply mul0.
          * assert (Hg : forall l0 : list R, length l0 = length (r_w_train r) -> @get (num R_arith) l0 k = Err OOB).
            { intros l0 Hl. unfold get. assert (Hn : nth_error l0 k = None) by (apply nth_error_None; rewrite Hl; exact Hk). change (num R_arith) with R. rewrite Hn. reflexivity. }
            rewrite (Hg (fst (r_hist r)) H1), (Hg (fst (r_hist r')) H3). reflexivity.
        + intros y y' _ _ ->. eapply rr_bind; [exact IH|]. intros ys ys' _ _ ->. reflexivity.
      - intros ys ys' _ _ ->. rewrite (argsort_scale Hb HC ys). apply rr_same. intros o _. cbn. auto. }
    intros [os s1] [os' s1'] _ _ [E1 E2]. cbn [fst snd] in E1, E2. subst os' s1'.
    apply rr_bind with (R := sprel).
    + apply rr_fold; auto. intros; apply try_rel; auto.
    + intros; cbn; auto.
  - pose proof HR as [R1 R2 R3 R4 R5 R6 R7]. rewrite R1, R3, R5, R6, Hagg. apply rr_same. intros cs _.
    apply rr_bind with (R := sprel); [apply try_rel; auto|]. intros; cbn; auto.
Qed.

Lemma find_rel : forall nc nc' s, nrel nc nc' ->
  rr (fun x x' => sprel (fst x) (fst x') /\ snd x' = snd x) (find_node_split tk tc nc s) (find_node_split tk tc' nc' s).
Proof.
  intros nc nc' s HN. unfold find_node_split. rewrite (nl_f _ _ HN).
  apply rr_bind with (R := fun x x' : split tk * rng E => sprel (fst x) (fst x') /\ snd x' = snd x).
  - apply rr_fold; [split; [apply reset_rel|reflexivity]|]. intros [bst s1] [bst' s1'] [f feature] _ [HB Es]. cbn [fst snd] in HB, Es. subst s1'.
    eapply rr_bind; [apply (get_F2 _ _ _ f (nl_rows _ _ HN))|]. intros r r' _ _ [HR HW]. rewrite (rl_net _ _ HR).
    destruct (1 <? length (r_ne_train r)); [|cbn; auto]. apply along_rel; auto.
  - intros [bst s1] [bst' s1'] _ _ [HB Es]. cbn [fst snd] in HB, Es. subst s1'. pose proof HB as [B1 B2 B3 B4 B5 B6 B7 B8 B9].
    apply rr_bind with (R := sprel); [|intros; cbn; auto]. rewrite B1, B7. destruct (sp_found bst && sp_is_cat bst)%bool; [|exact HB].
    unfold compute_bin_partition. rewrite B4, B8. apply rr_same. intros l _. cbn [rr]. constructor; cbn; auto.
Qed.

Lemma goes_left_rel : forall x x' k, sprel x x' -> goes_left tk x' k = goes_left tk x k.
Proof. intros x x' k [B1 B2 B3 B4 B5 B6 B7 B8 B9]. unfold goes_left. rewrite B7, B9, B4. reflexivity. Qed.
Lemma split_part_rel : forall x x' col part lb rb st en, sprel x x' -> split_part tk x' col part lb rb st en = split_part tk x col part lb rb st en.
Proof.
  intros x x' col part lb rb st en H. unfold split_part. destruct (slice part st en) as [idx|e]; [|reflexivity]. cbn [bind].
  assert (Hf : forall l s, foldM (buffer_step tk x' col) l s = foldM (buffer_step tk x col) l s).
  { induction l as [|i l IH]; intros [[[l1 l2] n1] n2]; cbn [foldM]; auto. unfold buffer_step at 1 3.
    destruct (column_bin col i) as [k|e]; [|reflexivity]. cbn [bind]. rewrite (goes_left_rel x x') by auto.
    destruct (goes_left tk x k) as [[]|e]; [| |reflexivity]; cbn [bind].
    - destruct (set l1 n1 i); [apply IH|reflexivity].
    - destruct (set l2 n2 i); [apply IH|reflexivity]. }
  rewrite Hf. reflexivity.
Qed.
Lemma split_indices_rel : forall x x' ps st en sv ev, sprel x x' -> split_indices tk tc' ps x' st en sv ev = split_indices tk tc ps x st en sv ev.
Proof.
  intros x x' ps st en sv ev H. unfold split_indices. rewrite Hfb, (sl_feature _ _ H). destruct (feature_column (tc_fb tc) (sp_feature x)) as [col|e]; [|reflexivity]. cbn [bind].
  rewrite (split_part_rel x x') by auto. destruct (split_part tk x col (p_train ps) (p_left ps) (p_right ps) st en) as [[[[pt l1] r1] pos]|e]; [|reflexivity]. cbn [bind].
  rewrite (split_part_rel x x') by auto. reflexivity.
Qed.

(** ** Growing *)
Definition scale_node (n : node R_arith) : node R_arith :=
  mkNode (nd_id n) (nd_parent n) (nd_left n) (nd_right n) (nd_is_leaf n) (nd_is_left n) (nd_depth n)
    (nd_feature n) (nd_threshold n) (scaled (nd_impurity n)) (c * nd_loss n)%R (nd_logw n) (nd_n_train n)
    (nd_n_valid n) (nd_w_train n) (nd_w_valid n) (nd_start_train n) (nd_end_train n)
    (nd_start_valid n) (nd_end_valid n) (nd_is_cat n) (nd_bp_start n) (nd_bp_end n).
Definition scale_rec (r : record R_arith) : record R_arith :=
  mkRec (rc_parent r) (rc_depth r) (rc_is_left r) (scaled (rc_impurity r)) (rc_start_train r) (rc_end_train r) (rc_start_valid r) (rc_end_valid r).
Definition scale_new (x : @new_node R_arith) : @new_node R_arith :=
  mkNew (nn_parent x) (nn_depth x) (nn_is_left x) (nn_is_leaf x) (nn_feature x) (nn_bin x) (scaled (nn_impurity x)) (nn_n_train x) (nn_n_valid x)
    (nn_w_train x) (nn_w_valid x) (nn_start_train x) (nn_end_train x) (nn_start_valid x) (nn_end_valid x) (c * nn_loss x)%R (nn_is_cat x) (nn_partition x).
Notation node0R := (@node0 R_arith).
Lemma scale_node0 : scale_node node0R = node0R.
Proof. unfold scale_node, node0. cbn. rewrite Rmult_0_r. reflexivity. Qed.

Definition rmap {X Z} (f : X -> Z) (r : res X) : res Z := match r with Ok x => Ok (f x) | Err e => Err e end.
Lemma resize_map : forall {X} (f : X -> X) (fill : nat -> X) l n, (forall i, f (fill i) = fill i) -> resize fill (map f l) n = rmap (map f) (resize fill l n).
Proof.
  intros X f fill l n H. unfold resize. rewrite map_length. destruct (length l <=? n); [|reflexivity]. cbn [rmap]. rewrite map_app, map_map.
  f_equal. f_equal. apply map_ext. auto.
Qed.

(** The predictions of the first [n] nodes. *)
Definition yrel (n : nat) (l l' : list R) : Prop :=
  length l' = length l /\ n <= length l /\ forall k, k < n -> nth k l' 0%R = unit_of (nth k l 0%R).
Lemma resize_y : forall n l l' m, yrel n l l' -> rr (yrel n) (resize (fun _ => 0%R) l m) (resize (fun _ => 0%R) l' m).
Proof.
  intros n l l' m (H1 & H2 & H3). unfold resize. rewrite H1. destruct (length l <=? m); [|reflexivity]. cbn [rr]. split; [|split].
  - rewrite !app_length, H1. reflexivity.
  - rewrite app_length. lia.
  - intros k Hk. rewrite !app_nth1 by lia. apply H3. auto.
Qed.
Lemma set_y : forall n l l' p, yrel n l l' -> rr (yrel (S n)) (set l n p) (set l' n (unit_of p)).
Proof.
  intros n l l' p (H1 & H2 & H3). unfold set. rewrite H1. destruct (n <? length l) eqn:Hn; [|reflexivity]. apply Nat.ltb_lt in Hn. cbn [rr]. split; [|split].
  - rewrite !upd_length. auto.
  - rewrite upd_length. lia.
  - intros k Hk. rewrite !nth_upd by lia. destruct (k =? n) eqn:Ek; [reflexivity|]. apply Nat.eqb_neq in Ek. apply H3. lia.
Qed.

Notation treeR := (tree R_arith R).
Record trel (n : nat) (t t' : treeR) : Prop := {
  tl_md : tr_max_depth t' = tr_max_depth t; tl_count : tr_node_count t' = tr_node_count t; tl_cap : tr_capacity t' = tr_capacity t;
  tl_nodes : tr_nodes t' = map scale_node (tr_nodes t); tl_y : yrel n (tr_y_pred t) (tr_y_pred t');
  tl_bc : tr_bp_capacity t' = tr_bp_capacity t; tl_bp : tr_bp t' = tr_bp t; tl_be : tr_bp_end t' = tr_bp_end t
}.
Lemma resize_tree_rel_ : forall n t t' m, trel n t t' -> rr (trel n) (resize_tree_ 0%R t m) (resize_tree_ 0%R t' m).
Proof.
  intros n t t' m [T1 T2 T3 T4 T5 T6 T7 T8]. unfold resize_tree_. rewrite T4, (resize_map scale_node) by (intros; apply scale_node0).
  destruct (resize (fun _ => node0R) (tr_nodes t) m) as [nodes|e]; [|reflexivity]. cbn [rmap bind].
  eapply rr_bind; [apply resize_y; exact T5|]. intros y y' _ _ Hyy. cbn [rr]. constructor; cbn; auto.
Qed.
Lemma resize_tree_rel : forall n t t' m, trel n t t' -> rr (trel n) (resize_tree 0%R t m) (resize_tree 0%R t' m).
Proof.
  intros n t t' m HT. pose proof HT as [T1 T2 T3 T4 T5 T6 T7 T8]. unfold resize_tree. rewrite T3, T4, map_length.
  destruct m; match goal with |- context [if ?q then _ else _] => destruct q end; try apply resize_tree_rel_; auto.
Qed.
Lemma resize_bp_rel_ : forall n t t' fill m, trel n t t' -> rr (trel n) (resize_tree_bin_partitions_ fill t m) (resize_tree_bin_partitions_ fill t' m).
Proof.
  intros n t t' fill m [T1 T2 T3 T4 T5 T6 T7 T8]. unfold resize_tree_bin_partitions_. rewrite T7.
  apply rr_same. intros bp _. cbn [rr]. constructor; cbn; auto.
Qed.
Lemma resize_bp_rel : forall n t t' fill m, trel n t t' -> rr (trel n) (resize_tree_bin_partitions fill t m) (resize_tree_bin_partitions fill t' m).
Proof.
  intros n t t' fill m HT. pose proof HT as [T1 T2 T3 T4 T5 T6 T7 T8]. unfold resize_tree_bin_partitions. rewrite T6, T7.
  destruct m; match goal with |- context [if ?q then _ else _] => destruct q end; try apply resize_bp_rel_; auto.
Qed.

Lemma add_node_rel : forall t t' fill x, trel (tr_node_count t) t t' ->
  rr (fun p p' => trel (snd p) (fst p) (fst p') /\ snd p' = snd p /\ tr_node_count (fst p) = S (snd p))
    (add_node_tree fill 0%R t x) (add_node_tree fill 0%R t' (scale_new x)).
Proof.
  intros t t' fill x HT. unfold add_node_tree. pose proof (tl_count _ _ _ HT) as T2. pose proof (tl_cap _ _ _ HT) as T3. rewrite T2, T3.
  set (idx := tr_node_count t) in *.
  apply rr_bind with (R := trel idx).
  { destruct (tr_capacity t <=? idx); [apply resize_tree_rel; exact HT|exact HT]. }
  intros t1 t1' _ _ HT1. pose proof HT1 as [U1 U2 U3 U4 U5 U6 U7 U8]. rewrite U4, get_map. destruct (get (tr_nodes t1) idx) as [old|e]; [|reflexivity]. cbn [bind].
  match goal with |- context [set (tr_nodes t1) idx ?n] => set (n1 := n) end.
  match goal with |- context [set (map scale_node (tr_nodes t1)) idx ?n] => change n with (scale_node n1) end.
  rewrite set_map. destruct (set (tr_nodes t1) idx n1) as [nodes1|e]; [|reflexivity]. cbn [bind].
  apply rr_bind with (R := fun l l' => l' = map scale_node l).
  { cbn [nn_parent scale_new]. destruct (nn_parent x) as [p|]; [|reflexivity]. rewrite get_map. destruct (get nodes1 p) as [pn|e]; [|reflexivity]. cbn [bind].
    replace (if nn_is_left (scale_new x) then with_left (scale_node pn) (Some idx) else with_right (scale_node pn) (Some idx))
      with (scale_node (if nn_is_left x then with_left pn (Some idx) else with_right pn (Some idx))) by (cbn [nn_is_left scale_new]; destruct (nn_is_left x); reflexivity).
    rewrite set_map. destruct (set nodes1 p _); reflexivity. }
  intros nodes2 nodes2' _ _ ->. rewrite get_map. destruct (get nodes2 idx) as [n2|e]; [|reflexivity]. cbn [bind].
  apply rr_bind with (R := fun q q' : treeR * nat * nat => trel idx (fst (fst q)) (fst (fst q')) /\ snd (fst q') = snd (fst q) /\ snd q' = snd q).
  { cbn [nn_is_cat nn_partition scale_new]. destruct (nn_is_cat x && (0 <? length (nn_partition x)))%bool; [|cbn; auto]. rewrite U6, U8.
    apply rr_bind with (R := trel idx).
    - match goal with |- context [if ?q then _ else _] => destruct q end; [apply resize_bp_rel; exact HT1|exact HT1].
    - intros t2 t2' _ _ [V1 V2 V3 V4 V5 V6 V7 V8]. rewrite V7. apply rr_same. intros bp _. cbn. split; auto. constructor; cbn; auto. }
  intros [[t2 bs] be] [[t2' bs'] be'] _ _ ([V1 V2 V3 V4 V5 V6 V7 V8] & E1 & E2). cbn [fst snd] in *. subst bs' be'.
  match goal with |- context [set nodes2 idx ?n] => set (n3 := n) end.
  match goal with |- context [set (map scale_node nodes2) idx ?n] => change n with (scale_node n3) end.
  rewrite set_map. destruct (set nodes2 idx n3) as [nodes3|e]; [|reflexivity]. cbn [bind rr fst snd tr_node_count]. split; [constructor; cbn; auto|]. split; [auto|]. lia.
Qed.

Definition rsrel (rs rs' : records (record R_arith)) : Prop :=
  rs_capacity rs' = rs_capacity rs /\ rs_top rs' = rs_top rs /\ rs_stack rs' = map scale_rec (rs_stack rs).
Lemma push_rel : forall rs rs' r, rsrel rs rs' -> rr rsrel (push_record (@junk_record R_arith E) rs r) (push_record (@junk_record R_arith E) rs' (scale_rec r)).
Proof.
  intros rs rs' r (H1 & H2 & H3). unfold push_record. rewrite H1, H2.
  apply rr_bind with (R := rsrel).
  - destruct (rs_capacity rs <=? rs_top rs); [|cbn; unfold rsrel; auto]. rewrite H3, (resize_map scale_rec) by reflexivity.
    destruct (resize _ (rs_stack rs) (rs_capacity rs * 2)); [|reflexivity]. cbn. unfold rsrel; auto.
  - intros r1 r1' _ _ (K1 & K2 & K3). rewrite K1, K2, K3, set_map. destruct (set (rs_stack r1) (rs_top r1) r); [|reflexivity]. cbn. unfold rsrel; auto.
Qed.

Record grel (g g' : gstate tk) : Prop := {
  gl_tree : trel (tr_node_count (g_tree g)) (g_tree g) (g_tree g'); gl_parts : g_parts g' = g_parts g; gl_rng : g_rng g' = g_rng g;
  gl_fs : g_fs g' = g_fs g; gl_rec : rsrel (g_records g) (g_records g'); gl_ne : fs_sampled (g_fs g) <> []
}.

Lemma sample_length : forall s fs s' fs', sample_features (A := R_arith) (E := E) s fs = Ok (s', fs') -> length (fs_sampled fs') = length (fs_sampled fs).
Proof.
  intros s fs s' fs' H. unfold sample_features in H. destruct (fs_sample fs); [|congruence].
  unfold sample_without_replacement in H. destruct (init_pool (fs_pool fs)) as [pool0|e]; [|discriminate]. cbn [bind] in H.
  assert (Hl : forall l n st st', foldM (sample_step E n) l st = Ok st' -> length (snd st') = length (snd st)).
  { induction l as [|i l IH]; intros n [[s0 p0] o0] st' Hf; cbn [foldM] in Hf; [injection Hf as <-; auto|].
    destruct (sample_step E n (s0, p0, o0) i) as [[[s1 p1] o1]|e] eqn:Hs; [|discriminate]. cbn [bind] in Hf. apply IH in Hf. rewrite Hf. cbn [snd].
    unfold sample_step in Hs. destruct (usub n i) as [m|e]; [|discriminate]. cbn [bind] in Hs. destruct (randint E s0 m) as [[j s2]|e]; [|discriminate]. cbn [bind] in Hs.
    destruct (get p0 j) as [x|e]; [|discriminate]. cbn [bind] in Hs. destruct (set o0 i x) as [o2|e] eqn:Ho; [|discriminate]. cbn [bind] in Hs.
    destruct (usub m 1) as [k|e]; [|discriminate]. cbn [bind] in Hs. destruct (get p0 k) as [y|e]; [|discriminate]. cbn [bind] in Hs.
    destruct (set p0 j y) as [p2|e]; [|discriminate]. cbn [bind] in Hs. injection Hs as _ _ <-. unfold set in Ho. destruct (i <? length o0); [|discriminate]. injection Ho as <-. apply upd_length. }
  destruct (foldM _ _ _) as [[[s1 p1] o1]|e] eqn:Hf; [|discriminate]. cbn [bind] in H. injection H as _ <-. apply Hl in Hf. exact Hf.
Qed.

Lemma stop_rel : forall nc nc' depth imp, nrel nc nc' -> stop_test tk tc' nc' depth (scaled imp) = stop_test tk tc nc depth imp.
Proof.
  intros nc nc' depth imp [N1 N2 N3 N4 N5 N6 N7 N8]. unfold stop_test. rewrite Hmss, Hagg, Hdepth, N2, N3. f_equal. f_equal. destruct imp as [x|]; [|reflexivity].
  cbn [scaled option_map]. change (Rleb (c * x) 0 = Rleb x 0). pose proof c_pos. unfold Rleb. destruct (Rle_dec (c * x) 0), (Rle_dec x 0); auto; exfalso; nra.
Qed.

Lemma choose_rel : forall nc nc' s depth imp, nrel nc nc' ->
  rr (fun q q' : bool * split tk * rng E => fst (fst q') = fst (fst q) /\ sprel (snd (fst q)) (snd (fst q')) /\ snd q' = snd q)
    (choose_split tk tc nc s depth imp) (choose_split tk tc' nc' s depth (scaled imp)).
Proof.
  intros nc nc' s depth imp HN. unfold choose_split. rewrite (stop_rel nc nc') by auto. destruct (stop_test tk tc nc depth imp).
  - cbn. split; [auto|]. split; [apply reset_rel|auto].
  - eapply rr_bind; [apply find_rel; exact HN|]. intros [sp s1] [sp' s1'] _ _ [HS Es]. cbn [fst snd] in *. subst s1'. cbn. rewrite (sl_found _ _ HS). auto.
Qed.

Lemma step_rel : forall g g', grel g g' -> rr grel (grow_step tk tc g) (grow_step tk tc' g').
Proof.
  intros g g' [G1 G2 G3 G4 G5 G6]. unfold grow_step. rewrite G2, G3, G4.
  apply rr_bind with (R := fun q q' : record R_arith * records (record R_arith) => fst q' = scale_rec (fst q) /\ rsrel (snd q) (snd q')).
  { destruct G5 as (K1 & K2 & K3). unfold pop_node_record. rewrite K1, K2, K3. apply rr_same. intros top _. rewrite get_map.
    destruct (get (rs_stack (g_records g)) top); [|reflexivity]. cbn. unfold rsrel. auto. }
  intros [r rs] [r' rs'] _ _ [Er HRs]. cbn [fst snd] in Er, HRs. subst r'. cbn [rc_parent rc_depth rc_is_left rc_impurity rc_start_train rc_end_train rc_start_valid rc_end_valid scale_rec].
  apply rr_bind with (R := fun q q' : nctx tk * rng E * fsamp => nrel (fst (fst q)) (fst (fst q')) /\ snd (fst q') = snd (fst q) /\ snd q' = snd q /\ fs_sampled (snd q) <> []).
  { unfold compute_node_context. apply rr_same. intros [s1 fs1] Hs. apply sample_length in Hs. apply rr_same. intros train _. apply rr_same. intros valid _.
    assert (Hne : fs_sampled fs1 <> []). { intros Hn. apply G6. rewrite Hn in Hs. destruct (fs_sampled (g_fs g)); [auto|discriminate]. }
    eapply rr_bind; [apply node_stats_rel; exact Hne|]. intros nc nc' _ _ HN. cbn. auto. }
  intros [[nc s] fs] [[nc' s'] fs'] _ _ (HN & Es & Ef & Hne). cbn [fst snd] in *. subst s' fs'.
  eapply rr_bind; [apply choose_rel; exact HN|]. intros [[leaf sp] s2] [[leaf' sp'] s2'] _ _ (El & HS & Es). cbn [fst snd] in *. subst leaf' s2'.
  pose proof HN as [N1 N2 N3 N4 N5 N6 N7 N8]. pose proof HS as [B1 B2 B3 B4 B5 B6 B7 B8 B9].
  rewrite N2, N3, N4, N5, N6, N7, B3, B4, B7, B9.
  match goal with |- rr _ (bind (add_node_tree _ _ _ ?x) _) (bind (add_node_tree _ _ _ ?x') _) => change x' with (scale_new x) end.
  eapply rr_bind; [apply (add_node_rel _ _ _ _ G1)|]. intros [t id] [t' id'] _ _ (HT & Ei & Ec). cbn [fst snd] in HT, Ei, Ec. subst id'.
  eapply rr_bind; [apply set_y; exact (tl_y _ _ _ HT)|]. intros yp yp' _ _ HY. pose proof HT as [V1 V2 V3 V4 V5 V6 V7 V8].
  assert (HT' : trel (tr_node_count (with_y_pred tk t yp)) (with_y_pred tk t yp) (with_y_pred tk t' yp')).
  { constructor; cbn; auto. rewrite Ec. exact HY. }
  destruct leaf; [cbn [rr]; constructor; cbn [g_tree g_parts g_rng g_fs g_records]; auto|].
  rewrite (split_indices_rel sp sp') by exact HS. apply rr_same. intros [[ps pt] pv] _. rewrite B5, B6.
  match goal with |- rr _ (bind (push_record _ _ ?x) _) (bind (push_record _ _ ?x') _) => change x' with (scale_rec x) end.
  eapply rr_bind; [apply push_rel; exact HRs|]. intros rs1 rs1' _ _ HR1.
  match goal with |- rr _ (bind (push_record _ _ ?x) _) (bind (push_record _ _ ?x') _) => change x' with (scale_rec x) end.
  eapply rr_bind; [apply push_rel; exact HR1|]. intros rs2 rs2' _ _ HR2. cbn [rr]. constructor; cbn [g_tree g_parts g_rng g_fs g_records]; auto.
Qed.

Lemma loop_rel : forall fuel g g', grel g g' -> rr grel (grow_loop tk fuel tc g) (grow_loop tk fuel tc' g').
Proof.
  induction fuel as [|fuel IH]; intros g g' HG; cbn [grow_loop]; destruct (gl_rec _ _ HG) as (K1 & K2 & K3); unfold has_records; rewrite K2; destruct (0 <? rs_top (g_records g)); try exact HG; [reflexivity|].
  eapply rr_bind; [apply step_rel; exact HG|]. intros; auto.
Qed.

Lemma step_loss : forall s s' l : R, (s' * c)%R = s -> @amul R_arith (@aopp R_arith s) l = @amul R_arith (@aopp R_arith s') (c * l)%R.
Proof. intros s s' l <-. cbn. ring. Qed.

Lemma weights_rel : forall nodes n, tc_aggregation tc = true ->
  compute_tree_weights (map scale_node nodes) n (tc_step tc') = rmap (map scale_node) (compute_tree_weights nodes n (tc_step tc)).
Proof.
  intros nodes n Ht. specialize (Hstep Ht). unfold compute_tree_weights. revert nodes. induction (rev (seq 0 n)) as [|i l IH]; intros nodes; cbn [foldM]; [reflexivity|].
  assert (Hs : weight_step (tc_step tc') (map scale_node nodes) i = rmap (map scale_node) (weight_step (tc_step tc) nodes i)).
  { unfold weight_step. rewrite get_map. destruct (get nodes i) as [x|e]; [|reflexivity]. cbn [bind].
    replace (amul (aopp (tc_step tc')) (nd_loss (scale_node x))) with (amul (aopp (tc_step tc)) (nd_loss x)) by (apply step_loss; exact Hstep).
    cbn [nd_is_leaf nd_left nd_right scale_node]. destruct (nd_is_leaf x).
    - change (with_logw (scale_node x) ?w) with (scale_node (with_logw x w)). rewrite set_map. destruct (set nodes i _); reflexivity.
    - destruct (idx_of (nd_left x)) as [k|e]; [|reflexivity]. cbn [bind]. destruct (idx_of (nd_right x)) as [r|e]; [|reflexivity]. cbn [bind]. rewrite !get_map.
      destruct (get nodes k) as [ln|e]; [|reflexivity]. cbn [bind]. destruct (get nodes r) as [rn|e]; [|reflexivity]. cbn [bind nd_logw scale_node].
      destruct (logw_of (nd_logw ln)) as [wl|e]; [|reflexivity]. cbn [bind]. destruct (logw_of (nd_logw rn)) as [wr|e]; [|reflexivity]. cbn [bind].
      match goal with |- set _ i ?y = rmap _ (set _ i ?z) => change y with (scale_node z) end. rewrite set_map. destruct (set nodes i _); reflexivity. }
  rewrite Hs. destruct (weight_step (tc_step tc) nodes i) as [nodes1|e]; [|reflexivity]. cbn [rmap bind]. apply IH.
Qed.

Lemma resize_tree_count : forall (z : R) (t t0 : treeR) m, resize_tree z t m = Ok t0 -> tr_node_count t0 = tr_node_count t.
Proof.
  intros z t t0 m H0.
  assert (Hr : forall n t0, resize_tree_ z t n = Ok t0 -> tr_node_count t0 = tr_node_count t).
  { intros n t1 H. unfold resize_tree_ in H.
    destruct (resize _ (tr_nodes t) _); [|discriminate]. cbn [bind] in H. destruct (resize _ (tr_y_pred t) _); [|discriminate]. cbn [bind] in H. injection H as <-. reflexivity. }
  unfold resize_tree in H0. destruct m; match type of H0 with context [if ?q then _ else _] => destruct q end; try (apply Hr in H0; exact H0). injection H0 as <-. reflexivity.
Qed.

Lemma grow_rel : forall t t' ps s fs, trel (tr_node_count t) t t' -> fs_sampled fs <> [] -> rr grel (grow tk tc t ps s fs) (grow tk tc' t' ps s fs).
Proof.
  intros t t' ps s fs HT Hne. unfold grow. eapply rr_bind; [apply (resize_tree_rel _ _ _ (Some init_capacity) HT)|]. intros t0 t0' H0 _ HT0.
  pose proof (resize_tree_count _ _ _ _ H0) as Hc. rewrite <- Hc in HT0.
  apply rr_bind with (R := rsrel).
  { match goal with |- rr _ (push_record _ _ ?x) (push_record _ _ ?x') => change x' with (scale_rec x) end. apply push_rel. split; [auto|]. split; [auto|].
    cbn [rs_stack new_records]. rewrite map_map. apply map_ext. reflexivity. }
  intros rs rs' _ _ HR. eapply rr_bind.
  { apply loop_rel. constructor; cbn [g_tree g_parts g_rng g_fs g_records]; auto. }
  intros g g' _ _ HG. rewrite Hagg. pose proof weights_rel as HW. clear Hstep. destruct (tc_aggregation tc) eqn:Ha1; [|exact HG]. pose proof HG as [G1 G2 G3 G4 G5 G6]. pose proof G1 as [V1 V2 V3 V4 V5 V6 V7 V8].
  change (tr_nodes (g_tree g') = map scale_node (@tr_nodes R_arith (tk_P tk) (g_tree g))) in V4.
  change (tr_node_count (g_tree g') = @tr_node_count R_arith (tk_P tk) (g_tree g)) in V2. rewrite V4, V2, HW by reflexivity. destruct (compute_tree_weights _ _ _) as [nodes|e]; [|reflexivity]. cbn [rmap bind rr].
  constructor; cbn [g_tree g_parts g_rng g_fs g_records with_nodes]; auto. constructor; cbn; auto.
Qed.

End Affine.

Section Predictions.
Context (a b : R).
Notation c := (a * a)%R.
Notation unit_of := (new_unit a b).
Notation treeR := (tree R_arith R).
(** ** Predictions *)
Lemma next_rel : forall n t t' fb i x, trel a b n t t' -> next_node t' fb i ((scale_node a) x) = next_node t fb i x.
Proof. intros n t t' fb i x [T1 T2 T3 T4 T5 T6 T7 T8]. unfold next_node. cbn [nd_feature nd_is_cat nd_bp_start nd_bp_end nd_threshold nd_left nd_right scale_node]. rewrite T7. reflexivity. Qed.
Lemma leaf_loop_rel : forall n t t' fb i, trel a b n t t' -> forall fuel idx, find_leaf_loop fuel t' fb i idx = find_leaf_loop fuel t fb i idx.
Proof.
  intros n t t' fb i HT fuel. induction fuel as [|fuel IH]; intros idx; cbn [find_leaf_loop]; [reflexivity|]. rewrite (tl_nodes _ _ _ _ _ HT), get_map.
  destruct (get (tr_nodes t) idx) as [x|e]; [|reflexivity]. cbn [bind]. cbn [nd_is_leaf scale_node]. destruct (nd_is_leaf x); [reflexivity|].
  fold ((scale_node a) x). rewrite (next_rel n t t') by exact HT. destruct (next_node t fb i x); [apply IH|reflexivity].
Qed.
Lemma find_leaf_rel : forall n t t' fb i, trel a b n t t' -> find_leaf t' fb i = find_leaf t fb i.
Proof. intros n t t' fb i HT. unfold find_leaf. rewrite (tl_count _ _ _ _ _ HT). apply (leaf_loop_rel n). exact HT. Qed.
Lemma apply_rel : forall n t t' fb, trel a b n t t' -> tree_apply t' fb = tree_apply t fb.
Proof.
  intros n t t' fb HT. unfold tree_apply. induction (seq 0 (fb_n_samples fb)) as [|i l IH]; cbn [mapM]; [reflexivity|].
  rewrite (find_leaf_rel n t t') by exact HT. rewrite IH. reflexivity.
Qed.

Lemma get_at : forall (t : treeR) id x, id < tr_node_count t -> get (tr_nodes t) id = Ok x -> node_at t id x.
Proof. intros t id x Hid H. split; [exact Hid|]. unfold get in H. destruct (nth_error (tr_nodes t) id); [injection H as <-; reflexivity|discriminate]. Qed.
Lemma leaf_lt : forall (t : treeR) fb i, well_formed t -> forall fuel idx k, idx < tr_node_count t -> find_leaf_loop fuel t fb i idx = Ok k -> k < tr_node_count t.
Proof.
  intros t fb i W fuel. induction fuel as [|fuel IH]; intros idx k Hi H; cbn [find_leaf_loop] in H; [discriminate|].
  destruct (get (tr_nodes t) idx) as [x|e] eqn:Hg; [|discriminate]. cbn [bind] in H. destruct (nd_is_leaf x) eqn:Hl; [injection H as <-; exact Hi|].
  destruct (next_node t fb i x) as [q|e] eqn:Hn; [|discriminate]. cbn [bind] in H. apply (IH q k); [|exact H].
  destruct (wf_children _ W idx x (get_at _ _ _ Hi Hg) Hl) as (l & r & ln & rn & E1 & E2 & _ & _ & _ & [A1 _] & [A2 _] & _).
  unfold next_node in Hn. destruct (idx_of (nd_feature x)) as [f|e]; [|discriminate]. cbn [bind] in Hn. destruct (get_value fb i f) as [v|e]; [|discriminate]. cbn [bind] in Hn.
  match type of Hn with bind ?m _ = _ => destruct m as [[]|e]; [| |discriminate] end; cbn [bind] in Hn; [rewrite E1 in Hn|rewrite E2 in Hn]; injection Hn as <-; auto.
Qed.

Lemma get_yrel : forall n l l' k, yrel a b n l l' -> k < n -> exists v, @get (num R_arith) l k = Ok v /\ @get (num R_arith) l' k = Ok (unit_of v).
Proof.
  intros n l l' k (H1 & H2 & H3) Hk. exists (nth k l 0%R). split; [apply getR; lia|]. rewrite (getR l') by lia. f_equal. apply H3. auto.
Qed.

Lemma alpha_rel : forall s s' x, (s' * c)%R = s -> node_alpha (A := R_arith) s' ((scale_node a) x) = node_alpha s x.
Proof.
  intros s s' x Hs. unfold node_alpha. cbn [nd_logw scale_node]. destruct (logw_of (nd_logw x)) as [w|e]; [|reflexivity]. cbn [bind].
  change (nd_loss ((scale_node a) x)) with (c * nd_loss x)%R. rewrite <- (step_loss a s s' (nd_loss x)) by exact Hs. reflexivity.
Qed.

Lemma climb_rel : forall t t' s s', trel a b (tr_node_count t) t t' -> well_formed t -> (s' * c)%R = s -> forall fuel idx v, idx < tr_node_count t ->
  rr (fun p p' => p' = unit_of p)
    (climb fuel t s (fun idx _ => @get (num R_arith) (tr_y_pred t) idx) mix_num idx v)
    (climb fuel t' s' (fun idx _ => @get (num R_arith) (tr_y_pred t') idx) mix_num idx (unit_of v)).
Proof.
  intros t t' s s' HT W Hs fuel. induction fuel as [|fuel IH]; intros idx v Hi; cbn [climb]; [reflexivity|]. destruct (idx =? 0) eqn:E0; [reflexivity|].
  apply Nat.eqb_neq in E0. rewrite (tl_nodes _ _ _ _ _ HT), get_map. destruct (get (tr_nodes t) idx) as [x|e] eqn:Hg; [|reflexivity]. cbn [bind].
  change (nd_parent ((scale_node a) x)) with (nd_parent x).
  destruct (wf_parent _ W idx x (get_at _ _ _ Hi Hg) E0) as (q & pn & E1 & [Hq Hn] & _). rewrite E1. cbn [idx_of bind]. rewrite get_map. unfold get at 1 4. rewrite Hn. cbn [bind].
  destruct (get_yrel _ _ _ q (tl_y _ _ _ _ _ HT) Hq) as (u & U1 & U2). rewrite U1, U2. cbn [bind]. rewrite (alpha_rel s s') by exact Hs.
  apply rr_same. intros alpha _. unfold mix_num. cbn [bind].
  replace (aadd (amul alpha (unit_of u)) (amul (asub a1 alpha) (unit_of v))) with (unit_of (aadd (amul alpha u) (amul (asub a1 alpha) v) : R)) by (unfold new_unit; cbn; ring).
  apply IH. exact Hq.
Qed.

Lemma predict_rel : forall t t' fb agg s s', trel a b (tr_node_count t) t t' -> well_formed t -> (agg = true -> (s' * c)%R = s) ->
  rr (Forall2 (fun p p' => p' = unit_of p)) (tree_predict mix_num t fb agg s) (tree_predict mix_num t' fb agg s').
Proof.
  intros t t' fb agg s s' HT W Hs. unfold tree_predict. apply rr_map. intros i _. unfold predict_one. rewrite (find_leaf_rel _ t t') by exact HT.
  apply rr_same. intros leaf Hl. assert (Hlt : leaf < tr_node_count t).
  { destruct (wf_root _ W) as (x & [H0 _] & _). eapply leaf_lt; eauto. }
  destruct (get_yrel _ _ _ leaf (tl_y _ _ _ _ _ HT) Hlt) as (u & U1 & U2).
  change (@get (num R_arith) (@tr_y_pred R_arith (num R_arith) t) leaf = Ok u) in U1. change (@get (num R_arith) (@tr_y_pred R_arith (num R_arith) t') leaf = Ok (unit_of u)) in U2. rewrite U1, U2. cbn [bind]. destruct agg; [|reflexivity].
  pose proof (tl_count _ _ _ _ _ HT) as Hn. change (@tr_node_count R_arith (num R_arith) t' = @tr_node_count R_arith (num R_arith) t) in Hn. rewrite Hn. apply climb_rel; auto.
Qed.

Lemma depth_rel : forall t t' fb s s' n, trel a b n t t' -> (s' * c)%R = s -> tree_weighted_depth t' fb s' = tree_weighted_depth t fb s.
Proof.
  intros t t' fb s s' n HT Hs. unfold tree_weighted_depth. induction (seq 0 (fb_n_samples fb)) as [|i l IH]; cbn [mapM]; [reflexivity|]. rewrite IH.
  assert (H1 : weighted_depth_one t' fb s' i = weighted_depth_one t fb s i); [|rewrite H1; reflexivity].
  unfold weighted_depth_one. rewrite (find_leaf_rel n t t') by exact HT. destruct (find_leaf t fb i) as [leaf|e]; [|reflexivity]. cbn [bind].
  rewrite (tl_nodes _ _ _ _ _ HT), get_map, (tl_count _ _ _ _ _ HT). destruct (get (tr_nodes t) leaf) as [x|e]; [|reflexivity]. cbn [bind].
  change (nd_depth ((scale_node a) x)) with (nd_depth x). generalize (@aofnat R_arith (nd_depth x)). generalize leaf. generalize (S (tr_node_count t)).
  induction n0 as [|fuel IHf]; intros idx v; cbn [climb]; [reflexivity|]. destruct (idx =? 0); [reflexivity|]. rewrite (tl_nodes _ _ _ _ _ HT), get_map.
  destruct (get (tr_nodes t) idx) as [y|e]; [|reflexivity]. cbn [bind]. change (nd_parent ((scale_node a) y)) with (nd_parent y).
  destruct (idx_of (nd_parent y)) as [q|e]; [|reflexivity]. cbn [bind]. rewrite get_map. destruct (get (tr_nodes t) q) as [pn|e]; [|reflexivity]. cbn [bind].
  change (nd_depth ((scale_node a) pn)) with (nd_depth pn). rewrite (alpha_rel s s') by exact Hs. destruct (node_alpha s pn) as [al|e]; [|reflexivity]. cbn [bind].
  destruct (mix_num al _ v) as [v'|e]; [|reflexivity]. cbn [bind]. apply IHf.
Qed.
End Predictions.

(** ** One tree, then the forest *)
Section Forest.
Context {E : env R_arith} (a b : R) (Ha : (0 < a)%R).
Notation c := (a * a)%R.
Notation unit_of := (new_unit a b).
Notation tk := (reg_task E).
Notation objR := (tobj R_arith R R).

(** Two fitted trees. *)
Definition orel (s s' : R) (agg : bool) (x x' : objR) : Prop :=
  ob_step x = s /\ ob_step x' = s' /\ ob_aggregation x = agg /\ ob_aggregation x' = agg /\
  exists t t', ob_tree x = Some t /\ ob_tree x' = Some t' /\ trel a b (tr_node_count t) t t'.

Lemma obj_fit_rel : forall p s' fb y train valid w s,
  (tp_aggregation p = true -> (s' * c)%R = tp_step p) ->
  (In true (tp_is_categorical p) -> b = 0%R /\ comparison_sort E) -> 1 <= tp_max_features p ->
  rr (orel (tp_step p) s' (tp_aggregation p)) (obj_fit tk 0%R p fb y train valid w s) (obj_fit tk 0%R (params_with_step p s') fb (map unit_of y) train valid w s).
Proof.
  intros p s' fb y train valid w s Hs Hc Hm. unfold obj_fit, tree_fit, init_tree_context.
  destruct (init_max_n_bins fb) as [mb|e]; [|reflexivity]. cbn [bind].
  apply rr_bind with (R := fun q q' : tctx R_arith (tk_Y tk) * gstate tk => trel a b (tr_node_count (g_tree (snd q))) (g_tree (snd q)) (g_tree (snd q'))).
  2: { intros [tc g] [tc' g'] _ _ HT. cbn [snd] in HT. cbn [rr]. unfold orel. cbn. repeat (split; [reflexivity|]). eauto 8. }
  eapply rr_bind; [|intros g g' _ _ HG; cbn; exact (gl_tree _ _ _ _ HG)].
  apply (grow_rel a b Ha); try reflexivity; auto.
  - intros j Hj. apply Hc. cbn in Hj. unfold get in Hj. destruct (nth_error (tp_is_categorical p) j) eqn:Hn; [|discriminate]. injection Hj as ->. eapply nth_error_In; eauto.
  - constructor; try reflexivity. split; [reflexivity|]. split; [cbn; lia|]. intros k Hk. cbn in Hk. lia.
  - cbn. destruct (tp_max_features p); [lia|discriminate].
Qed.
End Forest.
