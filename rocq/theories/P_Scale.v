(** * Two runs whose sample weights differ by a positive factor *)

Require Import List Arith Lia NArith ZArith Reals Lra Bool.
Require Import Verif.Base Verif.Num Verif.M_Bitarray Verif.M_Utils Verif.M_Impurity Verif.M_Context Verif.M_Node
  Verif.M_Split Verif.M_Tree Verif.M_Grow Verif.M_Object Verif.S_Tree Verif.S_Units Verif.P_Affine.
Import ListNotations.
Local Open Scope nat_scope.
Local Open Scope list_scope.
Local Open Scope res_scope.

Lemma rr_fun : forall {X Z} (f : X -> Z) r r', r' = rmap f r -> rr (fun x x' => x' = f x) r r'.
Proof. intros X Z f [x|e] r' ->; cbn; auto. Qed.

(** The same task with another normalisation of the predictions. *)
Definition with_pred_end {E : env R_arith} (tk : task R_arith E) (pe : tk_P tk -> R -> res (tk_P tk)) : task R_arith E := {|
  tk_Y := tk_Y tk; tk_H := tk_H tk; tk_P := tk_P tk; tk_S := tk_S tk; tk_hist0 := tk_hist0 tk; tk_hist_add := tk_hist_add tk;
  tk_pred0 := tk_pred0 tk; tk_pred_add := tk_pred_add tk; tk_pred_end := pe; tk_loss_add := tk_loss_add tk; tk_stat0 := tk_stat0 tk;
  tk_stat_total := tk_stat_total tk; tk_stat_add := tk_stat_add tk; tk_stat_sub := tk_stat_sub tk; tk_impurity := tk_impurity tk;
  tk_cat_orders := tk_cat_orders tk |}.

Definition node_scaled (k : R) (n : node R_arith) : node R_arith :=
  mkNode (nd_id n) (nd_parent n) (nd_left n) (nd_right n) (nd_is_leaf n) (nd_is_left n) (nd_depth n)
    (nd_feature n) (nd_threshold n) (nd_impurity n) (k * nd_loss n)%R (nd_logw n) (nd_n_train n)
    (nd_n_valid n) (k * nd_w_train n)%R (k * nd_w_valid n)%R (nd_start_train n) (nd_end_train n)
    (nd_start_valid n) (nd_end_valid n) (nd_is_cat n) (nd_bp_start n) (nd_bp_end n).
Definition tree_scaled {P} (k : R) (t : tree R_arith P) : tree R_arith P :=
  mkTree (tr_max_depth t) (tr_node_count t) (tr_capacity t) (map (node_scaled k) (tr_nodes t)) (tr_y_pred t) (tr_bp_capacity t) (tr_bp t) (tr_bp_end t).

Lemma mapM_get_map : forall {X Z} (g : X -> Z) h l, mapM (get (map g h)) l = rmap (map g) (mapM (get h) l).
Proof.
  intros X Z g h l. induction l as [|j l IH]; cbn [mapM]; [reflexivity|]. rewrite get_map. destruct (get h j) as [x|e]; [|reflexivity]. cbn [bind]. rewrite IH.
  destruct (mapM (get h) l); reflexivity.
Qed.

(** What is needed of the statistics of a task. *)
Record scales {E : env R_arith} (tk : task R_arith E) (pe : tk_P tk -> R -> res (tk_P tk)) (k : R)
  (hs : tk_H tk -> tk_H tk) (ss : tk_S tk -> tk_S tk) (ps : tk_P tk -> tk_P tk) (okp : tk_P tk -> Prop) : Prop := {
  sk_hist0 : forall n, hs (tk_hist0 tk n) = tk_hist0 tk n;
  sk_hist_add : forall h j y w, tk_hist_add tk (hs h) j y (k * w)%R = rmap hs (tk_hist_add tk h j y w);
  sk_ok0 : okp (tk_pred0 tk);
  sk_pred0 : ps (tk_pred0 tk) = tk_pred0 tk;
  sk_ok : forall p y w p', okp p -> tk_pred_add tk p y w = Ok p' -> okp p';
  sk_pred_add : forall p y w, okp p -> tk_pred_add tk (ps p) y (k * w)%R = rmap ps (tk_pred_add tk p y w);
  sk_pred_end : forall p w, okp p -> pe (ps p) (k * w)%R = tk_pred_end tk p w;
  sk_loss : forall l p y w, tk_loss_add tk (k * l)%R p y (k * w)%R = rmap (Rmult k) (tk_loss_add tk l p y w);
  sk_stat0 : ss (tk_stat0 tk) = tk_stat0 tk;
  sk_total : forall h, tk_stat_total tk (hs h) = ss (tk_stat_total tk h);
  sk_stat_add : forall s h j, tk_stat_add tk (ss s) (hs h) j = rmap ss (tk_stat_add tk s h j);
  sk_stat_sub : forall s h j, tk_stat_sub tk (ss s) (hs h) j = rmap ss (tk_stat_sub tk s h j);
  sk_impurity : forall wl wr sl sr, tk_impurity tk (k * wl)%R (k * wr)%R (ss sl) (ss sr) = tk_impurity tk wl wr sl sr
}.

Section Scale.
Context {E : env R_arith} (tk : task R_arith E) (pe : tk_P tk -> R -> res (tk_P tk)) (k : R) (Hk : (0 < k)%R).
Context (hs : tk_H tk -> tk_H tk) (ss : tk_S tk -> tk_S tk) (ps : tk_P tk -> tk_P tk) (okp : tk_P tk -> Prop).
Context (SK : scales tk pe k hs ss ps okp).
Notation tk' := (with_pred_end tk pe).
Notation kl := (map (Rmult k)).
Context (tc tc' : tctx R_arith (tk_Y tk)).
Context (Hfb : tc_fb tc' = tc_fb tc) (Hmb : tc_max_n_bins tc' = tc_max_n_bins tc) (Hy : tc_y tc' = tc_y tc)
  (Hw : tc_weights tc' = kl (tc_weights tc)) (Hmss : tc_min_samples_split tc' = tc_min_samples_split tc)
  (Hmsl : tc_min_samples_leaf tc' = tc_min_samples_leaf tc) (Hdepth : tc_max_depth tc' = tc_max_depth tc)
  (Hagg : tc_aggregation tc' = tc_aggregation tc) (Hflags : tc_is_categorical tc' = tc_is_categorical tc).
Context (Hstep : tc_aggregation tc = true -> (tc_step tc' * k)%R = tc_step tc).
Context (Hcat : forall j, get (tc_is_categorical tc) j = Ok true -> forall s h l, tk_cat_orders tk s (hs h) l = tk_cat_orders tk s h l).

Lemma add_scaled : forall (l : list R) i w, @add_at R_arith (kl l) i (k * w)%R = rmap kl (@add_at R_arith l i w).
Proof.
  intros l i w. unfold add_at. change (num R_arith) with R. rewrite (get_map (Rmult k) l i). destruct (get l i) as [x|e]; [|reflexivity]. cbn [bind].
  change (@aadd R_arith (k * x)%R (k * w)%R) with (k * x + k * w)%R. rewrite <- Rmult_plus_distr_l. rewrite set_map. change (@aadd R_arith x w) with (x + w)%R. destruct (set l i (x + w)%R); reflexivity.
Qed.
Lemma get_kl : forall (l : list (num R_arith)) j, @get (num R_arith) (kl l) j = rmap (Rmult k) (@get (num R_arith) l j).
Proof. intros l j. exact (get_map (Rmult k) l j). Qed.
Lemma get_w : forall i, get (tc_weights tc') i = rmap (Rmult k) (get (tc_weights tc) i).
Proof. intros i. rewrite Hw. exact (get_map (Rmult k) (tc_weights tc) i). Qed.

Record wrel (r : row tk) (r' : row tk') : Prop := {
  wl_nt : r_n_train r' = r_n_train r; wl_wt : r_w_train r' = kl (r_w_train r); wl_nv : r_n_valid r' = r_n_valid r; wl_wv : r_w_valid r' = kl (r_w_valid r);
  wl_net : r_ne_train r' = r_ne_train r; wl_nev : r_ne_valid r' = r_ne_valid r; wl_h : r_hist r' = hs (r_hist r)
}.
Lemma kl_zeros : forall n, kl (repeat 0%R n) = repeat 0%R n.
Proof. induction n; cbn; [reflexivity|]. rewrite IHn, Rmult_0_r. reflexivity. Qed.
Lemma row0_wrel : forall n, wrel (row0 tk n) (row0 tk' n).
Proof.
  intros n. constructor; try reflexivity; cbn.
  - symmetry. apply kl_zeros.
  - symmetry. apply kl_zeros.
  - symmetry. apply (sk_hist0 _ _ _ _ _ _ _ SK).
Qed.

(** ** Statistics of a node *)
Definition trainw (first : bool) (st : R * tk_P tk * row tk) (st' : R * tk_P tk * row tk') : Prop :=
  let '(w, p, r) := st in let '(w', p', r') := st' in
  w' = (k * w)%R /\ wrel r r' /\ (if first then okp p /\ p' = ps p else p' = p).

Lemma train_step_w : forall f col st st' i, trainw (f =? 0) st st' ->
  rr (trainw (f =? 0)) (train_step tk tc f col st i) (train_step tk' tc' f col st' i).
Proof.
  intros f col [[w p] r] [[w' p'] r'] i (-> & HR & Hp). unfold train_step. cbn [tk_hist_add tk_pred_add with_pred_end]. change (tk_Y tk') with (tk_Y tk). rewrite Hy, get_w, Hmb.
  apply rr_same. intros j Hj. apply rr_same. intros y Ey. destruct (get (tc_weights tc) i) as [sw|e]; [|reflexivity]. cbn [rmap bind].
  apply rr_bind with (R := fun (x x' : R * tk_P tk) => fst x' = (k * fst x)%R /\ (if f =? 0 then okp (snd x) /\ snd x' = ps (snd x) else snd x' = snd x)).
  { destruct (f =? 0); [|cbn; auto]. destruct Hp as [Ho ->]. rewrite (sk_pred_add _ _ _ _ _ _ _ SK) by exact Ho.
    destruct (tk_pred_add tk p y sw) as [q|e] eqn:Eq; [|reflexivity]. cbn [rmap bind rr fst snd]. split; [cbn; ring|]. split; [|reflexivity]. eapply (sk_ok _ _ _ _ _ _ _ SK); eauto. }
  intros [w1 p1] [w1' p1'] _ _ [Hw1 Hp1]. cbn [fst snd] in *.
  destruct HR as [R1 R2 R3 R4 R5 R6 R7]. rewrite R1, R2, R3, R4, R5, R6, R7.
  apply rr_same. intros n Hn. apply rr_same. intros ne Hne. apply rr_same. intros nt Hnt. rewrite add_scaled.
  destruct (add_at (r_w_train r) j sw) as [wt|e]; [|reflexivity]. cbn [rmap bind]. rewrite (sk_hist_add _ _ _ _ _ _ _ SK).
  destruct (tk_hist_add tk (r_hist r) j y sw) as [h|e]; [|reflexivity]. cbn [rmap bind rr trainw]. split; [exact Hw1|]. split; [constructor; cbn; auto|exact Hp1].
Qed.

Definition validw (st : R * R * row tk) (st' : R * R * row tk') : Prop :=
  let '(w, l, r) := st in let '(w', l', r') := st' in w' = (k * w)%R /\ l' = (k * l)%R /\ wrel r r'.
Lemma valid_step_w : forall f col p st st' i, validw st st' ->
  rr validw (valid_step tk tc f p col st i) (valid_step tk' tc' f p col st' i).
Proof.
  intros f col p [[w l] r] [[w' l'] r'] i (-> & -> & HR). unfold valid_step. cbn [tk_loss_add with_pred_end]. change (tk_Y tk') with (tk_Y tk). rewrite Hy, get_w, Hmb.
  apply rr_same. intros j Hj. destruct (get (tc_weights tc) i) as [sw|e]; [|reflexivity]. cbn [rmap bind].
  apply rr_bind with (R := fun x x' : R * R => fst x' = (k * fst x)%R /\ snd x' = (k * snd x)%R).
  { destruct (f =? 0); [|cbn; auto]. apply rr_same. intros y _. rewrite (sk_loss _ _ _ _ _ _ _ SK). destruct (tk_loss_add tk l p y sw); [|reflexivity]. cbn. split; ring. }
  intros [w1 p1] [w1' p1'] _ _ [Hw1 Hp1]. cbn [fst snd] in *.
  destruct HR as [R1 R2 R3 R4 R5 R6 R7]. rewrite R1, R2, R3, R4, R5, R6, R7.
  apply rr_same. intros n Hn. apply rr_same. intros ne Hne. apply rr_same. intros nt Hnt. rewrite add_scaled.
  destruct (add_at (r_w_valid r) j sw) as [wv|e]; [|reflexivity]. cbn [rmap bind rr validw]. split; [auto|]. split; [auto|]. constructor; cbn; auto.
Qed.

Record aw (n : nat) (x : acc tk) (x' : acc tk') : Prop := {
  aw_wt : ac_w_train x' = (k * ac_w_train x)%R; aw_wv : ac_w_valid x' = (k * ac_w_valid x)%R; aw_loss : ac_loss x' = (k * ac_loss x)%R;
  aw_pred : ac_pred x' = ac_pred x; aw_pred0 : n = 0 -> ac_pred x = tk_pred0 tk;
  aw_rows : Forall2 wrel (ac_rows x) (ac_rows x')
}.

Lemma feature_step_w : forall train valid x x' f j, aw f x x' ->
  rr (aw (S f)) (feature_step tk tc train valid x (f, j)) (feature_step tk' tc' train valid x' (f, j)).
Proof.
  intros train valid x x' f j [A1 A2 A3 A4 A5 A6]. unfold feature_step. cbn [tk_pred_end with_pred_end]. change (tk_P tk') with (tk_P tk). change (tk_Y tk') with (tk_Y tk). rewrite Hfb, Hmb, Hagg. apply rr_same. intros col Hcol.
  apply rr_bind with (R := trainw (f =? 0)).
  { apply rr_fold; [|intros; apply train_step_w; auto]. cbn [trainw]. split; [auto|]. split; [apply row0_wrel|].
    destruct (Nat.eqb_spec f 0) as [->|Hf]; [|exact A4]. rewrite A4, (A5 eq_refl). split; [apply (sk_ok0 _ _ _ _ _ _ _ SK)|symmetry; apply (sk_pred0 _ _ _ _ _ _ _ SK)]. }
  intros [[w p] r] [[w' p'] r'] _ _ (Ew & HR & Hp). subst w'.
  apply rr_bind with (R := eq).
  { destruct (f =? 0); [|cbn; auto]. destruct Hp as [Ho ->]. rewrite (sk_pred_end _ _ _ _ _ _ _ SK) by exact Ho. apply rr_refl. }
  intros q q' _ _ <-.
  apply rr_bind with (R := validw).
  { destruct (tc_aggregation tc).
    - apply rr_fold; [|intros; apply valid_step_w; auto]. cbn [validw]. auto.
    - cbn. auto. }
  intros [[wv l] r1] [[wv' l'] r1'] _ _ (-> & -> & HR1). cbn [rr]. constructor; cbn; auto; [discriminate|].
  apply Forall2_app; [auto|]. constructor; [exact HR1|constructor].
Qed.

Record nw (x : nctx tk) (x' : nctx tk') : Prop := {
  nw_f : nc_features x' = nc_features x; nw_nt : nc_n_train x' = nc_n_train x; nw_nv : nc_n_valid x' = nc_n_valid x;
  nw_wt : nc_w_train x' = (k * nc_w_train x)%R; nw_wv : nc_w_valid x' = (k * nc_w_valid x)%R; nw_loss : nc_loss x' = (k * nc_loss x)%R;
  nw_pred : nc_pred x' = nc_pred x; nw_rows : Forall2 wrel (nc_rows x) (nc_rows x')
}.
Lemma features_w : forall train valid l n x x', aw n x x' ->
  rr (aw (n + length l)) (foldM (feature_step tk tc train valid) (combine (seq n (length l)) l) x)
    (foldM (feature_step tk' tc' train valid) (combine (seq n (length l)) l) x').
Proof.
  intros train valid l. induction l as [|j l IH]; intros n x x' H; cbn [length seq combine foldM].
  - rewrite Nat.add_0_r. exact H.
  - eapply rr_bind; [apply feature_step_w; exact H|]. intros y y' _ _ H1. replace (n + S (length l)) with (S n + length l) by lia. apply IH. exact H1.
Qed.
Lemma node_stats_w : forall features train valid, rr nw (node_stats tk tc features train valid) (node_stats tk' tc' features train valid).
Proof.
  intros features train valid. unfold node_stats. eapply rr_bind.
  - apply (features_w train valid features 0). constructor; cbn; auto; ring.
  - intros x x' _ _ [A1 A2 A3 A4 A5 A6]. cbn [rr]. constructor; cbn; auto.
Qed.

(** ** Splits *)
Definition gk (g : option R) : option R := option_map (Rmult k) g.
Record sw_ (x : split tk) (x' : split tk') : Prop := {
  sw_found : sp_found x' = sp_found x; sw_gain : sp_gain x' = gk (sp_gain x); sw_feature : sp_feature x' = sp_feature x;
  sw_threshold : sp_threshold x' = sp_threshold x; sw_il : sp_imp_left x' = sp_imp_left x; sw_ir : sp_imp_right x' = sp_imp_right x;
  sw_cat : sp_is_cat x' = sp_is_cat x; sw_bins : sp_bins x' = sp_bins x; sw_part : sp_partition x' = sp_partition x
}.
Lemma reset_w : sw_ (reset_split tk) (reset_split tk').
Proof. constructor; reflexivity. Qed.
Lemma Rltb_k : forall x y, Rltb (k * x) (k * y) = Rltb x y.
Proof. intros x y. unfold Rltb. destruct (Rlt_dec (k * x) (k * y)), (Rlt_dec x y); auto; exfalso; nra. Qed.
Lemma gain_gt_w : forall g best, @gain_gt R_arith (k * g)%R (gk best) = gain_gt g best.
Proof. intros g [x|]; [exact (Rltb_k x g)|reflexivity]. Qed.
Lemma gain_w : forall il ir wl wr, @information_gain_proxy R_arith il ir (k * wl)%R (k * wr)%R = (k * information_gain_proxy (A := R_arith) il ir wl wr)%R.
Proof. intros. cbn. ring. Qed.

Record cw (s : scan tk) (s' : scan tk') : Prop := {
  cw_nl : sc_n_left s' = sc_n_left s; cw_wl : sc_w_left s' = (k * sc_w_left s)%R; cw_nr : sc_n_right s' = sc_n_right s; cw_wr : sc_w_right s' = (k * sc_w_right s)%R;
  cw_v : sc_v_left s' = sc_v_left s; cw_sl : sc_stat_left s' = ss (sc_stat_left s); cw_sr : sc_stat_right s' = ss (sc_stat_right s)
}.
Lemma addk : forall x y, @aadd R_arith (k * x)%R (k * y)%R = (k * @aadd R_arith x y)%R.
Proof. intros. cbn. ring. Qed.
Lemma subk : forall x y, @asub R_arith (k * x)%R (k * y)%R = (k * @asub R_arith x y)%R.
Proof. intros. cbn. ring. Qed.

Lemma scan_w : forall n_valid feature is_cat r r' cumsum ordered bins s s' best best', wrel r r' -> cw s s' -> sw_ best best' ->
  rr sw_ (scan_loop tk tc n_valid feature is_cat r cumsum ordered bins s best) (scan_loop tk' tc' n_valid feature is_cat r' cumsum ordered bins s' best').
Proof.
  intros n_valid feature is_cat r r' cumsum ordered bins. induction bins as [|j rest IH]; intros s s' best best' HR HS HB; cbn [scan_loop]; [exact HB|].
  cbn [tk_stat_add tk_stat_sub tk_impurity with_pred_end]. change (tk_Y tk') with (tk_Y tk).
  pose proof HR as [R1 R2 R3 R4 R5 R6 R7]. destruct HS as [S1 S2 S3 S4 S5 S6 S7]. rewrite R1, R2, R3, R7, S1, S2, S3, S4, S5, S6, S7, Hmsl, Hagg, Hmb.
  apply rr_same. intros n Hn. rewrite (get_kl (r_w_train r) j). destruct (get (r_w_train r) j) as [w|e]; [|reflexivity]. cbn [rmap bind]. apply rr_same. intros nr Hnr.
  rewrite (sk_stat_add _ _ _ _ _ _ _ SK), (sk_stat_sub _ _ _ _ _ _ _ SK).
  destruct (tk_stat_add tk (sc_stat_left s) (r_hist r) j) as [sl|e]; [|reflexivity]. cbn [rmap bind].
  destruct (tk_stat_sub tk (sc_stat_right s) (r_hist r) j) as [sr|e]; [|reflexivity]. cbn [rmap bind].
  apply rr_same. intros vl Hvl. apply rr_same. intros vr Hvr.
  rewrite !addk, !subk.
  match goal with |- context [if ?q then _ else _] => destruct q end.
  { apply IH; auto. constructor; cbn; auto. }
  match goal with |- context [if ?q then _ else _] => destruct q end; [exact HB|].
  rewrite (sk_impurity _ _ _ _ _ _ _ SK). apply rr_same. intros [il ir] _.
  apply rr_bind with (R := sw_).
  { rewrite gain_w.
    pose proof HB as [B1 B2 B3 B4 B5 B6 B7 B8 B9]. rewrite B2, gain_gt_w.
    match goal with |- context [if ?q then _ else _] => destruct q end; [|exact HB].
    match goal with |- context [if ?q then _ else _] => destruct q end; [|reflexivity]. cbn [rr]. constructor; cbn; auto. }
  intros best1 best1' _ _ HB1. apply IH; auto. constructor; cbn; auto.
Qed.

Lemma try_w : forall nc nc' feature r r' is_cat cumsum best best' ordered, nw nc nc' -> wrel r r' -> sw_ best best' ->
  rr sw_ (try_feature_order tk tc nc feature r is_cat cumsum best ordered) (try_feature_order tk' tc' nc' feature r' is_cat cumsum best' ordered).
Proof.
  intros nc nc' feature r r' is_cat cumsum best best' ordered [N1 N2 N3 N4 N5 N6 N7 N8] HR HB. unfold try_feature_order. rewrite N2, N3, N4.
  apply scan_w; auto. constructor; cbn [sc_n_left sc_w_left sc_n_right sc_w_right sc_stat_left sc_stat_right sc_v_left]; auto.
  - cbn. ring.
  - symmetry. apply (sk_stat0 _ _ _ _ _ _ _ SK).
  - cbn [tk_stat_total with_pred_end]. rewrite (wl_h _ _ HR). apply (sk_total _ _ _ _ _ _ _ SK).
Qed.

Lemma along_w : forall nc nc' s feature f best best', nw nc nc' -> sw_ best best' ->
  rr (fun x x' => sw_ (fst x) (fst x') /\ snd x' = snd x)
    (find_best_split_along_feature tk tc nc s feature f best) (find_best_split_along_feature tk' tc' nc' s feature f best').
Proof.
  intros nc nc' s feature f best best' HN HB. unfold find_best_split_along_feature.
  eapply rr_bind; [apply (get_F2 _ _ _ f (nw_rows _ _ HN))|]. intros r r' _ _ HR. change (tk_Y tk') with (tk_Y tk). rewrite Hflags.
  apply rr_same. intros is_cat Hc. destruct is_cat.
  - pose proof (Hcat feature Hc) as HC. pose proof HR as [R1 R2 R3 R4 R5 R6 R7]. cbn [tk_cat_orders with_pred_end]. rewrite R1, R5, R7, HC.
    apply rr_same. intros [os s1] _.
    apply rr_bind with (R := sw_).
    + apply rr_fold; auto. intros; apply try_w; auto.
    + intros; cbn; auto.
  - pose proof HR as [R1 R2 R3 R4 R5 R6 R7]. rewrite R1, R3, R5, R6, Hagg. apply rr_same. intros cs _.
    apply rr_bind with (R := sw_); [apply try_w; auto|]. intros; cbn; auto.
Qed.

Lemma find_w : forall nc nc' s, nw nc nc' ->
  rr (fun x x' => sw_ (fst x) (fst x') /\ snd x' = snd x) (find_node_split tk tc nc s) (find_node_split tk' tc' nc' s).
Proof.
  intros nc nc' s HN. unfold find_node_split. rewrite (nw_f _ _ HN).
  apply rr_bind with (R := fun (x : split tk * rng E) (x' : split tk' * rng E) => sw_ (fst x) (fst x') /\ snd x' = snd x).
  - apply rr_fold; [split; [apply reset_w|reflexivity]|]. intros [bst s1] [bst' s1'] [f feature] _ [HB Es]. cbn [fst snd] in HB, Es. subst s1'.
    eapply rr_bind; [apply (get_F2 _ _ _ f (nw_rows _ _ HN))|]. intros r r' _ _ HR. rewrite (wl_net _ _ HR).
    destruct (1 <? length (r_ne_train r)); [|cbn; auto]. apply along_w; auto.
  - intros [bst s1] [bst' s1'] _ _ [HB Es]. cbn [fst snd] in HB, Es. subst s1'. pose proof HB as [B1 B2 B3 B4 B5 B6 B7 B8 B9].
    apply rr_bind with (R := sw_); [|intros; cbn; auto]. rewrite B1, B7. destruct (sp_found bst && sp_is_cat bst)%bool; [|exact HB].
    unfold compute_bin_partition. rewrite B4, B8. apply rr_same. intros l _. cbn [rr]. constructor; cbn; auto.
Qed.

Lemma goes_left_w : forall x x' j, sw_ x x' -> goes_left tk' x' j = goes_left tk x j.
Proof. intros x x' j [B1 B2 B3 B4 B5 B6 B7 B8 B9]. unfold goes_left. rewrite B7, B9, B4. reflexivity. Qed.
Lemma split_part_w : forall x x' col part lb rb st en, sw_ x x' -> split_part tk' x' col part lb rb st en = split_part tk x col part lb rb st en.
Proof.
  intros x x' col part lb rb st en H. unfold split_part. destruct (slice part st en) as [idx|e]; [|reflexivity]. cbn [bind].
  assert (Hf : forall l s, foldM (buffer_step tk' x' col) l s = foldM (buffer_step tk x col) l s).
  { induction l as [|i l IH]; intros [[[l1 l2] n1] n2]; cbn [foldM]; auto. unfold buffer_step at 1 3.
    destruct (column_bin col i) as [j|e]; [|reflexivity]. cbn [bind]. rewrite (goes_left_w x x') by auto.
    destruct (goes_left tk x j) as [[]|e]; [| |reflexivity]; cbn [bind].
    - destruct (set l1 n1 i); [apply IH|reflexivity].
    - destruct (set l2 n2 i); [apply IH|reflexivity]. }
  rewrite Hf. reflexivity.
Qed.
Lemma split_indices_w : forall x x' pp st en sv ev, sw_ x x' -> split_indices tk' tc' pp x' st en sv ev = split_indices tk tc pp x st en sv ev.
Proof.
  intros x x' pp st en sv ev H. unfold split_indices. change (tk_Y tk') with (tk_Y tk). rewrite Hfb, (sw_feature _ _ H). destruct (feature_column (tc_fb tc) (sp_feature x)) as [col|e]; [|reflexivity]. cbn [bind].
  rewrite (split_part_w x x') by auto. destruct (split_part tk x col (p_train pp) (p_left pp) (p_right pp) st en) as [[[[pt l1] r1] pos]|e]; [|reflexivity]. cbn [bind].
  rewrite (split_part_w x x') by auto. reflexivity.
Qed.

(** ** Growing *)
Notation sn := (node_scaled k).
Notation ts := (tree_scaled k).
Definition new_scaled (x : @new_node R_arith) : @new_node R_arith :=
  mkNew (nn_parent x) (nn_depth x) (nn_is_left x) (nn_is_leaf x) (nn_feature x) (nn_bin x) (nn_impurity x) (nn_n_train x) (nn_n_valid x)
    (k * nn_w_train x)%R (k * nn_w_valid x)%R (nn_start_train x) (nn_end_train x) (nn_start_valid x) (nn_end_valid x) (k * nn_loss x)%R (nn_is_cat x) (nn_partition x).
Notation node0R := (@node0 R_arith).
Lemma sn_node0 : sn node0R = node0R.
Proof. unfold node_scaled, node0. cbn. rewrite Rmult_0_r. reflexivity. Qed.
Notation treeP := (tree R_arith (tk_P tk)).
Lemma resize_tree_w_ : forall z (t : treeP) m, resize_tree_ z (ts t) m = rmap ts (resize_tree_ z t m).
Proof.
  intros z t m. unfold resize_tree_. cbn [tr_nodes tr_y_pred tree_scaled]. rewrite (resize_map sn) by (intros; apply sn_node0).
  destruct (resize (fun _ => node0R) (tr_nodes t) m) as [nodes|e]; [|reflexivity]. cbn [rmap bind]. destruct (resize _ (tr_y_pred t) m); reflexivity.
Qed.
Lemma resize_tree_w : forall z (t : treeP) m, resize_tree z (ts t) m = rmap ts (resize_tree z t m).
Proof.
  intros z t m. unfold resize_tree. cbn [tr_nodes tr_capacity tree_scaled]. rewrite map_length.
  destruct m; match goal with |- context [if ?q then _ else _] => destruct q end; try apply resize_tree_w_; reflexivity.
Qed.
Lemma resize_bp_w_ : forall fill (t : treeP) m, resize_tree_bin_partitions_ fill (ts t) m = rmap ts (resize_tree_bin_partitions_ fill t m).
Proof. intros fill t m. unfold resize_tree_bin_partitions_. cbn [tr_bp tree_scaled]. destruct (resize _ (tr_bp t) m); reflexivity. Qed.
Lemma resize_bp_w : forall fill (t : treeP) m, resize_tree_bin_partitions fill (ts t) m = rmap ts (resize_tree_bin_partitions fill t m).
Proof.
  intros fill t m. unfold resize_tree_bin_partitions. cbn [tr_bp tr_bp_capacity tree_scaled].
  destruct m; match goal with |- context [if ?q then _ else _] => destruct q end; try apply resize_bp_w_; reflexivity.
Qed.

Lemma add_node_w : forall (t : treeP) fill z x, add_node_tree fill z (ts t) (new_scaled x) = rmap (fun p => (ts (fst p), snd p)) (add_node_tree fill z t x).
Proof.
  intros t fill z x. unfold add_node_tree. cbn [tr_node_count tr_capacity tree_scaled].
  set (idx := tr_node_count t) in *.
  match goal with |- bind ?m _ = rmap _ (bind ?m' _) => assert (H1 : m = rmap ts m'); [|rewrite H1; clear H1; destruct m' as [t1|e]; [|reflexivity]] end.
  { destruct (tr_capacity t <=? idx); [apply resize_tree_w|reflexivity]. }
  cbn [rmap bind tr_nodes tree_scaled]. rewrite get_map. destruct (get (tr_nodes t1) idx) as [old|e]; [|reflexivity]. cbn [bind].
  match goal with |- context [set (tr_nodes t1) idx ?n] => set (n1 := n) end.
  match goal with |- context [set (map sn (tr_nodes t1)) idx ?n] => change n with (sn n1) end.
  rewrite set_map. destruct (set (tr_nodes t1) idx n1) as [nodes1|e]; [|reflexivity]. cbn [bind].
  match goal with |- bind ?m _ = rmap _ (bind ?m' _) => assert (H1 : m = rmap (map sn) m'); [|rewrite H1; clear H1; destruct m' as [nodes2|e]; [|reflexivity]] end.
  { cbn [nn_parent new_scaled]. destruct (nn_parent x) as [p|]; [|reflexivity]. rewrite get_map. destruct (get nodes1 p) as [pn|e]; [|reflexivity]. cbn [bind].
    replace (if nn_is_left (new_scaled x) then with_left (sn pn) (Some idx) else with_right (sn pn) (Some idx))
      with (sn (if nn_is_left x then with_left pn (Some idx) else with_right pn (Some idx))) by (cbn [nn_is_left new_scaled]; destruct (nn_is_left x); reflexivity).
    rewrite set_map. destruct (set nodes1 p _); reflexivity. }
  cbn [rmap bind]. rewrite get_map. destruct (get nodes2 idx) as [n2|e]; [|reflexivity]. cbn [bind].
  match goal with |- bind ?m _ = rmap _ (bind ?m' _) => assert (H1 : m = rmap (fun q : treeP * nat * nat => (ts (fst (fst q)), snd (fst q), snd q)) m'); [|rewrite H1; clear H1; destruct m' as [[[t2 bs] be]|e]; [|reflexivity]] end.
  { cbn [nn_is_cat nn_partition new_scaled]. destruct (nn_is_cat x && (0 <? length (nn_partition x)))%bool; [|reflexivity]. cbn [tr_bp_capacity tr_bp_end tree_scaled].
    match goal with |- bind ?m _ = rmap _ (bind ?m' _) => assert (H1 : m = rmap ts m'); [|rewrite H1; clear H1; destruct m' as [t2|e]; [|reflexivity]] end.
    - match goal with |- context [if ?q then _ else _] => destruct q end; [apply resize_bp_w|reflexivity].
    - cbn [rmap bind tr_bp tree_scaled]. match goal with |- bind ?m _ = rmap _ (bind ?m _) => destruct m; reflexivity end. }
  cbn [rmap bind fst snd].
  match goal with |- context [set nodes2 idx ?n] => set (n3 := n) end.
  match goal with |- context [set (map sn nodes2) idx ?n] => change n with (sn n3) end.
  rewrite set_map. destruct (set nodes2 idx n3) as [nodes3|e]; reflexivity.
Qed.

Record gw (g : gstate tk) (g' : gstate tk') : Prop := {
  gw_tree : g_tree g' = ts (g_tree g); gw_parts : g_parts g' = g_parts g; gw_rng : g_rng g' = g_rng g;
  gw_fs : g_fs g' = g_fs g; gw_rec : g_records g' = g_records g
}.

Lemma stop_w : forall nc nc' depth imp, nw nc nc' -> stop_test tk' tc' nc' depth imp = stop_test tk tc nc depth imp.
Proof. intros nc nc' depth imp [N1 N2 N3 N4 N5 N6 N7 N8]. unfold stop_test. change (tk_Y tk') with (tk_Y tk). rewrite Hmss, Hagg, Hdepth, N2, N3. reflexivity. Qed.

Lemma choose_w : forall nc nc' s depth imp, nw nc nc' ->
  rr (fun (q : bool * split tk * rng E) (q' : bool * split tk' * rng E) => fst (fst q') = fst (fst q) /\ sw_ (snd (fst q)) (snd (fst q')) /\ snd q' = snd q)
    (choose_split tk tc nc s depth imp) (choose_split tk' tc' nc' s depth imp).
Proof.
  intros nc nc' s depth imp HN. unfold choose_split. rewrite (stop_w nc nc') by auto. destruct (stop_test tk tc nc depth imp).
  - cbn. split; [auto|]. split; [apply reset_w|auto].
  - eapply rr_bind; [apply find_w; exact HN|]. intros [sp s1] [sp' s1'] _ _ [HS Es]. cbn [fst snd] in *. subst s1'. cbn. rewrite (sw_found _ _ HS). auto.
Qed.

Lemma step_w : forall g g', gw g g' -> rr gw (grow_step tk tc g) (grow_step tk' tc' g').
Proof.
  intros g g' [G1 G2 G3 G4 G5]. unfold grow_step. rewrite G2, G3, G4, G5. apply rr_same. intros [r rs] _.
  apply rr_bind with (R := fun (q : nctx tk * rng E * fsamp) (q' : nctx tk' * rng E * fsamp) => nw (fst (fst q)) (fst (fst q')) /\ snd (fst q') = snd (fst q) /\ snd q' = snd q).
  { unfold compute_node_context. apply rr_same. intros [s1 fs1] Hs. apply rr_same. intros train _. apply rr_same. intros valid _.
    eapply rr_bind; [apply node_stats_w|]. intros nc nc' _ _ HN. cbn. auto. }
  intros [[nc s] fs] [[nc' s'] fs'] _ _ (HN & Es & Ef). cbn [fst snd] in *. subst s' fs'.
  eapply rr_bind; [apply choose_w; exact HN|]. intros [[leaf sp] s2] [[leaf' sp'] s2'] _ _ (El & HS & Es). cbn [fst snd] in *. subst leaf' s2'.
  pose proof HN as [N1 N2 N3 N4 N5 N6 N7 N8]. pose proof HS as [B1 B2 B3 B4 B5 B6 B7 B8 B9].
  rewrite N2, N3, N4, N5, N6, N7, B3, B4, B7, B9, G1.
  match goal with |- rr _ (bind (add_node_tree _ _ _ ?x) _) (bind (add_node_tree _ _ _ ?x') _) => change x' with (new_scaled x) end.
  rewrite add_node_w. change (tk_pred0 tk') with (tk_pred0 tk). change (tk_P tk') with (tk_P tk). match goal with |- rr _ (bind ?m _) _ => destruct m as [[t id]|e]; [|reflexivity] end. cbn [rmap bind fst snd tr_y_pred tree_scaled].
  apply rr_same. intros yp _.
  change (with_y_pred tk' (ts t) yp) with (ts (with_y_pred tk t yp)).
  destruct leaf; [cbn [rr]; constructor; reflexivity|].
  rewrite (split_indices_w sp sp') by exact HS. apply rr_same. intros [[pp pt] pv] _. rewrite B5, B6.
  apply rr_same. intros rs1 _. apply rr_same. intros rs2 _. cbn [rr]. constructor; reflexivity.
Qed.

Lemma loop_w : forall fuel g g', gw g g' -> rr gw (grow_loop tk fuel tc g) (grow_loop tk' fuel tc' g').
Proof.
  induction fuel as [|fuel IH]; intros g g' HG; cbn [grow_loop]; unfold has_records; rewrite (gw_rec _ _ HG); destruct (0 <? rs_top (g_records g)); try exact HG; [reflexivity|].
  eapply rr_bind; [apply step_w; exact HG|]. intros; auto.
Qed.

Lemma loss_w : forall s s' l : R, (s' * k)%R = s -> @amul R_arith (@aopp R_arith s') (k * l)%R = @amul R_arith (@aopp R_arith s) l.
Proof. intros s s' l <-. cbn. ring. Qed.

Lemma weights_w : forall nodes n, tc_aggregation tc = true ->
  compute_tree_weights (map sn nodes) n (tc_step tc') = rmap (map sn) (compute_tree_weights nodes n (tc_step tc)).
Proof.
  intros nodes n Ht. specialize (Hstep Ht). unfold compute_tree_weights. revert nodes. induction (rev (seq 0 n)) as [|i l IH]; intros nodes; cbn [foldM]; [reflexivity|].
  assert (Hs : weight_step (tc_step tc') (map sn nodes) i = rmap (map sn) (weight_step (tc_step tc) nodes i)).
  { unfold weight_step. rewrite get_map. destruct (get nodes i) as [x|e]; [|reflexivity]. cbn [bind].
    replace (amul (aopp (tc_step tc')) (nd_loss (sn x))) with (amul (aopp (tc_step tc)) (nd_loss x)) by (symmetry; apply loss_w; exact Hstep).
    cbn [nd_is_leaf nd_left nd_right node_scaled]. destruct (nd_is_leaf x).
    - change (with_logw (sn x) ?w) with (sn (with_logw x w)). rewrite set_map. destruct (set nodes i _); reflexivity.
    - destruct (idx_of (nd_left x)) as [j|e]; [|reflexivity]. cbn [bind]. destruct (idx_of (nd_right x)) as [r|e]; [|reflexivity]. cbn [bind]. rewrite !get_map.
      destruct (get nodes j) as [ln|e]; [|reflexivity]. cbn [bind]. destruct (get nodes r) as [rn|e]; [|reflexivity]. cbn [bind nd_logw node_scaled].
      destruct (logw_of (nd_logw ln)) as [wl|e]; [|reflexivity]. cbn [bind]. destruct (logw_of (nd_logw rn)) as [wr|e]; [|reflexivity]. cbn [bind].
      match goal with |- set _ i ?y = rmap _ (set _ i ?z) => change y with (sn z) end. rewrite set_map. destruct (set nodes i _); reflexivity. }
  rewrite Hs. destruct (weight_step (tc_step tc) nodes i) as [nodes1|e]; [|reflexivity]. cbn [rmap bind]. apply IH.
Qed.

Lemma grow_w : forall (t : treeP) pp s fs, rr gw (grow tk tc t pp s fs) (grow tk' tc' (ts t) pp s fs).
Proof.
  intros t pp s fs. unfold grow. cbn [tk_pred0 with_pred_end]. change (tk_P tk') with (tk_P tk). change (tk_Y tk') with (tk_Y tk). rewrite resize_tree_w. match goal with |- rr _ (bind ?m _) _ => destruct m as [t0|e]; [|reflexivity] end. cbn [rmap bind].
  apply rr_same. intros rs _. eapply rr_bind.
  { apply loop_w. constructor; reflexivity. }
  intros g g' _ _ HG. change (tk_Y tk') with (tk_Y tk). rewrite Hagg. pose proof weights_w as HW. clear Hstep. destruct (tc_aggregation tc) eqn:Ha1; [|exact HG]. pose proof HG as [G1 G2 G3 G4 G5].
  rewrite G1. cbn [tr_nodes tr_node_count tree_scaled]. rewrite HW by reflexivity. match goal with |- rr _ (bind ?m _) _ => destruct m as [nodes|e]; [|reflexivity] end. cbn [rmap bind rr].
  constructor; cbn [g_tree g_parts g_rng g_fs g_records]; auto.
Qed.
End Scale.

(** ** Predictions *)
Section ScaledPredictions.
Context {P : Type} (k : R).
Notation treeP := (tree R_arith P).
Notation sn := (node_scaled k).
Notation ts := (tree_scaled k).

Lemma leaf_loop_w : forall (t : treeP) fb i fuel idx, find_leaf_loop fuel (ts t) fb i idx = find_leaf_loop fuel t fb i idx.
Proof.
  intros t fb i fuel. induction fuel as [|fuel IH]; intros idx; cbn [find_leaf_loop]; [reflexivity|]. cbn [tr_nodes tree_scaled]. rewrite get_map.
  destruct (get (tr_nodes t) idx) as [x|e]; [|reflexivity]. cbn [bind]. cbn [nd_is_leaf node_scaled]. destruct (nd_is_leaf x); [reflexivity|].
  change (next_node (ts t) fb i _) with (next_node t fb i x). destruct (next_node t fb i x); [apply IH|reflexivity].
Qed.
Lemma find_leaf_w : forall (t : treeP) fb i, find_leaf (ts t) fb i = find_leaf t fb i.
Proof. intros t fb i. unfold find_leaf. apply leaf_loop_w. Qed.
Lemma apply_w : forall (t : treeP) fb, tree_apply (ts t) fb = tree_apply t fb.
Proof. intros t fb. unfold tree_apply. induction (seq 0 (fb_n_samples fb)) as [|i l IH]; cbn [mapM]; [reflexivity|]. rewrite find_leaf_w, IH. reflexivity. Qed.
Lemma alpha_w : forall s s' x, (s' * k)%R = s -> node_alpha (A := R_arith) s' (sn x) = node_alpha s x.
Proof.
  intros s s' x Hs. unfold node_alpha. cbn [nd_logw node_scaled]. destruct (logw_of (nd_logw x)) as [w|e]; [|reflexivity]. cbn [bind].
  change (nd_loss (sn x)) with (k * nd_loss x)%R. rewrite (loss_w k s s' (nd_loss x)) by exact Hs. reflexivity.
Qed.
Lemma climb_w : forall {V} (t : treeP) s s' (val val' : nat -> node R_arith -> res V) mix, (s' * k)%R = s -> (forall i x, val' i (sn x) = val i x) ->
  forall fuel idx v, climb fuel (ts t) s' val' mix idx v = climb fuel t s val mix idx v.
Proof.
  intros V t s s' val val' mix Hs Hv fuel. induction fuel as [|fuel IH]; intros idx v; cbn [climb]; [reflexivity|]. destruct (idx =? 0); [reflexivity|].
  cbn [tr_nodes tree_scaled]. rewrite get_map. destruct (get (tr_nodes t) idx) as [x|e]; [|reflexivity]. cbn [bind].
  change (nd_parent (sn x)) with (nd_parent x). destruct (idx_of (nd_parent x)) as [q|e]; [|reflexivity]. cbn [bind]. rewrite get_map.
  destruct (get (tr_nodes t) q) as [pn|e]; [|reflexivity]. cbn [bind]. rewrite Hv, (alpha_w s s') by exact Hs.
  destruct (val q pn) as [u|e]; [|reflexivity]. cbn [bind]. destruct (node_alpha s pn) as [al|e]; [|reflexivity]. cbn [bind].
  destruct (mix al u v) as [v'|e]; [|reflexivity]. cbn [bind]. apply IH.
Qed.
Lemma predict_w : forall mix (t : treeP) fb agg s s', (agg = true -> (s' * k)%R = s) -> tree_predict mix (ts t) fb agg s' = tree_predict mix t fb agg s.
Proof.
  intros mix t fb agg s s' Hs. unfold tree_predict. induction (seq 0 (fb_n_samples fb)) as [|i l IH]; cbn [mapM]; [reflexivity|]. rewrite IH.
  assert (H1 : predict_one mix (ts t) fb agg s' i = predict_one mix t fb agg s i); [|rewrite H1; reflexivity].
  unfold predict_one. rewrite find_leaf_w. destruct (find_leaf t fb i) as [leaf|e]; [|reflexivity]. cbn [bind tr_y_pred tree_scaled].
  destruct (get (tr_y_pred t) leaf) as [v|e]; [|reflexivity]. cbn [bind]. destruct agg; [|reflexivity]. cbn [tr_node_count tree_scaled]. apply climb_w; auto.
Qed.
Lemma depth_w : forall (t : treeP) fb s s', (s' * k)%R = s -> tree_weighted_depth (ts t) fb s' = tree_weighted_depth t fb s.
Proof.
  intros t fb s s' Hs. unfold tree_weighted_depth. induction (seq 0 (fb_n_samples fb)) as [|i l IH]; cbn [mapM]; [reflexivity|]. rewrite IH.
  assert (H1 : weighted_depth_one (ts t) fb s' i = weighted_depth_one t fb s i); [|rewrite H1; reflexivity].
  unfold weighted_depth_one. rewrite find_leaf_w. destruct (find_leaf t fb i) as [leaf|e]; [|reflexivity]. cbn [bind tr_nodes tree_scaled]. rewrite get_map.
  destruct (get (tr_nodes t) leaf) as [x|e]; [|reflexivity]. cbn [bind tr_node_count]. change (nd_depth (sn x)) with (nd_depth x). apply climb_w; auto.
Qed.
End ScaledPredictions.

(** ** Trees *)
(** Two fitted trees. *)
Record owrel {P Y} (k : R) (x x' : tobj R_arith P Y) : Prop := {
  ow_agg : ob_aggregation x' = ob_aggregation x; ow_step : ob_aggregation x = true -> (ob_step x' * k)%R = ob_step x;
  ow_tree : ob_tree x' = option_map (tree_scaled k) (ob_tree x)
}.
Lemma obj_predict_w : forall {P Y} k mix (x x' : tobj R_arith P Y) fb, owrel k x x' -> obj_predict mix x' fb = obj_predict mix x fb.
Proof.
  intros P Y k mix x x' fb [H1 H2 H3]. unfold obj_predict. rewrite H1, H3. destruct (ob_tree x) as [t|]; [|reflexivity]. cbn [option_map]. apply predict_w. exact H2.
Qed.
Lemma obj_apply_w : forall {P Y} k (x x' : tobj R_arith P Y) fb, owrel k x x' -> obj_apply x' fb = obj_apply x fb.
Proof. intros P Y k x x' fb [H1 H2 H3]. unfold obj_apply. rewrite H3. destruct (ob_tree x) as [t|]; [|reflexivity]. apply apply_w. Qed.
Lemma obj_depth_w : forall {P Y} k (x x' : tobj R_arith P Y) fb, owrel k x x' -> (ob_step x' * k)%R = ob_step x -> obj_weighted_depth x' fb = obj_weighted_depth x fb.
Proof. intros P Y k x x' fb [H1 H2 H3] Hs. unfold obj_weighted_depth. rewrite H3. destruct (ob_tree x) as [t|]; [|reflexivity]. apply depth_w. exact Hs. Qed.

Section ScaledTrees.
Context {E : env R_arith} (tk : task R_arith E) (pe : tk_P tk -> R -> res (tk_P tk)) (k : R) (Hk : (0 < k)%R).
Context (hs : tk_H tk -> tk_H tk) (ss : tk_S tk -> tk_S tk) (ps : tk_P tk -> tk_P tk) (okp : tk_P tk -> Prop).
Context (SK : scales tk pe k hs ss ps okp).
Notation tk' := (with_pred_end tk pe).

Lemma obj_fit_w : forall p s' d d' fb y train valid w s,
  (tp_aggregation p = true -> (s' * k)%R = tp_step p) ->
  (In true (tp_is_categorical p) -> forall s h l, tk_cat_orders tk s (hs h) l = tk_cat_orders tk s h l) ->
  rr (fun x x' => owrel k x x' /\ ob_step x = tp_step p /\ ob_step x' = s') (obj_fit tk d p fb y train valid w s) (obj_fit tk' d' (params_with_step p s') fb y train valid (map (Rmult k) w) s).
Proof.
  intros p s' d d' fb y train valid w s Hs Hc. unfold obj_fit, tree_fit, init_tree_context.
  destruct (init_max_n_bins fb) as [mb|e]; [|reflexivity]. cbn [bind].
  apply rr_bind with (R := fun (q : tctx R_arith (tk_Y tk) * gstate tk) (q' : tctx R_arith (tk_Y tk') * gstate tk') => g_tree (snd q') = tree_scaled k (g_tree (snd q))).
  2: { intros [tc g] [tc' g'] _ _ HT. cbn [snd] in HT. cbn [rr]. split; [|split; reflexivity]. constructor; cbn; auto. rewrite HT. reflexivity. }
  eapply rr_bind; [|intros g g' _ _ HG; cbn; exact (gw_tree _ _ _ _ _ HG)].
  change (@empty_tree R_arith (tk_P tk')) with (tree_scaled k (@empty_tree R_arith (tk_P tk))).
  apply (grow_w tk pe k Hk hs ss ps okp SK); try reflexivity; auto.
  intros j Hj. apply Hc. cbn in Hj. unfold get in Hj. destruct (nth_error (tp_is_categorical p) j) eqn:Hn; [|discriminate]. injection Hj as ->. eapply nth_error_In; eauto.
Qed.
End ScaledTrees.

(** ** The two tasks *)
Section Tasks.
Context {E : env R_arith} (k : R) (Hk : (0 < k)%R).
Notation kl := (map (Rmult k)).

Lemma divk : forall x y, @divM R_arith (k * x)%R (k * y)%R = @divM R_arith x y.
Proof.
  intros x y. unfold divM. change (@aisz R_arith) with Risz. unfold Risz. destruct (Req_EM_T (k * y) 0) as [H1|H1], (Req_EM_T y 0) as [H2|H2]; auto.
  - exfalso. apply Rmult_integral in H1. lra.
  - exfalso. apply H1. rewrite H2. ring.
  - f_equal. cbn. field. lra.
Qed.
Lemma quot_k : forall y z : R, (k * y / (k * z))%R = (y / z)%R.
Proof.
  intros y z. destruct (Req_EM_T z 0) as [->|Hz].
  - rewrite Rmult_0_r. unfold Rdiv. rewrite Rinv_0. ring.
  - field. split; [exact Hz|lra].
Qed.
Lemma asum_k : forall l, @asum R_arith (kl l) = (k * @asum R_arith l)%R.
Proof.
  intros l. unfold asum. change (@a0 R_arith) with 0%R. replace 0%R with (k * 0)%R at 1 by ring. generalize 0%R. induction l as [|x l IH]; intros z; cbn [map fold_left]; [reflexivity|].
  rewrite <- IH. f_equal. cbn. ring.
Qed.

Definition reg_hs (h : list R * list R) : list R * list R := (kl (fst h), kl (snd h)).
Definition reg_ss (s : R * R) : R * R := ((k * fst s)%R, (k * snd s)%R).
Lemma mse_k : forall w s q, @mse_node R_arith (k * w)%R (k * s)%R (k * q)%R = mse_node (A := R_arith) w s q.
Proof. intros w s q. unfold mse_node. rewrite !divk. reflexivity. Qed.
Lemma getk : forall (l : list (num R_arith)) j, @get (num R_arith) (kl l) j = rmap (Rmult k) (@get (num R_arith) l j).
Proof. intros l j. exact (get_map (Rmult k) l j). Qed.

Lemma reg_scales : scales (reg_task E) (fun p w => @divM R_arith p w) k reg_hs reg_ss (Rmult k) (fun _ => True).
Proof.
  constructor; auto.
  - intros n. cbn. unfold reg_hs. cbn. rewrite kl_zeros. reflexivity.
  - intros [s q] j y w. cbn [tk_hist_add reg_task reg_hs fst snd].
    replace (@amul R_arith (k * w)%R y) with (k * @amul R_arith w y)%R by (cbn; ring). rewrite (add_scaled k s). destruct (add_at s j _) as [s1|e]; [|reflexivity]. cbn [rmap bind].
    replace (@amul R_arith (k * @amul R_arith w y)%R y) with (k * @amul R_arith (@amul R_arith w y) y)%R by (cbn; ring). rewrite (add_scaled k q). destruct (add_at q j _); reflexivity.
  - cbn. ring.
  - intros p y w _. cbn. f_equal. ring.
  - intros p w _. apply divk.
  - intros l p y w. cbn. f_equal. ring.
  - cbn. unfold reg_ss. cbn. f_equal; ring.
  - intros [s q]. cbn [tk_stat_total reg_task reg_hs reg_ss fst snd]. rewrite !asum_k. reflexivity.
  - intros [s q] [h1 h2] j. cbn [tk_stat_add reg_task reg_hs reg_ss fst snd]. rewrite (getk h1), (getk h2). destruct (@get (num R_arith) h1 j) as [x|e]; [|reflexivity]. cbn [rmap bind].
    destruct (@get (num R_arith) h2 j) as [x2|e]; [|reflexivity]. cbn. unfold reg_ss. cbn. f_equal. f_equal; ring.
  - intros [s q] [h1 h2] j. cbn [tk_stat_sub reg_task reg_hs reg_ss fst snd]. rewrite (getk h1), (getk h2). destruct (@get (num R_arith) h1 j) as [x|e]; [|reflexivity]. cbn [rmap bind].
    destruct (@get (num R_arith) h2 j) as [x2|e]; [|reflexivity]. cbn. unfold reg_ss. cbn. f_equal. f_equal; ring.
  - intros wl wr [s q] [s2 q2]. cbn [tk_impurity reg_task reg_ss fst snd]. unfold mse_childs. rewrite !mse_k. reflexivity.
Qed.

Lemma reg_orders_k : comparison_sort E -> forall s h l, tk_cat_orders (reg_task E) s (reg_hs h) l = tk_cat_orders (reg_task E) s h l.
Proof.
  intros HC s [h1 h2] l. cbn [tk_cat_orders reg_task reg_hs]. unfold reg_cat_orders. cbn [fst].
  assert (Hm : mapM (@get (num R_arith) (kl h1)) l = rmap kl (mapM (@get (num R_arith) h1) l)).
  { induction l as [|j l IH]; cbn [mapM]; [reflexivity|]. rewrite (getk h1). destruct (@get (num R_arith) h1 j) as [x|e]; [|reflexivity]. cbn [rmap bind]. rewrite IH. destruct (mapM (@get (num R_arith) h1) l); reflexivity. }
  match goal with |- bind ?m _ = _ => replace m with (rmap kl (mapM (@get (num R_arith) h1) l)) by (symmetry; exact Hm) end. destruct (mapM (@get (num R_arith) h1) l) as [ys|e]; [|reflexivity]. cbn [rmap bind].
  assert (Ha : argsort E (kl ys) = argsort E ys); [|rewrite Ha; reflexivity].
  symmetry. apply HC; [rewrite map_length; auto|]. intros i j Hi Hj.
  rewrite !(nth_indep (kl ys) 0%R (k * 0)%R) by (rewrite map_length; auto). rewrite !map_nth. split; intros H; nra.
Qed.

(** *** Classification *)
Section Clf.
Context (n : nat) (d : R) (crit : criterion) (st : cat_strategy).
Notation tkc := (clf_task E n d crit st).
Definition clf_pe : list R -> R -> res (list R) := tk_pred_end (clf_task E n (k * d)%R crit st).
Lemma clf_with : with_pred_end tkc clf_pe = clf_task E n (k * d)%R crit st.
Proof. reflexivity. Qed.

Lemma zip_k : forall f (l m : list R), (forall x y, f (k * x) (k * y) = k * f x y)%R -> zipM f (kl l) (kl m) = rmap kl (zipM f l m).
Proof.
  intros f l. induction l as [|x l IH]; intros [|y m] Hf; cbn [map zipM]; try reflexivity. rewrite IH by exact Hf. destruct (zipM f l m) as [r|e]; [|reflexivity]. cbn. rewrite Hf. reflexivity.
Qed.
Lemma getkk : forall (h : list (list (num R_arith))) j, get (map kl h) j = rmap kl (get h j).
Proof. intros h j. exact (get_map kl h j). Qed.
Lemma setkk : forall (h : list (list (num R_arith))) j r, set (map kl h) j (kl r) = rmap (map kl) (set h j r).
Proof. intros h j r. exact (set_map kl h j r). Qed.

Lemma sum_squares_k : forall (y : list R), @sum_squares R_arith n (kl y) = rmap (Rmult (k * k)) (@sum_squares R_arith n y).
Proof.
  intros y. unfold sum_squares. assert (G : forall l z, foldM (fun s j => let* v := @get (num R_arith) (kl y) j in Ok (aadd s (amul v v))) l (k * k * z)%R
     = rmap (Rmult (k * k)) (foldM (fun s j => let* v := @get (num R_arith) y j in Ok (@aadd R_arith s (amul v v))) l z)).
  { induction l as [|j l IH]; intros z; cbn [foldM]; [reflexivity|]. rewrite (getk y). destruct (@get (num R_arith) y j) as [x|e]; [|reflexivity]. cbn [rmap bind].
    rewrite <- IH. f_equal. cbn. ring. }
  specialize (G (seq 0 n) 0%R). rewrite Rmult_0_r in G. exact G.
Qed.
Lemma div_kk : forall x w, @divM R_arith (k * k * x)%R (@amul R_arith (k * w)%R (k * w)%R) = @divM R_arith x (amul w w).
Proof.
  intros x w. replace (k * k * x)%R with (k * (k * x))%R by ring. replace (@amul R_arith (k * w)%R (k * w)%R) with (k * (k * (w * w)))%R by (cbn; ring). rewrite !divk. reflexivity.
Qed.
Lemma entropy_k : forall w e y, @entropy_term R_arith (k * w)%R e (k * y)%R = entropy_term (A := R_arith) w e y.
Proof.
  intros w e y. unfold entropy_term. change (@a0 R_arith) with 0%R. assert (Hl : @altb R_arith 0%R (k * y)%R = @altb R_arith 0%R y).
  { change (Rltb 0 (k * y) = Rltb 0 y). unfold Rltb. destruct (Rlt_dec 0 (k * y)), (Rlt_dec 0 y); auto; exfalso; nra. }
  rewrite Hl, divk. reflexivity.
Qed.

Lemma pred_end_k : forall (p : list R) w, length p = n -> clf_pe (kl p) (k * w)%R = tk_pred_end tkc p w.
Proof.
  intros p w Hp. unfold clf_pe. cbn [tk_pred_end clf_task].
  set (f := fun (dd ww : R) (q : list R) j => let* x := @get (num R_arith) q j in let* v := divM (aadd x dd) ww in set q j v).
  change (foldM (f (k * d)%R (@aadd R_arith (k * w)%R (amul (aofnat n) (k * d)%R))) (seq 0 n) (kl p) = foldM (f d (@aadd R_arith w (amul (aofnat n) d))) (seq 0 n) p).
  replace (@aadd R_arith (k * w)%R (amul (aofnat n) (k * d)%R)) with (k * @aadd R_arith w (amul (aofnat n) d))%R by (cbn; ring).
  generalize (@aadd R_arith w (amul (aofnat n) d)). intros ww.
  assert (G : forall (b a : list R), foldM (f (k * d)%R (k * ww)%R) (seq (length a) (length b)) (a ++ kl b) = foldM (f d ww) (seq (length a) (length b)) (a ++ b)).
  { induction b as [|x b IH]; intros a; cbn [length seq foldM map]; [reflexivity|].
    assert (Hg : forall (v : R) t, @get (num R_arith) (a ++ v :: t) (length a) = Ok v). { intros v t. unfold get. change (num R_arith) with R. rewrite nth_error_app2, Nat.sub_diag by lia. reflexivity. }
    assert (Hs : forall (v u : R) t, set (a ++ v :: t) (length a) u = Ok ((a ++ [u]) ++ t)).
    { intros v u t. unfold set. rewrite app_length. cbn [length]. assert (Hlt : length a <? length a + S (length t) = true) by (apply Nat.ltb_lt; lia). rewrite Hlt. f_equal.
      clear. induction a as [|y a IHa]; cbn; [reflexivity|]. rewrite IHa. reflexivity. }
    unfold f at 1 3. rewrite !Hg. cbn [bind]. replace (@aadd R_arith (k * x)%R (k * d)%R) with (k * @aadd R_arith x d)%R by (cbn; ring). rewrite divk.
    destruct (@divM R_arith (aadd x d) ww) as [v|e]; [|reflexivity]. cbn [bind]. change (num R_arith) with R. rewrite !Hs. cbn [bind].
    specialize (IH (a ++ [v])). rewrite app_length in IH. cbn [length] in IH. rewrite Nat.add_1_r in IH. exact IH. }
  specialize (G p []). cbn [app length] in G. rewrite Hp in G. exact G.
Qed.

Lemma clf_scales : scales tkc clf_pe k (map kl) kl kl (fun p => length p = n).
Proof.
  constructor.
  - intros m. cbn. induction m; cbn [repeat map]; [reflexivity|]. rewrite IHm. f_equal. apply kl_zeros.
  - intros h j y w. cbn [tk_hist_add clf_task]. rewrite getkk. destruct (get h j) as [row|e]; [|reflexivity]. cbn [rmap bind]. rewrite (add_scaled k row).
    destruct (add_at row y w) as [r1|e]; [|reflexivity]. cbn [rmap bind]. apply setkk.
  - cbn. apply repeat_length.
  - cbn. apply kl_zeros.
  - intros p y w p' Hp H. cbn [tk_pred_add clf_task] in H. unfold add_at in H. destruct (get p y) as [x|e]; [|discriminate]. cbn [bind] in H. unfold set in H.
    destruct (y <? length p); [|discriminate]. injection H as <-. rewrite upd_length. exact Hp.
  - intros p y w _. cbn [tk_pred_add clf_task]. apply (add_scaled k).
  - intros p w Hp. apply pred_end_k. exact Hp.
  - intros l p y w. cbn [tk_loss_add clf_task]. destruct (get p y) as [q|e]; [|reflexivity]. cbn. f_equal. ring.
  - cbn. apply kl_zeros.
  - intros h. cbn [tk_stat_total clf_task]. rewrite map_map. apply map_ext. intros c. rewrite <- asum_k, !map_map. f_equal. apply map_ext. intros row.
    change (@a0 R_arith) with 0%R. replace 0%R with (k * 0)%R at 1 by ring. apply map_nth.
  - intros s h j. cbn [tk_stat_add clf_task]. rewrite getkk. destruct (get h j) as [row|e]; [|reflexivity]. cbn [rmap bind]. apply zip_k. intros; cbn; ring.
  - intros s h j. cbn [tk_stat_sub clf_task]. rewrite getkk. destruct (get h j) as [row|e]; [|reflexivity]. cbn [rmap bind]. apply zip_k. intros; cbn; ring.
  - intros wl wr sl sr. cbn [tk_impurity clf_task]. destruct crit.
    + unfold gini_childs. rewrite (sum_squares_k sl), (sum_squares_k sr). destruct (sum_squares n sl) as [a|e]; [|reflexivity]. cbn [rmap bind]. destruct (sum_squares n sr) as [b|e]; [|reflexivity]. cbn [rmap bind].
      rewrite !div_kk. reflexivity.
    + unfold entropy_childs. generalize (@a0 R_arith, @a0 R_arith). generalize (seq 0 n). induction l as [|j l IH]; intros [el er]; cbn [foldM]; [reflexivity|].
      rewrite (getk sl), (getk sr). destruct (@get (num R_arith) sl j) as [y|e]; [|reflexivity]. cbn [rmap bind]. destruct (@get (num R_arith) sr j) as [z|e]; [|reflexivity]. cbn [rmap bind].
      rewrite !entropy_k. destruct (entropy_term wl el y) as [a|e]; [|reflexivity]. cbn [bind]. destruct (entropy_term wr er z) as [b|e]; [|reflexivity]. cbn [bind]. apply IH.
Qed.

Lemma clf_orders_k : forall s h l, tk_cat_orders tkc s (map kl h) l = tk_cat_orders tkc s h l.
Proof.
  intros s h l. cbn [tk_cat_orders clf_task]. unfold clf_cat_orders.
  assert (Hn : @normalised_rows R_arith (map kl h) l = @normalised_rows R_arith h l); [|rewrite Hn; reflexivity].
  unfold normalised_rows.
  match goal with |- bind ?m _ = bind ?m' _ => replace m with (rmap (map kl) m') by (symmetry; exact (mapM_get_map kl h l)); destruct m' as [rows|e] end; [|reflexivity]. cbn [rmap bind]. f_equal. rewrite map_map. apply map_ext. intros row.
  rewrite asum_k, map_map. apply map_ext. intros y. apply quot_k.
Qed.
End Clf.
End Tasks.
