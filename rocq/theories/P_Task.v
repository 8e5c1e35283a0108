(** * What the proofs need to know about a task

    A [task_shape] says that the operations of a task stay inside of their arrays and
    gives the contents of the arrays as sums. It is an interface between the proofs about
    the common code and the two tasks, both of which are shown to satisfy it. *)

Require Import List Arith Lia NArith Permutation.
Require Import Verif.Base Verif.Num Verif.M_Bitarray Verif.M_Utils Verif.M_Impurity
  Verif.M_Context Verif.P_Utils Verif.P_List.
Import ListNotations.
Local Open Scope res_scope.

Record task_shape {A : arith} {E : env A} (tk : task A E) : Type := mkShape {
  ts_dy : tk_Y tk;
  ts_Yok : tk_Y tk -> Prop;
  ts_Pok : tk_P tk -> Prop;
  ts_Sok : tk_S tk -> Prop;
  ts_hist : nat -> list (nat * tk_Y tk * num A) -> tk_H tk;
  ts_pred : list (tk_Y tk * num A) -> tk_P tk;
  ts_loss : num A -> tk_P tk -> tk_Y tk -> num A -> num A;
  ts_cat : Prop;
  ts_hist0 : forall n, tk_hist0 tk n = ts_hist n [];
  ts_hist_add : forall n l b y w, b < n -> ts_Yok y ->
    tk_hist_add tk (ts_hist n l) b y w = Ok (ts_hist n (l ++ [(b, y, w)]));
  ts_pred0 : tk_pred0 tk = ts_pred [];
  ts_pred_add : forall l y w, ts_Yok y -> tk_pred_add tk (ts_pred l) y w = Ok (ts_pred (l ++ [(y, w)]));
  ts_pred_end : forall l w, okz True ts_Pok (tk_pred_end tk (ts_pred l) w);
  ts_loss_add : forall loss p y w, ts_Pok p -> ts_Yok y ->
    tk_loss_add tk loss p y w = Ok (ts_loss loss p y w);
  ts_stat0 : ts_Sok (tk_stat0 tk);
  ts_stat_total : forall n l, ts_Sok (tk_stat_total tk (ts_hist n l));
  ts_stat_add : forall n l b s, ts_Sok s -> b < n ->
    exists s', tk_stat_add tk s (ts_hist n l) b = Ok s' /\ ts_Sok s';
  ts_stat_sub : forall n l b s, ts_Sok s -> b < n ->
    exists s', tk_stat_sub tk s (ts_hist n l) b = Ok s' /\ ts_Sok s';
  ts_impurity : forall wl wr sl sr, ts_Sok sl -> ts_Sok sr ->
    okz True (fun _ => True) (tk_impurity tk wl wr sl sr);
  ts_orders : ts_cat -> forall s n l bins, (forall b, In b bins -> b < n) ->
    exists orders s', tk_cat_orders tk s (ts_hist n l) bins = Ok (orders, s') /\
      (forall o, In o orders -> Permutation o bins)
}.
Arguments ts_dy {A E tk}. Arguments ts_Yok {A E tk}. Arguments ts_Pok {A E tk}. Arguments ts_Sok {A E tk}.
Arguments ts_hist {A E tk}. Arguments ts_pred {A E tk}. Arguments ts_loss {A E tk}. Arguments ts_cat {A E tk}.

Lemma asum_snoc : forall {A : arith} (l : list (num A)) x, asum (l ++ [x]) = aadd (asum l) x.
Proof. intros. unfold asum. rewrite fold_left_app. reflexivity. Qed.

Lemma zipM_ok : forall {X} (f : X -> X -> X) l m, length l = length m ->
  exists r, zipM f l m = Ok r /\ length r = length l.
Proof.
  induction l as [|x l IH]; intros [|y m] H; simpl in *; try discriminate; eauto.
  destruct (IH m) as [r [Hr Hl]]; [lia|]. rewrite Hr. cbn [bind]. eexists; split; eauto. simpl; lia.
Qed.

Lemma divM_okz : forall {A : arith} (x y : num A), okz True (fun _ => True) (divM x y).
Proof. intros. unfold divM. destruct (aisz y); simpl; auto. Qed.

(** The positions returned by [argsort] are those of the list, each once. *)
Definition good_argsort {A} (E : env A) : Prop :=
  forall l, Permutation (argsort E l) (seq 0 (length l)).

Lemma take_at_perm : forall {X} (bins : list X) idx, Permutation idx (seq 0 (length bins)) ->
  exists o, take_at bins idx = Ok o /\ Permutation o bins.
Proof.
  intros X bins idx HP. destruct bins as [|d bins'].
  - simpl in HP. apply Permutation_sym in HP. apply Permutation_nil in HP. subst.
    exists []. split; reflexivity.
  - set (bins := d :: bins') in *. exists (map (fun i => nth i bins d) idx). split.
    + unfold take_at. apply mapM_pure. intros i Hi. apply nth_get.
      apply (Permutation_in i HP) in Hi. apply in_seq in Hi. lia.
    + rewrite (Permutation_map (fun i => nth i bins d) HP).
      assert (G : map (fun i => nth i bins d) (seq 0 (length bins)) = bins).
      { clearbody bins. clear HP idx. induction bins; simpl; auto. f_equal.
        rewrite <- seq_shift, map_map. exact IHbins. }
      rewrite G. reflexivity.
Qed.

(** ** Classification *)

Section Clf.
Context {A : arith} (E : env A) (K : nat) (dirichlet : num A) (crit : criterion) (st : cat_strategy).
Notation T := (num A).

Definition clf_hist (n : nat) (l : list (nat * nat * T)) : list (list T) :=
  map (fun b => map (fun k => asum (map snd
         (filter (fun x => (fst (fst x) =? b) && (snd (fst x) =? k))%bool l))) (seq 0 K)) (seq 0 n).

Definition clf_pred (l : list (nat * T)) : list T :=
  map (fun k => asum (map snd (filter (fun x => fst x =? k) l))) (seq 0 K).

Definition clf_loss (loss : T) (p : list T) (k : nat) (w : T) : T :=
  asub loss (amul w (aln (nth k p a0))).

Notation tk := (clf_task E K dirichlet crit st).

Lemma clf_hist0 : forall n, tk_hist0 tk n = clf_hist n [].
Proof.
  intros n. simpl. unfold clf_hist. simpl. rewrite (map_const_seq (repeat a0 K) n 0).
  apply map_ext. intro b. apply (map_const_seq a0 K 0).
Qed.

Lemma clf_hist_add : forall n l b y w, b < n -> y < K ->
  tk_hist_add tk (clf_hist n l) b y w = Ok (clf_hist n (l ++ [(b, y, w)])).
Proof.
  intros n l b y w Hb Hy. simpl. unfold clf_hist at 1.
  rewrite get_map_seq by auto. cbn [bind]. unfold add_at at 1.
  rewrite get_map_seq by auto. cbn [bind].
  set (f := fun l b k => asum (map snd (filter (fun x : nat * nat * T =>
         (fst (fst x) =? b) && (snd (fst x) =? k))%bool l))).
  change (asum (map snd (filter (fun x : nat * nat * T =>
         (fst (fst x) =? b) && (snd (fst x) =? y))%bool l))) with (f l b y).
  assert (Hf : aadd (f l b y) w = f (l ++ [(b, y, w)]) b y).
  { unfold f. rewrite filter_app_single. simpl. rewrite !Nat.eqb_refl. simpl.
    rewrite map_app. simpl. rewrite asum_snoc. auto. }
  assert (Hg : forall b' k, b' <> b \/ k <> y -> f l b' k = f (l ++ [(b, y, w)]) b' k).
  { intros b' k H. unfold f. rewrite filter_app_single. cbn [fst snd].
    destruct (b =? b') eqn:E1; destruct (y =? k) eqn:E2; simpl; rewrite ?app_nil_r; auto.
    apply Nat.eqb_eq in E1. apply Nat.eqb_eq in E2. lia. }
  rewrite Hf.
  change (map (fun k => asum (map snd (filter (fun x : nat * nat * T =>
         (fst (fst x) =? b) && (snd (fst x) =? k))%bool l))) (seq 0 K))
    with (map (f l b) (seq 0 K)).
  rewrite (set_map_seq (f l b) (f (l ++ [(b, y, w)]) b) K y Hy) by (intros; apply Hg; auto).
  cbn [bind]. unfold clf_hist.
  apply (set_map_seq (fun b => map (f l b) (seq 0 K))
           (fun b' => map (f (l ++ [(b, y, w)]) b') (seq 0 K)) n b Hb).
  intros b' Hb'. apply map_ext. intros k. apply Hg. auto.
Qed.

Lemma clf_pred_add : forall l y w, y < K ->
  tk_pred_add tk (clf_pred l) y w = Ok (clf_pred (l ++ [(y, w)])).
Proof.
  intros l y w Hy. simpl. unfold clf_pred, add_at.
  set (f := fun l k => asum (map snd (filter (fun x : nat * T => fst x =? k) l))).
  change (map (fun k => asum (map snd (filter (fun x : nat * T => fst x =? k) l))) (seq 0 K))
    with (map (f l) (seq 0 K)).
  rewrite get_map_seq by auto. cbn [bind].
  assert (Hf : aadd (f l y) w = f (l ++ [(y, w)]) y).
  { unfold f. rewrite filter_app_single. simpl. rewrite Nat.eqb_refl.
    rewrite map_app. simpl. rewrite asum_snoc. auto. }
  rewrite Hf. apply (set_map_seq (f l) (f (l ++ [(y, w)])) K y Hy).
  intros k Hk. unfold f. rewrite filter_app_single. simpl.
  destruct (y =? k) eqn:E1; [apply Nat.eqb_eq in E1; congruence|]. rewrite app_nil_r. auto.
Qed.

(** The normalisation loop divides every entry. *)
Lemma clf_pred_end : forall p w, length p = K ->
  tk_pred_end tk p w =
  if ((0 <? K) && aisz (aadd w (amul (aofnat K) dirichlet)))%bool
  then Err ZeroDiv
  else Ok (map (fun x => adiv (aadd x dirichlet) (aadd w (amul (aofnat K) dirichlet))) p).
Proof.
  intros p w Hp. cbn [tk_pred_end clf_task].
  set (d := aadd w (amul (aofnat K) dirichlet)).
  set (h := fun x => adiv (aadd x dirichlet) d).
  destruct (aisz d) eqn:Hd.
  - destruct K as [|K'] eqn:EK.
    + simpl. destruct p; [reflexivity|discriminate].
    + destruct p as [|x p]; [discriminate|]. simpl. unfold divM. rewrite Hd. reflexivity.
  - rewrite Bool.andb_false_r.
    assert (G : forall post pre, p = pre ++ post ->
      foldM (fun p k => let* x := get p k in let* v := divM (aadd x dirichlet) d in set p k v)
        (seq (length pre) (length post)) (map h pre ++ post) = Ok (map h p)).
    { induction post as [|x post IH]; intros pre Ep.
      - rewrite app_nil_r in *. subst. reflexivity.
      - cbn [length seq foldM].
        assert (Hg : get (map h pre ++ x :: post) (length pre) = Ok x).
        { apply get_ok. rewrite nth_error_app2; rewrite map_length; auto. rewrite Nat.sub_diag. auto. }
        rewrite Hg. cbn [bind]. unfold divM at 1. rewrite Hd. cbn [bind]. fold (h x).
        assert (Hs : set (map h pre ++ x :: post) (length pre) (h x) = Ok (map h (pre ++ [x]) ++ post)).
        { apply set_ok. split.
          - rewrite app_length, map_length. simpl. lia.
          - rewrite <- (map_length h pre) at 1.
            replace (length (map h pre)) with (length (map h pre) + 0) by lia.
            rewrite upd_app_r. simpl. rewrite map_app. simpl. rewrite <- app_assoc. reflexivity. }
        rewrite Hs. cbn [bind].
        specialize (IH (pre ++ [x])). rewrite app_length in IH. simpl in IH.
        rewrite Nat.add_1_r in IH. apply IH. rewrite <- app_assoc. exact Ep. }
    specialize (G p [] eq_refl). simpl in G. rewrite Hp in G. exact G.
Qed.

Lemma get_clf_hist : forall n l b, b < n -> exists row, get (clf_hist n l) b = Ok row /\ length row = K.
Proof.
  intros. unfold clf_hist. rewrite get_map_seq by auto. eexists; split; [reflexivity|].
  rewrite map_length, seq_length. auto.
Qed.

Lemma sum_squares_okz : forall y : list T, length y = K ->
  exists s, sum_squares K y = Ok s.
Proof.
  intros y H. unfold sum_squares.
  assert (G : okz False (fun _ => True) (foldM (fun s k => let* y0 := get y k in Ok (aadd s (amul y0 y0))) (seq 0 K) a0)).
  { apply (okz_foldM False (fun _ _ => True)); auto. intros pre x post s E1 _.
    assert (Hx : x < K). { assert (In x (seq 0 K)) by (rewrite E1; apply in_elt). apply in_seq in H0. lia. }
    destruct (get_in y x) as [v Hv]; [lia|]. rewrite Hv. simpl. auto. }
  destruct (foldM _ (seq 0 K) a0); simpl in G; [eauto|destruct e; tauto].
Qed.

Lemma entropy_term_okz : forall w e y : T, okz True (fun _ => True) (entropy_term w e y).
Proof.
  intros. unfold entropy_term. destruct (altb a0 y); simpl; auto.
  apply okz_bind. eapply okz_weaken; [| |apply divM_okz]; simpl; auto.
Qed.

Lemma order_by_class_ok : good_argsort E -> forall (rows : list (list T)) bins k, k < K ->
  (forall row, In row rows -> length row = K) -> length rows = length bins ->
  exists o, order_by_class E rows bins k = Ok o /\ Permutation o bins.
Proof.
  intros HA rows bins k Hk Hrows Hlen. unfold order_by_class.
  destruct (mapM_total (fun row : list T => get row k) rows) as [c Hc].
  { intros row Hrow. apply get_in. rewrite Hrows; auto. }
  rewrite Hc. cbn [bind]. apply take_at_perm.
  destruct (mapM_ok _ _ _ Hc) as [HL _]. rewrite <- Hlen, <- HL. apply HA.
Qed.

Lemma clf_orders_ok : good_argsort E -> good_draws E -> 1 <= K -> (st = BinaryMod -> 2 <= K) ->
  forall s n l bins, (forall b, In b bins -> b < n) ->
    exists orders s', tk_cat_orders tk s (clf_hist n l) bins = Ok (orders, s') /\
      (forall o, In o orders -> Permutation o bins).
Proof.
  intros HA HD HK HB s n l bins Hbins. cbn [tk_cat_orders clf_task]. unfold clf_cat_orders.
  unfold normalised_rows.
  destruct (mapM_total (get (clf_hist n l)) bins) as [rows Hrows].
  { intros b Hb. destruct (get_clf_hist n l b (Hbins b Hb)) as [row [H _]]. eauto. }
  rewrite Hrows. cbn [bind].
  destruct (mapM_ok _ _ _ Hrows) as [HL HI].
  set (nrows := map (fun row : list T => let s := asum row in map (fun y => adiv y s) row) rows).
  assert (Hn : forall row, In row nrows -> length row = K).
  { intros row Hrow. unfold nrows in Hrow. apply in_map_iff in Hrow.
    destruct Hrow as [row0 [<- Hin]]. cbv zeta. rewrite map_length.
    apply In_nth_error in Hin. destruct Hin as [i Hi].
    assert (Hib : i < length bins). { rewrite <- HL. apply nth_error_Some. congruence. }
    destruct (nth_error bins i) as [b|] eqn:Eb; [|apply nth_error_None in Eb; lia].
    destruct (HI i b Eb) as [y [Hy Hg]]. assert (y = row0) by congruence. subst y.
    destruct (get_clf_hist n l b) as [row [H H']].
    - apply Hbins. apply nth_error_In in Eb. auto.
    - congruence. }
  assert (Hnl : length nrows = length bins) by (unfold nrows; rewrite map_length; auto).
  destruct st.
  - destruct (mapM_total (order_by_class E nrows bins) (seq 0 K)) as [os Hos].
    { intros k Hk. apply in_seq in Hk. destruct (order_by_class_ok HA nrows bins k ltac:(lia) Hn Hnl) as [o [Ho _]]. eauto. }
    rewrite Hos. cbn [bind]. exists os, s. split; auto.
    intros o Ho. destruct (mapM_ok _ _ _ Hos) as [HL' HI'].
    apply In_nth_error in Ho. destruct Ho as [i Hi].
    assert (Hik : i < K). { rewrite <- (seq_length K 0), <- HL'. apply nth_error_Some. congruence. }
    destruct (HI' i i) as [y [Hy Hg]].
    { rewrite (nth_error_nth' (seq 0 K) 0); rewrite ?seq_length; auto. rewrite seq_nth; auto. }
    destruct (order_by_class_ok HA nrows bins i Hik Hn Hnl) as [o' [Ho' HP]].
    assert (o' = o) by congruence. subst. auto.
  - destruct (order_by_class_ok HA nrows bins 1 ltac:(specialize (HB eq_refl); lia) Hn Hnl) as [o [Ho HP]].
    rewrite Ho. cbn [bind]. exists [o], s. split; auto. intros o' [<-|[]]. auto.
  - unfold randint. destruct (K =? 0) eqn:E0; [apply Nat.eqb_eq in E0; lia|]. cbn [bind].
    pose proof (HD s K ltac:(lia)) as Hk. destruct (draw E s K) as [k s'] eqn:Ed. simpl in Hk.
    destruct (order_by_class_ok HA nrows bins k Hk Hn Hnl) as [o [Ho HP]].
    rewrite Ho. cbn [bind]. exists [o], s'. split; auto. intros o' [<-|[]]. auto.
Qed.

Definition clf_shape : task_shape tk.
Proof.
  refine (mkShape A E tk 0 (fun y => y < K) (fun p => length p = K) (fun s => length s = K)
    clf_hist clf_pred clf_loss
    (good_argsort E /\ good_draws E /\ 1 <= K /\ (st = BinaryMod -> 2 <= K))
    clf_hist0 clf_hist_add _ clf_pred_add _ _ _ _ _ _ _ _).
  - simpl. unfold clf_pred. simpl. apply map_const_seq.
  - intros l w. rewrite clf_pred_end.
    + destruct (_ && _)%bool; simpl; auto. unfold clf_pred. rewrite !map_length, seq_length. auto.
    + unfold clf_pred. rewrite map_length, seq_length. auto.
  - intros loss p y w Hp Hy. simpl in *. rewrite (nth_get p y a0) by lia. reflexivity.
  - simpl. apply repeat_length.
  - intros. simpl. rewrite map_length, seq_length. auto.
  - intros n l b s Hs Hb. simpl. destruct (get_clf_hist n l b Hb) as [row [Hr Hl]].
    rewrite Hr. cbn [bind]. destruct (zipM_ok aadd s row) as [r [H1 H2]]; [simpl in *; lia|].
    exists r. split; auto. simpl in *; lia.
  - intros n l b s Hs Hb. simpl. destruct (get_clf_hist n l b Hb) as [row [Hr Hl]].
    rewrite Hr. cbn [bind]. destruct (zipM_ok asub s row) as [r [H1 H2]]; [simpl in *; lia|].
    exists r. split; auto. simpl in *; lia.
  - intros wl wr sl sr Hl Hr. simpl in *. destruct crit.
    + unfold gini_childs. destruct (sum_squares_okz sl Hl) as [a Ha]. rewrite Ha. cbn [bind].
      destruct (sum_squares_okz sr Hr) as [b Hb]. rewrite Hb. cbn [bind].
      apply okz_bind. eapply okz_weaken; [exact (fun z => z)| |apply divM_okz]. intros ? _ _.
      apply okz_bind. eapply okz_weaken; [exact (fun z => z)| |apply divM_okz]. intros ? _ _.
      simpl; auto.
    + unfold entropy_childs. apply (okz_foldM True (fun _ _ => True)); auto.
      intros pre x post [el er] E1 _.
      assert (Hx : x < K). { assert (In x (seq 0 K)) by (rewrite E1; apply in_elt). apply in_seq in H. lia. }
      destruct (get_in sl x) as [v Hv]; [lia|]. rewrite Hv. cbn [bind].
      destruct (get_in sr x) as [u Hu]; [lia|]. rewrite Hu. cbn [bind].
      apply okz_bind. eapply okz_weaken; [exact (fun z => z)| |apply entropy_term_okz]. intros ? _ _.
      apply okz_bind. eapply okz_weaken; [exact (fun z => z)| |apply entropy_term_okz]. intros ? _ _.
      simpl; auto.
  - intros [HA [HD [HK HB]]]. apply clf_orders_ok; auto.
Defined.

End Clf.

(** ** Regression *)

Section Reg.
Context {A : arith} (E : env A).
Notation T := (num A).

Definition reg_hist (n : nat) (l : list (nat * T * T)) : list T * list T :=
  (map (fun b => asum (map (fun x => amul (snd x) (snd (fst x)))
         (filter (fun x => fst (fst x) =? b) l))) (seq 0 n),
   map (fun b => asum (map (fun x => amul (amul (snd x) (snd (fst x))) (snd (fst x)))
         (filter (fun x => fst (fst x) =? b) l))) (seq 0 n)).

Definition reg_pred (l : list (T * T)) : T := asum (map (fun x => amul (snd x) (fst x)) l).

Definition reg_loss (loss p y w : T) : T := aadd loss (amul (amul w (asub y p)) (asub y p)).

Notation tk := (reg_task E).

(** Adding to one cell of a table of sums. *)
Lemma add_at_table : forall (g : nat * T * T -> T) n l b y w, b < n ->
  add_at (map (fun b => asum (map g (filter (fun x => fst (fst x) =? b) l))) (seq 0 n)) b (g (b, y, w)) =
  Ok (map (fun b' => asum (map g (filter (fun x => fst (fst x) =? b') (l ++ [(b, y, w)])))) (seq 0 n)).
Proof.
  intros g n l b y w Hb. unfold add_at. rewrite get_map_seq by auto. cbn [bind].
  set (f := fun l b => asum (map g (filter (fun x : nat * T * T => fst (fst x) =? b) l))).
  change (asum (map g (filter (fun x : nat * T * T => fst (fst x) =? b) l))) with (f l b).
  assert (Hf : aadd (f l b) (g (b, y, w)) = f (l ++ [(b, y, w)]) b).
  { unfold f. rewrite filter_app_single. simpl. rewrite Nat.eqb_refl.
    rewrite map_app. simpl. rewrite asum_snoc. auto. }
  rewrite Hf. apply (set_map_seq (f l) (f (l ++ [(b, y, w)])) n b Hb).
  intros k Hk. unfold f. rewrite filter_app_single. simpl.
  destruct (b =? k) eqn:E1; [apply Nat.eqb_eq in E1; congruence|]. rewrite app_nil_r. auto.
Qed.

Lemma reg_hist_add : forall n l b y w, b < n ->
  tk_hist_add tk (reg_hist n l) b y w = Ok (reg_hist n (l ++ [(b, y, w)])).
Proof.
  intros n l b y w Hb. cbn [tk_hist_add reg_task]. unfold reg_hist at 1 2. cbn [fst snd].
  pose proof (add_at_table (fun x => amul (snd x) (snd (fst x))) n l b y w Hb) as H1.
  pose proof (add_at_table (fun x => amul (amul (snd x) (snd (fst x))) (snd (fst x))) n l b y w Hb) as H2.
  cbn [fst snd] in H1, H2. cbv zeta. rewrite H1. cbn [bind]. rewrite H2.
  cbn [bind]. reflexivity.
Qed.

Lemma mse_node_okz : forall w y q : T, okz True (fun _ => True) (mse_node w y q).
Proof.
  intros. unfold mse_node.
  apply okz_bind. eapply okz_weaken; [exact (fun z => z)| |apply divM_okz]. intros ? _ _.
  apply okz_bind. eapply okz_weaken; [exact (fun z => z)| |apply divM_okz]. intros ? _ _.
  simpl; auto.
Qed.

Definition reg_shape : task_shape tk.
Proof.
  refine (mkShape A E tk a0 (fun _ => True) (fun _ => True) (fun _ => True)
    reg_hist reg_pred reg_loss (good_argsort E) _ (fun n l b y w Hb _ => reg_hist_add n l b y w Hb)
    eq_refl _ _ _ I _ _ _ _ _).
  - intros n. unfold reg_hist. simpl. f_equal; apply map_const_seq.
  - intros l y w _. simpl. unfold reg_pred. rewrite map_app. simpl. rewrite asum_snoc. auto.
  - intros l w. simpl. apply divM_okz.
  - reflexivity.
  - auto.
  - intros n l b s _ Hb. simpl. rewrite !get_map_seq by auto. simpl. eauto.
  - intros n l b s _ Hb. simpl. rewrite !get_map_seq by auto. simpl. eauto.
  - intros wl wr sl sr _ _. simpl. unfold mse_childs.
    apply okz_bind. eapply okz_weaken; [exact (fun z => z)| |apply mse_node_okz]. intros ? _ _.
    apply okz_bind. eapply okz_weaken; [exact (fun z => z)| |apply mse_node_okz]. intros ? _ _.
    simpl; auto.
  - intros HA s n l bins Hb. simpl. unfold reg_cat_orders.
    destruct (mapM_total (get (fst (reg_hist n l))) bins) as [ys Hys].
    { intros b Hin. apply get_in. simpl. rewrite map_length, seq_length. auto. }
    simpl in *. rewrite Hys. cbn [bind].
    destruct (take_at_perm bins (argsort E ys)) as [o [Ho HP]].
    { destruct (mapM_ok _ _ _ Hys) as [HL _]. rewrite <- HL. apply HA. }
    rewrite Ho. cbn [bind]. exists [o], s. split; auto. intros o' [<-|[]]. auto.
Defined.

End Reg.
