(** * Proofs about impurities, over the reals *)

Require Import List Arith Lia Reals Lra.
Require Import Verif.Base Verif.Num Verif.M_Impurity Verif.P_BinningR Verif.S_Impurity
  Verif.P_List.
Import ListNotations.
Local Open Scope R_scope.
Local Open Scope list_scope.

Lemma fold_left_Rsum : forall l a, fold_left Rplus l a = a + Rsum l.
Proof. induction l; intros; simpl; [lra|]. rewrite IHl. lra. Qed.

Lemma asum_R : forall l : list R, @asum R_arith l = Rsum l.
Proof. intros. unfold asum. simpl. rewrite fold_left_Rsum. lra. Qed.

Lemma Rsum_app : forall l m, Rsum (l ++ m) = Rsum l + Rsum m.
Proof. induction l; intros; simpl; [lra|]. rewrite IHl. lra. Qed.

Lemma Rsum_nonneg : forall l, (forall x, In x l -> 0 <= x) -> 0 <= Rsum l.
Proof.
  induction l; intros H; simpl; [lra|].
  pose proof (H a (or_introl eq_refl)). specialize (IHl (fun x Hx => H x (or_intror Hx))). lra.
Qed.

Lemma Rsum_ge_elt : forall l x, (forall x, In x l -> 0 <= x) -> In x l -> x <= Rsum l.
Proof.
  induction l; intros x H Hx; simpl in *; [tauto|].
  pose proof (Rsum_nonneg l (fun x Hx => H x (or_intror Hx))).
  pose proof (H a (or_introl eq_refl)).
  destruct Hx as [->|Hx]; [lra|]. specialize (IHl x (fun x Hx => H x (or_intror Hx)) Hx). lra.
Qed.

Lemma Rsum_zero : forall l, (forall x, In x l -> 0 <= x) -> Rsum l = 0 -> forall x, In x l -> x = 0.
Proof.
  intros l H Hz x Hx. pose proof (Rsum_ge_elt l x H Hx). pose proof (H x Hx). lra.
Qed.

Lemma Rsum_ext : forall {A} (f g : A -> R) l, (forall x, In x l -> f x = g x) ->
  Rsum (map f l) = Rsum (map g l).
Proof.
  induction l; intros H; simpl; auto. rewrite H by (simpl; auto).
  rewrite IHl; auto. intros; apply H; simpl; auto.
Qed.

Lemma Rsum_plus : forall {A} (f g : A -> R) l,
  Rsum (map (fun x => f x + g x) l) = Rsum (map f l) + Rsum (map g l).
Proof. induction l; simpl; [lra|]. rewrite IHl. lra. Qed.

Lemma Rsum_scal : forall {A} (f : A -> R) c l,
  Rsum (map (fun x => c * f x) l) = c * Rsum (map f l).
Proof. induction l; simpl; [lra|]. rewrite IHl. lra. Qed.

Lemma Rsum_le : forall {A} (f g : A -> R) l, (forall x, In x l -> f x <= g x) ->
  Rsum (map f l) <= Rsum (map g l).
Proof.
  induction l; intros H; simpl; [lra|].
  pose proof (H a (or_introl eq_refl)). specialize (IHl (fun x Hx => H x (or_intror Hx))). lra.
Qed.

(** ** Gini *)

Lemma sum_squares_R : forall y : list R,
  @sum_squares R_arith (length y) y = Ok (Rsum (map sq y)).
Proof.
  intros y. unfold sum_squares.
  change (@foldM nat R (fun s k => let* y0 := get y k in Ok (s + y0 * y0)) (seq 0 (length y)) 0 =
          Ok (Rsum (map sq y))).
  rewrite (foldM_get_seq (fun s y0 => Ok (s + y0 * y0)) y 0).
  rewrite (foldM_pure (fun s y0 => s + y0 * y0)).
  f_equal.
  assert (H : forall l a, fold_left (fun s y0 => s + y0 * y0) l a = a + Rsum (map sq l)).
  { induction l; intros; simpl; [lra|]. rewrite IHl. unfold sq. lra. }
  rewrite H. lra.
Qed.

Lemma divM_R : forall x y : R, y <> 0 -> @divM R_arith x y = Ok (x / y).
Proof.
  intros x y H. unfold divM. simpl. unfold Risz.
  destruct (Req_EM_T y 0); [contradiction|]. auto.
Qed.

Lemma divM_R0 : forall x : R, @divM R_arith x 0 = Err ZeroDiv.
Proof. intros x. unfold divM. simpl. unfold Risz. destruct (Req_EM_T 0 0); [auto|lra]. Qed.

Lemma Rsum_freq : forall y, Rsum y <> 0 -> Rsum (map (freq y) y) = 1.
Proof.
  intros y H. unfold freq. rewrite (Rsum_ext _ (fun x => / Rsum y * x)).
  - rewrite (Rsum_scal (fun x => x)). rewrite map_id. field. auto.
  - intros; field; auto.
Qed.

Lemma gini_formula : forall y, Rsum y <> 0 ->
  1 - Rsum (map sq y) / (Rsum y * Rsum y) = gini y.
Proof.
  intros y H. unfold gini.
  rewrite (Rsum_ext (fun x => freq y x * (1 - freq y x))
             (fun x => freq y x + (- / (Rsum y * Rsum y)) * sq x)).
  - rewrite (Rsum_plus (freq y) (fun x => - / (Rsum y * Rsum y) * sq x)), (Rsum_scal sq), Rsum_freq by auto.
    unfold Rdiv. lra.
  - intros x _. unfold freq, sq. field. auto.
Qed.

Lemma gini_node_R : forall (y : list R), Rsum y <> 0 ->
  @gini_node R_arith (length y) (Rsum y) y = Ok (gini y).
Proof.
  intros y H. unfold gini_node. rewrite sum_squares_R. cbn [bind].
  change (@amul R_arith (Rsum y) (Rsum y)) with (Rsum y * Rsum y).
  rewrite divM_R by (apply Rmult_integral_contrapositive; auto). cbn [bind].
  rewrite <- gini_formula by auto. reflexivity.
Qed.

Lemma gini_childs_R : forall (yl yr : list R), Rsum yl <> 0 -> Rsum yr <> 0 ->
  length yr = length yl ->
  @gini_childs R_arith (length yl) (Rsum yl) (Rsum yr) yl yr = Ok (gini yl, gini yr).
Proof.
  intros yl yr Hl Hr Hlen. unfold gini_childs. rewrite sum_squares_R. cbn [bind].
  rewrite <- Hlen at 1. rewrite sum_squares_R. cbn [bind].
  change (@amul R_arith (Rsum yl) (Rsum yl)) with (Rsum yl * Rsum yl).
  change (@amul R_arith (Rsum yr) (Rsum yr)) with (Rsum yr * Rsum yr).
  rewrite !divM_R by (apply Rmult_integral_contrapositive; auto). cbn [bind].
  rewrite <- !gini_formula by auto. reflexivity.
Qed.

(** ** Entropy *)

Lemma entropy_term_R : forall w e y : R, 0 < w ->
  @entropy_term R_arith w e y = Ok (e - xlogx (y / w)).
Proof.
  intros w e y Hw. unfold entropy_term. simpl. unfold Rltb, xlogx.
  destruct (Rlt_dec 0 y) as [Hy|Hy].
  - rewrite divM_R by lra. cbn [bind].
    destruct (Rlt_dec 0 (y / w)) as [H|H]; [reflexivity|].
    exfalso. apply H. apply Rdiv_lt_0_compat; auto.
  - destruct (Rlt_dec 0 (y / w)) as [H|H].
    + exfalso. apply Hy. replace y with (y / w * w) by (field; lra).
      apply Rmult_lt_0_compat; auto.
    + f_equal. lra.
Qed.

Lemma fold_entropy : forall w l a,
  fold_left (fun e y => e - xlogx (y / w)) l a = a - Rsum (map (fun x => xlogx (x / w)) l).
Proof. induction l; intros; simpl; [lra|]. rewrite IHl. lra. Qed.

Lemma entropy_node_R : forall (y : list R), 0 < Rsum y ->
  @entropy_node R_arith (length y) (Rsum y) y = Ok (entropy y).
Proof.
  intros y H. unfold entropy_node.
  etransitivity; [exact (foldM_get_seq (fun e x => @entropy_term R_arith (Rsum y) e x) y 0)|].
  rewrite (foldM_ext _ (fun e x => Ok (e - xlogx (x / Rsum y)))) by (intros; apply entropy_term_R; auto).
  rewrite (foldM_pure (fun e x => e - xlogx (x / Rsum y))). f_equal.
  rewrite fold_entropy. unfold entropy, freq. lra.
Qed.

Lemma entropy_childs_R : forall (yl yr : list R), 0 < Rsum yl -> 0 < Rsum yr ->
  length yr = length yl ->
  @entropy_childs R_arith (length yl) (Rsum yl) (Rsum yr) yl yr = Ok (entropy yl, entropy yr).
Proof.
  intros yl yr Hl Hr Hlen. unfold entropy_childs.
  change (num R_arith) with R. change (@a0 R_arith) with 0.
  set (wl := Rsum yl) in *. set (wr := Rsum yr) in *.
  assert (H : forall a b pre pre', length pre = length pre' -> length a = length b ->
    forall el er,
    foldM (fun '(el, er) k =>
        let* y := get (pre ++ a) k in let* z := get (pre' ++ b) k in
        let* el' := @entropy_term R_arith wl el y in
        let* er' := @entropy_term R_arith wr er z in Ok (el', er'))
      (seq (length pre) (length a)) (el, er) =
    Ok (el - Rsum (map (fun x => xlogx (x / wl)) a), er - Rsum (map (fun x => xlogx (x / wr)) b))).
  { induction a as [|x a IH]; intros b pre pre' Hp Hab el er.
    - destruct b; [|discriminate]. simpl. f_equal. f_equal; lra.
    - destruct b as [|z b]; [discriminate|]. cbn [length seq foldM].
      assert (Hg : get (pre ++ x :: a) (length pre) = Ok x).
      { apply get_ok. rewrite nth_error_app2, Nat.sub_diag; auto. }
      assert (Hg' : get (pre' ++ z :: b) (length pre) = Ok z).
      { apply get_ok. rewrite Hp. rewrite nth_error_app2, Nat.sub_diag; auto. }
      rewrite Hg, Hg'. cbn [bind]. rewrite !entropy_term_R by auto. cbn [bind].
      replace (pre ++ x :: a) with ((pre ++ [x]) ++ a) by (rewrite <- app_assoc; auto).
      replace (pre' ++ z :: b) with ((pre' ++ [z]) ++ b) by (rewrite <- app_assoc; auto).
      assert (Hl' : length (pre ++ [x]) = S (length pre)) by (rewrite app_length; simpl; lia).
      specialize (IH b (pre ++ [x]) (pre' ++ [z])).
      rewrite Hl' in IH.
      rewrite IH.
      + f_equal. cbn [map Rsum]. apply (f_equal2 (@pair R R)); ring.
      + rewrite app_length, <- Hp. simpl. rewrite Nat.add_1_r. reflexivity.
      + simpl in Hab. injection Hab as Hab. exact Hab. }
  specialize (H yl yr [] [] eq_refl (eq_sym Hlen) 0 0). simpl app in H. simpl length in H at 1.
  etransitivity; [exact H|]. unfold entropy, freq, wl, wr. f_equal.
  apply (f_equal2 (@pair R R)); ring.
Qed.

(** ** Properties of the textbook impurities *)

Lemma freq_range : forall y x, nonneg y -> 0 < Rsum y -> In x y -> 0 <= freq y x <= 1.
Proof.
  intros y x Hn Hs Hx. unfold freq. pose proof (Hn x Hx). pose proof (Rsum_ge_elt y x Hn Hx).
  split.
  - apply Rmult_le_pos; [auto|]. left. apply Rinv_0_lt_compat; auto.
  - apply (Rmult_le_reg_r (Rsum y)); auto. unfold Rdiv. rewrite Rmult_assoc, Rinv_l; lra.
Qed.

Lemma two_pos_sum : forall y j k, nonneg y -> j <> k -> (j < length y)%nat -> (k < length y)%nat ->
  nth j y 0 + nth k y 0 <= Rsum y.
Proof.
  induction y as [|x y IH]; intros j k Hn Hjk Hj Hk; simpl in *; [lia|].
  assert (Hn' : nonneg y) by (intros z Hz; apply Hn; simpl; auto).
  destruct j, k; simpl in *.
  - lia.
  - pose proof (Rsum_ge_elt y (nth k y 0) Hn' (nth_In y 0 (n:=k) ltac:(lia))). lra.
  - pose proof (Rsum_ge_elt y (nth j y 0) Hn' (nth_In y 0 (n:=j) ltac:(lia))). lra.
  - specialize (IH j k Hn' ltac:(lia) ltac:(lia) ltac:(lia)).
    pose proof (Hn x (or_introl eq_refl)). lra.
Qed.

Lemma pos_nth_lt : forall (y : list R) j, 0 < nth j y 0 -> (j < length y)%nat.
Proof.
  intros y j H. destruct (Nat.lt_ge_cases j (length y)); auto.
  rewrite nth_overflow in H by auto. lra.
Qed.

Lemma pure_freqs : forall y, nonneg y -> 0 < Rsum y ->
  (pure y <-> forall x, In x y -> freq y x = 0 \/ freq y x = 1).
Proof.
  intros y Hn Hs. split.
  - intros Hp x Hx. destruct (Hn x Hx) as [Hx0|Hx0].
    + right. unfold freq. destruct (In_nth y x 0 Hx) as [j [Hj Hjx]].
      assert (Hsum : Rsum y = x).
      { assert (He : forall l k, nonneg l ->
            (forall i, i <> k -> nth i l 0 = 0) -> Rsum l = nth k l 0).
        { induction l as [|z l IHl]; intros k Hnl Hz; simpl; [destruct k; auto|].
          assert (Hnl' : nonneg l) by (intros u Hu; apply Hnl; simpl; auto).
          destruct k.
          - enough (Rsum l = 0) by (simpl; lra).
            assert (forall u, In u l -> u = 0).
            { intros u Hu. destruct (In_nth l u 0 Hu) as [i [_ Hi]]. subst u.
              apply (Hz (S i)). lia. }
            clear -H. induction l; simpl; [auto|]. rewrite (H a) by (simpl; auto).
            rewrite IHl; [lra|intros; apply H; simpl; auto].
          - pose proof (Hz 0%nat ltac:(lia)). simpl in H. subst z.
            rewrite (IHl k Hnl'); [lra|]. intros i Hi. apply (Hz (S i)). lia. }
        rewrite (He y j Hn); auto.
        intros i Hi. destruct (Nat.lt_ge_cases i (length y)).
        - destruct (Hn (nth i y 0) (nth_In y 0 H)) as [Hpos|Hz]; auto.
          exfalso. apply Hi. apply Hp; auto. lra.
        - apply nth_overflow; auto. }
      rewrite Hsum. field. lra.
    + left. rewrite <- Hx0. unfold freq. field. lra.
  - intros H j k Hj Hk. destruct (Nat.eq_dec j k); auto. exfalso.
    pose proof (pos_nth_lt y j Hj). pose proof (pos_nth_lt y k Hk).
    pose proof (two_pos_sum y j k Hn n H0 H1) as Hsum.
    assert (Hone : forall i, (i < length y)%nat -> 0 < nth i y 0 -> nth i y 0 = Rsum y).
    { intros i Hi Hpos. destruct (H (nth i y 0) (nth_In y 0 Hi)) as [Hz|Hz]; unfold freq in Hz.
      - exfalso. assert (nth i y 0 = 0).
        { replace (nth i y 0) with (nth i y 0 / Rsum y * Rsum y) by (field; lra). rewrite Hz. lra. }
        lra.
      - replace (nth i y 0) with (nth i y 0 / Rsum y * Rsum y) by (field; lra). rewrite Hz. lra. }
    pose proof (Hone j H0 Hj). pose proof (Hone k H1 Hk). lra.
Qed.

Lemma gini_nonneg : forall y, nonneg y -> 0 < Rsum y -> 0 <= gini y.
Proof.
  intros y Hn Hs. unfold gini. apply Rsum_nonneg. intros z Hz.
  apply in_map_iff in Hz. destruct Hz as [x [<- Hx]].
  pose proof (freq_range y x Hn Hs Hx). apply Rmult_le_pos; lra.
Qed.

Lemma gini_zero_iff : forall y, nonneg y -> 0 < Rsum y -> (gini y = 0 <-> pure y).
Proof.
  intros y Hn Hs. rewrite pure_freqs by auto. split.
  - intros H x Hx.
    assert (Hx0 : freq y x * (1 - freq y x) = 0).
    { eapply Rsum_zero; [|exact H|].
      - intros z Hz. apply in_map_iff in Hz. destruct Hz as [u [<- Hu]].
        pose proof (freq_range y u Hn Hs Hu). apply Rmult_le_pos; lra.
      - apply in_map_iff. exists x; auto. }
    apply Rmult_integral in Hx0. destruct Hx0; [left|right]; lra.
  - intros H. unfold gini. rewrite (Rsum_ext _ (fun x => 0 * x)).
    + rewrite (Rsum_scal (fun x => x)). lra.
    + intros x Hx. destruct (H x Hx) as [->| ->]; lra.
Qed.

Lemma ln_le_minus1 : forall z, 0 < z -> ln z <= z - 1.
Proof.
  intros z Hz. pose proof (exp_ineq1_le (ln z)). rewrite exp_ln in H by auto. lra.
Qed.

Lemma xlogx_range : forall p, 0 <= p <= 1 -> xlogx p <= 0.
Proof.
  intros p [H0 H1]. unfold xlogx. destruct (Rlt_dec 0 p); [|lra].
  pose proof (ln_le_minus1 p r). assert (ln p <= 0) by lra.
  replace 0 with (p * 0) by ring. apply Rmult_le_compat_l; lra.
Qed.

Lemma xlogx_zero : forall p, 0 <= p <= 1 -> xlogx p = 0 -> p = 0 \/ p = 1.
Proof.
  intros p [H0 H1] H. unfold xlogx in H. destruct (Rlt_dec 0 p); [|left; lra].
  right. apply Rmult_integral in H. destruct H; [lra|].
  rewrite <- (exp_ln p) by auto. rewrite H. apply exp_0.
Qed.

Lemma entropy_nonneg : forall y, nonneg y -> 0 < Rsum y -> 0 <= entropy y.
Proof.
  intros y Hn Hs. unfold entropy.
  assert (H : 0 <= Rsum (map (fun x => - xlogx (freq y x)) y)).
  { apply Rsum_nonneg. intros z Hz. apply in_map_iff in Hz. destruct Hz as [x [<- Hx]].
    pose proof (xlogx_range _ (freq_range y x Hn Hs Hx)). lra. }
  rewrite (Rsum_ext _ (fun x => (-1) * xlogx (freq y x))) in H by (intros; ring).
  rewrite (Rsum_scal (fun x => xlogx (freq y x))) in H. lra.
Qed.

Lemma entropy_zero_iff : forall y, nonneg y -> 0 < Rsum y -> (entropy y = 0 <-> pure y).
Proof.
  intros y Hn Hs. rewrite pure_freqs by auto. unfold entropy. split.
  - intros H x Hx.
    assert (Hx0 : - xlogx (freq y x) = 0).
    { apply (Rsum_zero (map (fun x => - xlogx (freq y x)) y)).
      - intros z Hz. apply in_map_iff in Hz. destruct Hz as [u [<- Hu]].
        pose proof (xlogx_range _ (freq_range y u Hn Hs Hu)). lra.
      - rewrite (Rsum_ext _ (fun x => (-1) * xlogx (freq y x))) by (intros; ring).
        rewrite (Rsum_scal (fun x => xlogx (freq y x))). lra.
      - apply in_map_iff. exists x; auto. }
    apply xlogx_zero; [apply freq_range; auto|lra].
  - intros H. rewrite (Rsum_ext _ (fun x => 0 * x)).
    + rewrite (Rsum_scal (fun x => x)). lra.
    + intros x Hx. unfold xlogx. destruct (H x Hx) as [->| ->].
      * destruct (Rlt_dec 0 0); lra.
      * rewrite ln_1. destruct (Rlt_dec 0 1); lra.
Qed.

(** ** Mean squared error *)

Lemma variance_expand : forall l m,
  Rsum (map (fun p => fst p * sq (snd p - m)) l) = wysq l - 2 * m * wysum l + m * m * wtot l.
Proof.
  intros l m. unfold wysq, wysum, wtot.
  rewrite (Rsum_ext _ (fun p => (fst p * snd p * snd p + (- 2 * m) * (fst p * snd p)) + (m * m) * fst p))
    by (intros; unfold sq; ring).
  rewrite (Rsum_plus (fun p => fst p * snd p * snd p + (- 2 * m) * (fst p * snd p))
                     (fun p => (m * m) * fst p)).
  rewrite (Rsum_plus (fun p => fst p * snd p * snd p) (fun p => (- 2 * m) * (fst p * snd p))).
  rewrite (Rsum_scal (fun p => fst p * snd p)), (Rsum_scal fst). ring.
Qed.

Lemma mse_node_R : forall l, wtot l <> 0 ->
  @mse_node R_arith (wtot l) (wysum l) (wysq l) = Ok (variance l).
Proof.
  intros l H. unfold mse_node. rewrite !divM_R by auto. cbn [bind]. f_equal.
  unfold variance. rewrite variance_expand. unfold wmean. simpl. field. auto.
Qed.

Lemma variance_nonneg : forall l, (forall p, In p l -> 0 <= fst p) -> 0 < wtot l -> 0 <= variance l.
Proof.
  intros l Hn Hw. unfold variance. apply Rmult_le_pos; [|left; apply Rinv_0_lt_compat; auto].
  apply Rsum_nonneg. intros z Hz. apply in_map_iff in Hz. destruct Hz as [p [<- Hp]].
  apply Rmult_le_pos; auto. apply Rle_0_sqr.
Qed.

Lemma variance_zero_iff : forall l, (forall p, In p l -> 0 <= fst p) -> 0 < wtot l ->
  (variance l = 0 <-> forall p q, In p l -> In q l -> 0 < fst p -> 0 < fst q -> snd p = snd q).
Proof.
  intros l Hn Hw. split.
  - intros H p q Hp Hq Hp0 Hq0.
    assert (Hs : Rsum (map (fun p => fst p * sq (snd p - wmean l)) l) = 0).
    { unfold variance in H.
      replace (Rsum (map (fun p => fst p * sq (snd p - wmean l)) l))
        with (Rsum (map (fun p => fst p * sq (snd p - wmean l)) l) / wtot l * wtot l) by (field; lra).
      rewrite H. lra. }
    assert (Hz : forall p, In p l -> 0 < fst p -> snd p = wmean l).
    { intros r Hr Hr0.
      assert (Hr1 : fst r * sq (snd r - wmean l) = 0).
      { eapply Rsum_zero; [|exact Hs|].
        - intros z Hz. apply in_map_iff in Hz. destruct Hz as [u [<- Hu]].
          apply Rmult_le_pos; auto. apply Rle_0_sqr.
        - apply in_map_iff. exists r; auto. }
      apply Rmult_integral in Hr1. destruct Hr1; [lra|]. unfold sq in H0.
      apply Rmult_integral in H0. destruct H0; lra. }
    rewrite (Hz p), (Hz q); auto.
  - intros H.
    assert (Hex : exists p, In p l /\ 0 < fst p).
    { clear H. unfold wtot in Hw. induction l as [|p l IH]; simpl in Hw; [lra|].
      destruct (Hn p (or_introl eq_refl)) as [Hp|Hp]; [exists p; simpl; auto|].
      destruct IH as [q [Hq Hq0]]; [intros; apply Hn; simpl; auto | lra |].
      exists q; simpl; auto. }
    destruct Hex as [p0 [Hp0 Hp0']].
    assert (Hm : wmean l = snd p0).
    { unfold wmean, wysum.
      rewrite (Rsum_ext _ (fun p => snd p0 * fst p)).
      - rewrite Rsum_scal. fold (wtot l). field. lra.
      - intros p Hp. destruct (Hn p Hp) as [Hpos|Hz].
        + rewrite (H p p0); auto. ring.
        + rewrite <- Hz. ring. }
    unfold variance. rewrite Hm.
    rewrite (Rsum_ext _ (fun p => 0 * fst p)).
    + rewrite Rsum_scal. field. lra.
    + intros p Hp. destruct (Hn p Hp) as [Hpos|Hz].
      * rewrite (H p p0); auto. unfold sq. ring.
      * rewrite <- Hz. ring.
Qed.

(** ** Concavity: a split never increases the weighted impurity *)

Lemma gini_term : forall a b s t, 0 < s -> 0 < t ->
  (a + b) * (a + b) / (s + t) <= a * a / s + b * b / t.
Proof.
  intros a b s t Hs Ht.
  assert (H : a * a / s + b * b / t - (a + b) * (a + b) / (s + t) =
              (a * t - b * s) * (a * t - b * s) / (s * t * (s + t))) by (field; lra).
  assert (0 <= (a * t - b * s) * (a * t - b * s) / (s * t * (s + t))).
  { apply Rmult_le_pos; [apply Rle_0_sqr|]. left. apply Rinv_0_lt_compat.
    apply Rmult_lt_0_compat; [apply Rmult_lt_0_compat|]; lra. }
  lra.
Qed.

Lemma Rsum_vadd : forall y z, length y = length z -> Rsum (vadd y z) = Rsum y + Rsum z.
Proof.
  induction y; intros z H; destruct z; simpl in *; try discriminate; [lra|].
  rewrite IHy by lia. lra.
Qed.

Lemma gini_concave : forall y z, length y = length z -> 0 < Rsum y -> 0 < Rsum z ->
  Rsum y * gini y + Rsum z * gini z <= Rsum (vadd y z) * gini (vadd y z).
Proof.
  intros y z Hl Hy Hz. rewrite <- !gini_formula; try (rewrite ?Rsum_vadd by auto; lra).
  rewrite Rsum_vadd by auto. set (s := Rsum y) in *. set (t := Rsum z) in *.
  assert (H : Rsum (map sq (vadd y z)) / (s + t) <= Rsum (map sq y) / s + Rsum (map sq z) / t).
  { clearbody s t. revert z Hl. induction y as [|a y IH]; intros z Hl; destruct z as [|b z];
      simpl in *; try discriminate; [unfold Rdiv; lra|].
    specialize (IH z ltac:(lia)). pose proof (gini_term a b s t Hy Hz).
    unfold sq at 1 3 5. unfold Rdiv in *. lra. }
  replace (s * (1 - Rsum (map sq y) / (s * s))) with (s - Rsum (map sq y) / s) by (field; lra).
  replace (t * (1 - Rsum (map sq z) / (t * t))) with (t - Rsum (map sq z) / t) by (field; lra).
  replace ((s + t) * (1 - Rsum (map sq (vadd y z)) / ((s + t) * (s + t))))
    with (s + t - Rsum (map sq (vadd y z)) / (s + t)) by (field; lra).
  lra.
Qed.

(** [a * ln (a / s)], 0 when [a = 0]. *)
Lemma xlogx_scaled : forall a s, 0 <= a -> 0 < s ->
  s * xlogx (a / s) = if Rlt_dec 0 a then a * ln (a / s) else 0.
Proof.
  intros a s Ha Hs. unfold xlogx. destruct (Rlt_dec 0 a) as [H|H].
  - destruct (Rlt_dec 0 (a / s)) as [H'|H'].
    + field. lra.
    + exfalso. apply H'. apply Rdiv_lt_0_compat; auto.
  - destruct (Rlt_dec 0 (a / s)) as [H'|H']; [|ring].
    assert (a = 0) by lra. subst a. unfold Rdiv in H'. lra.
Qed.

Lemma ln_ge_1_minus_inv : forall z, 0 < z -> 1 - / z <= ln z.
Proof.
  intros z Hz. pose proof (ln_le_minus1 (/ z) (Rinv_0_lt_compat z Hz)).
  rewrite ln_Rinv in H by auto. lra.
Qed.

Lemma ln_quotient : forall x y, 0 < x -> 0 < y -> ln (x / y) = ln x - ln y.
Proof.
  intros x y Hx Hy. unfold Rdiv. rewrite ln_mult, ln_Rinv; auto. apply Rinv_0_lt_compat; auto.
Qed.

Lemma entropy_half_term : forall a c s u, 0 <= a -> a <= c -> 0 < s -> 0 < u ->
  (if Rlt_dec 0 a then a * ln (c / u) else 0) + (a - s * c / u) <= s * xlogx (a / s).
Proof.
  intros a c s u Ha Hac Hs Hu. rewrite xlogx_scaled by auto.
  destruct (Rlt_dec 0 a) as [H|H].
  - assert (Hz : 0 < (a / s) / (c / u)).
    { apply Rdiv_lt_0_compat; apply Rdiv_lt_0_compat; lra. }
    pose proof (ln_ge_1_minus_inv _ Hz) as Hln.
    rewrite ln_quotient in Hln; try (apply Rdiv_lt_0_compat; lra).
    assert (He : / ((a / s) / (c / u)) = s * c / (a * u)) by (field; lra).
    rewrite He in Hln.
    apply (Rmult_le_compat_l a) in Hln; [|lra].
    replace (a * (1 - s * c / (a * u))) with (a - s * c / u) in Hln by (field; lra).
    lra.
  - assert (a = 0) by lra. subst a. assert (0 <= s * c / u).
    { apply Rmult_le_pos; [apply Rmult_le_pos; lra|]. left; apply Rinv_0_lt_compat; auto. }
    lra.
Qed.

Lemma entropy_term_ineq : forall a b s t, 0 <= a -> 0 <= b -> 0 < s -> 0 < t ->
  (s + t) * xlogx ((a + b) / (s + t)) <= s * xlogx (a / s) + t * xlogx (b / t).
Proof.
  intros a b s t Ha Hb Hs Ht.
  pose proof (entropy_half_term a (a + b) s (s + t) Ha ltac:(lra) Hs ltac:(lra)).
  pose proof (entropy_half_term b (a + b) t (s + t) Hb ltac:(lra) Ht ltac:(lra)).
  rewrite (xlogx_scaled (a + b)) by lra.
  assert (He : (a - s * (a + b) / (s + t)) + (b - t * (a + b) / (s + t)) = 0) by (field; lra).
  destruct (Rlt_dec 0 (a + b)); destruct (Rlt_dec 0 a); destruct (Rlt_dec 0 b); try lra.
  - assert (b = 0) by lra. subst b. rewrite Rplus_0_r in *. lra.
  - assert (a = 0) by lra. subst a. rewrite Rplus_0_l in *. lra.
Qed.

Lemma entropy_concave : forall y z, length y = length z -> nonneg y -> nonneg z ->
  0 < Rsum y -> 0 < Rsum z ->
  Rsum y * entropy y + Rsum z * entropy z <= Rsum (vadd y z) * entropy (vadd y z).
Proof.
  intros y z Hl Hny Hnz Hy Hz. unfold entropy, freq.
  rewrite Rsum_vadd by auto. set (s := Rsum y) in *. set (t := Rsum z) in *.
  assert (H : (s + t) * Rsum (map (fun x => xlogx (x / (s + t))) (vadd y z)) <=
              s * Rsum (map (fun x => xlogx (x / s)) y) + t * Rsum (map (fun x => xlogx (x / t)) z)).
  { clearbody s t. revert z Hl Hnz. induction y as [|a y IH]; intros z Hl Hnz; destruct z as [|b z];
      simpl in *; try discriminate; [lra|].
    specialize (IH (fun x Hx => Hny x (or_intror Hx)) z ltac:(lia) (fun x Hx => Hnz x (or_intror Hx))).
    pose proof (entropy_term_ineq a b s t (Hny a (or_introl eq_refl)) (Hnz b (or_introl eq_refl)) Hy Hz).
    lra. }
  lra.
Qed.

Lemma wtot_app : forall l m, wtot (l ++ m) = wtot l + wtot m.
Proof. intros; unfold wtot; rewrite map_app, Rsum_app; auto. Qed.
Lemma wysum_app : forall l m, wysum (l ++ m) = wysum l + wysum m.
Proof. intros; unfold wysum; rewrite map_app, Rsum_app; auto. Qed.
Lemma wysq_app : forall l m, wysq (l ++ m) = wysq l + wysq m.
Proof. intros; unfold wysq; rewrite map_app, Rsum_app; auto. Qed.

Lemma variance_formula : forall l, wtot l <> 0 ->
  wtot l * variance l = wysq l - wysum l * wysum l / wtot l.
Proof.
  intros l H. unfold variance. rewrite variance_expand. unfold wmean. field. auto.
Qed.

Lemma variance_concave : forall l m, 0 < wtot l -> 0 < wtot m ->
  wtot l * variance l + wtot m * variance m <= wtot (l ++ m) * variance (l ++ m).
Proof.
  intros l m Hl Hm. rewrite !variance_formula; try (rewrite ?wtot_app; lra).
  rewrite wtot_app, wysum_app, wysq_app.
  pose proof (gini_term (wysum l) (wysum m) (wtot l) (wtot m) Hl Hm). lra.
Qed.

(** ** Gain *)

Lemma information_gain_R : forall w wp wl wr ip il ir : R, 0 < w -> 0 < wp ->
  @information_gain R_arith w wp wl wr ip il ir =
  Ok ((wp * ip + @information_gain_proxy R_arith il ir wl wr) / w).
Proof.
  intros w wp wl wr ip il ir Hw Hwp. unfold information_gain.
  rewrite !divM_R by lra. cbn [bind]. f_equal. unfold information_gain_proxy. simpl. field. lra.
Qed.
