(** * The impurities of the candidates, for both tasks, in exact arithmetic *)

Require Import List Arith Lia NArith Permutation Sorted Reals Lra.
Require Import Verif.Base Verif.Num Verif.M_Bitarray Verif.P_Bitarray Verif.M_Utils Verif.M_Impurity
  Verif.M_Context Verif.M_Node Verif.M_Split Verif.P_Utils Verif.P_List Verif.P_Task Verif.P_Node
  Verif.P_Bins Verif.P_Scan Verif.P_Split Verif.P_Find Verif.S_Impurity Verif.P_Impurity
  Verif.S_Fit Verif.S_Node Verif.S_Split Verif.P_SplitR.
Import ListNotations.
Local Open Scope res_scope.

Lemma Rsum_filter_if : forall {X} (f : X -> R) (p : X -> bool) l,
  Rsum (map f (filter p l)) = Rsum (map (fun x => if p x then f x else 0%R) l).
Proof. induction l; simpl; auto. destruct (p a); simpl; lra. Qed.

Lemma Rsum_pos : forall {X} (f : X -> R) l, l <> [] -> (forall x, In x l -> (0 < f x)%R) -> (0 < Rsum (map f l))%R.
Proof.
  intros X f [|x l] H Hp; [congruence|]. simpl.
  assert (0 <= Rsum (map f l))%R.
  { apply Rsum_nonneg. intros z Hz. apply in_map_iff in Hz. destruct Hz as [u [<- Hu]]. left. apply Hp. simpl; auto. }
  specialize (Hp x ltac:(simpl; auto)). lra.
Qed.

Lemma zipM_map : forall {X Y} (f : X -> X -> X) (g h : Y -> X) l,
  zipM f (map g l) (map h l) = Ok (map (fun x => f (g x) (h x)) l).
Proof. induction l; simpl; auto. rewrite IHl. reflexivity. Qed.

Lemma mem_bin_snoc : forall p b x, mem_bin (p ++ [b]) x = (mem_bin p x || (x =? b))%bool.
Proof. intros. rewrite mem_bin_app. f_equal. unfold mem_bin. simpl. apply Bool.orb_false_r. Qed.

Lemma filter_triples : forall b k (B L : nat -> nat) (W : nat -> R) l,
  Rsum (map snd (filter (fun x => (fst (fst x) =? b) && (snd (fst x) =? k))%bool (map (fun i => (B i, L i, W i)) l))) =
  Rsum (map W (filter (fun i => L i =? k) (filter (fun i => B i =? b) l))).
Proof.
  induction l as [|i l IH]; [reflexivity|]. cbn [map filter fst snd].
  destruct (B i =? b); cbn [andb filter]; [|exact IH].
  destruct (L i =? k); cbn [map Rsum snd]; rewrite IH; reflexivity.
Qed.

(** ** Sums over sides, when a bin moves from the right to the left *)
Section Sides.
Context {E : env R_arith} {tk : task R_arith E} (tc : tctx R_arith (tk_Y tk)) (train : list nat) (j : nat).

Lemma side_add : forall (f : nat -> R) p b, ~ In b p ->
  (Rsum (map f (Lq tc train j p)) + Rsum (map f (inbin tc j b train)) = Rsum (map f (Lq tc train j (p ++ [b]))))%R.
Proof.
  intros f p b Hb. unfold Lq, inbin. rewrite !Rsum_filter_if, <- Rsum_plus. apply Rsum_ext.
  intros i _. rewrite mem_bin_snoc. destruct (mem_bin p (bin tc j i)) eqn:E1; destruct (bin tc j i =? b) eqn:E2; simpl; try lra.
  apply mem_bin_in in E1. apply Nat.eqb_eq in E2. congruence.
Qed.

Lemma side_sub : forall (f : nat -> R) p b, ~ In b p ->
  (Rsum (map f (Rq tc train j p)) - Rsum (map f (inbin tc j b train)) = Rsum (map f (Rq tc train j (p ++ [b]))))%R.
Proof.
  intros f p b Hb. pose proof (side_add f p b Hb) as H.
  pose proof (Rsum_filter_split f (fun i => mem_bin p (bin tc j i)) train).
  pose proof (Rsum_filter_split f (fun i => mem_bin (p ++ [b]) (bin tc j i)) train).
  unfold Lq, Rq in *. lra.
Qed.

Lemma sides_empty : Lq tc train j [] = [] /\ Rq tc train j [] = train.
Proof.
  unfold Lq, Rq, mem_bin. simpl. split.
  - induction train; simpl; auto.
  - apply filter_all. auto.
Qed.

Lemma Lq_incl : forall q i, In i (Lq tc train j q) -> In i train.
Proof. intros q i H. apply filter_In in H. tauto. Qed.
Lemma Rq_incl : forall q i, In i (Rq tc train j q) -> In i train.
Proof. intros q i H. apply filter_In in H. tauto. Qed.

(** Both sides of a candidate hold a sample. *)
Lemma sides_nonempty : forall is_cat o p b post, order_ok tc train j is_cat o -> o = p ++ b :: post -> post <> [] ->
  Lq tc train j (p ++ [b]) <> [] /\ Rq tc train j (p ++ [b]) <> [].
Proof.
  intros is_cat o p b post Ho EO Hp. pose proof (order_nodup tc train j is_cat o Ho) as N. rewrite EO in N.
  assert (Hsamp : forall x, In x o -> exists i, In i train /\ bin tc j i = x).
  { intros x Hx. destruct Ho as [HP _]. eapply Permutation_in in Hx; [|exact HP].
    apply (proj1 (distinct_in _ _)) in Hx. apply in_map_iff in Hx. destruct Hx as [i' [H1 H2]]. eauto. }
  split; intros H.
  - destruct (Hsamp b) as [i [H1 H2]]; [rewrite EO; apply in_elt|].
    apply (proj1 (filter_nil_iff _ _)) with (x := i) in H; auto. rewrite H2, mem_bin_snoc, Nat.eqb_refl, Bool.orb_true_r in H. discriminate.
  - destruct post as [|x post]; [congruence|].
    destruct (Hsamp x) as [i [H1 H2]]; [rewrite EO; apply in_app_iff; simpl; auto|].
    apply (proj1 (filter_nil_iff _ _)) with (x := i) in H; auto. rewrite H2 in H. apply Bool.negb_false_iff in H.
    apply mem_bin_in in H. replace (p ++ b :: x :: post) with ((p ++ [b]) ++ x :: post) in N by (rewrite <- app_assoc; auto).
    apply NoDup_remove_2 in N. apply N. apply in_app_iff. auto.
Qed.
End Sides.

(** ** Classification *)
Section ClfR.
Context {E : env R_arith} (K : nat) (d : R) (crit : criterion) (st : cat_strategy).
Notation tk := (clf_task E K d crit st).
Notation ts := (clf_shape E K d crit st).
Context (tc : tctx R_arith (tk_Y tk)) (HD : data_ok ts tc).
Context (train : list nat) (Ht : in_range tc train).
Context (Hw : forall i, In i train -> (0 < wt tc i)%R).

Notation Wt := (wt tc : nat -> R).
Notation Lab := (lab ts tc : nat -> nat).

Definition cw (l : list nat) : list R := map (fun k => Rsum (map Wt (filter (fun i => Lab i =? k) l))) (seq 0 K).
Definition clf_imp (l : list nat) : R := match crit with Gini => gini (cw l) | Entropy => entropy (cw l) end.

Lemma cw_length : forall l, length (cw l) = K.
Proof. intros. unfold cw. rewrite map_length, seq_length. auto. Qed.

Lemma cw_sum : forall l, (forall i, In i l -> In i train) -> Rsum (cw l) = Rsum (map Wt l).
Proof.
  intros l Hl. unfold cw. rewrite (Rsum_bins Wt Lab l (seq 0 K) (seq_NoDup K 0)).
  f_equal. f_equal. apply filter_all. intros i Hi. apply mem_bin_in. apply in_seq.
  destruct (get_lab ts tc HD i (Ht i (Hl i Hi))) as [_ H]. simpl in H. change (lab ts tc i < K) in H. lia.
Qed.

Lemma clf_row : forall j b, b < tc_max_n_bins tc ->
  get (hist ts tc train j : list (list R)) b =
  Ok (map (fun k => Rsum (map Wt (filter (fun i => Lab i =? k) (inbin tc j b train)))) (seq 0 K)).
Proof.
  intros j b Hb. unfold hist. cbn [ts_hist clf_shape]. unfold clf_hist.
  rewrite get_map_seq by auto. f_equal. apply map_ext. intro k.
  etransitivity; [apply asum_R|].
  exact (filter_triples b k (bin tc j) Lab Wt train).
Qed.

Lemma cw_inbin_comm : forall j b k,
  Rsum (map Wt (filter (fun i => Lab i =? k) (inbin tc j b train))) =
  Rsum (map (fun i => if Lab i =? k then Wt i else 0%R) (inbin tc j b train)).
Proof. intros. apply Rsum_filter_if. Qed.

Lemma sl_R : forall j q, NoDup q -> (forall b, In b q -> b < tc_max_n_bins tc) ->
  sl ts tc train j q = cw (Lq tc train j q).
Proof.
  intros j q Hn Hq. destruct (sl_ok ts tc train j q Hq) as [H _].
  assert (G : foldM (fun s b => tk_stat_add tk s (hist ts tc train j) b) q (tk_stat0 tk) = Ok (cw (Lq tc train j q))).
  { assert (E0 : tk_stat0 tk = cw (Lq tc train j [])).
    { rewrite (proj1 (sides_empty tc train j)). cbn [tk_stat0 clf_task]. apply map_const_seq. }
    rewrite E0. apply (foldM_prefix _ (fun q => cw (Lq tc train j q))). intros pre b post Eq.
    cbn [tk_stat_add clf_task]. change (get (hist ts tc train j) b) with (get (hist ts tc train j : list (list R)) b).
    rewrite clf_row by (apply Hq; rewrite Eq; apply in_elt). cbn [bind].
    etransitivity; [apply (zipM_map Rplus)|]. f_equal. apply map_ext. intro k.
    rewrite !Rsum_filter_if. apply (side_add tc train j (fun i => if Lab i =? k then Wt i else 0%R) pre b).
    rewrite Eq in Hn. apply NoDup_remove_2 in Hn. intro HI. apply Hn. apply in_app_iff. auto. }
  congruence.
Qed.

Lemma sr_R : forall j q, j < fb_n_features (tc_fb tc) -> NoDup q -> (forall b, In b q -> b < tc_max_n_bins tc) ->
  sr ts tc train j q = cw (Rq tc train j q).
Proof.
  intros j q Hj Hn Hq. destruct (sr_ok ts tc train j q Hq) as [H _].
  assert (G : foldM (fun s b => tk_stat_sub tk s (hist ts tc train j) b) q (tk_stat_total tk (hist ts tc train j)) = Ok (cw (Rq tc train j q))).
  { assert (E0 : tk_stat_total tk (hist ts tc train j) = cw (Rq tc train j [])).
    { rewrite (proj2 (sides_empty tc train j)). cbn [tk_stat_total clf_task]. unfold cw.
      apply map_ext_in. intros k Hk. apply in_seq in Hk. etransitivity; [apply asum_R|].
      assert (Hr : map (fun row : list R => nth k row 0%R) (hist ts tc train j : list (list R)) =
                   map (fun b => Rsum (map (fun i => if Lab i =? k then Wt i else 0%R) (inbin tc j b train))) (seq 0 (tc_max_n_bins tc))).
      { apply get_ext.
        - rewrite !map_length. unfold hist. cbn [ts_hist clf_shape]. unfold clf_hist. rewrite map_length. auto.
        - intros b Hb. rewrite map_length in Hb. unfold hist in Hb. cbn [ts_hist clf_shape] in Hb. unfold clf_hist in Hb.
          rewrite map_length, seq_length in Hb. rewrite get_map_seq by auto.
          pose proof (clf_row j b Hb) as Hg. apply get_ok in Hg. apply get_ok. rewrite nth_error_map, Hg. cbn [option_map].
          f_equal. etransitivity; [|apply cw_inbin_comm].
          apply nth_error_nth.
          apply (nth_error_map_seq (fun k => Rsum (map Wt (filter (fun i => Lab i =? k) (inbin tc j b train))))). lia. }
      etransitivity; [apply f_equal; exact Hr|]. unfold inbin.
      rewrite (Rsum_bins (fun i => if Lab i =? k then Wt i else 0%R) (bin tc j) train (seq 0 (tc_max_n_bins tc)) (seq_NoDup _ 0)).
      rewrite filter_all; [symmetry; apply Rsum_filter_if|].
      intros i Hi. apply mem_bin_in. apply in_seq. pose proof (bin_lt ts tc HD j i Hj (Ht i Hi)). lia. }
    rewrite E0. apply (foldM_prefix _ (fun q => cw (Rq tc train j q))). intros pre b post Eq.
    cbn [tk_stat_sub clf_task]. change (get (hist ts tc train j) b) with (get (hist ts tc train j : list (list R)) b).
    rewrite clf_row by (apply Hq; rewrite Eq; apply in_elt). cbn [bind].
    etransitivity; [apply (zipM_map Rminus)|]. f_equal. apply map_ext. intro k.
    rewrite !Rsum_filter_if. apply (side_sub tc train j (fun i => if Lab i =? k then Wt i else 0%R) pre b).
    rewrite Eq in Hn. apply NoDup_remove_2 in Hn. intro HI. apply Hn. apply in_app_iff. auto. }
  congruence.
Qed.

Lemma clf_imp_of : forall j o q, j < fb_n_features (tc_fb tc) -> order_ok tc train j (cat tc j) o ->
  (exists p b post, o = p ++ b :: post /\ q = p ++ [b] /\ post <> []) ->
  imp_of ts tc train (j, o, q) = Ok (clf_imp (Lq tc train j q), clf_imp (Rq tc train j q)).
Proof.
  intros j o q Hj Ho (p & b & post & EO & Eq & Hp).
  pose proof (order_nodup tc train j (cat tc j) o Ho) as N.
  assert (Hnq : NoDup q).
  { rewrite EO in N. rewrite Eq. replace (p ++ b :: post) with ((p ++ [b]) ++ post) in N by (rewrite <- app_assoc; auto).
    eapply nodup_app_l; eauto. }
  assert (Hq : forall x, In x q -> x < tc_max_n_bins tc).
  { intros x Hx. apply (order_lt ts tc HD train Ht j Hj (cat tc j) o Ho). rewrite EO. rewrite Eq in Hx.
    apply in_app_iff in Hx. apply in_app_iff. simpl in *. tauto. }
  destruct (sides_nonempty tc train j (cat tc j) o p b post Ho EO Hp) as [HL HR]. rewrite <- Eq in HL, HR.
  unfold imp_of, wl_of, wr_of. rewrite wl_R, wr_R, sl_R, sr_R by auto.
  assert (PL : (0 < Rsum (map Wt (Lq tc train j q)))%R) by (apply Rsum_pos; auto; intros i Hi; apply Hw; eapply Lq_incl; eauto).
  assert (PR : (0 < Rsum (map Wt (Rq tc train j q)))%R) by (apply Rsum_pos; auto; intros i Hi; apply Hw; eapply Rq_incl; eauto).
  rewrite <- (cw_sum (Lq tc train j q)) in * by (intros; eapply Lq_incl; eauto).
  rewrite <- (cw_sum (Rq tc train j q)) in * by (intros; eapply Rq_incl; eauto).
  cbn [tk_impurity clf_task]. unfold clf_imp.
  assert (Hlen : length (cw (Rq tc train j q)) = length (cw (Lq tc train j q))) by (rewrite !cw_length; auto).
  pose proof (gini_childs_R (cw (Lq tc train j q)) (cw (Rq tc train j q)) ltac:(lra) ltac:(lra) Hlen) as G1.
  pose proof (entropy_childs_R (cw (Lq tc train j q)) (cw (Rq tc train j q)) ltac:(lra) ltac:(lra) Hlen) as G2.
  rewrite cw_length in G1, G2.
  assert (Hc : forall c, match c with
     | Gini => @gini_childs R_arith K (Rsum (cw (Lq tc train j q))) (Rsum (cw (Rq tc train j q))) (cw (Lq tc train j q)) (cw (Rq tc train j q))
     | Entropy => @entropy_childs R_arith K (Rsum (cw (Lq tc train j q))) (Rsum (cw (Rq tc train j q))) (cw (Lq tc train j q)) (cw (Rq tc train j q))
     end = Ok (match c with Gini => gini (cw (Lq tc train j q)) | Entropy => entropy (cw (Lq tc train j q)) end,
               match c with Gini => gini (cw (Rq tc train j q)) | Entropy => entropy (cw (Rq tc train j q)) end))
    by (intros []; assumption).
  exact (Hc crit).
Qed.

End ClfR.

(** ** Regression *)
Section RegR.
Context {E : env R_arith}.
Notation tk := (reg_task E).
Notation ts := (reg_shape E).
Context (tc : tctx R_arith (tk_Y tk)) (HD : data_ok ts tc).
Context (train : list nat) (Ht : in_range tc train).
Context (Hw : forall i, In i train -> (0 < wt tc i)%R).

Notation Wt := (wt tc : nat -> R).
Notation Lab := (lab ts tc : nat -> R).

Definition rpairs (l : list nat) : list (R * R) := map (fun i => (Wt i, Lab i)) l.
Definition rs (l : list nat) : R * R := (Rsum (map (fun i => (Wt i * Lab i)%R) l), Rsum (map (fun i => (Wt i * Lab i * Lab i)%R) l)).
Definition reg_imp (l : list nat) : R := variance (rpairs l).

Lemma rs_pairs : forall l, rs l = (wysum (rpairs l), wysq (rpairs l)) /\ wtot (rpairs l) = Rsum (map Wt l).
Proof.
  intros l. unfold rs, wysum, wysq, wtot, rpairs. rewrite !map_map. auto.
Qed.

Lemma reg_row : forall j b, b < tc_max_n_bins tc ->
  get (fst (hist ts tc train j : list R * list R)) b = Ok (fst (rs (inbin tc j b train))) /\
  get (snd (hist ts tc train j : list R * list R)) b = Ok (snd (rs (inbin tc j b train))).
Proof.
  intros j b Hb. unfold hist. cbn [ts_hist reg_shape]. unfold reg_hist. cbn [fst snd].
  rewrite !get_map_seq by auto.
  assert (G : forall (B : nat -> nat) (L W : nat -> R) (g : nat * R * R -> R) l,
    Rsum (map g (filter (fun x => fst (fst x) =? b) (map (fun i => (B i, L i, W i)) l))) =
    Rsum (map (fun i => g (B i, L i, W i)) (filter (fun i => B i =? b) l))).
  { induction l as [|i l IH]; [reflexivity|]. cbn [map filter fst]. destruct (B i =? b); cbn [map Rsum]; rewrite IH; auto. }
  split; f_equal; (etransitivity; [apply asum_R|]).
  - exact (G (bin tc j) Lab Wt (fun x => (snd x * snd (fst x))%R) train).
  - exact (G (bin tc j) Lab Wt (fun x => (snd x * snd (fst x) * snd (fst x))%R) train).
Qed.

Lemma reg_sl_R : forall j q, NoDup q -> (forall b, In b q -> b < tc_max_n_bins tc) ->
  sl ts tc train j q = rs (Lq tc train j q).
Proof.
  intros j q Hn Hq. destruct (sl_ok ts tc train j q Hq) as [H _].
  assert (G : foldM (fun s b => tk_stat_add tk s (hist ts tc train j) b) q (tk_stat0 tk) = Ok (rs (Lq tc train j q))).
  { assert (E0 : tk_stat0 tk = rs (Lq tc train j [])).
    { rewrite (proj1 (sides_empty tc train j)). reflexivity. }
    rewrite E0. apply (foldM_prefix _ (fun q => rs (Lq tc train j q))). intros pre b post Eq.
    destruct (reg_row j b) as [H1 H2]; [apply Hq; rewrite Eq; apply in_elt|].
    cbn [tk_stat_add reg_task]. etransitivity; [exact (f_equal (fun r => bind r _) H1)|]. cbn [bind].
    etransitivity; [exact (f_equal (fun r => bind r _) H2)|]. cbn [bind].
    assert (Hb : ~ In b pre) by (rewrite Eq in Hn; apply NoDup_remove_2 in Hn; intro HI; apply Hn; apply in_app_iff; auto).
    f_equal. unfold rs. cbn [fst snd]. f_equal.
    - apply (side_add tc train j (fun i => (Wt i * Lab i)%R) pre b Hb).
    - apply (side_add tc train j (fun i => (Wt i * Lab i * Lab i)%R) pre b Hb). }
  congruence.
Qed.

Lemma reg_sr_R : forall j q, j < fb_n_features (tc_fb tc) -> NoDup q -> (forall b, In b q -> b < tc_max_n_bins tc) ->
  sr ts tc train j q = rs (Rq tc train j q).
Proof.
  intros j q Hj Hn Hq. destruct (sr_ok ts tc train j q Hq) as [H _].
  assert (G : foldM (fun s b => tk_stat_sub tk s (hist ts tc train j) b) q (tk_stat_total tk (hist ts tc train j)) = Ok (rs (Rq tc train j q))).
  { assert (E0 : tk_stat_total tk (hist ts tc train j) = rs (Rq tc train j [])).
    { rewrite (proj2 (sides_empty tc train j)). cbn [tk_stat_total reg_task].
      assert (Hr : forall (g : nat -> R) (l : list R), length l = tc_max_n_bins tc ->
          (forall b, b < tc_max_n_bins tc -> get l b = Ok (Rsum (map g (inbin tc j b train)))) ->
          Rsum l = Rsum (map g train)).
      { intros g l Hl Hg.
        assert (El : l = map (fun b => Rsum (map g (inbin tc j b train))) (seq 0 (tc_max_n_bins tc))).
        { apply get_ext; [rewrite map_length, seq_length; auto|]. intros b Hb. rewrite Hl in Hb.
          rewrite get_map_seq by auto. auto. }
        rewrite El. unfold inbin. rewrite (Rsum_bins g (bin tc j) train (seq 0 (tc_max_n_bins tc)) (seq_NoDup _ 0)).
        rewrite filter_all; auto. intros i Hi. apply mem_bin_in. apply in_seq.
        pose proof (bin_lt ts tc HD j i Hj (Ht i Hi)). lia. }
      unfold rs. apply f_equal2; (etransitivity; [apply asum_R|]).
      - apply (Hr (fun i => (Wt i * Lab i)%R)).
        + unfold hist. cbn [ts_hist reg_shape]. unfold reg_hist. cbn [fst]. rewrite map_length, seq_length. auto.
        + intros b Hb. apply (reg_row j b Hb).
      - apply (Hr (fun i => (Wt i * Lab i * Lab i)%R)).
        + unfold hist. cbn [ts_hist reg_shape]. unfold reg_hist. cbn [snd]. rewrite map_length, seq_length. auto.
        + intros b Hb. apply (reg_row j b Hb). }
    rewrite E0. apply (foldM_prefix _ (fun q => rs (Rq tc train j q))). intros pre b post Eq.
    destruct (reg_row j b) as [H1 H2]; [apply Hq; rewrite Eq; apply in_elt|].
    cbn [tk_stat_sub reg_task]. etransitivity; [exact (f_equal (fun r => bind r _) H1)|]. cbn [bind].
    etransitivity; [exact (f_equal (fun r => bind r _) H2)|]. cbn [bind].
    assert (Hb : ~ In b pre) by (rewrite Eq in Hn; apply NoDup_remove_2 in Hn; intro HI; apply Hn; apply in_app_iff; auto).
    f_equal. unfold rs. cbn [fst snd]. f_equal.
    - apply (side_sub tc train j (fun i => (Wt i * Lab i)%R) pre b Hb).
    - apply (side_sub tc train j (fun i => (Wt i * Lab i * Lab i)%R) pre b Hb). }
  congruence.
Qed.

Lemma reg_imp_of : forall j o q, j < fb_n_features (tc_fb tc) -> order_ok tc train j (cat tc j) o ->
  (exists p b post, o = p ++ b :: post /\ q = p ++ [b] /\ post <> []) ->
  imp_of ts tc train (j, o, q) = Ok (reg_imp (Lq tc train j q), reg_imp (Rq tc train j q)).
Proof.
  intros j o q Hj Ho (p & b & post & EO & Eq & Hp).
  pose proof (order_nodup tc train j (cat tc j) o Ho) as N.
  assert (Hnq : NoDup q).
  { rewrite EO in N. rewrite Eq. replace (p ++ b :: post) with ((p ++ [b]) ++ post) in N by (rewrite <- app_assoc; auto).
    eapply nodup_app_l; eauto. }
  assert (Hq : forall x, In x q -> x < tc_max_n_bins tc).
  { intros x Hx. apply (order_lt ts tc HD train Ht j Hj (cat tc j) o Ho). rewrite EO. rewrite Eq in Hx.
    apply in_app_iff in Hx. apply in_app_iff. simpl in *. tauto. }
  destruct (sides_nonempty tc train j (cat tc j) o p b post Ho EO Hp) as [HL HR]. rewrite <- Eq in HL, HR.
  unfold imp_of, wl_of, wr_of. rewrite wl_R, wr_R, reg_sl_R, reg_sr_R by auto.
  assert (PL : (0 < Rsum (map Wt (Lq tc train j q)))%R) by (apply Rsum_pos; auto; intros i Hi; apply Hw; eapply Lq_incl; eauto).
  assert (PR : (0 < Rsum (map Wt (Rq tc train j q)))%R) by (apply Rsum_pos; auto; intros i Hi; apply Hw; eapply Rq_incl; eauto).
  destruct (rs_pairs (Lq tc train j q)) as [E1 E2]. destruct (rs_pairs (Rq tc train j q)) as [E3 E4].
  rewrite E1, E3. rewrite <- E2, <- E4 in *. cbn [tk_impurity reg_task fst snd]. unfold mse_childs.
  assert (M1 := mse_node_R (rpairs (Lq tc train j q)) ltac:(lra)).
  assert (M2 := mse_node_R (rpairs (Rq tc train j q)) ltac:(lra)).
  etransitivity; [exact (f_equal (fun r => bind r _) M1)|]. cbn [bind].
  etransitivity; [exact (f_equal (fun r => bind r _) M2)|]. reflexivity.
Qed.

End RegR.
