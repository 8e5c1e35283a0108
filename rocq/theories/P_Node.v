(** * Proofs about node statistics *)

Require Import List Arith Lia NArith Permutation.
Require Import Verif.Base Verif.Num Verif.M_Bitarray Verif.P_Bitarray Verif.M_Utils
  Verif.M_Context Verif.M_Node Verif.P_Utils Verif.P_List Verif.P_Task.
Import ListNotations.
Local Open Scope res_scope.

(** ** Reading bins *)

(** The bin of sample [i] for feature [j]. *)
Definition binv (fb : fba) (j i : nat) : nat :=
  match get_value fb i j with Ok v => N.to_nat v | Err _ => 0 end.

Lemma get_value_wf : forall fb i j, fba_wf fb -> i < fb_n_samples fb -> j < fb_n_features fb ->
  exists v, get_value fb i j = Ok v.
Proof.
  intros fb i j W Hi Hj.
  destruct (wf_get_col fb j W Hj) as (mv & lo & hi & cb & Hmv & Hlt & Hlo & Hhi & Ehi & Hs & Hl & Hv & Hb & Hm).
  unfold get_value. rewrite Hv, Hlo, Hhi. cbn [bind]. rewrite Hs, Hb, Hm. cbn [bind].
  destruct (column_layout mv Hlt) as (Hbits & Hvals & H64 & _ & _).
  unfold get_value_from_column. destruct (column_n_values mv) as [|nv] eqn:En; [lia|]. cbv zeta.
  destruct (get_in cb (i / S nv)) as [b Hgb].
  { pose proof (n_words_enough (fb_n_samples fb) mv Hlt) as Hw. rewrite Hl. rewrite En in Hw.
    apply Nat.div_lt_upper_bound; lia. }
  rewrite Hgb. cbn [bind].
  assert (Hsh : (S nv - i mod S nv - 1) * column_n_bits mv < 64).
  { pose proof (Nat.mod_upper_bound i (S nv)).
    assert (Hle : (S nv - i mod S nv - 1) <= nv) by lia.
    apply (Nat.mul_le_mono_r _ _ (column_n_bits mv)) in Hle. nia. }
  apply Nat.ltb_lt in Hsh. unfold shl64, shr64. rewrite Hsh. cbn [bind]. rewrite ?Hsh. eauto.
Qed.

Lemma get_value_binv : forall fb i j, fba_wf fb -> i < fb_n_samples fb -> j < fb_n_features fb ->
  get_value fb i j = Ok (N.of_nat (binv fb j i)).
Proof.
  intros fb i j W Hi Hj. destruct (get_value_wf fb i j W Hi Hj) as [v Hv].
  unfold binv. rewrite Hv. rewrite N2Nat.id. auto.
Qed.

Lemma feature_column_ok : forall fb j, fba_wf fb -> j < fb_n_features fb ->
  exists col, feature_column fb j = Ok col /\
    forall i, i < fb_n_samples fb -> column_bin col i = Ok (binv fb j i).
Proof.
  intros fb j W Hj.
  destruct (wf_get_col fb j W Hj) as (mv & lo & hi & cb & Hmv & Hlt & Hlo & Hhi & Ehi & Hs & Hl & Hv & Hb & Hm).
  unfold feature_column. rewrite Hv, Hlo, Hhi. cbn [bind]. rewrite Hs, Hb, Hm. cbn [bind].
  eexists; split; [reflexivity|]. intros i Hi.
  pose proof (get_value_binv fb i j W Hi Hj) as Hg.
  unfold get_value in Hg. rewrite Hv, Hlo, Hhi in Hg. cbn [bind] in Hg.
  rewrite Hs, Hb, Hm in Hg. cbn [bind] in Hg. unfold column_bin. rewrite Hg. cbn [bind].
  rewrite Nat2N.id. auto.
Qed.

(** ** Valid data *)

Section Node.
Context {A : arith} {E : env A} {tk : task A E} (ts : task_shape tk).
Notation T := (num A).

Record data_ok (tc : tctx A (tk_Y tk)) : Prop := mkDataOk {
  do_wf : fba_wf (tc_fb tc);
  do_bins : forall i j, i < fb_n_samples (tc_fb tc) -> j < fb_n_features (tc_fb tc) ->
    binv (tc_fb tc) j i < tc_max_n_bins tc;
  do_y : length (tc_y tc) = fb_n_samples (tc_fb tc);
  do_w : length (tc_weights tc) = fb_n_samples (tc_fb tc);
  do_lab : forall y, In y (tc_y tc) -> ts_Yok ts y;
  do_cat : length (tc_is_categorical tc) = fb_n_features (tc_fb tc);
  do_tscat : In true (tc_is_categorical tc) -> ts_cat ts
}.

Section Data.
Context (tc : tctx A (tk_Y tk)).

Definition nsamp : nat := fb_n_samples (tc_fb tc).
Definition wt (i : nat) : T := nth i (tc_weights tc) a0.
Definition lab (i : nat) : tk_Y tk := nth i (tc_y tc) (ts_dy ts).
Definition bin (j i : nat) : nat := binv (tc_fb tc) j i.

(** Samples of a list that are in bin [b] of feature [j]. *)
Definition inbin (j b : nat) (l : list nat) : list nat := filter (fun i => bin j i =? b) l.

(** The statistics of feature [j] over training samples [train] and validation samples
    [valid]. *)
Definition row_spec (j : nat) (train valid : list nat) : row tk :=
  mkRow tk
    (map (fun b => length (inbin j b train)) (seq 0 (tc_max_n_bins tc)))
    (map (fun b => asum (map wt (inbin j b train))) (seq 0 (tc_max_n_bins tc)))
    (map (fun b => length (inbin j b valid)) (seq 0 (tc_max_n_bins tc)))
    (map (fun b => asum (map wt (inbin j b valid))) (seq 0 (tc_max_n_bins tc)))
    (distinct (map (bin j) train))
    (distinct (map (bin j) valid))
    (ts_hist ts (tc_max_n_bins tc) (map (fun i => (bin j i, lab i, wt i)) train)).

Definition pred_spec (train : list nat) : tk_P tk := ts_pred ts (map (fun i => (lab i, wt i)) train).

Definition loss_spec (p : tk_P tk) (valid : list nat) : T :=
  fold_left (fun loss i => ts_loss ts loss p (lab i) (wt i)) valid a0.

(** Validation samples are looked at only with aggregation. *)
Definition seen (valid : list nat) : list nat := if tc_aggregation tc then valid else [].

Definition nctx_spec (features train valid : list nat) (p : tk_P tk) : nctx tk :=
  mkNctx tk features (length train) (length valid) (asum (map wt train))
    (asum (map wt (seen valid))) (loss_spec p (seen valid)) p
    (map (fun j => row_spec j train (seen valid)) features).

Hypothesis HD : data_ok tc.

Lemma get_wt : forall i, i < nsamp -> get (tc_weights tc) i = Ok (wt i).
Proof. intros i H. apply nth_get. rewrite (do_w tc HD). exact H. Qed.

Lemma get_lab : forall i, i < nsamp -> get (tc_y tc) i = Ok (lab i) /\ ts_Yok ts (lab i).
Proof.
  intros i H. assert (Hl : i < length (tc_y tc)) by (rewrite (do_y tc HD); exact H).
  split; [apply nth_get; auto|]. apply (do_lab tc HD). apply nth_In. auto.
Qed.

Lemma bin_lt : forall j i, j < fb_n_features (tc_fb tc) -> i < nsamp -> bin j i < tc_max_n_bins tc.
Proof. intros. apply (do_bins tc HD); auto. Qed.

Definition in_range (l : list nat) : Prop := forall i, In i l -> i < nsamp.

Lemma add_at_inbin : forall j l i, bin j i < tc_max_n_bins tc ->
  add_at (map (fun b => asum (map wt (inbin j b l))) (seq 0 (tc_max_n_bins tc))) (bin j i) (wt i) =
  Ok (map (fun b => asum (map wt (inbin j b (l ++ [i])))) (seq 0 (tc_max_n_bins tc))).
Proof.
  intros j l i Hb. unfold add_at. rewrite get_map_seq by auto. cbn [bind].
  set (f := fun l b => asum (map wt (inbin j b l))).
  assert (Hf : aadd (f l (bin j i)) (wt i) = f (l ++ [i]) (bin j i)).
  { unfold f, inbin. rewrite filter_app_single. rewrite Nat.eqb_refl.
    rewrite map_app. simpl. rewrite asum_snoc. auto. }
  unfold f at 1 in Hf. rewrite Hf.
  apply (set_map_seq (f l) (f (l ++ [i])) _ _ Hb).
  intros k Hk. unfold f, inbin. rewrite filter_app_single.
  destruct (bin j i =? k) eqn:E1; [apply Nat.eqb_eq in E1; congruence|]. rewrite app_nil_r. auto.
Qed.

Lemma set_count_inbin : forall j l i, bin j i < tc_max_n_bins tc ->
  set (map (fun b => length (inbin j b l)) (seq 0 (tc_max_n_bins tc))) (bin j i)
    (length (inbin j (bin j i) l) + 1) =
  Ok (map (fun b => length (inbin j b (l ++ [i]))) (seq 0 (tc_max_n_bins tc))).
Proof.
  intros j l i Hb.
  set (f := fun l b => length (inbin j b l)).
  assert (Hf : f l (bin j i) + 1 = f (l ++ [i]) (bin j i)).
  { unfold f, inbin. rewrite filter_app_single. rewrite Nat.eqb_refl.
    rewrite app_length. auto. }
  unfold f at 1 in Hf. rewrite Hf.
  apply (set_map_seq (f l) (f (l ++ [i])) _ _ Hb).
  intros k Hk. unfold f, inbin. rewrite filter_app_single.
  destruct (bin j i =? k) eqn:E1; [apply Nat.eqb_eq in E1; congruence|]. rewrite app_nil_r. auto.
Qed.

Lemma append_bin_spec : forall j l i, j < fb_n_features (tc_fb tc) -> in_range l -> i < nsamp ->
  append_bin (tc_max_n_bins tc) (length (inbin j (bin j i) l)) (distinct (map (bin j) l)) (bin j i) =
  Ok (distinct (map (bin j) (l ++ [i]))).
Proof.
  intros j l i Hj Hl Hi. unfold append_bin. rewrite map_app. simpl. rewrite distinct_snoc.
  destruct (existsb (Nat.eqb (bin j i)) (distinct (map (bin j) l))) eqn:Ex.
  - apply existsb_eqb in Ex. apply (proj1 (distinct_in _ _)) in Ex. apply in_map_iff in Ex.
    destruct Ex as [i' [Hb Hin]].
    destruct (length (inbin j (bin j i) l) =? 0) eqn:E0; auto.
    apply Nat.eqb_eq in E0. apply length_zero_iff_nil in E0.
    apply filter_nil_iff with (x := i') in E0; auto. apply Nat.eqb_neq in E0. congruence.
  - assert (Hn : ~ In (bin j i) (distinct (map (bin j) l))).
    { intro H. apply existsb_eqb in H. congruence. }
    destruct (length (inbin j (bin j i) l) =? 0) eqn:E0.
    + assert (Hlt : length (distinct (map (bin j) l)) < tc_max_n_bins tc).
      { apply (length_bounded_nodup (bin j i :: distinct (map (bin j) l))).
        - constructor; auto. apply distinct_nodup.
        - intros x [<-|Hx]; [apply bin_lt; auto|].
          apply (proj1 (distinct_in _ _)) in Hx. apply in_map_iff in Hx.
          destruct Hx as [i' [<- Hi']]. apply bin_lt; auto. }
      apply Nat.ltb_lt in Hlt. rewrite Hlt. auto.
    + exfalso. apply Nat.eqb_neq in E0. apply E0. apply length_zero_iff_nil.
      apply filter_nil_iff. intros x Hx. apply Nat.eqb_neq. intro Hb. apply Hn.
      apply distinct_in. apply in_map_iff. eauto.
Qed.

Lemma in_range_pre : forall l pre x post, in_range l -> l = pre ++ x :: post -> in_range pre /\ x < nsamp.
Proof.
  intros l pre x post H ->. split.
  - intros i Hi. apply H. apply in_or_app. auto.
  - apply H. apply in_elt.
Qed.

(** The loop over the training samples. *)
Lemma train_loop : forall f j col train w0 p0, j < fb_n_features (tc_fb tc) -> in_range train ->
  (forall i, i < nsamp -> column_bin col i = Ok (bin j i)) ->
  (f = 0 -> w0 = a0 /\ p0 = tk_pred0 tk) ->
  foldM (train_step tk tc f col) train (w0, p0, row0 tk (tc_max_n_bins tc)) =
  Ok (if f =? 0 then asum (map wt train) else w0, if f =? 0 then pred_spec train else p0,
      row_spec j train []).
Proof.
  intros f j col train w0 p0 Hj Hr Hcol H0.
  set (spec := fun l => (if f =? 0 then asum (map wt l) else w0,
                         if f =? 0 then pred_spec l else p0, row_spec j l [])).
  assert (Hinit : (w0, p0, row0 tk (tc_max_n_bins tc)) = spec []).
  { unfold spec. f_equal.
    - destruct (f =? 0) eqn:Ef; auto. apply Nat.eqb_eq in Ef. destruct (H0 Ef) as [-> ->].
      unfold pred_spec. simpl. rewrite (ts_pred0 tk ts). reflexivity.
    - unfold row0, row_spec. simpl. rewrite (ts_hist0 tk ts).
      f_equal; apply map_const_seq. }
  rewrite Hinit. change (foldM (train_step tk tc f col) train (spec []) = Ok (spec train)).
  apply foldM_prefix. intros pre i post E1.
  destruct (in_range_pre train pre i post Hr E1) as [Hpre Hi].
  unfold spec, train_step. rewrite (Hcol i Hi). cbn [bind].
  destruct (get_lab i Hi) as [Hlab Hy]. rewrite Hlab, (get_wt i Hi). cbn [bind].
  pose proof (bin_lt j i Hj Hi) as Hb.
  assert (Hpw : (if f =? 0
      then let* p' := tk_pred_add tk (if f =? 0 then pred_spec pre else p0) (lab i) (wt i)
           in Ok (aadd (if f =? 0 then asum (map wt pre) else w0) (wt i), p')
      else Ok (if f =? 0 then asum (map wt pre) else w0, if f =? 0 then pred_spec pre else p0)) =
    Ok (if f =? 0 then asum (map wt (pre ++ [i])) else w0,
        if f =? 0 then pred_spec (pre ++ [i]) else p0)).
  { destruct (f =? 0); auto. unfold pred_spec. rewrite (ts_pred_add tk ts) by auto. cbn [bind].
    rewrite !map_app. simpl. rewrite asum_snoc. auto. }
  rewrite Hpw. cbn [bind].
  unfold row_spec at 1 2 3 4 5 6 7 8. cbn [r_n_train r_w_train r_n_valid r_w_valid r_ne_train r_ne_valid r_hist].
  rewrite get_map_seq by auto. cbn [bind].
  rewrite append_bin_spec by auto. cbn [bind].
  rewrite set_count_inbin by auto. cbn [bind].
  rewrite add_at_inbin by auto. cbn [bind].
  rewrite (ts_hist_add tk ts) by auto. cbn [bind].
  unfold row_spec. rewrite (map_app (fun i => (bin j i, lab i, wt i))). reflexivity.
Qed.

(** The loop over the validation samples. *)
Lemma valid_loop : forall f j col p train valid w0 l0, j < fb_n_features (tc_fb tc) -> in_range valid ->
  (forall i, i < nsamp -> column_bin col i = Ok (bin j i)) -> ts_Pok ts p ->
  (f = 0 -> w0 = a0 /\ l0 = a0) ->
  foldM (valid_step tk tc f p col) valid (w0, l0, row_spec j train []) =
  Ok (if f =? 0 then asum (map wt valid) else w0, if f =? 0 then loss_spec p valid else l0,
      row_spec j train valid).
Proof.
  intros f j col p train valid w0 l0 Hj Hr Hcol Hp H0.
  set (spec := fun l => (if f =? 0 then asum (map wt l) else w0,
                         if f =? 0 then loss_spec p l else l0, row_spec j train l)).
  assert (Hinit : (w0, l0, row_spec j train []) = spec []).
  { unfold spec. destruct (f =? 0) eqn:Ef; auto. apply Nat.eqb_eq in Ef. destruct (H0 Ef) as [-> ->]. auto. }
  rewrite Hinit. change (foldM (valid_step tk tc f p col) valid (spec []) = Ok (spec valid)).
  apply foldM_prefix. intros pre i post E1.
  destruct (in_range_pre valid pre i post Hr E1) as [Hpre Hi].
  unfold spec, valid_step. rewrite (Hcol i Hi). cbn [bind].
  destruct (get_lab i Hi) as [Hlab Hy]. rewrite Hlab, (get_wt i Hi). cbn [bind].
  pose proof (bin_lt j i Hj Hi) as Hb.
  assert (Hpw : (if f =? 0
      then let* loss' := tk_loss_add tk (if f =? 0 then loss_spec p pre else l0) p (lab i) (wt i)
           in Ok (aadd (if f =? 0 then asum (map wt pre) else w0) (wt i), loss')
      else Ok (if f =? 0 then asum (map wt pre) else w0, if f =? 0 then loss_spec p pre else l0)) =
    Ok (if f =? 0 then asum (map wt (pre ++ [i])) else w0,
        if f =? 0 then loss_spec p (pre ++ [i]) else l0)).
  { destruct (f =? 0); auto. rewrite (ts_loss_add tk ts) by auto. cbn [bind].
    rewrite !map_app. simpl. rewrite asum_snoc. unfold loss_spec. rewrite fold_left_app. auto. }
  rewrite Hpw. cbn [bind].
  unfold row_spec at 1 2 3 4 5 6 7 8. cbn [r_n_train r_w_train r_n_valid r_w_valid r_ne_train r_ne_valid r_hist].
  rewrite get_map_seq by auto. cbn [bind].
  rewrite append_bin_spec by auto. cbn [bind].
  rewrite set_count_inbin by auto. cbn [bind].
  rewrite add_at_inbin by auto. cbn [bind]. reflexivity.
Qed.

Lemma seen_range : forall valid, in_range valid -> in_range (seen valid).
Proof. intros v H. unfold seen. destruct (tc_aggregation tc); auto. intros i []. Qed.

(** One iteration of the loop over features. *)
Lemma feature_step_spec : forall f j train valid a, j < fb_n_features (tc_fb tc) ->
  in_range train -> in_range valid ->
  (f = 0 -> a = mkAcc tk a0 a0 a0 (tk_pred0 tk) []) ->
  (f <> 0 -> ts_Pok ts (ac_pred a)) ->
  feature_step tk tc train valid a (f, j) =
  let* p := (if f =? 0 then tk_pred_end tk (pred_spec train) (asum (map wt train)) else Ok (ac_pred a)) in
  Ok (mkAcc tk (if f =? 0 then asum (map wt train) else ac_w_train a)
        (if f =? 0 then asum (map wt (seen valid)) else ac_w_valid a)
        (if f =? 0 then loss_spec p (seen valid) else ac_loss a) p
        (ac_rows a ++ [row_spec j train (seen valid)])).
Proof.
  intros f j train valid a Hj Ht Hv H0 H1. unfold feature_step.
  destruct (feature_column_ok (tc_fb tc) j (do_wf tc HD) Hj) as [col [Hc Hcol]].
  rewrite Hc. cbn [bind].
  rewrite (train_loop f j col train (ac_w_train a) (ac_pred a) Hj Ht Hcol);
    [|intros Hf; rewrite (H0 Hf); auto].
  cbn [bind].
  assert (Hp : okz True (ts_Pok ts)
     (if f =? 0 then tk_pred_end tk (if f =? 0 then pred_spec train else ac_pred a)
         (if f =? 0 then asum (map wt train) else ac_w_train a)
      else Ok (if f =? 0 then pred_spec train else ac_pred a))).
  { destruct (f =? 0) eqn:Ef; [apply (ts_pred_end tk ts)|]. simpl. apply H1. apply Nat.eqb_neq; auto. }
  destruct (f =? 0) eqn:Ef.
  - destruct (tk_pred_end tk (pred_spec train) (asum (map wt train))) as [p|e]; [|reflexivity].
    cbn [bind]. simpl in Hp. apply Nat.eqb_eq in Ef.
    unfold seen. destruct (tc_aggregation tc).
    + rewrite (valid_loop f j col p train valid (ac_w_valid a) (ac_loss a) Hj Hv Hcol Hp);
        [|intros Hf; rewrite (H0 Hf); auto].
      cbn [bind]. subst f. reflexivity.
    + cbn [bind]. rewrite (H0 Ef). simpl. reflexivity.
  - cbn [bind]. simpl in Hp. unfold seen. destruct (tc_aggregation tc).
    + rewrite (valid_loop f j col (ac_pred a) train valid (ac_w_valid a) (ac_loss a) Hj Hv Hcol Hp);
        [|intros Hf; apply Nat.eqb_neq in Ef; congruence].
      cbn [bind]. rewrite Ef. reflexivity.
    + cbn [bind]. reflexivity.
Qed.

Theorem node_stats_spec : forall features train valid,
  features <> [] -> (forall j, In j features -> j < fb_n_features (tc_fb tc)) ->
  in_range train -> in_range valid ->
  node_stats tk tc features train valid =
  let* p := tk_pred_end tk (pred_spec train) (asum (map wt train)) in
  Ok (nctx_spec features train valid p).
Proof.
  intros features train valid Hne Hf Ht Hv. unfold node_stats.
  destruct features as [|j0 fs]; [congruence|].
  cbn [length seq combine foldM].
  rewrite feature_step_spec; auto; [|apply Hf; simpl; auto | lia].
  cbn [Nat.eqb].
  pose proof (ts_pred_end tk ts (map (fun i => (lab i, wt i)) train) (asum (map wt train))) as Hp.
  fold (pred_spec train) in Hp.
  destruct (tk_pred_end tk (pred_spec train) (asum (map wt train))) as [p|e]; [|reflexivity].
  cbn [bind]. simpl in Hp.
  assert (G : forall fs' n rows, (forall j, In j fs' -> j < fb_n_features (tc_fb tc)) -> 0 < n ->
    foldM (feature_step tk tc train valid) (combine (seq n (length fs')) fs')
      (mkAcc tk (asum (map wt train)) (asum (map wt (seen valid))) (loss_spec p (seen valid)) p rows) =
    Ok (mkAcc tk (asum (map wt train)) (asum (map wt (seen valid))) (loss_spec p (seen valid)) p
          (rows ++ map (fun j => row_spec j train (seen valid)) fs'))).
  { induction fs' as [|j fs' IH]; intros n rows Hfs Hn.
    - simpl. rewrite app_nil_r. auto.
    - cbn [length seq combine foldM].
      rewrite feature_step_spec; auto; [|apply Hfs; simpl; auto|lia].
      destruct (n =? 0) eqn:En; [apply Nat.eqb_eq in En; lia|]. cbn [bind].
      cbn [ac_w_train ac_w_valid ac_loss ac_pred ac_rows].
      rewrite IH; [|intros; apply Hfs; simpl; auto|lia]. cbn [map].
      rewrite <- app_assoc. reflexivity. }
  cbn [ac_rows]. rewrite G; [|intros; apply Hf; simpl; auto|lia]. cbn [bind]. reflexivity.
Qed.

End Data.
End Node.
