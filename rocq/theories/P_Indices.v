(** * Splitting the samples of a node *)

Require Import List Arith Lia NArith Permutation.
Require Import Verif.Base Verif.Num Verif.M_Bitarray Verif.P_Bitarray Verif.M_Utils
  Verif.M_Context Verif.M_Node Verif.M_Split Verif.P_Utils Verif.P_List Verif.P_Task Verif.P_Node.
Import ListNotations.
Local Open Scope res_scope.

(** ** Lists in three segments *)

Lemma skipn_plus : forall {X} a b (l : list X), skipn a (skipn b l) = skipn (b + a) l.
Proof. induction b; intros l; simpl; auto. destruct l; auto. apply skipn_nil. Qed.

Lemma slice_mid : forall {X} (a b c : list X), slice (a ++ b ++ c) (length a) (length a + length b) = Ok b.
Proof.
  intros X a b c. apply slice_ok. rewrite !app_length. split; [lia|].
  rewrite skipn_app, skipn_all, Nat.sub_diag. simpl.
  replace (length a + length b - length a) with (length b) by lia.
  rewrite firstn_app, firstn_all, Nat.sub_diag. simpl. rewrite app_nil_r. auto.
Qed.

Lemma splice_mid : forall {X} (a b b' c : list X), length b' = length b ->
  splice (a ++ b ++ c) (length a) b' = Ok (a ++ b' ++ c).
Proof.
  intros X a b b' c H. apply splice_ok. rewrite !app_length. split; [lia|].
  rewrite firstn_app, firstn_all, Nat.sub_diag. simpl. rewrite app_nil_r. f_equal. f_equal.
  rewrite H, app_assoc. rewrite skipn_app, app_length.
  rewrite skipn_all2 by (rewrite app_length; lia). rewrite Nat.sub_diag. reflexivity.
Qed.

Lemma set_app_mid : forall {X} (a c : list X) x y, set (a ++ x :: c) (length a) y = Ok (a ++ y :: c).
Proof.
  intros X a c x y. unfold set. rewrite app_length. simpl.
  replace (length a <? length a + S (length c)) with true by (symmetry; apply Nat.ltb_lt; lia).
  f_equal. induction a; simpl; congruence.
Qed.

Lemma filter_partition_length : forall {X} (f : X -> bool) l,
  length (filter f l) + length (filter (fun x => negb (f x)) l) = length l.
Proof. induction l; simpl; auto. destruct (f a); simpl; lia. Qed.

Lemma filter_partition_perm : forall {X} (f : X -> bool) l,
  Permutation (filter f l ++ filter (fun x => negb (f x)) l) l.
Proof.
  induction l; simpl; auto. destruct (f a); simpl; [auto|].
  rewrite <- Permutation_middle. auto.
Qed.

Section Indices.
Context {A : arith} {E : env A} {tk : task A E} (sp : split tk).
Context (fb : fba).
Context (tl : nat -> bool) (Htl : forall b, goes_left tk sp b = Ok (tl b)).

(** Sample [i] goes left. *)
Definition goes (i : nat) : bool := tl (binv fb (sp_feature sp) i).

Lemma buffer_loop : forall col, (forall i, i < fb_n_samples fb -> column_bin col i = Ok (binv fb (sp_feature sp) i)) ->
  forall idx L Q cl cr, (forall i, In i idx -> i < fb_n_samples fb) ->
  length idx <= length cl -> length idx <= length cr ->
  exists cl' cr',
    foldM (buffer_step tk sp col) idx (L ++ cl, Q ++ cr, length L, length Q) =
    Ok ((L ++ filter goes idx) ++ cl', (Q ++ filter (fun i => negb (goes i)) idx) ++ cr',
        length L + length (filter goes idx), length Q + length (filter (fun i => negb (goes i)) idx)) /\
    length cl' + length (filter goes idx) = length cl /\
    length cr' + length (filter (fun i => negb (goes i)) idx) = length cr.
Proof.
  intros col Hcol. induction idx as [|i idx IH]; intros L Q cl cr Hi Hl Hr.
  - exists cl, cr. simpl. rewrite !app_nil_r, !Nat.add_0_r. auto.
  - cbn [foldM buffer_step]. rewrite Hcol by (apply Hi; simpl; auto). cbn [bind]. rewrite Htl. cbn [bind].
    change (tl (binv fb (sp_feature sp) i)) with (goes i). cbn [filter].
    simpl in Hl, Hr. destruct (goes i) eqn:Eg; cbn [negb].
    + destruct cl as [|x cl]; [simpl in Hl; lia|]. rewrite set_app_mid. cbn [bind].
      destruct (IH (L ++ [i]) Q cl cr) as (cl' & cr' & H1 & H2 & H3);
        [intros; apply Hi; simpl; auto|simpl in Hl; lia|lia|].
      exists cl', cr'. split; [|simpl; split; lia].
      replace (L ++ i :: cl) with ((L ++ [i]) ++ cl) by (rewrite <- app_assoc; auto).
      replace (length L + 1) with (length (L ++ [i])) by (rewrite app_length; auto).
      rewrite H1. rewrite <- !app_assoc. f_equal. f_equal. f_equal. rewrite app_length. simpl. lia.
    + destruct cr as [|x cr]; [simpl in Hr; lia|]. rewrite set_app_mid. cbn [bind].
      destruct (IH L (Q ++ [i]) cl cr) as (cl' & cr' & H1 & H2 & H3);
        [intros; apply Hi; simpl; auto|lia|simpl in Hr; lia|].
      exists cl', cr'. split; [|simpl; split; lia].
      replace (Q ++ i :: cr) with ((Q ++ [i]) ++ cr) by (rewrite <- app_assoc; auto).
      replace (length Q + 1) with (length (Q ++ [i])) by (rewrite app_length; auto).
      rewrite H1. rewrite <- !app_assoc. f_equal. f_equal. rewrite app_length. simpl. lia.
Qed.

Lemma split_part_spec : forall col, (forall i, i < fb_n_samples fb -> column_bin col i = Ok (binv fb (sp_feature sp) i)) ->
  forall pre idx post lb rb, (forall i, In i idx -> i < fb_n_samples fb) ->
  length idx <= length lb -> length idx <= length rb ->
  exists lb' rb',
    split_part tk sp col (pre ++ idx ++ post) lb rb (length pre) (length pre + length idx) =
    Ok (pre ++ (filter goes idx ++ filter (fun i => negb (goes i)) idx) ++ post, lb', rb',
        length pre + length (filter goes idx)) /\ length lb' = length lb /\ length rb' = length rb.
Proof.
  intros col Hcol pre idx post lb rb Hi Hl Hr. unfold split_part. rewrite slice_mid. cbn [bind].
  destruct (buffer_loop col Hcol idx [] [] lb rb Hi Hl Hr) as (cl & cr & H1 & H2 & H3).
  cbn [app length Nat.add] in H1. rewrite H1. cbn [bind].
  pose proof (filter_partition_length goes idx) as Hlen.
  set (L := filter goes idx) in *. set (Q := filter (fun i => negb (goes i)) idx) in *.
  pose proof (slice_mid [] L cl) as SL. simpl in SL. rewrite SL. cbn [bind].
  pose proof (slice_mid [] Q cr) as SR. simpl in SR. rewrite SR. cbn [bind].
  exists (L ++ cl), (Q ++ cr).
  assert (E1 : splice (pre ++ idx ++ post) (length pre) L = Ok (pre ++ L ++ skipn (length L) idx ++ post)).
  { rewrite <- (firstn_skipn (length L) idx) at 1. rewrite <- app_assoc. apply splice_mid.
    rewrite firstn_length. lia. }
  rewrite E1. cbn [bind]. unfold usub.
  replace (length pre + length L <=? length pre + length idx) with true by (symmetry; apply Nat.leb_le; lia).
  cbn [bind]. replace (length pre + length idx - (length pre + length L)) with (length Q) by lia.
  rewrite Nat.eqb_refl.
  assert (E2 : splice (pre ++ L ++ skipn (length L) idx ++ post) (length pre + length L) Q = Ok (pre ++ (L ++ Q) ++ post)).
  { rewrite <- app_length, app_assoc. rewrite <- !app_assoc. rewrite (app_assoc pre L). rewrite splice_mid.
    - rewrite <- !app_assoc. reflexivity.
    - rewrite skipn_length. lia. }
  rewrite E2. cbn [bind]. split; [reflexivity|]. rewrite !app_length. lia.
Qed.

End Indices.

Section SplitIndices.
Context {A : arith} {E : env A} {tk : task A E}.

(** Both halves. *)
Theorem split_indices_spec : forall (tc : tctx A (tk_Y tk)) (sp : split tk) tl ps
  preT idxT postT preV idxV postV,
  fba_wf (tc_fb tc) -> sp_feature sp < fb_n_features (tc_fb tc) ->
  (forall b, goes_left tk sp b = Ok (tl b)) ->
  p_train ps = preT ++ idxT ++ postT -> p_valid ps = preV ++ idxV ++ postV ->
  (forall i, In i idxT -> i < fb_n_samples (tc_fb tc)) -> (forall i, In i idxV -> i < fb_n_samples (tc_fb tc)) ->
  length idxT <= length (p_left ps) -> length idxT <= length (p_right ps) ->
  length idxV <= length (p_left ps) -> length idxV <= length (p_right ps) ->
  let go i := tl (binv (tc_fb tc) (sp_feature sp) i) in
  exists ps',
    split_indices tk tc ps sp (length preT) (length preT + length idxT) (length preV) (length preV + length idxV) =
    Ok (ps', length preT + length (filter go idxT), length preV + length (filter go idxV)) /\
    p_train ps' = preT ++ (filter go idxT ++ filter (fun i => negb (go i)) idxT) ++ postT /\
    p_valid ps' = preV ++ (filter go idxV ++ filter (fun i => negb (go i)) idxV) ++ postV /\
    length (p_left ps') = length (p_left ps) /\ length (p_right ps') = length (p_right ps).
Proof.
  intros tc sp tl ps preT idxT postT preV idxV postV W Hj Htl ET EV HiT HiV H1 H2 H3 H4 go.
  destruct (feature_column_ok (tc_fb tc) (sp_feature sp) W Hj) as [col [Hc Hcol]].
  unfold split_indices. rewrite Hc. cbn [bind]. rewrite ET.
  destruct (split_part_spec sp (tc_fb tc) tl Htl col Hcol preT idxT postT (p_left ps) (p_right ps) HiT H1 H2) as (lb & rb & S1 & S2 & S3).
  rewrite S1. cbn [bind]. rewrite EV.
  destruct (split_part_spec sp (tc_fb tc) tl Htl col Hcol preV idxV postV lb rb HiV) as (lb' & rb' & S4 & S5 & S6); [lia|lia|].
  rewrite S4. cbn [bind]. eexists. split; [reflexivity|]. cbn [p_train p_valid p_left p_right].
  split; [reflexivity|]. split; [reflexivity|]. lia.
Qed.
End SplitIndices.
