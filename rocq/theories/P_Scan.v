(** * The scan over ordered bins considers every admissible prefix *)

Require Import List Arith Lia NArith Permutation Sorted.
Require Import Verif.Base Verif.Num Verif.M_Bitarray Verif.M_Utils Verif.M_Impurity
  Verif.M_Context Verif.M_Node Verif.M_Split Verif.P_Utils Verif.P_List.
Import ListNotations.
Local Open Scope res_scope.

(** Non-empty extensions of [pre] by initial segments of a list. *)
Fixpoint ext (pre rest : list nat) : list (list nat) :=
  match rest with
  | [] => []
  | b :: t => (pre ++ [b]) :: ext (pre ++ [b]) t
  end.

Lemma in_ext : forall rest pre q, In q (ext pre rest) <->
  exists p b post, rest = p ++ b :: post /\ q = pre ++ p ++ [b].
Proof.
  induction rest as [|b rest IH]; intros pre q; simpl.
  - split; [tauto|]. intros (p & b & post & H & _). destruct p; discriminate.
  - rewrite IH. split.
    + intros [<-|(p & b' & post & -> & ->)].
      * exists [], b, rest. auto.
      * exists (b :: p), b', post. rewrite <- app_assoc. auto.
    + intros ([|b' p] & b'' & post & H & ->); simpl in H; inversion H; subst; auto.
      right. exists p, b'', post. rewrite <- app_assoc. auto.
Qed.

(** [removelast] leaves the proper prefixes. *)
Lemma in_ext_removelast : forall o q, In q (ext [] (removelast o)) <->
  exists p b post, o = p ++ b :: post /\ q = p ++ [b] /\ post <> [].
Proof.
  intros o q. rewrite in_ext. destruct o as [|b0 o'].
  - simpl. split; intros (p & b & post & H & _); destruct p; discriminate.
  - pose proof (app_removelast_last (l := b0 :: o') 0 ltac:(discriminate)) as HL.
    split; intros (p & b & post & H & Hq).
    + exists p, b, (post ++ [last (b0 :: o') 0]). split; [|split; auto].
      * rewrite HL at 1. rewrite H. rewrite <- app_assoc. reflexivity.
      * destruct post; discriminate.
    + destruct Hq as [-> Hne]. exists p, b, (removelast post). split; auto.
      rewrite H, removelast_app by discriminate. destruct post; [congruence|]. reflexivity.
Qed.

Section Scan.
Context {A : arith} {E : env A} (tk : task A E).
Notation T := (num A).
Context (tc : tctx A (tk_Y tk)) (n_valid feature : nat) (is_cat : bool) (r : row tk)
  (cumsum ordered : list nat) (n_train : nat) (w_train : T).

(** Statistics per bin and per prefix. *)
Context (n : nat -> nat) (w : nat -> T) (vl : list nat -> nat) (sl sr : list nat -> tk_S tk).

Definition n_left (q : list nat) : nat := list_sum (map n q).
Definition n_right (q : list nat) : nat := n_train - n_left q.
Definition w_left (q : list nat) : T := asum (map w q).
Definition w_right (q : list nat) : T := fold_left asub (map w q) w_train.
Definition v_right (q : list nat) : nat := n_valid - vl q.

Definition scan_at (q : list nat) : scan tk :=
  mkScan tk (n_left q) (w_left q) (n_right q) (w_right q) (sl q) (sr q) (vl q).

Definition admissible (q : list nat) : bool :=
  let msl := tc_min_samples_leaf tc in
  ((msl <=? n_left q) && (msl <=? n_right q) &&
   (negb (tc_aggregation tc) || ((msl <=? vl q) && (msl <=? v_right q))))%bool.

Definition cand (q : list nat) (il ir : T) (part : list nat) : split tk :=
  mkSplit tk true (Some (information_gain_proxy il ir (w_left q) (w_right q))) feature (last q 0) il ir
    (n_left q) (n_right q) (w_left q) (w_right q) (vl q) (v_right q) (sl q) (sr q) is_cat ordered part.

(** What happens to the best split when the prefix [q] is looked at. *)
Definition consider (best : split tk) (q : list nat) : res (split tk) :=
  if admissible q then
    let* ' (il, ir) := tk_impurity tk (w_left q) (w_right q) (sl q) (sr q) in
    Ok (if gain_gt (information_gain_proxy il ir (w_left q) (w_right q)) (sp_gain best)
        then cand q il ir (sp_partition best) else best)
  else Ok best.

Hypothesis Hn : forall b, In b ordered -> get (r_n_train r) b = Ok (n b).
Hypothesis Hw : forall b, In b ordered -> get (r_w_train r) b = Ok (w b).
Hypothesis Hv0 : vl [] = 0.
Hypothesis Hv : forall p b post, ordered = p ++ b :: post ->
  (if is_cat then let* v := get (r_n_valid r) b in Ok (vl p + v) else get cumsum b) = Ok (vl (p ++ [b])).
Hypothesis Hvmono : forall p q post, ordered = p ++ q ++ post -> vl p <= vl (p ++ q).
Hypothesis Hvmax : vl ordered <= n_valid.
Hypothesis Hntot : n_left ordered <= n_train.
Hypothesis Hsl0 : sl [] = tk_stat0 tk.
Hypothesis Hsr0 : sr [] = tk_stat_total tk (r_hist r).
Hypothesis Hsl : forall p b post, ordered = p ++ b :: post -> tk_stat_add tk (sl p) (r_hist r) b = Ok (sl (p ++ [b])).
Hypothesis Hsr : forall p b post, ordered = p ++ b :: post -> tk_stat_sub tk (sr p) (r_hist r) b = Ok (sr (p ++ [b])).
Hypothesis Hlen : length ordered <= tc_max_n_bins tc.

Lemma n_left_app : forall p q, n_left (p ++ q) = n_left p + n_left q.
Proof. intros. unfold n_left. rewrite map_app, list_sum_app. auto. Qed.

Lemma admissible_down : forall p q post, ordered = p ++ q ++ post ->
  ((n_right p <? tc_min_samples_leaf tc) || (tc_aggregation tc && (v_right p <? tc_min_samples_leaf tc)))%bool = true ->
  admissible (p ++ q) = false.
Proof.
  intros p q post EO H. unfold admissible. pose proof (Hvmono p q post EO) as Hm.
  assert (Hr : n_right (p ++ q) <= n_right p) by (unfold n_right; rewrite n_left_app; lia).
  assert (Hvr : v_right (p ++ q) <= v_right p) by (unfold v_right; lia).
  apply Bool.orb_true_iff in H. destruct H as [H|H].
  - apply Nat.ltb_lt in H. replace (tc_min_samples_leaf tc <=? n_right (p ++ q)) with false.
    + rewrite Bool.andb_false_r. auto.
    + symmetry. apply Nat.leb_gt. lia.
  - apply andb_prop in H. destruct H as [H1 H2]. apply Nat.ltb_lt in H2. rewrite H1.
    replace (tc_min_samples_leaf tc <=? v_right (p ++ q)) with false.
    + simpl. rewrite !Bool.andb_false_r. auto.
    + symmetry. apply Nat.leb_gt. lia.
Qed.

Lemma consider_skip : forall qs best, (forall q, In q qs -> admissible q = false) -> foldM consider qs best = Ok best.
Proof.
  induction qs as [|q qs IH]; intros best H; auto. cbn [foldM]. unfold consider at 1.
  rewrite (H q) by (simpl; auto). cbn [bind]. apply IH. intros; apply H; simpl; auto.
Qed.

Lemma scan_loop_spec : forall rest p post best, ordered = p ++ rest ++ post ->
  scan_loop tk tc n_valid feature is_cat r cumsum ordered rest (scan_at p) best =
  foldM consider (ext p rest) best.
Proof.
  induction rest as [|b rest IH]; intros p post best EO; [reflexivity|].
  cbn [scan_loop ext foldM].
  assert (EO' : ordered = p ++ b :: (rest ++ post)) by (rewrite EO; auto).
  assert (Hb : In b ordered) by (rewrite EO'; apply in_elt).
  rewrite (Hn b Hb), (Hw b Hb). cbn [bind]. unfold scan_at.
  cbn [sc_n_left sc_w_left sc_n_right sc_w_right sc_stat_left sc_stat_right sc_v_left].
  assert (EN : n_left ordered = n_left p + (n b + n_left (rest ++ post))).
  { rewrite EO', n_left_app. reflexivity. }
  rewrite usub_le by (unfold n_right; lia). cbn [bind].
  rewrite (Hsl p b _ EO'), (Hsr p b _ EO'). cbn [bind].
  rewrite (Hv p b _ EO'). cbn [bind].
  assert (EO2 : ordered = (p ++ [b]) ++ (rest ++ post)) by (rewrite <- app_assoc; exact EO').
  assert (EO3 : ordered = (p ++ [b]) ++ (rest ++ post) ++ []) by (rewrite app_nil_r; exact EO2).
  pose proof (Hvmono _ _ _ EO3) as Hvm. rewrite <- EO2 in Hvm.
  rewrite usub_le by lia. cbn [bind]. cbv zeta.
  set (q := p ++ [b]) in *.
  assert (E1 : n_left p + n b = n_left q) by (unfold q; rewrite n_left_app; unfold n_left; simpl; lia).
  assert (E2 : aadd (w_left p) (w b) = w_left q).
  { unfold q, w_left. rewrite map_app. simpl. unfold asum. rewrite fold_left_app. reflexivity. }
  assert (E3 : n_right p - n b = n_right q) by (unfold n_right; lia).
  assert (E4 : asub (w_right p) (w b) = w_right q).
  { unfold q, w_right. rewrite map_app. simpl. rewrite fold_left_app. reflexivity. }
  rewrite E1, E2, E3, E4. change (n_valid - vl q) with (v_right q).
  change (mkScan tk (n_left q) (w_left q) (n_right q) (w_right q) (sl q) (sr q) (vl q)) with (scan_at q).
  assert (EO4 : ordered = q ++ rest ++ post) by exact EO2.
  destruct ((n_left q <? tc_min_samples_leaf tc) ||
            (tc_aggregation tc && (vl q <? tc_min_samples_leaf tc)))%bool eqn:EL.
  - rewrite (IH q post best EO4). unfold consider at 2.
    assert (Ha : admissible q = false).
    { unfold admissible. apply Bool.orb_true_iff in EL. destruct EL as [EL|EL].
      - apply Nat.ltb_lt in EL. replace (tc_min_samples_leaf tc <=? n_left q) with false; auto.
        symmetry. apply Nat.leb_gt. auto.
      - apply andb_prop in EL. destruct EL as [EL1 EL2]. apply Nat.ltb_lt in EL2. rewrite EL1.
        replace (tc_min_samples_leaf tc <=? vl q) with false; [simpl; rewrite Bool.andb_false_r; auto|].
        symmetry. apply Nat.leb_gt. auto. }
    rewrite Ha. reflexivity.
  - destruct ((n_right q <? tc_min_samples_leaf tc) ||
              (tc_aggregation tc && (v_right q <? tc_min_samples_leaf tc)))%bool eqn:ER.
    + (* the early exit: nothing admissible is left *)
      change (Ok best = foldM consider (q :: ext q rest) best).
      symmetry. apply consider_skip. intros q' [<-|Hq'].
      * assert (EOq : ordered = q ++ [] ++ (rest ++ post)) by exact EO2.
        rewrite <- (app_nil_r q). apply (admissible_down q [] _ EOq ER).
      * apply in_ext in Hq'. destruct Hq' as (p' & b' & post' & Er & ->).
        apply (admissible_down q (p' ++ [b']) (post' ++ post)); auto.
        rewrite EO4, Er, <- !app_assoc. reflexivity.
    + assert (Ha : admissible q = true).
      { unfold admissible. apply Bool.orb_false_iff in EL, ER. destruct EL as [L1 L2], ER as [R1 R2].
        apply Nat.ltb_ge in L1, R1. apply Nat.leb_le in L1, R1. rewrite L1, R1. simpl.
        destruct (tc_aggregation tc); simpl in *; auto.
        apply Nat.ltb_ge in L2, R2. apply Nat.leb_le in L2, R2. rewrite L2, R2. auto. }
      unfold consider at 1. rewrite Ha.
      destruct (tk_impurity tk (w_left q) (w_right q) (sl q) (sr q)) as [[il ir]|e]; [|reflexivity].
      cbn [bind].
      assert (Hlast : last q 0 = b) by (unfold q; apply last_last).
      destruct (gain_gt (information_gain_proxy il ir (w_left q) (w_right q)) (sp_gain best)).
      * apply Nat.leb_le in Hlen. rewrite Hlen. cbn [bind]. rewrite (IH q post _ EO4).
        unfold cand. rewrite Hlast. reflexivity.
      * cbn [bind]. apply (IH q post best EO4).
Qed.

Theorem try_feature_order_spec : forall nc best, nc_n_valid nc = n_valid -> nc_n_train nc = n_train ->
  nc_w_train nc = w_train ->
  try_feature_order tk tc nc feature r is_cat cumsum best ordered =
  foldM consider (ext [] (removelast ordered)) best.
Proof.
  intros nc best E1 E2 E3. unfold try_feature_order. rewrite E1, E2, E3.
  destruct ordered as [|b0 o] eqn:EO; [reflexivity|]. rewrite <- EO in *.
  assert (Hscan : mkScan tk 0 a0 n_train w_train (tk_stat0 tk) (tk_stat_total tk (r_hist r)) 0 = scan_at []).
  { unfold scan_at. rewrite Hv0, Hsl0, Hsr0. unfold n_right, n_left. simpl. rewrite Nat.sub_0_r. reflexivity. }
  rewrite Hscan. apply (scan_loop_spec _ [] [last ordered 0]). simpl.
  apply app_removelast_last. rewrite EO. discriminate.
Qed.

End Scan.
