(** * The result of the search for a split *)

Require Import List Arith Lia NArith Permutation Sorted.
Require Import Verif.Base Verif.Num Verif.M_Bitarray Verif.P_Bitarray Verif.M_Utils Verif.M_Impurity
  Verif.M_Context Verif.M_Node Verif.M_Split Verif.P_Utils Verif.P_List Verif.P_Task Verif.P_Node
  Verif.P_Bins Verif.P_Scan Verif.P_Split.
Import ListNotations.
Local Open Scope res_scope.

(** What the comparison of gains needs for the search to return a maximum. It holds for
    real numbers and for IEEE numbers (NaN and infinities included). *)
Record order_laws (A : arith) : Prop := {
  ol_irr : forall x : num A, altb x x = false;
  ol_trans : forall x y z : num A, altb x y = true -> altb y z = true -> altb x z = true;
  ol_inf : forall x y : num A, altb x y = true -> agtninf y = true
}.

(** Where a split sends a bin. *)
Definition to_left {A : arith} {E : env A} {tk : task A E} (sp : split tk) (b : nat) : bool :=
  if sp_is_cat sp then mem_bin (sp_partition sp) b else b <=? sp_threshold sp.

Section Find.
Context {A : arith} {E : env A} {tk : task A E} (ts : task_shape tk).
Notation T := (num A).
Context (tc : tctx A (tk_Y tk)) (HD : data_ok ts tc).
Context (train valid : list nat) (Ht : in_range tc train) (Hv : in_range tc valid).

Notation Valid := (seen tc valid).
Notation cat := (cat tc).
Notation candidates := candidates.
Notation order_ok := (order_ok tc train).
Notation tried := (tried ts tc train).
Notation consider3 := (consider3 ts tc train valid).

Definition wl_of (q : nat * list nat * list nat) : T :=
  let '(j, o, q) := q in w_left (wb tc train j) q.
Definition wr_of (q : nat * list nat * list nat) : T :=
  let '(j, o, q) := q in w_right (wtot tc train) (wb tc train j) q.
Definition imp_of (c : nat * list nat * list nat) : res (T * T) :=
  let '(j, o, q) := c in tk_impurity tk (wl_of c) (wr_of c) (sl ts tc train j q) (sr ts tc train j q).
Definition gain_of (c : nat * list nat * list nat) (i : T * T) : T :=
  information_gain_proxy (fst i) (snd i) (wl_of c) (wr_of c).
Definition adm_of (c : nat * list nat * list nat) : bool :=
  let '(j, o, q) := c in admissible_j tc train valid j (cat j) q.
Definition cand3 (c : nat * list nat * list nat) (i : T * T) (part : list nat) : split tk :=
  let '(j, o, q) := c in
  cand tk (length valid) j (cat j) o (length train) (wtot tc train) (nb tc train j) (wb tc train j)
    (vl tc valid j (cat j)) (sl ts tc train j) (sr ts tc train j) q (fst i) (snd i) part.

Lemma consider3_eq : forall best c, consider3 best c =
  if adm_of c then
    let* i := imp_of c in
    Ok (if gain_gt (gain_of c i) (sp_gain best) then cand3 c i (sp_partition best) else best)
  else Ok best.
Proof.
  intros best [[j o] q]. unfold P_Split.consider3, consider_j, consider, adm_of, admissible_j, imp_of.
  destruct (admissible _ _ _ _ _ _ _); auto.
  cbn [wl_of wr_of]. destruct (tk_impurity tk _ _ _ _) as [[il ir]|e]; reflexivity.
Qed.

(** The best split so far comes from an admissible candidate. *)
Definition from (cs : list (nat * list nat * list nat)) (best : split tk) : Prop :=
  best = reset_split tk \/
  exists c i, In c cs /\ adm_of c = true /\ imp_of c = Ok i /\ best = cand3 c i [].

Lemma from_partition : forall cs best, from cs best -> sp_partition best = [].
Proof. intros cs best [->|([[j o] q] & i & _ & _ & _ & ->)]; reflexivity. Qed.

Lemma from_weaken : forall cs cs' best, (forall c, In c cs -> In c cs') -> from cs best -> from cs' best.
Proof. intros cs cs' best H [->|(c & i & Hc & H1 & H2 & H3)]; [left|right]; auto. exists c, i. auto. Qed.

Lemma search_from : forall Z cs,
  (forall c, In c cs -> adm_of c = true -> okz Z (fun _ => True) (imp_of c)) ->
  okz Z (from cs) (foldM consider3 cs (reset_split tk)).
Proof.
  intros Z cs HZ. apply (okz_foldM Z from); [left; auto|].
  intros pre c post best Ec Hb. rewrite consider3_eq.
  assert (Hw : from (pre ++ [c]) best).
  { eapply from_weaken; [|exact Hb]. intros c' H'. apply in_app_iff. auto. }
  destruct (adm_of c) eqn:Ea; [|exact Hw].
  specialize (HZ c ltac:(rewrite Ec; apply in_elt) Ea).
  destruct (imp_of c) as [i|e] eqn:Ei; [|exact HZ]. cbn [bind okz].
  destruct (gain_gt (gain_of c i) (sp_gain best)); auto.
  right. exists c, i. rewrite (from_partition pre best Hb). split; [|auto].
  apply in_app_iff. simpl. auto.
Qed.

Lemma gain_gt_step : order_laws A -> forall (g g' : T) best, gain_gt g best = false -> gain_gt g' best = true ->
  gain_gt g (Some g') = false.
Proof.
  intros [Hi Htr Hf] g g' best H1 H2. simpl. destruct (altb g' g) eqn:E1; auto.
  destruct best as [b|]; simpl in *.
  - rewrite (Htr b g' g) in H1; auto.
  - rewrite (Hf _ _ E1) in H1. auto.
Qed.

(** No admissible candidate beats the result. *)
Lemma search_max : order_laws A -> forall cs best0 best, foldM consider3 cs best0 = Ok best ->
  (forall g : T, gain_gt g (sp_gain best0) = false -> gain_gt g (sp_gain best) = false) /\
  forall c, In c cs -> adm_of c = true ->
    exists i, imp_of c = Ok i /\ gain_gt (gain_of c i) (sp_gain best) = false.
Proof.
  intros HO cs. induction cs as [|c cs IH]; intros best0 best H.
  - inversion H; subst. split; auto. intros c [].
  - cbn [foldM] in H. apply bind_ok in H. destruct H as [best1 [H1 H2]].
    destruct (IH best1 best H2) as [G1 G2].
    rewrite consider3_eq in H1.
    assert (Hstep : (forall g : T, gain_gt g (sp_gain best0) = false -> gain_gt g (sp_gain best1) = false) /\
       (adm_of c = true -> exists i, imp_of c = Ok i /\ gain_gt (gain_of c i) (sp_gain best1) = false)).
    { destruct (adm_of c); [|inversion H1; subst; split; auto; discriminate].
      apply bind_ok in H1. destruct H1 as [i [Hi H1]]. inversion H1; subst best1; clear H1.
      assert (Eg : sp_gain (cand3 c i (sp_partition best0)) = Some (gain_of c i)) by (destruct c as [[j o] q]; reflexivity).
      destruct (gain_gt (gain_of c i) (sp_gain best0)) eqn:Eg0; split.
      - intros g Hg. rewrite Eg. eapply gain_gt_step; eauto.
      - intros _. exists i. split; auto. rewrite Eg. simpl. apply (ol_irr A HO).
      - auto.
      - intros _. exists i. auto. }
    destruct Hstep as [S1 S2]. split; [auto|]. intros c' [<-|Hc'] Ha; auto.
    destruct (S2 Ha) as [i [Hi Hg]]. exists i. auto.
Qed.

Lemma in_candidates : forall os j o q, In (j, o, q) (candidates os) <->
  In (j, o) os /\ exists p b post, o = p ++ b :: post /\ q = p ++ [b] /\ post <> [].
Proof.
  intros os j o q. unfold P_Split.candidates. rewrite in_flat_map. split.
  - intros [[j' o'] [H1 H2]]. unfold prefixes in H2. simpl in H2. apply in_map_iff in H2.
    destruct H2 as [q' [Eq H2]]. inversion Eq; subst. split; auto. apply in_ext_removelast. auto.
  - intros [H1 H2]. exists (j, o). split; auto. unfold prefixes. apply in_map_iff. exists q. split; auto.
    apply in_ext_removelast. auto.
Qed.

(** The whole search. *)
Definition finish (best : split tk) : res (split tk) :=
  if (sp_found best && sp_is_cat best)%bool then compute_bin_partition tk best else Ok best.

Lemma find_node_split_spec : forall s features p os s', (forall j, In j features -> j < fb_n_features (tc_fb tc)) ->
  (tc_aggregation tc = true -> valid <> []) -> tried s features = Ok (os, s') ->
  find_node_split tk tc (nctx_spec ts tc features train valid p) s =
  let* best := foldM consider3 (candidates os) (reset_split tk) in
  let* best' := finish best in Ok (best', s').
Proof.
  intros s features p os s' Hf Ha Ho. unfold find_node_split.
  change (nc_features (nctx_spec ts tc features train valid p)) with features.
  rewrite (find_loop_spec ts tc HD train valid Ht Hv features s p os s' Hf Ha Ho).
  destruct (foldM consider3 (candidates os) (reset_split tk)) as [best|e]; [|reflexivity].
  reflexivity.
Qed.

(** A found split. [q] are the bins of the training samples that go left. *)
Record chosen (features : list nat) (c : nat * list nat * list nat) (i : T * T) (sp : split tk) : Prop := mkChosen {
  ch_found : sp_found sp = true;
  ch_feature : sp_feature sp = fst (fst c);
  ch_in : In (sp_feature sp) features;
  ch_cat : sp_is_cat sp = cat (sp_feature sp);
  ch_order : order_ok (sp_feature sp) (sp_is_cat sp) (snd (fst c));
  ch_prefix : exists p b post, snd (fst c) = p ++ b :: post /\ snd c = p ++ [b] /\ post <> [] /\ sp_threshold sp = b;
  ch_bins : sp_bins sp = snd (fst c);
  ch_part : sp_partition sp = if sp_is_cat sp then sort_bins (snd c) else [];
  ch_adm : adm_of c = true;
  ch_imp : imp_of c = Ok i;
  ch_gain : sp_gain sp = Some (gain_of c i);
  ch_imps : (sp_imp_left sp, sp_imp_right sp) = i;
  ch_ws : (sp_w_train_left sp, sp_w_train_right sp) = (wl_of c, wr_of c);
  ch_stats : (sp_stat_left sp, sp_stat_right sp) =
     (sl ts tc train (sp_feature sp) (snd c), sr ts tc train (sp_feature sp) (snd c));
  ch_n_left : sp_n_train_left sp = length (filter (fun i => to_left sp (bin tc (sp_feature sp) i)) train);
  ch_n_right : sp_n_train_right sp = length (filter (fun i => negb (to_left sp (bin tc (sp_feature sp) i))) train);
  ch_v_left : sp_n_valid_left sp = length (filter (fun i => to_left sp (bin tc (sp_feature sp) i)) Valid);
  ch_v_right : tc_aggregation tc = true ->
     sp_n_valid_right sp = length (filter (fun i => negb (to_left sp (bin tc (sp_feature sp) i))) valid);
  ch_msl : tc_min_samples_leaf tc <= sp_n_train_left sp /\ tc_min_samples_leaf tc <= sp_n_train_right sp;
  ch_mslv : tc_aggregation tc = true ->
     tc_min_samples_leaf tc <= sp_n_valid_left sp /\ tc_min_samples_leaf tc <= sp_n_valid_right sp
}.

Lemma finish_chosen : forall features os c i, (forall j, In j features -> j < fb_n_features (tc_fb tc)) ->
  (forall j o, In (j, o) os -> In j features /\ order_ok j (cat j) o) ->
  In c (candidates os) -> adm_of c = true -> imp_of c = Ok i ->
  exists sp, finish (cand3 c i []) = Ok sp /\ chosen features c i sp.
Proof.
  intros features os [[j o] q] i Hf Hos Hc Ha Hi.
  apply in_candidates in Hc. destruct Hc as [Hin (p & b & post & EO & Eq & Hpost)].
  destruct (Hos j o Hin) as [Hj Ho]. pose proof (Hf j Hj) as Hjlt.
  assert (Hnd : NoDup o) by (apply (order_nodup tc train j (cat j) o Ho)).
  assert (Hlast : last q 0 = b) by (subst q; apply last_last).
  set (sp := mkSplit tk true (Some (gain_of (j, o, q) i)) j b (fst i) (snd i)
    (n_left (nb tc train j) q) (n_right (length train) (nb tc train j) q)
    (wl_of (j, o, q)) (wr_of (j, o, q)) (vl tc valid j (cat j) q) (v_right (length valid) (vl tc valid j (cat j)) q)
    (sl ts tc train j q) (sr ts tc train j q) (cat j) o (if cat j then sort_bins q else [])).
  exists sp. split.
  { unfold finish, cand3, cand. cbn [sp_found sp_is_cat]. rewrite Hlast. unfold sp. destruct (cat j); [|reflexivity].
    unfold compute_bin_partition. cbn [sp_threshold sp_bins]. rewrite EO at 1. rewrite bins_until_spec by (rewrite <- EO; auto).
    cbn [bind andb]. rewrite <- Eq. reflexivity. }
  assert (Hlt : forall x, left_test (cat j) q x = to_left sp x).
  { intro x. unfold to_left, sp. cbn [sp_is_cat sp_partition sp_threshold]. subst q. unfold left_test.
    destruct (cat j).
    - destruct (mem_bin (p ++ [b]) x) eqn:E1; symmetry.
      + apply mem_bin_in. apply mem_bin_in in E1. eapply Permutation_in; [symmetry; apply sort_bins_perm|auto].
      + destruct (mem_bin (sort_bins (p ++ [b])) x) eqn:E2; auto. apply mem_bin_in in E2.
        eapply Permutation_in in E2; [|apply sort_bins_perm]. apply mem_bin_in in E2. congruence.
    - rewrite rev_app_distr. reflexivity. }
  assert (Hnl : n_left (nb tc train j) q = length (filter (fun i => to_left sp (bin tc j i)) train)).
  { subst q. rewrite (n_left_count tc train j Hjlt (cat j) o Ho p b post EO).
    f_equal. apply filter_ext. intro x. apply Hlt. }
  assert (Hvl : vl tc valid j (cat j) q = length (filter (fun i => to_left sp (bin tc j i)) Valid)).
  { unfold vl. f_equal. apply filter_ext. intro x. apply Hlt. }
  pose proof (filter_length_total (fun i => to_left sp (bin tc j i)) train) as Htot.
  pose proof (filter_length_total (fun i => to_left sp (bin tc j i)) valid) as Hvtot.
  assert (Hnr : n_right (length train) (nb tc train j) q = length (filter (fun i => negb (to_left sp (bin tc j i))) train)).
  { unfold n_right. rewrite Hnl. lia. }
  assert (Hvr : tc_aggregation tc = true -> v_right (length valid) (vl tc valid j (cat j)) q =
     length (filter (fun i => negb (to_left sp (bin tc j i))) valid)).
  { intros Eagg. unfold v_right. rewrite Hvl. unfold seen. rewrite Eagg. lia. }
  unfold adm_of, admissible_j, admissible in Ha. apply andb_prop in Ha. destruct Ha as [Ha Ha3].
  apply andb_prop in Ha. destruct Ha as [Ha1 Ha2]. apply Nat.leb_le in Ha1, Ha2.
  constructor; unfold sp in *; cbn [sp_found sp_gain sp_feature sp_threshold sp_imp_left sp_imp_right sp_n_train_left
    sp_n_train_right sp_w_train_left sp_w_train_right sp_n_valid_left sp_n_valid_right sp_stat_left
    sp_stat_right sp_is_cat sp_bins sp_partition fst snd] in *; auto.
  - exists p, b, post. auto.
  - unfold adm_of, admissible_j, admissible. rewrite Ha3. apply Nat.leb_le in Ha1, Ha2. rewrite Ha1, Ha2. auto.
  - destruct i; auto.
  - intros Eagg. rewrite Eagg in Ha3. simpl in Ha3. apply andb_prop in Ha3. destruct Ha3 as [B1 B2].
    apply Nat.leb_le in B1, B2. auto.
Qed.

(** Both children of a found split get a training sample. *)
Lemma chosen_nonempty : forall features c i sp, chosen features c i sp ->
  1 <= sp_n_train_left sp /\ 1 <= sp_n_train_right sp.
Proof.
  intros features [[j o] q] i sp C. pose proof (ch_order _ _ _ _ C) as Ho.
  destruct (ch_prefix _ _ _ _ C) as (p & b & post & EO & Eq & Hpost & Eb). cbn [fst snd] in *.
  rewrite (ch_n_left _ _ _ _ C), (ch_n_right _ _ _ _ C).
  assert (Hsamp : forall x, In x o -> exists i, In i train /\ bin tc (sp_feature sp) i = x).
  { intros x Hx. destruct Ho as [HP _]. eapply Permutation_in in Hx; [|exact HP].
    apply (proj1 (distinct_in _ _)) in Hx. apply in_map_iff in Hx. destruct Hx as [i' [H1 H2]]. eauto. }
  assert (Hnd : NoDup o) by (apply (order_nodup tc train _ _ o Ho)).
  assert (Hone : forall (f : nat -> bool) i, In i train -> f i = true -> 1 <= length (filter f train)).
  { intros f i0 H1 H2. assert (H : In i0 (filter f train)) by (apply filter_In; auto).
    destruct (filter f train); [destruct H|simpl; lia]. }
  split.
  - destruct (Hsamp b) as [i0 [H1 H2]]; [rewrite EO; apply in_elt|]. apply (Hone _ i0); auto. rewrite H2.
    unfold to_left. rewrite (ch_part _ _ _ _ C). cbn [snd]. destruct (sp_is_cat sp).
    + apply mem_bin_in. eapply Permutation_in; [symmetry; apply sort_bins_perm|]. rewrite Eq. apply in_app_iff. simpl; auto.
    + rewrite Eb. apply Nat.leb_refl.
  - destruct post as [|x post]; [congruence|].
    destruct (Hsamp x) as [i0 [H1 H2]]; [rewrite EO; apply in_app_iff; simpl; auto|]. apply (Hone _ i0); auto. rewrite H2.
    unfold to_left. rewrite (ch_part _ _ _ _ C). cbn [snd]. destruct (sp_is_cat sp) eqn:Ec.
    + destruct (mem_bin (sort_bins q) x) eqn:Em; auto. apply mem_bin_in in Em.
      eapply Permutation_in in Em; [|apply sort_bins_perm]. rewrite Eq in Em. exfalso.
      rewrite EO in Hnd. replace (p ++ b :: x :: post) with ((p ++ [b]) ++ x :: post) in Hnd by (rewrite <- app_assoc; auto).
      apply NoDup_remove_2 in Hnd. apply Hnd. apply in_app_iff. auto.
    + destruct Ho as [_ Hs]. specialize (Hs eq_refl). rewrite EO in Hs.
      rewrite Eb. assert (b < x); [|replace (x <=? b) with false by (symmetry; apply Nat.leb_gt; lia); auto].
      assert (b <= x) by (apply (sorted_app_ge _ _ _ x Hs); simpl; auto).
      assert (b <> x); [|lia]. intros ->. rewrite EO in Hnd. apply NoDup_remove_2 in Hnd. apply Hnd.
      apply in_app_iff. simpl. auto.
Qed.

Lemma chosen_goes_left : forall features c i sp b, chosen features c i sp -> goes_left tk sp b = Ok (to_left sp b).
Proof.
  intros features c i sp b C. unfold goes_left, to_left. rewrite (ch_part _ _ _ _ C).
  destruct (sp_is_cat sp); auto. rewrite is_bin_in_partition_spec; [reflexivity|apply sort_bins_sorted].
Qed.

(** The search succeeds (or divides by zero); its result is no split or a chosen one. *)
Theorem find_ok : forall Z s features p, (forall j, In j features -> j < fb_n_features (tc_fb tc)) ->
  (tc_aggregation tc = true -> valid <> []) ->
  (forall c, adm_of c = true -> (exists os s', tried s features = Ok (os, s') /\ In c (candidates os)) ->
     okz Z (fun _ => True) (imp_of c)) ->
  okz Z (fun r => exists os, tried s features = Ok (os, snd r) /\
           (fst r = reset_split tk \/
            exists c i, In c (candidates os) /\ chosen features c i (fst r)))
    (find_node_split tk tc (nctx_spec ts tc features train valid p) s).
Proof.
  intros Z s features p Hf Ha HZ.
  destruct (tried_ok ts tc HD train Ht features s Hf) as (os & s' & Ho & Hos).
  rewrite (find_node_split_spec s features p os s' Hf Ha Ho).
  apply okz_bind. eapply okz_weaken; [exact (fun z => z)| |apply search_from].
  - intros best _ [->|(c & i & Hc & Hadm & Hi & ->)].
    + cbn [okz finish bind reset_split sp_found sp_is_cat andb]. exists os. split; auto.
    + destruct (finish_chosen features os c i Hf Hos Hc Hadm Hi) as [sp [H1 H2]]. rewrite H1. cbn [bind okz fst snd].
      exists os. split; auto. right. exists c, i. auto.
  - intros c Hc Hadm. apply HZ; auto. eauto.
Qed.

(** The impurities of any candidate: only a division by zero can fail. *)
Lemma imp_of_okz : forall s features os s' c, (forall j, In j features -> j < fb_n_features (tc_fb tc)) ->
  tried s features = Ok (os, s') -> In c (candidates os) -> okz True (fun _ => True) (imp_of c).
Proof.
  intros s features os s' [[j o] q] Hf Ho Hc.
  destruct (tried_ok ts tc HD train Ht features s Hf) as (os' & s'' & Ho' & Hos).
  rewrite Ho in Ho'. inversion Ho'; subst os' s''.
  apply in_candidates in Hc. destruct Hc as [Hin (p & b & post & EO & Eq & Hpost)].
  destruct (Hos j o Hin) as [Hj Hok]. unfold imp_of. apply (ts_impurity tk ts).
  - apply (sl_ok ts tc train j q). intros x Hx.
    apply (order_lt ts tc HD train Ht j (Hf j Hj) (cat j) o Hok). rewrite EO. rewrite Eq in Hx.
    apply in_app_iff in Hx. apply in_app_iff. simpl in *. tauto.
  - apply (sr_ok ts tc train j q). intros x Hx.
    apply (order_lt ts tc HD train Ht j (Hf j Hj) (cat j) o Hok). rewrite EO. rewrite Eq in Hx.
    apply in_app_iff in Hx. apply in_app_iff. simpl in *. tauto.
Qed.

End Find.

Arguments ch_found {A E tk ts tc train valid features c i sp}.
Arguments ch_feature {A E tk ts tc train valid features c i sp}.
Arguments ch_in {A E tk ts tc train valid features c i sp}.
Arguments ch_cat {A E tk ts tc train valid features c i sp}.
Arguments ch_order {A E tk ts tc train valid features c i sp}.
Arguments ch_prefix {A E tk ts tc train valid features c i sp}.
Arguments ch_bins {A E tk ts tc train valid features c i sp}.
Arguments ch_part {A E tk ts tc train valid features c i sp}.
Arguments ch_adm {A E tk ts tc train valid features c i sp}.
Arguments ch_imp {A E tk ts tc train valid features c i sp}.
Arguments ch_gain {A E tk ts tc train valid features c i sp}.
Arguments ch_imps {A E tk ts tc train valid features c i sp}.
Arguments ch_ws {A E tk ts tc train valid features c i sp}.
Arguments ch_stats {A E tk ts tc train valid features c i sp}.
Arguments ch_n_left {A E tk ts tc train valid features c i sp}.
Arguments ch_n_right {A E tk ts tc train valid features c i sp}.
Arguments ch_v_left {A E tk ts tc train valid features c i sp}.
Arguments ch_v_right {A E tk ts tc train valid features c i sp}.
Arguments ch_msl {A E tk ts tc train valid features c i sp}.
Arguments ch_mslv {A E tk ts tc train valid features c i sp}.
