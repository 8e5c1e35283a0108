(** * The split chosen at a node *)

Require Import List Arith Lia NArith Permutation Sorted.
Require Import Verif.Base Verif.Num Verif.M_Bitarray Verif.P_Bitarray Verif.M_Utils Verif.M_Impurity
  Verif.M_Context Verif.M_Node Verif.M_Split Verif.P_Utils Verif.P_List Verif.P_Task Verif.P_Node
  Verif.P_Bins Verif.P_Scan.
Import ListNotations.
Local Open Scope res_scope.

(** Which bins go left: by membership of a set, or by comparison with the last bin. *)
Definition left_test (is_cat : bool) (q : list nat) (b : nat) : bool :=
  if is_cat then mem_bin q b else match rev q with [] => false | t :: _ => b <=? t end.

Lemma left_test_snoc : forall is_cat p t b,
  left_test is_cat (p ++ [t]) b = if is_cat then (mem_bin p b || (b =? t))%bool else (b <=? t).
Proof.
  intros is_cat p t b. unfold left_test. destruct is_cat.
  - rewrite mem_bin_app. f_equal. unfold mem_bin. simpl. apply Bool.orb_false_r.
  - rewrite rev_app_distr. reflexivity.
Qed.

Lemma filter_length_le : forall {X} (f g : X -> bool) l, (forall x, In x l -> f x = true -> g x = true) ->
  length (filter f l) <= length (filter g l).
Proof.
  induction l as [|x l IH]; simpl; intros H; auto.
  specialize (IH ltac:(intros; apply H; auto)).
  destruct (f x) eqn:E1; [rewrite (H x) by auto; simpl; lia|]. destruct (g x); simpl; lia.
Qed.

Lemma filter_length_total : forall {X} (f : X -> bool) l,
  length (filter f l) + length (filter (fun x => negb (f x)) l) = length l.
Proof. induction l; simpl; auto. destruct (f a); simpl; lia. Qed.

Lemma bins_until_spec : forall p b post, NoDup (p ++ b :: post) -> bins_until b (p ++ b :: post) = Ok (p ++ [b]).
Proof.
  induction p as [|x p IH]; intros b post N; simpl.
  - rewrite Nat.eqb_refl. auto.
  - simpl in N. inversion N as [|? ? Hx N']; subst. destruct (x =? b) eqn:E1.
    + apply Nat.eqb_eq in E1. subst. exfalso. apply Hx. apply in_elt.
    + rewrite IH by auto. reflexivity.
Qed.

Section Split.
Context {A : arith} {E : env A} {tk : task A E} (ts : task_shape tk).
Notation T := (num A).
Context (tc : tctx A (tk_Y tk)) (HD : data_ok ts tc).
Context (train valid : list nat) (Ht : in_range tc train) (Hv : in_range tc valid).

Notation Valid := (seen tc valid).

Definition ne (j : nat) : list nat := distinct (map (bin tc j) train).
Definition hist (j : nat) : tk_H tk :=
  ts_hist ts (tc_max_n_bins tc) (map (fun i => (bin tc j i, lab ts tc i, wt tc i)) train).
Definition nb (j b : nat) : nat := length (inbin tc j b train).
Definition wb (j b : nat) : T := asum (map (wt tc) (inbin tc j b train)).
Definition vl (j : nat) (is_cat : bool) (q : list nat) : nat :=
  length (filter (fun i => left_test is_cat q (bin tc j i)) Valid).
Definition stat_run (f : tk_S tk -> tk_H tk -> nat -> res (tk_S tk)) (s : tk_S tk) (j : nat) (q : list nat) : tk_S tk :=
  match foldM (fun s b => f s (hist j) b) q s with Ok s' => s' | Err _ => s end.
Definition sl (j : nat) : list nat -> tk_S tk := stat_run (tk_stat_add tk) (tk_stat0 tk) j.
Definition sr (j : nat) : list nat -> tk_S tk := stat_run (tk_stat_sub tk) (tk_stat_total tk (hist j)) j.

(** An order in which the bins of feature [j] may be scanned. *)
Definition order_ok (j : nat) (is_cat : bool) (o : list nat) : Prop :=
  Permutation o (ne j) /\ (is_cat = false -> StronglySorted le o).

Definition wtot : T := asum (map (wt tc) train).

Definition admissible_j (j : nat) (is_cat : bool) (q : list nat) : bool :=
  admissible tk tc (length valid) (length train) (nb j) (vl j is_cat) q.

Definition consider_j (j : nat) (is_cat : bool) (o : list nat) (best : split tk) (q : list nat) : res (split tk) :=
  consider tk tc (length valid) j is_cat o (length train) wtot (nb j) (wb j) (vl j is_cat) (sl j) (sr j) best q.

Lemma ne_lt : forall j b, j < fb_n_features (tc_fb tc) -> In b (ne j) -> b < tc_max_n_bins tc.
Proof.
  intros j b Hj Hb. unfold ne in Hb. apply (proj1 (distinct_in _ _)) in Hb. apply in_map_iff in Hb.
  destruct Hb as [i [<- Hi]]. apply (bin_lt ts tc HD); auto.
Qed.

Lemma stat_run_ok : forall f s0 j, ts_Sok ts s0 ->
  (forall b s, ts_Sok ts s -> b < tc_max_n_bins tc -> exists s', f s (hist j) b = Ok s' /\ ts_Sok ts s') ->
  forall q, (forall b, In b q -> b < tc_max_n_bins tc) ->
  foldM (fun s b => f s (hist j) b) q s0 = Ok (stat_run f s0 j q) /\ ts_Sok ts (stat_run f s0 j q).
Proof.
  intros f s0 j H0 Hf q Hq. unfold stat_run.
  assert (G : okz False (ts_Sok ts) (foldM (fun s b => f s (hist j) b) q s0)).
  { apply (okz_foldM False (fun _ => ts_Sok ts)); auto. intros pre b post s Eq Hs.
    destruct (Hf b s Hs) as [s' [H1 H2]]; [apply Hq; rewrite Eq; apply in_elt|].
    rewrite H1. exact H2. }
  destruct (foldM _ q s0) as [s|e]; simpl in G; [auto|destruct e; tauto].
Qed.

Lemma sl_ok : forall j q, (forall b, In b q -> b < tc_max_n_bins tc) ->
  foldM (fun s b => tk_stat_add tk s (hist j) b) q (tk_stat0 tk) = Ok (sl j q) /\ ts_Sok ts (sl j q).
Proof.
  intros j. apply stat_run_ok; [apply ts_stat0|]. intros b s Hs Hb. apply (ts_stat_add tk ts); auto.
Qed.

Lemma sr_ok : forall j q, (forall b, In b q -> b < tc_max_n_bins tc) ->
  foldM (fun s b => tk_stat_sub tk s (hist j) b) q (tk_stat_total tk (hist j)) = Ok (sr j q) /\ ts_Sok ts (sr j q).
Proof.
  intros j. apply stat_run_ok; [apply ts_stat_total|]. intros b s Hs Hb. apply (ts_stat_sub tk ts); auto.
Qed.

(** Counts of a prefix of an order. *)
Section Prefix.
Context (j : nat) (Hj : j < fb_n_features (tc_fb tc)) (is_cat : bool) (o : list nat) (Ho : order_ok j is_cat o).

Lemma order_nodup : NoDup o.
Proof. destruct Ho as [H _]. eapply Permutation_NoDup; [symmetry; exact H|]. apply distinct_nodup. Qed.

Lemma order_lt : forall b, In b o -> b < tc_max_n_bins tc.
Proof. intros b Hb. apply (ne_lt j); auto. destruct Ho as [H _]. eapply Permutation_in; eauto. Qed.

Lemma order_train : forall i, In i train -> In (bin tc j i) o.
Proof.
  intros i Hi. destruct Ho as [H _]. eapply Permutation_in; [symmetry; exact H|].
  unfold ne. apply distinct_in. apply in_map. auto.
Qed.

Lemma left_test_order : forall p t post b, o = p ++ t :: post -> In b o ->
  left_test is_cat (p ++ [t]) b = mem_bin (p ++ [t]) b.
Proof.
  intros p t post b EO Hb. rewrite left_test_snoc. rewrite mem_bin_app.
  unfold mem_bin at 3. simpl. rewrite Bool.orb_false_r.
  pose proof Ho as [_ Hs]. pose proof order_nodup as N. destruct is_cat; auto. specialize (Hs eq_refl). rewrite EO in Hs.
  rewrite EO in Hb. apply in_app_iff in Hb. simpl in Hb.
  rewrite EO in N. apply NoDup_remove_2 in N.
  destruct Hb as [Hb|[<-|Hb]].
  - pose proof (sorted_app_le _ _ _ _ Hs Hb). apply Nat.leb_le in H. rewrite H.
    apply mem_bin_in in Hb. rewrite Hb. auto.
  - rewrite Nat.leb_refl, Nat.eqb_refl, Bool.orb_true_r. auto.
  - pose proof (sorted_app_ge _ _ _ _ Hs Hb).
    assert (b <> t) by (intros ->; apply N; apply in_app_iff; auto).
    replace (b <=? t) with false by (symmetry; apply Nat.leb_gt; lia).
    replace (b =? t) with false by (symmetry; apply Nat.eqb_neq; lia).
    rewrite Bool.orb_false_r. symmetry. destruct (mem_bin p b) eqn:Em; auto.
    apply mem_bin_in in Em. pose proof (sorted_app_le _ _ _ _ Hs Em). lia.
Qed.

Lemma n_left_count : forall p t post, o = p ++ t :: post ->
  n_left (nb j) (p ++ [t]) = length (filter (fun i => left_test is_cat (p ++ [t]) (bin tc j i)) train).
Proof.
  intros p t post EO. unfold n_left, nb, inbin. rewrite count_by_bins.
  - f_equal. apply filter_ext_in. intros i Hi. symmetry. apply (left_test_order p t post); auto.
    apply order_train. auto.
  - pose proof order_nodup as N. rewrite EO in N.
    replace (p ++ t :: post) with ((p ++ [t]) ++ post) in N by (rewrite <- app_assoc; auto).
    eapply nodup_app_l; eauto.
Qed.

Lemma n_left_total : n_left (nb j) o = length train.
Proof.
  unfold n_left, nb, inbin. rewrite count_by_bins by apply order_nodup.
  f_equal. apply filter_all. intros i Hi. apply mem_bin_in. apply order_train. auto.
Qed.

Lemma vl_cat_snoc : is_cat = true -> forall p b post, o = p ++ b :: post ->
  vl j true (p ++ [b]) = vl j true p + length (inbin tc j b Valid).
Proof.
  intros Hc p b post EO. unfold vl, left_test.
  pose proof order_nodup as N. rewrite EO in N. apply NoDup_remove_2 in N.
  assert (Hb : ~ In b p) by (intro H; apply N; apply in_app_iff; auto).
  unfold inbin. clear - Hb. induction Valid as [|i l IH]; simpl; auto.
  rewrite mem_bin_app. unfold mem_bin at 2. simpl. rewrite Bool.orb_false_r.
  destruct (bin tc j i =? b) eqn:E1.
  - apply Nat.eqb_eq in E1. rewrite Bool.orb_true_r. simpl.
    destruct (mem_bin p (bin tc j i)) eqn:Em; [apply mem_bin_in in Em; congruence|]. lia.
  - rewrite Bool.orb_false_r. destruct (mem_bin p (bin tc j i)); simpl; lia.
Qed.

Lemma vl_mono : forall p q post, o = p ++ q ++ post -> vl j is_cat p <= vl j is_cat (p ++ q).
Proof.
  intros p q post EO. unfold vl. apply filter_length_le. intros i _ H.
  destruct q as [|b0 q0] using rev_ind; [rewrite app_nil_r; auto|]. clear IHq0.
  rewrite app_assoc, left_test_snoc.
  destruct p as [|t p0] using rev_ind; [unfold left_test in H; destruct is_cat; discriminate|]. clear IHp0.
  rewrite left_test_snoc in H. destruct is_cat eqn:Ec.
  - rewrite mem_bin_app, mem_bin_app. unfold mem_bin at 2. simpl. rewrite Bool.orb_false_r, H. auto.
  - destruct Ho as [_ Hs]. specialize (Hs eq_refl). apply Nat.leb_le in H. apply Nat.leb_le.
    rewrite EO in Hs. rewrite <- !app_assoc in Hs. simpl in Hs.
    assert (t <= b0); [|lia]. apply (sorted_app_ge _ _ _ b0 Hs). apply in_app_iff. right. simpl. auto.
Qed.

End Prefix.

(** Scanning one order. *)
Lemma try_order_spec : forall j is_cat o cumsum best features p, j < fb_n_features (tc_fb tc) ->
  order_ok j is_cat o ->
  (is_cat = false -> forall b, In b o -> get cumsum b = Ok (vl j false [b])) ->
  try_feature_order tk tc (nctx_spec ts tc features train valid p) j (row_spec ts tc j train Valid) is_cat cumsum best o =
  foldM (consider_j j is_cat o) (ext [] (removelast o)) best.
Proof.
  intros j is_cat o cumsum best features p Hj Ho Hcs.
  pose proof (order_lt j Hj is_cat o Ho) as Hlt.
  unfold consider_j. apply try_feature_order_spec; try reflexivity.
  - intros b Hb. unfold row_spec. cbn [r_n_train]. rewrite get_map_seq by auto. reflexivity.
  - intros b Hb. unfold row_spec. cbn [r_w_train]. rewrite get_map_seq by auto. reflexivity.
  - unfold vl, left_test. destruct is_cat; simpl.
    + induction Valid; simpl; auto.
    + induction Valid; simpl; auto.
  - intros q b post EO. assert (Hb : In b o) by (rewrite EO; apply in_elt). destruct is_cat eqn:Ec.
    + unfold row_spec. cbn [r_n_valid]. rewrite get_map_seq by auto. cbn [bind].
      f_equal. symmetry. eapply vl_cat_snoc; eauto.
    + rewrite Hcs by auto. f_equal. unfold vl. f_equal. apply filter_ext. intros i.
      rewrite left_test_snoc. reflexivity.
  - intros. eapply vl_mono; eauto.
  - unfold vl. transitivity (length Valid).
    + rewrite <- (filter_length_total (fun i => left_test is_cat o (bin tc j i)) Valid). lia.
    + unfold seen. destruct (tc_aggregation tc); simpl; lia.
  - rewrite (n_left_total j is_cat o Ho). auto.
  - intros q b post EO.
    destruct (sl_ok j q) as [H1 _]; [intros; apply Hlt; rewrite EO; apply in_app_iff; auto|].
    destruct (sl_ok j (q ++ [b])) as [H2 _].
    { intros b' Hb'. apply Hlt. rewrite EO. apply in_app_iff in Hb'. apply in_app_iff. simpl in *. tauto. }
    rewrite foldM_app, H1 in H2. cbn [bind foldM] in H2. cbn [row_spec r_hist]. fold (hist j).
    destruct (tk_stat_add tk (sl j q) (hist j) b); cbn [bind] in H2; auto.
  - intros q b post EO.
    destruct (sr_ok j q) as [H1 _]; [intros; apply Hlt; rewrite EO; apply in_app_iff; auto|].
    destruct (sr_ok j (q ++ [b])) as [H2 _].
    { intros b' Hb'. apply Hlt. rewrite EO. apply in_app_iff in Hb'. apply in_app_iff. simpl in *. tauto. }
    rewrite foldM_app, H1 in H2. cbn [bind foldM] in H2. cbn [row_spec r_hist]. fold (hist j).
    destruct (tk_stat_sub tk (sr j q) (hist j) b); cbn [bind] in H2; auto.
  - apply length_bounded_nodup; auto. apply (order_nodup j is_cat o Ho).
Qed.

(** ** All features *)

Definition cat (j : nat) : bool := nth j (tc_is_categorical tc) false.

(** The orders tried for feature [j]: none if it has a single bin. *)
Definition orders_of (s : rng E) (j : nat) : res (list (list nat) * rng E) :=
  if 1 <? length (ne j) then
    if cat j then tk_cat_orders tk s (hist j) (ne j) else Ok ([sort_bins (ne j)], s)
  else Ok ([], s).

Definition tried (s : rng E) (features : list nat) : res (list (nat * list nat) * rng E) :=
  foldM (fun '(acc, s) j => let* ' (os, s') := orders_of s j in Ok (acc ++ map (pair j) os, s'))
    features ([], s).

Definition prefixes (jo : nat * list nat) : list (nat * list nat * list nat) :=
  map (fun q => (fst jo, snd jo, q)) (ext [] (removelast (snd jo))).
Definition candidates (os : list (nat * list nat)) : list (nat * list nat * list nat) := flat_map prefixes os.

Definition consider3 (best : split tk) (c : nat * list nat * list nat) : res (split tk) :=
  let '(j, o, q) := c in consider_j j (cat j) o best q.

Lemma foldM_map : forall {X Y S} (f : S -> Y -> res S) (g : X -> Y) l s,
  foldM f (map g l) s = foldM (fun s x => f s (g x)) l s.
Proof. induction l; intros s; simpl; auto. destruct (f s (g a)); simpl; auto. Qed.

Lemma cat_get : forall j, j < fb_n_features (tc_fb tc) -> get (tc_is_categorical tc) j = Ok (cat j).
Proof. intros j Hj. apply nth_get. rewrite (do_cat ts tc HD). auto. Qed.

Lemma orders_of_ok : forall s j, j < fb_n_features (tc_fb tc) ->
  exists os s', orders_of s j = Ok (os, s') /\ forall o, In o os -> order_ok j (cat j) o.
Proof.
  intros s j Hj. unfold orders_of. destruct (1 <? length (ne j)); [|exists [], s; split; [auto|intros o []]].
  destruct (cat j) eqn:Ec.
  - destruct (ts_orders tk ts) with (s := s) (n := tc_max_n_bins tc)
      (l := map (fun i => (bin tc j i, lab ts tc i, wt tc i)) train) (bins := ne j) as (os & s' & H1 & H2).
    + apply (do_tscat ts tc HD). rewrite <- Ec. unfold cat. apply nth_In. rewrite (do_cat ts tc HD). auto.
    + intros b Hb. eapply ne_lt; eauto.
    + exists os, s'. split; auto. intros o Ho. split; auto. discriminate.
  - exists [sort_bins (ne j)], s. split; auto. intros o [<-|[]]. split; [apply sort_bins_perm|].
    intros _. apply sort_bins_sorted.
Qed.

(** One feature. With aggregation, the node must hold a validation sample. *)
Lemma along_feature_spec : forall s j f features p best, nth_error features f = Some j ->
  j < fb_n_features (tc_fb tc) -> (tc_aggregation tc = true -> valid <> []) ->
  (let* r := get (nc_rows (nctx_spec ts tc features train valid p)) f in
   if 1 <? length (r_ne_train r)
   then find_best_split_along_feature tk tc (nctx_spec ts tc features train valid p) s j f best
   else Ok (best, s)) =
  let* ' (os, s') := orders_of s j in
  let* best' := foldM consider3 (candidates (map (pair j) os)) best in
  Ok (best', s').
Proof.
  intros s j f features p best Hf Hj Hagg.
  assert (Hr : get (nc_rows (nctx_spec ts tc features train valid p)) f = Ok (row_spec ts tc j train Valid)).
  { cbn [nctx_spec nc_rows]. apply get_ok. rewrite nth_error_map, Hf. reflexivity. }
  rewrite Hr. cbn [bind]. cbn [row_spec r_ne_train]. fold (ne j).
  destruct (orders_of_ok s j Hj) as (os & s' & Hos & Hord). rewrite Hos. cbn [bind].
  unfold orders_of in Hos. destruct (1 <? length (ne j)) eqn:E1.
  2:{ inversion Hos; subst. reflexivity. }
  unfold find_best_split_along_feature. rewrite Hr, (cat_get j Hj). cbn [bind].
  assert (Hfold : forall os, candidates (map (pair j) os) =
     flat_map (fun o => map (fun q => (j, o, q)) (ext [] (removelast o))) os).
  { intros l. unfold candidates. clear. induction l; simpl; auto. f_equal. auto. }
  assert (Hc3 : forall o b, foldM consider3 (map (fun q => (j, o, q)) (ext [] (removelast o))) b =
     foldM (consider_j j (cat j) o) (ext [] (removelast o)) b).
  { intros o b. rewrite foldM_map. reflexivity. }
  rewrite Hfold. destruct (cat j) eqn:Ec.
  - cbn [row_spec r_hist r_ne_train r_n_train]. fold (hist j) (ne j). rewrite Hos. cbn [bind].
    assert (G : forall l b, (forall o, In o l -> order_ok j true o) ->
      foldM (try_feature_order tk tc (nctx_spec ts tc features train valid p) j (row_spec ts tc j train Valid) true
        (repeat 0 (length (map (fun b => length (inbin tc j b train)) (seq 0 (tc_max_n_bins tc)))))) l b =
      foldM consider3 (flat_map (fun o => map (fun q => (j, o, q)) (ext [] (removelast o))) l) b).
    { induction l as [|o l IH]; intros b Hl; [reflexivity|]. cbn [foldM flat_map].
      rewrite foldM_app, Hc3. rewrite try_order_spec; auto; [|apply Hl; simpl; auto|discriminate].
      destruct (foldM (consider_j j true o) (ext [] (removelast o)) b); [|reflexivity].
      cbn [bind]. apply IH. intros; apply Hl; simpl; auto. }
    rewrite G by auto. reflexivity.
  - inversion Hos; subst os s'. cbn [row_spec r_ne_train r_ne_valid r_n_valid r_n_train]. fold (ne j).
    rewrite map_length, seq_length. cbn [flat_map]. rewrite app_nil_r, Hc3.
    destruct (Hord (sort_bins (ne j)) ltac:(simpl; auto)) as [HP HS]. specialize (HS eq_refl).
    assert (HO : order_ok j false (sort_bins (ne j))) by (split; auto).
    assert (Hcs : exists cs, cumsum_valid (tc_aggregation tc) (sort_bins (ne j)) (sort_bins (distinct (map (bin tc j) Valid)))
        (map (fun b => length (inbin tc j b Valid)) (seq 0 (tc_max_n_bins tc))) (tc_max_n_bins tc) = Ok cs /\
        forall b, In b (sort_bins (ne j)) -> get cs b = Ok (vl j false [b])).
    { destruct (tc_aggregation tc) eqn:Ea.
      - set (D := distinct (map (bin tc j) Valid)).
        assert (HDin : forall v, In v (sort_bins D) <-> In v (map (bin tc j) Valid)).
        { intro v. rewrite <- (distinct_in (map (bin tc j) Valid)). fold D.
          split; intro HI; (eapply Permutation_in; [|exact HI]); [|symmetry]; apply sort_bins_perm. }
        assert (HVr : in_range tc Valid) by (apply seen_range; auto).
        destruct (cumsum_valid_spec (sort_bins D)
          (map (fun b => length (inbin tc j b Valid)) (seq 0 (tc_max_n_bins tc)))
          (fun b => length (inbin tc j b Valid))) with (B := sort_bins (ne j)) (size := tc_max_n_bins tc)
          as (cs & H1 & H2 & H3).
        + apply sorted_nodup_lt; [apply sort_bins_sorted|].
          eapply Permutation_NoDup; [symmetry; apply sort_bins_perm|]. apply distinct_nodup.
        + unfold seen in HDin. rewrite Ea in HDin. specialize (Hagg eq_refl). destruct valid as [|i v]; [congruence|].
          intro H. specialize (HDin (bin tc j i)). rewrite H in HDin. simpl in HDin. tauto.
        + intros v Hv'. apply HDin in Hv'. apply in_map_iff in Hv'. destruct Hv' as [i [<- Hi]].
          rewrite get_map_seq; auto. apply (bin_lt ts tc HD); auto.
        + apply sort_bins_sorted.
        + apply (order_nodup j false). auto.
        + intros b Hb. apply (order_lt j Hj false (sort_bins (ne j)) HO). auto.
        + exists cs. split; auto. intros b Hb. rewrite H3 by auto. f_equal.
          unfold cum_le, vl, inbin. rewrite count_by_bins.
          * f_equal. apply filter_ext_in. intros i Hi. unfold left_test. simpl.
            destruct (bin tc j i <=? b) eqn:Eb.
            -- apply mem_bin_in. apply filter_In. split; auto. apply HDin. apply in_map. auto.
            -- destruct (mem_bin _ _) eqn:Em; auto. apply mem_bin_in in Em. apply filter_In in Em. destruct Em. congruence.
          * apply NoDup_filter. eapply Permutation_NoDup; [symmetry; apply sort_bins_perm|]. apply distinct_nodup.
      - exists (repeat 0 (tc_max_n_bins tc)). split; auto. intros b Hb.
        assert (Hb' : b < tc_max_n_bins tc) by (apply (order_lt j Hj false (sort_bins (ne j)) HO); auto).
        unfold vl, seen. rewrite Ea. simpl. apply get_ok. apply nth_error_repeat. auto. }
    destruct Hcs as [cs [H1 H2]]. rewrite H1. cbn [bind].
    rewrite try_order_spec; auto.
Qed.

Lemma tried_ok : forall features s, (forall j, In j features -> j < fb_n_features (tc_fb tc)) ->
  exists os s', tried s features = Ok (os, s') /\
    forall j o, In (j, o) os -> In j features /\ order_ok j (cat j) o.
Proof.
  intros features s Hf. unfold tried.
  assert (G : forall l acc s, (forall j, In j l -> In j features) ->
    (forall j o, In (j, o) acc -> In j features /\ order_ok j (cat j) o) ->
    exists os s', foldM (fun '(acc, s) j => let* ' (os, s') := orders_of s j in Ok (acc ++ map (pair j) os, s'))
      l (acc, s) = Ok (os, s') /\ forall j o, In (j, o) os -> In j features /\ order_ok j (cat j) o).
  { induction l as [|j l IH]; intros acc s0 Hl Hacc.
    - exists acc, s0. auto.
    - cbn [foldM]. destruct (orders_of_ok s0 j) as (os & s' & H1 & H2); [apply Hf; apply Hl; simpl; auto|].
      rewrite H1. cbn [bind]. apply IH; [intros; apply Hl; simpl; auto|].
      intros j' o Ho. apply in_app_iff in Ho. destruct Ho as [Ho|Ho]; auto.
      apply in_map_iff in Ho. destruct Ho as [o' [Eo Ho]]. inversion Eo; subst.
      split; [apply Hl; simpl; auto|auto]. }
  apply G; auto. intros j o [].
Qed.

(** The loop over features considers the candidates one after the other. *)
Lemma find_loop_spec : forall features s p os s', (forall j, In j features -> j < fb_n_features (tc_fb tc)) ->
  (tc_aggregation tc = true -> valid <> []) ->
  tried s features = Ok (os, s') ->
  foldM (fun '(best, s) '(f, feature) =>
           let* r := get (nc_rows (nctx_spec ts tc features train valid p)) f in
           if 1 <? length (r_ne_train r)
           then find_best_split_along_feature tk tc (nctx_spec ts tc features train valid p) s feature f best
           else Ok (best, s))
        (combine (seq 0 (length features)) features) (reset_split tk, s) =
  let* best := foldM consider3 (candidates os) (reset_split tk) in Ok (best, s').
Proof.
  intros features s p os s' Hf Hagg.
  match goal with |- _ -> foldM ?f _ _ = _ => set (step := f) end.
  unfold tried.
  assert (G : forall l pre acc s best, features = pre ++ l ->
    foldM consider3 (candidates acc) (reset_split tk) = Ok best ->
    forall os s', foldM (fun '(acc, s) j => let* ' (os, s') := orders_of s j in Ok (acc ++ map (pair j) os, s')) l (acc, s) = Ok (os, s') ->
    foldM step (combine (seq (length pre) (length l)) l) (best, s) =
    let* best := foldM consider3 (candidates os) (reset_split tk) in Ok (best, s')).
  { induction l as [|j l IH]; intros pre acc s0 best EF Hacc os0 s1 H.
    - simpl in H. inversion H; subst. simpl. rewrite Hacc. reflexivity.
    - cbn [length seq combine foldM]. cbn [foldM] in H.
      assert (Hjf : In j features) by (rewrite EF; apply in_elt).
      destruct (orders_of_ok s0 j (Hf j Hjf)) as (osj & sj & Hoj & _). rewrite Hoj in H. cbn [bind] in H.
      unfold step at 1. rewrite along_feature_spec; auto.
      2:{ rewrite EF. rewrite nth_error_app2, Nat.sub_diag; auto. }
      rewrite Hoj. cbn [bind].
      assert (Hcomb : foldM consider3 (candidates (acc ++ map (pair j) osj)) (reset_split tk) =
         foldM consider3 (candidates (map (pair j) osj)) best).
      { unfold candidates at 1. rewrite flat_map_app, foldM_app. fold (candidates acc). rewrite Hacc. reflexivity. }
      destruct (foldM consider3 (candidates (map (pair j) osj)) best) as [best'|e] eqn:Eb.
      + cbn [bind]. specialize (IH (pre ++ [j]) (acc ++ map (pair j) osj) sj best').
        rewrite app_length in IH. simpl in IH. rewrite Nat.add_1_r in IH. apply IH; auto.
        rewrite <- app_assoc. exact EF.
      + cbn [bind].
        (* an error while considering is the error of the whole *)
        assert (Hpre : forall l acc s os s', foldM (fun '(acc, s) j => let* ' (os, s') := orders_of s j in Ok (acc ++ map (pair j) os, s')) l (acc, s) = Ok (os, s') ->
           exists more, os = acc ++ more).
        { clear. induction l as [|j l IH]; intros acc s os s' H; simpl in H.
          - inversion H; subst. exists []. rewrite app_nil_r. auto.
          - destruct (orders_of s j) as [[osj sj]|]; simpl in H; [|discriminate].
            apply IH in H. destruct H as [more ->]. exists (map (pair j) osj ++ more). rewrite app_assoc. auto. }
        destruct (Hpre _ _ _ _ _ H) as [more ->]. unfold candidates. rewrite flat_map_app, foldM_app.
        fold (candidates (acc ++ map (pair j) osj)). rewrite Hcomb. reflexivity. }
  intros H. apply (G features [] [] s (reset_split tk)); auto.
Qed.

End Split.
