(** * Proofs about the encoder *)

Require Import List Arith NArith ZArith Bool Lia Permutation.
Require Import Verif.Base Verif.Num Verif.M_Bitarray Verif.P_Bitarray Verif.M_Binning Verif.P_Binning
  Verif.M_Encoder Verif.S_Encoder.
Import ListNotations.

Lemma geti_ok : forall {X} (l : list X) i x, geti l i = Ok x <-> nth_error l i = Some x.
Proof. intros X l i x. unfold geti. destruct (nth_error l i); split; intro H; inversion H; auto. Qed.

Lemma enumerate_length : forall {X} (l : list X), length (enumerate l) = length l.
Proof. intros. unfold enumerate. rewrite combine_length, seq_length. lia. Qed.

Lemma nth_error_combine : forall {X Y} (a : list X) (b : list Y) i x y,
  nth_error (combine a b) i = Some (x, y) <-> nth_error a i = Some x /\ nth_error b i = Some y.
Proof.
  induction a as [|u a IH]; intros [|v b] [|i] x y; simpl; try (split; [discriminate|intros [H H']; discriminate]).
  - split; [intro H; inversion H; auto|intros [H H']; congruence].
  - apply IH.
Qed.

Lemma nth_error_seq0 : forall n s i, i < n -> nth_error (seq s n) i = Some (s + i).
Proof.
  induction n; intros s i H; [lia|]. destruct i; simpl; [f_equal; lia|]. rewrite IHn by lia. f_equal; lia.
Qed.

Lemma nth_error_enumerate : forall {X} (l : list X) j p,
  nth_error (enumerate l) j = Some p <-> fst p = j /\ nth_error l j = Some (snd p).
Proof.
  intros X l j [i x]. unfold enumerate. rewrite nth_error_combine. simpl. split; intros [H1 H2].
  - split; auto. assert (j < length l) by (apply nth_error_Some; congruence).
    rewrite nth_error_seq0 in H1 by auto. inversion H1; auto.
  - subst i. split; auto. rewrite nth_error_seq0; auto. apply nth_error_Some. congruence.
Qed.

Section P.
Context {A : arith} (V : values A) (NM : Type) (nm_eqb : NM -> NM -> bool) (EE : eenv A).
Notation val := (val V).
Hypothesis GV : good_values V.

(** ** Categories *)

Lemma distinct_In : forall l x, In x (distinct V l) -> In x l.
Proof.
  induction l as [|a l IH]; simpl; intros x H; auto.
  destruct (existsb _ _); [right; auto|]. destruct H as [->|H]; auto.
Qed.

Lemma distinct_cover : forall l x, In x l -> exists y, In y (distinct V l) /\ (x = y \/ veqb V x y = true).
Proof.
  induction l as [|a l IH]; simpl; intros x []; subst.
  - destruct (existsb (veqb V x) l) eqn:E.
    + apply existsb_exists in E. destruct E as (z & Hz & Ez).
      destruct (IH z Hz) as (y & Hy & [->|Hzy]); exists y; split; auto. right. eapply gv_trans; eauto.
    + exists x. split; [left|]; auto.
  - destruct (IH x H) as (y & Hy & E). exists y. destruct (existsb _ _); split; auto. right; auto.
Qed.

Lemma distinct_diff : forall l i j x y, i <> j ->
  nth_error (distinct V l) i = Some x -> nth_error (distinct V l) j = Some y -> veqb V x y = false.
Proof.
  assert (G : forall l i j x y, i < j -> nth_error (distinct V l) i = Some x -> nth_error (distinct V l) j = Some y -> veqb V x y = false).
  { induction l as [|a l IH]; simpl; intros i j x y Hij Hi Hj; [destruct i; discriminate|].
    destruct (existsb (veqb V a) l) eqn:E; [eapply IH; eauto|].
    destruct j as [|j]; [lia|]. simpl in Hj. destruct i as [|i]; simpl in Hi.
    - inversion Hi; subst a. destruct (veqb V x y) eqn:Exy; auto.
      assert (existsb (veqb V x) l = true); [|congruence].
      apply existsb_exists. exists y. split; auto. apply distinct_In. eapply nth_error_In; eauto.
    - eapply (IH i j); eauto. lia. }
  intros l i j x y Hij Hi Hj. destruct (lt_eq_lt_dec i j) as [[H|H]|H]; [eapply G; eauto|lia|].
  destruct (veqb V x y) eqn:E; auto. apply (gv_sym V GV) in E. rewrite (G l j i y x) in E; auto.
Qed.

Lemma n_different_distinct : forall l, n_different V l (length (distinct V l)).
Proof.
  intros l. exists (distinct V l). split; auto. split; [apply distinct_In|]. split; [apply distinct_diff|].
  apply distinct_cover.
Qed.

Lemma insert_val_perm : forall x l, Permutation (x :: l) (insert_val V x l).
Proof.
  induction l; simpl; auto. destruct (vleb V x a); auto. eapply perm_trans; [apply perm_swap|]. auto.
Qed.
Lemma sort_val_perm : forall l, Permutation l (sort_val V l).
Proof. induction l; simpl; auto. eapply perm_trans; [|apply insert_val_perm]. auto. Qed.

(** Pairwise different, without positions. *)
Fixpoint pairwise (l : list val) : Prop :=
  match l with [] => True | x :: t => (forall y, In y t -> veqb V x y = false) /\ pairwise t end.

Lemma veqb_false_sym : forall x y, veqb V x y = false -> veqb V y x = false.
Proof. intros x y H. destruct (veqb V y x) eqn:E; auto. apply (gv_sym V GV) in E. congruence. Qed.

Lemma pairwise_perm : forall l l', Permutation l l' -> pairwise l -> pairwise l'.
Proof.
  induction 1; simpl; auto.
  - intros [H1 H2]. split; auto. intros y Hy. apply H1. eapply Permutation_in; [apply Permutation_sym|]; eauto.
  - intros [H1 [H2 H3]]. split; [|split; auto]; intros z Hz.
    + destruct Hz as [->|Hz]; auto. apply veqb_false_sym. apply H1. left; auto.
Qed.

Lemma pairwise_iff : forall l, pairwise l <->
  (forall i j x y, i <> j -> nth_error l i = Some x -> nth_error l j = Some y -> veqb V x y = false).
Proof.
  induction l as [|a l IH]; simpl.
  - split; auto. intros _ [|i] j x y _ H; discriminate.
  - rewrite IH. split.
    + intros [H1 H2] [|i] [|j] x y Hij Hi Hj; simpl in *; try lia.
      * inversion Hi; subst. apply H1. eapply nth_error_In; eauto.
      * inversion Hj; subst. apply veqb_false_sym. apply H1. eapply nth_error_In; eauto.
      * apply (H2 i j); auto.
    + intro H. split.
      * intros y Hy. apply In_nth_error in Hy. destruct Hy as [j Hj]. apply (H 0 (S j)); auto.
      * intros i j x y Hij Hi Hj. apply (H (S i) (S j)); auto.
Qed.

Lemma dropna_In : forall l x, In x (dropna V l) <-> In x l /\ isna V x = false.
Proof. intros. unfold dropna. rewrite filter_In. rewrite negb_true_iff. tauto. Qed.

Lemma categories_of_ok : forall l, categories_ok V (categories_of V l).
Proof.
  intros l. unfold categories_of. split.
  - intros c Hc. eapply Permutation_in in Hc; [|apply Permutation_sym, sort_val_perm].
    apply distinct_In in Hc. apply dropna_In in Hc. apply Hc.
  - apply pairwise_iff. eapply pairwise_perm; [apply sort_val_perm|]. apply pairwise_iff. apply distinct_diff.
Qed.

Lemma categories_of_cover : forall l x, In x l -> isna V x = false ->
  exists c, In c (categories_of V l) /\ veqb V c x = true.
Proof.
  intros l x Hx Hn. destruct (distinct_cover (dropna V l) x) as (y & Hy & E); [apply dropna_In; auto|].
  exists y. split; [eapply Permutation_in; [apply sort_val_perm|]; auto|].
  destruct E as [->|E]; [apply (gv_refl V GV)|apply (gv_sym V GV)]; auto.
Qed.

Lemma categories_of_In : forall l c, In c (categories_of V l) -> In c l /\ isna V c = false.
Proof.
  intros l c H. unfold categories_of in H. eapply Permutation_in in H; [|apply Permutation_sym, sort_val_perm].
  apply distinct_In in H. apply dropna_In in H. auto.
Qed.

Lemma distinct_length : forall l, length (distinct V l) <= length l.
Proof. induction l; simpl; auto. destruct (existsb _ _); simpl; lia. Qed.
Lemma dropna_length : forall l, length (dropna V l) <= length l.
Proof. induction l; simpl; auto. destruct (isna V a); simpl; lia. Qed.
Lemma categories_of_length : forall l, length (categories_of V l) <= length l.
Proof.
  intros. unfold categories_of. rewrite <- (Permutation_length (sort_val_perm _)).
  pose proof (distinct_length (dropna V l)). pose proof (dropna_length l). lia.
Qed.

Lemma position_some : forall cats x k, position V cats x = Some k ->
  exists c, nth_error cats k = Some c /\ veqb V c x = true.
Proof.
  induction cats as [|c cats IH]; simpl; intros x k H; [discriminate|].
  destruct (veqb V c x) eqn:E; [inversion H; subst; simpl; eauto|].
  destruct (position V cats x) as [k'|] eqn:E'; inversion H; subst. simpl. apply IH; auto.
Qed.

Lemma position_none : forall cats x, position V cats x = None -> forall c, In c cats -> veqb V c x = false.
Proof.
  induction cats as [|c cats IH]; simpl; intros x H c' []; subst.
  - destruct (veqb V c' x); auto. discriminate.
  - destruct (veqb V c x); [discriminate|]. destruct (position V cats x) eqn:E; [discriminate|]. eauto.
Qed.

(** ** Learning *)

(** What fit learns about a column is valid. *)
Definition learned_ok (d : learned V) : Prop :=
  match d with LCat _ cats => categories_ok V cats | LNum _ _ => True end /\ (N.of_nat (n_bins V d) < 2 ^ 63 - 1)%N.

Lemma mapM_length : forall {X Y} (f : X -> res Y) l out, mapM f l = Ok out -> length out = length l.
Proof. intros X Y f l out H. destruct (mapM_ok _ _ _ H); auto. Qed.

Lemma convert_length : forall f l out, convert V f l = Ok out -> length out = length l.
Proof. intros f l out H. unfold convert in H. eapply mapM_length; eauto. Qed.

Lemma convert_nth : forall f l out, convert V f l = Ok out ->
  forall i x, nth_error l i = Some x -> exists y, nth_error out i = Some y /\ f x = Some y.
Proof.
  intros f l out H i x Hx. unfold convert in H. destruct (mapM_ok _ _ _ H) as [_ G].
  destruct (G i x Hx) as (y & Hy & E). exists y. split; auto. destruct (f x); inversion E; auto.
Qed.

Lemma convert_total : forall f l, (forall x, In x l -> f x <> None) -> exists out, convert V f l = Ok out.
Proof.
  intros f l H. unfold convert. apply mapM_total. intros x Hx. specialize (H x Hx). destruct (f x); [eauto|congruence].
Qed.

Lemma dedupe_length : forall l : list (num A), length (dedupe l) <= length l.
Proof.
  induction l as [|a l IH]; [auto|]. destruct l as [|b l]; [auto|].
  change (length (if aleb b a then dedupe (b :: l) else a :: dedupe (b :: l)) <= length (a :: b :: l)).
  destruct (aleb b a); simpl in *; lia.
Qed.

Lemma middles_le : forall l : list (num A), length (middles l) <= length l.
Proof.
  induction l as [|a l IH]; [auto|]. destruct l as [|b l]; [simpl; lia|].
  change (S (length (middles (b :: l))) <= S (length (b :: l))). lia.
Qed.

Lemma thresholds_length : forall ai (col : list (num A)) mb thr, find_binning_thresholds ai col mb = Ok thr ->
  length thr <= length col.
Proof.
  intros ai col mb thr H. unfold find_binning_thresholds in H. apply bind_ok in H. destruct H as (mids & H & E).
  inversion E; subst. rewrite map_length. set (c := filter _ col) in *.
  assert (Hc : length c <= length col).
  { unfold c. clear. induction col as [|a l IH]; simpl; auto. destruct (negb (anan a)); simpl; lia. }
  assert (Hu : length (unique c) <= length c).
  { unfold unique. pose proof (dedupe_length (sort_num c)). rewrite sort_num_length in H0. auto. }
  destruct (length (unique c) <=? mb) eqn:E1.
  - inversion H; subst. pose proof (middles_le (unique c)). lia.
  - apply Nat.leb_gt in E1. apply mapM_length in H. rewrite seq_length in H. lia.
Qed.

Lemma take_length : forall subset l out, take V subset l = Ok out ->
  length out = match subset with Some s => length s | None => length l end.
Proof.
  intros [s|] l out H; simpl in H; [eapply mapM_length; eauto|inversion H; auto].
Qed.

Lemma learned_num_ok : forall cf n cells d,
  (N.of_nat n < 2 ^ 62)%N -> length cells = n ->
  (forall n k, k < n -> length (ee_choice EE n k) = k) ->
  learn_numerical V EE cf (subset_of EE cf n) cells = Ok d -> learned_ok d.
Proof.
  intros cf n cells d Hn Hl Hc H. unfold learn_numerical in H.
  apply bind_ok in H. destruct H as (c1 & H1 & H). apply bind_ok in H. destruct H as (c2 & H2 & H).
  apply bind_ok in H. destruct H as (thr & H3 & H). inversion H; subst d. split; [exact I|].
  apply thresholds_length in H3. apply convert_length in H2. apply take_length in H1.
  pose proof (dropna_length c1).
  assert (length c1 <= n).
  { unfold subset_of in H1. destruct (c_subsample cf) as [k|]; [|lia].
    destruct (k <? n) eqn:E; [|lia]. apply Nat.ltb_lt in E. rewrite Hc in H1; lia. }
  simpl. change (2 ^ 62)%N with 4611686018427387904%N in Hn.
  change (2 ^ 63 - 1)%N with 9223372036854775807%N. lia.
Qed.

Lemma cats_small : forall cats : list val, (N.of_nat (length cats) < 2 ^ 62)%N -> (N.of_nat (length cats) < 2 ^ 63 - 1)%N.
Proof.
  intros cats H. change (2 ^ 62)%N with 4611686018427387904%N in H. change (2 ^ 63 - 1)%N with 9223372036854775807%N. lia.
Qed.

Lemma learned_of_ok : forall cells n, (N.of_nat n < 2 ^ 62)%N -> length cells = n -> learned_ok (LCat V (categories_of V cells)).
Proof.
  intros cells n Hn Hl. split; [apply categories_of_ok|]. simpl. apply cats_small.
  pose proof (categories_of_length cells). change (2 ^ 62)%N with 4611686018427387904%N in *. lia.
Qed.

Lemma learn_series_ok : forall cf cm n j col d,
  (N.of_nat n < 2 ^ 62)%N -> column_ok V n col ->
  (forall n k, k < n -> length (ee_choice EE n k) = k) ->
  learn_series V EE cf cm n j col = Ok d -> learned_ok d.
Proof.
  intros cf cm n j col d Hn [Hl Hcol] Hc H. unfold learn_series in H.
  apply bind_ok in H. destruct H as (flag & _ & H). apply bind_ok in H. destruct H as (t & Ht & H).
  destruct t.
  - destruct (s_cats V col) as [cats|] eqn:E; inversion H; subst. destruct Hcol as (H1 & H2 & H3 & H4).
    split; auto. simpl. apply cats_small; auto.
  - unfold as_category in H. destruct (s_cats V col) as [cats|] eqn:E.
    + rewrite E in H. inversion H; subst. destruct Hcol as (H1 & H2 & H3 & H4). split; auto. simpl. apply cats_small; auto.
    + simpl in H. inversion H; subst. eapply learned_of_ok; eauto.
  - eapply learned_num_ok; eauto.
Qed.

Lemma get_array_dtypes_length : forall k cols flags cm out, get_array_dtypes V k cols flags cm = Ok out -> length out = length cols.
Proof.
  intros k cols flags cm out H. unfold get_array_dtypes in H.
  destruct (in_bOSU k); [|destruct (in_uif k); [|discriminate]]; destruct flags; apply mapM_length in H;
    rewrite ?enumerate_length in H; auto.
Qed.

Lemma learn_ok : forall cf cm X cols, data_ok V X ->
  (forall n k, k < n -> length (ee_choice EE n k) = k) ->
  learn V NM EE cf cm X = Ok cols -> length cols = snd (shape V NM X) /\ forall d, In d cols -> learned_ok d.
Proof.
  intros cf cm X cols HX Hc H. destruct X as [n cs|k n cs| |]; simpl in H; try discriminate.
  - destruct HX as (H1 & H2 & H3). destruct (mapM_ok _ _ _ H) as [HL HN].
    rewrite enumerate_length in HL. split; auto. intros d Hd. apply In_nth_error in Hd. destruct Hd as [j Hj].
    assert (Hjl : j < length cs) by (rewrite <- HL; apply nth_error_Some; congruence).
    destruct (nth_error cs j) as [p|] eqn:Ep; [|apply nth_error_None in Ep; lia].
    destruct (HN j (j, p)) as (d' & Hd' & E); [apply nth_error_enumerate; auto|].
    rewrite Hj in Hd'. inversion Hd'; subst d'. eapply learn_series_ok; eauto. apply H3. eapply nth_error_In; eauto.
  - destruct HX as (H1 & H2 & H3). apply bind_ok in H. destruct H as (cats & Hcats & H).
    apply get_array_dtypes_length in Hcats. destruct (mapM_ok _ _ _ H) as [HL HN].
    rewrite combine_length, Hcats, Nat.min_id in HL. split; auto. intros d Hd. apply In_nth_error in Hd. destruct Hd as [j Hj].
    assert (Hjl : j < length cs) by (rewrite <- HL; apply nth_error_Some; congruence).
    destruct (nth_error cs j) as [c|] eqn:Ec; [|apply nth_error_None in Ec; lia].
    destruct (nth_error cats j) as [b|] eqn:Eb; [|apply nth_error_None in Eb; lia].
    destruct (HN j (b, c)) as (d' & Hd' & E); [apply nth_error_combine; auto|].
    rewrite Hj in Hd'. inversion Hd'; subst d'. simpl in E. unfold learn_array_column in E.
    assert (length c = n) by (apply H3; eapply nth_error_In; eauto).
    destruct b; [inversion E; subst; eapply learned_of_ok; eauto|eapply learned_num_ok; eauto].
Qed.

(** ** Number of bins *)

Definition extra_bin (cats' : list val) (d : learned V) (has_missing : bool) : bool :=
  match d with
  | LCat _ cats => has_missing || negb (forallb (fun c => existsb (fun c' => veqb V c' c) cats) cats')
  | LNum _ _ => has_missing
  end.

Lemma w64_pred : forall b, 1 <= b -> (N.of_nat b < 2 ^ 63)%N -> w64 (N.of_nat b + (2 ^ 64 - 1)) = N.of_nat (b - 1).
Proof.
  intros b H1 H2. unfold w64. replace (N.of_nat b + (2 ^ 64 - 1))%N with (N.of_nat (b - 1) + 1 * 2 ^ 64)%N.
  - rewrite N.mod_add by discriminate. apply N.mod_small. change (2 ^ 63)%N with 9223372036854775808%N in H2.
    change (2 ^ 64)%N with 18446744073709551616%N. lia.
  - change (2 ^ 64)%N with 18446744073709551616%N. lia.
Qed.

Definition cats_of (col : column V) : list val := match s_cats V col with Some c => c | None => [] end.

(** The result of the first loop of transform for a column. *)
Lemma plan_spec : forall cf d hm col mv col', plan_column V cf d hm col = Ok (mv, col') ->
  let bins := n_bins V d + (if extra_bin (cats_of (as_category V col)) d hm then 1 else 0) in
  col' = (if is_cat V d then as_category V col else col) /\
  mv = w64 (N.of_nat bins + (2 ^ 64 - 1)) /\
  (learned_ok d -> 1 <= bins -> mv = N.of_nat (bins - 1)).
Proof.
  intros cf d hm col mv col' H. unfold plan_column in H. destruct d as [cats|thr]; simpl.
  - unfold cats_of. set (u := negb (forallb _ _)) in *. destruct (u && c_error cf); [discriminate|].
    inversion H; subst. split; auto. split; auto. intros [_ Hs] Hb. apply w64_pred; auto.
    simpl in Hs. change (2 ^ 63 - 1)%N with 9223372036854775807%N in Hs. change (2 ^ 63)%N with 9223372036854775808%N.
    destruct (hm || u); lia.
  - inversion H; subst. split; auto. split; auto. intros [_ Hs] Hb. apply w64_pred; auto.
    simpl in Hs. change (2 ^ 63 - 1)%N with 9223372036854775807%N in Hs. change (2 ^ 63)%N with 9223372036854775808%N.
    destruct hm; lia.
Qed.

Lemma as_category_cells : forall col, s_cells V (as_category V col) = s_cells V col.
Proof. intros. unfold as_category. destruct (s_cats V col); auto. Qed.

Lemma as_category_cats : forall col, exists cats, s_cats V (as_category V col) = Some cats.
Proof. intros. unfold as_category. destruct (s_cats V col) eqn:E; [rewrite E|simpl]; eauto. Qed.

(** The categories of a column cover its values. *)
Lemma as_category_cover : forall n col x, column_ok V n col -> In x (s_cells V col) -> isna V x = false ->
  exists c, In c (cats_of (as_category V col)) /\ veqb V c x = true.
Proof.
  intros n col x [_ Hc] Hx Hn. unfold cats_of, as_category. destruct (s_cats V col) as [cats|] eqn:E.
  - rewrite E. apply Hc; auto.
  - simpl. apply categories_of_cover; auto.
Qed.

Lemma find_bin_le : forall fuel l r x (thr : list (num A)) b,
  find_bin_loop fuel l r x thr = Ok b -> l <= r -> b <= r.
Proof.
  induction fuel; intros l r x thr b H Hlr; [discriminate|]; cbn [find_bin_loop] in H.
  destruct (l <? r) eqn:E; [|inversion H; lia]. apply Nat.ltb_lt in E.
  apply bind_ok in H. destruct H as (t & Ht & H).
  assert ((r - l - 1) / 2 < r - l) by (apply div2_lt; lia).
  destruct (aleb x t); apply IHfuel in H; lia.
Qed.

(** ** The bins of a column *)

(** What is true of the bins of a column: the documented ones (for sorted thresholds), and
    at most the maximum. *)
Definition bins_ok (read : val -> option (num A)) (d : learned V) (mv : N) (cells : list val) (bs : list nat) : Prop :=
  length bs = length cells /\ (forall b, In b bs -> (N.of_nat b <= mv)%N) /\
  (ordered V [d] \/ is_cat V d = true -> forall i x b, nth_error cells i = Some x -> nth_error bs i = Some b -> documented_bin V read d x b).

Lemma hasnans_true : forall l, hasnans V l = true <-> exists x, In x l /\ isna V x = true.
Proof. intros. unfold hasnans. apply existsb_exists. Qed.

Lemma unknown_spec : forall cats cats',
  negb (forallb (fun c => existsb (fun c' => veqb V c' c) cats) cats') = true <-> exists c, In c cats' /\ ~ known V cats c.
Proof.
  intros cats cats'. rewrite negb_true_iff. split.
  - intro H. induction cats' as [|c cats' IH]; simpl in H; [discriminate|].
    destruct (existsb (fun c' => veqb V c' c) cats) eqn:E.
    + destruct IH as (c1 & H1 & H2); auto. exists c1. split; auto. right; auto.
    + exists c. split; [left; auto|]. intros (c' & Hc & Hv).
      assert (existsb (fun c' => veqb V c' c) cats = true) by (apply existsb_exists; eauto). congruence.
  - intros (c & Hc & Hk). destruct (forallb _ cats') eqn:E; auto. exfalso. apply Hk.
    rewrite forallb_forall in E. specialize (E c Hc). apply existsb_exists in E. destruct E as (c' & H1 & H2). exists c'; auto.
Qed.

Lemma bin_categorical_ok : forall read cf n cats hm col mv col' bs,
  column_ok V n col -> learned_ok (LCat V cats) ->
  (forall x, In x (s_cells V col) -> isna V x = true -> hm = true) ->
  plan_column V cf (LCat V cats) hm col = Ok (mv, col') ->
  bin_categorical V cats col' = Ok bs -> bins_ok read (LCat V cats) mv (s_cells V col) bs.
Proof.
  intros read cf n cats hm col mv col' bs Hcol Hd Hm Hp Hb.
  destruct (plan_spec _ _ _ _ _ _ Hp) as (E1 & _ & E2). simpl in E1. subst col'. specialize (E2 Hd).
  unfold bin_categorical in Hb. destruct (as_category_cats col) as [cats1 Ec]. rewrite Ec in Hb.
  inversion Hb; subst bs. clear Hb. rewrite as_category_cells.
  assert (G : forall x, In x (s_cells V col) ->
     let b := match code V cats x with Some k => k | None => length cats end in
     (N.of_nat b <= mv)%N /\ documented_bin V read (LCat V cats) x b).
  { intros x Hx. unfold code. destruct (isna V x) eqn:En.
    - simpl. rewrite (Hm x Hx En) in E2. simpl in E2. specialize (E2 ltac:(lia)).
      rewrite E2. split; [lia|]. right. auto.
    - destruct (position V cats x) as [k|] eqn:Ek.
      + simpl. apply position_some in Ek. destruct Ek as (c & Hk & Hv).
        assert (k < length cats) by (apply nth_error_Some; congruence).
        rewrite E2 by (simpl; lia). split; [|left; eauto]. simpl.
        destruct (extra_bin _ _ _); lia.
      + simpl. pose proof (position_none _ _ Ek) as Hk.
        assert (Hu : ~ known V cats x) by (intros (c & H1 & H2); rewrite Hk in H2; auto; discriminate).
        assert (Hx' : extra_bin (cats_of (as_category V col)) (LCat V cats) hm = true).
        { unfold extra_bin. apply orb_true_iff. right. apply unknown_spec.
          destruct (as_category_cover n col x Hcol Hx En) as (c & H1 & H2). exists c. split; auto.
          intros (c' & H3 & H4). apply Hu. exists c'. split; auto. eapply gv_trans; eauto. }
        rewrite Hx' in E2. rewrite E2 by (simpl; lia). split; [simpl; lia|]. right. auto. }
  split; [rewrite map_length; auto|]. split.
  - intros b Hb. apply in_map_iff in Hb. destruct Hb as (x & <- & Hx). apply (G x Hx).
  - intros _ i x b Hx Hb. rewrite (map_nth_error _ _ _ Hx) in Hb. inversion Hb; subst b.
    apply (G x). eapply nth_error_In; eauto.
Qed.

Lemma bin_numerical_ok : forall (read : val -> option (num A)) cf thr hm col mv col' x bs,
  learned_ok (LNum V thr) ->
  (forall x r, read x = Some r -> anan r = isna V x) ->
  (forall x, In x (s_cells V col) -> isna V x = true -> hm = true) ->
  plan_column V cf (LNum V thr) hm col = Ok (mv, col') ->
  convert V read (s_cells V col) = Ok x ->
  bin_continuous_column x thr (N.to_nat mv) = Ok bs -> bins_ok read (LNum V thr) mv (s_cells V col) bs.
Proof.
  intros read cf thr hm col mv col' x bs Hd Hr Hm Hp Hx Hb.
  destruct (plan_spec _ _ _ _ _ _ Hp) as (_ & _ & E2). specialize (E2 Hd). simpl in E2.
  specialize (E2 ltac:(lia)). unfold bin_continuous_column in Hb. destruct (mapM_ok _ _ _ Hb) as [HL HN].
  pose proof (convert_length _ _ _ Hx) as HLx.
  assert (G : forall i v b, nth_error (s_cells V col) i = Some v -> nth_error bs i = Some b ->
            (N.of_nat b <= mv)%N /\ (ordered V [LNum V thr] -> documented_bin V read (LNum V thr) v b)).
  { intros i v b Hi Hbi. destruct (convert_nth _ _ _ Hx i v Hi) as (y & Hy & Ey).
    destruct (HN i y Hy) as (b' & Hb' & Ev). rewrite Hbi in Hb'. inversion Hb'; subst b'.
    pose proof (Hr _ _ Ey) as En. unfold bin_value in Ev. destruct (anan y) eqn:Ea.
    - inversion Ev; subst b. assert (Hm1 : hm = true).
      { apply (Hm v); auto. eapply nth_error_In; eauto. } subst hm. rewrite E2. split; [lia|].
      intros _. left. split; auto. rewrite Nat2N.id. lia.
    - split.
      + apply find_bin_le in Ev; [|lia]. rewrite E2. destruct hm; lia.
      + intros [HT HS]. right. split; auto. exists y. split; auto.
        destruct (bin_value_spec thr (N.to_nat mv) y HT) as (b' & Hb2 & _ & H2).
        { intros i' j' s t. apply HS. left; auto. }
        unfold bin_value in Hb2. rewrite Ea, Ev in Hb2. inversion Hb2; subst b'. apply H2; auto. }
  split; [congruence|]. split.
  - intros b Hbi. apply In_nth_error in Hbi. destruct Hbi as [i Hi].
    assert (i < length (s_cells V col)) by (rewrite <- HLx, <- HL; apply nth_error_Some; congruence).
    destruct (nth_error (s_cells V col) i) as [v|] eqn:Ev; [|apply nth_error_None in Ev; lia].
    apply (G i v b); auto.
  - intros [Ho|Ho]; [|discriminate]. intros i v b Hi Hbi. apply (G i v b); auto.
Qed.

(** ** Filling the packed array *)

Lemma mask_small : forall mv m, (mv < 2 ^ 64)%N -> column_bitmask mv = Ok m -> (mv < 2 ^ 63)%N.
Proof.
  intros mv m H Hm. unfold column_bitmask, column_n_bits in Hm.
  destruct (mv <=? 1)%N eqn:E.
  - apply N.leb_le in E. change (2 ^ 63)%N with 9223372036854775808%N. lia.
  - apply bind_ok in Hm. destruct Hm as (s & Hs & _). unfold shl64 in Hs.
    destruct (N.to_nat (N.log2_up (mv + 1)) <? 64) eqn:E1; [|discriminate]. apply Nat.ltb_lt in E1.
    apply N.leb_gt in E. assert (N.log2_up (mv + 1) <= 63)%N by lia.
    pose proof (N.log2_up_spec (mv + 1) ltac:(lia)) as [_ H1].
    assert (2 ^ N.log2_up (mv + 1) <= 2 ^ 63)%N by (apply N.pow_le_mono_r; lia). lia.
Qed.

Lemma init_small : forall mem n mvs fb, (forall mv, In mv mvs -> (mv < 2 ^ 64)%N) ->
  fba_init mem n mvs = Ok fb -> forall j mv, nth_error mvs j = Some mv -> (mv < 2 ^ 63)%N.
Proof.
  intros mem n mvs fb H Hf j mv Hj. unfold fba_init in Hf. apply bind_ok in Hf. destruct Hf as (ms & Hms & _).
  destruct (mapM_ok _ _ _ Hms) as [_ G]. destruct (G j mv Hj) as (m & _ & E). eapply mask_small; eauto.
  apply H. eapply nth_error_In; eauto.
Qed.

(** Filling columns [k], [k+1], ... *)
Lemma fill_from : forall cols mvs (bin : learned V -> N -> column V -> res (list nat)) todo k fb,
  fba_wf fb -> fb_max_values fb = mvs -> 0 < fb_n_samples fb ->
  (forall j col, nth_error todo j = Some col -> exists d mv b,
     nth_error cols (k + j) = Some d /\ nth_error mvs (k + j) = Some mv /\
     bin d mv col = Ok b /\ length b = fb_n_samples fb /\ forall x, In x b -> (N.of_nat x <= mv)%N) ->
  exists fb', foldM (fun fb p =>
           let* d := geti cols (fst p) in
           let* mv := geti mvs (fst p) in
           let* b := bin d mv (snd p) in
           fill_column fb (fst p) (map N.of_nat b)) (combine (seq k (length todo)) todo) fb = Ok fb' /\
    fba_wf fb' /\ same_layout fb fb' /\
    (forall i j, j < k -> get_value fb' i j = get_value fb i j) /\
    (forall i j col d mv b x, nth_error todo j = Some col -> nth_error cols (k + j) = Some d -> nth_error mvs (k + j) = Some mv ->
       bin d mv col = Ok b -> nth_error b i = Some x -> get_value fb' i (k + j) = Ok (N.of_nat x)).
Proof.
  intros cols mvs bin todo. induction todo as [|col todo IH]; intros k fb W Hmv Hn H.
  - exists fb. simpl. split; auto. split; auto. split; [repeat split|]. split; auto. intros i [|j] col d mv b x E; discriminate.
  - destruct (H 0 col eq_refl) as (d & mv & b & H1 & H2 & H3 & H4 & H5). rewrite Nat.add_0_r in H1, H2.
    destruct (fill_column_spec fb k mv (map N.of_nat b) W) as (fb1 & F1 & W1 & S1 & R1 & R2 & _).
    { rewrite Hmv; auto. } { auto. } { rewrite map_length; auto. }
    { intros x Hx. apply in_map_iff in Hx. destruct Hx as (y & <- & Hy). auto. }
    destruct S1 as (S1a & S1b & S1c).
    destruct (IH (S k) fb1 W1) as (fb2 & F2 & W2 & S2 & R3 & R4).
    { congruence. } { lia. }
    { intros j c Hj. rewrite S1a. destruct (H (S j) c Hj) as (d' & mv' & b' & G). exists d', mv', b'.
      replace (S k + j) with (k + S j) by lia. auto. }
    exists fb2. split.
    { cbn [length seq combine foldM fst snd]. rewrite (proj2 (geti_ok _ _ _) H1). cbn [bind].
      rewrite (proj2 (geti_ok _ _ _) H2). cbn [bind]. rewrite H3. cbn [bind]. rewrite F1. cbn [bind]. exact F2. }
    split; auto. destruct S2 as (S2a & S2b & S2c). split; [repeat split; congruence|]. split.
    + intros i j Hj. rewrite R3 by lia. apply R2. lia.
    + intros i [|j] c d' mv' b' x Hj Hd' Hmv' Hb' Hx.
      * simpl in Hj. inversion Hj; subst c. rewrite Nat.add_0_r in *.
        assert (d' = d) by congruence. assert (mv' = mv) by congruence. subst. assert (b' = b) by congruence. subst.
        rewrite R3 by lia. apply R1. apply map_nth_error; auto.
      * simpl in Hj. replace (k + S j) with (S k + j) in * by lia. eapply R4; eauto.
Qed.

(** If filling succeeds, all the columns could be binned. *)
Lemma fill_inv : forall cols mvs (bin : learned V -> N -> column V -> res (list nat)) todo k fb fb',
  foldM (fun fb p =>
           let* d := geti cols (fst p) in
           let* mv := geti mvs (fst p) in
           let* b := bin d mv (snd p) in
           fill_column fb (fst p) (map N.of_nat b)) (combine (seq k (length todo)) todo) fb = Ok fb' ->
  forall j col, nth_error todo j = Some col -> exists d mv b,
     nth_error cols (k + j) = Some d /\ nth_error mvs (k + j) = Some mv /\ bin d mv col = Ok b.
Proof.
  intros cols mvs bin todo. induction todo as [|c todo IH]; intros k fb fb' H j col Hj; [destruct j; discriminate|].
  cbn [length seq combine foldM fst snd] in H. apply bind_ok in H. destruct H as (fb1 & H1 & H).
  destruct j as [|j].
  - simpl in Hj. inversion Hj; subst c. rewrite Nat.add_0_r.
    apply bind_ok in H1. destruct H1 as (d & Hd & H1). apply bind_ok in H1. destruct H1 as (mv & Hmv & H1).
    apply bind_ok in H1. destruct H1 as (b & Hb & H1). exists d, mv, b. rewrite <- !geti_ok. auto.
  - replace (k + S j) with (S k + j) by lia. eapply IH; eauto.
Qed.

(** The dictionary of the columns is the list of the columns if the names differ. *)
Lemma dict_new : forall (names : forall a b, nm_eqb a b = true <-> a = b) (d : list (NM * column V)) k v,
  ~ In k (map fst d) -> dict_set V NM nm_eqb d k v = d ++ [(k, v)].
Proof.
  intros names d k v. induction d as [|[k' v'] d IH]; intro H; simpl; auto.
  destruct (nm_eqb k' k) eqn:E; [exfalso; apply H; left; apply names; auto|].
  rewrite IH; auto. intro G. apply H. right; auto.
Qed.

Lemma dict_all : forall (names : forall a b, nm_eqb a b = true <-> a = b) (l d : list (NM * column V)),
  NoDup (map fst (d ++ l)) ->
  fold_left (fun dict p => dict_set V NM nm_eqb dict (fst p) (snd p)) l d = d ++ l.
Proof.
  intros names l. induction l as [|[k v] l IH]; intros d H; simpl; [rewrite app_nil_r; auto|].
  rewrite dict_new; auto.
  - rewrite IH; rewrite <- app_assoc; auto.
  - rewrite map_app in H. simpl in H. apply NoDup_remove_2 in H. intro G. apply H. apply in_or_app. auto.
Qed.

Lemma map_fst_combine : forall {X Y} (a : list X) (b : list Y), length a = length b -> map fst (combine a b) = a.
Proof. induction a; intros [|y b] H; simpl in *; try lia; auto. f_equal. apply IHa. lia. Qed.
Lemma map_snd_combine : forall {X Y} (a : list X) (b : list Y), length a = length b -> map snd (combine a b) = b.
Proof. induction a; intros [|y b] H; simpl in *; try lia; auto. f_equal. apply IHa. lia. Qed.

(** ** transform *)

(** What the two versions of transform have in common: a list of columns to encode, with
    the answer to "are there missing values". *)
Definition encode (cf : config) (cols : list (learned V)) (bin : learned V -> N -> column V -> res (list nat))
  (n : nat) (todo : list (bool * column V)) : res fba :=
  let* plan := mapM (fun p => let* d := geti cols (fst p) in plan_column V cf d (fst (snd p)) (snd (snd p))) (enumerate todo) in
  let* fb := fba_init (ee_mem EE) n (map fst plan) in
  fill_columns V cols (map fst plan) bin (map snd plan) fb.

Definition frame_columns (todo : list (NM * column V)) : list (bool * column V) :=
  map (fun p => (hasnans V (s_cells V (snd p)), snd p)) todo.
Definition array_columns (k : kind) (todo : list (list val)) : list (bool * column V) :=
  map (fun c => (in_uif k && hasnans V c, mkColumn V k None c)) todo.

Lemma mapM_map : forall {X Y Z} (f : Y -> res Z) (g : X -> Y) l, mapM f (map g l) = mapM (fun x => f (g x)) l.
Proof. induction l; simpl; auto. rewrite IHl. auto. Qed.

Lemma combine_map_r : forall {X Y Z} (g : Y -> Z) (a : list X) b, combine a (map g b) = map (fun p => (fst p, g (snd p))) (combine a b).
Proof. induction a; intros [|y b]; simpl; auto. f_equal. auto. Qed.

Lemma enumerate_map : forall {X Y} (g : X -> Y) l, enumerate (map g l) = map (fun p => (fst p, g (snd p))) (enumerate l).
Proof. intros. unfold enumerate. rewrite map_length. apply combine_map_r. Qed.

Lemma mapM_ext : forall {X Y} (f g : X -> res Y) l, (forall x, f x = g x) -> mapM f l = mapM g l.
Proof. intros X Y f g l H. induction l; simpl; auto. rewrite H, IHl. auto. Qed.

Lemma transform_frame : forall (names : forall a b, nm_eqb a b = true <-> a = b) cf e n todo cols,
  e_fitted V e = true -> e_cols V e = Some cols -> NoDup (map fst todo) ->
  transform V NM nm_eqb EE cf e (XFrame V NM n todo) =
  let* _ := check_X V NM (XFrame V NM n todo) (c_is_categorical cf) (e_n_features V e) in
  encode cf cols (bin_series V) n (frame_columns todo).
Proof.
  intros names cf e n todo cols Hf Hc Hnd. unfold transform. rewrite Hf, Hc. cbn [negb].
  destruct (check_X V NM (XFrame V NM n todo) (c_is_categorical cf) (e_n_features V e)) as [b|er]; [|reflexivity].
  cbn [bind]. unfold encode, frame_columns. rewrite enumerate_map, mapM_map. cbn [fst snd].
  set (m := mapM _ _). destruct m as [plan|er] eqn:E; [|reflexivity]. cbn [bind]. subst m.
  apply mapM_length in E. rewrite enumerate_length in E.
  rewrite dict_all; auto.
  - simpl. rewrite map_snd_combine; auto. rewrite !map_length; auto.
  - simpl. rewrite map_fst_combine; auto. rewrite !map_length; auto.
Qed.

Lemma transform_array : forall cf e k n todo cols,
  e_fitted V e = true -> e_cols V e = Some cols ->
  transform V NM nm_eqb EE cf e (XArray V NM k n todo) =
  let* _ := check_X V NM (XArray V NM k n todo) (c_is_categorical cf) (e_n_features V e) in
  encode cf cols (bin_array_column V k) n (array_columns k todo).
Proof.
  intros cf e k n todo cols Hf Hc. unfold transform. rewrite Hf, Hc. cbn [negb].
  destruct (check_X V NM (XArray V NM k n todo) (c_is_categorical cf) (e_n_features V e)) as [b|er]; [|reflexivity].
  cbn [bind]. unfold encode, array_columns. rewrite enumerate_map, mapM_map. cbn [fst snd]. reflexivity.
Qed.

(** The same array with other words. *)
Definition with_words (fb : fba) (w : list N) : fba :=
  mkFba (fb_n_samples fb) (fb_n_features fb) (fb_max_values fb) (fb_n_bits fb) (fb_offsets fb) (fb_n_values fb) (fb_bitmasks fb) w.

(** The binning function does the right thing with planned columns. *)
Definition bin_good (read : val -> option (num A)) (bin : learned V -> N -> column V -> res (list nat)) (n : nat) (hm : bool) (col : column V) : Prop :=
  forall cf d mv col' bs, learned_ok d -> plan_column V cf d hm col = Ok (mv, col') -> bin d mv col' = Ok bs ->
    bins_ok read d mv (s_cells V col) bs.

Lemma encode_exact : forall read cf cols bin n todo fb,
  0 < n -> (forall d, In d cols -> learned_ok d) -> length cols = length todo ->
  (forall p, In p todo -> length (s_cells V (snd p)) = n /\ bin_good read bin n (fst p) (snd p)) ->
  encode cf cols bin n todo = Ok fb ->
  fba_wf fb /\ fb_n_samples fb = n /\ fb_n_features fb = length todo /\
  (exists fb0, fba_init (ee_mem EE) n (fb_max_values fb) = Ok fb0 /\ length (fb_bitarray fb) = length (fb_bitarray fb0) /\ fb = with_words fb0 (fb_bitarray fb)) /\
  forall j p, nth_error todo j = Some p -> exists d mv col' bs,
    nth_error cols j = Some d /\ nth_error (fb_max_values fb) j = Some mv /\
    plan_column V cf d (fst p) (snd p) = Ok (mv, col') /\ bin d mv col' = Ok bs /\
    bins_ok read d mv (s_cells V (snd p)) bs /\
    forall i b, nth_error bs i = Some b -> get_value fb i j = Ok (N.of_nat b).
Proof.
  intros read cf cols bin n todo fb Hn Hd HL Hgood H. unfold encode in H.
  apply bind_ok in H. destruct H as (plan & Hplan & H). apply bind_ok in H. destruct H as (fb0 & Hinit & H).
  unfold fill_columns, enumerate in H. destruct (mapM_ok _ _ _ Hplan) as [HLp HN]. rewrite enumerate_length in HLp.
  assert (Hpl : forall j p, nth_error todo j = Some p -> exists d mv col', nth_error cols j = Some d /\
            nth_error plan j = Some (mv, col') /\ plan_column V cf d (fst p) (snd p) = Ok (mv, col')).
  { intros j p Hj. destruct (HN j (j, p)) as ([mv col'] & H1 & H2); [apply nth_error_enumerate; auto|].
    cbn [fst snd] in H2. apply bind_ok in H2. destruct H2 as (d & H3 & H4). apply geti_ok in H3. eauto 8. }
  assert (Hmv64 : forall mv, In mv (map fst plan) -> (mv < 2 ^ 64)%N).
  { intros mv Hin. apply in_map_iff in Hin. destruct Hin as ([mv' col'] & E & Hin). simpl in E. subst mv'.
    apply In_nth_error in Hin. destruct Hin as [j Hj].
    assert (j < length todo) by (rewrite <- HLp; apply nth_error_Some; congruence).
    destruct (nth_error todo j) as [p|] eqn:Ep; [|apply nth_error_None in Ep; lia].
    destruct (Hpl j p Ep) as (d & mv1 & col1 & _ & H1 & H2). rewrite Hj in H1. inversion H1; subst mv1 col1.
    destruct (plan_spec _ _ _ _ _ _ H2) as (_ & -> & _). unfold w64. apply N.mod_lt. discriminate. }
  pose proof (init_small _ _ _ _ Hmv64 Hinit) as Hsmall.
  destruct (fba_init_spec (ee_mem EE) n (map fst plan) Hsmall) as (fb0' & E0 & W0 & S0 & S1 & S2).
  assert (fb0' = fb0) by congruence. subst fb0'.
  pose proof (fill_inv _ _ _ _ _ _ _ H) as Hinv.
  assert (Hbins : forall j p, nth_error todo j = Some p -> exists d mv col' bs,
            nth_error cols j = Some d /\ nth_error plan j = Some (mv, col') /\ bin d mv col' = Ok bs /\
            bins_ok read d mv (s_cells V (snd p)) bs /\ plan_column V cf d (fst p) (snd p) = Ok (mv, col')).
  { intros j p Hj. destruct (Hpl j p Hj) as (d & mv & col' & H1 & H2 & H3).
    destruct (Hinv j col') as (d' & mv' & b & G1 & G2 & G3).
    { rewrite (map_nth_error _ _ _ H2). auto. }
    simpl in G1, G2. rewrite (map_nth_error _ _ _ H2) in G2. simpl in G2. inversion G2; subst mv'.
    assert (d' = d) by congruence. subst d'. exists d, mv, col', b. repeat split; auto.
    - apply (proj2 (Hgood p (nth_error_In _ _ Hj)) cf d mv col' b); auto. apply Hd. eapply nth_error_In; eauto.
    - apply (proj2 (Hgood p (nth_error_In _ _ Hj)) cf d mv col' b); auto. apply Hd. eapply nth_error_In; eauto.
    - apply (proj2 (Hgood p (nth_error_In _ _ Hj)) cf d mv col' b); auto. apply Hd. eapply nth_error_In; eauto. }
  destruct (fill_from cols (map fst plan) bin (map snd plan) 0 fb0 W0 S2) as (fb' & F & W' & SL & _ & R).
  { rewrite S0; auto. }
  { intros j col' Hj. simpl. apply nth_error_map_inv in Hj. destruct Hj as ([mv c] & Hj & ->). simpl.
    assert (j < length todo) by (rewrite <- HLp; apply nth_error_Some; congruence).
    destruct (nth_error todo j) as [p|] eqn:Ep; [|apply nth_error_None in Ep; lia].
    destruct (Hbins j p Ep) as (d & mv' & col1 & bs & G1 & G2 & G3 & (G4 & G5 & G6) & _). rewrite Hj in G2. inversion G2; subst mv' col1.
    exists d, mv, bs. split; auto. split; [apply (map_nth_error fst _ _ Hj)|]. split; auto.
    split; auto. rewrite S0, G4. apply (Hgood p). eapply nth_error_In; eauto. }
  unfold fill_columns, enumerate in H. simpl in H, F. assert (fb' = fb) by congruence. subst fb'. clear F.
  destruct SL as (L1 & L2 & L3).
  split; auto. split; [congruence|]. split; [rewrite L2, S1, map_length; auto|].
  split.
  { exists fb0. split; [congruence|].
    assert (G : forall l a b, foldM (fun fb p =>
           let* d := geti cols (fst p) in
           let* mv := geti (map fst plan) (fst p) in
           let* b := bin d mv (snd p) in
           fill_column fb (fst p) (map N.of_nat b)) l a = Ok b ->
           length (fb_bitarray b) = length (fb_bitarray a) /\ b = with_words a (fb_bitarray b)).
    { induction l as [|[j c] l IH]; intros a b Hl; simpl in Hl.
      { inversion Hl; subst. split; auto. destruct b; reflexivity. }
      apply bind_ok in Hl. destruct Hl as (a1 & H1 & H2). apply IH in H2. destruct H2 as [H2 H2']. rewrite H2. rewrite H2'.
      apply bind_ok in H1. destruct H1 as (d & _ & H1). apply bind_ok in H1. destruct H1 as (mv & _ & H1).
      apply bind_ok in H1. destruct H1 as (b1 & _ & H1). unfold fill_column in H1.
      do 5 (apply bind_ok in H1; destruct H1 as (? & ? & H1)).
      apply bind_ok in H1. destruct H1 as (w & _ & H1).
      apply bind_ok in H1. destruct H1 as (w2 & Hw2 & H1). inversion H1; subst. simpl.
      split; [eapply splice_length; eauto|reflexivity]. }
    eapply G; eauto. }
  intros j p Hj. destruct (Hbins j p Hj) as (d & mv & col' & bs & G1 & G2 & G3 & G4 & G5).
  exists d, mv, col', bs. split; auto. split; [rewrite L3, S2; apply (map_nth_error fst _ _ G2)|]. split; auto. split; auto. split; auto.
  intros i b Hb. apply (R i j col' d mv bs b); auto.
  - apply (map_nth_error snd _ _ G2).
  - apply (map_nth_error fst _ _ G2).
Qed.

Lemma encode_ok : forall read cf cols bin n todo fb,
  0 < n -> (forall d, In d cols -> learned_ok d) -> length cols = length todo ->
  (forall p, In p todo -> length (s_cells V (snd p)) = n /\ bin_good read bin n (fst p) (snd p)) ->
  encode cf cols bin n todo = Ok fb ->
  fba_wf fb /\ fb_n_samples fb = n /\ fb_n_features fb = length todo /\
  (exists fb0, fba_init (ee_mem EE) n (fb_max_values fb) = Ok fb0 /\ length (fb_bitarray fb) = length (fb_bitarray fb0) /\ fb = with_words fb0 (fb_bitarray fb)) /\
  forall j p, nth_error todo j = Some p -> exists d mv bs,
    nth_error cols j = Some d /\ nth_error (fb_max_values fb) j = Some mv /\
    bins_ok read d mv (s_cells V (snd p)) bs /\
    forall i b, nth_error bs i = Some b -> get_value fb i j = Ok (N.of_nat b).
Proof.
  intros read cf cols bin n todo fb H1 H2 H3 H4 H5. destruct (encode_exact _ _ _ _ _ _ _ H1 H2 H3 H4 H5) as (G1 & G2 & G3 & G4 & G5).
  split; auto. split; auto. split; auto. split; auto. intros j p Hj. destruct (G5 j p Hj) as (d & mv & col' & bs & K). exists d, mv, bs. tauto.
Qed.

Lemma find_bin_total : forall fuel l r x (thr : list (num A)), r - l < fuel -> r <= length thr ->
  exists b, find_bin_loop fuel l r x thr = Ok b.
Proof.
  induction fuel; intros l r x thr Hf Hr; [lia|]. cbn [find_bin_loop].
  destruct (l <? r) eqn:E; [|eauto]. apply Nat.ltb_lt in E.
  assert ((r - l - 1) / 2 < r - l) by (apply div2_lt; lia).
  destruct (get_in thr (l + (r - l - 1) / 2)) as [t Ht]; [lia|]. rewrite Ht. cbn [bind].
  destruct (aleb x t); apply IHfuel; lia.
Qed.

Lemma bin_column_total : forall (col thr : list (num A)) m, exists bs, bin_continuous_column col thr m = Ok bs.
Proof.
  intros. unfold bin_continuous_column. apply mapM_total. intros x _. unfold bin_value.
  destruct (anan x); [eauto|]. apply find_bin_total; lia.
Qed.

Lemma encode_total : forall read cf cols bin n todo,
  0 < n -> (forall d, In d cols -> learned_ok d) -> length cols = length todo ->
  (forall j p, nth_error todo j = Some p ->
     length (s_cells V (snd p)) = n /\ bin_good read bin n (fst p) (snd p) /\
     forall d, nth_error cols j = Some d ->
       1 <= n_bins V d + (if extra_bin (cats_of (as_category V (snd p))) d (fst p) then 1 else 0) /\
       exists mv col' bs, plan_column V cf d (fst p) (snd p) = Ok (mv, col') /\ bin d mv col' = Ok bs) ->
  exists fb, encode cf cols bin n todo = Ok fb.
Proof.
  intros read cf cols bin n todo Hn Hd HL Hall. unfold encode.
  assert (Hcol : forall j p, nth_error todo j = Some p -> exists d, nth_error cols j = Some d).
  { intros j p Hj. assert (j < length todo) by (apply nth_error_Some; congruence).
    destruct (nth_error cols j) eqn:E; [eauto|]. apply nth_error_None in E. lia. }
  set (f := fun p : nat * (bool * column V) => let* d := geti cols (fst p) in plan_column V cf d (fst (snd p)) (snd (snd p))).
  destruct (mapM_total f (enumerate todo)) as [plan Hplan].
  { intros [j p] Hin. apply In_nth_error in Hin. destruct Hin as [j' Hj']. apply nth_error_enumerate in Hj'.
    destruct Hj' as [E Hj]. simpl in E, Hj. subst j'. destruct (Hcol j p Hj) as [d Ed].
    destruct (Hall j p Hj) as (_ & _ & G). destruct (G d Ed) as (_ & mv & col' & bs & E1 & _).
    exists (mv, col'). unfold f. cbn [fst snd]. rewrite (proj2 (geti_ok _ _ _) Ed). cbn [bind]. auto. }
  rewrite Hplan. cbn [bind]. destruct (mapM_ok _ _ _ Hplan) as [HLp HN]. rewrite enumerate_length in HLp.
  assert (Hpl : forall j mv col', nth_error plan j = Some (mv, col') -> exists p d bs, nth_error todo j = Some p /\ nth_error cols j = Some d /\
            plan_column V cf d (fst p) (snd p) = Ok (mv, col') /\ bin d mv col' = Ok bs /\
            bins_ok read d mv (s_cells V (snd p)) bs /\ length (s_cells V (snd p)) = n /\ (mv < 2 ^ 63)%N).
  { intros j mv col' Hj. assert (j < length todo) by (rewrite <- HLp; apply nth_error_Some; congruence).
    destruct (nth_error todo j) as [p|] eqn:Ep; [|apply nth_error_None in Ep; lia].
    destruct (Hcol j p Ep) as [d Ed]. destruct (Hall j p Ep) as (G1 & G2 & G3). destruct (G3 d Ed) as (G4 & mv1 & c1 & bs & G5 & G6).
    destruct (HN j (j, p)) as (q & Hq & Ef); [apply nth_error_enumerate; auto|].
    unfold f in Ef. cbn [fst snd] in Ef. rewrite (proj2 (geti_ok _ _ _) Ed) in Ef. cbn [bind] in Ef.
    rewrite G5 in Ef. inversion Ef; subst q. rewrite Hj in Hq. inversion Hq; subst mv1 c1.
    pose proof (Hd d (nth_error_In _ _ Ed)) as Hok.
    exists p, d, bs. split; auto. split; auto. split; auto. split; auto. split; [eapply G2; eauto|]. split; auto.
    destruct (plan_spec _ _ _ _ _ _ G5) as (_ & _ & E2). rewrite (E2 Hok G4).
    destruct Hok as [_ Hs]. change (2 ^ 63 - 1)%N with 9223372036854775807%N in Hs. change (2 ^ 63)%N with 9223372036854775808%N.
    destruct (extra_bin _ _ _); lia. }
  destruct (fba_init_spec (ee_mem EE) n (map fst plan)) as (fb0 & E0 & W0 & S0 & S1 & S2).
  { intros j mv Hj. apply nth_error_map_inv in Hj. destruct Hj as ([mv' c] & Hj & ->).
    destruct (Hpl j mv' c Hj) as (p & d & bs & _ & _ & _ & _ & _ & _ & G). exact G. }
  rewrite E0. cbn [bind].
  destruct (fill_from cols (map fst plan) bin (map snd plan) 0 fb0 W0 S2) as (fb' & F & _).
  { rewrite S0; auto. }
  { intros j col' Hj. simpl. apply nth_error_map_inv in Hj. destruct Hj as ([mv c] & Hj & ->). simpl.
    destruct (Hpl j mv c Hj) as (p & d & bs & G1 & G2 & G3 & G4 & (G5 & G6 & _) & G7 & _).
    exists d, mv, bs. split; auto. split; [apply (map_nth_error fst _ _ Hj)|]. split; auto. split; auto. congruence. }
  exists fb'. exact F.
Qed.

(** ** Both kinds of inputs *)

Definition todo_of (X : xdata V NM) : list (bool * column V) :=
  match X with
  | XFrame _ _ n cols => frame_columns cols
  | XArray _ _ k n cols => array_columns k cols
  | _ => []
  end.
Definition bin_of_data (X : xdata V NM) : learned V -> N -> column V -> res (list nat) :=
  match X with XArray _ _ k _ _ => bin_array_column V k | _ => bin_series V end.

Lemma todo_nth : forall X j p, nth_error (todo_of X) j = Some p -> column_at V X j = Some (snd p).
Proof.
  intros [n cols|k n cols| |] j p H; simpl in *; try (destruct j; discriminate).
  - apply nth_error_map_inv in H. destruct H as (q & H & ->). rewrite H. reflexivity.
  - apply nth_error_map_inv in H. destruct H as (q & H & ->). rewrite H. reflexivity.
Qed.

Lemma column_at_todo : forall X j col, column_at V X j = Some col -> exists hm, nth_error (todo_of X) j = Some (hm, col).
Proof.
  intros [n cols|k n cols| |] j col H; simpl in *; try discriminate.
  - destruct (nth_error cols j) as [q|] eqn:E; [|discriminate]. inversion H; subst. eexists.
    unfold frame_columns. erewrite map_nth_error by exact E. reflexivity.
  - destruct (nth_error cols j) as [q|] eqn:E; [|discriminate]. inversion H; subst. eexists.
    unfold array_columns. erewrite map_nth_error by exact E. reflexivity.
Qed.

Lemma todo_length : forall X, length (todo_of X) = snd (shape V NM X).
Proof. intros [n cols|k n cols| |]; simpl; auto; apply map_length. Qed.

Lemma todo_good : forall X p, data_ok V X -> clean V X -> In p (todo_of X) ->
  length (s_cells V (snd p)) = fst (shape V NM X) /\ column_ok V (fst (shape V NM X)) (snd p) /\
  (forall x, In x (s_cells V (snd p)) -> isna V x = true -> fst p = true) /\
  bin_good (reading V X) (bin_of_data X) (fst (shape V NM X)) (fst p) (snd p).
Proof.
  intros X p HX Hcl Hp.
  assert (G : column_ok V (fst (shape V NM X)) (snd p) /\ (forall x, In x (s_cells V (snd p)) -> isna V x = true -> fst p = true)).
  { destruct X as [n cols|k n cols| |]; simpl in Hp; try contradiction; apply in_map_iff in Hp; destruct Hp as (q & <- & Hq); simpl.
    - destruct HX as (_ & _ & H). split; [apply H; auto|]. intros x Hx Hn. apply hasnans_true; eauto.
    - destruct HX as (_ & _ & H). split; [split; simpl; auto|]. intros x Hx Hn.
      destruct Hcl as [Hk|Hno]; [|rewrite (Hno q x Hq Hx) in Hn; discriminate]. rewrite Hk. simpl. apply hasnans_true; eauto. }
  destruct G as [G1 G2]. split; [apply G1|]. split; auto. split; auto.
  intros cf d mv col' bs Hd Hpl Hb. destruct d as [cats|thr].
  - eapply bin_categorical_ok; eauto. destruct X; exact Hb.
  - destruct (plan_spec _ _ _ _ _ _ Hpl) as (E & _). simpl in E. subst col'.
    destruct X as [n cols|k n cols| |]; simpl in Hb.
    + destruct (s_cats V (snd p)); [discriminate|]. destruct (in_uif (s_kind V (snd p))); [|discriminate].
      apply bind_ok in Hb. destruct Hb as (x & Hx & Hb). eapply bin_numerical_ok; eauto. apply gv_as64; auto.
    + apply bind_ok in Hb. destruct Hb as (x & Hx & Hb). simpl. destruct (in_uif k).
      * eapply bin_numerical_ok; eauto. apply gv_as64; auto.
      * eapply bin_numerical_ok; eauto. apply gv_as32; auto.
    + contradiction.
    + contradiction.
Qed.

Lemma transform_eq : forall (names : forall a b, nm_eqb a b = true <-> a = b) cf e X cols,
  e_fitted V e = true -> e_cols V e = Some cols -> clean V X ->
  transform V NM nm_eqb EE cf e X =
  let* _ := check_X V NM X (c_is_categorical cf) (e_n_features V e) in
  match X with XArrayNot2D _ _ | XOther _ _ => Err TypeErr | _ => encode cf cols (bin_of_data X) (fst (shape V NM X)) (todo_of X) end.
Proof.
  intros names cf e X cols Hf Hc Hcl. destruct X as [n cs|k n cs| |].
  - apply transform_frame; auto.
  - apply transform_array; auto.
  - unfold transform. rewrite Hf, Hc. reflexivity.
  - unfold transform. rewrite Hf, Hc. reflexivity.
Qed.

Lemma fit_inv : forall cf e0 X e, fit V NM EE cf e0 X = (e, Ok tt) ->
  exists cols cm, e_fitted V e = true /\ e_cols V e = Some cols /\ e_n_features V e = Some (snd (shape V NM X)) /\
    (cat_min_of EE cf (fst (shape V NM X)) = Ok cm /\ learn V NM EE cf cm X = Ok cols) /\ 1 <= fst (shape V NM X) /\ 1 <= snd (shape V NM X) /\
    check_X V NM X (c_is_categorical cf) None <> Err ValueErr.
Proof.
  intros cf e0 X e H. unfold fit in H. destruct (check_X V NM X (c_is_categorical cf) None) eqn:E; [|discriminate].
  destruct (shape V NM X) as [n p] eqn:Es. destruct (n =? 0) eqn:En; [discriminate|]. destruct (p =? 0) eqn:Ep; [discriminate|].
  apply Nat.eqb_neq in En. apply Nat.eqb_neq in Ep.
  destruct (cat_min_of EE cf n) as [cm|] eqn:Ecm; cbn [bind] in H; [|discriminate].
  destruct (learn V NM EE cf cm X) as [cols|] eqn:El; [|discriminate]. inversion H; subst e. simpl.
  exists cols, cm. repeat split; auto; try lia. discriminate.
Qed.

Lemma check_X_nf : forall X ic p b, check_X V NM X ic (Some p) = Ok b -> snd (shape V NM X) = p.
Proof.
  intros X ic p b H. unfold check_X in H. apply bind_ok in H. destruct H as (d & _ & H).
  apply bind_ok in H. destruct H as (u & H1 & _). destruct (snd (shape V NM X) =? p) eqn:E; [|discriminate].
  apply Nat.eqb_eq; auto.
Qed.

Lemma ordered_one : forall cols d, ordered V cols -> In d cols -> ordered V [d].
Proof.
  intros cols d [HT HS] Hd. split; auto. intros thr [->|[]]. apply HS; auto.
Qed.

(** Everything about a successful transform. *)
Lemma transform_ok : forall (names : forall a b, nm_eqb a b = true <-> a = b)
  (Hch : forall n k, k < n -> length (ee_choice EE n k) = k) cf e0 X0 e X fb cols,
  data_ok V X0 -> fit V NM EE cf e0 X0 = (e, Ok tt) -> e_cols V e = Some cols ->
  data_ok V X -> clean V X -> transform V NM nm_eqb EE cf e X = Ok fb ->
  snd (shape V NM X) = snd (shape V NM X0) /\ length cols = snd (shape V NM X0) /\
  fba_wf fb /\ fb_n_samples fb = fst (shape V NM X) /\ fb_n_features fb = snd (shape V NM X0) /\
  (exists fb0, fba_init (ee_mem EE) (fst (shape V NM X)) (fb_max_values fb) = Ok fb0 /\
     length (fb_bitarray fb) = length (fb_bitarray fb0) /\ fb = with_words fb0 (fb_bitarray fb)) /\
  forall i j x, cell_at V X i j = Some x -> exists d mv b,
    nth_error cols j = Some d /\ nth_error (fb_max_values fb) j = Some mv /\
    get_value fb i j = Ok (N.of_nat b) /\ (N.of_nat b <= mv)%N /\
    (ordered V cols \/ is_cat V d = true -> documented_bin V (reading V X) d x b).
Proof.
  intros names Hch cf e0 X0 e X fb cols HX0 Hfit Hcols HX Hcl Ht.
  destruct (fit_inv _ _ _ _ Hfit) as (cols' & cm & F1 & F2 & F3 & [F0 F4] & F5 & F6 & _).
  assert (cols' = cols) by congruence. subst cols'.
  destruct (learn_ok _ _ _ _ HX0 Hch F4) as [L1 L2].
  rewrite (transform_eq names cf e X cols F1 F2 Hcl) in Ht. apply bind_ok in Ht. destruct Ht as (b & Hb & Ht).
  rewrite F3 in Hb. apply check_X_nf in Hb.
  assert (Hn : 0 < fst (shape V NM X)).
  { destruct X as [n cs|k n cs| |]; try discriminate; destruct HX; simpl; lia. }
  assert (Ht' : encode cf cols (bin_of_data X) (fst (shape V NM X)) (todo_of X) = Ok fb).
  { destruct X; auto; discriminate. }
  assert (HLt : length cols = length (todo_of X)) by (rewrite todo_length; congruence).
  assert (Hg : forall p, In p (todo_of X) -> length (s_cells V (snd p)) = fst (shape V NM X) /\
            bin_good (reading V X) (bin_of_data X) (fst (shape V NM X)) (fst p) (snd p)).
  { intros p Hp. destruct (todo_good X p HX Hcl Hp) as (A1 & A2 & A3 & A4). split; auto. }
  destruct (encode_ok (reading V X) _ _ _ _ _ _ Hn L2 HLt Hg Ht')
    as (W & S1 & S2 & S3 & R).
  split; auto. split; auto. split; auto. split; auto. split; [rewrite S2, todo_length; auto|]. split; [exact S3|].
  intros i j x Hx. unfold cell_at in Hx. destruct (column_at V X j) as [col|] eqn:Ec; [|discriminate].
  destruct (column_at_todo _ _ _ Ec) as [hm Hp]. destruct (R j _ Hp) as (d & mv & bs & R1 & R2 & (R3 & R4 & R5) & R6).
  simpl in R3, R5. destruct (nth_error bs i) as [b'|] eqn:Eb.
  - exists d, mv, b'. split; auto. split; auto. split; auto. split; [apply R4; eapply nth_error_In; eauto|].
    intros Ho. eapply R5; eauto. destruct Ho; auto. left. eapply ordered_one; eauto. eapply nth_error_In; eauto.
  - exfalso. apply nth_error_None in Eb. assert (i < length (s_cells V col)) by (apply nth_error_Some; congruence). lia.
Qed.

(** ** inverse_transform *)

Lemma intervals_spec : forall thr left l, intervals_from V left thr = Ok l ->
  length l = S (length thr) /\
  forall b, b <= length thr ->
    nth_error l b = Some (OInterval V (match b with 0 => left | S k => nth_error thr k end) (nth_error thr b)).
Proof.
  induction thr as [|t thr IH]; intros left l H; simpl in H.
  - inversion H; subst. split; auto. intros [|b] Hb; [reflexivity|simpl in Hb; lia].
  - destruct (anan t); [discriminate|].
    assert (G : exists r, intervals_from V (Some t) thr = Ok r /\ l = OInterval V left (Some t) :: r).
    { destruct left as [l0|].
      - destruct (aleb l0 t); [|discriminate]. apply bind_ok in H. destruct H as (r & Hr & E). inversion E; eauto.
      - apply bind_ok in H. destruct H as (r & Hr & E). inversion E; eauto. }
    destruct G as (r & Hr & ->). destruct (IH _ _ Hr) as [H1 H2]. split; [simpl; lia|].
    intros [|b] Hb; [reflexivity|]. simpl in Hb. simpl. rewrite H2 by lia. destruct b; reflexivity.
Qed.

Lemma intervals_total : forall thr left,
  (forall i j s t, i < j -> nth_error thr i = Some s -> nth_error thr j = Some t -> aleb s t = true) ->
  (forall t, In t thr -> anan t = false) ->
  (forall l t, left = Some l -> In t thr -> aleb l t = true) ->
  exists out, intervals_from V left thr = Ok out.
Proof.
  induction thr as [|t thr IH]; intros left HS HN HL; simpl; [eauto|].
  rewrite (HN t (or_introl eq_refl)).
  destruct (IH (Some t)) as [out Ho].
  - intros i j s u Hij Hi Hj. apply (HS (S i) (S j)); auto. lia.
  - intros u Hu. apply HN. right; auto.
  - intros l u E Hu. inversion E; subst l. apply In_nth_error in Hu. destruct Hu as [j Hj]. apply (HS 0 (S j)); auto. lia.
  - rewrite Ho. cbn [bind]. destruct left as [l|]; [|eauto]. rewrite (HL l t eq_refl (or_introl eq_refl)). eauto.
Qed.

(** One cell of the result of inverse_transform. *)
Lemma inverse_cell : forall read d x b known o,
  match d with LCat _ cats => Ok (map (OVal V) cats) | LNum _ thr => intervals_from V None thr end = Ok known ->
  documented_bin V read d x b ->
  (if (N.of_nat b =? N.of_nat (n_bins V d))%N then let* _ := geti known 0 in Ok (ONaN V) else geti known (N.to_nat (N.of_nat b))) = Ok o ->
  gives_back V read d x o.
Proof.
  intros read d x b kn o Hk Hb Ho. destruct d as [cats|thr]; simpl in Hb.
  - inversion Hk; subst kn. destruct Hb as [(Hn & c & Hc & Hv)|[Hx ->]].
    + assert (b < length cats) by (apply nth_error_Some; congruence).
      destruct (N.eqb_spec (N.of_nat b) (N.of_nat (n_bins V (LCat V cats)))) as [E|E]; [simpl in E; lia|].
      rewrite Nat2N.id in Ho. apply geti_ok in Ho. rewrite (map_nth_error _ _ _ Hc) in Ho. inversion Ho; subst o.
      simpl. auto.
    + simpl in Ho. rewrite N.eqb_refl in Ho. apply bind_ok in Ho. destruct Ho as (u & _ & Ho). inversion Ho; subst o.
      simpl. destruct Hx as [Hx|Hx]; auto. right. eauto.
  - destruct (intervals_spec _ _ _ Hk) as [_ HI]. destruct Hb as [[Hn ->]|(Hn & y & Hy & Hle & Hb)].
    + simpl in Ho. rewrite N.eqb_refl in Ho. apply bind_ok in Ho. destruct Ho as (u & _ & Ho). inversion Ho; subst o.
      simpl. auto.
    + destruct (N.eqb_spec (N.of_nat b) (N.of_nat (n_bins V (LNum V thr)))) as [E|E]; [simpl in E; lia|].
      rewrite Nat2N.id in Ho. apply geti_ok in Ho. rewrite HI in Ho by auto. inversion Ho; subst o.
      simpl. split; auto. split; auto. exists y. split; auto. split.
      * intros t Ht. destruct b as [|b]; [discriminate|]. apply (Hb b t Ht). lia.
      * intros t Ht. apply (Hb b t Ht). lia.
Qed.

Lemma nth_seq_map : forall {X} (f : nat -> X) n i, i < n -> nth_error (map f (seq 0 n)) i = Some (f i).
Proof. intros X f n i H. apply (map_nth_error f). rewrite nth_error_seq0; auto. Qed.

(** The unpacked matrix, when all the cells can be read. *)
Lemma to_array_values : forall fb n p, fba_wf fb -> fb_n_samples fb = n -> fb_n_features fb = p -> 0 < p ->
  (forall i j, i < n -> j < p -> exists v mv, get_value fb i j = Ok v /\ nth_error (fb_max_values fb) j = Some mv /\ (v <= mv)%N) ->
  exists rows, to_array fb = Ok rows /\ length rows = n /\
    forall i row, nth_error rows i = Some row -> length row = p /\
      forall j v, get_value fb i j = Ok v -> j < p -> nth_error row j = Some v.
Proof.
  intros fb n p W Hn Hp Hp0 H.
  set (val_at := fun i j => match get_value fb i j with Ok v => v | Err _ => 0%N end).
  set (rows := map (fun i => map (val_at i) (seq 0 p)) (seq 0 n)).
  assert (HL : length rows = n) by (unfold rows; rewrite map_length, seq_length; auto).
  assert (Hrow : forall i row, nth_error rows i = Some row -> i < n /\ row = map (val_at i) (seq 0 p)).
  { intros i row Hi. assert (i < n) by (rewrite <- HL; apply nth_error_Some; congruence). split; auto.
    unfold rows in Hi. rewrite (nth_seq_map (fun i => map (val_at i) (seq 0 p))) in Hi by auto. inversion Hi; auto. }
  exists rows. split; [|split; auto].
  - apply (to_array_spec fb rows p); auto; try congruence.
    + rewrite (wf_nf fb W); auto.
    + intros row Hin. apply In_nth_error in Hin. destruct Hin as [i Hi]. destruct (Hrow i row Hi) as [_ ->].
      rewrite map_length, seq_length; auto.
    + intros mv Hin. apply In_nth_error in Hin. destruct Hin as [j Hj]. eapply (wf_mv fb W); eauto.
    + intros i j row v Hi Hj. destruct (Hrow i row Hi) as [Hin ->].
      assert (j < p). { assert (G : j < length (map (val_at i) (seq 0 p))) by (apply nth_error_Some; congruence).
        rewrite map_length, seq_length in G; auto. }
      rewrite nth_seq_map in Hj by auto. inversion Hj. destruct (H i j Hin ltac:(auto)) as (v' & mv & E & Hmv & Hle).
      unfold val_at. rewrite E. split; auto. exists mv. auto.
  - intros i row Hi. destruct (Hrow i row Hi) as [Hin ->]. split; [rewrite map_length, seq_length; auto|].
    intros j v Hv Hj. rewrite nth_seq_map by auto. unfold val_at. rewrite Hv. auto.
Qed.

Lemma cell_at_in : forall X i j, data_ok V X -> i < fst (shape V NM X) -> j < snd (shape V NM X) -> exists x, cell_at V X i j = Some x.
Proof.
  intros X i j HX Hi Hj. unfold cell_at. destruct X as [n cs|k n cs| |]; simpl in *; try lia.
  - destruct (nth_error cs j) as [p|] eqn:E; [|apply nth_error_None in E; lia]. simpl.
    destruct HX as (_ & _ & H). destruct (H p (nth_error_In _ _ E)) as [HL _].
    destruct (nth_error (s_cells V (snd p)) i) as [x|] eqn:Ex; [eauto|apply nth_error_None in Ex; lia].
  - destruct (nth_error cs j) as [c|] eqn:E; [|apply nth_error_None in E; lia]. simpl.
    destruct HX as (_ & _ & H). pose proof (H c (nth_error_In _ _ E)) as HL.
    destruct (nth_error c i) as [x|] eqn:Ex; [eauto|apply nth_error_None in Ex; lia].
Qed.

Lemma cell_at_lt : forall X i j x, data_ok V X -> cell_at V X i j = Some x -> i < fst (shape V NM X) /\ j < snd (shape V NM X).
Proof.
  intros X i j x HX H. unfold cell_at in H. destruct (column_at V X j) as [col|] eqn:Ec; [|discriminate].
  assert (i < length (s_cells V col)) by (apply nth_error_Some; congruence).
  destruct X as [n cs|k n cs| |]; simpl in *; try discriminate.
  - destruct (nth_error cs j) as [p|] eqn:E; [|discriminate]. inversion Ec; subst col.
    destruct HX as (_ & _ & G). destruct (G p (nth_error_In _ _ E)) as [HL _]. split; [lia|]. apply nth_error_Some. congruence.
  - destruct (nth_error cs j) as [c|] eqn:E; [|discriminate]. inversion Ec; subst col.
    destruct HX as (_ & _ & G). pose proof (G c (nth_error_In _ _ E)) as HL. simpl in *. split; [lia|]. apply nth_error_Some. congruence.
Qed.

Lemma inverse_ok : forall (names : forall a b, nm_eqb a b = true <-> a = b)
  (Hch : forall n k, k < n -> length (ee_choice EE n k) = k) cf e0 X0 e X fb cols,
  data_ok V X0 -> fit V NM EE cf e0 X0 = (e, Ok tt) -> e_cols V e = Some cols ->
  data_ok V X -> clean V X -> transform V NM nm_eqb EE cf e X = Ok fb ->
  (forall out, inverse_transform V e fb = Ok out ->
     length out = snd (shape V NM X) /\
     forall i j x, cell_at V X i j = Some x -> exists d col o,
       nth_error cols j = Some d /\ nth_error out j = Some col /\ length col = fst (shape V NM X) /\
       nth_error col i = Some o /\
       (ordered V cols \/ is_cat V d = true -> gives_back V (reading V X) d x o)) /\
  (ordered V cols -> (forall thr t, In (LNum V thr) cols -> In t thr -> anan t = false) ->
   ~ In (LCat V []) cols -> exists out, inverse_transform V e fb = Ok out).
Proof.
  intros names Hch cf e0 X0 e X fb cols HX0 Hfit Hcols HX Hcl Ht.
  destruct (fit_inv _ _ _ _ Hfit) as (cols' & cm & F1 & F2 & F3 & [F0 F4] & F5 & F6 & _).
  assert (cols' = cols) by congruence. subst cols'.
  destruct (transform_ok names Hch _ _ _ _ _ _ _ HX0 Hfit Hcols HX Hcl Ht) as (T1 & T2 & T3 & T4 & T5 & _ & T6).
  set (n := fst (shape V NM X)) in *. set (p := snd (shape V NM X0)) in *.
  destruct (to_array_values fb n p T3 T4 T5) as (rows & R1 & R2 & R3); [lia| |].
  { intros i j Hi Hj. destruct (cell_at_in X i j HX) as [x Hx]; auto; [lia|].
    destruct (T6 i j x Hx) as (d & mv & b & _ & H1 & H2 & H3 & _). eauto. }
  assert (Hcolumn : forall j, j < p -> exists binned, mapM (fun row => geti row j) rows = Ok binned /\ length binned = n /\
            forall i v, get_value fb i j = Ok v -> i < n -> nth_error binned i = Some v).
  { intros j Hj. destruct (mapM_total (fun row : list N => geti row j) rows) as [binned Hb].
    { intros row Hr. apply In_nth_error in Hr. destruct Hr as [i Hi]. destruct (R3 i row Hi) as [Hl _].
      destruct (nth_error row j) as [v|] eqn:E; [|apply nth_error_None in E; lia]. exists v. apply geti_ok; auto. }
    exists binned. split; auto. destruct (mapM_ok _ _ _ Hb) as [HL HN]. split; [congruence|].
    intros i v Hv Hi. destruct (nth_error rows i) as [row|] eqn:Er; [|apply nth_error_None in Er; lia].
    destruct (HN i row Er) as (v' & H1 & H2). apply geti_ok in H2. destruct (R3 i row Er) as [_ G].
    rewrite (G j v Hv Hj) in H2. congruence. }
  assert (Hinv : inverse_transform V e fb = mapM (fun j => let* binned := mapM (fun row => geti row j) rows in
                          let* d := geti cols j in inverse_column V d binned) (seq 0 p)).
  { unfold inverse_transform. rewrite R1. cbn [bind]. rewrite F1, F2, F3. reflexivity. }
  split.
  - intros out Hout. rewrite Hinv in Hout. destruct (mapM_ok _ _ _ Hout) as [HL HN]. rewrite seq_length in HL.
    split; [congruence|]. intros i j x Hx. destruct (cell_at_lt X i j x HX Hx) as [Hi Hj].
    destruct (HN j j) as (col & Hcol & E); [apply nth_error_seq0; lia|].
    destruct (T6 i j x Hx) as (d & mv & b & H1 & H2 & H3 & H4 & H5).
    destruct (Hcolumn j ltac:(lia)) as (binned & B1 & B2 & B3). rewrite B1 in E. cbn [bind] in E.
    rewrite (proj2 (geti_ok _ _ _) H1) in E. cbn [bind] in E. unfold inverse_column in E.
    apply bind_ok in E. destruct E as (kn & Hk & E). destruct (mapM_ok _ _ _ E) as [HLc HNc].
    destruct (HNc i (N.of_nat b)) as (o & Ho & Eo); [apply B3; auto|].
    exists d, col, o. split; auto. split; auto. split; [congruence|]. split; auto. intros Hord.
    eapply inverse_cell; eauto.
  - intros Hord Hnan Hne. rewrite Hinv. apply mapM_total. intros j Hj. apply in_seq in Hj.
    destruct (Hcolumn j ltac:(lia)) as (binned & B1 & B2 & B3). rewrite B1. cbn [bind].
    destruct (nth_error cols j) as [d|] eqn:Ed; [|apply nth_error_None in Ed; lia].
    rewrite (proj2 (geti_ok _ _ _) Ed). cbn [bind]. unfold inverse_column.
    pose proof (nth_error_In _ _ Ed) as Hd.
    assert (G : exists kn, match d with LCat _ cats => Ok (map (OVal V) cats) | LNum _ thr => intervals_from V None thr end = Ok kn /\
              length kn = match d with LCat _ cats => length cats | LNum _ thr => S (length thr) end).
    { destruct d as [cats|thr]; [eexists; split; [reflexivity|apply map_length]|].
      destruct (intervals_total thr None) as [kn Hk].
      - apply (proj2 Hord); auto.
      - intros t Htt. eapply Hnan; eauto.
      - discriminate.
      - exists kn. split; auto. apply (intervals_spec _ _ _ Hk). }
    destruct G as (kn & Hk & HLk). rewrite Hk. cbn [bind]. apply mapM_total. intros v Hv.
    apply In_nth_error in Hv. destruct Hv as [i Hi].
    assert (Hin : i < n) by (rewrite <- B2; apply nth_error_Some; congruence).
    destruct (cell_at_in X i j HX) as [x Hx]; auto; [lia|].
    destruct (T6 i j x Hx) as (d' & mv & b & H1 & _ & H3 & _ & H5). assert (d' = d) by congruence. subst d'.
    assert (v = N.of_nat b). { rewrite (B3 i (N.of_nat b) H3 Hin) in Hi. congruence. } subst v.
    specialize (H5 (or_introl Hord)).
    assert (Hpos : 0 < length kn).
    { rewrite HLk. destruct d as [[|c cats]|thr]; simpl; try lia. exfalso. auto. }
    destruct (N.of_nat b =? N.of_nat (n_bins V d))%N eqn:Eb.
    + destruct (nth_error kn 0) as [k0|] eqn:E0; [|apply nth_error_None in E0; lia].
      rewrite (proj2 (geti_ok _ _ _) E0). cbn [bind]. eauto.
    + apply N.eqb_neq in Eb. rewrite Nat2N.id. assert (b < length kn).
      { rewrite HLk. destruct d as [cats|thr]; simpl in *.
        - destruct H5 as [(_ & c & Hc & _)|[_ ->]]; [apply nth_error_Some; congruence|lia].
        - destruct H5 as [[_ ->]|(_ & y & _ & Hle & _)]; lia. }
      destruct (nth_error kn b) as [k0|] eqn:E0; [|apply nth_error_None in E0; lia].
      exists k0. apply geti_ok; auto.
Qed.

(** ** When transform raises *)

Lemma check_X_again : forall X0 X ic b, check_X V NM X0 ic None = Ok b -> supported V X ->
  snd (shape V NM X) = snd (shape V NM X0) -> exists b', check_X V NM X ic (Some (snd (shape V NM X0))) = Ok b'.
Proof.
  intros X0 X ic b H HX E. unfold check_X in *. apply bind_ok in H. destruct H as (d & _ & H). cbn [bind] in H.
  rewrite E, Nat.eqb_refl. apply bind_ok in H. destruct H as (u & Hu & _).
  destruct X as [n cs|k n cs| |]; simpl in HX; try contradiction.
  - cbn [bind]. rewrite Hu. cbn [bind]. eauto.
  - rewrite HX. cbn [bind]. rewrite Hu. cbn [bind]. eauto.
Qed.

Lemma bins_positive : forall n d hm col, 0 < n -> column_ok V n col -> length (s_cells V col) = n ->
  (forall x, In x (s_cells V col) -> isna V x = true -> hm = true) ->
  1 <= n_bins V d + (if extra_bin (cats_of (as_category V col)) d hm then 1 else 0).
Proof.
  intros n d hm col Hn Hcol HL Hm. destruct d as [[|c cats]|thr]; simpl; try lia.
  destruct (s_cells V col) as [|x l] eqn:E; [simpl in HL; lia|].
  assert (Hx : In x (s_cells V col)) by (rewrite E; left; auto).
  destruct (isna V x) eqn:En.
  - rewrite (Hm x); auto; simpl; auto.
  - destruct (as_category_cover n col x Hcol Hx En) as (c & Hc & _).
    destruct (cats_of (as_category V col)) as [|c0 cs]; [destruct Hc|]. simpl. rewrite orb_true_r. lia.
Qed.

Lemma transform_total : forall (names : forall a b, nm_eqb a b = true <-> a = b)
  (Hch : forall n k, k < n -> length (ee_choice EE n k) = k) cf e0 X0 e X cols,
  data_ok V X0 -> fit V NM EE cf e0 X0 = (e, Ok tt) -> e_cols V e = Some cols ->
  data_ok V X -> clean V X -> supported V X -> snd (shape V NM X) = snd (shape V NM X0) ->
  still_numbers V X cols ->
  (c_error cf = true -> forall j cats c, nth_error cols j = Some (LCat V cats) -> has_category V X j c -> known V cats c) ->
  exists fb, transform V NM nm_eqb EE cf e X = Ok fb.
Proof.
  intros names Hch cf e0 X0 e X cols HX0 Hfit Hcols HX Hcl Hsup Hsh Hnum Hkn.
  destruct (fit_inv _ _ _ _ Hfit) as (cols' & cm & F1 & F2 & F3 & [F0 F4] & F5 & F6 & F7).
  assert (cols' = cols) by congruence. subst cols'.
  destruct (learn_ok _ _ _ _ HX0 Hch F4) as [L1 L2].
  assert (Hck : exists b, check_X V NM X0 (c_is_categorical cf) None = Ok b).
  { unfold fit in Hfit. destruct (check_X V NM X0 (c_is_categorical cf) None); [eauto|discriminate]. }
  destruct Hck as [b0 Hck]. destruct (check_X_again _ _ _ _ Hck Hsup Hsh) as [b Hb].
  rewrite (transform_eq names cf e X cols F1 F2 Hcl), F3, Hb. cbn [bind].
  assert (Hn : 0 < fst (shape V NM X)).
  { destruct X as [n cs|k n cs| |]; simpl in Hsup; try contradiction; destruct HX; simpl; lia. }
  assert (G : exists fb, encode cf cols (bin_of_data X) (fst (shape V NM X)) (todo_of X) = Ok fb).
  { apply (encode_total (reading V X)); auto.
    - rewrite todo_length; congruence.
    - intros j p Hj. destruct (todo_good X p HX Hcl (nth_error_In _ _ Hj)) as (A1 & A2 & A3 & A4).
      split; auto. split; auto. intros d Hd. split; [eapply bins_positive; eauto|].
      pose proof (todo_nth _ _ _ Hj) as Hcol. destruct d as [cats|thr].
      + unfold plan_column.
        assert (Hu : negb (forallb (fun c => existsb (fun c' => veqb V c' c) cats) (match s_cats V (as_category V (snd p)) with Some c => c | None => [] end)) && c_error cf = false).
        { destruct (c_error cf) eqn:Ee; [|apply andb_false_r]. rewrite andb_true_r.
          destruct (negb _) eqn:E; auto. exfalso. apply unknown_spec in E. destruct E as (c & Hc & Hunk). apply Hunk.
          apply (Hkn eq_refl j cats c Hd). exists (snd p). split; auto. unfold as_category in Hc.
          destruct (s_cats V (snd p)) as [l|] eqn:El; [rewrite El in Hc; auto|]. simpl in Hc. apply categories_of_In in Hc. auto. }
        rewrite Hu. eexists _, _, _. split; [reflexivity|].
        assert (Hbin : bin_of_data X (LCat V cats) = fun _ => bin_categorical V cats) by (destruct X; reflexivity).
        rewrite Hbin. unfold bin_categorical. destruct (as_category_cats (snd p)) as [c1 E1]. rewrite E1. reflexivity.
      + destruct (Hnum j thr (snd p) Hd Hcol) as [N1 N2].
        destruct (convert_total (reading V X) (s_cells V (snd p)) N2) as [x Hx].
        unfold plan_column. eexists _, _. destruct (bin_column_total x thr (N.to_nat (w64 (N.of_nat (n_bins V (LNum V thr) + (if fst p then 1 else 0)) + (2 ^ 64 - 1))))) as [bs Hbs].
        exists bs. split; [reflexivity|]. destruct X as [n cs|k n cs| |]; simpl in Hsup; try contradiction.
        * destruct N1 as [N1 N3]. unfold bin_of_data, bin_series. rewrite N1, N3. simpl in Hx. rewrite Hx. cbn [bind]. exact Hbs.
        * unfold bin_of_data, bin_array_column. simpl in Hx. destruct (in_uif k); rewrite Hx; cbn [bind]; exact Hbs. }
  destruct G as [fb G]. exists fb. destruct X; simpl in Hsup; try contradiction; exact G.
Qed.

Lemma mapM_error : forall {X Y} (f : X -> res Y) l er x,
  (forall x e, In x l -> f x = Err e -> e = er) -> In x l -> (exists e, f x = Err e) -> mapM f l = Err er.
Proof.
  intros X Y f l er x. induction l as [|a l IH]; simpl; intros Hall Hx [e He]; [contradiction|].
  destruct (f a) as [y|e'] eqn:E; [|cbn [bind]; rewrite (Hall _ _ (or_introl eq_refl) E); auto].
  cbn [bind]. destruct Hx as [->|Hx]; [congruence|]. rewrite IH; eauto.
Qed.

Lemma plan_error : forall cf d hm col e, plan_column V cf d hm col = Err e -> e = ValueErr.
Proof.
  intros cf d hm col e H. unfold plan_column in H. destruct d; [|discriminate].
  destruct (_ && _); inversion H; auto.
Qed.

Lemma transform_unknown : forall (Hch : forall n k, k < n -> length (ee_choice EE n k) = k) cf e0 X0 e X cols j cats c,
  data_ok V X0 -> fit V NM EE cf e0 X0 = (e, Ok tt) -> e_cols V e = Some cols ->
  data_ok V X -> c_error cf = true ->
  nth_error cols j = Some (LCat V cats) -> has_category V X j c -> ~ known V cats c ->
  transform V NM nm_eqb EE cf e X = Err ValueErr.
Proof.
  intros Hch cf e0 X0 e X cols j cats c HX0 Hfit Hcols HX Herr Hj (col & Hcol & Hc) Hunk.
  destruct (fit_inv _ _ _ _ Hfit) as (cols' & cm & F1 & F2 & F3 & [F0 F4] & F5 & F6 & F7).
  assert (cols' = cols) by congruence. subst cols'.
  destruct (learn_ok _ _ _ _ HX0 Hch F4) as [L1 L2].
  unfold transform. rewrite F1, F2, F3. cbn [negb].
  destruct (check_X V NM X (c_is_categorical cf) (Some (snd (shape V NM X0)))) as [b|er] eqn:Eb.
  2:{ cbn [bind]. f_equal. unfold check_X in Eb.
      destruct X as [n cs|k n cs| |]; simpl in Hcol; try discriminate; cbn [bind] in Eb.
      - destruct (_ =? _); cbn [bind] in Eb; [|congruence]. destruct (c_is_categorical cf); [|discriminate].
        destruct (_ =? _); cbn [bind] in Eb; congruence.
      - destruct (_ || _); cbn [bind] in Eb; [|congruence].
        destruct (_ =? _); cbn [bind] in Eb; [|congruence]. destruct (c_is_categorical cf); [|discriminate].
        destruct (_ =? _); cbn [bind] in Eb; congruence. }
  apply check_X_nf in Eb. cbn [bind].
  assert (Hbad : forall hm, exists er, plan_column V cf (LCat V cats) hm col = Err er).
  { intros hm. unfold plan_column.
    assert (E : negb (forallb (fun c0 => existsb (fun c' => veqb V c' c0) cats) (match s_cats V (as_category V col) with Some c0 => c0 | None => [] end)) = true).
    { apply unknown_spec. unfold as_category. destruct (s_cats V col) as [l|] eqn:El.
      - rewrite El. eauto.
      - simpl. destruct Hc as [Hin Hna]. destruct (categories_of_cover _ _ Hin Hna) as (c1 & H1 & H2).
        exists c1. split; auto. intros (c' & H3 & H4). apply Hunk. exists c'. split; auto. eapply gv_trans; eauto. }
    rewrite E, Herr. simpl. eauto. }
  assert (Hgen : forall (Y : Type) (f : nat * Y -> column V) (g : nat * Y -> bool) (l : list Y) (q : Y), length l = length cols ->
            nth_error l j = Some q -> f (j, q) = col ->
            mapM (fun p => let* d := geti cols (fst p) in plan_column V cf d (g p) (f p)) (enumerate l) = Err ValueErr).
  { intros Y f g l q HL Hq Hf. apply mapM_error with (x := (j, q)).
    - intros [j' q'] er Hin H. cbn [fst] in H. apply In_nth_error in Hin. destruct Hin as [k Hk].
      apply nth_error_enumerate in Hk. destruct Hk as [Hk1 Hk2]. simpl in Hk1, Hk2. subst k.
      assert (j' < length l) by (apply nth_error_Some; congruence).
      destruct (nth_error cols j') as [d|] eqn:Ed; [|apply nth_error_None in Ed; lia].
      rewrite (proj2 (geti_ok _ _ _) Ed) in H. cbn [bind] in H. eapply plan_error; eauto.
    - eapply nth_error_In. apply nth_error_enumerate. split; [reflexivity|exact Hq].
    - cbn [fst]. rewrite (proj2 (geti_ok _ _ _) Hj). cbn [bind]. rewrite Hf. apply Hbad. }
  destruct X as [n cs|k n cs| |]; simpl in Hcol, Eb; try discriminate.
  - destruct (nth_error cs j) as [q|] eqn:Eq; [|discriminate]. inversion Hcol; subst col.
    rewrite (Hgen _ (fun p => snd (snd p)) (fun p => hasnans V (s_cells V (snd (snd p)))) cs q); auto. congruence.
  - destruct (nth_error cs j) as [q|] eqn:Eq; [|discriminate]. inversion Hcol; subst col.
    rewrite (Hgen _ (fun p => mkColumn V k None (snd p)) (fun p => in_uif k && hasnans V (snd p)) cs q); auto. congruence.
Qed.

(** ** Additional facts *)

Lemma documented_bin_unique : forall read d x b b', learned_ok d ->
  documented_bin V read d x b -> documented_bin V read d x b' -> b = b'.
Proof.
  intros read d x b b' [Hok _] H H'. destruct d as [cats|thr]; simpl in *.
  - destruct H as [(Hn & c & Hc & Hv)|[Hu ->]]; destruct H' as [(Hn' & c' & Hc' & Hv')|[Hu' ->]]; auto.
    + destruct (Nat.eq_dec b b') as [|N]; auto. exfalso. destruct Hok as [_ Hd].
      pose proof (Hd b b' c c' N Hc Hc') as F. rewrite (gv_trans V GV c x c') in F; auto; [discriminate|]. apply (gv_sym V GV); auto.
    + exfalso. destruct Hu' as [Hu'|Hu']; [congruence|]. apply Hu'. exists c. split; auto. eapply nth_error_In; eauto.
    + exfalso. destruct Hu as [Hu|Hu]; [congruence|]. apply Hu. exists c'. split; auto. eapply nth_error_In; eauto.
  - destruct H as [[Hn ->]|(Hn & y & Hy & Hle & Hb)]; destruct H' as [[Hn' ->]|(Hn' & y' & Hy' & Hle' & Hb')]; auto; try congruence.
    assert (y' = y) by congruence. subst y'.
    destruct (lt_eq_lt_dec b b') as [[L|L]|L]; auto; exfalso.
    + destruct (nth_error thr b) as [t|] eqn:E; [|apply nth_error_None in E; lia].
      pose proof (proj1 (Hb' b t E) L). pose proof (proj2 (Hb b t E) (le_n _)). congruence.
    + destruct (nth_error thr b') as [t|] eqn:E; [|apply nth_error_None in E; lia].
      pose proof (proj1 (Hb b' t E) L). pose proof (proj2 (Hb' b' t E) (le_n _)). congruence.
Qed.

(** inverse_transform gives back fitted categories. *)
Lemma inverse_cat_In : forall cf e0 X0 e cols fb out j cats col i c,
  fit V NM EE cf e0 X0 = (e, Ok tt) -> e_cols V e = Some cols -> inverse_transform V e fb = Ok out ->
  nth_error cols j = Some (LCat V cats) -> nth_error out j = Some col -> nth_error col i = Some (OVal V c) -> In c cats.
Proof.
  intros cf e0 X0 e cols fb out j cats col i c Hfit Hcols Hinv Hj Ho Hi.
  destruct (fit_inv _ _ _ _ Hfit) as (cols' & cm & F1 & F2 & F3 & _).
  assert (cols' = cols) by congruence. subst cols'.
  unfold inverse_transform in Hinv. apply bind_ok in Hinv. destruct Hinv as (rows & _ & Hinv).
  rewrite F1, F2, F3 in Hinv. cbn [negb] in Hinv. destruct (mapM_ok _ _ _ Hinv) as [HL HN].
  rewrite seq_length in HL. assert (Hlt : j < snd (shape V NM X0)) by (rewrite <- HL; apply nth_error_Some; congruence).
  destruct (HN j j) as (col' & Hc' & E); [apply nth_error_seq0; auto|]. assert (col' = col) by congruence. subst col'.
  apply bind_ok in E. destruct E as (binned & _ & E). rewrite (proj2 (geti_ok _ _ _) Hj) in E. cbn [bind] in E.
  unfold inverse_column in E. cbn [bind] in E. destruct (mapM_ok _ _ _ E) as [HL' HN'].
  assert (Hil : i < length binned) by (rewrite <- HL'; apply nth_error_Some; congruence).
  destruct (nth_error binned i) as [v|] eqn:Ev; [|apply nth_error_None in Ev; lia].
  destruct (HN' i v Ev) as (o & Ho' & Eo). assert (o = OVal V c) by congruence. subst o.
  destruct (v =? _)%N.
  - apply bind_ok in Eo. destruct Eo as (u & _ & Eo). discriminate.
  - apply geti_ok in Eo. apply nth_error_map_inv in Eo. destruct Eo as (c' & Hc & Ec). inversion Ec; subst c'.
    eapply nth_error_In; eauto.
Qed.

(** Two maximal sets of different values have the same size. *)
Lemma pairwise_le : forall l1 l2 : list val, pairwise l1 ->
  (forall x, In x l1 -> exists y, In y l2 /\ veqb V x y = true) -> length l1 <= length l2.
Proof.
  induction l1 as [|a l1 IH]; intros l2 Hp H; [simpl; lia|]. destruct Hp as [H1 H2]. simpl.
  destruct (H a (or_introl eq_refl)) as (y & Hy & E). apply in_split in Hy. destruct Hy as (u & v & ->).
  rewrite app_length. simpl. assert (length l1 <= length (u ++ v)); [|rewrite app_length in *; lia].
  apply IH; auto. intros x Hx. destruct (H x (or_intror Hx)) as (y' & Hy' & E').
  apply in_app_iff in Hy'. simpl in Hy'. exists y'. split; auto. apply in_app_iff.
  destruct Hy' as [Hy'|[Hy'|Hy']]; auto. subst y'. exfalso.
  pose proof (H1 x Hx) as F. rewrite (gv_trans V GV a y x) in F; auto; [discriminate|]. apply (gv_sym V GV); auto.
Qed.

Lemma n_different_unique : forall l k k', (forall x, In x l -> isna V x = false) ->
  n_different V l k -> n_different V l k' -> k = k'.
Proof.
  intros l k k' Hn (r & <- & R1 & R2 & R3) (r' & <- & R1' & R2' & R3').
  assert (G : forall x y, In x l -> x = y \/ veqb V x y = true -> veqb V x y = true).
  { intros x y Hx [->|H]; auto. apply (gv_refl V GV). auto. }
  apply Nat.le_antisymm; apply pairwise_le; try (apply pairwise_iff; auto).
  - intros x Hx. destruct (R3' x (R1 x Hx)) as (y & Hy & E). eauto.
  - intros x Hx. destruct (R3 x (R1' x Hx)) as (y & Hy & E). eauto.
Qed.

Lemma learn_cat : forall cf cm X cols j cats col, learn V NM EE cf cm X = Ok cols ->
  nth_error cols j = Some (LCat V cats) -> column_at V X j = Some col ->
  match s_cats V col with Some l => cats = l | None => cats = categories_of V (s_cells V col) end.
Proof.
  intros cf cm X cols j cats col H Hj Hc.
  assert (Hnum : forall subset cells, learn_numerical V EE cf subset cells <> Ok (LCat V cats)).
  { intros subset cells E. unfold learn_numerical in E. do 3 (apply bind_ok in E; destruct E as (? & _ & E)). discriminate. }
  destruct X as [n cs|k n cs| |]; simpl in H, Hc; try discriminate.
  - destruct (nth_error cs j) as [p|] eqn:Ep; [|discriminate]. inversion Hc; subst col.
    destruct (mapM_ok _ _ _ H) as [_ HN]. destruct (HN j (j, p)) as (d & Hd & Ed). { apply nth_error_enumerate; auto. }
    assert (d = LCat V cats) by congruence. subst d. cbn [fst snd] in Ed. unfold learn_series in Ed.
    apply bind_ok in Ed. destruct Ed as (fl & _ & Ed). apply bind_ok in Ed. destruct Ed as (t & _ & Ed).
    destruct t; [| |apply Hnum in Ed; contradiction].
    + destruct (s_cats V (snd p)); inversion Ed; auto.
    + unfold as_category in Ed. destruct (s_cats V (snd p)) as [l|] eqn:Es; [rewrite Es in Ed|]; simpl in Ed; inversion Ed; auto.
  - destruct (nth_error cs j) as [c|] eqn:Ep; [|discriminate]. inversion Hc; subst col. simpl.
    apply bind_ok in H. destruct H as (fl & Hfl & H). destruct (mapM_ok _ _ _ H) as [_ HN].
    apply get_array_dtypes_length in Hfl.
    assert (j < length cs) by (apply nth_error_Some; congruence).
    destruct (nth_error fl j) as [b|] eqn:Eb; [|apply nth_error_None in Eb; lia].
    destruct (HN j (b, c)) as (d & Hd & Ed). { apply nth_error_combine; auto. }
    assert (d = LCat V cats) by congruence. subst d. cbn [fst snd] in Ed. unfold learn_array_column in Ed.
    destruct b; [inversion Ed; auto|apply Hnum in Ed; contradiction].
Qed.

Fixpoint chain (l : list val) : Prop :=
  match l with [] => True | x :: t => (forall y, In y t -> vleb V x y = true) /\ chain t end.

Lemma categories_sorted : (forall x y, vleb V x y = true \/ vleb V y x = true) ->
  (forall x y z, vleb V x y = true -> vleb V y z = true -> vleb V x z = true) ->
  forall cells i k x y, i < k -> nth_error (categories_of V cells) i = Some x -> nth_error (categories_of V cells) k = Some y ->
  vleb V x y = true.
Proof.
  intros Htot Htr cells.
  assert (G1 : forall x l, chain l -> chain (insert_val V x l)).
  { intros x l. induction l as [|a l IH]; intros Hl; [simpl; split; [intros y []|auto]|]. destruct Hl as [H1 H2]. simpl. destruct (vleb V x a) eqn:E.
    - simpl. split; auto. intros y [<-|Hy]; auto. eapply Htr; eauto.
    - simpl. split; auto. intros y Hy. eapply Permutation_in in Hy; [|apply Permutation_sym, insert_val_perm].
      destruct Hy as [<-|Hy]; auto. destruct (Htot x a); congruence. }
  assert (G2 : forall l, chain (sort_val V l)) by (induction l; simpl; auto).
  assert (G3 : forall l, chain l -> forall i k x y, i < k -> nth_error l i = Some x -> nth_error l k = Some y -> vleb V x y = true).
  { induction l as [|a l IH]; intros Hl i k x y Hik Hi Hk; [destruct i; discriminate|]. destruct Hl as [H1 H2].
    destruct k as [|k]; [lia|]. simpl in Hk. destruct i as [|i].
    - simpl in Hi. inversion Hi; subst. apply H1. eapply nth_error_In; eauto.
    - simpl in Hi. apply (IH H2 i k x y); auto; lia. }
  apply G3. apply G2.
Qed.

(** ** When fit raises *)

Lemma sort_num_length : forall l : list (num A), length (sort_num l) = length l.
Proof.
  assert (G : forall (x : num A) l, length (insert_num x l) = S (length l)).
  { intros x l. induction l as [|y l IH]; simpl; auto. destruct (aleb x y); simpl; lia. }
  induction l; simpl; auto. rewrite G. lia.
Qed.

Lemma thresholds_total : forall (ai : num A) col mb, 0 < mb -> exists thr, find_binning_thresholds ai col mb = Ok thr.
Proof.
  intros ai col mb Hmb. unfold find_binning_thresholds. set (c := filter _ col).
  destruct (length (unique c) <=? mb) eqn:E; [cbn [bind]; eauto|]. apply Nat.leb_gt in E.
  assert (Hl : mb < length (sort_num c)).
  { unfold unique in E. pose proof (dedupe_length (sort_num c)). lia. }
  destruct (mapM_total (fun k => percentile_midpoint (sort_num c) k mb) (seq 1 (mb - 1))) as [l Hm].
  { intros k Hk. apply in_seq in Hk. unfold percentile_midpoint. set (n := length (sort_num c)) in *.
    assert (H1 : (n - 1) * k / mb < n - 1) by (apply Nat.div_lt_upper_bound; nia).
    destruct (get_in (sort_num c) ((n - 1) * k / mb)) as [lo Hlo]; [fold n; lia|].
    destruct (get_in (sort_num c) ((n - 1) * k / mb + 1)) as [hi Hhi]; [fold n; lia|].
    rewrite Hlo, Hhi. cbn [bind]. destruct (_ =? 0); eauto. }
  rewrite Hm. cbn [bind]. eauto.
Qed.

Lemma learn_numerical_total : forall cf n cells, 0 < c_max_bins cf -> length cells = n ->
  (forall n k i, k < n -> In i (ee_choice EE n k) -> i < n) ->
  (forall x, In x cells -> as64 V x <> None) ->
  exists thr, learn_numerical V EE cf (subset_of EE cf n) cells = Ok (LNum V thr).
Proof.
  intros cf n cells Hmb Hl Hch Hc. unfold learn_numerical.
  assert (Hs : exists sample, take V (subset_of EE cf n) cells = Ok sample /\ forall x, In x sample -> In x cells).
  { unfold subset_of. destruct (c_subsample cf) as [k|]; [|simpl; eauto]. destruct (Nat.ltb_spec k n); [|simpl; eauto].
    simpl. destruct (mapM_total (geti cells) (ee_choice EE n k)) as [sample Hs].
    { intros i Hi. specialize (Hch n k i H Hi). destruct (nth_error cells i) as [x|] eqn:E; [|apply nth_error_None in E; lia].
      exists x. apply geti_ok. auto. }
    exists sample. split; auto. intros x Hx. destruct (mapM_ok _ _ _ Hs) as [HL HN].
    apply In_nth_error in Hx. destruct Hx as [i Hi].
    assert (Hil : i < length (ee_choice EE n k)) by (rewrite <- HL; apply nth_error_Some; congruence).
    destruct (nth_error (ee_choice EE n k) i) as [q|] eqn:Eq; [|apply nth_error_None in Eq; lia].
    destruct (HN i q Eq) as (x' & Hx' & Ex). assert (x' = x) by congruence. subst x'. apply geti_ok in Ex. eapply nth_error_In; eauto. }
  destruct Hs as (sample & Hs & Hin). rewrite Hs. cbn [bind].
  destruct (convert_total (as64 V) (dropna V sample)) as [xs Hx].
  { intros x Hx. apply Hc. apply Hin. apply dropna_In in Hx. apply Hx. }
  rewrite Hx. cbn [bind]. destruct (thresholds_total (ee_almost_inf EE) xs (c_max_bins cf) Hmb) as [thr Ht]. rewrite Ht. cbn [bind]. eauto.
Qed.

Lemma fit_total : forall cf e0 X,
  (forall n k i, k < n -> In i (ee_choice EE n k) -> i < n) ->
  (forall x, as32 V x <> None -> as64 V x <> None) ->
  0 < c_max_bins cf -> c_cat_min cf <> None ->
  match c_is_categorical cf with Some flags => length flags = snd (shape V NM X) | None => True end ->
  data_ok V X -> acceptable V X (c_is_categorical cf) -> 1 <= snd (shape V NM X) ->
  exists e, fit V NM EE cf e0 X = (e, Ok tt).
Proof.
  intros cf e0 X Hch H32 Hmb Hcm Hfl HX Hacc Hp. unfold fit.
  assert (Hck : exists b, check_X V NM X (c_is_categorical cf) None = Ok b).
  { unfold check_X. destruct X as [n cs|k n cs| |]; simpl in Hacc; try contradiction; cbn [bind].
    - destruct (c_is_categorical cf) as [fl|]; cbn [bind]; [rewrite <- Hfl, Nat.eqb_refl; cbn [bind]|]; eauto.
    - destruct Hacc as [Hk _]. rewrite Hk. cbn [bind].
      destruct (c_is_categorical cf) as [fl|]; cbn [bind]; [rewrite <- Hfl, Nat.eqb_refl; cbn [bind]|]; eauto. }
  destruct Hck as [b Hck]. rewrite Hck. destruct (shape V NM X) as [n p] eqn:Es. simpl in Hp.
  assert (Hn : 1 <= n). { destruct X; simpl in Hacc; try contradiction; destruct HX; inversion Es; subst; auto. }
  destruct (Nat.eqb_spec n 0); [lia|]. destruct (Nat.eqb_spec p 0); [lia|].
  assert (Hc : exists cm, cat_min_of EE cf n = Ok cm) by (unfold cat_min_of; destruct (c_cat_min cf) as [[]|]; eauto; congruence).
  destruct Hc as [cm Ecm]. rewrite Ecm. cbn [bind].
  assert (Hlearn : exists cols, learn V NM EE cf cm X = Ok cols).
  { destruct X as [n' cs|k n' cs| |]; simpl in Hacc; try contradiction; inversion Es; subst n' p; simpl.
    - apply mapM_total. intros [j q] Hin. apply In_nth_error in Hin. destruct Hin as [j' Hj]. apply nth_error_enumerate in Hj.
      destruct Hj as [E Hj]. simpl in E, Hj. subst j'. cbn [fst snd].
      destruct HX as (_ & _ & HX). specialize (HX q (nth_error_In _ _ Hj)). specialize (Hacc q (nth_error_In _ _ Hj)).
      assert (Hflag : exists fl, match c_is_categorical cf with None => Ok None | Some flags => let* b := geti flags j in Ok (Some b) end = Ok fl).
      { destruct (c_is_categorical cf) as [fl|]; [|eauto]. assert (j < length cs) by (apply nth_error_Some; congruence). simpl in Hfl.
        destruct (nth_error fl j) as [b'|] eqn:Eb; [|apply nth_error_None in Eb; lia].
        rewrite (proj2 (geti_ok _ _ _) Eb). cbn [bind]. eauto. }
      destruct Hflag as [fl Ef]. unfold learn_series. rewrite Ef. cbn [bind].
      assert (Hcat : forall s, exists d : learned V, match s_cats V (as_category V s) with Some c => Ok (LCat V c) | None => Err AttrErr end = Ok d).
      { intro s. destruct (as_category_cats s) as [c E]. rewrite E. eauto. }
      unfold is_series_categorical. destruct Hacc as [HO|(HU & Hnc & Hnum)].
      + rewrite HO. destruct fl as [[]|]; destruct (s_cats V (snd q)) eqn:Ec; cbn [bind]; rewrite ?Ec; eauto.
      + destruct (in_bOSU (s_kind V (snd q))) eqn:HO.
        { destruct (s_kind V (snd q)); discriminate. }
        rewrite HU. destruct (learn_numerical_total cf n (s_cells V (snd q))) as [thr Ht]; auto; [apply HX|].
        destruct fl as [[]|]; cbn [bind]; eauto. destruct (_ <=? cm); cbn [bind]; eauto.
    - destruct Hacc as (Hk & Hnum & Hobj). destruct HX as (_ & _ & HX).
      assert (Hd : exists fl, get_array_dtypes V k cs (c_is_categorical cf) cm = Ok fl /\
                forall j c, nth_error fl j = Some false -> nth_error cs j = Some c -> forall x, In x c -> as64 V x <> None).
      { unfold get_array_dtypes. destruct (in_bOSU k) eqn:HO.
        - assert (Hca : forall c, castable V c = true -> forall x, In x c -> as64 V x <> None).
          { intros c Hc x Hx. apply H32. unfold castable in Hc. destruct (convert V (as32 V) c) as [xs|] eqn:Ec; [|discriminate].
            apply In_nth_error in Hx. destruct Hx as [i Hi]. destruct (convert_nth _ _ _ Ec i x Hi) as (y & _ & Ey). congruence. }
          destruct (c_is_categorical cf) as [fl|].
          + destruct (mapM_total (fun p => let* flag := geti fl (fst p) in if flag : bool then Ok true else if castable V (snd p) then Ok false else Err ValueErr) (enumerate cs)) as [out Ho].
            { intros [j c] Hin. apply In_nth_error in Hin. destruct Hin as [j' Hj]. apply nth_error_enumerate in Hj.
              destruct Hj as [E Hj]. simpl in E, Hj. subst j'. cbn [fst snd].
              assert (j < length cs) by (apply nth_error_Some; congruence). simpl in Hfl.
              destruct (nth_error fl j) as [b'|] eqn:Eb; [|apply nth_error_None in Eb; lia].
              rewrite (proj2 (geti_ok _ _ _) Eb). cbn [bind]. destruct b'; eauto.
              assert (Hc : castable V c = true).
              { unfold castable. destruct (convert_total (as32 V) c) as [xs Hx]; [apply (Hobj eq_refl j c Eb Hj)|]. rewrite Hx. auto. }
              rewrite Hc. eauto. }
            exists out. split; auto. intros j c Hj Hc. destruct (mapM_ok _ _ _ Ho) as [_ HN].
            destruct (HN j (j, c)) as (b' & Hb & E); [apply nth_error_enumerate; auto|]. cbn [fst snd] in E.
            apply bind_ok in E. destruct E as (flag & _ & E). assert (b' = false) by congruence. subst b'.
            destruct flag; [discriminate|]. destruct (castable V c) eqn:Ec; [|discriminate]. apply Hca; auto.
          + destruct (mapM_total (fun col => if np_unique_size V k col <=? cm then Ok true else if castable V col then Ok false else Ok true) cs) as [out Ho].
            { intros c _. destruct (_ <=? cm); [eauto|]. destruct (castable V c); eauto. }
            exists out. split; auto. intros j c Hj Hc. destruct (mapM_ok _ _ _ Ho) as [_ HN].
            destruct (HN j c Hc) as (b' & Hb & E). assert (b' = false) by congruence. subst b'.
            destruct (_ <=? cm); [discriminate|]. destruct (castable V c) eqn:Ec; [|discriminate]. apply Hca; auto.
        - simpl in Hk. rewrite Hk. specialize (Hnum Hk).
          assert (G : exists out, match c_is_categorical cf with
                 | Some flags => mapM (fun p => let* flag := geti flags (fst p) in if flag : bool then Ok true else Ok false) (enumerate cs)
                 | None => mapM (fun col => if np_unique_size V k col <=? cm then Ok true else Ok false) cs end = Ok out).
          { destruct (c_is_categorical cf) as [fl|].
            - apply mapM_total. intros [j c] Hin. apply In_nth_error in Hin. destruct Hin as [j' Hj]. apply nth_error_enumerate in Hj.
              destruct Hj as [E Hj]. simpl in E, Hj. subst j'. cbn [fst snd].
              assert (j < length cs) by (apply nth_error_Some; congruence). simpl in Hfl.
              destruct (nth_error fl j) as [b'|] eqn:Eb; [|apply nth_error_None in Eb; lia].
              rewrite (proj2 (geti_ok _ _ _) Eb). cbn [bind]. destruct b'; eauto.
            - apply mapM_total. intros c _. destruct (_ <=? cm); eauto. }
          destruct G as [out Ho]. exists out. split; [destruct (c_is_categorical cf); exact Ho|].
          intros j c _ Hc x Hx. apply (Hnum c x); auto. eapply nth_error_In; eauto. }
      destruct Hd as (fl & Efl & Hfl2). rewrite Efl. cbn [bind]. apply mapM_total.
      intros [b' c] Hin. apply In_nth_error in Hin. destruct Hin as [j Hj]. apply nth_error_combine in Hj. destruct Hj as [J1 J2].
      cbn [fst snd]. unfold learn_array_column. destruct b'; [eauto|].
      destruct (learn_numerical_total cf n c) as [thr Ht]; auto; [apply HX; eapply nth_error_In; eauto|eapply Hfl2; eauto|eauto]. }
  destruct Hlearn as [cols Hl]. rewrite Hl. eauto.
Qed.
End P.
