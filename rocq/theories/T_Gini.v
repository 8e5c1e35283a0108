(** * C64: the scaled Gini index of a dataset *)

Require Import String List Arith Bool Lia Reals Lra.
Require Import Verif.Num Verif.M_Encoder Verif.S_Encoder Verif.P_Encoder Verif.S_Impurity Verif.P_Impurity.
Require Import Verif.Cells Verif.Ex_Parallel Verif.M_Dataset Verif.S_Dataset Verif.P_Dataset Verif.T_Dataset Verif.Base.
Import ListNotations.
Local Notation length := List.length.

(** ** Specification *)
Section Spec.
Context {A : arith} (V : values A).

(** The same label, two missing labels being the same. *)
Definition same_label (x y : val V) : bool := (Bool.eqb (isna V x) (isna V y) && (isna V x || veqb V x y))%bool.

(** How many rows have label [m]; how many pairs of rows have different labels. *)
Definition rows_with (cells : list (val V)) (m : val V) : nat := length (filter (same_label m) cells).
Definition different_pairs (cells : list (val V)) : nat :=
  length (filter (fun p => negb (same_label (fst p) (snd p))) (list_prod cells cells)).
End Spec.

(** ** Counting *)
Section Count.
Local Open Scope R_scope.

Lemma Rsum_cons : forall x l, Rsum (x :: l) = x + Rsum l.
Proof. reflexivity. Qed.
Lemma Rsum_one_code : forall (g : nat -> R) k K, Rsum (map (fun j => if (j =? k)%nat then g j else 0) (seq 0 K)) = if (k <? K)%nat then g k else 0.
Proof.
  intros g k K. induction K as [|K IH]; [reflexivity|]. rewrite seq_S, map_app, Rsum_app, IH. cbn [map plus]. rewrite Rsum_cons. change (Rsum []) with 0.
  destruct (Nat.eqb_spec K k) as [->|Hne].
  - rewrite Nat.ltb_irrefl. replace (k <? S k)%nat with true by (symmetry; apply Nat.ltb_lt; lia). lra.
  - destruct (Nat.ltb_spec k K); destruct (Nat.ltb_spec k (S K)); try lia; lra.
Qed.

Lemma sum_by_code : forall (g : nat -> R) K codes, (forall c, In c codes -> (c < K)%nat) ->
  Rsum (map g codes) = Rsum (map (fun k => INR (count_code codes k) * g k) (seq 0 K)).
Proof.
  intros g K codes. induction codes as [|c codes IH]; intros H.
  - cbn [map]. unfold count_code. cbn [filter length]. rewrite (Rsum_ext _ (fun _ => 0)) by (intros; cbn; lra).
    generalize (seq 0 K). induction l; cbn in *; lra.
  - cbn [map]. rewrite Rsum_cons.
    rewrite IH by (intros; apply H; right; auto).
    rewrite (Rsum_ext (fun k => INR (count_code (c :: codes) k) * g k) (fun k => (if (k =? c)%nat then g k else 0) + INR (count_code codes k) * g k)).
    + rewrite Rsum_plus, Rsum_one_code. replace (c <? K)%nat with true; [lra|]. symmetry. apply Nat.ltb_lt, H. left. auto.
    + intros k _. unfold count_code. cbn [filter]. destruct (Nat.eqb_spec k c); cbn [length]; [rewrite S_INR|]; lra.
Qed.

Lemma len_codes : forall K codes, (forall c, In c codes -> (c < K)%nat) ->
  Rsum (map (fun k => INR (count_code codes k)) (seq 0 K)) = INR (length codes).
Proof.
  intros K codes H. transitivity (Rsum (map (fun _ => 1) codes)).
  - rewrite (sum_by_code (fun _ => 1) K codes H). apply Rsum_ext. intros. lra.
  - clear. induction codes as [|c l IH]; [reflexivity|]. cbn [map length]. rewrite S_INR, Rsum_cons, IH. lra.
Qed.

Lemma sum_shift : forall (f : nat -> R) (c : R) l, Rsum (map (fun k => (f k - c) * (f k - c)) l) =
  Rsum (map (fun k => f k * f k) l) - 2 * c * Rsum (map f l) + INR (length l) * (c * c).
Proof.
  intros f c l. induction l as [|k l IH]; [cbn; lra|]. cbn [map length]. rewrite S_INR, !Rsum_cons, IH. lra.
Qed.

Lemma pairs_sum : forall {X} (f : X -> X -> bool) l m,
  length (filter (fun p => f (fst p) (snd p)) (list_prod l m)) = list_sum (map (fun x => length (filter (f x) m)) l).
Proof.
  intros X f l m. induction l as [|x l IH]; [reflexivity|]. cbn [list_prod map list_sum fold_right]. rewrite filter_app, app_length.
  unfold list_sum in IH. rewrite IH. f_equal. clear. induction m as [|y m IH]; [reflexivity|]. cbn [map filter fst snd]. destruct (f x y); cbn [length]; lia.
Qed.

Lemma filter_neg_len : forall {X} (f : X -> bool) l, (length (filter (fun x => negb (f x)) l) + length (filter f l) = length l)%nat.
Proof. intros X f l. induction l as [|x l IH]; [reflexivity|]. cbn [filter]. destruct (f x); cbn [negb length]; lia. Qed.

Lemma INR_list_sum : forall {X} (f : X -> nat) l, INR (list_sum (map f l)) = Rsum (map (fun x => INR (f x)) l).
Proof. intros X f l. induction l as [|x l IH]; [reflexivity|]. cbn [map list_sum fold_right]. rewrite plus_INR. unfold list_sum in IH. rewrite IH. reflexivity. Qed.

(** The indices, from the counts. *)
Lemma gini_counts : forall codes K, (forall c, In c codes -> (c < K)%nat) -> codes <> [] ->
  let n := INR (length codes) in
  @gini R_arith (map (fun k => @adiv R_arith (INR (count_code codes k)) n) (seq 0 K)) * (n * n) =
  n * n - Rsum (map (fun c => INR (count_code codes c)) codes).
Proof.
  intros codes K H Hne n. assert (Hn : n <> 0).
  { unfold n. apply not_0_INR. destruct codes; [contradiction|discriminate]. }
  unfold gini. rewrite asum_R. cbn [asub a1 R_arith]. rewrite map_map.
  rewrite (sum_by_code _ K codes H). unfold Rminus. rewrite Rmult_plus_distr_r, Rmult_1_l. f_equal.
  rewrite Ropp_mult_distr_l_reverse. f_equal. rewrite Rmult_comm, <- Rsum_scal. apply Rsum_ext. intros k _.
  cbn [amul adiv R_arith]. field. exact Hn.
Qed.

Lemma max_gini : forall K, (1 <= K)%nat -> @gini R_arith (repeat (@adiv R_arith (@a1 R_arith) (@aofnat R_arith K)) K) = 1 - / INR K.
Proof.
  intros K HK. unfold gini. rewrite asum_R. cbn [asub a1 adiv aofnat R_arith]. f_equal.
  assert (Hk : INR K <> 0) by (apply not_0_INR; lia).
  assert (forall m x, Rsum (map (fun p => p * p) (repeat x m)) = INR m * (x * x)) as Hr.
  { induction m as [|m IH]; intros x; [cbn; lra|]. rewrite S_INR. cbn [repeat map]. rewrite Rsum_cons, IH. lra. }
  change (@amul R_arith) with Rmult. rewrite Hr. field. exact Hk.
Qed.
End Count.

(** ** Labels and codes *)
Section Labels.
Context {A : arith} (V : values A) (GV : good_values V).

Lemma same_label_iff : forall x y, same_label V x y = true <-> same_value V x y.
Proof.
  intros x y. unfold same_label, same_value. destruct (isna V x), (isna V y), (veqb V x y); cbn; intuition congruence.
Qed.

Lemma label_codes : forall cells codes, encode_labels V (modalities V cells) cells = Ok codes ->
  length codes = length cells /\ (forall c, In c codes -> c < length (modalities V cells)) /\
  Forall2 (fun x c => exists m, nth_error (modalities V cells) c = Some m /\ same_value V m x) cells codes.
Proof.
  intros cells codes H. unfold encode_labels in H. apply mapM_F2 in H.
  assert (Forall2 (fun x c => exists m, nth_error (modalities V cells) c = Some m /\ same_value V m x) cells codes) as HF.
  { eapply F2_impl; [|exact H]. intros x c _ Hx. cbn in Hx. destruct (code_of V (modalities V cells) x) as [k|] eqn:Hk; [|discriminate].
    inversion Hx; subst. exact (code_some V _ _ _ Hk). }
  split; [symmetry; exact (F2_len _ _ _ HF)|]. split; [|exact HF].
  intros c Hc. apply In_nth_error in Hc. destruct Hc as [i Hi]. destruct (F2_nth' _ _ _ HF i c Hi) as (x & _ & m & Hm & _).
  apply nth_error_Some. congruence.
Qed.

Lemma same_iff_code : forall cells m x k c, (forall k k' m m', nth_error (modalities V cells) k = Some m ->
    nth_error (modalities V cells) k' = Some m' -> same_value V m m' -> k = k') ->
  nth_error (modalities V cells) k = Some m -> (exists m', nth_error (modalities V cells) c = Some m' /\ same_value V m' x) ->
  same_label V m x = (k =? c).
Proof.
  intros cells m x k c HD Hm (m' & Hm' & Hs). destruct (Nat.eqb_spec k c) as [->|Hne].
  - apply same_label_iff. rewrite Hm in Hm'. inversion Hm'; subst. exact Hs.
  - destruct (same_label V m x) eqn:He; [|reflexivity]. exfalso. apply Hne. apply (HD k c m m' Hm Hm'). apply same_label_iff in He.
    destruct He as [He1 He2], Hs as [Hs1 Hs2]. split; [congruence|]. intros Hna.
    apply (gv_trans V GV m x m'); [auto|]. apply (gv_sym V GV). apply Hs2. congruence.
Qed.

Lemma same_both : forall cells x y c c', (forall k k' m m', nth_error (modalities V cells) k = Some m ->
    nth_error (modalities V cells) k' = Some m' -> same_value V m m' -> k = k') ->
  (exists m, nth_error (modalities V cells) c = Some m /\ same_value V m x) ->
  (exists m', nth_error (modalities V cells) c' = Some m' /\ same_value V m' y) ->
  same_label V x y = (c =? c').
Proof.
  intros cells x y c c' HD (m & Hm & Hs) Hy. rewrite <- (same_iff_code cells m y c c' HD Hm Hy).
  apply eq_true_iff_eq. rewrite !same_label_iff. destruct Hs as [Hs1 Hs2]. split; intros [H1 H2]; (split; [congruence|]); intros Hna.
  - apply (gv_trans V GV m x y); [auto|]. apply H2. congruence.
  - apply (gv_trans V GV x m y); [apply (gv_sym V GV); apply Hs2; congruence|]. apply H2. congruence.
Qed.

Lemma rows_with_code : forall (P : val V -> nat -> Prop) cells codes m k, Forall2 P cells codes ->
  (forall x c, P x c -> same_label V m x = (k =? c)) -> rows_with V cells m = count_code codes k.
Proof.
  intros P cells codes m k HF H. unfold rows_with, count_code. induction HF as [|x c cells codes Hx HF IH]; [reflexivity|].
  cbn [filter]. rewrite (H x c Hx). destruct (k =? c); cbn [length]; auto.
Qed.

Lemma pairs_codes : forall cells codes,
  (forall k k' m m', nth_error (modalities V cells) k = Some m -> nth_error (modalities V cells) k' = Some m' -> same_value V m m' -> k = k') ->
  encode_labels V (modalities V cells) cells = Ok codes ->
  (INR (different_pairs V cells) = INR (length codes) * INR (length codes) - Rsum (map (fun c => INR (count_code codes c)) codes))%R.
Proof.
  intros cells codes HD H. destruct (label_codes cells codes H) as (Hl & _ & HF).
  unfold different_pairs. rewrite (pairs_sum (fun x y => negb (same_label V x y))).
  set (P := fun x c => exists m, nth_error (modalities V cells) c = Some m /\ same_value V m x) in HF.
  assert (forall part parts, Forall2 P part parts ->
     (INR (list_sum (map (fun x => length (filter (fun y => negb (same_label V x y)) cells)) part)) =
      INR (length parts) * INR (length codes) - Rsum (map (fun c => INR (count_code codes c)) parts))%R) as HG; [|exact (HG _ _ HF)].
  intros part parts HP. induction HP as [|x c part parts Hx HP IH]; [cbn; lra|].
  cbn [map list_sum fold_right length]. rewrite plus_INR, S_INR. unfold list_sum in IH. rewrite IH, Rsum_cons.
  pose proof (filter_neg_len (same_label V x) cells) as Hn.
  assert (length (filter (same_label V x) cells) = count_code codes c) as Hc.
  { apply (rows_with_code P cells codes x c HF). intros y c' Hy. apply (same_both cells); auto. }
  rewrite Hc in Hn. apply (f_equal INR) in Hn. rewrite plus_INR, <- Hl in Hn. lra.
Qed.
End Labels.

Lemma col_at : forall {A} (V : values A) df c cells i, col V df c = Ok cells -> cell V df c i = nth_error cells i.
Proof. intros A V df c cells i H. unfold col in H. unfold cell. destruct (find _ (fr_cols V df)) as [p|]; [|discriminate]. inversion H; reflexivity. Qed.

Ltac onR := match goal with |- @eq _ ?a ?b => change (@eq R a b) end.

(** ** C64 *)
Section C64.
Context (V : values R_arith) (GV : good_values V) (E : denv V).
Local Open Scope R_scope.

Lemma label_probs_run : forall cells probs, label_probs V cells = Ok probs ->
  exists codes, encode_labels V (modalities V cells) cells = Ok codes /\
    probs = map (fun k => @adiv R_arith (INR (count_code codes k)) (INR (length codes))) (seq 0 (length (modalities V cells))).
Proof.
  intros cells probs H. unfold label_probs in H. apply bind_ok in H. destruct H as (codes & Hc & H). exists codes. split; [exact Hc|]. inversion H. reflexivity.
Qed.

Lemma modalities_all : forall df c cells, frame_ok V df -> col V df c = Ok cells ->
  (length cells = fr_n V df)%nat /\ modalities_of V df c (seq 0 (fr_n V df)) (modalities V cells).
Proof.
  intros df c cells Hf Hc. assert (length cells = fr_n V df)%nat as Hl.
  { unfold col in Hc. destruct (find _ (fr_cols V df)) as [p|] eqn:Hp; [|discriminate]. inversion Hc; subst. apply find_some in Hp. apply (proj2 Hf). apply Hp. }
  split; [exact Hl|]. pose proof (good_missing V GV) as GM.
  pose proof (categories_of_ok (with_missing V) GM cells) as [_ Hd]. split; [|split].
  - intros i x Hi Hx. rewrite (col_at V df c cells i Hc) in Hx.
    destruct (categories_of_cover (with_missing V) GM cells x) as [m [Hm He]]; [eapply nth_error_In; eauto|auto|].
    exists m. split; auto. apply same_value_iff; auto.
  - intros m Hm. apply (categories_of_In (with_missing V)) in Hm. destruct Hm as [Hm _]. apply (@In_nth_error (val V)) in Hm. destruct Hm as [i Hi].
    exists i, m. split; [|split].
    + apply in_seq. rewrite <- Hl. assert (nth_error cells i <> None) as Hs by congruence. apply nth_error_Some in Hs. lia.
    + rewrite (col_at V df c cells i Hc). exact Hi.
    + apply same_value_iff. apply (gv_refl _ GM). auto.
  - intros k k' m m' Hk Hk' Hs. destruct (Nat.eq_dec k k') as [|Hne]; auto. exfalso.
    specialize (Hd k k' m m' Hne Hk Hk'). apply same_value_iff in Hs. congruence.
Qed.

(** The index is the probability that two rows have different labels, divided by the greatest
    value it can have with this number of classes. *)
Theorem C64_scaled_gini : forall d df seed o, frame_ok V df -> ds_task d = DClassification -> extract V E d df seed = Ok o ->
  exists cells classes g, (forall i, cell V df (ds_label d) i = nth_error cells i) /\ length cells = fr_n V df /\
    modalities_of V df (ds_label d) (seq 0 (fr_n V df)) classes /\ x_scaled_gini V o = Some g /\
    let n := INR (fr_n V df) in let K := INR (length classes) in
    ((2 <= length classes)%nat ->
      g = (INR (different_pairs V cells) / (n * n)) / (1 - 1 / K) /\ 0 <= g <= 1 /\
      (g = 1 <-> forall m, In m classes -> K * INR (rows_with V cells m) = n)).
Proof.
  intros d df seed o Hf Ht H. destruct (extract_run V E d df seed o H) as (tr & te & fa & fb & steps & la & lb & HR).
  pose proof (rn_y V E _ _ _ _ _ _ _ _ _ _ _ HR) as HY. rewrite Ht in HY.
  destruct HY as (ya & yb & _ & _ & _ & _ & _ & cells & probs & Hc & Hp & Hg).
  destruct (modalities_all df _ cells Hf Hc) as [Hl Hm]. destruct (label_probs_run cells probs Hp) as (codes & Hcodes & ->).
  exists cells, (modalities V cells), (@scaled_gini R_arith (map (fun k => @adiv R_arith (INR (count_code codes k)) (INR (length codes))) (seq 0 (length (modalities V cells))))).
  split; [intros i; apply col_at; exact Hc|]. split; [exact Hl|]. split; [exact Hm|]. split; [exact Hg|].
  intros n K HK. destruct (label_codes V cells codes Hcodes) as (Hlc & Hlt & HF).
  assert (HD := proj2 (proj2 Hm)).
  assert (codes <> []) as Hne.
  { intros ->. destruct cells; [cbn in HK; lia|discriminate]. }
  assert (Hn : 0 < INR (length codes)) by (apply lt_0_INR; destruct codes; [contradiction|cbn; lia]).
  assert (Hkk : 2 <= K) by (unfold K; apply (le_INR 2) in HK; cbn in HK; lra).
  unfold scaled_gini. rewrite map_length, seq_length, max_gini by lia. change (@adiv R_arith) with Rdiv.
  pose proof (gini_counts codes (length (modalities V cells)) Hlt Hne) as HGi. cbv zeta in HGi. change (@adiv R_arith) with Rdiv in HGi.
  rewrite <- (pairs_codes V GV cells codes HD Hcodes) in HGi.
  set (G := @gini R_arith _) in *.
  assert (n = INR (length codes)) as En by (unfold n; rewrite Hlc, Hl; reflexivity).
  assert (HP : 0 < n * n) by (rewrite En; apply Rmult_lt_0_compat; exact Hn).
  rewrite <- En in HGi, Hn.
  assert (Hki : / K * K = 1) by (apply Rinv_l; lra).
  assert (Hk1 : 0 < 1 - / K) by (assert (/ K < 1) by (rewrite <- Rinv_1; apply Rinv_lt_contravar; lra); lra).
  assert (HV : Rsum (map (fun k => (INR (count_code codes k) - n / K) * (INR (count_code codes k) - n / K)) (seq 0 (length (modalities V cells)))) =
               n * n * ((1 - / K) - G)).
  { rewrite sum_shift, (len_codes _ _ Hlt), seq_length, <- En.
    pose proof (sum_by_code (fun c => INR (count_code codes c)) _ codes Hlt) as HS.
    pose proof (pairs_codes V GV cells codes HD Hcodes) as HPc. rewrite <- En in HPc. rewrite HS in HPc.
    replace (n * n * (1 - / K - G)) with (n * n - n * n * / K - G * (n * n)) by ring. rewrite HGi, HPc.
    change (INR (length (modalities V cells))) with K. replace (K * (n / K * (n / K))) with (n * n * / K) by (onR; field; lra). field. lra. }
  assert (HG : @eq R G (INR (different_pairs V cells) / (n * n))) by (rewrite <- HGi; unfold Rdiv; rewrite Rmult_assoc, Rinv_r by lra; rewrite Rmult_1_r; reflexivity).
  split; [|split; [split|]].
  - rewrite HG. unfold Rdiv. rewrite Rmult_1_l. reflexivity.
  - unfold Rdiv. apply Rmult_le_pos; [|left; apply Rinv_0_lt_compat; exact Hk1]. rewrite HG. apply Rmult_le_pos; [apply pos_INR|].
    left. apply Rinv_0_lt_compat. exact HP.
  - apply (Rmult_le_reg_r (1 - / K)); [exact Hk1|]. unfold Rdiv. rewrite Rmult_assoc, Rinv_l, Rmult_1_r, Rmult_1_l by lra.
    apply Rminus_le, (Rmult_le_reg_l (n * n)); [exact HP|]. rewrite Rmult_0_r.
    assert (0 <= n * n * (1 - / K - G)); [|lra]. rewrite <- HV. apply Rsum_nonneg. intros x Hx. apply in_map_iff in Hx. destruct Hx as (k & <- & _).
    apply Rle_0_sqr.
  - transitivity (n * n * (1 - / K - G) = 0).
    { split.
      - intros He. replace G with (G / (1 - / K) * (1 - / K)) by (onR; field; lra). change (/ INR (length (modalities V cells))) with (/ K) in He.
        rewrite He. ring.
      - intros He. apply Rmult_integral in He. destruct He as [He|He]; [lra|]. change (/ INR (length (modalities V cells))) with (/ K).
        replace G with (1 - / K) by lra. onR. field. lra. }
    rewrite <- HV.
    assert (Hrw : forall k m, nth_error (modalities V cells) k = Some m -> rows_with V cells m = count_code codes k).
    { intros k m Hkm. eapply rows_with_code; [exact HF|]. intros x c Hx. apply (same_iff_code V GV cells); auto. }
    split.
    + intros He m Hin. apply In_nth_error in Hin. destruct Hin as [k Hkm]. rewrite (Hrw k m Hkm).
      assert (Hz : (INR (count_code codes k) - n / K) * (INR (count_code codes k) - n / K) = 0).
      { apply (Rsum_zero _) with (2 := He).
        - intros x Hx. apply in_map_iff in Hx. destruct Hx as (j & <- & _). apply Rle_0_sqr.
        - apply in_map_iff. exists k. split; [reflexivity|]. apply in_seq. assert (nth_error (modalities V cells) k <> None) as Hs by congruence.
          apply nth_error_Some in Hs. lia. }
      apply Rmult_integral in Hz. assert (INR (count_code codes k) = n / K) as -> by (destruct Hz; lra). field. lra.
    + intros Hall. rewrite (Rsum_ext _ (fun _ => 0)).
      * generalize (seq 0 (length (modalities V cells))). intros l. induction l; cbn in *; lra.
      * intros k Hk. apply in_seq in Hk. assert (k < length (modalities V cells))%nat as Hlk by lia. apply nth_error_Some in Hlk.
        destruct (nth_error (modalities V cells) k) as [m|] eqn:Hkm; [|congruence].
        specialize (Hall m (nth_error_In _ _ Hkm)). rewrite (Hrw k m Hkm) in Hall.
        replace (INR (count_code codes k)) with (n / K); [ring|]. rewrite <- Hall. field. lra.
Qed.

(** [compute_gini] is this probability. *)
Theorem C64_compute_gini : forall d df g, frame_ok V df -> (1 <= fr_n V df)%nat -> compute_gini V d df = Ok g ->
  exists cells, (forall i, cell V df (ds_label d) i = nth_error cells i) /\ length cells = fr_n V df /\
    g = INR (different_pairs V cells) / (INR (fr_n V df) * INR (fr_n V df)).
Proof.
  intros d df g Hf Hn H. unfold compute_gini in H. apply bind_ok in H. destruct H as (cells & Hc & H). apply bind_ok in H. destruct H as (probs & Hp & H).
  inversion H; subst g. destruct (modalities_all df _ cells Hf Hc) as [Hl Hm]. destruct (label_probs_run cells probs Hp) as (codes & Hcodes & ->).
  exists cells. split; [intros i; apply col_at; exact Hc|]. split; [exact Hl|].
  destruct (label_codes V cells codes Hcodes) as (Hlc & Hlt & HF).
  assert (codes <> []) as Hne by (intros ->; cbn in Hlc; lia).
  pose proof (gini_counts codes (length (modalities V cells)) Hlt Hne) as HGi. cbv zeta in HGi.
  rewrite <- (pairs_codes V GV cells codes (proj2 (proj2 Hm)) Hcodes) in HGi. rewrite Hlc, Hl in HGi.
  assert (Hnn : INR (fr_n V df) <> 0) by (apply not_0_INR; lia).
  rewrite <- HGi, Hlc, Hl. unfold Rdiv. rewrite Rmult_assoc, Rinv_r, Rmult_1_r by (apply Rmult_integral_contrapositive; auto). reflexivity.
Qed.
End C64.
Print Assumptions C64_scaled_gini.
Print Assumptions C64_compute_gini.

(** ** The hypotheses are met *)
Definition VR : values R_arith :=
  mkValues R_arith nat (fun _ => false) Nat.eqb Nat.leb (fun k => Some (INR k)) (fun k => Some (INR k)).
Lemma VR_good : good_values VR.
Proof.
  constructor; cbn; intros; try discriminate; try reflexivity.
  - apply Nat.eqb_refl.
  - apply Nat.eqb_eq in H. subst. apply Nat.eqb_refl.
  - apply Nat.eqb_eq in H, H0. subst. apply Nat.eqb_refl.
Qed.
Definition ER : denv VR :=
  mkDenv VR (fun _ n _ => Ok (seq 0 (n - 2), seq (n - 2) 2)) (fun l => (0, 1)%R) (fun x => Some x) 0%R.
Definition colours (labels : list nat) : frame VR :=
  mkFrame VR 6 [("size", (false, [3; 1; 4; 1; 5; 9])); ("colour", (true, labels))]%string.
Definition by_colour : dataset := mkDataset DClassification "colour" (Some ["size"%string]) None [] false true false false.

Lemma colours_ok : forall labels, length labels = 6 -> frame_ok VR (colours labels).
Proof.
  intros labels H. split; [cbn; repeat constructor; cbn; intuition discriminate|]. cbn. intros c [<-|[<-|[]]]; [reflexivity|exact H].
Qed.

(** Three rows of each of two classes. *)
Definition half_half := [7; 2; 7; 2; 2; 7].
Example C64_applies : exists o, extract VR ER by_colour (colours half_half) 0 = Ok o /\ x_scaled_gini VR o = Some 1%R.
Proof.
  assert (exists o, extract VR ER by_colour (colours half_half) 0 = Ok o) as [o Ho].
  { destruct (extract VR ER by_colour (colours half_half) 0) as [o|e] eqn:He; [eauto|]. exfalso.
    assert (match extract VR ER by_colour (colours half_half) 0 with Ok _ => True | Err _ => False end) as Ht by (vm_compute; exact I).
    rewrite He in Ht. exact Ht. }
  exists o. split; [exact Ho|].
  destruct (C64_scaled_gini VR VR_good ER by_colour (colours half_half) 0 o (colours_ok half_half eq_refl) eq_refl Ho)
    as (cells & classes & g & Hc & Hl & (M1 & M2 & M3) & Hg & H).
  assert (cells = half_half) as ->.
  { apply nth_error_ext. intros i. rewrite <- Hc. reflexivity. }
  assert (incl classes [7; 2]) as Hi.
  { intros m Hm. destruct (M2 m Hm) as (i & x & _ & Hx & _ & He). specialize (He eq_refl). apply Nat.eqb_eq in He. subst x.
    do 6 (destruct i as [|i]; [injection Hx as <-; cbn; tauto|]). destruct i; discriminate. }
  assert (NoDup classes) as Hn.
  { apply NoDup_nth_error. intros i j Hlt Hij. destruct (nth_error classes i) as [m|] eqn:Hm; [|apply nth_error_Some in Hlt; congruence].
    apply (M3 i j m m Hm (eq_sym Hij)). split; [reflexivity|]. intros _. apply Nat.eqb_refl. }
  assert (incl [7; 2] classes) as Hi'.
  { intros m Hm. destruct (M1 (if m =? 7 then 0 else 1) m) as (m' & Hm' & _ & He).
    - apply in_seq. cbn. destruct (m =? 7); lia.
    - destruct Hm as [<-|[<-|[]]]; reflexivity.
    - specialize (He eq_refl). apply Nat.eqb_eq in He. subst. exact Hm'. }
  assert (length classes = 2) as HK.
  { apply NoDup_incl_length in Hi; [|exact Hn]. apply NoDup_incl_length in Hi'; [|repeat constructor; cbn; intuition discriminate]. cbn in *. lia. }
  destruct H as (_ & _ & H); [lia|]. rewrite Hg. f_equal. apply H. intros m Hm. rewrite HK.
  destruct (Hi m Hm) as [<-|[<-|[]]]; cbn; lra.
Qed.

Example C64_compute_applies : exists g, compute_gini VR by_colour (colours half_half) = Ok g /\ g = (18 / (6 * 6))%R.
Proof.
  assert (exists g, compute_gini VR by_colour (colours half_half) = Ok g) as [g Hg].
  { destruct (compute_gini VR by_colour (colours half_half)) as [o|e] eqn:He; [eauto|]. exfalso.
    assert (match compute_gini VR by_colour (colours half_half) with Ok _ => True | Err _ => False end) as Ht by (vm_compute; exact I).
    rewrite He in Ht. exact Ht. }
  exists g. split; [exact Hg|].
  destruct (C64_compute_gini VR VR_good by_colour (colours half_half) g (colours_ok half_half eq_refl)) as (cells & Hc & _ & ->); [cbn; lia|exact Hg|].
  assert (cells = half_half) as -> by (apply nth_error_ext; intros i; rewrite <- Hc; reflexivity).
  replace (different_pairs VR half_half) with 18 by reflexivity. change (fr_n VR (colours half_half)) with 6. cbn [INR]. lra.
Qed.

(** With one class, the index is 0/0: a NaN in doubles. *)
Definition VF : values (nan_arith FD) := cell_values FD (fun x => x).
Definition EF : denv VF := mkDenv VF (fun _ n _ => Ok (seq 0 (n - 1), seq (n - 1) 1)) (fun l => (a0, a1)) (fun x => Some x) None.
Definition one_class : frame VF :=
  mkFrame VF 3 [("size", (false, [@CNum FD a1; @CNum FD a0; @CNum FD a1])); ("colour", (true, [@CStr FD 7; @CStr FD 7; @CStr FD 7]))]%string.
Theorem C64_one_class_refuted : exists o g, frame_ok VF one_class /\ extract VF EF by_colour one_class 0 = Ok o /\
  x_scaled_gini VF o = Some g /\ @anan (nan_arith FD) g = true.
Proof.
  assert (match extract VF EF by_colour one_class 0 with Ok o => match x_scaled_gini VF o with Some g => @anan (nan_arith FD) g = true | None => False end | Err _ => False end)
    as Ht by (vm_compute; reflexivity).
  destruct (extract VF EF by_colour one_class 0) as [o|e]; [|destruct Ht]. destruct (x_scaled_gini VF o) as [g|] eqn:Hg; [|destruct Ht].
  exists o, g. split; [|auto]. split; [cbn; repeat constructor; cbn; intuition discriminate|]. cbn. intros c [<-|[<-|[]]]; reflexivity.
Qed.
Print Assumptions C64_one_class_refuted.
