(** * Sorting bins, testing membership of a partition, cumulated validation counts *)

Require Import List Arith Lia ZArith Permutation Sorted.
Require Import Verif.Base Verif.Num Verif.M_Split Verif.P_Utils Verif.P_List.
Import ListNotations.
Local Open Scope res_scope.

(** ** Sorting *)

Lemma insert_bin_perm : forall x l, Permutation (insert_bin x l) (x :: l).
Proof.
  induction l as [|y l IH]; simpl; auto. destruct (x <=? y); auto.
  rewrite IH. apply perm_swap.
Qed.

Lemma sort_bins_perm : forall l, Permutation (sort_bins l) l.
Proof. induction l; simpl; auto. rewrite insert_bin_perm. auto. Qed.

Lemma insert_bin_sorted : forall x l, StronglySorted le l -> StronglySorted le (insert_bin x l).
Proof.
  induction l as [|y l IH]; simpl; intros H; [constructor; auto|].
  inversion H as [|? ? Hl Hy]; subst. destruct (x <=? y) eqn:E.
  - apply Nat.leb_le in E. constructor; auto. constructor; auto.
    eapply Forall_impl; [|exact Hy]. simpl. intros; lia.
  - apply Nat.leb_gt in E. constructor; auto.
    eapply Permutation_Forall; [symmetry; apply insert_bin_perm|].
    constructor; auto. lia.
Qed.

Lemma sort_bins_sorted : forall l, StronglySorted le (sort_bins l).
Proof. induction l; simpl; [constructor|]. apply insert_bin_sorted; auto. Qed.

Lemma sorted_nodup_lt : forall l, StronglySorted le l -> NoDup l -> StronglySorted lt l.
Proof.
  induction l as [|x l IH]; intros H N; [constructor|].
  inversion H as [|? ? Hl Hx]; inversion N as [|? ? Hn Hnl]; subst. constructor; auto.
  rewrite Forall_forall in *. intros y Hy. specialize (Hx y Hy).
  assert (x <> y) by (intro; subst; auto). lia.
Qed.

Lemma sorted_app_le : forall l1 x l2 y, StronglySorted le (l1 ++ x :: l2) -> In y l1 -> y <= x.
Proof.
  induction l1 as [|z l1 IH]; intros x l2 y H Hy; [destruct Hy|].
  simpl in H. inversion H as [|? ? Hl Hz]; subst. destruct Hy as [->|Hy]; eauto.
  rewrite Forall_forall in Hz. apply Hz. apply in_elt.
Qed.

Lemma sorted_app_ge : forall l1 x l2 y, StronglySorted le (l1 ++ x :: l2) -> In y l2 -> x <= y.
Proof.
  induction l1 as [|z l1 IH]; intros x l2 y H Hy; simpl in H; inversion H as [|? ? Hl Hz]; subst; eauto.
  rewrite Forall_forall in Hz. auto.
Qed.

Lemma sorted_nth_le : forall l i j x y, StronglySorted le l -> i <= j ->
  nth_error l i = Some x -> nth_error l j = Some y -> x <= y.
Proof.
  induction l as [|z l IH]; intros [|i] [|j] x y H Hij Hx Hy; simpl in *; try discriminate; try lia.
  - assert (x = y) by congruence. lia.
  - inversion H as [|? ? Hl Hz]; subst. inversion Hx; subst. rewrite Forall_forall in Hz. apply Hz.
    eapply nth_error_In; eauto.
  - inversion H; subst. eapply (IH i j); eauto. lia.
Qed.

(** ** Membership of a sorted partition *)

Lemma bin_search_spec : forall fuel b part (l r : Z), StronglySorted le part ->
  (0 <= l <= r + 1)%Z -> (r < Z.of_nat (length part))%Z -> (r - l + 1 < Z.of_nat fuel)%Z ->
  (forall i x, nth_error part i = Some x -> (Z.of_nat i < l)%Z -> x < b) ->
  (forall i x, nth_error part i = Some x -> (r < Z.of_nat i)%Z -> b < x) ->
  exists v, bin_search fuel b part l r = Ok v /\ (v = true <-> In b part).
Proof.
  induction fuel as [|fuel IH]; intros b part l r Hs Hl Hr Hf Hlo Hhi.
  - simpl in Hf. lia.
  - simpl. destruct (l <=? r)%Z eqn:E.
    + apply Z.leb_le in E. cbv zeta.
      set (m := ((l + r) / 2)%Z).
      assert (Hm : (l <= m <= r)%Z).
      { unfold m. pose proof (Z.div_mod (l + r) 2). pose proof (Z.mod_pos_bound (l + r) 2). lia. }
      destruct (get_in part (Z.to_nat m)) as [x Hx]; [lia|]. rewrite Hx. cbn [bind].
      apply get_ok in Hx.
      destruct (x =? b) eqn:E1.
      * apply Nat.eqb_eq in E1. subst. exists true. split; auto. split; auto.
        intros _. eapply nth_error_In; eauto.
      * apply Nat.eqb_neq in E1. destruct (x <? b) eqn:E2.
        -- apply Nat.ltb_lt in E2. apply IH; auto; try lia.
           intros i y Hy Hi. assert (y <= x); [|lia].
           eapply (sorted_nth_le part i (Z.to_nat m)); eauto. lia.
        -- apply Nat.ltb_ge in E2. apply IH; auto; try lia.
           intros i y Hy Hi. assert (x <= y); [|lia].
           eapply (sorted_nth_le part (Z.to_nat m) i); eauto. lia.
    + apply Z.leb_gt in E. exists false. split; auto. split; [discriminate|].
      intros Hin. apply In_nth_error in Hin. destruct Hin as [i Hi].
      destruct (Z_lt_le_dec (Z.of_nat i) l) as [H1|H1].
      * specialize (Hlo i b Hi H1). lia.
      * specialize (Hhi i b Hi ltac:(lia)). lia.
Qed.

Lemma is_bin_in_partition_spec : forall b part, StronglySorted le part ->
  is_bin_in_partition b part = Ok (existsb (Nat.eqb b) part).
Proof.
  intros b part Hs. unfold is_bin_in_partition. destruct (length part =? 1) eqn:E.
  - apply Nat.eqb_eq in E. destruct part as [|x [|]]; simpl in E; try discriminate. simpl.
    rewrite Bool.orb_false_r, Nat.eqb_sym. auto.
  - destruct (bin_search_spec (S (length part)) b part 0 (Z.of_nat (length part) - 1)) as [v [Hv Hi]]; auto; try lia.
    + intros i x Hx Hi. assert (i < length part) by (apply nth_error_Some; congruence). lia.
    + rewrite Hv. f_equal. destruct v.
      * symmetry. apply existsb_eqb. apply Hi. auto.
      * destruct (existsb (Nat.eqb b) part) eqn:Ex; auto. apply existsb_eqb in Ex. apply Hi in Ex. congruence.
Qed.

(** ** Counting by bins *)

Definition mem_bin (Q : list nat) (b : nat) : bool := existsb (Nat.eqb b) Q.

Lemma mem_bin_in : forall Q b, mem_bin Q b = true <-> In b Q.
Proof. intros. apply existsb_eqb. Qed.

Lemma mem_bin_app : forall Q Q' b, mem_bin (Q ++ Q') b = (mem_bin Q b || mem_bin Q' b)%bool.
Proof. intros. apply existsb_app. Qed.

Lemma count_by_bins : forall (f : nat -> nat) (l Q : list nat), NoDup Q ->
  list_sum (map (fun v => length (filter (fun i => f i =? v) l)) Q) =
  length (filter (fun i => mem_bin Q (f i)) l).
Proof.
  intros f l Q. induction Q as [|q Q IH]; intros N; simpl.
  - induction l; simpl; auto.
  - inversion N as [|? ? Hn N']; subst. rewrite (IH N'). clear IH.
    induction l as [|i l IHl]; simpl; auto.
    change (mem_bin (q :: Q) (f i)) with ((f i =? q) || mem_bin Q (f i))%bool.
    destruct (f i =? q) eqn:E; simpl.
    + apply Nat.eqb_eq in E. destruct (mem_bin Q (f i)) eqn:Ex.
      * apply mem_bin_in in Ex. congruence.
      * simpl. rewrite <- IHl. auto.
    + destruct (mem_bin Q (f i)) eqn:Ex; simpl; rewrite <- IHl; lia.
Qed.

(** ** Cumulated validation counts *)

Section Cumsum.
Context (V nv : list nat) (cnt : nat -> nat).
Hypothesis HV : StronglySorted lt V.
Hypothesis Hne : V <> [].
Hypothesis Hcnt : forall v, In v V -> get nv v = Ok (cnt v).

Definition cw_inv (st : nat * nat * nat) : Prop :=
  let '(bt, idx, cum) := st in
  idx <= length V /\ cum = list_sum (map cnt (firstn idx V)) /\
  (idx < length V -> nth_error V idx = Some bt).

Lemma firstn_S_snoc : forall {X} (l : list X) k x, nth_error l k = Some x -> firstn (S k) l = firstn k l ++ [x].
Proof.
  induction l as [|y l IH]; intros [|k] x H; simpl in *; try discriminate.
  - congruence.
  - rewrite <- (IH k x H). reflexivity.
Qed.

Lemma cumsum_while_spec : forall fuel bin_train bt idx cum, length V - idx < fuel ->
  cw_inv (bt, idx, cum) -> (forall v, In v (firstn idx V) -> v <= bin_train) ->
  exists bt' idx' cum', cumsum_while fuel V nv bin_train (bt, idx, cum) = Ok (bt', idx', cum') /\
    cw_inv (bt', idx', cum') /\ firstn idx' V = filter (fun v => v <=? bin_train) V.
Proof.
  assert (Hfil : forall idx t, (forall v, In v (firstn idx V) -> v <= t) ->
     (forall v, In v (skipn idx V) -> t < v) -> firstn idx V = filter (fun v => v <=? t) V).
  { intros idx t H1 H2. rewrite <- (firstn_skipn idx V) at 2. rewrite filter_app.
    assert (E1 : filter (fun v => v <=? t) (firstn idx V) = firstn idx V).
    { apply filter_all. intros v Hv. apply Nat.leb_le. auto. }
    assert (E2 : filter (fun v => v <=? t) (skipn idx V) = []).
    { apply filter_nil_iff. intros v Hv. apply Nat.leb_gt. auto. }
    rewrite E1, E2, app_nil_r. auto. }
  induction fuel as [|fuel IH]; intros t bt idx cum Hf [Hi [Hc Hb]] Hle; [lia|].
  cbn [cumsum_while].
  destruct ((bt <=? t) && (idx <? length V))%bool eqn:E.
  - apply andb_prop in E. destruct E as [E1 E2]. apply Nat.leb_le in E1. apply Nat.ltb_lt in E2.
    specialize (Hb E2). assert (Hin : In bt V) by (eapply nth_error_In; eauto).
    rewrite (Hcnt bt Hin). cbn [bind]. cbv zeta.
    pose proof (firstn_S_snoc V idx bt Hb) as HS.
    assert (Hc' : cum + cnt bt = list_sum (map cnt (firstn (idx + 1) V))).
    { rewrite Nat.add_1_r, HS, map_app, list_sum_app. simpl. lia. }
    assert (Hle' : forall v, In v (firstn (idx + 1) V) -> v <= t).
    { intros v Hv. rewrite Nat.add_1_r, HS in Hv. apply in_app_iff in Hv. simpl in Hv.
      destruct Hv as [Hv|[<-|[]]]; auto. }
    destruct (idx + 1 =? length V) eqn:E3.
    + apply Nat.eqb_eq in E3. exists bt, (idx + 1), (cum + cnt bt). split; auto. split.
      * repeat split; auto; lia.
      * apply Hfil; auto. intros v Hv. rewrite E3, skipn_all in Hv. destruct Hv.
    + apply Nat.eqb_neq in E3. destruct (get_in V (idx + 1)) as [bt' Hbt']; [lia|].
      rewrite Hbt'. cbn [bind]. apply get_ok in Hbt'.
      apply IH; auto; [lia|]. repeat split; auto; lia.
  - exists bt, idx, cum. split; auto. split; [repeat split; auto|].
    apply Hfil; auto. intros v Hv.
    destruct (Nat.lt_ge_cases idx (length V)) as [H1|H1].
    + specialize (Hb H1). assert (E1 : (bt <=? t) = false).
      { apply Nat.ltb_lt in H1. rewrite H1, Bool.andb_true_r in E. auto. }
      apply Nat.leb_gt in E1. apply In_nth_error in Hv. destruct Hv as [k Hk].
      rewrite nth_error_skipn in Hk.
      assert (bt <= v); [|lia].
      apply (sorted_nth_le V idx (idx + k)); auto; [|lia].
      clear - HV. induction HV; constructor; auto. eapply Forall_impl; [|eauto]. simpl; intros; lia.
    + rewrite skipn_all2 in Hv by auto. destruct Hv.
Qed.

Definition cum_le (b : nat) : nat := list_sum (map cnt (filter (fun v => v <=? b) V)).

Lemma cumsum_valid_spec : forall B size, StronglySorted le B -> NoDup B -> (forall b, In b B -> b < size) ->
  exists cs, cumsum_valid true B V nv size = Ok cs /\ length cs = size /\
    forall b, In b B -> get cs b = Ok (cum_le b).
Proof.
  intros B size HB Hnd Hsz. unfold cumsum_valid. destruct V as [|v0 V'] eqn:EV; [congruence|].
  cbn [get nth_error bind]. rewrite <- EV in *.
  match goal with |- context [foldM ?f B ?s0] => set (step := f); set (st0 := s0) end.
  assert (G : forall post pre bt idx cum cs, B = pre ++ post -> length cs = size ->
     cw_inv (bt, idx, cum) -> (forall v b, In v (firstn idx V) -> In b post -> v <= b) ->
     (forall b, In b pre -> get cs b = Ok (cum_le b)) ->
     exists st cs', foldM step post (bt, idx, cum, cs) = Ok (st, cs') /\ length cs' = size /\
       forall b, In b B -> get cs' b = Ok (cum_le b)).
  { induction post as [|b post IH]; intros pre bt idx cum cs EB Hl Hi Hle Hdone.
    - exists (bt, idx, cum), cs. rewrite app_nil_r in EB. subst pre. auto.
    - cbn [foldM]. unfold step at 1.
      destruct (cumsum_while_spec (S (length V)) b bt idx cum) as (bt' & idx' & cum' & Hw & Hi' & Hf'); auto; [lia| |].
      { intros v Hv. apply Hle; simpl; auto. }
      rewrite Hw. cbn [bind].
      assert (Hbs : b < size) by (apply Hsz; rewrite EB; apply in_elt).
      assert (Hcum : cum' = cum_le b).
      { destruct Hi' as [_ [-> _]]. unfold cum_le. rewrite Hf'. auto. }
      assert (Hset : set cs b cum' = Ok (upd cs b cum')) by (apply set_ok; split; auto; lia).
      rewrite Hset. cbn [bind].
      apply (IH (pre ++ [b]) bt' idx' cum'); auto.
      + rewrite <- app_assoc. auto.
      + rewrite upd_length. auto.
      + intros v b' Hv Hb'. rewrite Hf' in Hv. apply filter_In in Hv. destruct Hv as [_ Hv].
        apply Nat.leb_le in Hv. rewrite EB in HB. pose proof (sorted_app_ge _ _ _ b' HB Hb'). lia.
      + intros b' Hb'. apply in_app_iff in Hb'. simpl in Hb'.
        destruct (Nat.eq_dec b' b) as [->|Hne'].
        * rewrite get_upd_eq by lia. congruence.
        * rewrite get_upd_neq by auto. apply Hdone. destruct Hb' as [H|[H|[]]]; auto. congruence. }
  destruct (G B [] v0 0 0 (repeat 0 size)) as (st & cs & H1 & H2 & H3); auto.
  - apply repeat_length.
  - repeat split; [lia|]. intros _. rewrite EV. reflexivity.
  - intros v b Hv. destruct Hv.
  - intros b Hb. destruct Hb.
  - unfold st0. rewrite H1. destruct st as [[? ?] ?]. cbn [bind]. exists cs. auto.
Qed.

End Cumsum.
