(** * Proofs about binning *)

Require Import List Arith Lia Permutation.
Require Import Verif.Base Verif.Num Verif.M_Binning.
Import ListNotations.

Section P.
  Context {A : arith}.
  Notation le x y := (@aleb A x y = true).

  Definition le_trans_A : Prop := forall x y z : num A, le x y -> le y z -> le x z.
  Definition le_total_A : Prop := forall x y : num A, le x y \/ le y x.

  (** Non-decreasing list. *)
  Definition nondecreasing (l : list (num A)) : Prop :=
    forall i j s t, i < j -> nth_error l i = Some s -> nth_error l j = Some t -> le s t.

  Lemma div2_lt : forall d, 0 < d -> (d - 1) / 2 < d.
  Proof. intros. apply Nat.div_lt_upper_bound; lia. Qed.

  Lemma find_bin_loop_spec : forall thr x,
    le_trans_A -> nondecreasing thr ->
    forall fuel left right,
      right - left < fuel -> left <= right <= length thr ->
      (forall j t, nth_error thr j = Some t -> j < left -> aleb x t = false) ->
      (forall j t, nth_error thr j = Some t -> right <= j -> le x t) ->
      exists b, find_bin_loop fuel left right x thr = Ok b /\ b <= length thr /\
        forall j t, nth_error thr j = Some t -> (j < b -> aleb x t = false) /\ (b <= j -> le x t).
  Proof.
    intros thr x HT HS. induction fuel as [|fuel IH]; intros left right Hf Hlr HL HR; [lia|].
    cbn [find_bin_loop]. destruct (left <? right) eqn:E.
    - apply Nat.ltb_lt in E. cbv zeta. set (m := left + (right - left - 1) / 2).
      assert (Hm : left <= m < right).
      { unfold m. pose proof (div2_lt (right - left) ltac:(lia)). lia. }
      clearbody m.
      destruct (get_in thr m ltac:(lia)) as [t Ht]. rewrite Ht. cbn [bind].
      apply get_ok in Ht. destruct (aleb x t) eqn:Ex.
      + apply IH; try lia; auto. intros j u Hu Hj.
        destruct (Nat.eq_dec j m) as [->|N]; [congruence|].
        apply (HT x t u); auto. apply (HS m j); auto; lia.
      + apply IH; try lia; auto. intros j u Hu Hj.
        destruct (Nat.eq_dec j m) as [->|N]; [congruence|].
        destruct (aleb x u) eqn:Eu; auto.
        rewrite (HT x u t) in Ex; auto. apply (HS j m); auto; lia.
    - apply Nat.ltb_ge in E. exists left. assert (left = right) by lia. subst right.
      split; [auto|]. split; [lia|]. intros j t Ht; split; intros; [eapply HL | eapply HR]; eauto.
  Qed.

  Lemma bin_value_spec : forall thr mb x, le_trans_A -> nondecreasing thr ->
    exists b, bin_value thr mb x = Ok b /\
      (anan x = true -> b = mb) /\
      (anan x = false -> b <= length thr /\
         forall j t, nth_error thr j = Some t -> (j < b -> aleb x t = false) /\ (b <= j -> le x t)).
  Proof.
    intros thr mb x HT HS. unfold bin_value. destruct (anan x) eqn:E.
    - exists mb. repeat split; auto; discriminate.
    - destruct (find_bin_loop_spec thr x HT HS (length thr + 1) 0 (length thr)) as (b & H1 & H2 & H3);
        try lia.
      { intros j t Hj Hl. assert (nth_error thr j <> None) by congruence.
        apply nth_error_Some in H. lia. }
      exists b. repeat split; auto; try discriminate; eapply H3; eauto.
  Qed.

  (** *** Sorting *)

  Lemma insert_num_perm : forall (x : num A) l, Permutation (x :: l) (insert_num x l).
  Proof.
    induction l; simpl; auto. destruct (aleb x a); auto.
    eapply perm_trans; [apply perm_swap|]. auto.
  Qed.

  Lemma sort_num_perm : forall (l : list (num A)), Permutation l (sort_num l).
  Proof.
    induction l; simpl; auto. eapply perm_trans; [|apply insert_num_perm]. auto.
  Qed.

  Lemma sort_num_length : forall (l : list (num A)), length (sort_num l) = length l.
  Proof. intros. symmetry. apply Permutation_length, sort_num_perm. Qed.

  Definition chain (R : num A -> num A -> Prop) : list (num A) -> Prop :=
    fix go l := match l with
                | [] => True
                | x :: t => (forall y, In y t -> R x y) /\ go t
                end.

  Lemma chain_nth : forall R l, chain R l ->
    forall i j s t, i < j -> nth_error l i = Some s -> nth_error l j = Some t -> R s t.
  Proof.
    induction l; intros HC i j s t Hij Hi Hj; [destruct i; discriminate|].
    destruct HC as [H1 H2]. destruct j; [lia|]. destruct i; simpl in *.
    - inversion Hi; subst. apply H1. eapply nth_error_In; eauto.
    - apply (IHl H2 i j s t); auto; lia.
  Qed.

  Lemma insert_num_In : forall (x y : num A) l, In y (insert_num x l) <-> y = x \/ In y l.
  Proof.
    intros x y l. split; intro H.
    - eapply Permutation_in in H; [|apply Permutation_sym, insert_num_perm]. destruct H; auto.
    - eapply Permutation_in; [apply insert_num_perm|]. destruct H; [left|right]; auto.
  Qed.

  Lemma insert_num_sorted : forall (x : num A) l, le_trans_A -> le_total_A ->
    chain (fun a b => le a b) l -> chain (fun a b => le a b) (insert_num x l).
  Proof.
    induction l; intros HT HO HC; simpl; [split; auto; intros y []|].
    destruct HC as [H1 H2]. destruct (aleb x a) eqn:E.
    - split; [|split; auto]. intros y [<-|Hy]; auto. eapply HT; eauto.
    - split; [|apply IHl; auto]. intros y Hy. apply insert_num_In in Hy. destruct Hy as [->|Hy]; auto.
      destruct (HO x a); congruence.
  Qed.

  Lemma sort_num_sorted : forall l, le_trans_A -> le_total_A -> chain (fun a b => le a b) (sort_num l).
  Proof. induction l; intros; simpl; auto. apply insert_num_sorted; auto. Qed.

  Lemma dedupe_In : forall (l : list (num A)) x, In x (dedupe l) -> In x l.
  Proof.
    induction l as [|a l IH]; intros x H; [auto|]. destruct l as [|b l]; [auto|].
    simpl in H. destruct (aleb b a).
    - right. apply IH. exact H.
    - destruct H as [<-|H]; [left; auto|right; apply IH; exact H].
  Qed.

  Lemma dedupe_strict : forall l, le_trans_A ->
    chain (fun a b => le a b) l -> chain (fun a b => le a b /\ aleb b a = false) (dedupe l).
  Proof.
    induction l as [|a l IH]; intros HT HC; [simpl; auto|].
    destruct l as [|b l]; [simpl; split; [intros ? []|auto]|]. destruct HC as [H1 H2].
    change (dedupe (a :: b :: l)) with (if aleb b a then dedupe (b :: l) else a :: dedupe (b :: l)).
    destruct (aleb b a) eqn:E; [apply IH; auto|].
    split; [|apply IH; auto]. intros y Hy. apply dedupe_In in Hy.
    split; [apply H1; auto|]. destruct Hy as [<-|Hy]; auto.
    destruct (aleb y a) eqn:Ey; auto. destruct H2 as [H2 _].
    rewrite (HT b y a) in E; auto.
  Qed.

  (** Every value is equal (for the order) to one that is kept. *)
  Lemma dedupe_covers : forall (l : list (num A)) x, le_trans_A ->
    chain (fun a b => le a b) l -> (forall y, le y y) ->
    In x l -> exists y, In y (dedupe l) /\ le x y /\ le y x.
  Proof.
    induction l as [|a l IH]; intros x HT HC HR Hx; [destruct Hx|].
    destruct l as [|b l]; [exists x; simpl in *; split; auto|].
    destruct HC as [H1 H2].
    change (dedupe (a :: b :: l)) with (if aleb b a then dedupe (b :: l) else a :: dedupe (b :: l)).
    destruct Hx as [<-|Hx].
    - destruct (aleb b a) eqn:E.
      + destruct (IH b HT H2 HR (or_introl eq_refl)) as (y & Hy & E1 & E2).
        exists y. split; auto. split; [apply (HT a b y)|apply (HT y b a)]; auto. apply H1; left; auto.
      + exists a. split; [left; auto|auto].
    - destruct (IH x HT H2 HR Hx) as (y & Hy & E1 & E2). exists y. split; auto.
      destruct (aleb b a); [auto|right; auto].
  Qed.

  Lemma unique_strict : forall l : list (num A), le_trans_A -> le_total_A ->
    chain (fun a b => le a b /\ aleb b a = false) (unique l).
  Proof. intros. apply dedupe_strict; auto. apply sort_num_sorted; auto. Qed.

  Lemma unique_In : forall (l : list (num A)) x, In x (unique l) -> In x l.
  Proof.
    intros l x H. apply dedupe_In in H.
    eapply Permutation_in; [apply Permutation_sym, sort_num_perm|]; auto.
  Qed.

  Lemma middles_length : forall (u : list (num A)), length (middles u) = length u - 1.
  Proof.
    induction u as [|x u IH]; auto. destruct u as [|y u]; auto.
    change (middles (x :: y :: u)) with (amul (aadd x y) ahalf :: middles (y :: u)).
    change (length (amul (aadd x y) ahalf :: middles (y :: u))) with (S (length (middles (y :: u)))).
    rewrite IH. simpl. lia.
  Qed.

  Lemma middles_nth : forall (u : list (num A)) i x y,
    nth_error u i = Some x -> nth_error u (S i) = Some y ->
    nth_error (middles u) i = Some (amul (aadd x y) ahalf).
  Proof.
    induction u as [|a u IH]; intros i x y H1 H2; [destruct i; discriminate|].
    destruct u as [|b u]; [destruct i; [discriminate | destruct i; discriminate]|].
    change (middles (a :: b :: u)) with (amul (aadd a b) ahalf :: middles (b :: u)).
    destruct i.
    - simpl in *. congruence.
    - simpl nth_error at 1. apply IH; auto.
  Qed.

  Lemma middles_nth_inv : forall (u : list (num A)) i m,
    nth_error (middles u) i = Some m ->
    exists x y, nth_error u i = Some x /\ nth_error u (S i) = Some y /\ m = amul (aadd x y) ahalf.
  Proof.
    intros u i m H. assert (i < length (middles u)) by (apply nth_error_Some; congruence).
    rewrite middles_length in H0.
    destruct (nth_error u i) as [x|] eqn:E1; [|apply nth_error_None in E1; lia].
    destruct (nth_error u (S i)) as [y|] eqn:E2; [|apply nth_error_None in E2; lia].
    exists x, y. rewrite (middles_nth u i x y) in H; auto. inversion H; auto.
  Qed.

End P.
