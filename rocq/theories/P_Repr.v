(** * The arrays of a grown tree: sub-trees, weights, routing *)

Require Import List Arith Lia NArith Permutation.
Require Import Verif.Base Verif.Num Verif.M_Bitarray Verif.P_Bitarray Verif.M_Utils Verif.M_Impurity
  Verif.M_Context Verif.M_Node Verif.M_Split Verif.M_Tree Verif.M_Grow
  Verif.P_Utils Verif.P_List Verif.P_Stack Verif.P_Task Verif.P_Node
  Verif.P_Bins Verif.P_Scan Verif.P_Split Verif.P_Find Verif.P_Indices Verif.P_Tree Verif.P_Grow.
Import ListNotations.
Local Open Scope res_scope.

Section Repr.
Context {A : arith} {E : env A} {tk : task A E}.
Notation T := (num A).
Notation btree := (btree tk).

(** Where a sub-tree is in the arrays. *)
Record place : Type := mkPl { pl_id : nat; pl_par : option nat; pl_st : nat; pl_sv : nat; pl_bp : nat }.

Definition layp (W : btree -> option T) (b : btree) (p : place) : list (node A) :=
  lay W b (pl_id p) (pl_par p) (pl_st p) (pl_sv p) (pl_bp p).

Definition rplace (p : place) (d : bdata tk) (l r : btree) : place :=
  mkPl (pl_id p + 1) (Some (pl_id p)) (pl_st p + length (bd_train (broot l)))
    (pl_sv p + length (bd_valid (broot l))) (pl_bp p + length (own d)).
Definition lplace (p : place) (d : bdata tk) (l r : btree) : place :=
  mkPl (pl_id p + 1 + bsize r) (Some (pl_id p)) (pl_st p) (pl_sv p) (pl_bp p + length (own d) + length (bps r)).

Definition hnode (W : btree -> option T) (b : btree) (p : place) : node A :=
  match b with
  | BLeaf d => mknode d true None None (pl_id p) (pl_par p) (pl_st p) (pl_sv p) (pl_bp p) (W b)
  | BNode d l r => mknode d false (Some (pl_id p + 1 + bsize r)) (Some (pl_id p + 1)) (pl_id p) (pl_par p)
                     (pl_st p) (pl_sv p) (pl_bp p) (W b)
  end.

Lemma layp_leaf : forall W d p, layp W (BLeaf d) p = [hnode W (BLeaf d) p].
Proof. reflexivity. Qed.
Lemma layp_node : forall W d l r p, layp W (BNode d l r) p =
  hnode W (BNode d l r) p :: layp W r (rplace p d l r) ++ layp W l (lplace p d l r).
Proof. reflexivity. Qed.
Lemma layp_length : forall W b p, length (layp W b p) = bsize b.
Proof. intros. apply lay_length. Qed.
Lemma layp_head : forall W b p, exists rest, layp W b p = hnode W b p :: rest.
Proof. intros W [d|d l r] p; eexists; reflexivity. Qed.

(** [inside b0 p0 b p]: [b] is the sub-tree of [b0] at place [p], when [b0] is at [p0]. *)
Inductive inside (b0 : btree) (p0 : place) : btree -> place -> Prop :=
| In_root : inside b0 p0 b0 p0
| In_right : forall d l r p, inside b0 p0 (BNode d l r) p -> inside b0 p0 r (rplace p d l r)
| In_left : forall d l r p, inside b0 p0 (BNode d l r) p -> inside b0 p0 l (lplace p d l r).

Lemma inside_trans : forall b0 p0 b1 p1 b2 p2, inside b0 p0 b1 p1 -> inside b1 p1 b2 p2 -> inside b0 p0 b2 p2.
Proof. intros b0 p0 b1 p1 b2 p2 H1 H2. induction H2; [auto|apply In_right; auto|apply In_left; auto]. Qed.

(** Every cell is the head of a sub-tree. *)
Lemma layp_inside : forall W b p k n, nth_error (layp W b p) k = Some n ->
  exists b' p', inside b p b' p' /\ n = hnode W b' p' /\ pl_id p' = pl_id p + k.
Proof.
  intros W b. induction b as [d|d l IHl r IHr]; intros p k n H.
  - rewrite layp_leaf in H. destruct k as [|k]; [|destruct k; discriminate].
    inversion H; subst. exists (BLeaf d), p. split; [constructor|]. split; auto.
  - rewrite layp_node in H. destruct k as [|k].
    + inversion H; subst. exists (BNode d l r), p. split; [constructor|]. split; auto.
    + cbn [nth_error] in H. destruct (lt_dec k (bsize r)) as [Hk|Hk].
      * rewrite nth_error_app1 in H by (rewrite layp_length; auto).
        destruct (IHr _ _ _ H) as (b' & p' & H1 & H2 & H3). exists b', p'.
        split; [|split; [auto|simpl in H3; lia]].
        eapply inside_trans; [|exact H1]. apply In_right. constructor.
      * rewrite nth_error_app2 in H by (rewrite layp_length; lia). rewrite layp_length in H.
        destruct (IHl _ _ _ H) as (b' & p' & H1 & H2 & H3). exists b', p'.
        split; [|split; [auto|simpl in H3; lia]].
        eapply inside_trans; [|exact H1]. apply In_left. constructor.
Qed.

(** Lists that contain the arrays of a sub-tree. *)
Definition holds {X} (l part : list X) (at_ : nat) : Prop :=
  exists pre post, l = pre ++ part ++ post /\ length pre = at_.

Lemma holds_all : forall {X} (l post : list X), holds (l ++ post) l 0.
Proof. intros X l post. exists [], post. auto. Qed.

Lemma holds_slice : forall {X} (l part : list X) at_, holds l part at_ -> slice l at_ (at_ + length part) = Ok part.
Proof. intros X l part at_ (pre & post & -> & <-). apply slice_mid. Qed.

Lemma holds_app : forall {X} (l a b : list X) at_, holds l (a ++ b) at_ -> holds l a at_ /\ holds l b (at_ + length a).
Proof.
  intros X l a b at_ (pre & post & -> & <-). split.
  - exists pre, (b ++ post). rewrite <- app_assoc. auto.
  - exists (pre ++ a), post. rewrite app_length, <- !app_assoc. auto.
Qed.

Lemma holds_cons : forall {X} (l b : list X) x at_, holds l (x :: b) at_ -> nth_error l at_ = Some x /\ holds l b (at_ + 1).
Proof.
  intros X l b x at_ H. change (x :: b) with ([x] ++ b) in H. destruct (holds_app _ _ _ _ H) as [H1 H2]. split; auto.
  destruct H1 as (pre & post & -> & <-). rewrite nth_error_app2, Nat.sub_diag by lia. reflexivity.
Qed.

(** The arrays hold the sub-tree [b] at [p]. *)
Record here (W : btree -> option T) (nodes : list (node A)) (yp : list (tk_P tk)) (bp : list nat) (b : btree) (p : place) : Prop := {
  hr_nodes : holds nodes (layp W b p) (pl_id p);
  hr_preds : holds yp (preds b) (pl_id p);
  hr_bps : holds bp (bps b) (pl_bp p)
}.

Lemma here_right : forall W nodes yp bp d l r p, here W nodes yp bp (BNode d l r) p -> here W nodes yp bp r (rplace p d l r).
Proof.
  intros W nodes yp bp d l r p [H1 H2 H3]. rewrite layp_node in H1. cbn [preds bps] in *. constructor.
  - apply holds_cons in H1. destruct H1 as [_ H1]. apply holds_app in H1. apply H1.
  - apply holds_cons in H2. destruct H2 as [_ H2]. apply holds_app in H2. apply H2.
  - apply holds_app in H3. destruct H3 as [_ H3]. apply holds_app in H3. apply H3.
Qed.

Lemma here_left : forall W nodes yp bp d l r p, here W nodes yp bp (BNode d l r) p -> here W nodes yp bp l (lplace p d l r).
Proof.
  intros W nodes yp bp d l r p [H1 H2 H3]. rewrite layp_node in H1. cbn [preds bps] in *. constructor.
  - apply holds_cons in H1. destruct H1 as [_ H1]. apply holds_app in H1. destruct H1 as [_ H1]. rewrite layp_length in H1. exact H1.
  - apply holds_cons in H2. destruct H2 as [_ H2]. apply holds_app in H2. destruct H2 as [_ H2]. rewrite preds_length in H2. exact H2.
  - apply holds_app in H3. destruct H3 as [_ H3]. apply holds_app in H3. apply H3.
Qed.

Lemma here_inside : forall W nodes yp bp b0 p0 b p, here W nodes yp bp b0 p0 -> inside b0 p0 b p -> here W nodes yp bp b p.
Proof. intros W nodes yp bp b0 p0 b p H HI. induction HI; auto; [eapply here_right|eapply here_left]; eauto. Qed.

Lemma here_node : forall W nodes yp bp b p, here W nodes yp bp b p -> get nodes (pl_id p) = Ok (hnode W b p).
Proof.
  intros W nodes yp bp b p [H _ _]. destruct (layp_head W b p) as [rest E1]. rewrite E1 in H.
  apply holds_cons in H. apply get_ok. apply H.
Qed.

Lemma here_pred : forall W nodes yp bp b p, here W nodes yp bp b p -> get yp (pl_id p) = Ok (nc_pred (bd_nc (broot b))).
Proof.
  intros W nodes yp bp b p [_ H _]. apply get_ok. destruct b; cbn [preds broot] in *; apply holds_cons in H; apply H.
Qed.

(** ** Weights *)

Fixpoint lw (step : T) (b : btree) : T :=
  match b with
  | BLeaf d => amul (aopp step) (nc_loss (bd_nc d))
  | BNode d l r => log_sum_2_exp (amul (aopp step) (nc_loss (bd_nc d))) (aadd (lw step l) (lw step r))
  end.


Lemma seq_node : forall i r l, rev (seq i (S (r + l))) = rev (seq (i + 1 + r) l) ++ rev (seq (i + 1) r) ++ [i].
Proof.
  intros i r l. cbn [seq rev]. rewrite seq_app, rev_app_distr, <- app_assoc.
  replace (S i) with (i + 1) by lia. reflexivity.
Qed.

Lemma weights_layp : forall step W b p pre post, length pre = pl_id p ->
  foldM (weight_step step) (rev (seq (pl_id p) (bsize b))) (pre ++ layp W b p ++ post) =
  Ok (pre ++ layp (fun b => Some (lw step b)) b p ++ post).
Proof.
  intros step W b. induction b as [d|d l IHl r IHr]; intros p pre post Hp.
  - cbn [bsize seq rev app foldM]. rewrite !layp_leaf. cbn [app]. unfold weight_step.
    rewrite get_app_at by auto. cbn [bind hnode nd_is_leaf mknode]. rewrite set_app_at by auto. reflexivity.
  - cbn [bsize]. rewrite seq_node, !foldM_app. rewrite (layp_node W).
    set (h := hnode W (BNode d l r) p). set (Lr := layp W r (rplace p d l r)).
    replace (pre ++ (h :: Lr ++ layp W l (lplace p d l r)) ++ post) with
      ((pre ++ h :: Lr) ++ layp W l (lplace p d l r) ++ post)
      by (cbn [app]; rewrite <- !app_assoc; cbn [app]; rewrite <- ?app_assoc; reflexivity).
    change (pl_id p + 1 + bsize r) with (pl_id (lplace p d l r)).
    rewrite IHl by (rewrite app_length; cbn [length]; unfold Lr; rewrite layp_length; cbn [pl_id lplace]; lia).
    cbn [bind]. set (Wl := fun b => Some (lw step b)). set (Ll := layp Wl l (lplace p d l r)).
    replace ((pre ++ h :: Lr) ++ Ll ++ post) with ((pre ++ [h]) ++ Lr ++ (Ll ++ post))
      by (rewrite <- !app_assoc; cbn [app]; rewrite <- ?app_assoc; reflexivity).
    change (pl_id p + 1) with (pl_id (rplace p d l r)).
    rewrite foldM_app. unfold Lr. rewrite IHr by (rewrite app_length; cbn [length pl_id rplace]; lia).
    fold Wl. cbn [bind foldM]. set (Lr' := layp Wl r (rplace p d l r)).
    unfold weight_step.
    replace ((pre ++ [h]) ++ Lr' ++ Ll ++ post) with (pre ++ h :: (Lr' ++ Ll ++ post)) by (rewrite <- app_assoc; reflexivity).
    rewrite get_app_at by auto. cbn [bind].
    assert (Gl : get (pre ++ h :: (Lr' ++ Ll ++ post)) (pl_id p + 1 + bsize r) = Ok (hnode Wl l (lplace p d l r))).
    { destruct (layp_head Wl l (lplace p d l r)) as [rest El].
      replace (pre ++ h :: (Lr' ++ Ll ++ post)) with ((pre ++ h :: Lr') ++ hnode Wl l (lplace p d l r) :: (rest ++ post)).
      - apply get_app_at. rewrite app_length. cbn [length]. unfold Lr'. rewrite layp_length. lia.
      - unfold Ll. rewrite El. rewrite <- !app_assoc. cbn [app]. reflexivity. }
    assert (Gr : get (pre ++ h :: (Lr' ++ Ll ++ post)) (pl_id p + 1) = Ok (hnode Wl r (rplace p d l r))).
    { destruct (layp_head Wl r (rplace p d l r)) as [rest Er].
      replace (pre ++ h :: (Lr' ++ Ll ++ post)) with ((pre ++ [h]) ++ hnode Wl r (rplace p d l r) :: (rest ++ Ll ++ post)).
      - apply get_app_at. rewrite app_length. cbn [length]. lia.
      - unfold Lr'. rewrite Er. rewrite <- !app_assoc. reflexivity. }
    change (nd_is_leaf h) with false. change (nd_left h) with (Some (pl_id p + 1 + bsize r)).
    change (nd_right h) with (Some (pl_id p + 1)). cbn [idx_of bind].
    rewrite Gl. cbn [bind]. rewrite Gr. cbn [bind].
    assert (Hw : forall b' p', nd_logw (hnode Wl b' p') = Some (lw step b')) by (intros [?|? ? ?] ?; reflexivity).
    rewrite !Hw. cbn [logw_of bind]. rewrite set_app_at by auto. cbn [bind].
    rewrite (layp_node Wl). fold Ll Lr'. cbn [app]. rewrite <- app_assoc. reflexivity.
Qed.

Lemma compute_weights_is : forall step W b p k, pl_id p = 0 ->
  compute_tree_weights (layp W b p ++ repeat node0 k) (bsize b) step =
  Ok (layp (fun b => Some (lw step b)) b p ++ repeat node0 k).
Proof.
  intros step W b p k Hp. unfold compute_tree_weights.
  pose proof (weights_layp step W b p [] (repeat node0 k) (eq_sym Hp)) as H. rewrite Hp in H. exact H.
Qed.

End Repr.
