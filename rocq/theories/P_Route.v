(** * Walking down to a leaf and up to the root *)

Require Import List Arith Lia NArith Permutation Sorted.
Require Import Verif.Base Verif.Num Verif.M_Bitarray Verif.P_Bitarray Verif.M_Utils Verif.M_Impurity
  Verif.M_Context Verif.M_Node Verif.M_Split Verif.M_Tree Verif.M_Grow
  Verif.P_Utils Verif.P_List Verif.P_Stack Verif.P_Task Verif.P_Node
  Verif.P_Bins Verif.P_Scan Verif.P_Split Verif.P_Find Verif.P_Indices Verif.P_Tree Verif.P_Grow Verif.P_Repr.
Import ListNotations.
Local Open Scope res_scope.

Section Route.
Context {A : arith} {E : env A} {tk : task A E}.
Notation T := (num A).
Notation btree := (btree tk).

(** The splits of the inner nodes. *)
Fixpoint inner (P : split tk -> Prop) (b : btree) : Prop :=
  match b with BLeaf _ => True | BNode d l r => P (bd_sp d) /\ inner P l /\ inner P r end.

(** A split that can be tested on rows with [nf] features. *)
Definition testable (nf : nat) (sp : split tk) : Prop :=
  sp_feature sp < nf /\
  (sp_is_cat sp = true -> sp_partition sp <> [] /\ StronglySorted le (sp_partition sp)).

(** The nodes met by a row whose bins are [f]. *)
Fixpoint bpath (f : nat -> nat) (b : btree) (p : place) : list (btree * place) :=
  match b with
  | BLeaf _ => [(b, p)]
  | BNode d l r => (b, p) :: (if to_left (bd_sp d) (f (sp_feature (bd_sp d)))
                              then bpath f l (lplace p d l r) else bpath f r (rplace p d l r))
  end.

(** The leaf reached. *)
Fixpoint bleaf (f : nat -> nat) (b : btree) (p : place) : btree * place :=
  match b with
  | BLeaf _ => (b, p)
  | BNode d l r => if to_left (bd_sp d) (f (sp_feature (bd_sp d)))
                   then bleaf f l (lplace p d l r) else bleaf f r (rplace p d l r)
  end.

Fixpoint banc (f : nat -> nat) (b : btree) (p : place) : list (btree * place) :=
  match b with
  | BLeaf _ => []
  | BNode d l r => (b, p) :: (if to_left (bd_sp d) (f (sp_feature (bd_sp d)))
                              then banc f l (lplace p d l r) else banc f r (rplace p d l r))
  end.

Lemma bpath_split : forall f b p, bpath f b p = banc f b p ++ [bleaf f b p].
Proof.
  intros f b. induction b as [d|d l IHl r IHr]; intros p; simpl; auto.
  destruct (to_left _ _); rewrite ?IHl, ?IHr; reflexivity.
Qed.

Lemma banc_length : forall f b p, length (banc f b p) < bsize b.
Proof.
  intros f b. induction b as [d|d l IHl r IHr]; intros p; simpl; auto.
  destruct (to_left _ _); [specialize (IHl (lplace p d l r))|specialize (IHr (rplace p d l r))]; lia.
Qed.

Lemma bleaf_inside : forall f b p, inside b p (fst (bleaf f b p)) (snd (bleaf f b p)).
Proof.
  intros f b. induction b as [d|d l IHl r IHr]; intros p; simpl; [constructor|].
  destruct (to_left _ _); (eapply inside_trans; [|apply IHl || apply IHr]); [apply In_left|apply In_right]; constructor.
Qed.

Lemma bleaf_is_leaf : forall f b p, exists d, fst (bleaf f b p) = BLeaf d.
Proof.
  intros f b. induction b as [d|d l IHl r IHr]; intros p; simpl; [eauto|]. destruct (to_left _ _); auto.
Qed.

Lemma banc_inside : forall f b p q, In q (banc f b p) -> inside b p (fst q) (snd q).
Proof.
  intros f b. induction b as [d|d l IHl r IHr]; intros p q; simpl; [tauto|]. intros [<-|H]; [constructor|].
  destruct (to_left _ _); (eapply inside_trans; [|first [eapply IHl; exact H | eapply IHr; exact H]]); [apply In_left|apply In_right]; constructor.
Qed.

Section Arrays.
Context (W : btree -> option T) (t : tree A (tk_P tk)).
Notation here_t := (here W (tr_nodes t) (tr_y_pred t) (tr_bp t)).
Context (fb : fba) (i : nat) (f : nat -> nat) (nf : nat).
Context (Hrow : forall j, j < nf -> exists v, get_value fb i j = Ok v /\ N.to_nat v = f j).

Lemma own_slice : forall d l r p, here_t (BNode d l r) p -> sp_is_cat (bd_sp d) = true -> sp_partition (bd_sp d) <> [] ->
  slice (tr_bp t) (nd_bp_start (hnode W (BNode d l r) p)) (nd_bp_end (hnode W (BNode d l r) p)) = Ok (sp_partition (bd_sp d)).
Proof.
  intros d l r p H Ec Hne. pose proof (hr_bps _ _ _ _ _ _ H) as Hb. cbn [bps] in Hb. apply holds_app in Hb.
  destruct Hb as [Hb _]. apply holds_slice in Hb.
  assert (Eo : own d = sp_partition (bd_sp d)) by (unfold own; rewrite Ec; auto).
  cbn [hnode mknode nd_bp_start nd_bp_end]. rewrite Eo in *. destruct (sp_partition (bd_sp d)); [congruence|exact Hb].
Qed.

Lemma next_node_ok : forall d l r p, here_t (BNode d l r) p -> testable nf (bd_sp d) ->
  next_node t fb i (hnode W (BNode d l r) p) =
  Ok (if to_left (bd_sp d) (f (sp_feature (bd_sp d))) then pl_id (lplace p d l r) else pl_id (rplace p d l r)).
Proof.
  intros d l r p H [Hf Hc]. unfold next_node.
  change (nd_feature (hnode W (BNode d l r) p)) with (Some (sp_feature (bd_sp d))). cbn [idx_of bind].
  destruct (Hrow _ Hf) as (v & Hv & Ev). rewrite Hv. cbn [bind]. rewrite Ev.
  change (nd_is_cat (hnode W (BNode d l r) p)) with (sp_is_cat (bd_sp d)).
  unfold to_left. destruct (sp_is_cat (bd_sp d)) eqn:Ec.
  - destruct (Hc eq_refl) as [Hne Hs]. rewrite (own_slice d l r p H Ec Hne). cbn [bind].
    rewrite is_bin_in_partition_spec by auto. cbn [bind].
    change (existsb (Nat.eqb (f (sp_feature (bd_sp d)))) (sp_partition (bd_sp d))) with
      (mem_bin (sp_partition (bd_sp d)) (f (sp_feature (bd_sp d)))).
    destruct (mem_bin _ _); reflexivity.
  - change (nd_threshold (hnode W (BNode d l r) p)) with (Some (sp_threshold (bd_sp d))). cbn [idx_of bind].
    destruct (_ <=? _); reflexivity.
Qed.

Lemma find_leaf_ok : forall b p fuel, here_t b p -> inner (testable nf) b -> length (banc f b p) < fuel ->
  find_leaf_loop fuel t fb i (pl_id p) = Ok (pl_id (snd (bleaf f b p))).
Proof.
  induction b as [d|d l IHl r IHr]; intros p fuel H Hin Hfu.
  - destruct fuel; [simpl in Hfu; lia|]. cbn [find_leaf_loop]. rewrite (here_node _ _ _ _ _ _ H). reflexivity.
  - destruct fuel; [simpl in Hfu; lia|]. cbn [find_leaf_loop]. rewrite (here_node _ _ _ _ _ _ H). cbn [bind].
    change (nd_is_leaf (hnode W (BNode d l r) p)) with false. cbv iota.
    destruct Hin as (Ht & Hl & Hr). rewrite (next_node_ok d l r p H Ht). cbn [bind bleaf].
    cbn [banc length] in Hfu. destruct (to_left _ _).
    + apply IHl; auto; [eapply here_left; eauto|lia].
    + apply IHr; auto; [eapply here_right; eauto|lia].
Qed.

(** One step of the walk up, at an ancestor. *)
Definition mix_at {V} (step : T) (val : nat -> node A -> res V) (mix : T -> V -> V -> res V) (v : V) (q : btree * place) : res V :=
  let n := hnode W (fst q) (snd q) in
  let* u := val (pl_id (snd q)) n in
  let* alpha := node_alpha step n in
  mix alpha u v.

Lemma climb_ok : forall V step (val : nat -> node A -> res V) mix b p k v, here_t b p ->
  climb (length (banc f b p) + k) t step val mix (pl_id (snd (bleaf f b p))) v =
  let* v' := foldM (mix_at step val mix) (rev (banc f b p)) v in climb k t step val mix (pl_id p) v'.
Proof.
  intros V step val mix b. induction b as [d|d l IHl r IHr]; intros p k v H; [reflexivity|].
  cbn [banc bleaf]. set (P := mix_at step val mix).
  assert (Hup : forall c pc v', here_t c pc -> pl_par pc = Some (pl_id p) -> pl_id pc <> 0 ->
     climb (S k) t step val mix (pl_id pc) v' =
     let* v'' := P v' (BNode d l r, p) in climb k t step val mix (pl_id p) v'').
  { intros c pc v' Hc Hpar Hnz. cbn [climb]. destruct (Nat.eqb_spec (pl_id pc) 0); [lia|].
    rewrite (here_node _ _ _ _ _ _ Hc). cbn [bind].
    assert (Ep : nd_parent (hnode W c pc) = Some (pl_id p)) by (destruct c; exact Hpar).
    rewrite Ep. cbn [idx_of bind]. rewrite (here_node _ _ _ _ _ _ H). cbn [bind].
    unfold P, mix_at. cbn [fst snd]. destruct (val _ _); [|reflexivity]. cbn [bind].
    destruct (node_alpha _ _); reflexivity. }
  destruct (to_left _ _).
  - cbn [length rev]. replace (S (length (banc f l (lplace p d l r))) + k) with (length (banc f l (lplace p d l r)) + S k) by lia.
    rewrite IHl by (eapply here_left; eauto). rewrite foldM_app. fold P. destruct (foldM P _ v) as [v'|e]; [|reflexivity].
    cbn [bind]. rewrite (Hup l (lplace p d l r)) by (first [eapply here_left; eauto; fail | cbn [lplace pl_id]; lia | reflexivity]).
    cbn [foldM]. destruct (P v' _); reflexivity.
  - cbn [length rev]. replace (S (length (banc f r (rplace p d l r))) + k) with (length (banc f r (rplace p d l r)) + S k) by lia.
    rewrite IHr by (eapply here_right; eauto). rewrite foldM_app. fold P. destruct (foldM P _ v) as [v'|e]; [|reflexivity].
    cbn [bind]. rewrite (Hup r (rplace p d l r)) by (first [eapply here_right; eauto; fail | cbn [rplace pl_id]; lia | reflexivity]).
    cbn [foldM]. destruct (P v' _); reflexivity.
Qed.

Lemma climb_root : forall V step (val : nat -> node A -> res V) mix b p n v, here_t b p -> pl_id p = 0 -> bsize b <= n ->
  climb (S n) t step val mix (pl_id (snd (bleaf f b p))) v = foldM (mix_at step val mix) (rev (banc f b p)) v.
Proof.
  intros V step val mix b p n v H H0 Hn. pose proof (banc_length f b p) as HL.
  replace (S n) with (length (banc f b p) + (S n - length (banc f b p))) by lia.
  rewrite climb_ok by auto. destruct (foldM _ _ v) as [v'|e]; [|reflexivity]. cbn [bind].
  destruct (S n - length (banc f b p)) eqn:Ek; [lia|]. cbn [climb]. rewrite H0. reflexivity.
Qed.

End Arrays.
End Route.
