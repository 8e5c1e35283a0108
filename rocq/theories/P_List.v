(** * Generic lemmas on lists, loops and results *)

Require Import List Arith Lia Permutation.
Require Import Verif.Base Verif.P_Utils.
Import ListNotations.
Local Open Scope res_scope.

(** A loop that reads [l[0]], [l[1]], ... is a loop over [l]. *)
Lemma foldM_get_seq : forall {X S} (g : S -> X -> res S) (l : list X) s,
  foldM (fun s k => let* y := get l k in g s y) (seq 0 (length l)) s = foldM g l s.
Proof.
  intros X S g l.
  assert (H : forall pre rest s, foldM (fun s k => let* y := get (pre ++ rest) k in g s y)
            (seq (length pre) (length rest)) s = foldM g rest s).
  { intros pre rest. revert pre. induction rest as [|x rest IH]; intros pre s; [reflexivity|].
    cbn [length seq foldM].
    assert (Hg : get (pre ++ x :: rest) (length pre) = Ok x).
    { apply get_ok. rewrite nth_error_app2, Nat.sub_diag; auto. }
    rewrite Hg. cbn [bind]. destruct (g s x) as [s'|e]; [|reflexivity]. cbn [bind].
    replace (pre ++ x :: rest) with ((pre ++ [x]) ++ rest) by (rewrite <- app_assoc; auto).
    specialize (IH (pre ++ [x]) s'). rewrite app_length in IH. simpl in IH.
    rewrite Nat.add_1_r in IH. exact IH. }
  intros s. apply (H [] l s).
Qed.

Lemma foldM_pure : forall {X S} (g : S -> X -> S) (l : list X) s,
  foldM (fun s x => Ok (g s x)) l s = Ok (fold_left g l s).
Proof. induction l; intros; simpl; auto. Qed.

Lemma foldM_ext : forall {X S} (f g : S -> X -> res S) l s,
  (forall s x, In x l -> f s x = g s x) -> foldM f l s = foldM g l s.
Proof.
  induction l; intros s H; simpl; auto. rewrite H by (simpl; auto).
  destruct (g s a); simpl; auto. apply IHl. intros; apply H; simpl; auto.
Qed.

Lemma foldM_pure_ok : forall {X S} (f : S -> X -> res S) (g : S -> X -> S) l s,
  (forall s x, In x l -> f s x = Ok (g s x)) -> foldM f l s = Ok (fold_left g l s).
Proof.
  induction l; intros s H; simpl; auto. rewrite H by (simpl; auto). simpl.
  apply IHl. intros; apply H; simpl; auto.
Qed.

(** The loop state after a prefix [l] is [spec l]. *)
Lemma foldM_prefix : forall {X S} (f : S -> X -> res S) (spec : list X -> S) l,
  (forall pre x post, l = pre ++ x :: post -> f (spec pre) x = Ok (spec (pre ++ [x]))) ->
  foldM f l (spec []) = Ok (spec l).
Proof.
  intros X S f spec l H.
  assert (G : forall rest pre, l = pre ++ rest -> foldM f rest (spec pre) = Ok (spec l)).
  { induction rest as [|x rest IH]; intros pre E.
    - rewrite app_nil_r in E. subst. reflexivity.
    - cbn [foldM]. rewrite (H pre x rest E). cbn [bind]. apply IH. rewrite <- app_assoc. exact E. }
  apply (G l []). reflexivity.
Qed.

Lemma nth_error_map_seq : forall {X} (g : nat -> X) n i, i < n ->
  nth_error (map g (seq 0 n)) i = Some (g i).
Proof.
  intros X g n i H. rewrite nth_error_map.
  assert (E : nth_error (seq 0 n) i = Some i).
  { rewrite (nth_error_nth' (seq 0 n) 0); rewrite ?seq_length; auto. rewrite seq_nth; auto. }
  rewrite E. reflexivity.
Qed.

Lemma get_map_seq : forall {X} (g : nat -> X) n i, i < n -> get (map g (seq 0 n)) i = Ok (g i).
Proof. intros. apply get_ok. apply nth_error_map_seq; auto. Qed.

Lemma upd_map_seq : forall {X} (g g' : nat -> X) n i, i < n ->
  (forall k, k <> i -> g k = g' k) ->
  upd (map g (seq 0 n)) i (g' i) = map g' (seq 0 n).
Proof.
  intros X g g' n i Hi H. apply get_ext.
  - rewrite upd_length, !map_length. auto.
  - intros k Hk. rewrite upd_length, map_length, seq_length in Hk.
    rewrite (get_map_seq g') by auto.
    destruct (Nat.eq_dec k i) as [->|Hne].
    + rewrite get_upd_eq; auto. rewrite map_length, seq_length. auto.
    + rewrite get_upd_neq by auto. rewrite get_map_seq by auto. f_equal. auto.
Qed.

Lemma set_map_seq : forall {X} (g g' : nat -> X) n i, i < n ->
  (forall k, k <> i -> g k = g' k) ->
  set (map g (seq 0 n)) i (g' i) = Ok (map g' (seq 0 n)).
Proof.
  intros X g g' n i Hi H. apply set_ok. rewrite map_length, seq_length. split; auto.
  symmetry. apply upd_map_seq; auto.
Qed.

Lemma map_const_seq : forall {X} (x : X) n s, repeat x n = map (fun _ => x) (seq s n).
Proof. induction n; intros s; simpl; auto. f_equal. apply IHn. Qed.

Lemma filter_app_single : forall {X} (f : X -> bool) l x,
  filter f (l ++ [x]) = filter f l ++ (if f x then [x] else []).
Proof. intros. rewrite filter_app. simpl. destruct (f x); auto. Qed.

(** Distinct elements of a list in the order of their first occurrence. *)
Definition distinct (l : list nat) : list nat :=
  fold_left (fun acc b => if existsb (Nat.eqb b) acc then acc else acc ++ [b]) l [].

Lemma distinct_snoc : forall l b,
  distinct (l ++ [b]) = if existsb (Nat.eqb b) (distinct l) then distinct l else distinct l ++ [b].
Proof. intros. unfold distinct. rewrite fold_left_app. reflexivity. Qed.

Lemma existsb_eqb : forall b l, existsb (Nat.eqb b) l = true <-> In b l.
Proof.
  intros b l. rewrite existsb_exists. split.
  - intros [x [H1 H2]]. apply Nat.eqb_eq in H2. subst. auto.
  - intros H. exists b. split; auto. apply Nat.eqb_refl.
Qed.

Lemma distinct_in : forall l b, In b (distinct l) <-> In b l.
Proof.
  intros l. induction l using rev_ind; intros b; [reflexivity|].
  rewrite distinct_snoc. rewrite in_app_iff. simpl.
  destruct (existsb (Nat.eqb x) (distinct l)) eqn:E.
  - apply existsb_eqb in E. rewrite IHl in *. intuition (subst; auto).
  - rewrite in_app_iff, IHl. simpl. tauto.
Qed.

Lemma distinct_nodup : forall l, NoDup (distinct l).
Proof.
  intros l. induction l using rev_ind; [constructor|].
  rewrite distinct_snoc. destruct (existsb (Nat.eqb x) (distinct l)) eqn:E; auto.
  apply (Permutation_NoDup (l := x :: distinct l)).
  - apply Permutation_cons_append.
  - constructor; auto. intro H. apply existsb_eqb in H. congruence.
Qed.

Lemma filter_nil_iff : forall {X} (f : X -> bool) l, filter f l = [] <-> forall x, In x l -> f x = false.
Proof.
  induction l; simpl; split; intros H; auto; try tauto.
  - intros x [<-|Hx]; destruct (f a) eqn:E; try discriminate; auto. apply IHl; auto.
  - rewrite (H a) by auto. apply IHl. intros; apply H; auto.
Qed.

Lemma length_bounded_nodup : forall l n, NoDup l -> (forall x, In x l -> x < n) -> length l <= n.
Proof.
  intros l n Hnd H. rewrite <- (seq_length n 0). apply NoDup_incl_length; auto.
  intros x Hx. apply in_seq. specialize (H x Hx). lia.
Qed.

(** ** Results with one allowed error

    [okz Z Q m]: [m] is [Ok x] with [Q x], or ZeroDivisionError if [Z]. *)
Definition okz {X} (Z : Prop) (Q : X -> Prop) (m : res X) : Prop :=
  match m with Ok x => Q x | Err ZeroDiv => Z | Err _ => False end.

Lemma okz_bind : forall {X Y} (Z : Prop) (Q : Y -> Prop) (m : res X) (f : X -> res Y),
  okz Z (fun x => okz Z Q (f x)) m -> okz Z Q (bind m f).
Proof. intros X Y Z Q [x|e] f H; simpl in *; auto. Qed.

Lemma okz_weaken : forall {X} (Z Z' : Prop) (Q Q' : X -> Prop) (m : res X),
  (Z -> Z') -> (forall x, m = Ok x -> Q x -> Q' x) -> okz Z Q m -> okz Z' Q' m.
Proof. intros X Z Z' Q Q' [x|[]] HZ HQ H; simpl in *; auto. Qed.

Lemma okz_ok : forall {X} (Z : Prop) (Q : X -> Prop) (m : res X) x, m = Ok x -> Q x -> okz Z Q m.
Proof. intros; subst; simpl; auto. Qed.

Lemma okz_inv : forall {X} (Z : Prop) (Q : X -> Prop) (m : res X) x, okz Z Q m -> m = Ok x -> Q x.
Proof. intros; subst; simpl; auto. Qed.

Lemma okz_foldM : forall {X S} (Z : Prop) (I : list X -> S -> Prop) (f : S -> X -> res S) l s,
  I [] s ->
  (forall pre x post s, l = pre ++ x :: post -> I pre s -> okz Z (I (pre ++ [x])) (f s x)) ->
  okz Z (I l) (foldM f l s).
Proof.
  intros X S Z I f l s H0 HS.
  assert (G : forall rest pre s, l = pre ++ rest -> I pre s -> okz Z (I l) (foldM f rest s)).
  { induction rest as [|x rest IH]; intros pre t E Ht.
    - rewrite app_nil_r in E. subst. exact Ht.
    - cbn [foldM]. apply okz_bind. eapply okz_weaken; [exact (fun z => z)| |eapply HS; eauto].
      intros t' _ Ht'. apply (IH (pre ++ [x])); auto. rewrite <- app_assoc. exact E. }
  apply (G l []); auto.
Qed.

Lemma fold_left_ext : forall {X S} (f g : S -> X -> S) l s,
  (forall s x, In x l -> f s x = g s x) -> fold_left f l s = fold_left g l s.
Proof.
  induction l; intros s H; simpl; auto. rewrite H by (simpl; auto).
  apply IHl. intros; apply H; simpl; auto.
Qed.

Lemma filter_all : forall {X} (f : X -> bool) l, (forall x, In x l -> f x = true) -> filter f l = l.
Proof.
  induction l; simpl; intros H; auto. rewrite (H a) by auto. f_equal. apply IHl. intros; apply H; auto.
Qed.

Lemma nodup_app_l : forall {X} (a b : list X), NoDup (a ++ b) -> NoDup a.
Proof.
  induction a as [|x a IH]; intros b H; [constructor|].
  simpl in H. inversion H as [|? ? Hx H']; subst. constructor; eauto.
  intro Hi. apply Hx. apply in_app_iff. auto.
Qed.
