(** * Result monad and bounds-checked arrays

    The compiled code runs with bounds checks off (wildwood/_utils.py:9,
    [BOUNDSCHECK = False]); in the model every array access is checked and an
    access outside of the bounds is the value [Err OOB], so that the absence of
    such accesses can be stated and proved. *)

Require Import List Arith Lia.
Import ListNotations.

(** Everything that can go wrong in the modelled code. *)
Inductive err : Type :=
| OOB            (* array index outside of its bounds *)
| BadShift       (* machine shift by 64 bits or more: undefined in the compiled code *)
| Overflow       (* unsigned machine subtraction going below zero *)
| ZeroDiv        (* ZeroDivisionError, numba's default for a division by zero *)
| Unbound        (* a local variable is read before it is assigned *)
| Fuel           (* a while loop did not stop within the fuel given to it *)
| ValueErr       (* ValueError raised by the code *)
| AttrErr        (* AttributeError *)
| TypeErr        (* TypeError *)
| IndexErr       (* IndexError / numpy shape error *)
| Recursion.     (* RecursionError *)

Inductive res (A : Type) : Type :=
| Ok (a : A)
| Err (e : err).
Arguments Ok {A} a.
Arguments Err {A} e.

Definition bind {A B} (m : res A) (f : A -> res B) : res B :=
  match m with Ok a => f a | Err e => Err e end.

Declare Scope res_scope.
Delimit Scope res_scope with res.
Notation "'let*' x ':=' m 'in' k" := (bind m (fun x => k))
  (at level 200, x binder, m at level 100, k at level 200, right associativity) : res_scope.
Notation "'let*' ' p ':=' m 'in' k" := (bind m (fun x => let p := x in k))
  (at level 200, p strict pattern, m at level 100, k at level 200, right associativity) : res_scope.
Open Scope res_scope.

(** Reading [a[i]]. *)
Definition get {A} (a : list A) (i : nat) : res A :=
  match nth_error a i with Some x => Ok x | None => Err OOB end.

(** Writing [a[i] = x]. *)
Fixpoint upd {A} (a : list A) (i : nat) (x : A) : list A :=
  match a, i with
  | [], _ => []
  | _ :: t, O => x :: t
  | h :: t, S k => h :: upd t k x
  end.

Definition set {A} (a : list A) (i : nat) (x : A) : res (list A) :=
  if i <? length a then Ok (upd a i x) else Err OOB.

(** [a[lo:hi]] as a fresh list; the bounds must be inside of the array. *)
Definition slice {A} (a : list A) (lo hi : nat) : res (list A) :=
  if ((lo <=? hi) && (hi <=? length a))%bool
  then Ok (firstn (hi - lo) (skipn lo a)) else Err OOB.

(** [a[lo:lo+len(v)] = v]. *)
Definition splice {A} (a : list A) (lo : nat) (v : list A) : res (list A) :=
  if lo + length v <=? length a
  then Ok (firstn lo a ++ v ++ skipn (lo + length v) a) else Err OOB.

(** [a - b] on unsigned machine integers; the code never means the wrapped value. *)
Definition usub (a b : nat) : res nat := if b <=? a then Ok (a - b) else Err Overflow.

(** Loops over a list, in order, stopping at the first error. *)
Fixpoint foldM {A S} (f : S -> A -> res S) (l : list A) (s : S) : res S :=
  match l with
  | [] => Ok s
  | x :: t => let* s' := f s x in foldM f t s'
  end.

Fixpoint mapM {A B} (f : A -> res B) (l : list A) : res (list B) :=
  match l with
  | [] => Ok []
  | x :: t => let* y := f x in let* r := mapM f t in Ok (y :: r)
  end.

(** ** Lemmas *)

Lemma bind_ok : forall {A B} (m : res A) (f : A -> res B) b,
  bind m f = Ok b -> exists a, m = Ok a /\ f a = Ok b.
Proof. intros A B [a|e] f b H; simpl in H; [eauto|discriminate]. Qed.

Lemma get_ok : forall {A} (a : list A) i x, get a i = Ok x <-> nth_error a i = Some x.
Proof.
  intros A a i x; unfold get; destruct (nth_error a i); split; intro H; inversion H; auto.
Qed.

Lemma get_in : forall {A} (a : list A) i, i < length a -> exists x, get a i = Ok x.
Proof.
  intros A a i H; unfold get; destruct (nth_error a i) eqn:E; eauto.
  apply nth_error_None in E; lia.
Qed.

Lemma get_lt : forall {A} (a : list A) i x, get a i = Ok x -> i < length a.
Proof. intros A a i x H; apply get_ok in H; apply nth_error_Some; congruence. Qed.

Lemma get_nth : forall {A} (a : list A) i x d, get a i = Ok x -> nth i a d = x.
Proof. intros A a i x d H; apply get_ok in H; apply nth_error_nth; auto. Qed.

Lemma nth_get : forall {A} (a : list A) i d, i < length a -> get a i = Ok (nth i a d).
Proof. intros A a i d H; apply get_ok; apply nth_error_nth'; auto. Qed.

Lemma upd_length : forall {A} (a : list A) i x, length (upd a i x) = length a.
Proof. induction a; destruct i; simpl; intros; auto. Qed.

Lemma nth_error_upd_eq : forall {A} (a : list A) i x,
  i < length a -> nth_error (upd a i x) i = Some x.
Proof. induction a; destruct i; simpl; intros; try lia; auto. apply IHa; lia. Qed.

Lemma nth_error_upd_neq : forall {A} (a : list A) i j x,
  i <> j -> nth_error (upd a i x) j = nth_error a j.
Proof. induction a; destruct i, j; simpl; intros; try lia; auto. Qed.

Lemma set_ok : forall {A} (a : list A) i x b,
  set a i x = Ok b <-> i < length a /\ b = upd a i x.
Proof.
  intros A a i x b; unfold set; destruct (i <? length a) eqn:E.
  - apply Nat.ltb_lt in E; split; [inversion 1; auto | intros [? ->]; auto].
  - apply Nat.ltb_ge in E; split; [discriminate | lia].
Qed.

Lemma get_upd_eq : forall {A} (a : list A) i x, i < length a -> get (upd a i x) i = Ok x.
Proof. intros; apply get_ok; apply nth_error_upd_eq; auto. Qed.

Lemma get_upd_neq : forall {A} (a : list A) i j x, i <> j -> get (upd a i x) j = get a j.
Proof. intros; unfold get; rewrite nth_error_upd_neq; auto. Qed.

Lemma slice_ok : forall {A} (a : list A) lo hi v,
  slice a lo hi = Ok v <-> lo <= hi <= length a /\ v = firstn (hi - lo) (skipn lo a).
Proof.
  intros A a lo hi v; unfold slice.
  destruct ((lo <=? hi) && (hi <=? length a))%bool eqn:E.
  - apply andb_prop in E; destruct E as [E1 E2].
    apply Nat.leb_le in E1; apply Nat.leb_le in E2.
    split; [inversion 1; auto | intros [? ->]; auto].
  - split; [discriminate|]. intros [[H1 H2] _].
    apply Nat.leb_le in H1; apply Nat.leb_le in H2. rewrite H1, H2 in E; discriminate.
Qed.

Lemma slice_length : forall {A} (a : list A) lo hi v,
  slice a lo hi = Ok v -> length v = hi - lo.
Proof.
  intros A a lo hi v H; apply slice_ok in H; destruct H as [H ->].
  rewrite firstn_length, skipn_length; lia.
Qed.

Lemma nth_error_firstn : forall {A} (l : list A) n i,
  i < n -> nth_error (firstn n l) i = nth_error l i.
Proof.
  induction l; intros n i H; destruct n; try lia; destruct i; simpl; auto. apply IHl; lia.
Qed.

Lemma nth_error_skipn : forall {A} (l : list A) n i,
  nth_error (skipn n l) i = nth_error l (n + i).
Proof. induction l; intros [|n] i; simpl; auto. destruct i; auto. Qed.

Lemma get_slice : forall {A} (a : list A) lo hi v i,
  slice a lo hi = Ok v -> i < hi - lo -> get v i = get a (lo + i).
Proof.
  intros A a lo hi v i H Hi; apply slice_ok in H; destruct H as [H ->].
  unfold get. rewrite nth_error_firstn by lia. rewrite nth_error_skipn. auto.
Qed.

Lemma splice_ok : forall {A} (a : list A) lo v b,
  splice a lo v = Ok b <->
  lo + length v <= length a /\ b = firstn lo a ++ v ++ skipn (lo + length v) a.
Proof.
  intros A a lo v b; unfold splice; destruct (lo + length v <=? length a) eqn:E.
  - apply Nat.leb_le in E; split; [inversion 1; auto | intros [? ->]; auto].
  - apply Nat.leb_gt in E; split; [discriminate | lia].
Qed.

Lemma splice_length : forall {A} (a : list A) lo v b,
  splice a lo v = Ok b -> length b = length a.
Proof.
  intros A a lo v b H; apply splice_ok in H; destruct H as [H ->].
  rewrite !app_length, firstn_length, skipn_length; lia.
Qed.

Lemma get_splice_in : forall {A} (a : list A) lo v b i,
  splice a lo v = Ok b -> i < length v -> get b (lo + i) = get v i.
Proof.
  intros A a lo v b i H Hi; apply splice_ok in H; destruct H as [H ->].
  unfold get. rewrite nth_error_app2; rewrite firstn_length; [|lia].
  rewrite nth_error_app1 by lia.
  replace (lo + i - Nat.min lo (length a)) with i by lia. auto.
Qed.

Lemma get_splice_out : forall {A} (a : list A) lo v b i,
  splice a lo v = Ok b -> i < lo \/ lo + length v <= i -> get b i = get a i.
Proof.
  intros A a lo v b i H Hi; apply splice_ok in H; destruct H as [H ->].
  unfold get. destruct Hi as [Hi|Hi].
  - rewrite nth_error_app1 by (rewrite firstn_length; lia).
    rewrite nth_error_firstn by lia. auto.
  - rewrite nth_error_app2; rewrite firstn_length; [|lia].
    rewrite nth_error_app2 by lia. rewrite nth_error_skipn.
    replace (lo + length v + (i - Nat.min lo (length a) - length v)) with i by lia. auto.
Qed.

Lemma nth_error_ext : forall {A} (a b : list A),
  (forall i, nth_error a i = nth_error b i) -> a = b.
Proof.
  induction a; destruct b; intros H; auto.
  - specialize (H 0); discriminate.
  - specialize (H 0); discriminate.
  - f_equal.
    + specialize (H 0); simpl in H; congruence.
    + apply IHa; intro i; exact (H (S i)).
Qed.

Lemma get_ext : forall {A} (a b : list A),
  length a = length b -> (forall i, i < length a -> get a i = get b i) -> a = b.
Proof.
  intros A a b HL H; apply nth_error_ext; intro i.
  destruct (lt_dec i (length a)).
  - specialize (H i l). unfold get in H.
    destruct (nth_error a i) eqn:E1, (nth_error b i) eqn:E2; congruence.
  - assert (nth_error a i = None) by (apply nth_error_None; lia).
    assert (nth_error b i = None) by (apply nth_error_None; lia). congruence.
Qed.

Lemma foldM_app : forall {A S} (f : S -> A -> res S) l1 l2 s,
  foldM f (l1 ++ l2) s = (let* s' := foldM f l1 s in foldM f l2 s').
Proof.
  induction l1; simpl; intros; auto. destruct (f s a); simpl; auto.
Qed.

Lemma foldM_inv : forall {A S} (f : S -> A -> res S) (I : nat -> S -> Prop) l s s',
  I 0 s ->
  (forall k x t t', nth_error l k = Some x -> I k t -> f t x = Ok t' -> I (Datatypes.S k) t') ->
  foldM f l s = Ok s' -> I (length l) s'.
Proof.
  intros A S f I l; revert I; induction l as [|x l IH]; simpl; intros I s s' H0 HS H.
  - inversion H; subst; auto.
  - apply bind_ok in H; destruct H as [t [Ht H]].
    apply (IH (fun k => I (Datatypes.S k)) t s'); auto.
    + apply (HS 0 x s t); auto.
    + intros k y u u' Hk Hu Hf. apply (HS (Datatypes.S k) y u u'); auto.
Qed.

Lemma mapM_ok : forall {A B} (f : A -> res B) l r,
  mapM f l = Ok r -> length r = length l /\
  (forall i x, nth_error l i = Some x -> exists y, nth_error r i = Some y /\ f x = Ok y).
Proof.
  induction l; simpl; intros r H.
  - inversion H; subst; split; auto. intros i x Hi; destruct i; discriminate.
  - apply bind_ok in H; destruct H as [y [Hy H]].
    apply bind_ok in H; destruct H as [r' [Hr H]]. inversion H; subst.
    destruct (IHl r' Hr) as [HL HI]. split; simpl; auto.
    intros [|i] x Hi; simpl in *; [inversion Hi; subst; eauto | eauto].
Qed.

Lemma mapM_total : forall {A B} (f : A -> res B) l,
  (forall x, In x l -> exists y, f x = Ok y) -> exists r, mapM f l = Ok r.
Proof.
  induction l; simpl; intros H; eauto.
  destruct (H a) as [y Hy]; auto. destruct IHl as [r Hr]; auto.
  rewrite Hy; simpl; rewrite Hr; simpl; eauto.
Qed.

Lemma mapM_pure : forall {A B} (f : A -> res B) (g : A -> B) l,
  (forall x, In x l -> f x = Ok (g x)) -> mapM f l = Ok (map g l).
Proof.
  induction l; simpl; intros H; auto.
  rewrite (H a) by auto; simpl. rewrite IHl by auto. auto.
Qed.

Lemma nth_error_map_inv : forall {A B} (f : A -> B) l j t,
  nth_error (map f l) j = Some t -> exists m, nth_error l j = Some m /\ t = f m.
Proof.
  intros A B f l j t H. rewrite nth_error_map in H.
  destruct (nth_error l j); inversion H; eauto.
Qed.
