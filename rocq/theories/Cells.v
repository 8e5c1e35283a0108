(** * Values with missing ones

    An arithmetic with an additional NaN, and the cells of a table: numbers, missing values
    and strings. They are the instances used by the theorems about exact arithmetic and by
    the examples. *)

Require Import List Arith NArith Bool Lia Reals.
Require Import Verif.Base Verif.Num Verif.M_Binning Verif.P_BinningR Verif.M_Encoder Verif.S_Encoder.
Import ListNotations.

Definition lift1 {X Y} (f : X -> Y) (x : option X) : option Y := option_map f x.
Definition lift2 {X} (f : X -> X -> X) (x y : option X) : option X :=
  match x, y with Some a, Some b => Some (f a b) | _, _ => None end.
Definition test2 {X} (f : X -> X -> bool) (x y : option X) : bool :=
  match x, y with Some a, Some b => f a b | _, _ => false end.
Definition test1 {X} (f : X -> bool) (d : bool) (x : option X) : bool := match x with Some a => f a | None => d end.

(** The numbers of [A] and NaN ([None]): operations on NaN give NaN and comparisons with NaN
    are false. *)
Definition nan_arith (A : arith) : arith :=
  mkArith (option (num A)) (Some a0) (Some a1) (Some ahalf) (lift2 aadd) (lift2 asub) (lift2 amul) (lift2 adiv)
    (lift1 aopp) (lift1 aln) (lift1 aexp) (test2 aleb) (test2 altb) (test1 aisz false) (test1 anan true)
    (test1 agtninf false) (fun n => Some (aofnat n)).

(** ** Binning does not create NaN *)

Fixpoint somes {X} (l : list (option X)) : list X :=
  match l with [] => [] | Some x :: t => x :: somes t | None :: t => somes t end.

Section Hom.
Context (A : arith).
Notation NA := (nan_arith A).
Notation S' := (map (@Some (num A))).

Definition map_res {X Y} (f : X -> Y) (m : res X) : res Y := match m with Ok x => Ok (f x) | Err e => Err e end.

Lemma insert_hom : forall x l, @insert_num NA (Some x) (S' l) = S' (insert_num x l).
Proof. induction l as [|y l IH]; simpl; auto. destruct (aleb x y); simpl; auto. rewrite IH. auto. Qed.
Lemma sort_hom : forall l, @sort_num NA (S' l) = S' (sort_num l).
Proof. induction l as [|y l IH]; simpl; auto. rewrite IH. apply insert_hom. Qed.
Lemma dedupe_hom : forall l, @dedupe NA (S' l) = S' (dedupe l).
Proof.
  induction l as [|x l IH]; auto. destruct l as [|y l]; auto.
  change (@dedupe NA (S' (x :: y :: l))) with (if @aleb NA (Some y) (Some x) then @dedupe NA (S' (y :: l)) else Some x :: @dedupe NA (S' (y :: l))).
  change (dedupe (x :: y :: l)) with (if aleb y x then dedupe (y :: l) else x :: dedupe (y :: l)).
  rewrite IH. simpl. destruct (aleb y x); auto.
Qed.
Lemma middles_hom : forall l, @middles NA (S' l) = S' (middles l).
Proof.
  induction l as [|x l IH]; auto. destruct l as [|y l]; auto.
  change (@middles NA (S' (x :: y :: l))) with (Some (amul (aadd x y) ahalf) :: @middles NA (S' (y :: l))).
  rewrite IH. reflexivity.
Qed.
Lemma filter_hom_gen : forall f l, (forall x : num A, f (Some x) = negb (anan x)) -> f None = false ->
  filter f l = S' (filter (fun x => negb (anan x)) (somes l)).
Proof.
  intros f l H1 H2. induction l as [|[x|] l IH]; simpl; auto.
  - rewrite H1. destruct (anan x); simpl; rewrite IH; auto.
  - rewrite H2. auto.
Qed.
Lemma filter_hom : forall l, filter (fun x => negb (@anan NA x)) l = S' (filter (fun x => negb (anan x)) (somes l)).
Proof. intro l. apply filter_hom_gen; reflexivity. Qed.
Lemma get_hom : forall l i, get (S' l) i = map_res (@Some (num A)) (get l i).
Proof. intros. unfold get. rewrite nth_error_map. destruct (nth_error l i); auto. Qed.
Lemma percentile_hom : forall l k mb, @percentile_midpoint NA (S' l) k mb = map_res (@Some (num A)) (percentile_midpoint l k mb).
Proof.
  intros. unfold percentile_midpoint. rewrite map_length. destruct (_ =? 0); [apply get_hom|].
  change (num NA) with (option (num A)). rewrite !get_hom. destruct (get l _); simpl; auto. destruct (get l _); simpl; auto.
Qed.
Lemma mapM_hom : forall {X} (f : X -> res (option (num A))) (g : X -> res (num A)) l,
  (forall x, f x = map_res (@Some (num A)) (g x)) -> mapM f l = map_res S' (mapM g l).
Proof.
  intros X f g l H. induction l as [|x l IH]; simpl; auto. rewrite H. destruct (g x); simpl; auto. rewrite IH.
  destruct (mapM g l); auto.
Qed.
Lemma clip_hom : forall ai l, map (@clip_max NA (Some ai)) (S' l) = S' (map (clip_max ai) l).
Proof. intros. rewrite !map_map. apply map_ext. intro x. unfold clip_max. simpl. destruct (altb ai x); auto. Qed.

Lemma thresholds_hom : forall ai col mb,
  @find_binning_thresholds NA (Some ai) col mb = map_res S' (find_binning_thresholds ai (somes col) mb).
Proof.
  intros ai col mb. unfold find_binning_thresholds. rewrite filter_hom. set (c := filter _ (somes col)).
  unfold unique. change (num NA) with (option (num A)). rewrite sort_hom, dedupe_hom, map_length.
  destruct (_ <=? mb).
  - rewrite middles_hom. cbn [bind map_res]. rewrite clip_hom. auto.
  - erewrite (mapM_hom _ (fun k => percentile_midpoint (sort_num c) k mb)); [|intro k; apply percentile_hom].
    destruct (mapM _ _); cbn [bind map_res]; auto. rewrite clip_hom. auto.
Qed.
End Hom.

(** ** Cells *)

Inductive cell (A : arith) : Type := CNone | CNum (x : num A) | CStr (s : nat).
Arguments CNone {A}. Arguments CNum {A}. Arguments CStr {A}.

(** Strings are taken from a numbered list in alphabetical order. [r32] rounds to float32. *)
Definition cell_values (A : arith) (r32 : num A -> num A) : values (nan_arith A) :=
  mkValues (nan_arith A) (cell A)
    (fun c => match c with CNone => true | CNum x => anan x | CStr _ => false end)
    (fun a b => match a, b with CNum x, CNum y => (aleb x y && aleb y x)%bool | CStr s, CStr t => s =? t | _, _ => false end)
    (fun a b => match a, b with CNum x, CNum y => aleb x y | CStr s, CStr t => s <=? t | CNum _, _ => true | _, _ => false end)
    (fun c => match c with CNone => Some None | CNum x => Some (Some x) | CStr _ => None end)
    (fun c => match c with CNone => Some None | CNum x => Some (Some (r32 x)) | CStr _ => None end).

Lemma cell_values_good : forall A r32,
  (forall x : num A, anan x = false -> aleb x x = true) ->
  (forall x y z : num A, aleb x y = true -> aleb y z = true -> aleb x z = true) ->
  (forall x : num A, anan (r32 x) = anan x) ->
  good_values (cell_values A r32).
Proof.
  intros A r32 HR HT HN. constructor; simpl.
  - intros [|x|s] H; try discriminate; [rewrite HR; auto|apply Nat.eqb_refl].
  - intros [|x|s] [|y|t] H; try discriminate.
    + apply andb_true_iff in H. destruct H as [H1 H2]. rewrite H1, H2. auto.
    + apply Nat.eqb_eq in H. subst. apply Nat.eqb_refl.
  - intros [|x|s] [|y|t] [|z|u] H1 H2; try discriminate.
    + apply andb_true_iff in H1, H2. destruct H1 as [A1 A2], H2 as [B1 B2]. apply andb_true_iff. split; eapply HT; eauto.
    + apply Nat.eqb_eq in H1, H2. subst. apply Nat.eqb_refl.
  - intros [|x|s] r H; inversion H; auto.
  - intros [|x|s] r H; inversion H; simpl; auto.
Qed.

(** Exact numbers. *)
Definition exact_values (r32 : R -> R) : values (nan_arith R_arith) := cell_values R_arith r32.

Lemma exact_good : forall r32, good_values (exact_values r32).
Proof.
  intro r32. apply cell_values_good; auto.
  - intros x _. apply Rleb_iff. apply Rle_refl.
  - apply R_trans.
Qed.

Lemma exact_trans : forall x y z : option R, @aleb (nan_arith R_arith) x y = true -> @aleb (nan_arith R_arith) y z = true ->
  @aleb (nan_arith R_arith) x z = true.
Proof. intros [x|] [y|] [z|]; simpl; auto; try discriminate. apply R_trans. Qed.
