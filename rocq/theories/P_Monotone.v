(** * Proofs: increasing transformations do not change the bins *)

Require Import List Arith NArith ZArith Bool Lia Reals Lra.
Require Import Verif.Base Verif.Num Verif.M_Bitarray Verif.M_Binning Verif.P_Binning Verif.P_BinningR
  Verif.T_Binning Verif.M_Encoder Verif.S_Encoder Verif.P_Encoder Verif.Cells Verif.M_EncoderForest Verif.S_Monotone Verif.T_EncoderR.
Import ListNotations.
Local Open Scope nat_scope.

(** ** Thresholds *)

Section Thresholds.
Context (P : R -> Prop) (g : R -> R) (inc : increasing_on P g).
Notation sortR := (@sort_num R_arith).
Notation uniqueR := (@unique R_arith).

Lemma g_leb : forall x y, P x -> P y -> Rleb (g x) (g y) = Rleb x y.
Proof.
  intros x y Hx Hy. destruct (Rleb x y) eqn:E.
  - apply Rleb_iff in E. apply Rleb_iff. destruct (Req_dec x y) as [->|]; [lra|]. apply Rlt_le. apply inc; auto. lra.
  - apply Rleb_false in E. apply Rleb_false. apply inc; auto.
Qed.

Lemma insert_in : forall x l y, In y (@insert_num R_arith x l) <-> x = y \/ In y l.
Proof. induction l as [|z l IH]; simpl; intro y; [tauto|]. destruct (Rleb x z); simpl; rewrite ?IH; tauto. Qed.
Lemma sort_in : forall l y, In y (sortR l) <-> In y l.
Proof. induction l as [|z l IH]; simpl; intro y; [tauto|]. rewrite insert_in, IH. tauto. Qed.

Lemma insert_map : forall x l, P x -> Forall P l -> @insert_num R_arith (g x) (map g l) = map g (@insert_num R_arith x l).
Proof.
  intros x l Hx Hl. induction Hl as [|y l Hy Hl IH]; simpl; auto. rewrite g_leb; auto. destruct (Rleb x y); simpl; auto. f_equal. auto.
Qed.
Lemma sort_map : forall l, Forall P l -> sortR (map g l) = map g (sortR l).
Proof.
  intros l Hl. induction Hl as [|y l Hy Hl IH]; simpl; auto.
  change (num R_arith) with R in *. rewrite IH. apply insert_map; auto.
  apply Forall_forall. intros z Hz. apply (sort_in l z) in Hz. rewrite Forall_forall in Hl. auto.
Qed.
Lemma dedupe_map : forall l, Forall P l -> @dedupe R_arith (map g l) = map g (@dedupe R_arith l).
Proof.
  intros l Hl. induction Hl as [|x l Hx Hl IH]; auto. destruct l as [|y l]; auto.
  change (@dedupe R_arith (map g (x :: y :: l))) with (if Rleb (g y) (g x) then @dedupe R_arith (map g (y :: l)) else g x :: @dedupe R_arith (map g (y :: l))).
  change (@dedupe R_arith (x :: y :: l)) with (if Rleb y x then @dedupe R_arith (y :: l) else x :: @dedupe R_arith (y :: l)).
  change (num R_arith) with R in *. rewrite IH. inversion Hl; subst. rewrite g_leb; auto. destruct (Rleb y x); auto.
Qed.
Lemma Forall_sort : forall l, Forall P l -> Forall P (sortR l).
Proof. intros l Hl. apply Forall_forall. intros z Hz. apply (sort_in l z) in Hz. rewrite Forall_forall in Hl. auto. Qed.
Lemma unique_map : forall l, Forall P l -> uniqueR (map g l) = map g (uniqueR l).
Proof.
  intros l Hl. unfold unique. pose proof (sort_map l Hl) as E. change (num R_arith) with R in *. rewrite E.
  apply dedupe_map. apply Forall_sort. auto.
Qed.

(** The value just below each threshold. *)
Definition lows (col : list R) (mb : nat) : list R :=
  if length (uniqueR col) <=? mb then removelast (uniqueR col)
  else map (fun k => nth ((length (sortR col) - 1) * k / mb) (sortR col) 0%R) (seq 1 (mb - 1)).
End Thresholds.

Notation sortR := (@sort_num R_arith).
Notation uniqueR := (@unique R_arith).

(** Between two neighbours of a sorted list nothing is in the list. *)
Lemma middle_low : forall (s : list R) i lo hi x, ndec s -> nth_error s i = Some lo -> nth_error s (S i) = Some hi -> In x s ->
  (((lo + hi) / 2 < x) <-> (lo < x))%R.
Proof.
  intros s i lo hi x Hs Hl Hh Hx. assert (lo <= hi)%R by (apply (Hs i (S i)); auto).
  apply In_nth_error in Hx. destruct Hx as (j & Hj). destruct (le_lt_dec j i) as [Hji|Hji].
  - assert (x <= lo)%R by (apply (Hs j i); auto). lra.
  - assert (hi <= x)%R by (apply (Hs (S i) j); auto). lra.
Qed.

Lemma sinc_ndec : forall l, sinc l -> ndec l.
Proof.
  intros l H i j s t Hij Hi Hj. destruct (Nat.eq_dec i j) as [->|]; [assert (s = t) by congruence; subst; lra|].
  apply Rlt_le. apply (H i j); auto. lia.
Qed.

Lemma middles_low : forall (l s : list R) (pre : list R), s = pre ++ l -> ndec s ->
  Forall2 (fun t lo => forall x, In x s -> (t < x <-> lo < x)%R) (@middles R_arith l) (removelast l).
Proof.
  induction l as [|a l IH]; intros s pre Hs Hn; [constructor|]. destruct l as [|b l]; [constructor|].
  cbn [middles removelast]. constructor.
  - intros x Hx. change (@amul R_arith (@aadd R_arith a b) (@ahalf R_arith)) with ((a + b) * (/ 2))%R.
    change ((a + b) * / 2)%R with ((a + b) / 2)%R. apply (middle_low s (length pre)); auto; subst s.
    + rewrite nth_error_app2; [|lia]. rewrite Nat.sub_diag. auto.
    + rewrite nth_error_app2; [|lia]. replace (S (length pre) - length pre) with 1 by lia. auto.
  - apply (IH s (pre ++ [a])); auto. rewrite <- app_assoc. auto.
Qed.

Lemma middles_le : forall (l : list R) ai, (forall x, In x l -> (x <= ai)%R) -> forall t, In t (@middles R_arith l) -> (t <= ai)%R.
Proof.
  induction l as [|a l IH]; intros ai H t Ht; [destruct Ht|]. destruct l as [|b l]; [destruct Ht|].
  cbn [middles] in Ht. destruct Ht as [<-|Ht].
  - assert (a <= ai)%R by (apply H; simpl; auto). assert (b <= ai)%R by (apply H; simpl; auto).
    change ((a + b) * / 2 <= ai)%R. lra.
  - apply (IH ai); auto. intros x Hx. apply H. right. auto.
Qed.

Lemma clip_id : forall ai (l : list R), (forall t, In t l -> (t <= ai)%R) -> map (@clip_max R_arith ai) l = l.
Proof.
  intros ai l H. rewrite <- (map_id l) at 2. apply map_ext_in. intros t Ht. unfold clip_max.
  replace (@altb R_arith ai t) with (Rltb ai t) by reflexivity. rewrite (proj2 (Rltb_false ai t)); auto.
Qed.

Lemma Forall2_weaken : forall {X Y} (Q Q' : X -> Y -> Prop) l l', (forall x y, Q x y -> Q' x y) -> Forall2 Q l l' -> Forall2 Q' l l'.
Proof. intros X Y Q Q' l l' H HF. induction HF; constructor; auto. Qed.

Lemma thresholds_low : forall ai (col : list R) mb thr, 0 < mb -> (forall x, In x col -> (x <= ai)%R) ->
  @find_binning_thresholds R_arith ai col mb = Ok thr ->
  Forall2 (fun t lo => forall x, In x col -> (t < x <-> lo < x)%R) thr (lows col mb).
Proof.
  intros ai col mb thr Hmb Hai H. unfold find_binning_thresholds in H. pose proof (filter_R col) as HF. change (num R_arith) with R in *.
  rewrite HF in H. clear HF. unfold lows. match type of H with context [if ?c then _ else _] => match goal with |- context [if ?d then _ else _] => change d with c; destruct c eqn:E end end.
  - cbn [bind] in H. injection H as <-. rewrite clip_id.
    2:{ intros t Ht. apply (middles_le (uniqueR col)); auto. intros x Hx. apply Hai. apply unique_iff. auto. }
    pose proof (middles_low (uniqueR col) (uniqueR col) [] eq_refl (sinc_ndec _ (unique_sinc col))) as HM.
    eapply Forall2_weaken; [|exact HM]. intros t lo HH x Hx. apply HH. apply unique_iff. auto.
  - apply bind_ok in H. destruct H as (mids & HM & H). injection H as <-.
    assert (Hlen : 0 < length (sortR col)).
    { destruct col as [|c col]; [simpl in E; destruct mb; [lia|discriminate]|]. simpl.
      pose proof (proj2 (sort_in (c :: col) c) (or_introl eq_refl)) as Hin. destruct (sortR (c :: col)) eqn:Ec; [destruct Hin|]. simpl in Ec. rewrite Ec. simpl. lia. }
    assert (HF : Forall2 (fun v lo => forall x, In x col -> (v < x <-> lo < x)%R) mids
              (map (fun k => nth ((length (sortR col) - 1) * k / mb) (sortR col) 0%R) (seq 1 (mb - 1))) /\
              forall v, In v mids -> (v <= ai)%R).
    { assert (Hk : forall k, In k (seq 1 (mb - 1)) -> k < mb) by (intros k Hk; apply in_seq in Hk; lia).
      revert mids HM Hk. generalize (seq 1 (mb - 1)). induction l as [|k l IH]; intros mids HM Hk; simpl in HM.
      - inversion HM. split; [constructor|intros v []].
      - apply bind_ok in HM. destruct HM as (v & Hv & HM). apply bind_ok in HM. destruct HM as (vs & Hvs & HM). inversion HM; subst mids.
        destruct (IH vs Hvs) as [IH1 IH2]; [intros; apply Hk; right; auto|].
        destruct (percentile_spec (sortR col) k mb Hlen Hmb (Hk k (or_introl eq_refl))) as (v' & Hv' & lo & hi & Hlo & Hcase).
        assert (v' = v) by congruence. subst v'.
        assert (Hin : forall x i, nth_error (sortR col) i = Some x -> In x col) by (intros x i Hx; apply sort_in; eapply nth_error_In; eauto).
        split.
        + simpl. constructor; auto. intros x Hx. match goal with |- _ <-> (?n < x)%R => replace n with lo by (symmetry; exact (nth_error_nth (sortR col) _ 0%R Hlo)) end.
          destruct Hcase as [->|(Hhi & _ & ->)]; [tauto|].
          eapply middle_low; [apply sort_ndec|exact Hlo| |apply sort_in; auto]. rewrite <- Nat.add_1_r. exact Hhi.
        + intros w [<-|Hw]; auto. pose proof (Hai lo (Hin _ _ Hlo)).
          destruct Hcase as [->|(Hhi & _ & ->)]; [auto|]. pose proof (Hai hi (Hin _ _ Hhi)). lra. }
    destruct HF as [HF1 HF2]. rewrite clip_id; auto.
Qed.

Lemma removelast_map : forall {X Y} (f : X -> Y) l, removelast (map f l) = map f (removelast l).
Proof. intros X Y f l. induction l as [|a l IH]; auto. destruct l as [|b l]; auto. cbn [map removelast] in *. rewrite IH. auto. Qed.

Lemma lows_in : forall col mb, 0 < length col -> 0 < mb -> forall lo, In lo (lows col mb) -> In lo col.
Proof.
  intros col mb Hc Hmb lo. unfold lows. destruct (_ <=? mb).
  - intro H. apply (unique_iff col lo). revert H. generalize (uniqueR col). clear. change (num R_arith) with R.
    intro l. induction l as [|a l IH]; auto. destruct l as [|b l]; [intros []|]. intros [H|H]; [left; auto|right; apply IH; auto].
  - intro H. apply in_map_iff in H. destruct H as (k & <- & Hk). apply in_seq in Hk. apply (sort_in col). apply nth_In.
    pose proof (@sort_num_length R_arith col) as E. change (num R_arith) with R in *. rewrite E.
    assert ((length col - 1) * k / mb <= length col - 1); [|lia]. apply Nat.div_le_upper_bound; [lia|]. nia.
Qed.

Lemma lows_map : forall P g, increasing_on P g -> forall col mb, Forall P col -> 0 < length col -> 0 < mb ->
  lows (map g col) mb = map g (lows col mb).
Proof.
  intros P g inc col mb Hc Hl Hmb. unfold lows.
  pose proof (unique_map P g inc col Hc) as E1. pose proof (sort_map P g inc col Hc) as E2.
  pose proof (@sort_num_length R_arith col) as E3.
  change (num R_arith) with R in *. rewrite E1, E2, !map_length. destruct (_ <=? mb); [apply removelast_map|].
  rewrite map_map. apply map_ext_in. intros k Hk. apply in_seq in Hk.
  assert ((length col - 1) * k / mb <= length col - 1) by (apply Nat.div_le_upper_bound; [lia|]; nia).
  rewrite (nth_indep _ 0%R (g 0%R)); [apply map_nth|]. rewrite map_length. change (num R_arith) with R in *. rewrite E3. lia.
Qed.

Lemma thresholds_recode : forall P g, increasing_on P g -> forall ai col mb, Forall P col -> 0 < mb ->
  (forall x, In x col -> (x <= ai)%R /\ (g x <= ai)%R) ->
  exists thr thr', @find_binning_thresholds R_arith ai col mb = Ok thr /\
    @find_binning_thresholds R_arith ai (map g col) mb = Ok thr' /\
    Forall2 (fun t t' => forall x, In x col -> Rleb (g x) t' = Rleb x t) thr thr'.
Proof.
  intros P g inc ai col mb Hc Hmb Hai.
  destruct (thresholds_spec ai col mb Hmb) as (thr & T1 & _). destruct (thresholds_spec ai (map g col) mb Hmb) as (thr' & T2 & _).
  exists thr, thr'. split; auto. split; auto.
  destruct (Nat.eq_dec (length col) 0) as [Hz|Hz].
  { apply length_zero_iff_nil in Hz. subst col. simpl in T2. assert (thr' = thr) by congruence. subst thr'. clear.
    induction thr; constructor; auto. intros x []. }
  pose proof (thresholds_low ai col mb thr Hmb (fun x Hx => proj1 (Hai x Hx)) T1) as L1.
  assert (Hai' : forall x, In x (map g col) -> (x <= ai)%R).
  { intros x Hx. apply in_map_iff in Hx. destruct Hx as (y & <- & Hy). apply Hai. auto. }
  pose proof (thresholds_low ai (map g col) mb thr' Hmb Hai' T2) as L2.
  rewrite (lows_map P g inc col mb Hc) in L2; [|lia|auto].
  pose proof (lows_in col mb ltac:(lia) Hmb) as Hin. clear T1 T2. revert thr' L2 Hin. induction L1 as [|t lo thr los H1 L1 IH]; intros thr' L2 Hin.
  - inversion L2. constructor.
  - inversion L2 as [|t' lo' thr2 los2 H2 L2' E1 E2]; subst. constructor.
    + intros x Hx. specialize (H1 x Hx). specialize (H2 (g x) (in_map g col x Hx)). rewrite Forall_forall in Hc.
      assert (Hlo : P lo) by (apply Hc; apply Hin; left; auto). pose proof (g_leb P g inc x lo (Hc x Hx) Hlo) as HG.
      destruct (Rleb x t) eqn:Ex.
      * apply Rleb_iff in Ex. apply Rleb_iff. destruct (Rle_or_lt (g x) t') as [|C]; auto. exfalso. apply H2 in C.
        assert (x <= lo)%R by (destruct (Rle_or_lt x lo) as [|C2]; auto; apply H1 in C2; lra).
        apply Rleb_iff in H. rewrite H in HG. apply Rleb_iff in HG. lra.
      * apply Rleb_false in Ex. apply Rleb_false. apply H2. apply H1 in Ex. apply inc; auto.
    + apply IH; auto. intros lo2 H. apply Hin. right. auto.
Qed.

(** ** The search of the bin only compares with the thresholds *)

Lemma find_bin_loop_ext : forall {A : arith} (x x' : num A) thr thr',
  Forall2 (fun t t' => aleb x' t' = aleb x t) thr thr' -> forall fuel l r, find_bin_loop fuel l r x' thr' = find_bin_loop fuel l r x thr.
Proof.
  intros A x x' thr thr' H. induction fuel as [|fuel IH]; intros l r; auto. cbn [find_bin_loop]. destruct (l <? r); auto.
  set (m := l + _). unfold get.
  assert (HN : match nth_error thr m, nth_error thr' m with Some t, Some t' => aleb x' t' = aleb x t | None, None => True | _, _ => False end).
  { generalize m. clear - H. induction H as [|t t' a b H1 H IH]; intros [|m]; simpl; auto. apply IH. }
  destruct (nth_error thr m), (nth_error thr' m); cbn [bind]; try contradiction; auto. rewrite HN. destruct (aleb x _); auto.
Qed.
Lemma bin_value_ext : forall {A : arith} (x x' : num A) thr thr' m, anan x' = anan x ->
  Forall2 (fun t t' => aleb x' t' = aleb x t) thr thr' -> bin_value thr' m x' = bin_value thr m x.
Proof.
  intros A x x' thr thr' m Hn H. unfold bin_value. rewrite Hn. destruct (anan x); auto.
  assert (E : length thr' = length thr) by (clear - H; induction H; simpl; auto). rewrite E. apply find_bin_loop_ext. auto.
Qed.

(** ** Columns *)

Definition same_res {X Y} (Q : X -> Y -> Prop) (m : res X) (m' : res Y) : Prop :=
  match m, m' with Ok x, Ok y => Q x y | Err e, Err e' => e' = e | _, _ => False end.

Lemma same_bind : forall {X Y X' Y'} (Q : X -> Y -> Prop) (Q' : X' -> Y' -> Prop) m m' f f', same_res Q m m' ->
  (forall x y, Q x y -> same_res Q' (f x) (f' y)) -> same_res Q' (bind m f) (bind m' f').
Proof. intros X Y X' Y' Q Q' [x|e] [y|e'] f f' H HF; simpl in *; try contradiction; auto. Qed.
Lemma same_mapM : forall {X Y X' Y'} (Q : X -> X' -> Prop) (Q' : Y -> Y' -> Prop) f f' l l', Forall2 Q l l' ->
  (forall x x', Q x x' -> same_res Q' (f x) (f' x')) -> same_res (Forall2 Q') (mapM f l) (mapM f' l').
Proof.
  intros X Y X' Y' Q Q' f f' l l' H HF. induction H as [|x x' l l' H0 H IH]; simpl; [constructor|].
  eapply same_bind; [apply HF; auto|]. intros y y' Hy. eapply same_bind; [exact IH|]. intros; simpl. constructor; auto.
Qed.
Lemma same_eq : forall {X} (m m' : res X), same_res eq m m' -> m' = m.
Proof. intros X [x|e] [y|e'] H; simpl in H; try contradiction; congruence. Qed.
Lemma same_refl : forall {X} (Q : X -> X -> Prop) m, (forall x, Q x x) -> same_res Q m m.
Proof. intros X Q [x|e] H; simpl; auto. Qed.

Section Cells.
Context (r32 : R -> R) (P : R -> Prop) (g : R -> R) (inc : increasing_on P g).
Notation V := (exact_values r32).
Notation cl := (cell R_arith).
Notation rc := (recode g).

Definition within (c : cl) : Prop := match c with CNum x => P x | _ => True end.

Lemma rc_isna : forall c, isna V (rc c) = isna V c.
Proof. intros [|x|s]; auto. Qed.
Lemma rc_veqb : forall a b, within a -> within b -> veqb V (rc a) (rc b) = veqb V a b.
Proof. intros [|x|s] [|y|t] Ha Hb; simpl in *; auto. rewrite !(g_leb P g inc) by auto. auto. Qed.
Lemma rc_vleb : forall a b, within a -> within b -> vleb V (rc a) (rc b) = vleb V a b.
Proof. intros [|x|s] [|y|t] Ha Hb; simpl in *; auto. apply (g_leb P g inc); auto. Qed.

Lemma rc_hasnans : forall l, hasnans V (map rc l) = hasnans V l.
Proof. unfold hasnans. induction l as [|c l IH]; auto. change (existsb (isna V) (map rc (c :: l))) with (isna V (rc c) || existsb (isna V) (map rc l)). rewrite rc_isna, IH. auto. Qed.
Lemma rc_dropna : forall l, dropna V (map rc l) = map rc (dropna V l).
Proof.
  unfold dropna. induction l as [|c l IH]; auto. cbn [map filter]. rewrite rc_isna. destruct (isna V c); cbn [negb]; [exact IH|]. cbn [map]. f_equal. exact IH.
Qed.
Lemma rc_existsb : forall x l, within x -> Forall within l -> existsb (veqb V (rc x)) (map rc l) = existsb (veqb V x) l.
Proof. intros x l Hx H. induction H as [|y l Hy H IH]; auto. cbn [map existsb]. rewrite rc_veqb, IH by auto. auto. Qed.
Lemma rc_distinct : forall l, Forall within l -> distinct V (map rc l) = map rc (distinct V l).
Proof.
  intros l H. induction H as [|y l Hy H IH]; auto. cbn [map distinct]. rewrite rc_existsb by auto. destruct (existsb (veqb V y) l); cbn [map]; auto. f_equal. auto.
Qed.
Lemma rc_insert : forall x l, within x -> Forall within l -> insert_val V (rc x) (map rc l) = map rc (insert_val V x l).
Proof.
  intros x l Hx H. induction H as [|y l Hy H IH]; auto. cbn [map insert_val]. rewrite rc_vleb by auto. destruct (vleb V x y); cbn [map]; auto. f_equal. auto.
Qed.
Lemma within_insert : forall x l, within x -> Forall within l -> Forall within (insert_val V x l).
Proof. intros x l Hx H. induction H as [|y l Hy H IH]; cbn [insert_val]; auto. destruct (vleb V x y); auto. Qed.
Lemma within_sort : forall l, Forall within l -> Forall within (sort_val V l).
Proof. intros l H. induction H; cbn [sort_val]; auto. apply within_insert; auto. Qed.
Lemma rc_sort : forall l, Forall within l -> sort_val V (map rc l) = map rc (sort_val V l).
Proof. intros l H. induction H as [|y l Hy H IH]; auto. cbn [map sort_val]. rewrite IH. apply rc_insert; auto. apply within_sort. auto. Qed.
Lemma within_distinct : forall l, Forall within l -> Forall within (distinct V l).
Proof. intros l H. induction H as [|y l Hy H IH]; cbn [distinct]; auto. destruct (existsb (veqb V y) l); auto. Qed.
Lemma within_dropna : forall l, Forall within l -> Forall within (dropna V l).
Proof. unfold dropna. intros l H. induction H as [|y l Hy H IH]; cbn [filter]; auto. destruct (negb _); auto. Qed.
Lemma rc_categories : forall l, Forall within l -> categories_of V (map rc l) = map rc (categories_of V l).
Proof.
  intros l H. unfold categories_of. rewrite rc_dropna, rc_distinct, rc_sort; auto using within_dropna, within_distinct.
Qed.
Lemma within_categories : forall l, Forall within l -> Forall within (categories_of V l).
Proof. intros. unfold categories_of. auto using within_sort, within_distinct, within_dropna. Qed.
Lemma rc_nunique : forall l, Forall within l -> nunique V (map rc l) = nunique V l.
Proof. intros l H. unfold nunique. rewrite rc_dropna, rc_distinct, map_length; auto using within_dropna. Qed.
Lemma rc_np_unique : forall k l, Forall within l -> np_unique_size V k (map rc l) = np_unique_size V k l.
Proof. intros k l H. unfold np_unique_size. destruct k; rewrite ?rc_nunique, ?rc_hasnans, ?rc_distinct, ?map_length by auto; auto. Qed.
Lemma rc_position : forall cats x, Forall within cats -> within x -> position V (map rc cats) (rc x) = position V cats x.
Proof. intros cats x H Hx. induction H as [|y l Hy H IH]; auto. cbn [map position]. rewrite rc_veqb, IH by auto. auto. Qed.
Lemma rc_code : forall cats x, Forall within cats -> within x -> code V (map rc cats) (rc x) = code V cats x.
Proof. intros. unfold code. rewrite rc_isna, rc_position by auto. auto. Qed.

(** Conversions to numbers. *)
Lemma rc_convert : forall l, convert V (as64 V) (map rc l) = map_res (map (option_map g)) (convert V (as64 V) l).
Proof.
  unfold convert. induction l as [|[|x|s] l IH]; auto; cbn [map mapM]; cbn [recode as64 exact_values cell_values bind]; try reflexivity;
  cbn [recode as64 exact_values cell_values] in IH; rewrite IH; match goal with |- context [map_res _ ?m] => destruct m end; auto.
Qed.
Lemma rc_numbers : forall l, numbers (map rc l) = map g (numbers l).
Proof. induction l as [|[|x|s] l IH]; simpl; auto. f_equal. auto. Qed.
Lemma within_numbers : forall l, Forall within l -> Forall P (numbers l).
Proof. intros l H. induction H as [|[|x|s] l Hx H IH]; simpl; auto. Qed.
End Cells.

(** ** Lists related index by index *)

Inductive F2i {X Y : Type} (Q : nat -> X -> Y -> Prop) : nat -> list X -> list Y -> Prop :=
| F2i_nil : forall n, F2i Q n [] []
| F2i_cons : forall n x y l l', Q n x y -> F2i Q (S n) l l' -> F2i Q n (x :: l) (y :: l').

Lemma F2i_mapM : forall {X Y X' Y'} (Q : nat -> X -> X' -> Prop) (Q' : nat -> Y -> Y' -> Prop) f f' n l l', F2i Q n l l' ->
  (forall i x x', Q i x x' -> same_res (Q' i) (f x) (f' x')) -> same_res (F2i Q' n) (mapM f l) (mapM f' l').
Proof.
  intros X Y X' Y' Q Q' f f' n l l' H HF. induction H as [|n x x' l l' H0 H IH]; simpl; [constructor|].
  eapply same_bind; [apply HF; eauto|]. intros y y' Hy. eapply same_bind; [exact IH|]. intros; simpl. constructor; auto.
Qed.
Lemma F2i_foldM : forall {X X' S} (Q : nat -> X -> X' -> Prop) (f : S -> X -> res S) (f' : S -> X' -> res S) n l l', F2i Q n l l' ->
  (forall i s x x', Q i x x' -> f' s x' = f s x) -> forall s, foldM f' l' s = foldM f l s.
Proof.
  intros X X' S Q f f' n l l' H HF. induction H as [|n x x' l l' H0 H IH]; intro s; cbn [foldM]; auto.
  rewrite (HF n s x x' H0). destruct (f s x); cbn [bind]; auto.
Qed.
Lemma F2i_enum : forall {X Y} (Q : nat -> X -> Y -> Prop) n l l', F2i Q n l l' ->
  F2i (fun i p p' => fst p = i /\ fst p' = i /\ Q i (snd p) (snd p')) n (combine (seq n (length l)) l) (combine (seq n (length l')) l').
Proof. intros X Y Q n l l' H. induction H; simpl; constructor; auto. Qed.
Lemma F2i_impl : forall {X Y} (Q Q' : nat -> X -> Y -> Prop) n l l', F2i Q n l l' -> (forall i x y, n <= i -> Q i x y -> Q' i x y) -> F2i Q' n l l'.
Proof. intros X Y Q Q' n l l' H. induction H; intros HQ; constructor; auto. apply IHF2i. intros i a b Hi. apply HQ. lia. Qed.
Lemma F2i_of : forall {X Y} (Q : X -> Y -> Prop) l l', Forall2 Q l l' -> forall n (pre : list X) (pre' : list Y), length pre = n -> length pre' = n ->
  F2i (fun i x y => nth_error (pre ++ l) i = Some x /\ nth_error (pre' ++ l') i = Some y /\ Q x y) n l l'.
Proof.
  intros X Y Q l l' H. induction H as [|x y l l' H0 H IH]; intros n pre pre' H1 H2; constructor.
  - rewrite nth_error_app2 by lia. rewrite nth_error_app2 by lia. rewrite H1, H2, Nat.sub_diag. auto.
  - specialize (IH (S n) (pre ++ [x]) (pre' ++ [y])). rewrite !app_length in IH. simpl in IH. rewrite <- !app_assoc in IH. apply IH; lia.
Qed.
Lemma F2i_nth : forall {X Y} (Q : nat -> X -> Y -> Prop) n l l', F2i Q n l l' -> forall i x, nth_error l i = Some x ->
  exists y, nth_error l' i = Some y /\ Q (n + i) x y.
Proof.
  intros X Y Q n l l' H. induction H as [|n x y l l' H0 H IH]; intros [|i] z Hz; try discriminate; simpl in *.
  - injection Hz as <-. exists y. rewrite Nat.add_0_r. auto.
  - rewrite Nat.add_succ_r. apply IH. auto.
Qed.
Lemma F2i_length : forall {X Y} (Q : nat -> X -> Y -> Prop) n l l', F2i Q n l l' -> length l' = length l.
Proof. intros X Y Q n l l' H. induction H; simpl; auto. Qed.
Lemma F2i_map : forall {X Y X' Y'} (f : X -> X') (f' : Y -> Y') (Q : nat -> X -> Y -> Prop) (Q' : nat -> X' -> Y' -> Prop) n l l', F2i Q n l l' ->
  (forall i x y, Q i x y -> Q' i (f x) (f' y)) -> F2i Q' n (map f l) (map f' l').
Proof. intros X Y X' Y' f f' Q Q' n l l' H HQ. induction H; simpl; constructor; auto. Qed.
Lemma F2i_map_eq : forall {X Y Z} (f : X -> Z) (f' : Y -> Z) (Q : nat -> X -> Y -> Prop) n l l', F2i Q n l l' ->
  (forall i x y, Q i x y -> f' y = f x) -> map f' l' = map f l.
Proof. intros X Y Z f f' Q n l l' H HQ. induction H as [|n x y l l' H0 H IH]; simpl; auto. f_equal; eauto. Qed.

(** ** What is learned, and the binned columns *)

Section Columns.
Context (r32 : R -> R) (NM : Type) (nm_eqb : NM -> NM -> bool) (EE : eenv (nan_arith R_arith)) (almost_inf : R).
Notation V := (exact_values r32).
Notation cl := (cell R_arith).
Context (names : forall a b, nm_eqb a b = true <-> a = b).
Context (cap : ee_almost_inf EE = Some almost_inf).

Definition crel (P : R -> Prop) (g : R -> R) (c c' : column V) : Prop :=
  in_bOSU (s_kind V c') = in_bOSU (s_kind V c) /\ in_uif (s_kind V c') = in_uif (s_kind V c) /\
  s_cells V c' = map (recode g) (s_cells V c) /\ s_cats V c' = option_map (map (recode g)) (s_cats V c) /\
  Forall (within P) (s_cells V c) /\ (forall l, s_cats V c = Some l -> Forall (within P) l).

Definition lrel (P : R -> Prop) (g : R -> R) (cells : list cl) (d d' : learned V) : Prop :=
  match d, d' with
  | LCat _ cats, LCat _ cats' => Forall (within P) cats /\ cats' = map (recode g) cats
  | LNum _ thr, LNum _ thr' => exists ts ts', thr = map Some ts /\ thr' = map Some ts' /\
      Forall2 (fun t t' => forall x, In x (numbers cells) -> Rleb (g x) t' = Rleb x t) ts ts'
  | _, _ => False
  end.

Definition both (c c' : column V) (d d' : learned V) : Prop :=
  exists P g, increasing_on P g /\ crel P g c c' /\ lrel P g (s_cells V c) d d'.

Definition capped (P : R -> Prop) (g : R -> R) : Prop := forall x, P x -> (x <= almost_inf)%R /\ (g x <= almost_inf)%R.

Lemma crel_cats : forall P g c c', increasing_on P g -> crel P g c c' -> crel P g (as_category V c) (as_category V c').
Proof.
  intros P g c c' inc (H1 & H2 & H3 & H4 & H5 & H6). unfold as_category. rewrite H4. destruct (s_cats V c) as [l|] eqn:E; cbn [option_map].
  - unfold crel. rewrite E. repeat split; auto.
  - unfold crel. cbn [s_kind s_cats s_cells]. repeat split; auto.
    + rewrite H3. cbn [option_map]. f_equal. apply (rc_categories r32 P g inc). auto.
    + intros l Hl. injection Hl as <-. apply within_categories. auto.
Qed.

Lemma learn_numerical_same : forall cf P g c c', increasing_on P g -> capped P g -> 0 < c_max_bins cf -> crel P g c c' ->
  same_res (lrel P g (s_cells V c)) (learn_numerical V EE cf None (s_cells V c)) (learn_numerical V EE cf None (s_cells V c')).
Proof.
  intros cf P g c c' inc Hcap Hmb (H1 & H2 & H3 & H4 & H5 & H6). unfold learn_numerical, take. cbn [bind]. rewrite H3.
  pose proof (rc_dropna r32 g (s_cells V c)) as E1. pose proof (rc_convert r32 g (dropna V (s_cells V c))) as E2.
  rewrite E1, E2. clear E1 E2.
  destruct (convert V (as64 V) (dropna V (s_cells V c))) as [xs|er] eqn:Ex; [|reflexivity].
  pose proof (somes_convert r32 (s_cells V c) xs Ex) as S1. cbn [bind map_res].
  rewrite cap.
  assert (S2 : somes (map (option_map g) xs) = map g (numbers (s_cells V c))).
  { rewrite <- S1. clear. change (num (nan_arith R_arith)) with (option R) in xs. induction xs as [|[x|] xs IH]; simpl; auto. f_equal. auto. }
  pose proof (thresholds_hom R_arith almost_inf xs (c_max_bins cf)) as T1.
  pose proof (thresholds_hom R_arith almost_inf (map (option_map g) xs) (c_max_bins cf)) as T2.
  change (num R_arith) with R in *. change (num (nan_arith R_arith)) with (option R) in *. rewrite S1 in T1. rewrite S2 in T2. rewrite T1, T2.
  destruct (thresholds_recode P g inc almost_inf (numbers (s_cells V c)) (c_max_bins cf) (within_numbers P _ H5) Hmb) as (ts & ts' & F1 & F2 & F3).
  { intros x Hx. apply Hcap. pose proof (within_numbers P _ H5) as HF. rewrite Forall_forall in HF. auto. }
  change (num R_arith) with R in *. rewrite F1, F2. cbn [map_res bind same_res lrel]. exists ts, ts'. auto.
Qed.

Lemma type_same : forall P g c c' flag cm, increasing_on P g -> crel P g c c' ->
  is_series_categorical V c' flag cm = is_series_categorical V c flag cm.
Proof.
  intros P g c c' flag cm inc (H1 & H2 & H3 & H4 & H5 & H6). unfold is_series_categorical. rewrite H1, H2, H3, H4.
  rewrite (rc_nunique r32 P g inc) by auto. destruct (s_cats V c); auto.
Qed.

Lemma learn_series_same : forall cf cm n j P g c c', increasing_on P g -> capped P g -> 0 < c_max_bins cf -> subset_of EE cf n = None ->
  crel P g c c' -> same_res (both c c') (learn_series V EE cf cm n j c) (learn_series V EE cf cm n j c').
Proof.
  intros cf cm n j P g c c' inc Hcap Hmb Hs H. unfold learn_series.
  eapply (same_bind eq); [apply same_refl; auto|]. intros flag ? <-. rewrite (type_same P g c c') by auto.
  eapply (same_bind eq); [apply same_refl; auto|]. intros t ? <-.
  assert (HC : forall b b', crel P g b b' -> s_cells V b = s_cells V c ->
     same_res (both c c') (match s_cats V b with Some cats => Ok (LCat V cats) | None => Err AttrErr end)
                          (match s_cats V b' with Some cats => Ok (LCat V cats) | None => Err AttrErr end)).
  { intros b b' (B1 & B2 & B3 & B4 & B5 & B6) _. rewrite B4. destruct (s_cats V b) as [l|]; cbn [option_map]; [|reflexivity].
    exists P, g. split; auto. split; auto. split; auto. }
  destruct t.
  - apply HC; auto.
  - apply HC; [apply crel_cats; auto|]. unfold as_category. destruct (s_cats V c); auto.
  - rewrite Hs. pose proof (learn_numerical_same cf P g c c' inc Hcap Hmb H) as HL.
    destruct (learn_numerical V EE cf None (s_cells V c)), (learn_numerical V EE cf None (s_cells V c')); simpl in *; auto.
    exists P, g. auto.
Qed.

Lemma plan_same : forall cf c c' d d' hm, both c c' d d' ->
  same_res (fun q q' => fst q' = fst q /\ both (snd q) (snd q') d d') (plan_column V cf d hm c) (plan_column V cf d' hm c').
Proof.
  intros cf c c' d d' hm (P & g & inc & HC & HL). unfold plan_column. destruct d as [cats|thr], d' as [cats'|thr']; cbn [lrel] in HL; try contradiction.
  - destruct HL as [HW ->]. pose proof (crel_cats P g c c' inc HC) as HA. destruct HA as (A1 & A2 & A3 & A4 & A5 & A6).
    rewrite A4.
    match goal with |- same_res _ (if ?u && _ then _ else _) (if ?u' && _ then _ else _) => assert (E : u' = u) end.
    { f_equal. destruct (s_cats V (as_category V c)) as [l|]; cbn [option_map]; [|reflexivity].
      specialize (A6 l eq_refl). clear - HW A6 inc. induction A6 as [|x l Hx Hl IH]; auto. cbn [map forallb]. rewrite IH. f_equal.
      clear - HW Hx inc. induction HW as [|y l Hy Hl IH]; auto. cbn [map existsb]. rewrite IH. rewrite (rc_veqb r32 P g inc) by auto. auto. }
    rewrite E. match goal with |- context [if ?u then _ else _] => destruct u end; [reflexivity|]. cbn [n_bins same_res fst snd]. rewrite map_length. split; auto.
    exists P, g. split; auto. split.
    + unfold crel. rewrite A4. repeat split; auto.
    + simpl. auto.
  - destruct HL as (ts & ts' & -> & -> & HF). cbn [n_bins same_res fst snd]. rewrite !map_length.
    assert (E : length ts' = length ts) by (clear - HF; induction HF; simpl; auto). rewrite E. split; auto.
    exists P, g. split; auto. split; auto. cbn [lrel]. eauto.
Qed.

Lemma bin_categorical_same : forall P g c c' cats, increasing_on P g -> crel P g c c' -> Forall (within P) cats ->
  bin_categorical V (map (recode g) cats) c' = bin_categorical V cats c.
Proof.
  intros P g c c' cats inc (H1 & H2 & H3 & H4 & H5 & H6) HW. unfold bin_categorical. rewrite H4, H3. destruct (s_cats V c); auto. cbn [option_map].
  f_equal. rewrite map_map, map_length. apply map_ext_in. intros x Hx. rewrite Forall_forall in H5. rewrite (rc_code r32 P g inc) by auto. auto.
Qed.

Lemma bin_numbers_same : forall g (cells : list cl) ts ts' m,
  Forall2 (fun t t' => forall x, In x (numbers cells) -> Rleb (g x) t' = Rleb x t) ts ts' ->
  (let* x := convert V (as64 V) (map (recode g) cells) in bin_continuous_column (A := nan_arith R_arith) x (map Some ts') m) =
  (let* x := convert V (as64 V) cells in bin_continuous_column (A := nan_arith R_arith) x (map Some ts) m).
Proof.
  intros g cells ts ts' m HF. rewrite rc_convert.
  assert (Hin : forall xs, convert V (as64 V) cells = Ok xs -> forall x, In (Some x) xs -> In x (numbers cells)).
  { clear HF. unfold convert. induction cells as [|[|y|s] cells IH]; intros xs H x Hx; simpl in H.
    - injection H as <-. destruct Hx.
    - apply bind_ok in H. destruct H as (ys & Hys & H). injection H as <-. destruct Hx as [Hx|Hx]; [discriminate|]. simpl. eauto.
    - apply bind_ok in H. destruct H as (ys & Hys & H). injection H as <-. destruct Hx as [Hx|Hx]; [injection Hx as <-; left; auto|]. right. eauto.
    - discriminate. }
  destruct (convert V (as64 V) cells) as [xs|]; [|reflexivity]. specialize (Hin xs eq_refl). cbn [map_res bind]. unfold bin_continuous_column.
  change (num (nan_arith R_arith)) with (option R) in *. clear - HF Hin.
  induction xs as [|x xs IH]; auto. cbn [map mapM]. rewrite IH by (intros; apply Hin; right; auto). f_equal.
  apply bin_value_ext; destruct x as [x|]; auto.
  - specialize (Hin x (or_introl eq_refl)). clear - HF Hin. induction HF as [|t t' ts ts' H HF IH]; simpl; constructor; auto.
  - clear - HF. induction HF as [|t t' ts ts' H HF IH]; simpl; constructor; auto.
Qed.

Lemma bin_series_same : forall c c' d d' mv, both c c' d d' -> bin_series V d' mv c' = bin_series V d mv c.
Proof.
  intros c c' d d' mv (P & g & inc & HC & HL). unfold bin_series. destruct d as [cats|thr], d' as [cats'|thr']; cbn [lrel] in HL; try contradiction.
  - destruct HL as [HW ->]. eapply bin_categorical_same; eauto.
  - destruct HL as (ts & ts' & -> & -> & HF). destruct HC as (H1 & H2 & H3 & H4 & H5 & H6). rewrite H4, H2, H3.
    destruct (s_cats V c); auto. cbn [option_map]. destruct (in_uif (s_kind V c)); auto. apply bin_numbers_same. auto.
Qed.
Lemma bin_array_same : forall k k' c c' d d' mv, in_uif k = true -> in_uif k' = true -> both c c' d d' ->
  bin_array_column V k' d' mv c' = bin_array_column V k d mv c.
Proof.
  intros k k' c c' d d' mv Hk Hk' (P & g & inc & HC & HL). unfold bin_array_column. destruct d as [cats|thr], d' as [cats'|thr']; cbn [lrel] in HL; try contradiction.
  - destruct HL as [HW ->]. eapply bin_categorical_same; eauto.
  - destruct HL as (ts & ts' & -> & -> & HF). destruct HC as (H1 & H2 & H3 & H4 & H5 & H6). rewrite Hk, Hk', H3. apply bin_numbers_same. auto.
Qed.

(** ** Tables *)

Notation data := (xdata V NM).

(** The columns of two tables, with what was learned. *)
Definition learned_alike (X X' : data) (cols cols' : list (learned V)) : Prop :=
  F2i (fun j (p p' : bool * column V) => fst p' = fst p /\
         exists d d', nth_error cols j = Some d /\ nth_error cols' j = Some d' /\ both (snd p) (snd p') d d') 0
      (todo_of V NM X) (todo_of V NM X').

Lemma good_crel : forall g cells cats k k', good_recoding almost_inf g cells cats -> in_bOSU k' = in_bOSU k -> in_uif k' = in_uif k ->
  exists P, increasing_on P g /\ capped P g /\
    crel P g (mkColumn V k cats cells) (mkColumn V k' (option_map (map (recode g)) cats) (map (recode g) cells)).
Proof.
  intros g cells cats k k' [H1 H2] Hb Hu. exists (number_of cells cats). split; auto. split; auto.
  unfold crel. cbn [s_kind s_cells s_cats]. repeat split; auto.
  - apply Forall_forall. intros [|x|s] Hx; simpl; auto. left. auto.
  - intros l Hl. apply Forall_forall. intros [|x|s] Hx; simpl; auto. right. exists l. auto.
Qed.

Lemma uif_bOSU : forall k, in_uif k = true -> in_bOSU k = false.
Proof. intros []; simpl; auto; discriminate. Qed.

Lemma no_missing : forall cells, hasnans V cells = false -> dropna V cells = cells.
Proof.
  unfold hasnans, dropna. induction cells as [|c l IH]; intro H; auto. cbn [existsb filter] in *. apply orb_false_iff in H. destruct H as [H1 H2].
  rewrite H1. cbn [negb]. f_equal. auto.
Qed.
Lemma np_unique_kinds : forall k k' cells, in_uif k = true -> in_uif k' = true -> k' = k \/ hasnans V cells = false ->
  np_unique_size V k' cells = np_unique_size V k cells.
Proof.
  intros k k' cells Hk Hk' [->|H]; auto. unfold np_unique_size, nunique. rewrite (no_missing cells H), H.
  destruct k, k'; try discriminate; auto; rewrite Nat.add_0_r; auto.
Qed.

Lemma F2i_conj : forall {X Y} (Q Q' : nat -> X -> Y -> Prop) n l l', F2i Q n l l' -> F2i Q' n l l' -> F2i (fun i x y => Q i x y /\ Q' i x y) n l l'.
Proof. intros X Y Q Q' n l l' H. induction H; intro H'; inversion H'; subst; constructor; auto. Qed.

Lemma F2i_back : forall {X Y X' Y'} (f : X -> res X') (f' : Y -> res Y') (Q : nat -> X -> Y -> Prop) (Q' : nat -> X -> Y -> X' -> Y' -> Prop) n l l' out,
  F2i Q n l l' -> (forall i x y, Q i x y -> same_res (Q' i x y) (f x) (f' y)) -> mapM f l = Ok out ->
  exists out', mapM f' l' = Ok out' /\
    forall pre pre', length pre = n -> length pre' = n ->
    F2i (fun i x y => exists z z', nth_error (pre ++ out) i = Some z /\ nth_error (pre' ++ out') i = Some z' /\ Q' i x y z z') n l l' /\ length out = length l /\ length out' = length l'.
Proof.
  intros X Y X' Y' f f' Q Q' n l l' out H HF. revert out. induction H as [|n x y l l' H0 H IH]; intros out Ho; cbn [mapM] in *.
  - injection Ho as <-. exists []. split; auto. intros. split; auto. constructor.
  - apply bind_ok in Ho. destruct Ho as (z & Hz & Ho). apply bind_ok in Ho. destruct Ho as (zs & Hzs & Ho). injection Ho as <-.
    specialize (HF n x y H0). rewrite Hz in HF. destruct (f' y) as [z'|] eqn:Ez'; [|contradiction]. cbn [same_res] in HF.
    destruct (IH zs Hzs) as (zs' & Hzs' & IH'). rewrite Hzs'. cbn [bind]. exists (z' :: zs'). split; auto.
    intros pre pre' H1 H2. specialize (IH' (pre ++ [z]) (pre' ++ [z'])). rewrite !app_length in IH'. cbn [length] in IH'.
    rewrite <- !app_assoc in IH'. cbn [app] in IH'. destruct IH' as (I1 & I2 & I3); [lia|lia|].
    split; [|simpl; lia]. constructor; auto. exists z, z'. rewrite !nth_error_app2 by lia. rewrite H1, H2, Nat.sub_diag. auto.
Qed.

Lemma map_enum : forall {X Y} (h : X -> Y) l n, map (fun p => h (snd p)) (combine (seq n (length l)) l) = map h l.
Proof. intros X Y h l. induction l as [|x l IH]; intro n; simpl; auto. f_equal. auto. Qed.
Lemma map_combine : forall {X Y Z} (h : Y -> Z) (a : list X) l, length a = length l -> map (fun p => h (snd p)) (combine a l) = map h l.
Proof. intros X Y Z h a. induction a as [|x a IH]; intros [|y l] H; simpl in *; try discriminate; auto. f_equal. auto. Qed.
Lemma F2i_combine : forall {X Y Z} (Q : nat -> X -> Y -> Prop) n l l', F2i Q n l l' -> forall a : list Z, length a = length l ->
  F2i (fun i p p' => fst p' = fst p /\ Q i (snd p) (snd p')) n (combine a l) (combine a l').
Proof. intros X Y Z Q n l l' H. induction H; intros [|z a] Ha; simpl in *; try discriminate; constructor; auto. Qed.

Lemma learn_array_same : forall cf n k k' P g c cat, increasing_on P g -> capped P g -> 0 < c_max_bins cf -> subset_of EE cf n = None ->
  crel P g (mkColumn V k None c) (mkColumn V k' None (map (recode g) c)) ->
  same_res (both (mkColumn V k None c) (mkColumn V k' None (map (recode g) c)))
    (learn_array_column V EE cf n cat c) (learn_array_column V EE cf n cat (map (recode g) c)).
Proof.
  intros cf n k k' P g c cat inc Hcap Hmb Hs H. unfold learn_array_column. destruct cat.
  - simpl. exists P, g. split; auto. split; auto. destruct H as (_ & _ & _ & _ & H5 & _). split; [apply within_categories; auto|].
    apply (rc_categories r32 P g inc). auto.
  - rewrite Hs. pose proof (learn_numerical_same cf P g _ _ inc Hcap Hmb H) as HL. cbn [s_cells] in HL.
    destruct (learn_numerical V EE cf None c), (learn_numerical V EE cf None (map (recode g) c)); simpl in *; auto.
    exists P, g. auto.
Qed.

Lemma dtypes_same : forall k k' flags cm cols cols', in_uif k = true -> in_uif k' = true ->
  (k' = k \/ forall c, In c cols -> hasnans V c = false) -> Forall2 (recoded_cells almost_inf) cols cols' ->
  get_array_dtypes V k' cols' flags cm = get_array_dtypes V k cols flags cm.
Proof.
  intros k k' flags cm cols cols' Hk Hk' Hm HF. unfold get_array_dtypes. rewrite Hk, Hk', (uif_bOSU k Hk), (uif_bOSU k' Hk').
  assert (HL : length cols' = length cols) by (clear - HF; induction HF; simpl; auto).
  destruct flags as [fl|].
  - unfold enumerate. change (val V) with cl in *. rewrite HL. assert (E : forall a : list nat, length a = length cols ->
      mapM (fun p : nat * list cl => let* flag := geti fl (fst p) in if flag : bool then Ok true else Ok false) (combine a cols') =
      mapM (fun p : nat * list cl => let* flag := geti fl (fst p) in if flag : bool then Ok true else Ok false) (combine a cols)).
    { clear - HF. induction HF as [|c c' l l' H HF IH]; intros [|z a] Ha; simpl in *; try discriminate; auto. rewrite IH by lia. auto. }
    apply E. apply seq_length.
  - clear HL. induction HF as [|c c' l l' (g & [G1 G2] & ->) HF IH]; auto. cbn [mapM].
    rewrite (np_unique_kinds k k' (map (recode g) c)); auto.
    + rewrite (rc_np_unique r32 (number_of c None) g G1).
      * rewrite IH; auto. destruct Hm as [Hm|Hm]; auto. right. intros d Hd. apply Hm. right. auto.
      * apply Forall_forall. intros [|x|s] Hx; simpl; auto. left. auto.
    + destruct Hm as [Hm|Hm]; auto. right. rewrite rc_hasnans. apply Hm. left. auto.
Qed.

Lemma learn_same : forall cf cm (X X' : data) cols, recoded r32 NM almost_inf X X' -> 0 < c_max_bins cf ->
  subset_of EE cf (fst (shape V NM X)) = None -> learn V NM EE cf cm X = Ok cols ->
  exists cols', learn V NM EE cf cm X' = Ok cols' /\ learned_alike X X' cols cols' /\
    length cols = snd (shape V NM X) /\ length cols' = snd (shape V NM X).
Proof.
  intros cf cm X X' cols HR Hmb Hs H. unfold learned_alike.
  destruct X as [n cs|k n cs| |], X' as [n' cs'|k' n' cs'| |]; simpl in HR; try contradiction; cbn [learn shape fst snd] in *.
  - destruct HR as [-> HR]. pose proof (F2i_enum _ _ _ _ (F2i_of _ _ _ HR 0 [] [] eq_refl eq_refl)) as HE. unfold enumerate in *.
    destruct (F2i_back (fun p => learn_series V EE cf cm n (fst p) (snd (snd p))) (fun p => learn_series V EE cf cm n (fst p) (snd (snd p))) _
      (fun _ p p' z z' => fst p' = fst p /\ hasnans V (s_cells V (snd (snd p'))) = hasnans V (s_cells V (snd (snd p))) /\ both (snd (snd p)) (snd (snd p')) z z') _ _ _ cols HE) as (cols' & E1 & E2); [|exact H|].
    + intros i p p' (I1 & I2 & _ & _ & J1 & J2 & J3 & g & G1 & G2 & G3). rewrite I1, I2.
      destruct p as [? [? c]], p' as [? [? c']]. cbn [fst snd] in *. subst.
      destruct (good_crel g (s_cells V c) (s_cats V c) (s_kind V c) (s_kind V c') G1 J2 J3) as (P & inc & Hc & HC).
      rewrite <- G2, <- G3 in HC. destruct c as [a1 a2 a3], c' as [b1 b2 b3]. cbn [s_kind s_cats s_cells] in *.
      pose proof (learn_series_same cf cm n i P g _ _ inc Hc Hmb Hs HC) as HL.
      destruct (learn_series V EE cf cm n i _) as [z|], (learn_series V EE cf cm n i _) as [z'|]; simpl in *; auto.
      split; auto. split; auto. rewrite G2. apply rc_hasnans.
    + exists cols'. split; auto. destruct (E2 [] [] eq_refl eq_refl) as (E3 & E4 & E5). cbn [app] in E3.
      rewrite !combine_length, !seq_length, !Nat.min_id in *.
      assert (HL : length cs' = length cs) by (clear - HR; induction HR; simpl; auto).
      split; [|lia]. cbn [todo_of]. unfold frame_columns.
      rewrite <- (map_enum (fun p : NM * column V => (hasnans V (s_cells V (snd p)), snd p)) cs 0).
      rewrite <- (map_enum (fun p : NM * column V => (hasnans V (s_cells V (snd p)), snd p)) cs' 0).
      eapply F2i_map; [exact E3|]. intros i p p' (z & z' & Z1 & Z2 & Z3 & Z4 & Z5). cbn [fst snd]. split; auto. exists z, z'. auto.
  - destruct HR as (-> & Hk & Hk' & Hm & HR). rewrite (dtypes_same k k' _ cm cs cs' Hk Hk' Hm HR).
    apply bind_ok in H. destruct H as (cats & Hcats & H). rewrite Hcats. cbn [bind]. apply get_array_dtypes_length in Hcats.
    pose proof (F2i_combine _ _ _ _ (F2i_of _ _ _ HR 0 [] [] eq_refl eq_refl) cats Hcats) as HE.
    destruct (F2i_back (fun p => learn_array_column V EE cf n (fst p) (snd p)) (fun p => learn_array_column V EE cf n (fst p) (snd p)) _
      (fun _ p p' z z' => hasnans V (snd p') = hasnans V (snd p) /\ both (mkColumn V k None (snd p)) (mkColumn V k' None (snd p')) z z') _ _ _ cols HE) as (cols' & E1 & E2); [|exact H|].
    + intros i [cat c] [cat' c'] (I1 & _ & _ & g & G1 & G2). cbn [fst snd] in *. subst cat' c'.
      assert (Hb : in_bOSU k' = in_bOSU k) by (rewrite !uif_bOSU; auto). assert (Hu : in_uif k' = in_uif k) by congruence.
      destruct (good_crel g c None k k' G1 Hb Hu) as (P & inc & Hc & HC). cbn [option_map] in HC.
      pose proof (learn_array_same cf n k k' P g c cat inc Hc Hmb Hs HC) as HL. change (val V) with cl in *.
      destruct (learn_array_column V EE cf n cat c) as [z|], (learn_array_column V EE cf n cat (map (recode g) c)) as [z'|]; simpl in *; auto.
      split; auto. apply rc_hasnans.
    + exists cols'. split; auto. destruct (E2 [] [] eq_refl eq_refl) as (E3 & E4 & E5). cbn [app] in E3.
      rewrite !combine_length in *. assert (HL : length cs' = length cs) by (clear - HR; induction HR; simpl; auto).
      split; [|change (val V) with cl in *; lia]. cbn [todo_of]. unfold array_columns.
      rewrite <- (map_combine (fun c : list (val V) => (in_uif k && hasnans V c, mkColumn V k None c)) cats cs Hcats).
      rewrite <- (map_combine (fun c : list (val V) => (in_uif k' && hasnans V c, mkColumn V k' None c)) cats cs') by (change (val V) with cl in *; lia).
      eapply F2i_map; [exact E3|]. intros i p p' (z & z' & Z1 & Z2 & Z4 & Z5). cbn [fst snd]. rewrite Hk, Hk', Z4. split; auto. exists z, z'. auto.
Qed.

Lemma encode_same : forall cf cols cols' n bin bin' todo todo',
  F2i (fun j (p p' : bool * column V) => fst p' = fst p /\
         exists d d', nth_error cols j = Some d /\ nth_error cols' j = Some d' /\ both (snd p) (snd p') d d') 0 todo todo' ->
  (forall c c' d d' mv, both c c' d d' -> bin' d' mv c' = bin d mv c) ->
  encode V EE cf cols' bin' n todo' = encode V EE cf cols bin n todo.
Proof.
  intros cf cols cols' n bin bin' todo todo' H HB. unfold encode.
  assert (HP : same_res (F2i (fun j q q' => fst q' = fst q /\ exists d d', nth_error cols j = Some d /\ nth_error cols' j = Some d' /\ both (snd q) (snd q') d d') 0)
    (mapM (fun p => let* d := geti cols (fst p) in plan_column V cf d (fst (snd p)) (snd (snd p))) (enumerate todo))
    (mapM (fun p => let* d := geti cols' (fst p) in plan_column V cf d (fst (snd p)) (snd (snd p))) (enumerate todo'))).
  { eapply F2i_mapM; [apply (F2i_enum _ _ _ _ H)|]. intros i p p' (I1 & I2 & I3 & d & d' & D1 & D2 & D3).
    rewrite I1, I2. unfold geti. rewrite D1, D2. cbn [bind]. rewrite I3.
    pose proof (plan_same cf _ _ d d' (fst (snd p)) D3) as HQ.
    destruct (plan_column V cf d _ _) as [q|], (plan_column V cf d' _ _) as [q'|]; simpl in *; auto.
    destruct HQ as [Q1 Q2]. split; auto. exists d, d'. auto. }
  destruct (mapM _ (enumerate todo)) as [plan|], (mapM _ (enumerate todo')) as [plan'|]; simpl in HP; try contradiction; [|subst; reflexivity].
  cbn [bind]. assert (E : map fst plan' = map fst plan) by (eapply F2i_map_eq; [exact HP|]; intros i x y (E & _); exact E).
  rewrite E. destruct (fba_init (ee_mem EE) n (map fst plan)) as [fb|]; [|reflexivity]. cbn [bind]. unfold fill_columns, enumerate.
  eapply F2i_foldM.
  - apply F2i_enum. eapply (F2i_map snd snd _ (fun j c c' => exists d d', nth_error cols j = Some d /\ nth_error cols' j = Some d' /\ both c c' d d')); [exact HP|]. intros i x y (_ & HH). exact HH.
  - intros i s x x' (I1 & I2 & d & d' & D1 & D2 & D3). rewrite I1, I2. unfold geti. rewrite D1, D2. cbn [bind].
    destruct (nth_error (map fst plan) i); auto. cbn [bind]. rewrite (HB _ _ _ _ n0 D3). auto.
Qed.

Lemma recoded_shape : forall X X' : data, recoded r32 NM almost_inf X X' -> shape V NM X' = shape V NM X.
Proof.
  intros [n cs|k n cs| |] [n' cs'|k' n' cs'| |] H; simpl in *; try contradiction; f_equal; try apply H.
  - destruct H as (_ & H). clear - H. induction H; simpl; auto.
  - destruct H as (_ & _ & _ & _ & H). clear - H. induction H; simpl; auto.
Qed.
Lemma recoded_check : forall X X' : data, recoded r32 NM almost_inf X X' -> forall fl nf, check_X V NM X' fl nf = check_X V NM X fl nf.
Proof.
  intros X X' H fl nf. unfold check_X. rewrite (recoded_shape X X' H).
  destruct X as [n cs|k n cs| |], X' as [n' cs'|k' n' cs'| |]; simpl in H; try contradiction; auto.
  destruct H as (_ & Hk & Hk' & _). rewrite Hk, Hk', !orb_true_r. auto.
Qed.

(** The main result: the binned training data do not change. *)
Lemma fit_transform_same : forall cf (X X' : data) e, recoded r32 NM almost_inf X X' -> clean V X -> clean V X' -> 0 < c_max_bins cf ->
  subset_of EE cf (fst (shape V NM X)) = None -> fit V NM EE cf (new_encoder V) X = (e, Ok tt) ->
  exists e', fit V NM EE cf (new_encoder V) X' = (e', Ok tt) /\
    e_n_samples V e' = e_n_samples V e /\ e_n_features V e' = e_n_features V e /\
    option_map (map (is_cat V)) (e_cols V e') = option_map (map (is_cat V)) (e_cols V e) /\
    transform V NM nm_eqb EE cf e' X' = transform V NM nm_eqb EE cf e X.
Proof.
  intros cf X X' e HR Hc Hc' Hmb Hs H. unfold fit in *. rewrite (recoded_check X X' HR), (recoded_shape X X' HR).
  destruct (check_X V NM X (c_is_categorical cf) None) eqn:Eck; [|discriminate].
  destruct (shape V NM X) as [n p] eqn:Es. destruct (n =? 0); [discriminate|]. destruct (p =? 0); [discriminate|].
  destruct (cat_min_of EE cf n) as [cm|]; cbn [bind] in *; [|discriminate].
  destruct (learn V NM EE cf cm X) as [cols|] eqn:El; [|discriminate]. injection H as <-.
  destruct (learn_same cf cm X X' cols HR Hmb) as (cols' & L1 & L2 & L3 & L4); auto. { rewrite Es. exact Hs. }
  rewrite L1. eexists. split; [reflexivity|]. cbn [e_n_samples e_n_features e_cols]. split; auto. split; auto. split.
  - cbn [option_map]. f_equal. rewrite Es in L3, L4. cbn [snd] in L3, L4.
    apply nth_error_ext. intro j. rewrite !nth_error_map.
    destruct (nth_error cols j) as [d|] eqn:Ej.
    + assert (Hj : j < length cols) by (apply nth_error_Some; congruence).
      destruct (nth_error (todo_of V NM X) j) as [q|] eqn:Eq; [|apply nth_error_None in Eq; rewrite todo_length, Es in Eq; simpl in Eq; lia].
      destruct (F2i_nth _ _ _ _ L2 j q Eq) as (q' & _ & _ & d0 & d' & D1 & D2 & D3). cbn [Nat.add] in D1, D2. rewrite D2.
      assert (d0 = d) by congruence. subst d0. destruct D3 as (P & g & _ & _ & HL). destruct d, d'; simpl in *; auto; contradiction.
    + apply nth_error_None in Ej. destruct (nth_error cols' j) eqn:Ej'; auto. exfalso.
      assert (j < length cols') by (apply nth_error_Some; congruence). lia.
  - rewrite (transform_eq V NM nm_eqb EE names cf (mkEncoder V true (Some n) (Some p) (Some cols)) X cols eq_refl eq_refl Hc).
    rewrite (transform_eq V NM nm_eqb EE names cf (mkEncoder V true (Some n) (Some p) (Some cols')) X' cols' eq_refl eq_refl Hc'). cbn [e_n_features].
    rewrite (recoded_check X X' HR), (recoded_shape X X' HR).
    destruct (check_X V NM X (c_is_categorical cf) (Some p)); auto. cbn [bind].
    destruct X as [m cs|k m cs| |], X' as [m' cs'|k' m' cs'| |]; simpl in HR; try contradiction.
    + apply encode_same; [exact L2|]. intros. apply bin_series_same. auto.
    + apply encode_same; [exact L2|]. intros. apply bin_array_same; auto; apply HR.
Qed.
End Columns.
