(** * C65: artificial signals *)

Require Import String List Arith ZArith Lia Reals Lra SpecFloat Sorting.Sorted Sorting.Permutation.
Require Import Verif.Num Verif.M_Signals Verif.S_Signals Verif.Base.
Import ListNotations.
Local Notation length := List.length.
Local Open Scope R_scope.

Definition R_math : math R_arith := mkMath R_arith sin sqrt PI.

Ltac onR := match goal with |- @eq _ ?a ?b => change (@eq R a b) end.

(** ** The raw signals *)
Lemma dec_R : forall n d, @dec R_arith n d = IZR (Z.of_nat n) / IZR (Z.of_nat d).
Proof. intros n d. unfold dec. cbn. rewrite !INR_IZR_INZ. reflexivity. Qed.
Lemma sign_sgn : forall x, @sign R_arith x = sgn x.
Proof.
  intros x. unfold sign, sgn. cbn. unfold Rltb. destruct (Rlt_dec 0 x); [reflexivity|]. destruct (Rlt_dec x 0); [reflexivity|]. lra.
Qed.
Lemma absval_R : forall x, @absval R_arith x = Rabs x.
Proof. intros x. unfold absval, Rabs. cbn. unfold Rltb. destruct (Rlt_dec x 0), (Rcase_abs x); try reflexivity; lra. Qed.

Lemma heavisine_R : forall t, @heavisine R_arith R_math t = 4 * sin (4 * PI * t) - sgn (t - 0.3) - sgn (0.72 - t).
Proof.
  intros t. unfold heavisine. rewrite !sign_sgn, !dec_R. cbn [amul asub aofnat m_sin m_pi R_arith R_math]. rewrite !INR_IZR_INZ. cbn [Z.of_nat Pos.of_succ_nat Pos.succ].
  reflexivity.
Qed.
Lemma doppler_R : forall t, @doppler R_arith R_math t = sqrt (t * (1 - t)) * sin (2 * PI * (1 + 0.05) / (t + 0.05)) + / 2.
Proof.
  intros t. unfold doppler. rewrite !dec_R. cbn [amul asub aadd adiv aofnat a1 ahalf m_sin m_sqrt m_pi R_arith R_math].
  rewrite !INR_IZR_INZ. cbn [Z.of_nat Pos.of_succ_nat Pos.succ]. f_equal. f_equal. f_equal. f_equal. f_equal. lra.
Qed.

Lemma block_term : forall t p h, (1 + sgn (t - p)) * (h / 2) = step_at t p h.
Proof.
  intros t p h. unfold sgn, step_at. destruct (Rlt_dec 0 (t - p)), (Rlt_dec p t); try lra; destruct (Rlt_dec (t - p) 0), (Rlt_dec t p); lra.
Qed.
Lemma blocks_R : forall t, @blocks R_arith t = donoho "blocks" t + 2.
Proof.
  intros t. unfold donoho. cbn [String.eqb Ascii.eqb Bool.eqb]. unfold blocks, blocks_table. cbn [fold_left fst snd]. rewrite !sign_sgn. unfold ndec. rewrite !dec_R.
  cbn [amul asub aadd adiv aopp aofnat a1 R_arith]. rewrite !INR_IZR_INZ. cbn [Z.of_nat Pos.of_succ_nat Pos.succ]. rewrite !block_term.
  replace (- (42 / 10)) with (-4.2) by lra. replace (- (31 / 10)) with (-3.1) by lra. cbn [positions block_heights combine map fst snd sum].
  change (2 + step_at t 0.1 4 + step_at t 0.13 (-5) + step_at t 0.15 3 + step_at t 0.23 (-4) + step_at t 0.25 5 + step_at t 0.4 (-4.2) + step_at t 0.44 2.1
    + step_at t 0.65 4.3 + step_at t 0.76 (-3.1) + step_at t 0.78 2.1 + step_at t 0.81 (-4.2)
    = step_at t 0.1 4 + (step_at t 0.13 (-5) + (step_at t 0.15 3 + (step_at t 0.23 (-4) + (step_at t 0.25 5 + (step_at t 0.4 (-4.2) + (step_at t 0.44 2.1
    + (step_at t 0.65 4.3 + (step_at t 0.76 (-3.1) + (step_at t 0.78 2.1 + (step_at t 0.81 (-4.2) + 0)))))))))) + 2).
  repeat match goal with |- context [step_at t ?a ?b] => generalize (step_at t a b); intro end. onR. ring.
Qed.

Lemma bump_term : forall t p h w, 0 < w -> h / @fourth R_arith (1 + @absval R_arith (t - p) / w) = h / (1 + Rabs ((t - p) / w)) ^ 4.
Proof.
  intros t p h w Hw. rewrite absval_R.
  assert (@fourth R_arith (1 + Rabs (t - p) / w) = (1 + Rabs ((t - p) / w)) ^ 4) as E; [|rewrite E; reflexivity].
  unfold Rdiv. rewrite Rabs_mult, (Rabs_pos_eq (/ w)); [|left; apply Rinv_0_lt_compat; exact Hw]. unfold fourth. onR. unfold amul, R_arith. ring.
Qed.
Lemma bumps_R : forall t, @bumps R_arith t = donoho "bumps" t.
Proof.
  intros t. unfold donoho. cbn [String.eqb Ascii.eqb Bool.eqb]. unfold bumps, bumps_table. cbn [fold_left fst snd]. rewrite !dec_R.
  cbn [asub aadd adiv aofnat a0 a1 R_arith]. rewrite !INR_IZR_INZ. cbn [Z.of_nat Pos.of_succ_nat Pos.succ].
  change (IZR (Z.of_nat 0)) with 0. rewrite !bump_term by lra.
  cbn [positions bump_heights bump_widths combine map fst snd sum].
  set (b := fun p h w => h / (1 + Rabs ((t - p) / w)) ^ 4).
  change (0 + b 0.1 4 0.005 + b 0.13 5 0.005 + b 0.15 3 0.006 + b 0.23 4 0.01 + b 0.25 5 0.01 + b 0.4 4.2 0.03 + b 0.44 2.1 0.01 + b 0.65 4.3 0.01
    + b 0.76 3.1 0.005 + b 0.78 5.1 0.008 + b 0.81 4.2 0.005 =
    b 0.1 4 0.005 + (b 0.13 5 0.005 + (b 0.15 3 0.006 + (b 0.23 4 0.01 + (b 0.25 5 0.01 + (b 0.4 4.2 0.03 + (b 0.44 2.1 0.01 + (b 0.65 4.3 0.01
    + (b 0.76 3.1 0.005 + (b 0.78 5.1 0.008 + (b 0.81 4.2 0.005 + 0))))))))))).
  clearbody b. repeat match goal with |- context [b ?x ?y ?z] => generalize (b x y z); intro end. onR. ring.
Qed.

(** The model's signals are Donoho's, up to a constant. *)
Definition offset (name : string) : R := if String.eqb name "blocks" then 2 else if String.eqb name "doppler" then / 2 else 0.
Lemma raw_donoho : forall name t, @raw_signal R_arith R_math name t = donoho name t + offset name.
Proof.
  intros name t. unfold raw_signal, offset.
  destruct (String.eqb_spec name "heavisine") as [->|H1]; [rewrite heavisine_R; unfold donoho; cbn [String.eqb Ascii.eqb Bool.eqb]; onR; ring|].
  destruct (String.eqb_spec name "bumps") as [->|H2]; [rewrite bumps_R; cbn [String.eqb Ascii.eqb Bool.eqb]; onR; ring|].
  destruct (String.eqb_spec name "blocks") as [->|H3]; [apply blocks_R|].
  destruct (String.eqb_spec name "doppler") as [->|H4]; [apply doppler_R|].
  rewrite heavisine_R. unfold donoho. destruct (String.eqb_spec name "bumps"); [contradiction|]. destruct (String.eqb_spec name "blocks"); [contradiction|].
  destruct (String.eqb_spec name "doppler"); [contradiction|]. onR. ring.
Qed.

(** ** Rescaling *)
Lemma fold_min : forall t y, let m := fold_left (fun m y => if Rltb y m then y else m) t y in In m (y :: t) /\ forall v, In v (y :: t) -> m <= v.
Proof.
  induction t as [|z t IH]; intros y; cbv zeta; cbn [fold_left].
  - split; [left; reflexivity|]. intros v [<-|[]]. apply Rle_refl.
  - specialize (IH (if Rltb z y then z else y)). cbv zeta in IH. destruct IH as [I1 I2]. set (m := fold_left _ t _) in *. clearbody m. unfold Rltb in I1, I2. destruct (Rlt_dec z y) as [Hz|Hz].
    + split; [right; exact I1|]. intros v [<-|Hv]; [|apply I2; exact Hv]. pose proof (I2 z (or_introl eq_refl)). lra.
    + split; [destruct I1 as [->|I1]; [left; reflexivity|right; right; exact I1]|]. intros v [<-|[<-|Hv]]; [apply I2; left; reflexivity| |apply I2; right; exact Hv].
      pose proof (I2 y (or_introl eq_refl)). lra.
Qed.
Lemma fold_max : forall t y, let m := fold_left (fun m y => if Rltb m y then y else m) t y in In m (y :: t) /\ forall v, In v (y :: t) -> v <= m.
Proof.
  induction t as [|z t IH]; intros y; cbv zeta; cbn [fold_left].
  - split; [left; reflexivity|]. intros v [<-|[]]. apply Rle_refl.
  - specialize (IH (if Rltb y z then z else y)). cbv zeta in IH. destruct IH as [I1 I2]. set (m := fold_left _ t _) in *. clearbody m. unfold Rltb in I1, I2. destruct (Rlt_dec y z) as [Hz|Hz].
    + split; [right; exact I1|]. intros v [<-|Hv]; [|apply I2; exact Hv]. pose proof (I2 z (or_introl eq_refl)). lra.
    + split; [destruct I1 as [->|I1]; [left; reflexivity|right; right; exact I1]|]. intros v [<-|[<-|Hv]]; [apply I2; left; reflexivity| |apply I2; right; exact Hv].
      pose proof (I2 y (or_introl eq_refl)). lra.
Qed.

Lemma rescale_R : forall y u v, In u y -> In v y -> u <> v -> exists lo hi, lo < hi /\ In lo y /\ In hi y /\ (forall w, In w y -> lo <= w <= hi) /\
  @rescale R_arith y = Ok (map (fun w => (w - lo) / (hi - lo)) y).
Proof.
  intros [|y0 y] u v Hu Hv Huv; [destruct Hu|]. destruct (fold_min y y0) as [A1 A2]. destruct (fold_max y y0) as [B1 B2].
  exists (fold_left (fun m y => if Rltb y m then y else m) y y0), (fold_left (fun m y => if Rltb m y then y else m) y y0).
  split; [|split; [exact A1|split; [exact B1|split; [split; [apply A2; exact H|apply B2; exact H]|reflexivity]]]].
  pose proof (A2 u Hu). pose proof (A2 v Hv). pose proof (B2 u Hu). pose proof (B2 v Hv).
  destruct (Rtotal_order u v) as [H3|[H3|H3]]; [lra|contradiction|lra].
Qed.

(** The values of the signal are those of Donoho's signal after an increasing affine change of
    unit; they are in [0, 1], and both 0 and 1 are among them. *)
Theorem C65_get_signal : forall name x u v, In u x -> In v x -> donoho name u <> donoho name v ->
  exists y a b, get_signal R_math x name = Ok y /\ 0 < a /\ y = map (fun t => a * donoho name t + b) x /\
    (forall w, In w y -> 0 <= w <= 1) /\ In 0 y /\ In 1 y.
Proof.
  intros name x u v Hu Hv Huv. unfold get_signal.
  destruct (rescale_R (map (raw_signal R_math name) x) (raw_signal R_math name u) (raw_signal R_math name v)) as (lo & hi & H1 & H2 & H3 & H4 & H5).
  - apply in_map. exact Hu.
  - apply in_map. exact Hv.
  - rewrite !raw_donoho. lra.
  - rewrite H5. set (y := map (fun w : R => (w - lo) / (hi - lo)) (map (raw_signal R_math name) x)). exists y, (/ (hi - lo)), ((offset name - lo) / (hi - lo)).
    assert (0 < / (hi - lo)) as Hp by (apply Rinv_0_lt_compat; lra).
    split; [reflexivity|]. split; [exact Hp|]. split; [|split; [|split]].
    + unfold y. rewrite map_map. apply map_ext. intros t. rewrite raw_donoho. unfold Rdiv. onR. ring.
    + intros w Hw. unfold y in Hw. apply in_map_iff in Hw. destruct Hw as (z & <- & Hz). destruct (H4 z Hz) as [Hl Hh]. split.
      * apply Rmult_le_pos; lra.
      * replace 1 with ((hi - lo) * / (hi - lo)) by (apply Rinv_r; lra). apply Rmult_le_compat_r; lra.
    + unfold y. apply in_map_iff. exists lo. split; [unfold Rdiv; ring|exact H2].
    + unfold y. apply in_map_iff. exists hi. split; [apply Rinv_r; lra|exact H3].
Qed.

Theorem C65_empty : forall (A : arith) (M : math A) name, get_signal M [] name = Err ValueErr.
Proof. reflexivity. Qed.


(** ** The regression dataset *)
Lemma insert_perm : forall x l, Permutation (@insert_num R_arith x l) (x :: l).
Proof.
  intros x l. induction l as [|y t IH]; cbn [insert_num]; [reflexivity|]. destruct (altb y x); [|reflexivity]. rewrite IH. apply perm_swap.
Qed.
Lemma sort_perm : forall l, Permutation (@sort_num R_arith l) l.
Proof. induction l as [|x t IH]; cbn [sort_num]; [reflexivity|]. rewrite insert_perm. constructor. exact IH. Qed.
Lemma insert_sorted : forall x l, StronglySorted Rle l -> StronglySorted Rle (@insert_num R_arith x l).
Proof.
  intros x l H. induction H as [|y t H IH Hy]; cbn [insert_num]; [repeat constructor|]. cbn. unfold Rltb. destruct (Rlt_dec y x) as [Hx|Hx].
  - constructor; [exact IH|]. rewrite Forall_forall in *. intros z Hz. apply (Permutation_in z (insert_perm x t)) in Hz. destruct Hz as [<-|Hz]; [lra|apply Hy; exact Hz].
  - constructor; [constructor; assumption|]. constructor; [lra|]. rewrite Forall_forall in *. intros z Hz. specialize (Hy z Hz). lra.
Qed.
Lemma sort_sorted : forall l, StronglySorted Rle (@sort_num R_arith l).
Proof. induction l as [|x t IH]; cbn [sort_num]; [constructor|]. apply insert_sorted. exact IH. Qed.

Lemma nth_mix : forall (c : R) (s e : list R) i, length s = length e -> (i < length s)%nat ->
  nth i (map (fun p => fst p + c * snd p) (combine s e)) 0 = nth i s 0 + c * nth i e 0.
Proof.
  intros c s. induction s as [|x s IH]; intros [|y e] i Hl Hi; cbn in *; try lia. destruct i as [|i]; [reflexivity|]. apply IH; lia.
Qed.

(** The inputs are the uniform draws in increasing order, one per row; a label is the signal at
    the input of its row plus the noise. *)
Theorem C65_make_regression : forall G n name noise seed (g : @g_state R_arith G) X y g', make_regression R_math G n name noise seed g = (Ok (X, y), g') ->
  let start := match seed with Some s => g_seed G s | None => g end in
  exists x s e, X = map (fun v => [v]) x /\ Permutation x (fst (g_uniform G n start)) /\ StronglySorted Rle x /\
    get_signal R_math x name = Ok s /\ e = fst (g_randn G n (snd (g_uniform G n start))) /\
    (length (fst (g_uniform G n start)) = n -> length e = n -> length X = n /\ length y = n /\
       forall i, (i < n)%nat -> nth i y 0 = nth i s 0 + noise * nth i e 0).
Proof.
  intros G n name noise seed g X y g' H start. unfold make_regression in H. fold start in H. destruct (g_uniform G n start) as [u g1] eqn:Hu. cbn [fst snd].
  destruct (get_signal R_math (sort_num u) name) as [s|er] eqn:Hs; [|discriminate]. destruct (g_randn G n g1) as [e g2] eqn:He. inversion H; subst X y g'.
  exists (sort_num u), s, e. split; [reflexivity|]. split; [apply sort_perm|]. split; [apply sort_sorted|]. split; [exact Hs|]. split; [reflexivity|].
  intros Hn Hm. pose proof (Permutation_length (sort_perm u)) as HL.
  assert (length s = n) as Hl.
  { unfold get_signal, rescale in Hs. destruct (minimum (map (raw_signal R_math name) (sort_num u))); [|discriminate].
    destruct (maximum (map (raw_signal R_math name) (sort_num u))); [|discriminate]. inversion Hs. rewrite !map_length. exact (eq_trans HL Hn). }
  rewrite !map_length, combine_length. split; [exact (eq_trans HL Hn)|]. split; [exact (eq_trans (f_equal2 Nat.min Hl Hm) (Nat.min_id n))|]. intros i Hi.
  apply (nth_mix noise s e i); [exact (eq_trans Hl (eq_sym Hm))|]. exact (eq_ind_r (fun m => (i < m)%nat) Hi Hl).
Qed.

(** With a seed, nothing depends on the state of the generator before the call: not the data,
    and not the state after the call. Hence the caller's generator is reset. *)
Theorem C65_seed : forall (A : arith) (M : math A) G n name noise seed g g',
  make_regression M G n name noise (Some seed) g = make_regression M G n name noise (Some seed) g'.
Proof. reflexivity. Qed.

(** ** One input *)
Definition is_nan (x : spec_float) : Prop := x = S754_nan.
Lemma sub_self : forall v, SFsub 53 1024 v v = S754_nan \/ exists s, SFsub 53 1024 v v = S754_zero s.
Proof.
  intros [s|s| |s m e].
  - right. destruct s; eexists; reflexivity.
  - left. destruct s; reflexivity.
  - left. reflexivity.
  - right. unfold SFsub. rewrite Z.sub_diag. eexists. reflexivity.
Qed.

(** False in double precision for a constant signal, in particular for one input: the value is
    not a number, whatever the input and the signal. *)
Theorem C65_one_input_refuted : forall lnf expf (M : math (F64 lnf expf)) x name, get_signal M [x] name = Ok [S754_nan].
Proof.
  intros lnf expf M x name. unfold get_signal. cbn [map]. generalize (raw_signal M name x). intros v. unfold rescale, minimum, maximum. cbn [fold_left bind map].
  f_equal. f_equal. change (SFdiv 53 1024 (SFsub 53 1024 v v) (SFsub 53 1024 v v) = S754_nan).
  destruct (sub_self v) as [->|[s ->]]; reflexivity.
Qed.

(** ** The hypotheses can be met *)
Example C65_applies : In 0 [0; 0.3; 0.5; 1] /\ In 0.5 [0; 0.3; 0.5; 1] /\ donoho "heavisine" 0 <> donoho "heavisine" 0.5 /\ donoho "blocks" 0 = 0 /\ donoho "blocks" 0.5 = 0.9.
Proof.
  split; [left; reflexivity|]. split; [right; right; left; reflexivity|]. split; [|split].
  - unfold donoho. cbn [String.eqb Ascii.eqb Bool.eqb]. replace (4 * PI * 0) with 0 by ring. replace (4 * PI * 0.5) with (0 + 2 * INR 1 * PI) by (cbn; lra).
    rewrite sin_period, sin_0. unfold sgn. repeat match goal with |- context [Rlt_dec ?a ?b] => destruct (Rlt_dec a b); try lra end.
  - unfold donoho. cbn [String.eqb Ascii.eqb Bool.eqb positions block_heights combine map fst snd sum]. unfold step_at.
    repeat match goal with |- context [Rlt_dec ?a ?b] => destruct (Rlt_dec a b); [lra|] end. 
    repeat match goal with |- context [Rlt_dec ?a ?b] => destruct (Rlt_dec a b); [|lra] end. lra.
  - unfold donoho. cbn [String.eqb Ascii.eqb Bool.eqb positions block_heights combine map fst snd sum]. unfold step_at.
    repeat match goal with |- context [Rlt_dec ?a ?b] => destruct (Rlt_dec a b); try (exfalso; lra) end. lra.
Qed.
Definition two_draws : @generator R_arith :=
  @mkGenerator R_arith nat (fun s => s) (fun n g => (map (fun i => / INR (i + 2)) (seq g n), (g + n)%nat)) (fun n g => (repeat 1 n, (g + n)%nat)).
Example C65_make_regression_applies : exists X y g', make_regression R_math two_draws 2 "blocks" (1/2) (Some 0%nat) 5%nat = (Ok (X, y), g').
Proof. unfold make_regression. cbn. destruct (Rltb _ _); eexists _, _, _; reflexivity. Qed.
Print Assumptions C65_get_signal.
Print Assumptions C65_empty.
Print Assumptions C65_make_regression.
Print Assumptions C65_seed.
Print Assumptions C65_one_input_refuted.
