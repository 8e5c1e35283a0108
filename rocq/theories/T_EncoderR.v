(** * Property theorems: the Encoder in exact arithmetic (C03, C04, C05, C07, C09)

    Cells are real numbers, missing values and strings (Cells.v). The thresholds then are
    ordered, so that the theorems of T_Encoder.v apply to all columns. *)

Require Import List Arith NArith ZArith Bool Lia Reals Lra.
Require Import Verif.Base Verif.Num Verif.M_Bitarray Verif.P_Bitarray Verif.M_Binning Verif.P_Binning Verif.P_BinningR
  Verif.T_Binning Verif.M_Encoder Verif.S_Encoder Verif.P_Encoder Verif.Cells Verif.T_Encoder.
Import ListNotations.
Local Open Scope nat_scope.

(** The numbers of a column. *)
Fixpoint numbers (l : list (cell R_arith)) : list R :=
  match l with [] => [] | CNum x :: t => x :: numbers t | _ :: t => numbers t end.

Lemma numbers_In : forall l x, In x (numbers l) <-> In (CNum x : cell R_arith) l.
Proof.
  induction l as [|[|y|s] l IH]; simpl; intro x; [tauto| | |]; rewrite IH; split; intros H; try tauto.
  - destruct H as [H|H]; [discriminate|auto].
  - destruct H as [->|H]; auto.
  - destruct H as [H|H]; [inversion H; auto|auto].
  - destruct H as [H|H]; [discriminate|auto].
Qed.

Section Exact.
Context (r32 : R -> R) (NM : Type) (nm_eqb : NM -> NM -> bool) (EE : eenv (nan_arith R_arith)) (almost_inf : R).
Notation V := (exact_values r32).
Context (names : forall a b, nm_eqb a b = true <-> a = b).
Context (choices : forall n k, k < n -> length (ee_choice EE n k) = k).
Context (cap : ee_almost_inf EE = Some almost_inf).
Notation fit := (fit V NM EE).
Notation transform := (transform V NM nm_eqb EE).
Notation data := (xdata V NM).
Notation rows X := (fst (shape V NM X)).
Notation columns X := (snd (shape V NM X)).

Lemma somes_convert : forall (cells : list (cell R_arith)) (xs : list (option R)),
  convert V (as64 V) (dropna V cells) = Ok xs -> somes xs = numbers cells.
Proof.
  unfold convert. induction cells as [|[|x|s] cells IH]; intros xs H; simpl in H.
  - inversion H. auto.
  - apply IH. auto.
  - destruct (mapM _ _) as [ys|] eqn:E; [|discriminate]. cbn [bind] in H. inversion H; subst xs. simpl. f_equal. apply IH. auto.
  - discriminate.
Qed.

Lemma learn_num : forall cf cm (X : data) cols j thr col, learn V NM EE cf cm X = Ok cols ->
  nth_error cols j = Some (LNum V thr) -> column_at V X j = Some col ->
  exists sample, take V (subset_of EE cf (rows X)) (s_cells V col) = Ok sample /\
    exists ts, find_binning_thresholds (A := R_arith) almost_inf (numbers sample) (c_max_bins cf) = Ok ts /\ thr = map Some ts.
Proof.
  intros cf cm X cols j thr col H Hj Hc.
  assert (Hnum : forall n cells, learn_numerical V EE cf (subset_of EE cf n) cells = Ok (LNum V thr) ->
     exists sample, take V (subset_of EE cf n) cells = Ok sample /\
     exists ts, find_binning_thresholds (A := R_arith) almost_inf (numbers sample) (c_max_bins cf) = Ok ts /\ thr = map Some ts).
  { intros n cells E. unfold learn_numerical in E. apply bind_ok in E. destruct E as (sample & E1 & E).
    apply bind_ok in E. destruct E as (xs & E2 & E). apply bind_ok in E. destruct E as (thr' & E3 & E). inversion E; subst thr'.
    exists sample. split; auto. rewrite cap in E3.
    pose proof (thresholds_hom R_arith almost_inf xs (c_max_bins cf)) as Hh. change (num R_arith) with R in Hh.
    pose proof (somes_convert sample xs E2) as Hsc. change (num R_arith) with R in *. change (num (nan_arith R_arith)) with (option R) in *.
    rewrite Hsc in Hh. rewrite Hh in E3.
    destruct (find_binning_thresholds almost_inf (numbers sample) (c_max_bins cf)) as [ts|]; [|discriminate].
    simpl in E3. inversion E3. exists ts. auto. }
  destruct X as [n cs|k n cs| |]; cbn [learn column_at] in H, Hc; try discriminate.
  - destruct (nth_error cs j) as [p|] eqn:Ep; [|discriminate]. inversion Hc; subst col.
    destruct (mapM_ok _ _ _ H) as [_ HN]. destruct (HN j (j, p)) as (d & Hd & Ed). { apply nth_error_enumerate; auto. }
    assert (d = LNum V thr) by congruence. subst d. cbn [fst snd] in Ed. unfold learn_series in Ed.
    apply bind_ok in Ed. destruct Ed as (fl & _ & Ed). apply bind_ok in Ed. destruct Ed as (t & _ & Ed).
    destruct t; [| |apply Hnum; auto].
    + destruct (s_cats V (snd p)); inversion Ed.
    + destruct (s_cats V (as_category V (snd p))); inversion Ed.
  - destruct (nth_error cs j) as [c|] eqn:Ep; [|discriminate]. inversion Hc; subst col. cbn [s_cells shape fst].
    apply bind_ok in H. destruct H as (fl & Hfl & H). destruct (mapM_ok _ _ _ H) as [_ HN].
    apply get_array_dtypes_length in Hfl.
    assert (j < length cs) by (apply nth_error_Some; congruence).
    destruct (nth_error fl j) as [b|] eqn:Eb; [|apply nth_error_None in Eb; lia].
    destruct (HN j (b, c)) as (d & Hd & Ed). { apply nth_error_combine; auto. }
    assert (d = LNum V thr) by congruence. subst d. cbn [fst snd] in Ed. unfold learn_array_column in Ed.
    destruct b; [inversion Ed|apply Hnum; auto].
Qed.

(** C04 for the Encoder: the thresholds of a numerical column are numbers, sorted, not above
    the cap, and there are as many as documented. [sample] is the whole column unless there
    are more rows than [subsample]. *)
Theorem C04_encoder_thresholds : forall cf e0 (X0 : data) e cols j thr col,
  fit cf e0 X0 = (e, Ok tt) -> e_cols V e = Some cols -> 0 < c_max_bins cf ->
  nth_error cols j = Some (LNum V thr) -> column_at V X0 j = Some col ->
  exists sample ts,
    (forall x, In x sample -> In x (s_cells V col)) /\
    (match c_subsample cf with Some k => rows X0 <= k | None => True end -> sample = s_cells V col) /\
    thr = map Some ts /\
    length ts = Nat.min (length (nodup Req_EM_T (numbers sample))) (c_max_bins cf) - 1 /\
    (forall i k s t, i <= k -> nth_error ts i = Some s -> nth_error ts k = Some t -> (s <= t)%R) /\
    (forall t, In t ts -> (t <= almost_inf)%R).
Proof.
  intros cf e0 X0 e cols j thr col H2 H3 Hmb Hj Hc.
  destruct (fit_inv V NM EE _ _ _ _ H2) as (cols' & cm & _ & F & _ & [_ G] & _). assert (cols' = cols) by congruence. subst cols'.
  destruct (learn_num _ _ _ _ _ _ _ G Hj Hc) as (sample & Hs & ts & Hts & ->).
  destruct (C04_thresholds_sorted_and_few almost_inf (numbers sample) (c_max_bins cf) Hmb) as (ts' & E & P1 & P2 & P3).
  assert (ts' = ts) by congruence. subst ts'. exists sample, ts.
  split; [|split; [|split; [auto|split; [auto|split; auto]]]].
  - intros x Hx. unfold subset_of in Hs. destruct (c_subsample cf) as [k|]; [|inversion Hs; subst; auto].
    destruct (k <? rows X0); [|inversion Hs; subst; auto]. cbn [take] in Hs. destruct (mapM_ok _ _ _ Hs) as [HL HN].
    apply In_nth_error in Hx. destruct Hx as [i Hi].
    assert (Hil : i < length (ee_choice EE (rows X0) k)) by (rewrite <- HL; apply nth_error_Some; congruence).
    destruct (nth_error (ee_choice EE (rows X0) k) i) as [q|] eqn:Eq; [|apply nth_error_None in Eq; lia].
    destruct (HN i q Eq) as (x' & Hx' & Ex). assert (x' = x) by congruence. subst x'. apply geti_ok in Ex. eapply nth_error_In; eauto.
  - intros Hsub. unfold subset_of in Hs. destruct (c_subsample cf) as [k|]; [|inversion Hs; auto].
    destruct (Nat.ltb_spec k (rows X0)); [lia|]. inversion Hs; auto.
Qed.

Lemma exact_ordered : forall cf e0 (X0 : data) e cols, fit cf e0 X0 = (e, Ok tt) -> e_cols V e = Some cols -> 0 < c_max_bins cf ->
  ordered V cols /\ forall thr t, In (LNum V thr) cols -> In t thr -> anan t = false.
Proof.
  intros cf e0 X0 e cols H2 H3 Hmb.
  assert (G : forall thr, In (LNum V thr) cols -> exists ts, thr = map Some ts /\
            (forall i k s t, i <= k -> nth_error ts i = Some s -> nth_error ts k = Some t -> (s <= t)%R)).
  { intros thr Hin. apply In_nth_error in Hin. destruct Hin as [j Hj].
    destruct (fit_inv V NM EE _ _ _ _ H2) as (cols' & cm & _ & F & _ & [_ G] & _). assert (cols' = cols) by congruence. subst cols'.
    assert (Hcol : exists col, column_at V X0 j = Some col).
    { assert (Hl : j < length cols) by (apply nth_error_Some; congruence).
      destruct X0 as [n cs|k n cs| |]; cbn [learn] in G; try discriminate; cbn [column_at].
      - apply mapM_length in G. rewrite enumerate_length in G. destruct (nth_error cs j) eqn:E; [simpl; eauto|apply nth_error_None in E; lia].
      - apply bind_ok in G. destruct G as (fl & Hfl & G). apply get_array_dtypes_length in Hfl.
        apply mapM_length in G. rewrite combine_length in G. destruct (nth_error cs j) eqn:E; [simpl; eauto|apply nth_error_None in E; lia]. }
    destruct Hcol as [col Hcol].
    destruct (C04_encoder_thresholds _ _ _ _ _ _ _ _ H2 H3 Hmb Hj Hcol) as (sample & ts & _ & _ & -> & _ & P & _). eauto. }
  split; [split|].
  - apply exact_trans.
  - intros thr Hin i k s t Hik Hi Hk. destruct (G thr Hin) as (ts & -> & P).
    apply nth_error_map_inv in Hi. destruct Hi as (s' & Hi & ->). apply nth_error_map_inv in Hk. destruct Hk as (t' & Hk & ->).
    simpl. apply Rleb_iff. apply (P i k s' t'); auto. lia.
  - intros thr t Hin Ht. destruct (G thr Hin) as (ts & -> & P). apply in_map_iff in Ht. destruct Ht as (t' & <- & _). reflexivity.
Qed.

(** C07, without condition on the thresholds. *)
Theorem C07_exact : forall cf e0 (X0 : data) e cols (X : data) fb,
  data_ok V X0 -> fit cf e0 X0 = (e, Ok tt) -> e_cols V e = Some cols -> 0 < c_max_bins cf ->
  data_ok V X -> clean V X -> transform cf e X = Ok fb ->
  forall i j, i < rows X -> j < columns X -> exists x d b,
    cell_at V X i j = Some x /\ nth_error cols j = Some d /\ get_value fb i j = Ok (N.of_nat b) /\
    documented_bin V (reading V X) d x b.
Proof.
  intros cf e0 X0 e cols X fb H1 H2 H3 Hmb H4 H5 H6 i j Hi Hj.
  destruct (C07_encoded_bins_fit V (exact_good r32) NM nm_eqb EE names choices _ _ _ _ _ _ _ H1 H2 H3 H4 H5 H6) as (_ & _ & _ & G).
  destruct (G i j Hi Hj) as (x & d & mv & b & A1 & A2 & _ & A4 & _ & A6). exists x, d, b.
  split; auto. split; auto. split; auto. apply A6. left. apply (exact_ordered cf e0 X0 e); auto.
Qed.

(** C09, without condition on the thresholds: the round trip never raises and gives back
    what it should, if each categorical column had a category at fit. *)
Theorem C09_exact : forall cf e0 (X0 : data) e cols (X : data) fb,
  data_ok V X0 -> fit cf e0 X0 = (e, Ok tt) -> e_cols V e = Some cols -> 0 < c_max_bins cf ->
  data_ok V X -> clean V X -> transform cf e X = Ok fb -> ~ In (LCat V []) cols ->
  exists out, inverse_transform V e fb = Ok out /\ length out = columns X /\
  forall i j x, cell_at V X i j = Some x -> exists d col o,
    nth_error cols j = Some d /\ nth_error out j = Some col /\ length col = rows X /\ nth_error col i = Some o /\
    gives_back V (reading V X) d x o /\
    (o = ONaN V <-> isna V x = true \/ exists cats, d = LCat V cats /\ ~ known V cats x).
Proof.
  intros cf e0 X0 e cols X fb H1 H2 H3 Hmb H4 H5 H6 Hne.
  destruct (exact_ordered cf e0 X0 e cols H2 H3 Hmb) as [O1 O2].
  destruct (C09_total V (exact_good r32) NM nm_eqb EE names choices _ _ _ _ _ _ _ H1 H2 H3 H4 H5 H6 O1 O2 Hne) as [out Ho].
  exists out. split; auto.
  destruct (C09_inverse V (exact_good r32) NM nm_eqb EE names choices _ _ _ _ _ _ _ _ H1 H2 H3 H4 H5 H6 Ho) as [G1 G2].
  split; auto. intros i j x Hx. destruct (G2 i j x Hx) as (d & col & o & B1 & B2 & B3 & B4 & B5).
  exists d, col, o. destruct (B5 (or_introl O1)) as [B6 B7]. split; auto.
Qed.

(** C05 for the Encoder: when a numerical column has at most [max_bins] different values, two
    of them get the same bin only if they are equal. *)
Theorem C05_encoder_separates : forall cf e0 (X : data) e cols fb j thr col i i' x y v v',
  data_ok V X -> clean V X -> fit cf e0 X = (e, Ok tt) -> e_cols V e = Some cols -> 0 < c_max_bins cf ->
  match X with XArray _ _ k _ _ => in_uif k = true | _ => True end ->
  match c_subsample cf with Some k => rows X <= k | None => True end ->
  transform cf e X = Ok fb ->
  nth_error cols j = Some (LNum V thr) -> column_at V X j = Some col ->
  length (nodup Req_EM_T (numbers (s_cells V col))) <= c_max_bins cf ->
  (forall z, In z (numbers (s_cells V col)) -> (z <= almost_inf)%R) ->
  nth_error (s_cells V col) i = Some (CNum x) -> nth_error (s_cells V col) i' = Some (CNum y) ->
  get_value fb i j = Ok v -> get_value fb i' j = Ok v' ->
  (v = v' <-> x = y).
Proof.
  intros cf e0 X e cols fb j thr col i i' x y v v' H1 H1' H2 H3 Hmb Hk Hsub H6 Hj Hc Hfew Hcap Hx Hy Gv Gv'.
  destruct (fit_inv V NM EE _ _ _ _ H2) as (cols' & cm & _ & F & _ & [_ G] & _). assert (cols' = cols) by congruence. subst cols'.
  destruct (learn_num _ _ _ _ _ _ _ G Hj Hc) as (sample & Hs & ts & Hts & ->).
  assert (sample = s_cells V col).
  { unfold subset_of in Hs. destruct (c_subsample cf) as [k|]; [|inversion Hs; auto].
    destruct (Nat.ltb_spec k (rows X)); [lia|]. inversion Hs; auto. }
  subst sample. clear Hs. set (l := numbers (s_cells V col)) in *.
  destruct (C05_few_values_separated almost_inf l (c_max_bins cf) 0 Hmb Hfew Hcap) as (ts' & out & E1 & E2 & E3).
  assert (ts' = ts) by congruence. subst ts'.
  destruct (exact_ordered cf e0 X e cols H2 H3 Hmb) as [O1 _].
  assert (Hord : forall a b s t, a < b -> nth_error ts a = Some s -> nth_error ts b = Some t -> @aleb R_arith s t = true).
  { intros a b s t Hab Ha Hb. apply (proj2 O1 (map Some ts) (nth_error_In _ _ Hj) a b (Some s) (Some t) Hab); apply map_nth_error; auto. }
  destruct (C03_bins_are_intervals R_arith l ts 0 R_trans Hord) as (out' & E4 & _ & E5). assert (out' = out) by congruence. subst out'.
  assert (Hbin : forall q z w, nth_error (s_cells V col) q = Some (CNum z) -> get_value fb q j = Ok w ->
            exists b r, w = N.of_nat b /\ nth_error l r = Some z /\ nth_error out r = Some b).
  { intros q z w Hq Hw.
    assert (Hcell : cell_at V X q j = Some (CNum z)) by (unfold cell_at; rewrite Hc; auto).
    destruct (cell_at_lt V NM X q j _ H1 Hcell) as [L1 L2].
    destruct (C07_exact _ _ _ _ _ _ _ H1 H2 H3 Hmb H1 H1' H6 q j L1 L2) as (z' & d & b & B1 & B2 & B3 & B4).
    assert (z' = CNum z) by congruence. subst z'. assert (d = LNum V (map Some ts)) by congruence. subst d.
    assert (Hz : In z l) by (apply numbers_In; eapply nth_error_In; eauto). apply In_nth_error in Hz. destruct Hz as [r Hr].
    destruct (E5 r z Hr) as (b' & Hb' & _ & Hin). specialize (Hin eq_refl).
    exists b', r. split; [|split; auto].
    rewrite B3 in Hw. inversion Hw. f_equal. destruct B4 as [[B4 _]|(_ & u & Hu & Hle & B4)]; [discriminate|].
    assert (Hu' : u = Some z).
    { destruct X as [n cs|kk n cs| |]; simpl in Hu; try rewrite Hk in Hu; simpl in Hu; inversion Hu; auto. }
    subst u. rewrite map_length in Hle. destruct Hin as [Hle' Hin].
    change (num R_arith) with R in *.
    destruct (lt_eq_lt_dec b b') as [[L|L]|L]; auto; exfalso.
    - destruct (nth_error ts b) as [t|] eqn:Et; [|apply nth_error_None in Et; lia].
      pose proof (proj1 (Hin b t Et) L) as Q1. pose proof (proj2 (B4 b (Some t) (map_nth_error Some _ _ Et)) (le_n _)) as Q2.
      simpl in Q1, Q2. congruence.
    - destruct (nth_error ts b') as [t|] eqn:Et; [|apply nth_error_None in Et; lia].
      pose proof (proj2 (Hin b' t Et) (le_n _)) as Q1. pose proof (proj1 (B4 b' (Some t) (map_nth_error Some _ _ Et)) L) as Q2.
      simpl in Q1, Q2. congruence. }
  destruct (Hbin i x v Hx Gv) as (b & r & -> & Hr & Hb). destruct (Hbin i' y v' Hy Gv') as (b' & r' & -> & Hr' & Hb').
  rewrite <- (E3 r r' x y b Hr Hr' Hb). split.
  - intros E. apply Nat2N.inj in E. congruence.
  - intros E. f_equal. congruence.
Qed.
End Exact.
Print Assumptions C04_encoder_thresholds.
Print Assumptions C07_exact.
Print Assumptions C09_exact.
Print Assumptions C05_encoder_separates.
