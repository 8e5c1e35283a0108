(** * Proofs: the encoding of a row depends on this row only *)

Require Import List Arith NArith ZArith Bool Lia.
Require Import Verif.Base Verif.Num Verif.M_Bitarray Verif.P_Bitarray Verif.M_Binning Verif.P_Binning
  Verif.M_Encoder Verif.S_Encoder Verif.P_Encoder Verif.S_Rows.
Import ListNotations.
Local Open Scope nat_scope.

Section P.
Context {A : arith} (V : values A) (NM : Type) (nm_eqb : NM -> NM -> bool) (EE : eenv A) (GV : good_values V).
Context (names : forall a b, nm_eqb a b = true <-> a = b).
Context (choices : forall n k, k < n -> length (ee_choice EE n k) = k).
Notation val := (val V).

(** The bin that the code computes, which is a function of the cell. *)
Definition exact_bin (read : val -> option (num A)) (d : learned V) (x : val) (b : nat) : Prop :=
  match d with
  | LCat _ cats => b = match code V cats x with Some k => k | None => length cats end
  | LNum _ thr =>
      if isna V x then b = length thr + 1
      else exists y, read x = Some y /\ find_bin_loop (length thr + 1) 0 (length thr) y thr = Ok b
  end.

Lemma exact_bin_fun : forall read d x b b', exact_bin read d x b -> exact_bin read d x b' -> b = b'.
Proof.
  intros read d x b b'. unfold exact_bin. destruct d as [cats|thr]; [congruence|].
  destruct (isna V x); [congruence|]. intros (y & H1 & H2) (y' & H3 & H4). congruence.
Qed.

Lemma exact_numerical : forall (read : val -> option (num A)) cf thr hm col mv col' x bs i v b,
  learned_ok V (LNum V thr) ->
  (forall x r, read x = Some r -> anan r = isna V x) ->
  (forall x, In x (s_cells V col) -> isna V x = true -> hm = true) ->
  plan_column V cf (LNum V thr) hm col = Ok (mv, col') ->
  convert V read (s_cells V col) = Ok x ->
  bin_continuous_column x thr (N.to_nat mv) = Ok bs ->
  nth_error (s_cells V col) i = Some v -> nth_error bs i = Some b -> exact_bin read (LNum V thr) v b.
Proof.
  intros read cf thr hm col mv col' x bs i v b Hd Hr Hm Hp Hx Hb Hi Hbi.
  destruct (plan_spec _ _ _ _ _ _ _ Hp) as (_ & _ & E2). specialize (E2 Hd). simpl in E2.
  specialize (E2 ltac:(lia)). unfold bin_continuous_column in Hb. destruct (mapM_ok _ _ _ Hb) as [HL HN].
  destruct (convert_nth _ _ _ _ Hx i v Hi) as (y & Hy & Ey).
  destruct (HN i y Hy) as (b' & Hb' & Ev). rewrite Hbi in Hb'. injection Hb' as <-.
  pose proof (Hr _ _ Ey) as En. unfold bin_value in Ev. unfold exact_bin. rewrite <- En. destruct (anan y) eqn:Ea.
  - injection Ev as <-. assert (Hm1 : hm = true) by (apply (Hm v); [eapply nth_error_In; eauto|congruence]).
    subst hm. rewrite E2. lia.
  - exists y. auto.
Qed.

(** Everything about the cells of a successful transform. *)
Lemma transform_exact : forall cf e0 (X0 : xdata V NM) e (X : xdata V NM) fb cols,
  data_ok V X0 -> fit V NM EE cf e0 X0 = (e, Ok tt) -> e_cols V e = Some cols ->
  data_ok V X -> clean V X -> transform V NM nm_eqb EE cf e X = Ok fb ->
  fba_wf fb /\ fb_n_samples fb = fst (shape V NM X) /\ fb_n_features fb = snd (shape V NM X) /\
  snd (shape V NM X) = snd (shape V NM X0) /\ supported V X /\ still_numbers V X cols /\ length cols = snd (shape V NM X) /\
  forall i j x, cell_at V X i j = Some x -> exists d b,
    nth_error cols j = Some d /\ get_value fb i j = Ok (N.of_nat b) /\ exact_bin (reading V X) d x b.
Proof.
  intros cf e0 X0 e X fb cols HX0 Hf Hc HX Hcl Ht.
  destruct (fit_inv V NM EE _ _ _ _ Hf) as (cols' & cm & F1 & F2 & F3 & (_ & F4) & _ & _ & _).
  assert (cols' = cols) by congruence. subst cols'.
  destruct (learn_ok V NM EE GV _ _ _ _ HX0 choices F4) as [L1 L2].
  rewrite (transform_eq V NM nm_eqb EE names cf e X cols F1 F2 Hcl) in Ht. apply bind_ok in Ht. destruct Ht as (b & Hb & Ht).
  assert (Hsup : supported V X).
  { destruct X as [n cs|k n cs| |]; try discriminate Ht; simpl; auto. unfold check_X in Hb. apply bind_ok in Hb.
    destruct Hb as (u & Hu & _). destruct (in_bOSU k || in_uif k)%bool; [reflexivity|discriminate]. }
  rewrite F3 in Hb. apply check_X_nf in Hb.
  assert (Hn : 0 < fst (shape V NM X)).
  { destruct X as [n cs|k n cs| |]; try discriminate; destruct HX; simpl; lia. }
  assert (Ht' : encode V EE cf cols (bin_of_data V NM X) (fst (shape V NM X)) (todo_of V NM X) = Ok fb).
  { destruct X; auto; discriminate. }
  assert (HLt : length cols = length (todo_of V NM X)) by (rewrite todo_length; congruence).
  assert (Hg : forall p, In p (todo_of V NM X) -> length (s_cells V (snd p)) = fst (shape V NM X) /\
            bin_good V (reading V X) (bin_of_data V NM X) (fst (shape V NM X)) (fst p) (snd p)).
  { intros p Hp. destruct (todo_good V NM GV X p HX Hcl Hp) as (A1 & A2 & A3 & A4). split; auto. }
  destruct (encode_exact V EE (reading V X) _ _ _ _ _ _ Hn L2 HLt Hg Ht')
    as (W & S1 & S2 & S3 & R).
  split; auto. split; auto. split; [rewrite S2, todo_length; auto|]. split; auto. split; auto.
  assert (HN : forall j thr col, nth_error cols j = Some (LNum V thr) -> column_at V X j = Some col ->
    match X with XFrame _ _ _ _ => s_cats V col = None /\ in_uif (s_kind V col) = true | _ => True end /\
    exists y mv bs hm, convert V (reading V X) (s_cells V col) = Ok y /\ plan_column V cf (LNum V thr) hm col = Ok (mv, col) /\
      (forall x, In x (s_cells V col) -> isna V x = true -> hm = true) /\
      bin_continuous_column y thr (N.to_nat mv) = Ok bs /\ length bs = length (s_cells V col) /\
      forall i b, nth_error bs i = Some b -> get_value fb i j = Ok (N.of_nat b)).
  { intros j thr col Hd Hcol. destruct (column_at_todo _ _ _ _ _ Hcol) as [hm Hp].
    destruct (R j _ Hp) as (d & mv & col' & bs & R1 & R2 & R3 & R4 & R5 & R6). rewrite Hd in R1. injection R1 as <-.
    destruct (plan_spec _ _ _ _ _ _ _ R3) as (E & _). simpl in E. subst col'. simpl in R3, R4.
    destruct (todo_good V NM GV X _ HX Hcl (nth_error_In _ _ Hp)) as (_ & _ & Hm & _). simpl in Hm.
    destruct R5 as [R5 _].
    destruct X as [n cs|k n cs| |]; simpl in R4; try contradiction.
    - destruct (s_cats V col); [discriminate|]. destruct (in_uif (s_kind V col)) eqn:Ek; [|discriminate].
      apply bind_ok in R4. destruct R4 as (y & Hy & R4). split; auto. exists y, mv, bs, hm. auto 8.
    - split; auto. apply bind_ok in R4. destruct R4 as (y & Hy & R4). exists y, mv, bs, hm. simpl. destruct (in_uif k); auto 8. }
  split.
  { intros j thr col Hd Hcol. destruct (HN j thr col Hd Hcol) as (G1 & y & mv & bs & hm & G2 & _). split; auto.
    intros x Hx. apply In_nth_error in Hx. destruct Hx as [i Hi]. destruct (convert_nth _ _ _ _ G2 i x Hi) as (z & _ & Hz). congruence. }
  split; [rewrite HLt, todo_length; reflexivity|].
  intros i j x Hx. unfold cell_at in Hx. destruct (column_at V X j) as [col|] eqn:Ec; [|discriminate].
  destruct (column_at_todo _ _ _ _ _ Ec) as [hm Hp]. destruct (R j _ Hp) as (d & mv & col' & bs & R1 & R2 & R3 & R4 & (R5 & _) & R6).
  simpl in R3, R5. assert (Hi : i < length (s_cells V col)) by (apply nth_error_Some; congruence).
  destruct d as [cats|thr].
  - exists (LCat V cats), (match code V cats x with Some k => k | None => length cats end). split; auto. split; [|reflexivity].
    apply R6. destruct (plan_spec _ _ _ _ _ _ _ R3) as (E & _). simpl in E. subst col'.
    assert (Hb2 : bin_categorical V cats (as_category V col) = Ok bs) by (destruct X; exact R4).
    unfold bin_categorical in Hb2. destruct (as_category_cats V col) as [cats1 E1]. rewrite E1 in Hb2. injection Hb2 as <-.
    rewrite as_category_cells. rewrite (map_nth_error _ _ _ Hx). reflexivity.
  - destruct (HN j thr col R1 Ec) as (_ & y & mv' & bs' & hm' & G2 & G3 & G4 & G5 & G6 & G7).
    destruct (nth_error bs' i) as [b'|] eqn:Eb; [|apply nth_error_None in Eb; lia].
    exists (LNum V thr), b'. split; auto. split; [apply G7; auto|].
    eapply exact_numerical; eauto.
    + apply (L2 (LNum V thr)). eapply nth_error_In; eauto.
    + intros v r Hr. destruct X as [n cs|k n cs| |]; simpl in Hr; try (apply (gv_as64 V GV); exact Hr).
      destruct (in_uif k); [apply (gv_as64 V GV)|apply (gv_as32 V GV)]; exact Hr.
Qed.

Lemma get_value_out : forall fb i j, fba_wf fb -> fb_n_features fb <= j -> get_value fb i j = Err OOB.
Proof.
  intros fb i j W H. unfold get_value. assert (E : get (fb_n_values fb) j = Err OOB).
  { unfold get. rewrite (proj2 (nth_error_None _ _)); [reflexivity|]. rewrite (wf_vals fb W), map_length, (wf_nf fb W). exact H. }
  rewrite E. reflexivity.
Qed.

(** Equal rows are encoded equally, whatever the other rows of the two tables are. *)
Lemma encoded_row : forall cf e0 (X0 : xdata V NM) e (X X' : xdata V NM) fb fb' i i',
  data_ok V X0 -> fit V NM EE cf e0 X0 = (e, Ok tt) ->
  data_ok V X -> clean V X -> transform V NM nm_eqb EE cf e X = Ok fb ->
  data_ok V X' -> clean V X' -> transform V NM nm_eqb EE cf e X' = Ok fb' ->
  reading V X = reading V X' -> i < fst (shape V NM X) -> same_row V X i X' i' ->
  forall j, get_value fb i j = get_value fb' i' j.
Proof.
  intros cf e0 X0 e X X' fb fb' i i' HX0 Hf HX Hcl Ht HX' Hcl' Ht' Hr Hi Hs j.
  destruct (fit_inv V NM EE _ _ _ _ Hf) as (cols & cm & F1 & F2 & F3 & _).
  destruct (transform_exact _ _ _ _ _ _ _ HX0 Hf F2 HX Hcl Ht) as (W & N1 & N2 & N3 & _ & _ & _ & R).
  destruct (transform_exact _ _ _ _ _ _ _ HX0 Hf F2 HX' Hcl' Ht') as (W' & N1' & N2' & N3' & _ & _ & _ & R').
  destruct (Nat.lt_ge_cases j (snd (shape V NM X))) as [Hj|Hj].
  - destruct (cell_at_in V NM X i j HX Hi Hj) as [x Hx].
    destruct (R i j x Hx) as (d & b & R1 & R2 & R3). rewrite (Hs j) in Hx.
    destruct (R' i' j x Hx) as (d' & b' & R1' & R2' & R3'). rewrite R2, R2'.
    assert (d' = d) by congruence. subst d'. rewrite <- Hr in R3'. rewrite (exact_bin_fun _ _ _ _ _ R3 R3'). reflexivity.
  - rewrite get_value_out by (auto; lia). rewrite get_value_out by (auto; lia). reflexivity.
Qed.

Lemma picked_nth : forall {X} rows (l l' : list X), picked rows l l' ->
  forall k i, nth_error rows k = Some i -> exists x, nth_error l i = Some x /\ nth_error l' k = Some x.
Proof.
  intros X rows l l' H. induction H as [|i0 x0 rows l' H0 H IH]; intros [|k] i Hk; try discriminate; simpl in *.
  - injection Hk as <-. eauto.
  - apply IH; auto.
Qed.
Lemma picked_in : forall {X} rows (l l' : list X) x, picked rows l l' -> In x l' -> In x l.
Proof.
  intros X rows l l' x H. induction H as [|i0 x0 rows l' H0 H IH]; intros Hx; [destruct Hx|].
  destruct Hx as [<-|Hx]; auto. eapply nth_error_In; eauto.
Qed.
Lemma picked_length : forall {X} rows (l l' : list X), picked rows l l' -> length l' = length rows.
Proof. intros X rows l l' H. induction H; simpl; congruence. Qed.
Lemma Forall2_nth2 : forall {X Y} (R : X -> Y -> Prop) l l', Forall2 R l l' ->
  forall j y, nth_error l' j = Some y -> exists x, nth_error l j = Some x /\ R x y.
Proof.
  intros X Y R l l' H. induction H as [|x y l l' H0 H IH]; intros [|j] z Hz; try discriminate; simpl in *.
  - injection Hz as <-. eauto.
  - apply IH; auto.
Qed.
Lemma Forall2_len : forall {X Y} (R : X -> Y -> Prop) l l', Forall2 R l l' -> length l = length l'.
Proof. intros X Y R l l' H. induction H; simpl; congruence. Qed.

Lemma picked_column_at : forall rows (X X' : xdata V NM) j col', picked_table V rows X X' -> column_at V X' j = Some col' ->
  exists col, column_at V X j = Some col /\ s_kind V col' = s_kind V col /\ s_cats V col' = s_cats V col /\
    picked rows (s_cells V col) (s_cells V col').
Proof.
  intros rows X X' j col' HP H. destruct X as [n cs|k n cs| |], X' as [n' cs'|k' n' cs'| |]; simpl in HP; try contradiction.
  - destruct HP as [_ HP]. simpl in *. destruct (nth_error cs' j) as [p'|] eqn:Ep; [|discriminate]. injection H as <-.
    destruct (Forall2_nth2 _ _ _ HP j p' Ep) as (p & Hp & _ & H1 & H2 & H3). rewrite Hp. simpl. eauto.
  - destruct HP as (-> & _ & HP). simpl in *. destruct (nth_error cs' j) as [c'|] eqn:Ep; [|discriminate]. injection H as <-.
    destruct (Forall2_nth2 _ _ _ HP j c' Ep) as (c & Hc & H1). rewrite Hc. simpl. eexists. split; [reflexivity|]. auto.
Qed.

Lemma picked_shape : forall rows (X X' : xdata V NM), picked_table V rows X X' ->
  shape V NM X' = (length rows, snd (shape V NM X)) /\ reading V X' = reading V X /\ (supported V X -> supported V X').
Proof.
  intros rows X X' HP. destruct X as [n cs|k n cs| |], X' as [n' cs'|k' n' cs'| |]; simpl in HP; try contradiction; simpl.
  - destruct HP as [-> HP]. rewrite (Forall2_len _ _ _ HP). auto.
  - destruct HP as (-> & -> & HP). rewrite (Forall2_len _ _ _ HP). auto.
Qed.

Lemma picked_row : forall rows (X X' : xdata V NM) k i, picked_table V rows X X' -> nth_error rows k = Some i ->
  same_row V X i X' k.
Proof.
  intros rows X X' k i HP Hk j. unfold cell_at. destruct (column_at V X' j) as [col'|] eqn:E'.
  - destruct (picked_column_at _ _ _ _ _ HP E') as (col & E & _ & _ & HC). rewrite E.
    destruct (picked_nth _ _ _ HC k i Hk) as (x & H1 & H2). congruence.
  - destruct (column_at V X j) as [col|] eqn:E; [|reflexivity]. exfalso.
    destruct X as [n cs|q n cs| |], X' as [n' cs'|q' n' cs'| |]; simpl in HP; try contradiction; simpl in E, E'.
    + destruct HP as [_ HP]. pose proof (Forall2_len _ _ _ HP). destruct (nth_error cs' j) eqn:Ej; [discriminate|].
      apply nth_error_None in Ej. destruct (nth_error cs j) eqn:Ej2; [|discriminate].
      assert (j < length cs) by (apply nth_error_Some; congruence). lia.
    + destruct HP as (_ & _ & HP). pose proof (Forall2_len _ _ _ HP). destruct (nth_error cs' j) eqn:Ej; [discriminate|].
      apply nth_error_None in Ej. destruct (nth_error cs j) eqn:Ej2; [|discriminate].
      assert (j < length cs) by (apply nth_error_Some; congruence). lia.
Qed.

Lemma known_dec : forall (cats : list val) c, known V cats c \/ ~ known V cats c.
Proof.
  intros cats c. destruct (existsb (fun c' => veqb V c' c) cats) eqn:E.
  - left. apply existsb_exists in E. exact E.
  - right. intros H. apply existsb_exists in H. congruence.
Qed.

(** If a table can be encoded, so can any choice of its rows. *)
Lemma encoded_picked : forall cf e0 (X0 : xdata V NM) e (X X' : xdata V NM) rows fb,
  data_ok V X0 -> fit V NM EE cf e0 X0 = (e, Ok tt) ->
  data_ok V X -> clean V X -> transform V NM nm_eqb EE cf e X = Ok fb ->
  data_ok V X' -> clean V X' -> picked_table V rows X X' ->
  exists fb', transform V NM nm_eqb EE cf e X' = Ok fb' /\ fb_n_samples fb' = length rows.
Proof.
  intros cf e0 X0 e X X' rows fb HX0 Hf HX Hcl Ht HX' Hcl' HP.
  destruct (fit_inv V NM EE _ _ _ _ Hf) as (cols & cm & F1 & F2 & F3 & _).
  destruct (transform_exact _ _ _ _ _ _ _ HX0 Hf F2 HX Hcl Ht) as (W & N1 & N2 & N3 & N4 & N5 & _ & R).
  destruct (picked_shape _ _ _ HP) as (P1 & P2 & P3).
  destruct (transform_total V NM nm_eqb EE GV names choices cf e0 X0 e X' cols HX0 Hf F2 HX' Hcl') as [fb' Hfb']; auto.
  - rewrite P1. simpl. exact N3.
  - intros j thr col' Hd Hcol'. destruct (picked_column_at _ _ _ _ _ HP Hcol') as (col & E & E1 & E2 & E3).
    destruct (N5 j thr col Hd E) as [G1 G2]. split.
    + destruct X as [n cs|q n cs| |], X' as [n' cs'|q' n' cs'| |]; simpl in HP; try contradiction; auto. rewrite E1, E2. exact G1.
    + intros x Hx. rewrite P2. apply G2. eapply picked_in; eauto.
  - intros He j cats c Hd (col' & Hcol' & Hc). destruct (picked_column_at _ _ _ _ _ HP Hcol') as (col & E & E1 & E2 & E3).
    destruct (known_dec cats c) as [Hk|Hk]; [exact Hk|]. exfalso.
    assert (Hh : has_category V X j c).
    { exists col. split; auto. rewrite E2 in Hc. destruct (s_cats V col); [exact Hc|]. destruct Hc as [Hc1 Hc2]. split; auto. eapply picked_in; eauto. }
    pose proof (transform_unknown V NM nm_eqb EE GV choices cf e0 X0 e X cols j cats c HX0 Hf F2 HX He Hd Hh Hk). congruence.
  - exists fb'. split; auto. destruct (transform_exact _ _ _ _ _ _ _ HX0 Hf F2 HX' Hcl' Hfb') as (_ & M1 & _). rewrite M1, P1. reflexivity.
Qed.
End P.
