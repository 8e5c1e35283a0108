(** * Property theorems: the Encoder (C04 to C11, C55 and C56) *)

Require Import List Arith NArith ZArith Bool Lia Permutation Sorted.
Require Import Verif.Base Verif.Num Verif.M_Bitarray Verif.P_Bitarray Verif.M_Binning Verif.P_Binning
  Verif.M_Encoder Verif.S_Encoder Verif.P_Encoder.
Import ListNotations.

Section T.
Context {A : arith} (V : values A) (GV : good_values V) (NM : Type) (nm_eqb : NM -> NM -> bool) (EE : eenv A).
Context (names : forall a b, nm_eqb a b = true <-> a = b).
Context (choices : forall n k, k < n -> length (ee_choice EE n k) = k).
Notation fit := (fit V NM EE).
Notation transform := (transform V NM nm_eqb EE).
Notation data := (xdata V NM).
Notation rows X := (fst (shape V NM X)).
Notation columns X := (snd (shape V NM X)).

(** ** C07: what is read back *)

(** Everything that was written fits, and what is read for sample [i] and feature [j] is the
    documented bin of [X[i, j]] (see [documented_bin] in S_Encoder.v). *)
Theorem C07_encoded_bins_fit : forall cf e0 (X0 : data) e cols (X : data) fb,
  data_ok V X0 -> fit cf e0 X0 = (e, Ok tt) -> e_cols V e = Some cols ->
  data_ok V X -> clean V X -> transform cf e X = Ok fb ->
  columns X = columns X0 /\ fb_n_samples fb = rows X /\ fb_n_features fb = columns X0 /\
  forall i j, i < rows X -> j < columns X -> exists x d mv b,
    cell_at V X i j = Some x /\ nth_error cols j = Some d /\ nth_error (fb_max_values fb) j = Some mv /\
    get_value fb i j = Ok (N.of_nat b) /\ (N.of_nat b <= mv)%N /\
    (ordered V cols \/ is_cat V d = true -> documented_bin V (reading V X) d x b).
Proof.
  intros cf e0 X0 e cols X fb H1 H2 H3 H4 H5 H6.
  destruct (transform_ok V NM nm_eqb EE GV names choices _ _ _ _ _ _ _ H1 H2 H3 H4 H5 H6) as (T1 & T2 & T3 & T4 & T5 & _ & T6).
  split; auto. split; auto. split; auto. intros i j Hi Hj.
  destruct (cell_at_in V NM X i j H4 Hi Hj) as [x Hx]. destruct (T6 i j x Hx) as (d & mv & b & B). exists x, d, mv, b. tauto.
Qed.

(** ** C06: categories *)

Lemma fitted_ok : forall cf e0 (X0 : data) e cols, data_ok V X0 -> fit cf e0 X0 = (e, Ok tt) -> e_cols V e = Some cols ->
  forall d, In d cols -> learned_ok V d.
Proof.
  intros cf e0 X0 e cols H1 H2 H3. destruct (fit_inv V NM EE _ _ _ _ H2) as (cols' & cm & _ & F & _ & [_ G] & _).
  assert (cols' = cols) by congruence. subst. eapply learn_ok; eauto.
Qed.

(** The known categories, which are pairwise different, are encoded by their rank and
    everything else by their number. *)
Theorem C06_categories_by_rank : forall cf e0 (X0 : data) e cols (X : data) fb j cats,
  data_ok V X0 -> fit cf e0 X0 = (e, Ok tt) -> e_cols V e = Some cols ->
  data_ok V X -> clean V X -> transform cf e X = Ok fb -> nth_error cols j = Some (LCat V cats) ->
  categories_ok V cats /\
  forall i x, cell_at V X i j = Some x -> exists b, get_value fb i j = Ok (N.of_nat b) /\
    (isna V x = false -> forall k c, nth_error cats k = Some c -> veqb V c x = true -> b = k) /\
    (isna V x = true -> b = length cats) /\
    (~ known V cats x -> b = length cats).
Proof.
  intros cf e0 X0 e cols X fb j cats H1 H2 H3 H4 H5 H6 Hj.
  destruct (fitted_ok _ _ _ _ _ H1 H2 H3 _ (nth_error_In _ _ Hj)) as [Hc _]. split; auto.
  intros i x Hx.
  destruct (transform_ok V NM nm_eqb EE GV names choices _ _ _ _ _ _ _ H1 H2 H3 H4 H5 H6) as (_ & _ & _ & _ & _ & _ & T6).
  destruct (T6 i j x Hx) as (d & mv & b & B1 & _ & B3 & _ & B5). assert (d = LCat V cats) by congruence. subst d.
  specialize (B5 (or_intror eq_refl)). simpl in B5. exists b. split; auto.
  destruct B5 as [(Hn & c & Hk & Hv)|[Hx' ->]].
  - split; [|split].
    + intros _ k c' Hk' Hv'. destruct (Nat.eq_dec b k) as [|N]; auto. exfalso.
      destruct Hc as [_ Hd]. pose proof (Hd b k c c' N Hk Hk') as F.
      rewrite (gv_trans V GV c x c') in F; auto; [discriminate|]. apply (gv_sym V GV); auto.
    + congruence.
    + intros Hu. exfalso. apply Hu. exists c. split; auto. eapply nth_error_In; eauto.
  - split; [|auto]. intros Hn k c Hk Hv. exfalso. destruct Hx' as [Hx'|Hx']; [congruence|].
    apply Hx'. exists c. split; auto. eapply nth_error_In; eauto.
Qed.

(** Injectivity, between two encodings by the same encoder: two known categories share a
    bin only if they are equal, and none shares it with a missing or unknown value. *)
Theorem C06_injective : forall cf e0 (X0 : data) e cols (X X' : data) fb fb' j cats i i' x x' v v',
  data_ok V X0 -> fit cf e0 X0 = (e, Ok tt) -> e_cols V e = Some cols -> nth_error cols j = Some (LCat V cats) ->
  data_ok V X -> clean V X -> transform cf e X = Ok fb ->
  data_ok V X' -> clean V X' -> transform cf e X' = Ok fb' ->
  cell_at V X i j = Some x -> cell_at V X' i' j = Some x' ->
  isna V x = false -> known V cats x ->
  get_value fb i j = Ok v -> get_value fb' i' j = Ok v' ->
  (v = v' <-> isna V x' = false /\ veqb V x x' = true).
Proof.
  intros cf e0 X0 e cols X X' fb fb' j cats i i' x x' v v' H1 H2 H3 Hj A1 A2 A3 B1 B2 B3 Hx Hx' Hn (c & Hin & Hv) Gv Gv'.
  destruct (C06_categories_by_rank _ _ _ _ _ _ _ _ _ H1 H2 H3 A1 A2 A3 Hj) as [HC PA].
  destruct (C06_categories_by_rank _ _ _ _ _ _ _ _ _ H1 H2 H3 B1 B2 B3 Hj) as [_ PB].
  destruct (PA i x Hx) as (b & Eb & P1 & P2 & P3). destruct (PB i' x' Hx') as (b' & Eb' & Q1 & Q2 & Q3).
  apply In_nth_error in Hin. destruct Hin as [k Hk]. pose proof (P1 Hn k c Hk Hv) as E1. subst b.
  assert (Hlt : k < length cats) by (apply nth_error_Some; congruence).
  assert (v = N.of_nat k) by congruence. assert (v' = N.of_nat b') by congruence. subst v v'. split.
  - intros E. apply Nat2N.inj in E. subst b'. destruct (isna V x') eqn:En'; [rewrite (Q2 eq_refl) in Hlt; lia|].
    split; auto.
    assert (Hor : known V cats x' \/ ~ known V cats x').
    { unfold known. destruct (existsb (fun c' => veqb V c' x') cats) eqn:E.
      - left. apply existsb_exists in E. exact E.
      - right. intros (c' & H & G). rewrite <- Bool.not_true_iff_false in E. apply E. apply existsb_exists. eauto. }
    destruct Hor as [(c' & Hin' & Hv')|Hu]; [|rewrite (Q3 Hu) in Hlt; lia].
    apply In_nth_error in Hin'. destruct Hin' as [k' Hk']. pose proof (Q1 eq_refl k' c' Hk' Hv') as E. subst k'.
    assert (c' = c) by congruence. subst c'. apply (gv_trans V GV x c x'); auto. apply (gv_sym V GV); auto.
  - intros [En' Hv']. f_equal. symmetry. apply (Q1 En' k c Hk). eapply (gv_trans V GV); eauto.
Qed.

(** ** C08: unknown categories *)

(** With "error", a category that was not seen at fit, be it declared by the dtype or found
    in the cells, is an error. *)
Theorem C08_error : forall cf e0 (X0 : data) e cols (X : data) j cats c,
  data_ok V X0 -> fit cf e0 X0 = (e, Ok tt) -> e_cols V e = Some cols -> data_ok V X ->
  c_error cf = true -> nth_error cols j = Some (LCat V cats) -> has_category V X j c -> ~ known V cats c ->
  transform cf e X = Err ValueErr.
Proof.
  intros cf e0 X0 e cols X j cats c H1 H2 H3 H4 H5 H6 H7 H8.
  exact (transform_unknown V NM nm_eqb EE GV choices _ _ _ _ _ _ _ _ _ H1 H2 H3 H4 H5 H6 H7 H8).
Qed.

(** It is the only way in which the content of categorical columns can make transform
    raise: on data with the columns of the fit, whose numerical columns still are numbers,
    transform succeeds with "consider_missing", and with "error" if all categories are
    known. *)
Theorem C08_total : forall cf e0 (X0 : data) e cols (X : data),
  data_ok V X0 -> fit cf e0 X0 = (e, Ok tt) -> e_cols V e = Some cols ->
  data_ok V X -> clean V X -> supported V X -> columns X = columns X0 -> still_numbers V X cols ->
  (c_error cf = false \/ forall j cats c, nth_error cols j = Some (LCat V cats) -> has_category V X j c -> known V cats c) ->
  exists fb, transform cf e X = Ok fb.
Proof.
  intros cf e0 X0 e cols X H1 H2 H3 H4 H5 H6 H7 H8 H9. apply (transform_total V NM nm_eqb EE GV names choices cf e0 X0 e X cols); auto.
  intros He. destruct H9 as [H9|H9]; [congruence|exact H9].
Qed.

(** An unknown value then gets the bin of missing values. *)
Theorem C08_consider_missing : forall cf e0 (X0 : data) e cols (X : data) j cats i x,
  data_ok V X0 -> fit cf e0 X0 = (e, Ok tt) -> e_cols V e = Some cols ->
  data_ok V X -> clean V X -> supported V X -> columns X = columns X0 -> still_numbers V X cols ->
  c_error cf = false -> nth_error cols j = Some (LCat V cats) -> cell_at V X i j = Some x ->
  isna V x = true \/ ~ known V cats x ->
  exists fb, transform cf e X = Ok fb /\ get_value fb i j = Ok (N.of_nat (length cats)).
Proof.
  intros cf e0 X0 e cols X j cats i x H1 H2 H3 H4 H5 H6 H7 H8 H9 Hj Hx Hu.
  destruct (C08_total cf e0 X0 e cols X) as [fb Hfb]; auto. exists fb. split; auto.
  destruct (C06_categories_by_rank _ _ _ _ _ _ _ _ _ H1 H2 H3 H4 H5 Hfb Hj) as [_ P].
  destruct (P i x Hx) as (b & Hb & _ & P2 & P3). rewrite Hb. destruct Hu as [Hu|Hu]; [rewrite (P2 Hu)|rewrite (P3 Hu)]; auto.
Qed.

(** ** C09: inverse_transform *)

Theorem C09_inverse : forall cf e0 (X0 : data) e cols (X : data) fb out,
  data_ok V X0 -> fit cf e0 X0 = (e, Ok tt) -> e_cols V e = Some cols ->
  data_ok V X -> clean V X -> transform cf e X = Ok fb -> inverse_transform V e fb = Ok out ->
  length out = columns X /\
  forall i j x, cell_at V X i j = Some x -> exists d col o,
    nth_error cols j = Some d /\ nth_error out j = Some col /\ length col = rows X /\ nth_error col i = Some o /\
    (ordered V cols \/ is_cat V d = true -> gives_back V (reading V X) d x o /\
       (o = ONaN V <-> isna V x = true \/ exists cats, d = LCat V cats /\ ~ known V cats x)).
Proof.
  intros cf e0 X0 e cols X fb out H1 H2 H3 H4 H5 H6 H7.
  destruct (inverse_ok V NM nm_eqb EE GV names choices _ _ _ _ _ _ _ H1 H2 H3 H4 H5 H6) as [G _].
  destruct (G out H7) as [G1 G2]. split; auto. intros i j x Hx.
  destruct (G2 i j x Hx) as (d & col & o & B1 & B2 & B3 & B4 & B5). exists d, col, o.
  split; auto. split; auto. split; auto. split; auto. intros Ho. pose proof (B5 Ho) as B. split; auto. split.
  - intros ->. exact B.
  - intros Hu. destruct o as [|c|l r]; auto; exfalso.
    + destruct B as (Hc & Hn & Hv). destruct Hu as [Hu|(cats & -> & Hu)]; [congruence|]. apply Hu.
      (* the value given back is one of the categories *)
      exists c. split; auto.
      exact (inverse_cat_In V NM EE _ _ _ _ _ _ _ _ _ _ _ _ H2 H3 H7 B1 B2 B4).
    + destruct B as (Hc & Hn & _). destruct Hu as [Hu|(cats & -> & Hu)]; [congruence|discriminate].
Qed.

(** It raises for no fitted encoder whose thresholds are ordered numbers and whose
    categorical columns have a category. *)
Theorem C09_total : forall cf e0 (X0 : data) e cols (X : data) fb,
  data_ok V X0 -> fit cf e0 X0 = (e, Ok tt) -> e_cols V e = Some cols ->
  data_ok V X -> clean V X -> transform cf e X = Ok fb ->
  ordered V cols -> (forall thr t, In (LNum V thr) cols -> In t thr -> anan t = false) -> ~ In (LCat V []) cols ->
  exists out, inverse_transform V e fb = Ok out.
Proof.
  intros cf e0 X0 e cols X fb H1 H2 H3 H4 H5 H6.
  destruct (inverse_ok V NM nm_eqb EE GV names choices _ _ _ _ _ _ _ H1 H2 H3 H4 H5 H6) as [_ G]. exact G.
Qed.

(** ** C10: columns keep their position *)

(** The names play no role as long as they differ: column [j] of the result only depends on
    column [j] of the input. *)
Theorem C10_positions : forall cf e0 (X0 : data) e cols (X X' : data) fb fb' j col i x d,
  data_ok V X0 -> fit cf e0 X0 = (e, Ok tt) -> e_cols V e = Some cols ->
  data_ok V X -> clean V X -> transform cf e X = Ok fb ->
  data_ok V X' -> clean V X' -> transform cf e X' = Ok fb' ->
  column_at V X j = Some col -> column_at V X' j = Some col -> reading V X = reading V X' ->
  nth_error cols j = Some d -> ordered V cols \/ is_cat V d = true ->
  nth_error (s_cells V col) i = Some x ->
  get_value fb i j = get_value fb' i j.
Proof.
  intros cf e0 X0 e cols X X' fb fb' j col i x d H1 H2 H3 A1 A2 A3 B1 B2 B3 C1 C2 C3 Hd Ho Hx.
  assert (Hx1 : cell_at V X i j = Some x) by (unfold cell_at; rewrite C1; auto).
  assert (Hx2 : cell_at V X' i j = Some x) by (unfold cell_at; rewrite C2; auto).
  destruct (transform_ok V NM nm_eqb EE GV names choices _ _ _ _ _ _ _ H1 H2 H3 A1 A2 A3) as (_ & _ & _ & _ & _ & _ & T).
  destruct (transform_ok V NM nm_eqb EE GV names choices _ _ _ _ _ _ _ H1 H2 H3 B1 B2 B3) as (_ & _ & _ & _ & _ & _ & T').
  destruct (T i j x Hx1) as (d1 & _ & b & D1 & _ & G1 & _ & P1). destruct (T' i j x Hx2) as (d2 & _ & b' & D2 & _ & G2 & _ & P2).
  assert (d1 = d) by congruence. assert (d2 = d) by congruence. subst d1 d2. rewrite G1, G2. do 2 f_equal.
  rewrite C3 in P1. apply (documented_bin_unique V GV (reading V X') d x b b'); auto.
  apply (fitted_ok _ _ _ _ _ H1 H2 H3). eapply nth_error_In; eauto.
Qed.

(** ** C06: the categories *)

(** Without declared categories, [categories_] contains exactly the values found in the
    column, once each, in increasing order. *)
Theorem C06_categories_found : forall cf e0 (X0 : data) e cols j cats col,
  data_ok V X0 -> fit cf e0 X0 = (e, Ok tt) -> e_cols V e = Some cols ->
  nth_error cols j = Some (LCat V cats) -> column_at V X0 j = Some col ->
  match s_cats V col with
  | Some declared => cats = declared
  | None =>
      (forall c, In c cats -> In c (s_cells V col) /\ isna V c = false) /\
      (forall x, In x (s_cells V col) -> isna V x = false -> known V cats x) /\
      ((forall x y, vleb V x y = true \/ vleb V y x = true) ->
       (forall x y z, vleb V x y = true -> vleb V y z = true -> vleb V x z = true) ->
       forall i k x y, i < k -> nth_error cats i = Some x -> nth_error cats k = Some y -> vleb V x y = true)
  end.
Proof.
  intros cf e0 X0 e cols j cats col H1 H2 H3 Hj Hcol.
  destruct (fit_inv V NM EE _ _ _ _ H2) as (cols' & cm & _ & F & _ & [_ G] & _). assert (cols' = cols) by congruence. subst cols'.
  pose proof (learn_cat V NM EE _ _ _ _ _ _ _ G Hj Hcol) as E.
  destruct (s_cats V col) as [l|]; auto. subst cats. split; [|split].
  - intros c Hc. apply (categories_of_In V _ _ Hc).
  - intros x Hx Hn. apply (categories_of_cover V GV); auto.
  - intros Htot Htr i k x y Hik Hi Hk. apply (categories_sorted V Htot Htr (s_cells V col) i k); auto.
Qed.

(** ** C11: which columns are categorical *)

(** Columns of a data frame. [flag] is what the user said about the column, [k] the number of
    different values, [cm] the number below which a column is guessed to be categorical. *)
Theorem C11_data_frame : forall cf e0 n named e cols j nm col d cm k l,
  fit cf e0 (XFrame V NM n named) = (e, Ok tt) -> e_cols V e = Some cols ->
  nth_error named j = Some (nm, col) -> nth_error cols j = Some d ->
  match c_cat_min cf with
  | Some (CMInt m) => cm = m
  | Some CMLog => cm = Nat.max 2 (ee_log EE n)
  | Some CMSqrt => cm = Nat.max 2 (ee_sqrt EE n)
  | None => False
  end ->
  present V (s_cells V col) l -> n_different V l k ->
  (in_bOSU (s_kind V col) = true \/ in_uif (s_kind V col) = true) /\
  (is_cat V d = true <->
     in_bOSU (s_kind V col) = true \/
     match c_is_categorical cf with
     | Some flags => nth_error flags j = Some true
     | None => k <= cm
     end).
Proof.
  intros cf e0 n named e cols j nm col d cm k l H2 H3 Hj Hd Hcm Hl Hk.
  destruct (fit_inv V NM EE _ _ _ _ H2) as (cols' & cm' & _ & F & _ & [Ecm G] & _). assert (cols' = cols) by congruence. subst cols'.
  assert (cm' = cm). { unfold cat_min_of in Ecm. cbn [shape fst] in Ecm. destruct (c_cat_min cf) as [[m| |]|]; inversion Ecm; congruence. } subst cm'.
  simpl in G. destruct (mapM_ok _ _ _ G) as [_ HN]. destruct (HN j (j, (nm, col))) as (d' & Hd' & E).
  { apply nth_error_enumerate. auto. }
  assert (d' = d) by congruence. subst d'. cbn [fst snd] in E. unfold learn_series in E.
  assert (Ek : nunique V (s_cells V col) = k).
  { unfold nunique. red in Hl. subst l. apply (n_different_unique V GV (dropna V (s_cells V col))); auto; [|apply (n_different_distinct V GV)].
    intros x Hx. apply dropna_In in Hx. apply Hx.
  }
  assert (Hlc : forall cats, is_cat V (LCat V cats) = true) by reflexivity.
  assert (Hln : forall cells d0, learn_numerical V EE cf (subset_of EE cf n) cells = Ok d0 -> is_cat V d0 = false).
  { intros cells d0 H. unfold learn_numerical in H. do 3 (apply bind_ok in H; destruct H as (? & _ & H)). inversion H; auto. }
  unfold is_series_categorical in E. rewrite Ek in E.
  destruct (c_is_categorical cf) as [flags|].
  - apply bind_ok in E. destruct E as (fl & Efl & E). apply bind_ok in Efl. destruct Efl as (b & Eb & Efl).
    inversion Efl; subst fl. apply geti_ok in Eb. apply bind_ok in E. destruct E as (t & Et & E).
    destruct (in_bOSU (s_kind V col)) eqn:EO.
    + split; auto. split; [auto|intros _]. destruct b; destruct (s_cats V col) eqn:Ec; inversion Et; subst t;
        unfold as_category in E; rewrite ?Ec in E; simpl in E; inversion E; auto.
    + destruct (in_uif (s_kind V col)) eqn:EU; [|discriminate]. split; auto. destruct b; inversion Et; subst t.
      * split; [auto|intros _]. destruct (s_cats V (as_category V col)); inversion E; auto.
      * split; [intro Hc; rewrite (Hln _ _ E) in Hc; discriminate|]. intros [Hf|Hf]; congruence.
  - cbn [bind] in E. apply bind_ok in E. destruct E as (t & Et & E).
    destruct (in_bOSU (s_kind V col)) eqn:EO.
    + split; auto. split; [auto|intros _]. destruct (s_cats V col) eqn:Ec; inversion Et; subst t;
        unfold as_category in E; rewrite ?Ec in E; simpl in E; inversion E; auto.
    + destruct (in_uif (s_kind V col)) eqn:EU; [|discriminate]. split; auto. destruct (k <=? cm) eqn:Ele; inversion Et; subst t.
      * apply Nat.leb_le in Ele. split; [auto|intros _]. destruct (s_cats V (as_category V col)); inversion E; auto.
      * apply Nat.leb_gt in Ele. split; [intro Hc; rewrite (Hln _ _ E) in Hc; discriminate|]. intros [Hf|Hf]; [discriminate|lia].
Qed.

(** Columns of an array: the decision also depends on whether the strings can be read as
    numbers, and a missing value counts for one more value. *)
Theorem C11_array : forall cf e0 kd n arr e cols j cells d cm k l,
  fit cf e0 (XArray V NM kd n arr) = (e, Ok tt) -> e_cols V e = Some cols ->
  nth_error arr j = Some cells -> nth_error cols j = Some d ->
  match c_cat_min cf with
  | Some (CMInt m) => cm = m
  | Some CMLog => cm = Nat.max 2 (ee_log EE n)
  | Some CMSqrt => cm = Nat.max 2 (ee_sqrt EE n)
  | None => False
  end ->
  present V cells l -> n_different V l k -> (kd = KFloat \/ forall x, In x cells -> isna V x = false) ->
  (is_cat V d = true <->
     match c_is_categorical cf with
     | Some flags => nth_error flags j = Some true
     | None => k + (if existsb (isna V) cells then 1 else 0) <= cm \/
               (in_bOSU kd = true /\ exists x, In x cells /\ as32 V x = None)
     end).
Proof.
  intros cf e0 kd n arr e cols j cells d cm k l H2 H3 Hj Hd Hcm Hl Hk Hmiss.
  destruct (fit_inv V NM EE _ _ _ _ H2) as (cols' & cm' & _ & F & _ & [Ecm G] & _). assert (cols' = cols) by congruence. subst cols'.
  assert (cm' = cm). { unfold cat_min_of in Ecm. cbn [shape fst] in Ecm. destruct (c_cat_min cf) as [[m| |]|]; inversion Ecm; congruence. } subst cm'.
  simpl in G. apply bind_ok in G. destruct G as (flags & Ef & G). destruct (mapM_ok _ _ _ G) as [_ HN].
  pose proof (get_array_dtypes_length V _ _ _ _ _ Ef) as HLf.
  assert (Hjl : j < length arr) by (apply nth_error_Some; congruence).
  destruct (nth_error flags j) as [b|] eqn:Eb; [|apply nth_error_None in Eb; lia].
  destruct (HN j (b, cells)) as (d' & Hd' & E). { apply nth_error_combine. auto. }
  assert (d' = d) by congruence. subst d'. cbn [fst snd] in E. unfold learn_array_column in E.
  assert (Hdb : is_cat V d = b).
  { destruct b; [inversion E; auto|]. unfold learn_numerical in E. do 3 (apply bind_ok in E; destruct E as (? & _ & E)). inversion E; auto. }
  rewrite Hdb. clear E HN Hdb.
  assert (Ek : np_unique_size V kd cells = k + (if existsb (isna V) cells then 1 else 0)).
  { red in Hl. subst l.
    assert (Hu : forall r, n_different V (dropna V cells) r -> r = k).
    { intros r Hr. apply (n_different_unique V GV (dropna V cells)); auto.
      intros x Hx. apply dropna_In in Hx. apply Hx. }
    destruct Hmiss as [->|Hno].
    - unfold np_unique_size, nunique, hasnans. rewrite (Hu _ (n_different_distinct V GV _)). auto.
    - assert (Ed : dropna V cells = cells).
      { clear - Hno. unfold dropna. induction cells as [|a t IH]; simpl; auto. rewrite (Hno a (or_introl eq_refl)). simpl. rewrite IH; auto.
        intros x Hx. apply Hno. right; auto. }
      assert (En : existsb (isna V) cells = false).
      { destruct (existsb (isna V) cells) eqn:E; auto. apply existsb_exists in E. destruct E as (x & Hx & Hxn). rewrite (Hno x Hx) in Hxn. discriminate. }
      rewrite En, Nat.add_0_r. unfold np_unique_size, nunique, hasnans. rewrite En, Nat.add_0_r, Ed.
      rewrite Ed in Hu. destruct kd; apply Hu; apply (n_different_distinct V GV). }
  assert (Hcast : castable V cells = false <-> exists x, In x cells /\ as32 V x = None).
  { unfold castable. destruct (convert V (as32 V) cells) as [xs|er] eqn:Ec.
    - split; [discriminate|]. intros (x & Hx & Hxn). apply In_nth_error in Hx. destruct Hx as [i Hi].
      destruct (convert_nth V _ _ _ Ec i x Hi) as (y & _ & Ey). congruence.
    - split; auto. intros _. clear - Ec. unfold convert in Ec. revert er Ec. induction cells as [|a t IH]; intros er Ec; simpl in Ec; [discriminate|].
      destruct (as32 V a) as [r|] eqn:Ea; [|exists a; split; auto; left; auto]. cbn [bind] in Ec.
      destruct (mapM (fun x => match as32 V x with Some y => Ok y | None => Err ValueErr end) t) as [xs|er'] eqn:Et; [discriminate|].
      destruct (IH er' eq_refl) as (x & Hx & Hxn). exists x. split; auto. right; auto. }
  unfold get_array_dtypes in Ef. destruct (in_bOSU kd) eqn:EO.
  - destruct (c_is_categorical cf) as [ufl|].
    + destruct (mapM_ok _ _ _ Ef) as [_ HF]. destruct (HF j (j, cells)) as (b' & Hb' & E).
      { apply nth_error_enumerate; auto. }
      assert (b' = b) by congruence. subst b'. cbn [fst snd] in E. apply bind_ok in E. destruct E as (fl & Efl & E).
      apply geti_ok in Efl. rewrite Efl. destruct fl; [inversion E; tauto|]. destruct (castable V cells); inversion E. split; discriminate.
    + destruct (mapM_ok _ _ _ Ef) as [_ HF]. destruct (HF j cells Hj) as (b' & Hb' & E). assert (b' = b) by congruence. subst b'.
      rewrite Ek in E. destruct (_ <=? cm) eqn:Ele.
      * inversion E. apply Nat.leb_le in Ele. tauto.
      * apply Nat.leb_gt in Ele. destruct (castable V cells) eqn:Ec; inversion E.
        -- split; [discriminate|]. intros [Hx|[_ Hx]]; [lia|]. apply Hcast in Hx. discriminate.
        -- split; auto. intros _. right. split; auto. apply Hcast. auto.
  - destruct (in_uif kd); [|discriminate]. destruct (c_is_categorical cf) as [ufl|].
    + destruct (mapM_ok _ _ _ Ef) as [_ HF]. destruct (HF j (j, cells)) as (b' & Hb' & E).
      { apply nth_error_enumerate; auto. }
      assert (b' = b) by congruence. subst b'. cbn [fst snd] in E. apply bind_ok in E. destruct E as (fl & Efl & E).
      apply geti_ok in Efl. rewrite Efl. destruct fl; inversion E; split; congruence.
    + destruct (mapM_ok _ _ _ Ef) as [_ HF]. destruct (HF j cells Hj) as (b' & Hb' & E). assert (b' = b) by congruence. subst b'.
      rewrite Ek in E. destruct (_ <=? cm) eqn:Ele; inversion E.
      * apply Nat.leb_le in Ele. tauto.
      * apply Nat.leb_gt in Ele. split; [discriminate|]. intros [Hx|[Hx _]]; [lia|discriminate].
Qed.

(** fit accepts all the data it should (see [acceptable] in S_Encoder.v). *)
Theorem C11_fit_succeeds : forall cf e0 (X : data),
  (forall n k i, k < n -> In i (ee_choice EE n k) -> i < n) ->
  (forall x, as32 V x <> None -> as64 V x <> None) ->
  0 < c_max_bins cf -> c_cat_min cf <> None ->
  match c_is_categorical cf with Some flags => length flags = columns X | None => True end ->
  data_ok V X -> acceptable V X (c_is_categorical cf) -> 1 <= columns X ->
  exists e, fit cf e0 X = (e, Ok tt).
Proof. intros. apply fit_total; auto. Qed.

(** Invalid inputs are refused. *)
Theorem C11_bad_dtype : forall cf e0 (X : data) j col, column_at V X j = Some col ->
  in_bOSU (s_kind V col) = false -> in_uif (s_kind V col) = false -> snd (fit cf e0 X) <> Ok tt.
Proof.
  intros cf e0 X j col Hc H1 H2 H. destruct (fit cf e0 X) as [e r] eqn:E. simpl in H. subst r.
  destruct (fit_inv V NM EE _ _ _ _ E) as (cols & cm & _ & F & _ & [_ G] & _).
  destruct X as [n cs|k n cs| |]; simpl in Hc; try discriminate.
  - destruct (nth_error cs j) as [p|] eqn:Ep; [|discriminate]. inversion Hc; subst col.
    simpl in G. destruct (mapM_ok _ _ _ G) as [_ HN]. destruct (HN j (j, p)) as (d & _ & Ed). { apply nth_error_enumerate; auto. }
    cbn [fst snd] in Ed. unfold learn_series in Ed. apply bind_ok in Ed. destruct Ed as (fl & _ & Ed).
    unfold is_series_categorical in Ed. rewrite H1, H2 in Ed. discriminate.
  - destruct (nth_error cs j) as [p|] eqn:Ep; [|discriminate]. inversion Hc; subst col. simpl in H1, H2.
    simpl in G. apply bind_ok in G. destruct G as (fl & G & _). unfold get_array_dtypes in G. rewrite H1, H2 in G. discriminate.
Qed.

(** ** C56: a fit that raises *)

(** Nothing that was learned is lost, whatever the exception ... *)
Theorem C56_learned_kept : forall cf e (X : data) e' er, fit cf e X = (e', Err er) ->
  e_cols V e' = e_cols V e /\ e_fitted V e' = e_fitted V e.
Proof.
  intros cf e X e' er H. unfold M_Encoder.fit in H.
  destruct (check_X V NM X (c_is_categorical cf) None); [|injection H as <- _; auto].
  destruct (shape V NM X) as [n p]. destruct (n =? 0); [injection H as <- _; auto|].
  destruct (p =? 0); [injection H as <- _; auto|].
  destruct (let* cm := cat_min_of EE cf n in learn V NM EE cf cm X); [discriminate H|injection H as <- _; auto].
Qed.

(** ... and the encoder works as before if the refused data has as many columns as the data
    of the last fit, or is not a table at all; the first condition cannot be removed, see
    C56_failed_fit_refuted in T_EncoderQ.v. *)
Theorem C56_same_columns : forall cf e (X : data) e' er, fit cf e X = (e', Err er) ->
  (e_n_features V e = Some (columns X) \/ check_X V NM X (c_is_categorical cf) None = Err er) ->
  (forall cf' X', transform cf' e' X' = transform cf' e X') /\
  forall fb, inverse_transform V e' fb = inverse_transform V e fb.
Proof.
  intros cf e X e' er H HX.
  assert (G : e_cols V e' = e_cols V e /\ e_fitted V e' = e_fitted V e /\ e_n_features V e' = e_n_features V e).
  { destruct (C56_learned_kept cf e X e' er H) as [H1 H2]. split; [auto|split; [auto|]].
    unfold M_Encoder.fit in H. destruct (check_X V NM X (c_is_categorical cf) None) as [u|e1] eqn:EC; [|injection H as <- _; auto].
    destruct HX as [HX|HX]; [|discriminate HX].
    destruct (shape V NM X) as [n p]. destruct (n =? 0); [injection H as <- _; auto|].
    destruct (p =? 0); [injection H as <- _; auto|].
    destruct (let* cm := cat_min_of EE cf n in learn V NM EE cf cm X); [discriminate H|injection H as <- _]. simpl. auto. }
  destruct G as (H1 & H2 & H3). split.
  - intros cf' X'. unfold M_Encoder.transform. rewrite H1, H2, H3. reflexivity.
  - intros fb. unfold inverse_transform. rewrite H1, H2, H3. reflexivity.
Qed.
End T.

(** The argument [categorical_features] of fit: [mask] has [true] exactly at the declared
    columns. *)
Definition declares (cf : cat_features) (n : nat) (mask : list bool) : Prop :=
  length mask = n /\
  forall j, j < n -> (nth_error mask j = Some true <->
    match cf with
    | CFInts l => In (Z.of_nat j) l
    | CFBools l => nth_error l j = Some true
    | _ => False
    end).

(** A specification is valid if it is a list of column numbers or a mask of the right
    length; an empty one, or None, leaves the decision to the encoder. *)
Theorem C11_specification : forall cf n,
  match cf with
  | CFNone | CFInts [] | CFBools [] | CFOther 0 => get_is_categorical cf n = Ok None
  | CFInts l =>
      ((forall z, In z l -> 0 <= z < Z.of_nat n)%Z -> exists mask, get_is_categorical cf n = Ok (Some mask) /\ declares cf n mask) /\
      ((exists z, In z l /\ (z < 0 \/ Z.of_nat n <= z)%Z) -> get_is_categorical cf n = Err ValueErr)
  | CFBools l =>
      (length l = n -> exists mask, get_is_categorical cf n = Ok (Some mask) /\ declares cf n mask) /\
      (length l <> n -> get_is_categorical cf n = Err ValueErr)
  | CFOther _ => get_is_categorical cf n = Err ValueErr
  end.
Proof.
  intros cf n. destruct cf as [|[|z0 l]|[|b0 l]|[|m]]; auto.
  - set (zs := z0 :: l). split.
    + intros H. unfold get_is_categorical. fold zs.
      assert (E1 : existsb (fun z => (Z.of_nat n <=? z)%Z) zs = false).
      { apply Bool.not_true_iff_false. intro E. apply existsb_exists in E. destruct E as (z & Hz & E). apply Z.leb_le in E. specialize (H z Hz). lia. }
      assert (E2 : existsb (fun z => (z <? 0)%Z) zs = false).
      { apply Bool.not_true_iff_false. intro E. apply existsb_exists in E. destruct E as (z & Hz & E). apply Z.ltb_lt in E. specialize (H z Hz). lia. }
      rewrite E1, E2. simpl orb. cbv iota. eexists. split; [reflexivity|]. split; [rewrite map_length, seq_length; auto|].
      intros j Hj. rewrite nth_seq_map by auto. split.
      * intros E. assert (E' : existsb (Z.eqb (Z.of_nat j)) zs = true) by (injection E; auto). apply existsb_exists in E'. destruct E' as (z & Hz & E'). apply Z.eqb_eq in E'. congruence.
      * intros Hz. f_equal. apply existsb_exists. exists (Z.of_nat j). split; auto. apply Z.eqb_refl.
    + intros (z & Hz & H). unfold get_is_categorical. fold zs.
      destruct (existsb (fun z => (Z.of_nat n <=? z)%Z) zs) eqn:E1; auto.
      destruct (existsb (fun z => (z <? 0)%Z) zs) eqn:E2; auto. exfalso.
      rewrite <- Bool.not_true_iff_false in E1, E2. destruct H.
      * apply E2. apply existsb_exists. exists z. split; auto. apply Z.ltb_lt. auto.
      * apply E1. apply existsb_exists. exists z. split; auto. apply Z.leb_le. auto.
  - split.
    + intros H. unfold get_is_categorical. rewrite (proj2 (Nat.eqb_eq _ _) H). eexists. split; [reflexivity|]. split; auto. intros; tauto.
    + intros H. unfold get_is_categorical. rewrite (proj2 (Nat.eqb_neq _ _) H). auto.
Qed.

Print Assumptions C06_injective.
Print Assumptions C06_categories_found.
Print Assumptions C07_encoded_bins_fit.
Print Assumptions C08_error.
Print Assumptions C08_total.
Print Assumptions C08_consider_missing.
Print Assumptions C09_inverse.
Print Assumptions C09_total.
Print Assumptions C10_positions.
Print Assumptions C11_data_frame.
Print Assumptions C11_array.
Print Assumptions C11_fit_succeeds.
Print Assumptions C11_specification.
Print Assumptions C56_learned_kept.
Print Assumptions C56_same_columns.
