(** * Property theorems: forests with the real Encoder (C11, C12, C42, C55) *)

Require Import String List Arith NArith ZArith Bool Lia.
Require Import Verif.Base Verif.Num Verif.M_Bitarray Verif.P_Bitarray Verif.M_Binning Verif.M_Forest
  Verif.M_Encoder Verif.S_Encoder Verif.P_Encoder Verif.T_Encoder Verif.M_EncoderForest
  Verif.S_Fit Verif.S_Object Verif.S_Forest.
Import ListNotations.
Local Open Scope string_scope.
Local Open Scope list_scope.

Section T.
Context {A : arith} (V : values A) (GV : good_values V) (NM : Type) (nm_eqb : NM -> NM -> bool) (EE : eenv A).
Context (to_int : num A -> res Z).
Context (names : forall a b, nm_eqb a b = true <-> a = b).
Context (choices : forall n k, k < n -> length (ee_choice EE n k) = k).
Notation forest_encode := (forest_encode V NM EE to_int).
Notation forest_encoding := (forest_encoding V NM nm_eqb EE to_int).

Lemma encode_inv : forall st mb X cf c e, snd (forest_encode st mb X cf) = Ok (c, e) ->
  exists mask, get_is_categorical cf (snd (shape V NM X)) = Ok mask /\
    encoder_init to_int (@PyInt A mb) (st_subsample st) mask (st_cat_min st) (st_handle_unknown st) = Ok c /\
    fit V NM EE c (new_encoder V) X = (e, Ok tt).
Proof.
  intros st mb X cf c e H. unfold forest_encode, encode_fit in H. cbn [snd] in H.
  assert (E : st_subsample (store_categorical st cf) = st_subsample st /\ st_cat_min (store_categorical st cf) = st_cat_min st /\
              st_handle_unknown (store_categorical st cf) = st_handle_unknown st) by (destruct cf; auto).
  destruct E as (E1 & E2 & E3). rewrite E1, E2, E3 in H.
  apply bind_ok in H. destruct H as (mask & Hm & H). apply bind_ok in H. destruct H as (c' & Hc & H).
  destruct (fit V NM EE c' (new_encoder V) X) as [e' r] eqn:Ef. apply bind_ok in H. destruct H as ([] & Hr & H).
  inversion H; subst c' e' r. eauto.
Qed.

(** The encoder gives the forests what they rely on (see [good_encoding] in S_Forest.v), so
    that the theorems about forests hold for tables of values, read from data frames or
    arrays. *)
Theorem encoder_is_good : forall st, good_encoding (forest_encoding st).
Proof.
  intro st. constructor; cbn [ec_fit ec_cats ec_shape ec_transform ec_enc M_EncoderForest.forest_encoding].
  - intros mb t [c e] H. destruct (encode_inv _ _ _ _ _ _ H) as (mask & _ & _ & Hf).
    destruct (fit_inv V NM EE _ _ _ _ Hf) as (cols & cm & _ & F2 & _ & [_ F4] & _). cbn [snd]. rewrite F2, map_length.
    destruct (learn_ok V NM EE GV _ _ _ _ (tb_ok _ _ t) choices F4) as [L _]. exact L.
  - intros mb t [c e] H. destruct (encode_inv _ _ _ _ _ _ H) as (mask & _ & _ & Hf).
    destruct (fit_inv V NM EE _ _ _ _ Hf) as (cols & cm & _ & _ & _ & _ & _ & F & _). exact F.
  - intros mb t [c e] t' fb H Ht. destruct (encode_inv _ _ _ _ _ _ H) as (mask & _ & _ & Hf).
    destruct (fit_inv V NM EE _ _ _ _ Hf) as (cols & cm & _ & F2 & _ & _ & _ & _ & _).
    destruct (transform_ok V NM nm_eqb EE GV names choices _ _ _ _ _ _ _ (tb_ok _ _ t) Hf F2 (tb_ok _ _ t') (tb_clean _ _ t') Ht)
      as (T1 & T2 & T3 & T4 & T5 & (fb0 & I1 & I2 & I3) & T6).
    split; [|split; [|split]].
    + split; auto. intros i j v mv Hi Hv Hmv.
      assert (Hj : j < snd (shape V NM (tb_X _ _ t'))).
      { apply Nat.le_lt_trans with j; auto. rewrite T1, <- T5, <- (wf_nf _ T3). apply nth_error_Some. congruence. }
      destruct (cell_at_in V NM _ i j (tb_ok _ _ t') ltac:(rewrite <- T4; auto) Hj) as [x Hx].
      destruct (T6 i j x Hx) as (d & mv' & b & _ & B2 & B3 & B4 & _). congruence.
    + exists (ee_mem EE), fb0. rewrite T4. split; [exact I1|]. split; [exact I2|]. exact I3.
    + exact T4.
    + exact T5.
Qed.

(** ** C42: the parameters of the encoder *)

(** A fit succeeds only with valid values of max_bins, subsample, cat_min_categories and
    handle_unknown. A [cat_min_categories] of another type than int and str makes it fail. *)
Theorem C42_encoder_parameters : forall st mb X cf c e, snd (forest_encode st mb X cf) = Ok (c, e) ->
  (3 <= mb)%Z /\ c_max_bins c = Z.to_nat mb /\
  (st_subsample st = @PyNone A /\ c_subsample c = None \/
   (exists z, st_subsample st = @PyInt A z /\ (50000 <= z)%Z /\ c_subsample c = Some (Z.to_nat z)) \/
   (exists x z, st_subsample st = @PyFloat A x /\ aleb (aofnat (Z.to_nat 50000)) x = true /\ to_int x = Ok z /\ c_subsample c = Some (Z.to_nat z))) /\
  ((exists z, as_int (st_cat_min st) = Some z /\ (3 < z)%Z /\ c_cat_min c = Some (CMInt (Z.to_nat z))) \/
   (st_cat_min st = @PyStr A "log" /\ c_cat_min c = Some CMLog) \/ (st_cat_min st = @PyStr A "sqrt" /\ c_cat_min c = Some CMSqrt)) /\
  (st_handle_unknown st = @PyStr A "error" /\ c_error c = true \/ st_handle_unknown st = @PyStr A "consider_missing" /\ c_error c = false).
Proof.
  intros st mb X cf c e H. destruct (encode_inv _ _ _ _ _ _ H) as (mask & _ & Hi & Hf).
  destruct (fit_inv V NM EE _ _ _ _ Hf) as (cols & cm & _ & _ & _ & [F0 _] & _).
  unfold encoder_init in Hi. apply bind_ok in Hi. destruct Hi as (m & Hm & Hi). apply bind_ok in Hi. destruct Hi as (s & Hs & Hi).
  apply bind_ok in Hi. destruct Hi as (k & Hk & Hi). apply bind_ok in Hi. destruct Hi as (h & Hh & Hi). inversion Hi; subst c. cbn [c_max_bins c_subsample c_cat_min c_error] in *.
  unfold check_max_bins in Hm. cbn [as_int] in Hm. destruct (mb <? 3)%Z eqn:Em; [discriminate|]. apply Z.ltb_ge in Em.
  split; auto. split; [congruence|]. split; [|split].
  - unfold check_subsample in Hs. destruct (st_subsample st) as [|b|z|x|str|]; try discriminate.
    + inversion Hs. auto.
    + destruct (50000 <=? z)%Z eqn:Ez; [|discriminate]. apply Z.leb_le in Ez. inversion Hs. right; left. exists z. auto.
    + destruct (aleb (aofnat (Z.to_nat 50000)) x) eqn:Ex; [|discriminate]. apply bind_ok in Hs. destruct Hs as (z & Hz & Hs).
      injection Hs as <-. right; right. exists x, z. auto.
  - unfold check_cat_min in Hk. destruct (as_int (st_cat_min st)) as [z|] eqn:Ez.
    + destruct (z <=? 3)%Z eqn:Ez3; [discriminate|]. apply Z.leb_gt in Ez3. inversion Hk. left. exists z. auto.
    + destruct (as_str (st_cat_min st)) as [str|] eqn:Es.
      * assert (Ev : st_cat_min st = @PyStr A str) by (destruct (st_cat_min st); try discriminate; inversion Es; auto).
        destruct (String.eqb_spec str "log"); [subst; inversion Hk; auto|].
        destruct (String.eqb_spec str "sqrt"); [subst; inversion Hk; auto|discriminate].
      * inversion Hk; subst k. unfold cat_min_of in F0. discriminate.
  - unfold check_handle_unknown in Hh. destruct (as_str (st_handle_unknown st)) as [str|] eqn:Es; [|discriminate].
    assert (Ev : st_handle_unknown st = @PyStr A str) by (destruct (st_handle_unknown st); try discriminate; inversion Es; auto).
    destruct (String.eqb_spec str "error"); [subst; inversion Hh; auto|].
    destruct (String.eqb_spec str "consider_missing"); [subst; inversion Hh; auto|discriminate].
Qed.

(** ** C12: the declared categorical features *)

(** The columns declared by the argument of fit are the categorical ones, among the columns
    of numbers. *)
Theorem C12_fit_argument : forall st mb X cf c e cols mask j col d,
  snd (forest_encode st mb X cf) = Ok (c, e) -> e_cols V e = Some cols ->
  get_is_categorical cf (snd (shape V NM X)) = Ok (Some mask) -> declares cf (snd (shape V NM X)) mask ->
  column_at V X j = Some col -> in_uif (s_kind V col) = true -> nth_error cols j = Some d ->
  (is_cat V d = true <->
     match cf with
     | CFInts l => In (Z.of_nat j) l
     | CFBools l => nth_error l j = Some true
     | _ => False
     end).
Proof.
  intros st mb X cf c e cols mask j col d H Hc Hm Hd Hcol Hu Hj.
  destruct (encode_inv _ _ _ _ _ _ H) as (mask' & Hm' & Hi & Hf). assert (mask' = Some mask) by congruence. subst mask'.
  destruct (fit_inv V NM EE _ _ _ _ Hf) as (cols' & cm & _ & F & _ & [Ecm G] & _). assert (cols' = cols) by congruence. subst cols'.
  assert (Hmask : c_is_categorical c = Some mask).
  { unfold encoder_init in Hi. do 4 (apply bind_ok in Hi; destruct Hi as (? & _ & Hi)). inversion Hi. auto. }
  assert (HO : in_bOSU (s_kind V col) = false) by (destruct (s_kind V col); auto; discriminate).
  assert (Hjl : j < snd (shape V NM X)).
  { destruct X; try discriminate; simpl in Hcol |- *; apply nth_error_Some; intro E; rewrite E in Hcol; discriminate. }
  destruct Hd as [_ Hd]. rewrite <- (Hd j Hjl).
  assert (Hex : exists k, n_different V (dropna V (s_cells V col)) k) by (eexists; apply (n_different_distinct V GV)).
  destruct Hex as [k Hk].
  assert (Hcm : match c_cat_min c with
    | Some (CMInt m) => cm = m
    | Some CMLog => cm = Nat.max 2 (ee_log EE (fst (shape V NM X)))
    | Some CMSqrt => cm = Nat.max 2 (ee_sqrt EE (fst (shape V NM X)))
    | None => False end).
  { unfold cat_min_of in Ecm. destruct (c_cat_min c) as [[m| |]|]; inversion Ecm; auto. }
  destruct X as [n cs|kd n cs| |]; try discriminate; cbn [column_at] in Hcol.
  - destruct (nth_error cs j) as [[nm col']|] eqn:Ej; [|discriminate]. inversion Hcol; subst col'.
    destruct (C11_data_frame V GV NM EE _ _ _ _ _ _ _ _ _ _ _ _ _ Hf F Ej Hj Hcm eq_refl Hk) as [_ P].
    rewrite Hmask in P. rewrite P. rewrite HO. split; [intros [Q|Q]; [discriminate|auto]|auto].
  - destruct (nth_error cs j) as [cells|] eqn:Ej; [|discriminate]. inversion Hcol; subst col. cbn [s_kind s_cells] in *.
    unfold learn in G. apply bind_ok in G. destruct G as (fl & Ef & G). destruct (mapM_ok _ _ _ G) as [_ HN].
    unfold get_array_dtypes in Ef. rewrite HO, Hu, Hmask in Ef. destruct (mapM_ok _ _ _ Ef) as [HLf HF].
    destruct (HF j (j, cells)) as (b & Hb & E). { apply nth_error_enumerate; auto. }
    cbn [fst snd] in E. apply bind_ok in E. destruct E as (fb & Efl & E). apply geti_ok in Efl. rewrite Efl.
    assert (b = fb) by (destruct fb; inversion E; auto). subst b.
    destruct (HN j (fb, cells)) as (d' & Hd' & E'). { apply nth_error_combine; auto. }
    assert (d' = d) by congruence. subst d'. cbn [fst snd] in E'. unfold learn_array_column in E'.
    destruct fb; [inversion E'; split; auto|]. unfold learn_numerical in E'.
    do 3 (apply bind_ok in E'; destruct E' as (? & _ & E')). inversion E'. split; discriminate.
Qed.

(** The value given to the constructor is stored but not used: it has no effect on any fit. *)
Theorem C12_constructor_ignored : forall ss cm hu cats cats' mb X cf,
  snd (forest_encode (mkSettings ss cm hu cats) mb X cf) = snd (forest_encode (mkSettings ss cm hu cats') mb X cf).
Proof. intros. unfold forest_encode, encode_fit. cbn [snd]. destruct cf; reflexivity. Qed.
End T.

(** ** C55: reproducible encodings *)

(** As long as the training set is not subsampled, what the encoder learns does not depend
    on the generator. *)
Theorem C55_no_subsampling : forall {A : arith} (V : values A) (NM : Type) to_int choice choice' lg sq ai mem mem' st mb (X : xdata V NM) cf,
  (forall k, check_subsample to_int (st_subsample st) = Ok (Some k) -> fst (shape V NM X) <= k) ->
  snd (forest_encode V NM (mkEenv A choice lg sq ai mem) to_int st mb X cf) =
  snd (forest_encode V NM (mkEenv A choice' lg sq ai mem') to_int st mb X cf).
Proof.
  intros A V NM to_int choice choice' lg sq ai mem mem' st mb X cf H. unfold forest_encode, encode_fit. cbn [snd].
  destruct (get_is_categorical cf (snd (shape V NM X))) as [mask|]; cbn [bind]; auto.
  assert (E0 : st_subsample (store_categorical st cf) = st_subsample st) by (destruct cf; auto). rewrite E0.
  destruct (encoder_init to_int (@PyInt A mb) (st_subsample st) mask (st_cat_min (store_categorical st cf)) (st_handle_unknown (store_categorical st cf))) as [c|] eqn:Ei; cbn [bind]; auto.
  assert (Hs : forall k, c_subsample c = Some k -> fst (shape V NM X) <= k).
  { intros k Hk. unfold encoder_init in Ei. apply bind_ok in Ei. destruct Ei as (m & _ & Ei). apply bind_ok in Ei. destruct Ei as (s & Es & Ei).
    do 2 (apply bind_ok in Ei; destruct Ei as (? & _ & Ei)). inversion Ei; subst c. simpl in Hk. subst s. auto. }
  set (E1 := mkEenv A choice lg sq ai mem). set (E2 := mkEenv A choice' lg sq ai mem').
  assert (Hsub : subset_of E1 c (fst (shape V NM X)) = subset_of E2 c (fst (shape V NM X))).
  { unfold subset_of. destruct (c_subsample c) as [k|]; auto. specialize (Hs k eq_refl). destruct (Nat.ltb_spec k (fst (shape V NM X))); auto. lia. }
  assert (Hl : forall cm, learn V NM E1 c cm X = learn V NM E2 c cm X).
  { intro cm. unfold learn. destruct X as [n cs|k n cs| |]; auto; cbn [shape fst] in Hsub.
    - apply mapM_ext. intros p. unfold learn_series, learn_numerical. rewrite Hsub. reflexivity.
    - destruct (get_array_dtypes V k cs (c_is_categorical c) cm); cbn [bind]; auto. apply mapM_ext. intros p.
      unfold learn_array_column, learn_numerical. rewrite Hsub. reflexivity. }
  assert (Hf : fit V NM E1 c (new_encoder V) X = fit V NM E2 c (new_encoder V) X).
  { unfold fit. destruct (check_X V NM X (c_is_categorical c) None); auto. destruct (shape V NM X) as [n p].
    destruct (Nat.eqb n 0); auto. destruct (Nat.eqb p 0); auto. change (cat_min_of E1 c n) with (cat_min_of E2 c n).
    destruct (cat_min_of E2 c n); cbn [bind]; auto. rewrite Hl. auto. }
  rewrite Hf. reflexivity.
Qed.

Print Assumptions encoder_is_good.
Print Assumptions C42_encoder_parameters.
Print Assumptions C12_fit_argument.
Print Assumptions C12_constructor_ignored.
Print Assumptions C55_no_subsampling.
