(** * From a file to training and test sets

    C59: extract splits the rows of the file, features and labels together, and what it
    learns only depends on the training rows. C60: [columns_] and [categorical_features_]
    describe the columns of the matrices. C61: the label is not a feature. *)

Require Import String List Arith Bool Permutation Lia.
Require Import Verif.Base Verif.Num Verif.M_Encoder Verif.S_Encoder Verif.P_Encoder.
Require Import Verif.M_Dataset Verif.S_Dataset Verif.P_Dataset.
Import ListNotations.
Local Open Scope res_scope.
Local Notation length := List.length.

Section Dataset.
Context {A : arith} (V : values A) (GV : good_values V).
Notation val := (val V).
Notation T := (num A).

(** ** Modalities *)

Lemma same_value_iff : forall x y, veqb (with_missing V) x y = true <-> same_value V x y.
Proof.
  intros x y. unfold same_value. simpl. destruct (isna V x) eqn:Hx; destruct (isna V y) eqn:Hy; simpl; split; intros H; auto.
  - split; auto; discriminate.
  - discriminate.
  - destruct H; discriminate.
  - discriminate.
  - destruct H; discriminate.
  - destruct H; auto.
Qed.

Lemma good_missing : good_values (with_missing V).
Proof.
  constructor; simpl; intros; try discriminate.
  - destruct (isna V x) eqn:Hx; auto. simpl. apply (gv_refl V GV); auto.
  - destruct (isna V x) eqn:Hx; destruct (isna V y) eqn:Hy; simpl in *; auto; try discriminate. apply (gv_sym V GV); auto.
  - destruct (isna V x) eqn:Hx; destruct (isna V y) eqn:Hy; destruct (isna V z) eqn:Hz; simpl in *; auto; try discriminate.
    eapply (gv_trans V GV); eauto.
Qed.

Lemma modalities_spec : forall rows df f c cells, take_rows V rows df = Ok f -> col V f c = Ok cells ->
  modalities_of V df c rows (modalities V cells).
Proof.
  intros rows df f c cells Hf Hc. pose proof good_missing as GM.
  pose proof (categories_of_ok (with_missing V) GM cells) as [_ Hd]. split; [|split].
  - intros i x Hi Hx. apply In_nth_error in Hi. destruct Hi as [k Hk].
    destruct (cell_take V _ _ _ _ _ _ _ Hf Hc Hk) as [x' [Hn Hx']]. rewrite Hx in Hx'. inversion Hx'; subst.
    destruct (categories_of_cover (with_missing V) GM cells x') as [m [Hm He]]; [eapply nth_error_In; eauto|auto|].
    exists m. split; auto. apply same_value_iff; auto.
  - intros m Hm. apply (categories_of_In (with_missing V)) in Hm. destruct Hm as [Hm _]. apply (@In_nth_error val) in Hm. destruct Hm as [k Hk].
    assert (k < length rows) as Hlt. { rewrite <- (col_len_take V _ _ _ _ _ Hf Hc). apply nth_error_Some. congruence. }
    apply nth_error_Some in Hlt. destruct (nth_error rows k) as [i|] eqn:Hi; [|congruence].
    destruct (cell_take V _ _ _ _ _ _ _ Hf Hc Hi) as [x [Hn Hx]]. exists i, x. split; [eapply nth_error_In; eauto|].
    split; auto. rewrite Hk in Hn. inversion Hn; subst. apply same_value_iff. apply (gv_refl _ GM). auto.
  - intros k k' m m' Hk Hk' Hs. destruct (Nat.eq_dec k k') as [|Hne]; auto. exfalso.
    specialize (Hd k k' m m' Hne Hk Hk'). apply same_value_iff in Hs. congruence.
Qed.

Lemma code_some : forall cats x k, code_of V cats x = Some k -> exists m, nth_error cats k = Some m /\ same_value V m x.
Proof.
  intros cats x k H. apply (position_some (with_missing V)) in H. destruct H as [m [H1 H2]]. exists m. split; auto. apply same_value_iff; auto.
Qed.
Lemma code_none : forall cats x, code_of V cats x = None -> forall m, In m cats -> ~ same_value V m x.
Proof.
  intros cats x H m Hm Hs. apply same_value_iff in Hs. rewrite (position_none (with_missing V) cats x H m Hm) in Hs. discriminate.
Qed.

Context (E : denv V).

(** ** C59 *)

(** A label as it is returned. *)
Definition label_ok (d : dataset) (o : extracted V) (y : labels V) (k : nat) (x : val) : Prop :=
  match ds_task d with
  | DRegression => label_at V y k = Some (inl x)
  | DClassification => exists classes c m, x_classes V o = Some classes /\ label_at V y k = Some (inr c) /\
      nth_error classes c = Some m /\ same_value V m x
  end.

Lemma encode_at : forall classes la ya k x, encode_labels V classes la = Ok ya -> nth_error la k = Some x ->
  exists c m, nth_error ya k = Some c /\ nth_error classes c = Some m /\ same_value V m x.
Proof.
  intros classes la ya k x H Hk. unfold encode_labels in H. apply mapM_F2 in H.
  destruct (F2_nth _ _ _ H k x Hk) as [c [Hc Hx]]. destruct (code_of V classes x) as [c'|] eqn:Hco; [|discriminate].
  inversion Hx; subst. destruct (code_some _ _ _ Hco) as [m [Hm Hs]]. eauto.
Qed.

Theorem C59_partition : splits V E -> forall d df seed o, extract V E d df seed = Ok o ->
  exists tr te, chosen_rows V E d df seed tr te /\ Permutation (tr ++ te) (seq 0 (fr_n V df)) /\
    x_n_in V o = fr_n V df /\ x_n_train V o = length tr /\ x_n_test V o = length te /\
    x_n_train V o + x_n_test V o = x_n_in V o /\
    length (x_train V o) = x_n_columns V o /\ length (x_test V o) = x_n_columns V o /\
    (forall c, In c (x_train V o) -> length c = length tr) /\
    (forall c, In c (x_test V o) -> length c = length te) /\
    n_labels V (y_train V o) = length tr /\ n_labels V (y_test V o) = length te /\
    (forall k i, nth_error tr k = Some i -> exists x, cell V df (ds_label d) i = Some x /\ label_ok d o (y_train V o) k x) /\
    (forall k i, nth_error te k = Some i -> exists x, cell V df (ds_label d) i = Some x /\ label_ok d o (y_test V o) k x).
Proof.
  intros HS d df seed o H. destruct (extract_run V E d df seed o H) as (tr & te & fa & fb & steps & la & lb & R).
  destruct R. destruct rn_n as [Hn1 [Hn2 [Hn3 Hn4]]].
  assert (Permutation (tr ++ te) (seq 0 (fr_n V df))) as HP.
  { unfold chosen_rows in rn_rows. destruct (ds_task d); [eapply HS; eauto|]. destruct rn_rows as [l [_ Hl]]. eapply HS; eauto. }
  assert (length (x_test V o) = x_n_columns V o) as Hx.
  { rewrite Hn4, <- (F2_len _ _ _ rn_a), <- (F2_len _ _ _ rn_b). auto. }
  exists tr, te. repeat (split; [solve [auto]|]).
  split. { rewrite Hn1, Hn2, Hn3, <- app_length, (Permutation_length HP), seq_length. auto. }
  split; auto. split; auto.
  split. { intros c Hc. apply In_nth_error in Hc. destruct Hc as [k Hk]. destruct (F2_nth' _ _ _ rn_a k c Hk) as [p [_ Hp]].
           eapply made_len; eauto. }
  split. { intros c Hc. apply In_nth_error in Hc. destruct Hc as [k Hk]. destruct (F2_nth' _ _ _ rn_b k c Hk) as [p [_ Hp]].
           eapply made_len; eauto. }
  pose proof (col_len_take V _ _ _ _ _ rn_fa rn_la) as Hla. pose proof (col_len_take V _ _ _ _ _ rn_fb rn_lb) as Hlb.
  unfold label_ok. destruct (ds_task d) eqn:Ht.
  - destruct rn_y as [Hy1 [Hy2 _]]. rewrite Hy1, Hy2. simpl. split; auto. split; auto. split; intros k i Hk.
    + destruct (cell_take V _ _ _ _ _ _ _ rn_fa rn_la Hk) as [x [Hc Hx']]. exists x. rewrite Hc. auto.
    + destruct (cell_take V _ _ _ _ _ _ _ rn_fb rn_lb Hk) as [x [Hc Hx']]. exists x. rewrite Hc. auto.
  - destruct rn_y as (ya & yb & Hy1 & Hy2 & Hcl & Ha & Hb & _). rewrite Hy1, Hy2. simpl.
    pose proof Ha as Ha'. pose proof Hb as Hb'. unfold encode_labels in Ha', Hb'.
    apply mapM_F2 in Ha'. apply mapM_F2 in Hb'. apply F2_len in Ha'. apply F2_len in Hb'.
    split; [congruence|]. split; [congruence|]. split; intros k i Hk.
    + destruct (cell_take V _ _ _ _ _ _ _ rn_fa rn_la Hk) as [x [Hc Hx']]. exists x. split; auto.
      destruct (encode_at _ _ _ _ _ Ha Hc) as (c & m & Hc1 & Hc2 & Hc3). exists (modalities V la), c, m. rewrite Hc1. auto.
    + destruct (cell_take V _ _ _ _ _ _ _ rn_fb rn_lb Hk) as [x [Hc Hx']]. exists x. split; auto.
      destruct (encode_at _ _ _ _ _ Hb Hc) as (c & m & Hc1 & Hc2 & Hc3). exists (modalities V la), c, m. rewrite Hc1. auto.
Qed.

End Dataset.

Section TwoRuns.
Context {A : arith} (V : values A).
Notation val := (val V).
Notation T := (num A).
Context (E : denv V).

Lemma column_names_schema : forall d df df' steps, schema V df = schema V df' -> column_names V d df steps = column_names V d df' steps.
Proof.
  intros d df df' steps H. unfold column_names. rewrite (columns_where_schema V true d df df' H), (columns_where_schema V false d df df' H). auto.
Qed.

Lemma mask_schema : forall d df df', schema V df = schema V df' -> categorical_mask V d df = categorical_mask V d df'.
Proof.
  intros d df df' H. unfold categorical_mask. rewrite (columns_where_schema V true d df df' H), (columns_where_schema V false d df df' H). auto.
Qed.

(** Two files with the same columns: if the training rows have the same content, the training
    sets are equal, as well as all that is learned, and a test row is encoded in the same way,
    whatever the other test rows are. A row of the training set is encoded like a test row. *)
Theorem C59_learns_from_training_rows : forall E' d df df' seed seed' o o' tr te tr' te',
  de_scaler V E = de_scaler V E' -> de_int V E = de_int V E' -> de_nan V E = de_nan V E' ->
  frame_ok V df -> frame_ok V df' -> schema V df = schema V df' ->
  extract V E d df seed = Ok o -> extract V E' d df' seed' = Ok o' ->
  chosen_rows V E d df seed tr te -> chosen_rows V E' d df' seed' tr' te' ->
  Forall2 (fun i i' => same_row V df i df' i') tr tr' ->
  x_train V o = x_train V o' /\ y_train V o = y_train V o' /\ x_columns V o = x_columns V o' /\
  x_mask V o = x_mask V o' /\ x_classes V o = x_classes V o' /\
  (forall k i k' i', nth_error te k = Some i -> nth_error te' k' = Some i' -> same_row V df i df' i' ->
     matrix_row (x_test V o) k = matrix_row (x_test V o') k' /\ label_at V (y_test V o) k = label_at V (y_test V o') k') /\
  (forall k i k' i', nth_error tr k = Some i -> nth_error te' k' = Some i' -> same_row V df i df' i' ->
     matrix_row (x_train V o) k = matrix_row (x_test V o') k' /\ label_at V (y_train V o) k = label_at V (y_test V o') k').
Proof.
  intros E' d df df' seed seed' o o' tr te tr' te' Hsc Hint Hnan Hok Hok' Hsch H H' Hr Hr' HF.
  destruct (extract_run V E d df seed o H) as (tr1 & te1 & fa & fb & steps & la & lb & R).
  destruct (extract_run V E' d df' seed' o' H') as (tr2 & te2 & fa' & fb' & steps' & la' & lb' & R').
  destruct (chosen_rows_fun V E _ _ _ _ _ _ _ Hr (rn_rows V E _ _ _ _ _ _ _ _ _ _ _ R)). subst tr1 te1.
  destruct (chosen_rows_fun V E' _ _ _ _ _ _ _ Hr' (rn_rows V E' _ _ _ _ _ _ _ _ _ _ _ R')). subst tr2 te2.
  destruct R as [_ Ra Rb Rfit Rn RX RY _ Rla Rlb Rm Rnn Ry]. destruct R' as [_ Ra' Rb' Rfit' Rn' RX' RY' _ Rla' Rlb' Rm' Rnn' Ry'].
  pose proof (take_same V _ _ _ _ _ _ Hok Hok' Hsch HF Ra Ra'). subst fa'.
  assert (fit_transformer V E d fa = fit_transformer V E' d fa) as Hft.
  { unfold fit_transformer, fit_step, learn_col. rewrite Hsc. auto. }
  rewrite Hft in Rfit. rewrite Rfit in Rfit'. inversion Rfit'; subst steps'.
  rewrite (column_names_schema d df df' steps Hsch) in Rn. rewrite Rn in Rn'. inversion Rn' as [Hnames].
  assert (forall l, funs V E d l = funs V E' d l) as Hfuns by (intros [| | |]; simpl; unfold ord; rewrite ?Hnan; auto).
  assert (post V E d (x_columns V o) (plan V E d steps) = post V E' d (x_columns V o) (plan V E' d steps)) as Hpost.
  { assert (plan V E d steps = plan V E' d steps) as Hpl.
    { unfold plan. apply flat_map_ext. intros p. rewrite Hfuns. auto. }
    rewrite Hpl. unfold post, to_int. rewrite Hint. auto. }
  rewrite Hpost in RX, RY. rewrite <- Hnames in RX', RY'. clear Hpost.
  rewrite Rla in Rla'. inversion Rla'; subst la'.
  assert (x_train V o = x_train V o') as HX.
  { eapply F2_fun; [|exact RX|exact RX']. intros p c c' [cells [H1 H2]] [cells' [H1' H2']].
    rewrite H1 in H1'. inversion H1'; subst. rewrite H2 in H2'. inversion H2'; auto. }
  assert (y_train V o = y_train V o' /\ x_classes V o = x_classes V o') as [HY HC].
  { destruct (ds_task d).
    - destruct Ry as [Y1 [_ [Y2 _]]]. destruct Ry' as [Y1' [_ [Y2' _]]]. split; congruence.
    - destruct Ry as (ya & yb & Y1 & _ & Y2 & Y3 & _). destruct Ry' as (ya' & yb' & Y1' & _ & Y2' & Y3' & _).
      split; congruence. }
  split; auto. split; auto. split; auto. split. { rewrite Rm, Rm'. apply mask_schema; auto. } split; auto.
  assert (forall k i x, nth_error te k = Some i -> cell V df (ds_label d) i = Some x -> nth_error lb k = Some x) as HLB.
  { intros k i x Hk Hx. destruct (cell_take V _ _ _ _ _ _ _ Rb Rlb Hk) as [x' [H1 H2]]. congruence. }
  assert (forall k i x, nth_error te' k = Some i -> cell V df' (ds_label d) i = Some x -> nth_error lb' k = Some x) as HLB'.
  { intros k i x Hk Hx. destruct (cell_take V _ _ _ _ _ _ _ Rb' Rlb' Hk) as [x' [H1 H2]]. congruence. }
  assert (forall k i x, nth_error tr k = Some i -> cell V df (ds_label d) i = Some x -> nth_error la k = Some x) as HLA.
  { intros k i x Hk Hx. destruct (cell_take V _ _ _ _ _ _ _ Ra Rla Hk) as [x' [H1 H2]]. congruence. }
  assert (forall (l l' : list val) yl yl' k k' x, encode_labels V (modalities V la) l = Ok yl ->
     encode_labels V (modalities V la) l' = Ok yl' ->
     nth_error l k = Some x -> nth_error l' k' = Some x -> nth_error yl k = nth_error yl' k') as HEN.
  { intros l l' yl yl' k k' x H1 H2 H3 H4. unfold encode_labels in *. apply mapM_F2 in H1. apply mapM_F2 in H2.
    destruct (F2_nth _ _ _ H1 k x H3) as [c [H5 H6]]. destruct (F2_nth _ _ _ H2 k' x H4) as [c' [H7 H8]]. congruence. }
  split; intros k i k' i' Hk Hk' Hs.
  - split; [eapply row_same; [exact Rb|exact Rb'|exact RY|exact RY'|exact Hk|exact Hk'|exact Hs]|].
    destruct (cell_take V _ _ _ _ _ _ _ Rb Rlb Hk) as [x [H1 H2]]. pose proof H2 as H3. rewrite (Hs (ds_label d)) in H3.
    pose proof (HLB' _ _ _ Hk' H3) as H4. destruct (ds_task d).
    + destruct Ry as [_ [Y1 _]]. destruct Ry' as [_ [Y1' _]]. rewrite Y1, Y1'. simpl. rewrite H1, H4. auto.
    + destruct Ry as (ya & yb & _ & Y1 & _ & _ & Y2 & _). destruct Ry' as (ya' & yb' & _ & Y1' & _ & _ & Y2' & _).
      rewrite Y1, Y1'. simpl. rewrite (HEN _ _ _ _ _ _ _ Y2 Y2' H1 H4). auto.
  - split; [eapply row_same; [exact Ra|exact Rb'|exact RX|exact RY'|exact Hk|exact Hk'|exact Hs]|].
    destruct (cell_take V _ _ _ _ _ _ _ Ra Rla Hk) as [x [H1 H2]]. pose proof H2 as H3. rewrite (Hs (ds_label d)) in H3.
    pose proof (HLB' _ _ _ Hk' H3) as H4. destruct (ds_task d).
    + destruct Ry as [Y1 _]. destruct Ry' as [_ [Y1' _]]. rewrite Y1, Y1'. simpl. rewrite H1, H4. auto.
    + destruct Ry as (ya & yb & Y1 & _ & _ & Y2 & _). destruct Ry' as (ya' & yb' & _ & Y1' & _ & _ & Y2' & _).
      rewrite Y1, Y1'. simpl. rewrite (HEN _ _ _ _ _ _ _ Y2 Y2' H1 H4). auto.
Qed.

End TwoRuns.

Print Assumptions C59_partition.
Print Assumptions C59_learns_from_training_rows.
