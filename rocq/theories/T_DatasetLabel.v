(** * C61: the labels are not among the features *)

Require Import String List Arith Bool Permutation Lia.
Require Import Verif.Base Verif.Num Verif.M_Encoder.
Require Import Verif.M_Dataset Verif.S_Dataset Verif.P_Dataset Verif.T_Dataset.
Import ListNotations.
Local Open Scope res_scope.
Local Notation length := List.length.

Section Label.
Context {A : arith} (V : values A).
Notation val := (val V).
Notation T := (num A).

(** The two files only differ in the column of the labels. *)
Definition same_but (label : string) (df df' : frame V) : Prop :=
  fr_n V df = fr_n V df' /\ schema V df = schema V df' /\ forall c i, c <> label -> cell V df c i = cell V df' c i.

Lemma find_schema : forall (df df' : frame V) c, schema V df = schema V df' ->
  match find (fun p => String.eqb c (fst p)) (fr_cols V df), find (fun p => String.eqb c (fst p)) (fr_cols V df') with
  | Some _, Some _ | None, None => True
  | _, _ => False
  end.
Proof.
  intros df df' c H. unfold schema in H. revert H. generalize (fr_cols V df) (fr_cols V df').
  induction l as [|p l IH]; intros [|p' l'] H; simpl in *; try discriminate; auto. injection H as H1 H2 H3.
  rewrite H1. destruct (String.eqb c (fst p')); [exact I|]. apply IH. exact H3.
Qed.

Lemma col_same : forall rows df df' f f' c label, same_but label df df' -> c <> label ->
  take_rows V rows df = Ok f -> take_rows V rows df' = Ok f' -> col V f c = col V f' c.
Proof.
  intros rows df df' f f' c label [_ [Hs Hc]] Hne H H'.
  assert (schema V f = schema V f') as Hsf by (rewrite (schema_take V _ _ _ H), (schema_take V _ _ _ H'); auto).
  pose proof (find_schema f f' c Hsf) as Hm.
  destruct (col V f c) as [cells|e] eqn:H1; destruct (col V f' c) as [cells'|e'] eqn:H2.
  - f_equal. apply nth_error_ext. intros k. destruct (nth_error rows k) as [i|] eqn:Hi.
    + destruct (cell_take V _ _ _ _ _ _ _ H H1 Hi) as [x [Hx1 Hx2]]. destruct (cell_take V _ _ _ _ _ _ _ H' H2 Hi) as [x' [Hx1' Hx2']].
      rewrite (Hc c i Hne) in Hx2. congruence.
    + apply nth_error_None in Hi. transitivity (@None val); [|symmetry]; apply nth_error_None.
      * rewrite (col_len_take V _ _ _ _ _ H H1). auto.
      * rewrite (col_len_take V _ _ _ _ _ H' H2). auto.
  - exfalso. unfold col in *. destruct (find _ (fr_cols V f)); destruct (find _ (fr_cols V f')); try discriminate; auto.
  - exfalso. unfold col in *. destruct (find _ (fr_cols V f)); destruct (find _ (fr_cols V f')); try discriminate; auto.
  - unfold col in *. destruct (find _ (fr_cols V f)); destruct (find _ (fr_cols V f')); try discriminate; congruence.
Qed.

Lemma mapM_ext_in : forall {X Y} (f g : X -> res Y) l, (forall x, In x l -> f x = g x) -> mapM f l = mapM g l.
Proof.
  intros X Y f g l H. induction l as [|x l IH]; simpl; auto. rewrite (H x) by (simpl; auto). rewrite IH by (intros; apply H; simpl; auto). auto.
Qed.

Lemma fit_step_same : forall E d f f' cat names, (forall c, In c names -> col V f c = col V f' c) ->
  fit_step V E d f cat names = fit_step V E d f' cat names.
Proof.
  intros E d f f' cat names H. unfold fit_step. destruct names as [|c names]; auto.
  rewrite (mapM_ext_in _ (fun c => let* cells := select V f' c in let* l := learn_col V E d cat cells in Ok (c, l))); auto.
  intros c' Hc'. unfold select. rewrite (H c' Hc'). auto.
Qed.

Lemma fit_names : forall E d f cat names ss, fit_step V E d f cat names = Ok ss ->
  map fst (flat_map (ts_cols V) ss) = names.
Proof.
  intros E d f cat names ss H. destruct names as [|c names]; [inversion H; auto|].
  unfold fit_step in H. apply bind_ok in H. destruct H as [cols [Hc H]]. inversion H; subst. simpl. rewrite app_nil_r.
  apply mapM_F2 in Hc. revert Hc. generalize (c :: names). intros l HF. induction HF as [|x p l cols Hp HF IH]; simpl; auto.
  f_equal; auto. apply bind_ok in Hp. destruct Hp as [cells [_ Hp]]. apply bind_ok in Hp. destruct Hp as [y [_ Hp]]. inversion Hp; auto.
Qed.

(** The matrices, the names and the mask do not depend on the labels, given the choice of the
    rows, if the label is not in the lists given to the constructor. *)
Theorem C61_label_not_used : forall E E' d df df' seed seed' o o' tr te,
  de_scaler V E = de_scaler V E' -> de_int V E = de_int V E' -> de_nan V E = de_nan V E' ->
  same_but (ds_label d) df df' ->
  ~ In (ds_label d) (names_in (ds_continuous d)) -> ~ In (ds_label d) (names_in (ds_categorical d)) ->
  extract V E d df seed = Ok o -> extract V E' d df' seed' = Ok o' ->
  chosen_rows V E d df seed tr te -> chosen_rows V E' d df' seed' tr te ->
  x_train V o = x_train V o' /\ x_test V o = x_test V o' /\ x_columns V o = x_columns V o' /\ x_mask V o = x_mask V o'.
Proof.
  intros E E' d df df' seed seed' o o' tr te Hsc Hint Hnan HB Hl1 Hl2 H H' Hr Hr'.
  destruct (extract_run V E d df seed o H) as (tr1 & te1 & fa & fb & steps & la & lb & R).
  destruct (extract_run V E' d df' seed' o' H') as (tr2 & te2 & fa' & fb' & steps' & la' & lb' & R').
  destruct (chosen_rows_fun V E _ _ _ _ _ _ _ Hr (rn_rows V E _ _ _ _ _ _ _ _ _ _ _ R)). subst tr1 te1.
  destruct (chosen_rows_fun V E' _ _ _ _ _ _ _ Hr' (rn_rows V E' _ _ _ _ _ _ _ _ _ _ _ R')). subst tr2 te2.
  destruct R as [_ Ra Rb Rfit Rn RX RY _ Rla Rlb Rm Rnn Ry]. destruct R' as [_ Ra' Rb' Rfit' Rn' RX' RY' _ Rla' Rlb' Rm' Rnn' Ry'].
  pose proof (fun c Hc => col_same _ _ _ _ _ c _ HB Hc Ra Ra') as HA. pose proof (fun c Hc => col_same _ _ _ _ _ c _ HB Hc Rb Rb') as HBb.
  assert (fit_transformer V E d fa = fit_transformer V E' d fa') as Hft.
  { transitivity (fit_transformer V E' d fa).
    - unfold fit_transformer, fit_step, learn_col. rewrite Hsc. auto.
    - unfold fit_transformer. rewrite (fit_step_same E' d fa fa' false), (fit_step_same E' d fa fa' true); auto;
        intros c Hc; apply HA; intros ->; auto. }
  rewrite Hft in Rfit. rewrite Rfit in Rfit'. inversion Rfit'; subst steps'. destruct HB as [Hn [Hs Hc]].
  rewrite (column_names_schema V d df df' steps Hs) in Rn. rewrite Rn in Rn'. inversion Rn' as [Hnames].
  assert (forall l, funs V E d l = funs V E' d l) as Hfuns by (intros [| | |]; simpl; unfold ord; rewrite ?Hnan; auto).
  assert (post V E d (x_columns V o) (plan V E d steps) = post V E' d (x_columns V o) (plan V E' d steps)) as Hpost.
  { assert (plan V E d steps = plan V E' d steps) as Hpl.
    { unfold plan. apply flat_map_ext. intros p. rewrite Hfuns. auto. }
    rewrite Hpl. unfold post, to_int. rewrite Hint. auto. }
  rewrite Hpost in RX, RY. rewrite <- Hnames in RX', RY'. clear Hpost.
  assert (forall q, In q (post V E' d (x_columns V o) (plan V E' d steps)) -> fst q <> ds_label d) as Hq.
  { intros q Hq.
    assert (exists p, In p (plan V E' d steps) /\ fst p = fst q) as [p [Hp Hpq]].
    { unfold post in Hq. destruct (ds_pd d); [|eauto]. destruct (ds_categorical d); [|eauto].
      apply in_map_iff in Hq. destruct Hq as [[a b] [Hq Hin]]. apply in_combine_r in Hin. subst q. simpl. eauto. }
    rewrite <- Hpq. unfold plan in Hp. apply in_flat_map in Hp. destruct Hp as [cl [Hcl Hp]].
    apply in_map_iff in Hp. destruct Hp as [f [<- _]]. simpl.
    unfold fit_transformer in Rfit. apply bind_ok in Rfit. destruct Rfit as [a [Fa Rfit]]. apply bind_ok in Rfit. destruct Rfit as [b [Fb Rfit]].
    inversion Rfit; subst steps. rewrite flat_map_app in Hcl. apply in_app_iff in Hcl. destruct Hcl as [Hcl|Hcl].
    - intros He. apply Hl1. rewrite <- (fit_names _ _ _ _ _ _ Fa), <- He. apply in_map; auto.
    - intros He. apply Hl2. rewrite <- (fit_names _ _ _ _ _ _ Fb), <- He. apply in_map; auto. }
  assert (forall f f' X X', (forall c, c <> ds_label d -> col V f c = col V f' c) ->
     Forall2 (made V f) (post V E' d (x_columns V o) (plan V E' d steps)) X ->
     Forall2 (made V f') (post V E' d (x_columns V o) (plan V E' d steps)) X' -> X = X') as HG.
  { intros f f' X X' Hcc HX HX'. eapply (F2_fun (fun q c => made V f' q c)).
    - intros q c c' [cells [H1 H2]] [cells' [H1' H2']]. rewrite H1 in H1'. inversion H1'; subst. rewrite H2 in H2'. inversion H2'; auto.
    - eapply F2_impl; [|exact HX]. intros q c Hin [cells [H1 H2]]. exists cells. rewrite <- (Hcc _ (Hq q Hin)). auto.
    - exact HX'. }
  split; [eapply HG; [exact HA|exact RX|exact RX']|]. split; [eapply HG; [exact HBb|exact RY|exact RY']|]. split; auto.
  rewrite Rm, Rm'. apply mask_schema; auto.
Qed.

(** [from_dtype] gives such lists when the label is not a key of the dictionary. *)
Theorem C61_from_dtype : forall task label dtype drop one_hot, ~ In label (map fst dtype) ->
  let d := from_dtype task label dtype drop one_hot in
  ds_label d = label /\ ~ In label (names_in (ds_continuous d)) /\ ~ In label (names_in (ds_categorical d)).
Proof.
  intros task label dtype drop one_hot H. simpl. split; auto.
  split; intros Hi; apply H; apply in_map_iff in Hi; destruct Hi as [p [<- Hp]]; apply filter_In in Hp; apply in_map; apply Hp.
Qed.

(** The raw loader: the features are the columns of the file, without the label and the
    dropped columns, unchanged; the labels are the column of the labels. *)
Theorem C61_raw : forall df label drop X y, frame_ok V df -> get_X_y V df label drop = Ok (X, y) ->
  fr_n V X = fr_n V df /\ length y = fr_n V df /\ ~ In label (map fst (fr_cols V X)) /\
  (forall i, i < fr_n V df -> cell V df label i = nth_error y i) /\
  (forall c, In c (map fst (fr_cols V X)) <-> In c (map fst (fr_cols V df)) /\ c <> label /\ ~ In c drop) /\
  (forall c, In c (fr_cols V X) -> In c (fr_cols V df)).
Proof.
  assert (forall c l, mem_name c l = true <-> In c l) as HMEM.
  { intros c l. unfold mem_name. rewrite existsb_exists. split.
    - intros [x [Hx He]]. apply String.eqb_eq in He. subst; auto.
    - intros H. exists c. split; auto. apply String.eqb_refl. }
  assert (forall names f g, drop_cols V names f = Ok g -> fr_n V g = fr_n V f /\
     fr_cols V g = filter (fun c => negb (mem_name (fst c) names)) (fr_cols V f)) as HD.
  { intros names f g Hg. unfold drop_cols in Hg. destruct (forallb _ names); inversion Hg; auto. }
  intros df label drop X y [Hnd Hlen] H. unfold get_X_y in H.
  apply bind_ok in H. destruct H as [f [Hf H]]. apply bind_ok in H. destruct H as [y' [Hy H]]. apply bind_ok in H.
  destruct H as [X' [HX H]]. inversion H; subst. destruct (HD _ _ _ Hf) as [Hn1 Hc1]. destruct (HD _ _ _ HX) as [Hn2 Hc2].
  assert (forall c, In c (fr_cols V X) <-> In c (fr_cols V df) /\ fst c <> label /\ ~ In (fst c) drop) as HI.
  { intros c. rewrite Hc2, filter_In, Hc1, filter_In. rewrite !negb_true_iff. rewrite <- !not_true_iff_false, !HMEM. simpl.
    split; intros [H1 H2].
    - destruct H1 as [H1 H3]. split; auto.
    - destruct H2 as [H2 H3]. split; auto. intros [E|[]]; auto. }
  assert (In label (map fst (fr_cols V f)) -> exists p, In p (fr_cols V df) /\ fst p = label /\ In p (fr_cols V f)) as HL.
  { intros Hi. apply in_map_iff in Hi. destruct Hi as [p [Hp Hi]]. exists p. split; auto. rewrite Hc1 in Hi. apply filter_In in Hi. apply Hi. }
  unfold col in Hy. destruct (find (fun c => String.eqb label (fst c)) (fr_cols V f)) as [p|] eqn:Hfind; [|discriminate].
  inversion Hy; subst y. apply find_some in Hfind. destruct Hfind as [Hp He]. apply String.eqb_eq in He. subst label.
  assert (In p (fr_cols V df)) as Hpd. { rewrite Hc1 in Hp. apply filter_In in Hp. apply Hp. }
  split; [congruence|]. split; [apply Hlen; auto|].
  split. { intros Hi. apply in_map_iff in Hi. destruct Hi as [q [Hq Hi]]. apply HI in Hi. destruct Hi as [_ [Hi _]]. auto. }
  split. { intros i Hi. unfold cell. rewrite (find_in _ _ Hnd Hpd). auto. }
  split. { intros c. split.
           - intros Hi. apply in_map_iff in Hi. destruct Hi as [q [<- Hi]]. apply HI in Hi. destruct Hi as [H1 H2]. split; [apply in_map; auto|auto].
           - intros [Hi [H1 H2]]. apply in_map_iff in Hi. destruct Hi as [q [<- Hi]]. apply in_map_iff. exists q. split; auto. apply HI. auto. }
  intros c Hc. apply HI in Hc. apply Hc.
Qed.

End Label.

Print Assumptions C61_label_not_used.
Print Assumptions C61_from_dtype.
Print Assumptions C61_raw.
