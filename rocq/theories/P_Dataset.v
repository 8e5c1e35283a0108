(** * Columns of the matrices made by extract *)

Require Import String List Arith Bool Permutation Lia.
Require Import Verif.Base Verif.Num Verif.M_Encoder Verif.M_Dataset Verif.S_Dataset.
Import ListNotations.
Local Open Scope res_scope.
Local Notation length := List.length.

Lemma mapM_F2 : forall {X Y} (f : X -> res Y) l r, mapM f l = Ok r <-> Forall2 (fun x y => f x = Ok y) l r.
Proof.
  intros X Y f l. induction l as [|x l IH]; intros r; split; intros H; simpl in *.
  - inversion H; constructor.
  - inversion H; auto.
  - apply bind_ok in H. destruct H as [y [Hy H]]. apply bind_ok in H. destruct H as [t [Ht H]].
    inversion H; subst. constructor; auto. apply IH; auto.
  - inversion H; subst. rewrite H2. simpl. apply IH in H4. rewrite H4. auto.
Qed.

Lemma F2_impl : forall {X Y} (P Q : X -> Y -> Prop) l r, (forall x y, In x l -> P x y -> Q x y) -> Forall2 P l r -> Forall2 Q l r.
Proof.
  intros X Y P Q l r H HF. induction HF; constructor.
  - apply H; simpl; auto.
  - apply IHHF. intros; apply H; simpl; auto.
Qed.

Lemma F2_len : forall {X Y} (P : X -> Y -> Prop) l r, Forall2 P l r -> length l = length r.
Proof. intros X Y P l r H; induction H; simpl; auto. Qed.

Lemma F2_nth : forall {X Y} (P : X -> Y -> Prop) l r, Forall2 P l r -> forall k x, nth_error l k = Some x ->
  exists y, nth_error r k = Some y /\ P x y.
Proof.
  intros X Y P l r H; induction H; intros [|k] a Ha; simpl in *; try discriminate; eauto.
  inversion Ha; subst; eauto.
Qed.

Lemma F2_nth' : forall {X Y} (P : X -> Y -> Prop) l r, Forall2 P l r -> forall k y, nth_error r k = Some y ->
  exists x, nth_error l k = Some x /\ P x y.
Proof.
  intros X Y P l r H; induction H; intros [|k] a Ha; simpl in *; try discriminate; eauto.
  inversion Ha; subst; eauto.
Qed.

Lemma F2_fun : forall {X Y} (P : X -> Y -> Prop), (forall x y y', P x y -> P x y' -> y = y') ->
  forall l r r', Forall2 P l r -> Forall2 P l r' -> r = r'.
Proof.
  intros X Y P HP l r r' H; revert r'. induction H; intros r' H'; inversion H'; subst; auto.
  f_equal; eauto.
Qed.

Lemma F2_map_l : forall {X Y Z} (g : X -> Y) (P : Y -> Z -> Prop) l r,
  Forall2 (fun x z => P (g x) z) l r <-> Forall2 P (map g l) r.
Proof.
  intros X Y Z g P l. induction l as [|x l IH]; intros r; split; intros H; inversion H; subst; constructor; auto; apply IH; auto.
Qed.

Section Frames.
Context {A : arith} (V : values A).
Notation val := (val V).
Notation T := (num A).
Notation frame := (frame V).

(** ** Rows of a frame *)

Definition row_match (rows : list nat) (c c' : string * (bool * list val)) : Prop :=
  fst c' = fst c /\ fst (snd c') = fst (snd c) /\ mapM (geti (snd (snd c))) rows = Ok (snd (snd c')).

Lemma take_rows_spec : forall rows df f, take_rows V rows df = Ok f ->
  fr_n V f = length rows /\ Forall2 (row_match rows) (fr_cols V df) (fr_cols V f).
Proof.
  intros rows df f H. unfold take_rows in H. apply bind_ok in H. destruct H as [cols [Hc H]].
  inversion H; subst; simpl. split; auto. apply mapM_F2 in Hc.
  eapply F2_impl; [|exact Hc]. intros x y _ Hxy. simpl in Hxy.
  apply bind_ok in Hxy. destruct Hxy as [cells [Hm Hy]]. inversion Hy; subst. unfold row_match; simpl; auto.
Qed.

Lemma col_match : forall rows cols cols' name, Forall2 (row_match rows) cols cols' ->
  match find (fun c => String.eqb name (fst c)) cols, find (fun c => String.eqb name (fst c)) cols' with
  | Some c, Some c' => row_match rows c c'
  | None, None => True
  | _, _ => False
  end.
Proof.
  intros rows cols cols' name H. induction H as [|x y l l' Hxy HF IH]; simpl; auto.
  destruct Hxy as [H1 [H2 H3]]. rewrite H1. destruct (String.eqb name (fst x)); [unfold row_match; auto|auto].
Qed.

Lemma col_take : forall rows df f name cells', take_rows V rows df = Ok f -> col V f name = Ok cells' ->
  exists cells, col V df name = Ok cells /\ mapM (geti cells) rows = Ok cells'.
Proof.
  intros rows df f name cells' H Hc. apply take_rows_spec in H. destruct H as [_ HF].
  pose proof (col_match _ _ _ name HF) as Hm. unfold col in *.
  destruct (find _ (fr_cols V df)) as [c|]; destruct (find _ (fr_cols V f)) as [c'|]; try contradiction; try discriminate.
  inversion Hc; subst. exists (snd (snd c)). split; auto. apply Hm.
Qed.

Lemma schema_take : forall rows df f, take_rows V rows df = Ok f -> schema V f = schema V df.
Proof.
  intros rows df f H. apply take_rows_spec in H. destruct H as [_ HF]. unfold schema.
  induction HF as [|x y l l' Hxy HF IH]; simpl; auto. destruct Hxy as [H1 [H2 _]]. rewrite H1, H2, IH. auto.
Qed.

Lemma cell_take : forall rows df f name cells' k i, take_rows V rows df = Ok f -> col V f name = Ok cells' ->
  nth_error rows k = Some i -> exists x, nth_error cells' k = Some x /\ cell V df name i = Some x.
Proof.
  intros rows df f name cells' k i H Hc Hk. destruct (col_take _ _ _ _ _ H Hc) as [cells [Hd Hm]].
  apply mapM_F2 in Hm. destruct (F2_nth _ _ _ Hm k i Hk) as [x [Hx Hg]]. exists x. split; auto.
  unfold cell. unfold col in Hd. destruct (find _ (fr_cols V df)); inversion Hd; subst.
  unfold geti in Hg. destruct (nth_error (snd (snd p)) i); inversion Hg; auto.
Qed.

Lemma col_len_take : forall rows df f name cells', take_rows V rows df = Ok f -> col V f name = Ok cells' ->
  length cells' = length rows.
Proof.
  intros rows df f name cells' H Hc. destruct (col_take _ _ _ _ _ H Hc) as [cells [Hd Hm]].
  apply mapM_F2 in Hm. apply F2_len in Hm. auto.
Qed.

(** Frames with the same schema and the same rows. *)
Lemma find_in : forall {X} (cols : list (string * X)) c, NoDup (map fst cols) -> In c cols ->
  find (fun p => String.eqb (fst c) (fst p)) cols = Some c.
Proof.
  intros X cols c Hn Hi. induction cols as [|a l IH]; simpl in *; [contradiction|].
  inversion Hn; subst. destruct Hi as [Hi|Hi].
  - subst. rewrite String.eqb_refl. auto.
  - destruct (String.eqb (fst c) (fst a)) eqn:He; auto. apply String.eqb_eq in He. exfalso. apply H1.
    rewrite <- He. apply in_map. auto.
Qed.

Lemma take_same : forall rows rows' df df' f f', frame_ok V df -> frame_ok V df' -> schema V df = schema V df' ->
  Forall2 (fun i i' => same_row V df i df' i') rows rows' ->
  take_rows V rows df = Ok f -> take_rows V rows' df' = Ok f' -> f = f'.
Proof.
  intros rows rows' df df' f f' [Hn _] [Hn' _] Hs HR H H'.
  pose proof (take_rows_spec _ _ _ H) as [Hl HF]. pose proof (take_rows_spec _ _ _ H') as [Hl' HF'].
  destruct f as [n cols]; destruct f' as [n' cols']; simpl in *. f_equal.
  - subst. apply F2_len in HR. auto.
  - assert (forall sc sc' oc oc', (forall c, In c sc -> In c (fr_cols V df)) -> (forall c, In c sc' -> In c (fr_cols V df')) ->
        map (fun c => (fst c, fst (snd c))) sc = map (fun c => (fst c, fst (snd c))) sc' ->
        Forall2 (row_match rows) sc oc -> Forall2 (row_match rows') sc' oc' -> oc = oc') as Hgen.
    { induction sc as [|c sc IH]; intros sc' oc oc' Hi Hi' Hm Hf Hf'.
      - destruct sc'; [|discriminate]. inversion Hf; inversion Hf'; auto.
      - destruct sc' as [|c' sc']; [discriminate|]. inversion Hf as [|a1' y l1 oc1 Hy Hf1]; subst. inversion Hf' as [|a2' y0 l2 oc2 Hy0 Hf2]; subst.
        simpl in Hm. injection Hm as H1 H2 H3.
        f_equal.
        + destruct Hy as [Ha [Hb Hc]]. destruct Hy0 as [Ha' [Hb' Hc']].
          destruct y as [yn [yb yc]]; destruct y0 as [yn' [yb' yc']]; simpl in *. subst yn yn' yb yb'.
          rewrite H1, H2. f_equal. f_equal.
          assert (forall i i', same_row V df i df' i' -> geti (snd (snd c)) i = geti (snd (snd c')) i') as Hg.
          { intros i i' Hsr. specialize (Hsr (fst c)). unfold cell in Hsr.
            rewrite (find_in _ _ Hn (Hi c (or_introl eq_refl))) in Hsr. rewrite H1 in Hsr.
            rewrite (find_in _ _ Hn' (Hi' c' (or_introl eq_refl))) in Hsr. unfold geti. rewrite Hsr. auto. }
          clear - Hg HR Hc Hc'. revert yc yc' Hc Hc'. induction HR; intros; simpl in *.
          * inversion Hc; inversion Hc'; auto.
          * apply bind_ok in Hc. destruct Hc as [a [Ha Hc]]. apply bind_ok in Hc. destruct Hc as [b [Hb Hc]].
            apply bind_ok in Hc'. destruct Hc' as [a' [Ha' Hc']]. apply bind_ok in Hc'. destruct Hc' as [b' [Hb' Hc']].
            inversion Hc; inversion Hc'; subst. rewrite (Hg _ _ H) in Ha. rewrite Ha in Ha'. inversion Ha'. f_equal. auto.
        + apply (IH sc'); auto; intros; [apply Hi|apply Hi']; simpl; auto. }
    apply (Hgen (fr_cols V df) (fr_cols V df')); auto.
Qed.

Lemma columns_where_schema : forall b d df df', schema V df = schema V df' -> columns_where V b d df = columns_where V b d df'.
Proof.
  intros b d df df' H. unfold columns_where. unfold schema in H. revert H. generalize (fr_cols V df) (fr_cols V df').
  induction l as [|c l IH]; intros [|c' l'] H; simpl in *; try discriminate; auto.
  inversion H. rewrite H1, H2. destruct (_ && _)%bool; simpl; rewrite (IH l'); auto. rewrite H1; auto.
Qed.

(** ** One function of the cell for each column of the matrix *)

Context (E : denv V).

Definition conv (x : val) : res T := match as64 V x with Some y => Ok y | None => Err ValueErr end.

Definition hot (cats : list val) (k : nat) (x : val) : res T :=
  Ok (match code_of V cats x with Some k' => if k =? k' then a1 else a0 | None => a0 end).
Definition ord (cats : list val) (x : val) : res T :=
  Ok (match code_of V cats x with Some k => if isna V x then de_nan V E else aofnat k | None => aopp a1 end).

Definition funs (d : dataset) (l : lcol V) : list (val -> res T) :=
  match l with
  | LScale _ m s => [fun x => let* r := conv x in Ok (adiv (asub r m) s)]
  | LSame _ => [conv]
  | LHot _ cats => map (hot cats) (seq (if ds_drop_first d then 1 else 0) (length cats - (if ds_drop_first d then 1 else 0)))
  | LOrd _ cats => [ord cats]
  end.

Lemma mapM_map : forall {X Y Z} (f : X -> res Y) (g : Y -> Z) l r, mapM f l = Ok r ->
  mapM (fun x => let* y := f x in Ok (g y)) l = Ok (map g r).
Proof.
  intros X Y Z f g l. induction l as [|x l IH]; intros r H; simpl in *.
  - inversion H; auto.
  - apply bind_ok in H. destruct H as [y [Hy H]]. apply bind_ok in H. destruct H as [t [Ht H]]. inversion H; subst.
    rewrite Hy. simpl. rewrite (IH _ Ht). auto.
Qed.

Lemma apply_col_spec : forall d l cells cols, apply_col V E d l cells = Ok cols ->
  Forall2 (fun f c => mapM f cells = Ok c) (funs d l) cols.
Proof.
  intros d l cells cols H. destruct l as [m s| |cats|cats]; simpl in *.
  - apply bind_ok in H. destruct H as [xs [Hx H]]. inversion H; subst. constructor; [|constructor].
    apply mapM_map. exact Hx.
  - apply bind_ok in H. destruct H as [xs [Hx H]]. inversion H; subst. constructor; [exact Hx|constructor].
  - inversion H; subst. generalize (seq (if ds_drop_first d then 1 else 0) (length cats - (if ds_drop_first d then 1 else 0))).
    induction l as [|k l IH]; simpl; constructor; auto. apply mapM_pure. intros; reflexivity.
  - inversion H; subst. constructor; [|constructor]. apply mapM_pure. intros; reflexivity.
Qed.

Definition plan (d : dataset) (steps : list (tstep V)) : list (string * (val -> res T)) :=
  flat_map (fun p => map (pair (fst p)) (funs d (snd p))) (flat_map (ts_cols V) steps).

Definition made (df : frame) (p : string * (val -> res T)) (c : list T) : Prop :=
  exists cells, col V df (fst p) = Ok cells /\ mapM (snd p) cells = Ok c.

Lemma select_col : forall df c cells, select V df c = Ok cells -> col V df c = Ok cells.
Proof. intros df c cells H. unfold select in H. destruct (col V df c); inversion H; auto. Qed.

Lemma transform_spec : forall d steps df X, transform_frame V E d steps df = Ok X -> Forall2 (made df) (plan d steps) X.
Proof.
  intros d steps df X H. unfold transform_frame in H. apply bind_ok in H. destruct H as [bl [Hb H]]. inversion H; subst. clear H.
  unfold plan. revert bl Hb. generalize (flat_map (ts_cols V) steps). induction l as [|p l IH]; intros bl Hb; simpl in *.
  - inversion Hb; constructor.
  - apply bind_ok in Hb. destruct Hb as [y [Hy Hb]]. apply bind_ok in Hb. destruct Hb as [t [Ht Hb]]. inversion Hb; subst. simpl.
    apply bind_ok in Hy. destruct Hy as [cells [Hc Hy]]. apply select_col in Hc. apply apply_col_spec in Hy.
    apply Forall2_app; auto. apply (F2_map_l (pair (fst p))). eapply F2_impl; [|exact Hy]. intros f c _ Hf. exists cells. auto.
Qed.

(** ... after the conversion to a data frame. *)
Definition to_int (x : T) : res T := match de_int V E x with Some y => Ok y | None => Err ValueErr end.
Definition post (d : dataset) (names : list string) (p : list (string * (val -> res T))) : list (string * (val -> res T)) :=
  match ds_pd d, ds_categorical d with
  | true, Some cats =>
      map (fun q => (fst (snd q), if mem_name (fst q) cats then fun x => let* r := snd (snd q) x in to_int r else snd (snd q)))
        (combine names p)
  | _, _ => p
  end.

Lemma mapM_bind : forall {X Y Z} (f : X -> res Y) (g : Y -> res Z) l r s, mapM f l = Ok r -> mapM g r = Ok s ->
  mapM (fun x => let* y := f x in g y) l = Ok s.
Proof.
  intros X Y Z f g l. induction l as [|x l IH]; intros r s H H'; simpl in *.
  - inversion H; subst; auto.
  - apply bind_ok in H. destruct H as [y [Hy H]]. apply bind_ok in H. destruct H as [t [Ht H]]. inversion H; subst. simpl in H'.
    apply bind_ok in H'. destruct H' as [z [Hz H']]. apply bind_ok in H'. destruct H' as [u [Hu H']]. inversion H'; subst.
    rewrite Hy. simpl. rewrite Hz. simpl. rewrite (IH _ _ Ht Hu). auto.
Qed.

Lemma as_frame_spec : forall d names df p X X', as_frame V E d names X = Ok X' -> Forall2 (made df) p X ->
  Forall2 (made df) (post d names p) X' /\ length X' = length X /\ length (post d names p) = length p.
Proof.
  intros d names df p X X' H HF. unfold as_frame in H. unfold post.
  destruct (ds_pd d); [|inversion H; subst; auto].
  destruct (length names =? length X) eqn:Hl; [|discriminate]. apply Nat.eqb_eq in Hl.
  destruct (ds_categorical d) as [cats|]; [|inversion H; subst; auto].
  unfold to_category in H. destruct (forallb _ cats); [|discriminate]. pose proof (F2_len _ _ _ HF) as Hp.
  split; [|split].
  - clear Hp. revert names X' Hl H. induction HF as [|q c p X Hq HF IH]; intros [|nm names] X' Hl H; simpl in *; try discriminate.
    + inversion H; constructor.
    + apply bind_ok in H. destruct H as [y [Hy H]]. apply bind_ok in H. destruct H as [t [Ht H]]. inversion H; subst.
      constructor; [|apply IH; auto]. destruct Hq as [cells [Hc Hm]]. exists cells. simpl. split; auto.
      destruct (mem_name nm cats); [|inversion Hy; subst; auto].
      eapply mapM_bind; [exact Hm|]. exact Hy.
  - apply mapM_F2 in H. apply F2_len in H. rewrite <- H, combine_length. lia.
  - rewrite map_length, combine_length. lia.
Qed.

(** ** The run of [extract] *)

Record run (d : dataset) (df : frame) (seed : nat) (o : extracted V) (tr te : list nat) (fa fb : frame)
    (steps : list (tstep V)) (la lb : list val) : Prop := mkRun {
  rn_rows : chosen_rows V E d df seed tr te;
  rn_fa : take_rows V tr df = Ok fa;
  rn_fb : take_rows V te df = Ok fb;
  rn_fit : fit_transformer V E d fa = Ok steps;
  rn_names : column_names V d df steps = Ok (x_columns V o);
  rn_a : Forall2 (made fa) (post d (x_columns V o) (plan d steps)) (x_train V o);
  rn_b : Forall2 (made fb) (post d (x_columns V o) (plan d steps)) (x_test V o);
  rn_plan : length (post d (x_columns V o) (plan d steps)) = length (plan d steps);
  rn_la : col V fa (ds_label d) = Ok la;
  rn_lb : col V fb (ds_label d) = Ok lb;
  rn_mask : x_mask V o = categorical_mask V d df;
  rn_n : x_n_in V o = fr_n V df /\ x_n_train V o = length tr /\ x_n_test V o = length te /\ x_n_columns V o = length (x_train V o);
  rn_y : match ds_task d with
         | DRegression => y_train V o = YValues V la /\ y_test V o = YValues V lb /\ x_classes V o = None /\ x_scaled_gini V o = None
         | DClassification => exists ya yb, y_train V o = YCodes V ya /\ y_test V o = YCodes V yb /\
             x_classes V o = Some (modalities V la) /\
             encode_labels V (modalities V la) la = Ok ya /\ encode_labels V (modalities V la) lb = Ok yb /\
             exists lall probs, col V df (ds_label d) = Ok lall /\ label_probs V lall = Ok probs /\
             x_scaled_gini V o = Some (scaled_gini probs)
         end
}.

Ltac step H x Hx := apply bind_ok in H; destruct H as [x [Hx H]].

Lemma extract_run : forall d df seed o, extract V E d df seed = Ok o ->
  exists tr te fa fb steps la lb, run d df seed o tr te fa fb steps la lb.
Proof.
  intros d df seed o H. unfold extract in H.
  step H strat Hst. step H sp Htt. destruct sp as [tr te]. step H fa Hfa. step H fb Hfb. step H steps Hfit.
  step H Xa0 HXa. step H Xb0 HXb. step H names Hn. step H Xa Hfra. step H Xb Hfrb. step H la Hla. step H lb Hlb. step H lall Hall.
  exists tr, te, fa, fb, steps, la, lb.
  assert (chosen_rows V E d df seed tr te) as Hrows.
  { unfold chosen_rows. destruct (ds_task d); [inversion Hst; subst; auto|]. step Hst l Hl. inversion Hst; subst. eauto. }
  destruct (as_frame_spec _ _ _ _ _ _ Hfra (transform_spec _ _ _ _ HXa)) as [Ha [Hla' Hlp]].
  destruct (as_frame_spec _ _ _ _ _ _ Hfrb (transform_spec _ _ _ _ HXb)) as [Hb [Hlb' _]].
  assert (fr_n V fa = length tr) as Hna by (apply take_rows_spec in Hfa; apply Hfa).
  assert (fr_n V fb = length te) as Hnb by (apply take_rows_spec in Hfb; apply Hfb).
  destruct (ds_task d) eqn:Ht.
  - inversion H; subst. constructor; simpl; auto. rewrite Ht; auto.
  - step H ya Hya. step H yb Hyb. step H probs Hpr. inversion H; subst.
    constructor; simpl; auto. rewrite Ht. exists ya, yb. repeat split; auto. exists lall, probs. auto.
Qed.

Lemma chosen_rows_fun : forall d df seed tr te tr' te', chosen_rows V E d df seed tr te -> chosen_rows V E d df seed tr' te' ->
  tr = tr' /\ te = te'.
Proof.
  intros d df seed tr te tr' te' H H'. unfold chosen_rows in *. destruct (ds_task d).
  - rewrite H in H'. inversion H'; auto.
  - destruct H as [l [Hl H]]. destruct H' as [l' [Hl' H']]. rewrite Hl in Hl'. inversion Hl'; subst.
    rewrite H in H'. inversion H'; auto.
Qed.

(** A cell of the matrix. *)
Lemma made_cell : forall rows df f p c k i, take_rows V rows df = Ok f -> made f p c -> nth_error rows k = Some i ->
  exists x r, cell V df (fst p) i = Some x /\ snd p x = Ok r /\ nth_error c k = Some r.
Proof.
  intros rows df f p c k i Hf [cells [Hc Hm]] Hk. destruct (cell_take _ _ _ _ _ _ _ Hf Hc Hk) as [x [Hx Hd]].
  apply mapM_F2 in Hm. destruct (F2_nth _ _ _ Hm k x Hx) as [r [Hr Hp]]. exists x, r. auto.
Qed.

Lemma made_len : forall rows df f p c, take_rows V rows df = Ok f -> made f p c -> length c = length rows.
Proof.
  intros rows df f p c Hf [cells [Hc Hm]]. rewrite <- (col_len_take _ _ _ _ _ Hf Hc).
  apply mapM_F2 in Hm. apply F2_len in Hm. auto.
Qed.

(** Rows with the same content give the same rows of the matrix. *)
Lemma row_same : forall pl rows df f X rows' df' f' X' k i k' i',
  take_rows V rows df = Ok f -> take_rows V rows' df' = Ok f' ->
  Forall2 (made f) pl X -> Forall2 (made f') pl X' ->
  nth_error rows k = Some i -> nth_error rows' k' = Some i' -> same_row V df i df' i' ->
  matrix_row X k = matrix_row X' k'.
Proof.
  intros pl rows df f X rows' df' f' X' k i k' i' Hf Hf' HX HX' Hk Hk' Hs. revert X' HX'.
  induction HX as [|p c pl X Hp HX IH]; intros X' HX'; [inversion HX'; auto|].
  inversion HX' as [|p1 c' pl1 X1 Hp' HX1]; subst. simpl. f_equal; auto.
  destruct (made_cell _ _ _ _ _ _ _ Hf Hp Hk) as [x [r [H1 [H2 H5]]]].
  destruct (made_cell _ _ _ _ _ _ _ Hf' Hp' Hk') as [x' [r' [H1' [H2' H5']]]].
  rewrite (Hs (fst p)) in H1. rewrite H1 in H1'. inversion H1'; subst. rewrite H2 in H2'. inversion H2'; subst. congruence.
Qed.

End Frames.
