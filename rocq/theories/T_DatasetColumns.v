(** * C60: the names of the columns, and which ones are categorical *)

Require Import String List Arith Bool Permutation Lia.
Require Import Verif.Base Verif.Num Verif.M_Encoder Verif.S_Encoder Verif.P_Encoder.
Require Import Verif.M_Dataset Verif.S_Dataset Verif.P_Dataset Verif.T_Dataset.
Import ListNotations.
Local Open Scope res_scope.
Local Notation length := List.length.

Section Columns.
Context {A : arith} (V : values A) (GV : good_values V).
Notation val := (val V).
Notation T := (num A).
Context (E : denv V).

Lemma matching_where : forall d df, matching V d df ->
  names_in (ds_continuous d) = columns_where V false d df /\ names_in (ds_categorical d) = columns_where V true d df.
Proof.
  intros d df [H1 H2]. rewrite H1, H2. unfold columns_where, schema. clear. generalize (fr_cols V df). intros l. split.
  - induction l as [|[c [b x]] l IH]; simpl; auto. destruct (String.eqb c (ds_label d)); simpl; auto. destruct b; simpl; auto. rewrite IH; auto.
  - induction l as [|[c [b x]] l IH]; simpl; auto. destruct (String.eqb c (ds_label d)); simpl; auto. destruct b; simpl; auto. rewrite IH; auto.
Qed.

Lemma where_schema : forall b d df c, In c (columns_where V b d df) -> In (c, b) (schema V df) /\ c <> ds_label d.
Proof.
  intros b d df c H. unfold columns_where in H. apply in_map_iff in H. destruct H as [[c' [b' x]] [Hc H]]. simpl in Hc. subst.
  apply filter_In in H. destruct H as [Hi H]. simpl in H. apply andb_true_iff in H. destruct H as [Hl Hb].
  apply eqb_prop in Hb. subst. split.
  - unfold schema. apply in_map_iff. exists (c, (b, x)). auto.
  - intros ->. rewrite String.eqb_refl in Hl. discriminate.
Qed.

Lemma schema_fun : forall df c b b', frame_ok V df -> In (c, b) (schema V df) -> In (c, b') (schema V df) -> b = b'.
Proof.
  intros df c b b' [Hn _] H H'. unfold schema in *. apply in_map_iff in H. destruct H as [[c1 [b1 x1]] [E1 H1]].
  apply in_map_iff in H'. destruct H' as [[c2 [b2 x2]] [E2 H2]]. simpl in *. inversion E1; inversion E2; subst.
  pose proof (find_in _ _ Hn H1) as F1. pose proof (find_in _ _ Hn H2) as F2. simpl in *. rewrite F1 in F2. inversion F2; auto.
Qed.

(** ** What is fitted *)

Definition learned_from (d : dataset) (fa : frame V) (cat : bool) (c : string) (p : string * lcol V) : Prop :=
  fst p = c /\ exists cells, col V fa c = Ok cells /\ learn_col V E d cat cells = Ok (snd p).

Lemma fit_step_spec : forall d fa cat names ss, fit_step V E d fa cat names = Ok ss ->
  exists cols, Forall2 (learned_from d fa cat) names cols /\ flat_map (ts_cols V) ss = cols /\
    (names = [] -> ss = []) /\ (names <> [] -> ss = [mkTstep V cat cols]).
Proof.
  intros d fa cat names ss H. destruct names as [|c names].
  - inversion H; subst. exists []. repeat split; auto. congruence.
  - unfold fit_step in H. apply bind_ok in H. destruct H as [cols [Hc H]]. inversion H; subst. exists cols.
    split; [|split; [|split]]; auto.
    + apply mapM_F2 in Hc. eapply F2_impl; [|exact Hc]. intros x p _ Hp. simpl in Hp.
      apply bind_ok in Hp. destruct Hp as [cells [Hs Hp]]. apply bind_ok in Hp. destruct Hp as [l [Hl Hp]]. inversion Hp; subst.
      split; auto. exists cells. split; auto. apply select_col; auto.
    + simpl. rewrite app_nil_r. auto.
    + discriminate.
Qed.

Lemma fit_spec : forall d fa steps, fit_transformer V E d fa = Ok steps ->
  exists ca cb, Forall2 (learned_from d fa false) (names_in (ds_continuous d)) ca /\
    Forall2 (learned_from d fa true) (names_in (ds_categorical d)) cb /\
    flat_map (ts_cols V) steps = ca ++ cb /\
    (names_in (ds_categorical d) <> [] -> exists rest, rev steps = mkTstep V true cb :: rest).
Proof.
  intros d fa steps H. unfold fit_transformer in H. apply bind_ok in H. destruct H as [a [Ha H]].
  apply bind_ok in H. destruct H as [b [Hb H]]. inversion H; subst.
  destruct (fit_step_spec _ _ _ _ _ Ha) as (ca & Fa & Ea & _ & _). destruct (fit_step_spec _ _ _ _ _ Hb) as (cb & Fb & Eb & _ & Hne).
  exists ca, cb. repeat split; auto.
  - rewrite flat_map_app, Ea, Eb. auto.
  - intros Hn. rewrite (Hne Hn). rewrite rev_app_distr. simpl. eauto.
Qed.

(** Names of the columns made from one column. *)
Definition bnames (p : string * lcol V) : list string :=
  match snd p with LHot _ cats => modality_names V (fst p) cats | _ => [fst p] end.

Lemma names_continuous : forall d fa names cols, Forall2 (learned_from d fa false) names cols -> flat_map bnames cols = names.
Proof.
  intros d fa names cols H. induction H as [|c p names cols Hp HF IH]; simpl; auto. rewrite IH.
  destruct Hp as [Hc [cells [_ Hl]]]. unfold learn_col in Hl. destruct p as [c' l]; simpl in *. subst c'.
  unfold bnames; simpl. destruct (ds_standardize d).
  - apply bind_ok in Hl. destruct Hl as [xs [_ Hl]]. destruct (de_scaler V E xs). inversion Hl; subst. auto.
  - inversion Hl; subst; auto.
Qed.

Lemma names_ordinal : forall d fa names cols, ds_one_hot d = false ->
  Forall2 (learned_from d fa true) names cols -> flat_map bnames cols = names.
Proof.
  intros d fa names cols Ho H. induction H as [|c p names cols Hp HF IH]; simpl; auto. rewrite IH.
  destruct Hp as [Hc [cells [_ Hl]]]. unfold learn_col in Hl. destruct p as [c' l]; simpl in *. subst c'.
  rewrite Ho in Hl. inversion Hl; subst. auto.
Qed.

Lemma names_hot : forall d fa names cols mods, ds_one_hot d = true ->
  Forall2 (learned_from d fa true) names cols ->
  mapM (fun p : string * lcol V => match snd p with LHot _ m => Ok m | _ => Err AttrErr end) cols = Ok mods ->
  flat_map (fun p => modality_names V (fst p) (snd p)) (combine names mods) = flat_map bnames cols.
Proof.
  intros d fa names cols mods Ho H. revert mods. induction H as [|c p names cols Hp HF IH]; intros mods Hm; simpl in *.
  - auto.
  - apply bind_ok in Hm. destruct Hm as [m [Hm1 Hm]]. apply bind_ok in Hm. destruct Hm as [t [Ht Hm]]. inversion Hm; subst. simpl.
    rewrite (IH _ Ht). destruct Hp as [Hc _]. destruct p as [c' l]; simpl in *. subst c'. unfold bnames; simpl.
    destruct l; inversion Hm1; subst; auto.
Qed.

Lemma names_spec : forall d df fa steps names, matching V d df -> fit_transformer V E d fa = Ok steps ->
  column_names V d df steps = Ok names ->
  exists ca cb, Forall2 (learned_from d fa false) (columns_where V false d df) ca /\
    Forall2 (learned_from d fa true) (columns_where V true d df) cb /\
    flat_map (ts_cols V) steps = ca ++ cb /\ names = flat_map bnames (ca ++ cb).
Proof.
  intros d df fa steps names HM Hf Hn. destruct (matching_where _ _ HM) as [M1 M2].
  destruct (fit_spec _ _ _ Hf) as (ca & cb & Fa & Fb & Hs & Hr). rewrite M1 in Fa. rewrite M2 in Fb, Hr.
  exists ca, cb. repeat split; auto. rewrite flat_map_app, (names_continuous _ _ _ _ Fa).
  unfold column_names in Hn. apply bind_ok in Hn. destruct Hn as [tail [Ht Hn]]. inversion Hn; subst. f_equal.
  destruct (columns_where V true d df) as [|c cats] eqn:Hc.
  - inversion Ht; subst. inversion Fb; subst. auto.
  - rewrite <- Hc in *. destruct (ds_one_hot d) eqn:Ho.
    + destruct Hr as [rest Hr]; [congruence|]. rewrite Hr in Ht. simpl in Ht. apply bind_ok in Ht. destruct Ht as [mods [Hm Ht]].
      inversion Ht; subst. eapply names_hot; eauto.
    + inversion Ht; subst. symmetry. eapply names_ordinal; eauto.
Qed.

(** ** Meaning of the columns *)

Context (d : dataset) (df : frame V) (tr : list nat) (fa : frame V).
Hypothesis Hfa : take_rows V tr df = Ok fa.
Hypothesis Hdrop : ds_drop_first d = false.
Hypothesis Hdf : frame_ok V df.

Definition codes_only (f : val -> res T) : Prop := forall x r, f x = Ok r ->
  r = aopp a1 \/ r = de_nan V E \/ exists k, r = aofnat k.

(** [q] computes the column named [name]. *)
Definition means (name : string) (q : string * (val -> res T)) : Prop :=
  (exists P, meaning V E d df tr name (fst q) P /\ forall x r, snd q x = Ok r -> P x r) /\
  (ds_one_hot d = false -> In name (columns_where V true d df) -> codes_only (snd q)).

Lemma block_continuous : forall c p, In c (columns_where V false d df) -> learned_from d fa false c p ->
  Forall2 means (bnames p) (map (pair (fst p)) (funs V E d (snd p))).
Proof.
  intros c [c' l] Hin [Hc [cells [Hcol Hl]]]. simpl in *. subst c'. unfold learn_col in Hl.
  pose proof (where_schema _ _ _ _ Hin) as [Hs _].
  assert (ds_one_hot d = false -> In c (columns_where V true d df) -> False) as Habs.
  { intros _ Hi. apply where_schema in Hi. destruct Hi as [Hi _]. pose proof (schema_fun _ _ _ _ Hdf Hs Hi). discriminate. }
  destruct (ds_standardize d) eqn:Hst.
  - apply bind_ok in Hl. destruct Hl as [xs [Hx Hl]]. destruct (de_scaler V E xs) as [m s] eqn:Hsc. inversion Hl; subst.
    simpl. constructor; [|constructor]. split; [|intros Ho Hi; exfalso; eauto].
    exists (fun x r => exists y, as64 V x = Some y /\ r = adiv (asub y (fst (de_scaler V E xs))) (snd (de_scaler V E xs))).
    split.
    + apply mean_scaled; auto. unfold convert in Hx. apply mapM_F2 in Hx.
      clear - Hx Hfa Hcol. pose proof (fun k i => cell_take V _ _ _ _ _ k i Hfa Hcol) as HC.
      pose proof (col_len_take V _ _ _ _ _ Hfa Hcol) as HL. clear Hcol Hfa.
      revert tr HL HC. induction Hx as [|x r cells xs Hxr HF IH]; intros [|i rows] HL HC; simpl in *; try discriminate; constructor.
      * destruct (HC 0 i eq_refl) as [x' [H1 H2]]. simpl in H1. inversion H1; subst. exists x'. split; auto.
        destruct (as64 V x'); inversion Hxr; auto.
      * apply IH; auto. intros k j Hk. apply (HC (S k) j Hk).
    + simpl. intros x r Hr. apply bind_ok in Hr. destruct Hr as [y [Hy Hr]]. unfold conv in Hy. exists y.
      destruct (as64 V x); inversion Hy; subst. split; auto. rewrite Hsc. simpl. inversion Hr; auto.
  - inversion Hl; subst. simpl. constructor; [|constructor]. split; [|intros Ho Hi; exfalso; eauto].
    exists (fun x r => as64 V x = Some r). split.
    + apply mean_raw; auto.
    + simpl. unfold conv. intros x r Hr. destruct (as64 V x); inversion Hr; auto.
Qed.

Lemma block_categorical : forall c p, In c (columns_where V true d df) -> learned_from d fa true c p ->
  Forall2 means (bnames p) (map (pair (fst p)) (funs V E d (snd p))).
Proof.
  intros c [c' l] Hin [Hc [cells [Hcol Hl]]]. simpl in *. subst c'. unfold learn_col in Hl.
  pose proof (where_schema _ _ _ _ Hin) as [Hs _]. pose proof (modalities_spec V GV _ _ _ _ _ Hfa Hcol) as HM.
  destruct (ds_one_hot d) eqn:Ho; inversion Hl; subst.
  - unfold bnames, funs. simpl. rewrite Hdrop, Nat.sub_0_r. unfold modality_names.
    assert (forall ks, (forall k, In k ks -> k < length (modalities V cells)) ->
      Forall2 means (map (fun k => (c ++ "#" ++ str_nat k)%string) ks) (map (pair c) (map (hot V (modalities V cells)) ks))) as HG.
    { induction ks as [|k ks IH]; intros Hk; simpl; constructor.
      - split; [|congruence]. assert (k < length (modalities V cells)) as Hlt by (apply Hk; simpl; auto).
        apply nth_error_Some in Hlt. destruct (nth_error (modalities V cells) k) as [m|] eqn:Hm; [|congruence].
        exists (fun x r => (same_value V m x /\ r = a1) \/ (~ same_value V m x /\ r = a0)). split.
        + eapply mean_hot; eauto.
        + simpl. unfold hot. intros x r Hr. inversion Hr; subst r.
          destruct (code_of V (modalities V cells) x) as [k'|] eqn:Hco.
          * destruct (code_some V _ _ _ Hco) as [m' [Hm' Hs']]. destruct (Nat.eqb_spec k k') as [->|Hne].
            -- left. split; auto. congruence.
            -- right. split; auto. intros Hs2. apply Hne. destruct HM as [_ [_ HD]]. apply (HD k k' m m'); auto.
               clear - GV Hs2 Hs'. apply same_value_iff. apply same_value_iff in Hs2. apply same_value_iff in Hs'.
               pose proof (good_missing V GV) as GM. eapply (gv_trans _ GM); [exact Hs2|]. apply (gv_sym _ GM). exact Hs'.
          * right. split; auto. eapply code_none; eauto. eapply nth_error_In; eauto.
      - apply IH. intros; apply Hk; simpl; auto. }
    apply HG. intros k Hk. apply in_seq in Hk. lia.
  - simpl. constructor; [|constructor]. split.
    + exists (fun x r => (exists k m, nth_error (modalities V cells) k = Some m /\ same_value V m x /\
                     r = if isna V x then de_nan V E else aofnat k) \/
                  ((forall m, In m (modalities V cells) -> ~ same_value V m x) /\ r = aopp a1)).
      split; [apply mean_ord; auto|]. simpl. unfold ord. intros x r Hr. inversion Hr; subst r.
      destruct (code_of V (modalities V cells) x) as [k|] eqn:Hco.
      * left. destruct (code_some V _ _ _ Hco) as [m [Hm Hs']]. exists k, m. auto.
      * right. split; auto. intros m Hm. eapply code_none; eauto.
    + intros _ _. intros x r Hr. simpl in Hr. unfold ord in Hr. inversion Hr; subst.
      destruct (code_of V (modalities V cells) x) as [k|]; auto. destruct (isna V x); eauto.
Qed.

Lemma F2_flat_map : forall {X Y Z} (f : X -> list Y) (g : X -> list Z) (P : Y -> Z -> Prop) l,
  (forall x, In x l -> Forall2 P (f x) (g x)) -> Forall2 P (flat_map f l) (flat_map g l).
Proof.
  intros X Y Z f g P l H. induction l as [|x l IH]; simpl; [constructor|]. apply Forall2_app.
  - apply H; simpl; auto.
  - apply IH. intros; apply H; simpl; auto.
Qed.

Lemma F2_In_r : forall {X Y} (P : X -> Y -> Prop) l r, Forall2 P l r -> forall y, In y r -> exists x, In x l /\ P x y.
Proof.
  intros X Y P l r H y Hy. apply In_nth_error in Hy. destruct Hy as [k Hk]. destruct (F2_nth' _ _ _ H k y Hk) as [x [Hx Hp]].
  exists x. split; auto. eapply nth_error_In; eauto.
Qed.

Lemma plan_means : forall steps names, matching V d df -> fit_transformer V E d fa = Ok steps ->
  column_names V d df steps = Ok names -> Forall2 means names (plan V E d steps).
Proof.
  intros steps names HM Hf Hn. destruct (names_spec _ _ _ _ _ HM Hf Hn) as (ca & cb & Fa & Fb & Hs & ->).
  unfold plan. rewrite Hs. apply F2_flat_map. intros p Hp. apply in_app_iff in Hp. destruct Hp as [Hp|Hp].
  - destruct (F2_In_r _ _ _ Fa p Hp) as [c [Hc Hl]]. eapply block_continuous; eauto.
  - destruct (F2_In_r _ _ _ Fb p Hp) as [c [Hc Hl]]. eapply block_categorical; eauto.
Qed.

Lemma mem_name_In : forall c l, mem_name c l = true <-> In c l.
Proof.
  intros c l. unfold mem_name. rewrite existsb_exists. split.
  - intros [x [Hx He]]. apply String.eqb_eq in He. subst; auto.
  - intros H. exists c. split; auto. apply String.eqb_refl.
Qed.

Lemma post_means : forall names p, matching V d df -> (ds_pd d = true -> ds_one_hot d = false /\ keeps_codes V E) ->
  Forall2 means names p -> Forall2 means names (post V E d names p).
Proof.
  intros names p HM Hpd HF. unfold post. destruct (ds_pd d) eqn:Hp; auto. destruct (Hpd eq_refl) as [Ho [K1 [K2 K3]]].
  destruct (matching_where _ _ HM) as [_ M2].
  destruct (ds_categorical d) as [cats|] eqn:Hc; auto. simpl in M2. rewrite M2. clear M2 Hc.
  induction HF as [|nm q names p Hq HF IH]; simpl; constructor; auto.
  destruct (mem_name nm (columns_where V true d df)) eqn:Hm; [|destruct q; auto].
  apply mem_name_In in Hm. destruct Hq as [[P [HP HPx]] Hc]. specialize (Hc Ho Hm).
  assert (forall x r, (let* r := snd q x in to_int V E r) = Ok r -> snd q x = Ok r) as Hsame.
  { intros x r Hr. apply bind_ok in Hr. destruct Hr as [r' [Hr' Hr]]. unfold to_int in Hr.
    destruct (Hc _ _ Hr') as [->|[->|[k ->]]]; [rewrite K2 in Hr|rewrite K3 in Hr|rewrite K1 in Hr]; inversion Hr; subst; auto. }
  split; simpl.
  - exists P. split; auto.
  - intros _ _ x r Hr. apply (Hc x r). auto.
Qed.

End Columns.

Section C60.
Context {A : arith} (V : values A) (GV : good_values V).
Notation val := (val V).
Notation T := (num A).
Context (E : denv V).

Theorem C60_columns : forall d df seed o tr te, frame_ok V df -> matching V d df -> ds_drop_first d = false ->
  (ds_pd d = true -> ds_one_hot d = false /\ keeps_codes V E) ->
  extract V E d df seed = Ok o -> chosen_rows V E d df seed tr te ->
  length (x_columns V o) = length (x_train V o) /\ length (x_columns V o) = length (x_test V o) /\
  forall j name, nth_error (x_columns V o) j = Some name ->
    exists c P, meaning V E d df tr name c P /\ c <> ds_label d /\
      (forall k i, nth_error tr k = Some i -> exists x r, cell V df c i = Some x /\ entry (x_train V o) j k = Some r /\ P x r) /\
      (forall k i, nth_error te k = Some i -> exists x r, cell V df c i = Some x /\ entry (x_test V o) j k = Some r /\ P x r).
Proof.
  intros d df seed o tr te Hok HM Hd Hpd H Hr. destruct (extract_run V E d df seed o H) as (tr1 & te1 & fa & fb & steps & la & lb & R).
  destruct (chosen_rows_fun V E _ _ _ _ _ _ _ Hr (rn_rows V E _ _ _ _ _ _ _ _ _ _ _ R)). subst tr1 te1.
  destruct R as [_ Ra Rb Rfit Rn RX RY _ Rla Rlb Rm Rnn Ry].
  pose proof (plan_means V GV E d df tr fa Ra Hd Hok _ _ HM Rfit Rn) as HP.
  pose proof (post_means V E d df tr _ _ HM Hpd HP) as HQ.
  destruct (names_spec V E _ _ _ _ _ HM Rfit Rn) as (ca & cb & Fa & Fb & Hs & Hnm).
  split; [rewrite (F2_len _ _ _ HQ), (F2_len _ _ _ RX); auto|]. split; [rewrite (F2_len _ _ _ HQ), (F2_len _ _ _ RY); auto|].
  intros j name Hj. destruct (F2_nth _ _ _ HQ j name Hj) as [q [Hq [[P [HPm HPx]] _]]].
  exists (fst q), P. split; auto. split.
  { assert (In (fst q) (columns_where V false d df ++ columns_where V true d df)) as Hin.
    { assert (exists p, nth_error (plan V E d steps) j = Some p /\ fst p = fst q) as [p [Hp Hpq]].
      { unfold post in Hq. destruct (ds_pd d); [|eauto]. destruct (ds_categorical d); [|eauto].
        rewrite nth_error_map in Hq. destruct (nth_error (combine _ _) j) as [[a b]|] eqn:Hc; [|discriminate].
        apply nth_error_combine in Hc. simpl in Hc. destruct Hc as [_ Hc]. inversion Hq; subst. simpl. eauto. }
      apply nth_error_In in Hp. unfold plan in Hp. apply in_flat_map in Hp. destruct Hp as [cl [Hcl Hp]]. rewrite Hs in Hcl.
      apply in_map_iff in Hp. destruct Hp as [f [Hf _]]. subst p. simpl in Hpq. rewrite <- Hpq.
      apply in_app_iff in Hcl. apply in_app_iff. destruct Hcl as [Hcl|Hcl].
      - left. destruct (F2_In_r _ _ _ Fa cl Hcl) as [c [Hc [Hc' _]]]. rewrite Hc'. auto.
      - right. destruct (F2_In_r _ _ _ Fb cl Hcl) as [c [Hc [Hc' _]]]. rewrite Hc'. auto. }
    apply in_app_iff in Hin. destruct Hin as [Hin|Hin]; apply where_schema in Hin; apply Hin. }
  split; intros k i Hk.
  - destruct (F2_nth _ _ _ RX j q Hq) as [c [Hc Hm]]. destruct (made_cell V _ _ _ _ _ _ _ Ra Hm Hk) as [x [r [H1 [H2 H3]]]].
    exists x, r. unfold entry. rewrite Hc. auto.
  - destruct (F2_nth _ _ _ RY j q Hq) as [c [Hc Hm]]. destruct (made_cell V _ _ _ _ _ _ _ Rb Hm Hk) as [x [r [H1 [H2 H3]]]].
    exists x, r. unfold entry. rewrite Hc. auto.
Qed.

(** The mask says which of the named columns are categorical in the file, and all the columns
    of the file but the label are there. *)
Theorem C60_mask : forall d df seed o, frame_ok V df -> matching V d df -> ds_one_hot d = false ->
  extract V E d df seed = Ok o ->
  (forall c b, In (c, b) (schema V df) -> c <> ds_label d -> In c (x_columns V o)) /\
  (forall mask, x_mask V o = Some mask -> length mask = length (x_columns V o) /\
     forall j name, nth_error (x_columns V o) j = Some name -> exists b, nth_error mask j = Some b /\ In (name, b) (schema V df)) /\
  (x_mask V o = None -> forall name, In name (x_columns V o) -> In (name, false) (schema V df)).
Proof.
  intros d df seed o Hok HM Ho H. destruct (extract_run V E d df seed o H) as (tr & te & fa & fb & steps & la & lb & R).
  destruct R as [_ Ra Rb Rfit Rn RX RY _ Rla Rlb Rm Rnn Ry].
  assert (x_columns V o = columns_where V false d df ++ columns_where V true d df) as Hn.
  { unfold column_names in Rn. rewrite Ho in Rn. destruct (columns_where V true d df); simpl in Rn; inversion Rn; auto. }
  split; [|split].
  - intros c b Hs Hl. rewrite Hn. apply in_app_iff. unfold schema in Hs. apply in_map_iff in Hs. destruct Hs as [[c' [b' x]] [E1 Hi]].
    simpl in E1. inversion E1; subst.
    assert (forall bb, bb = b -> In c (columns_where V bb d df)) as HW.
    { intros bb ->. unfold columns_where. apply in_map_iff. exists (c, (b, x)). split; auto. apply filter_In. split; auto. simpl.
      apply andb_true_iff. split; [|apply eqb_reflx]. apply negb_true_iff. apply String.eqb_neq; auto. }
    destruct b; [right|left]; apply HW; auto.
  - intros mask Hmask. rewrite Rm in Hmask. unfold categorical_mask in Hmask. rewrite Ho in Hmask. simpl in Hmask.
    destruct (0 <? length (columns_where V true d df)); inversion Hmask; subst. rewrite Hn. split.
    + rewrite !app_length, !repeat_length. auto.
    + intros j name Hj. destruct (Nat.lt_ge_cases j (length (columns_where V false d df))) as [Hlt|Hge].
      * exists false. rewrite nth_error_app1 in Hj by auto. split.
        -- rewrite nth_error_app1 by (rewrite repeat_length; auto). apply nth_error_repeat; auto.
        -- apply nth_error_In in Hj. apply where_schema in Hj. apply Hj.
      * exists true. rewrite nth_error_app2 in Hj by auto. split.
        -- rewrite nth_error_app2 by (rewrite repeat_length; auto). rewrite repeat_length. apply nth_error_repeat.
           apply nth_error_Some. congruence.
        -- apply nth_error_In in Hj. apply where_schema in Hj. apply Hj.
  - intros Hmask name Hi. rewrite Rm in Hmask. unfold categorical_mask in Hmask. rewrite Ho in Hmask. simpl in Hmask.
    destruct (columns_where V true d df) eqn:Hc; [|discriminate]. rewrite Hn, app_nil_r in Hi. apply where_schema in Hi. apply Hi.
Qed.

End C60.

Print Assumptions C60_columns.
Print Assumptions C60_mask.
