(** * The theorems of T_Monotone.v apply: a table and its logarithms; they do not extend to
      new values *)

Require Import String Bool List Arith NArith ZArith Lia Reals Lra.
Require Import Verif.Base Verif.Num Verif.M_Bitarray Verif.M_Binning Verif.P_BinningR Verif.M_Utils Verif.M_Context Verif.M_Split Verif.M_Tree Verif.M_Grow Verif.M_Object Verif.M_Forest
  Verif.S_Fit Verif.S_Split Verif.S_Object Verif.S_Forest Verif.T_Bootstrap Verif.T_ForestR
  Verif.M_Encoder Verif.S_Encoder Verif.M_EncoderForest Verif.T_EncoderForest Verif.Cells Verif.S_Monotone Verif.T_Monotone
  Verif.T_Encoder Verif.Ex_Data Verif.Ex_Valid Verif.Ex_R Verif.Ex_Forest Verif.T_EncoderQ Verif.Ex_Reach.
Import ListNotations.
Local Open Scope list_scope.
Local Open Scope nat_scope.

Lemma ln_inc : increasing_on (fun x => (0 < x)%R) ln.
Proof. intros x y Hx _ H. apply ln_increasing; auto. Qed.
Lemma ln_below : forall x, (0 < x)%R -> (ln x <= x)%R.
Proof.
  intros x Hx. destruct (Rle_or_lt (ln x) x) as [|H]; auto. exfalso.
  apply exp_increasing in H. rewrite exp_ln in H by auto. pose proof (exp_ineq1 x ltac:(lra)). lra.
Qed.

(** A column with more values than bins, and its logarithms. *)
Example C69_bins_applies : exists thr thr', let col := [5; 1; 3; 8; 2; 13; 3]%R in
  @find_binning_thresholds R_arith 100%R col 3 = Ok thr /\ @find_binning_thresholds R_arith 100%R (map ln col) 3 = Ok thr' /\
  @bin_continuous_column R_arith (map ln col) thr' 3 = @bin_continuous_column R_arith col thr 3.
Proof.
  destruct (thresholds_spec 100%R [5; 1; 3; 8; 2; 13; 3]%R 3 ltac:(lia)) as (thr & H & _).
  destruct (thresholds_spec 100%R (map ln [5; 1; 3; 8; 2; 13; 3]%R) 3 ltac:(lia)) as (thr' & H' & _).
  exists thr, thr'. cbv zeta. split; [exact H|]. split; [exact H'|].
  assert (HP : forall x, In x [5; 1; 3; 8; 2; 13; 3]%R -> (0 < x <= 13)%R).
  { intros x Hx. cbn [In] in Hx. repeat destruct Hx as [Hx|Hx]; try contradiction; subst x; lra. }
  apply (C69_bins 100%R [5; 1; 3; 8; 2; 13; 3]%R 3 3 ln thr thr'); auto.
  - intros x y Hx Hy. apply HP in Hx, Hy. intros. apply ln_increasing; lra.
  - intros x Hx. apply HP in Hx. pose proof (ln_below x ltac:(lra)). lra.
Qed.

(** A table with a missing value; the first column is replaced by its logarithms and the
    second one by doubles. *)
Notation VR := (exact_values (fun x => x)).
Definition nr (x : R) : cell R_arith := CNum (x : num R_arith).
Definition mono_cells1 : list (cell R_arith) := [nr 1; CNone; nr 2; nr 7; nr 5; nr 2].
Definition mono_cells2 : list (cell R_arith) := [nr (-3); nr 0; nr 4; nr 4; nr 1; nr 2].
Definition mono_X : xdata VR nat := XFrame VR nat 6 [(0, mkColumn VR KFloat None mono_cells1); (1, mkColumn VR KInt None mono_cells2)].
Definition mono_X' : xdata VR nat :=
  XFrame VR nat 6 [(0, mkColumn VR KFloat None (map (recode ln) mono_cells1)); (1, mkColumn VR KFloat None (map (recode (fun x => (2 * x)%R)) mono_cells2))].

Lemma mono_ok : data_ok VR mono_X.
Proof. split; [lia|]. split; [reflexivity|]. intros p [<-|[<-|[]]]; split; reflexivity || exact I. Qed.
Lemma mono_ok' : data_ok VR mono_X'.
Proof. split; [lia|]. split; [reflexivity|]. intros p [<-|[<-|[]]]; split; reflexivity || exact I. Qed.
Lemma mono_clean : clean VR mono_X.
Proof. repeat constructor; cbn; intuition congruence. Qed.
Lemma mono_clean' : clean VR mono_X'.
Proof. repeat constructor; cbn; intuition congruence. Qed.
Definition mono_table : table VR nat := mkTable _ _ mono_X mono_ok mono_clean (CFBools [false; false]).
Definition mono_table' : table VR nat := mkTable _ _ mono_X' mono_ok' mono_clean' (CFBools [false; false]).

Lemma mono_recoded : recoded_table (fun x => x) nat 100%R mono_table mono_table'.
Proof.
  split; [|reflexivity]. cbn [tb_X mono_table mono_table' mono_X mono_X' recoded]. split; [reflexivity|].
  constructor; [|constructor; [|constructor]].
  - repeat split. exists ln. cbn [snd s_cells s_cats]. split; [|split; reflexivity].
    assert (HP : forall x, number_of mono_cells1 None x -> (0 < x <= 7)%R).
    { intros x [Hx|(l & Hl & _)]; [|discriminate]. cbn [In mono_cells1 nr] in Hx.
      repeat destruct Hx as [Hx|Hx]; try contradiction; try discriminate Hx; injection Hx as <-; lra. }
    split.
    + intros x y Hx Hy H. apply HP in Hx, Hy. apply ln_increasing; lra.
    + intros x Hx. apply HP in Hx. pose proof (ln_below x ltac:(lra)). lra.
  - repeat split. exists (fun x => (2 * x)%R). cbn [snd s_cells s_cats]. split; [|split; reflexivity].
    assert (HP : forall x, number_of mono_cells2 None x -> (x <= 4)%R).
    { intros x [Hx|(l & Hl & _)]; [|discriminate]. cbn [In mono_cells2 nr] in Hx.
      repeat destruct Hx as [Hx|Hx]; try contradiction; try discriminate Hx; injection Hx as <-; lra. }
    split.
    + intros x y Hx Hy H. lra.
    + intros x Hx. apply HP in Hx. lra.
Qed.

Definition mono_env : eenv (nan_arith R_arith) := mkEenv (nan_arith R_arith) (fun n k => seq 0 k) Nat.log2 Nat.sqrt (Some 100%R) (fun _ => 0%N).
Definition mono_int (x : num (nan_arith R_arith)) : res Z := Err TypeErr.
Definition mono_st : settings (A := nan_arith R_arith) := mkSettings PyNone (PyStr "log") (PyStr "consider_missing") CFNone.
Notation ECR := (forest_encoding VR nat Nat.eqb mono_env mono_int mono_st).

Lemma mono_choices : forall n k, k < n -> length (ee_choice mono_env n k) = k.
Proof. intros. apply seq_length. Qed.
Lemma mono_good : good_encoding ECR.
Proof. exact (encoder_is_good VR (exact_good _) nat Nat.eqb mono_env mono_int names_ok mono_choices mono_st). Qed.

Definition mono_cf : config := mkConfig 256 None (Some [false; false]) (Some CMLog) false.
Lemma mono_numbers : forall x : cell R_arith, In x mono_cells1 \/ In x mono_cells2 -> as64 VR x <> None.
Proof.
  intros x [Hx|Hx]; cbn [In mono_cells1 mono_cells2 nr] in Hx; repeat destruct Hx as [Hx|Hx]; try contradiction; subst x; discriminate.
Qed.
Lemma mono_encodes : exists enc fb, ec_fit ECR 256 mono_table = Ok enc /\ ec_transform ECR enc mono_table = Ok fb.
Proof.
  destruct (C11_fit_succeeds VR nat mono_env mono_cf (new_encoder VR) mono_X) as (e & He).
  - intros n k i Hk Hi. apply in_seq in Hi. lia.
  - intros [|x|s]; simpl; congruence.
  - cbn. lia.
  - discriminate.
  - reflexivity.
  - apply mono_ok.
  - intros p [<-|[<-|[]]]; right; (split; [reflexivity|]); (split; [reflexivity|]); intros x Hx; apply mono_numbers; auto.
  - cbn. lia.
  - assert (Hc : exists cols, e_cols VR e = Some cols).
    { destruct (Verif.P_Encoder.fit_inv VR nat mono_env _ _ _ _ He) as (cols & cm & _ & H & _). eauto. }
    destruct Hc as (cols & Hc).
    destruct (C08_total VR (exact_good _) nat Nat.eqb mono_env names_ok mono_choices mono_cf (new_encoder VR) mono_X e cols mono_X mono_ok He Hc mono_ok mono_clean) as (fb & Hfb).
    + exact I.
    + reflexivity.
    + intros j thr col _ Hcol. cbn [column_at mono_X] in Hcol. destruct j as [|[|j]]; cbn in Hcol; [| |destruct j; discriminate]; injection Hcol as <-.
      * split; [split; reflexivity|]. intros x Hx. apply (mono_numbers x). auto.
      * split; [split; reflexivity|]. intros x Hx. apply (mono_numbers x). auto.
    + left. reflexivity.
    + exists (mono_cf, e), fb. split; [|exact Hfb].
      change (ec_fit ECR 256 mono_table) with (let '(e, r) := fit VR nat mono_env mono_cf (new_encoder VR) mono_X in let* _ := r in Ok (mono_cf, e)).
      rewrite He. reflexivity.
Qed.

Definition mono_forest : clf_forest R_arith nat ECR :=
  mkF false 2 a1 true None 2 1 256 MFAuto 1 (Some (Some 7%Z)) false "gini" "log" (Some ahalf) false Multinomial BinaryMod [] [] None None 0.

Example C69_classifier_applies : exists o1 o1' c,
  clf_fit Nat.leb ex_menv mono_forest mono_table train_labels None = ((o1, None), c) /\
  clf_fit Nat.leb ex_menv mono_forest mono_table' train_labels None = ((o1', None), c) /\
  fo_trees o1' = fo_trees o1 /\ forall order, predict_proba (fun s => Rleb s 0) order o1' mono_table' = predict_proba (fun s => Rleb s 0) order o1 mono_table.
Proof.
  destruct mono_encodes as (enc & fb & He & Ht).
  destruct (C48_forest_classifier ex_menv (fun _ => True) ex_menv_good env_R_good mono_good Nat.leb nat_order mono_forest mono_table train_labels
     None (/ 2)%R (Some 7%Z) 1%Z enc fb) as (o1 & e & c & H1 & H2).
  - constructor; cbn; auto; lia.
  - intros ? _ _ _. cbn. lia.
  - reflexivity.
  - exact I.
  - intros b l H. discriminate.
  - reflexivity.
  - lra.
  - intros. lra.
  - intros H. discriminate.
  - reflexivity.
  - reflexivity.
  - exact He.
  - exact Ht.
  - assert (e = None).
    { destruct H2 as [->|(-> & seed & Hin & Hall)]; [reflexivity|]. exfalso.
      apply (Hall 0); [cbn [me_limit ex_menv]; lia|]. apply leaves_6. destruct Hin as [<-|[<-|[]]]; [left|right; left]; reflexivity. }
    subst e.
    destruct (C69_classifier (fun x => x) nat Nat.eqb mono_env 100%R names_ok eq_refl mono_int mono_st ex_menv Nat.leb mono_forest o1 mono_table mono_table' train_labels None c mono_recoded I H1)
      as (o1' & F1 & (F2 & _) & F3 & _).
    exists o1, o1', c. auto.
Qed.

Definition mono_reg : reg_forest R_arith nat ECR :=
  mkF false 2 a1 true None 2 1 256 MFAuto 1 (Some (Some 7%Z)) false "mse" "mse" None false Multinomial BinaryMod [] [] None None 0.

Example C69_regressor_applies : exists o1 o1' c,
  reg_fit ex_menv mono_reg mono_table reg_labels None = ((o1, None), c) /\
  reg_fit ex_menv mono_reg mono_table' reg_labels None = ((o1', None), c) /\
  fo_trees o1' = fo_trees o1 /\ forall order, predict_reg order o1' mono_table' = predict_reg order o1 mono_table.
Proof.
  destruct mono_encodes as (enc & fb & He & Ht).
  destruct (C48_forest_regressor ex_menv (fun _ => True) ex_menv_good env_R_good mono_good mono_reg mono_table reg_labels
     None (Some 7%Z) 1%Z enc fb) as (o1 & e & c & H1 & H2).
  - constructor; cbn; auto; lia.
  - reflexivity.
  - exact I.
  - intros b l H. discriminate.
  - reflexivity.
  - reflexivity.
  - exact He.
  - exact Ht.
  - assert (e = None).
    { destruct H2 as [->|(-> & seed & Hin & Hall)]; [reflexivity|]. exfalso.
      apply (Hall 0); [cbn [me_limit ex_menv]; lia|]. apply leaves_6. destruct Hin as [<-|[<-|[]]]; [left|right; left]; reflexivity. }
    subst e.
    destruct (C69_regressor (fun x => x) nat Nat.eqb mono_env 100%R names_ok eq_refl mono_int mono_st ex_menv mono_reg o1 mono_table mono_table' reg_labels None c mono_recoded I H1)
      as (o1' & F1 & (F2 & _) & F3 & _).
    exists o1, o1', c. auto.
Qed.

(** Values which are not in the training data may change of bin, because the thresholds are
    the middles of neighbours: 3 is above the middle of 0 and 4, and its cube is below the
    middle of their cubes. *)
Theorem C69_new_values_refuted : exists (col : list R) (x : R) thr thr', let g := fun x : R => (x * x * x)%R in
  increasing_on (fun _ => True) g /\
  @find_binning_thresholds R_arith 100%R col 256 = Ok thr /\ @find_binning_thresholds R_arith 100%R (map g col) 256 = Ok thr' /\
  @bin_value R_arith thr 2 x = Ok 1 /\ @bin_value R_arith thr' 2 (g x) = Ok 0.
Proof.
  assert (G : increasing_on (fun _ => True) (fun x => (x * x * x)%R)).
  { intros x y _ _ H. assert (0 < (y - x) * (x * x + x * y + y * y))%R; [|lra]. apply Rmult_lt_0_compat; [lra|].
    destruct (Req_dec x 0) as [->|Hx]; [|pose proof (Rsqr_pos_lt x Hx); unfold Rsqr in *; pose proof (Rle_0_sqr (x + 2 * y)); unfold Rsqr in *; nra].
    assert (0 < y * y)%R by nra. lra. }
  exists [0; 4]%R, 3%R, [2%R], [32%R]. cbv zeta. split; [exact G|].
  assert (T : forall b : R, (0 < b <= 100)%R -> @find_binning_thresholds R_arith 100%R [0%R; b] 256 = Ok [(b / 2)%R]).
  { intros b Hb. unfold find_binning_thresholds. pose proof (filter_R [0%R; b]) as HF. change (num R_arith) with R in *. rewrite HF.
    assert (E : @unique R_arith [0%R; b] = [0%R; b]).
    { unfold unique. cbn [sort_num insert_num]. change (@aleb R_arith) with Rleb. rewrite (proj2 (Rleb_iff 0 b)) by lra.
      cbn [dedupe]. change (@aleb R_arith) with Rleb. rewrite (proj2 (Rleb_false b 0)) by lra. reflexivity. }
    change (num R_arith) with R in *. rewrite E. cbn [length Nat.leb bind middles map]. unfold clip_max.
    change (@amul R_arith (@aadd R_arith 0%R b) ahalf) with ((0 + b) * / 2)%R. change (@altb R_arith) with Rltb.
    rewrite (proj2 (Rltb_false 100 ((0 + b) * / 2))) by lra. f_equal. f_equal. lra. }
  split; [|split; [|split]].
  - replace 2%R with (4 / 2)%R by lra. apply T. lra.
  - cbn [map]. replace (0 * 0 * 0)%R with 0%R by ring. replace 32%R with (4 * 4 * 4 / 2)%R by lra. apply T. lra.
  - unfold bin_value. cbn. rewrite (proj2 (Rleb_false 3 2)) by lra. reflexivity.
  - unfold bin_value. cbn. rewrite (proj2 (Rleb_iff (3 * 3 * 3) 32)) by lra. reflexivity.
Qed.

Print Assumptions C69_new_values_refuted.
