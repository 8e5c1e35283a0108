(** * Concrete tables: the hypotheses of the theorems about the Encoder are met, and
      refutations (C07, C09, C10, C11, C12, C55, C56)

    Cells are rational numbers, missing values and strings ([CStr k] is the [k]-th string
    of the alphabetical order); columns are named by natural numbers. *)

Require Import String List Arith NArith ZArith QArith Bool Lia.
Require Import Verif.Base Verif.Num Verif.M_Bitarray Verif.P_Bitarray Verif.M_Binning Verif.M_Forest
  Verif.M_Encoder Verif.S_Encoder Verif.P_Encoder Verif.Cells Verif.T_Encoder Verif.M_EncoderForest Verif.T_EncoderForest
  Verif.S_Forest Verif.Ex_Data.
Import ListNotations.
Local Open Scope list_scope.
Local Open Scope nat_scope.

Definition VQ : values (nan_arith QA) := cell_values QA (fun x => x).

Lemma VQ_good : good_values VQ.
Proof.
  apply cell_values_good; auto.
  - intros x _. simpl. apply Qle_bool_iff. apply Qle_refl.
  - intros x y z. simpl. rewrite !Qle_bool_iff. apply Qle_trans.
Qed.

Notation str k := (@CStr QA k).
Notation nb x := (@CNum QA x%Q).
Notation na := (@CNone QA).
Definition obj (cells : list (cell QA)) : column VQ := mkColumn VQ KObject None cells.
Definition cat (cats cells : list (cell QA)) : column VQ := mkColumn VQ KObject (Some cats) cells.
Definition flt (cells : list (cell QA)) : column VQ := mkColumn VQ KFloat None cells.
Definition int (cells : list (cell QA)) : column VQ := mkColumn VQ KInt None cells.
Notation frame n cols := (XFrame VQ nat n cols).
Notation arr k n cols := (XArray VQ nat k n cols).

Definition EQ (choice : nat -> nat -> list nat) : eenv (nan_arith QA) :=
  mkEenv (nan_arith QA) choice Nat.log2 Nat.sqrt (Some 1000000%Q) (fun i => N.of_nat (i * 77 + 5)).
Definition E0 : eenv (nan_arith QA) := EQ (fun n k => seq 0 k).

Lemma names_ok : forall a b, Nat.eqb a b = true <-> a = b.
Proof. apply Nat.eqb_eq. Qed.
Lemma choices_ok : forall n k, k < n -> length (ee_choice E0 n k) = k.
Proof. intros. apply seq_length. Qed.
Lemma choices_in : forall n k i, k < n -> In i (ee_choice E0 n k) -> i < n.
Proof. intros n k i H Hi. apply in_seq in Hi. lia. Qed.

(** ** A fit and a transform *)

Definition cf0 (error : bool) : config := mkConfig 4 None None (Some CMLog) error.

(** Strings, floats with a missing value, integers with few values, and a column of dtype
    "category" which declares a category that it does not contain. *)
Definition X0 : xdata VQ nat := frame 6 [
  (10, obj [str 2; str 0; str 1; str 0; str 2; str 0]);
  (11, flt [nb 1; nb 2; nb 3; na; nb 4; nb 5]);
  (12, int [nb 7; nb 3; nb 7; nb 3; nb 3; nb 7]);
  (13, cat [str 0; str 3; str 8] [str 3; str 3; na; str 0; str 0; str 3])].
(** Other rows, with an unknown string and missing values. *)
Definition X1 : xdata VQ nat := frame 3 [
  (20, obj [str 5; str 0; na]);
  (21, flt [nb (7 # 2); na; nb 40]);
  (22, int [nb 3; nb 7; nb 7]);
  (23, cat [str 0; str 3; str 8] [str 8; str 0; na])].

Definition cols0 : list (learned VQ) :=
  [LCat VQ [str 0; str 1; str 2]; LNum VQ [Some 2; Some 3; Some 4]%Q; LCat VQ [nb 3; nb 7]; LCat VQ [str 0; str 3; str 8]].
Definition e0 : encoder VQ := mkEncoder VQ true (Some 6) (Some 4) (Some cols0).

(** Runs the model in the virtual machine of the kernel. *)
Ltac run := match goal with |- _ = ?r => vm_cast_no_check (@eq_refl _ r) end.
Definition fitted (X : xdata VQ nat) : encoder VQ := fst (fit VQ nat E0 (cf0 true) (new_encoder VQ) X).
Definition get_fb (r : res fba) : fba := match r with Ok fb => fb | Err _ => mkFba 0 0 [] [] [] [] [] [] end.
Definition get_ce (r : res (config * encoder VQ)) : config * encoder VQ := match r with Ok x => x | Err _ => (cf0 true, e0) end.
Definition get_thr (e : encoder VQ) : list (num (nan_arith QA)) := match e_cols VQ e with Some [LNum _ thr] => thr | _ => [] end.
Definition get_cats (e : encoder VQ) : list (cell QA) := match e_cols VQ e with Some [LCat _ cats] => cats | _ => [] end.
Ltac small := apply N.ltb_lt; vm_compute; reflexivity.

Example X0_fit : forall b, fit VQ nat E0 (cf0 b) (new_encoder VQ) X0 = (e0, Ok tt).
Proof. intro b. destruct b; run. Qed.

Lemma cats_ok3 : forall a b c, a <> b -> a <> c -> b <> c -> categories_ok VQ [str a; str b; str c].
Proof.
  intros a b c H1 H2 H3. split.
  - simpl. intros x [<-|[<-|[<-|[]]]]; auto.
  - intros [|[|[|i]]] [|[|[|j]]] x y N E1 E2; simpl in E1, E2; try lia; try (destruct i; discriminate); try (destruct j; discriminate);
      inversion E1; inversion E2; subst; simpl; apply Nat.eqb_neq; lia.
Qed.

Example X0_ok : data_ok VQ X0.
Proof.
  split; [lia|]. split; [small|]. intros p H. simpl in H. destruct H as [<-|[<-|[<-|[<-|[]]]]]; (split; [reflexivity|]); simpl; auto.
  split; auto. split; [apply cats_ok3; lia|]. split; [small|].
  intros x [<-|[<-|[<-|[<-|[<-|[<-|[]]]]]]] H; try discriminate; (exists (str 3); split; [simpl; auto|reflexivity]) || (exists (str 0); split; [simpl; auto|reflexivity]).
Qed.
Example X1_ok : data_ok VQ X1.
Proof.
  split; [lia|]. split; [small|]. intros p H. simpl in H. destruct H as [<-|[<-|[<-|[<-|[]]]]]; (split; [reflexivity|]); simpl; auto.
  split; auto. split; [apply cats_ok3; lia|]. split; [small|].
  intros x [<-|[<-|[<-|[]]]] H; try discriminate; (exists (str 8); split; [simpl; auto|reflexivity]) || (exists (str 0); split; [simpl; auto|reflexivity]).
Qed.
Example X1_clean : clean VQ X1.
Proof. simpl. repeat constructor; simpl; intuition lia. Qed.
Example X0_clean : clean VQ X0.
Proof. simpl. repeat constructor; simpl; intuition lia. Qed.
Example X0_acceptable : acceptable VQ X0 None.
Proof.
  intros p H. simpl in H. destruct H as [<-|[<-|[<-|[<-|[]]]]]; simpl; auto; right; (split; [auto|]); (split; [auto|]);
    intros x Hx; simpl in Hx; intuition (subst; discriminate).
Qed.
Example X0_accepted : exists e, fit VQ nat E0 (cf0 true) (new_encoder VQ) X0 = (e, Ok tt).
Proof.
  apply C11_fit_succeeds.
  - apply choices_in.
  - intros [|x|s] H; simpl in *; congruence.
  - simpl. lia.
  - discriminate.
  - exact I.
  - apply X0_ok.
  - apply X0_acceptable.
  - simpl. lia.
Qed.

Lemma QA_trans : forall x y z : num (nan_arith QA), aleb x y = true -> aleb y z = true -> aleb x z = true.
Proof. intros [x|] [y|] [z|]; simpl; auto; try discriminate. rewrite !Qle_bool_iff. apply Qle_trans. Qed.
Example cols0_ordered : ordered VQ cols0.
Proof.
  split; [apply QA_trans|]. intros thr H. simpl in H. destruct H as [H|[H|[H|[H|[]]]]]; try discriminate. inversion H; subst thr.
  intros [|[|[|i]]] [|[|[|j]]] s t Hij E1 E2; simpl in E1, E2; try lia; try (destruct i; discriminate); try (destruct j; discriminate);
    inversion E1; inversion E2; subst; reflexivity.
Qed.
Example X1_numbers : still_numbers VQ X1 cols0.
Proof.
  intros [|[|[|[|j]]]] thr col H1 H2; simpl in H1; try discriminate; [|destruct j; discriminate].
  inversion H2; subst col. split; [split; reflexivity|]. intros x Hx. simpl in Hx. destruct Hx as [<-|[<-|[<-|[]]]]; discriminate.
Qed.

(** What transform and inverse_transform return. *)
Definition bins (fb : res fba) : res (list (list N)) := let* fb := fb in to_array fb.
Example X1_bins : bins (transform VQ nat Nat.eqb E0 (cf0 false) e0 X1) = Ok [[3; 2; 0; 2]; [0; 4; 1; 0]; [3; 3; 1; 3]]%N.
Proof. run. Qed.
Example X1_inverse :
  (let* fb := transform VQ nat Nat.eqb E0 (cf0 false) e0 X1 in inverse_transform VQ e0 fb) =
  Ok [[ONaN VQ; OVal VQ (str 0); ONaN VQ];
      [OInterval VQ (Some (Some 3)) (Some (Some 4)); ONaN VQ; OInterval VQ (Some (Some 4)) None]%Q;
      [OVal VQ (nb 3); OVal VQ (nb 7); OVal VQ (nb 7)];
      [OVal VQ (str 8); OVal VQ (str 0); ONaN VQ]].
Proof. run. Qed.

(** The theorems apply. *)
Example X1_C08 : exists fb, transform VQ nat Nat.eqb E0 (cf0 false) e0 X1 = Ok fb /\ get_value fb 0 0 = Ok 3%N.
Proof.
  apply (C08_consider_missing VQ VQ_good nat Nat.eqb E0 names_ok choices_ok (cf0 false) (new_encoder VQ) X0 e0 cols0 X1 0 [str 0; str 1; str 2] 0 (str 5)).
  - apply X0_ok.
  - apply X0_fit.
  - reflexivity.
  - apply X1_ok.
  - apply X1_clean.
  - exact I.
  - reflexivity.
  - apply X1_numbers.
  - reflexivity.
  - reflexivity.
  - reflexivity.
  - right. intros (c & Hc & H). simpl in Hc. destruct Hc as [<-|[<-|[<-|[]]]]; discriminate.
Qed.
Example X1_C08_error : transform VQ nat Nat.eqb E0 (cf0 true) e0 X1 = Err ValueErr.
Proof.
  apply (C08_error VQ VQ_good nat Nat.eqb E0 choices_ok (cf0 true) (new_encoder VQ) X0 e0 cols0 X1 0 [str 0; str 1; str 2] (str 5)).
  - apply X0_ok.
  - apply X0_fit.
  - reflexivity.
  - apply X1_ok.
  - reflexivity.
  - reflexivity.
  - eexists. split; [reflexivity|]. simpl. auto.
  - intros (c & Hc & H). simpl in Hc. destruct Hc as [<-|[<-|[<-|[]]]]; discriminate.
Qed.
Example X1_C07 : forall fb, transform VQ nat Nat.eqb E0 (cf0 false) e0 X1 = Ok fb -> forall i j, i < 3 -> j < 4 ->
  exists x d b, cell_at VQ X1 i j = Some x /\ nth_error cols0 j = Some d /\ get_value fb i j = Ok (N.of_nat b) /\
    documented_bin VQ (as64 VQ) d x b.
Proof.
  intros fb H i j Hi Hj.
  destruct (C07_encoded_bins_fit VQ VQ_good nat Nat.eqb E0 names_ok choices_ok _ _ _ _ _ _ _ X0_ok (X0_fit false) eq_refl X1_ok X1_clean H) as (_ & _ & _ & P).
  destruct (P i j Hi Hj) as (x & d & mv & b & P1 & P2 & _ & P4 & _ & P6). exists x, d, b.
  split; auto. split; auto. split; auto. apply P6. left. apply cols0_ordered.
Qed.
Example X1_C09 : forall fb, transform VQ nat Nat.eqb E0 (cf0 false) e0 X1 = Ok fb -> exists out, inverse_transform VQ e0 fb = Ok out.
Proof.
  intros fb H.
  apply (C09_total VQ VQ_good nat Nat.eqb E0 names_ok choices_ok _ _ _ _ _ _ _ X0_ok (X0_fit false) eq_refl X1_ok X1_clean H cols0_ordered).
  - intros thr t Ht Hin. simpl in Ht. destruct Ht as [Ht|[Ht|[Ht|[Ht|[]]]]]; inversion Ht; subst thr.
    simpl in Hin. destruct Hin as [<-|[<-|[<-|[]]]]; reflexivity.
  - simpl. intuition discriminate.
Qed.

(** ** C10, refuted: two columns with the same name *)

(** The second column takes the place of the first one, and the last column is not written:
    it contains what was in the memory. *)
Definition X_twice : xdata VQ nat := frame 3 [
  (10, obj [str 0; str 1; str 1]); (10, obj [str 1; str 0; str 1]); (11, obj [str 0; str 0; str 1])].
Definition E_mem (w : N) : eenv (nan_arith QA) :=
  mkEenv (nan_arith QA) (fun n k => seq 0 k) Nat.log2 Nat.sqrt (Some 1000000%Q) (fun _ => w).
Theorem C10_duplicate_names_refuted : exists e,
  (forall w, fit VQ nat (E_mem w) (cf0 true) (new_encoder VQ) X_twice = (e, Ok tt)) /\ data_ok VQ X_twice /\
  bins (transform VQ nat Nat.eqb (E_mem 0) (cf0 true) e X_twice) = Ok [[1; 0; 0]; [0; 0; 0]; [1; 1; 0]]%N /\
  bins (transform VQ nat Nat.eqb (E_mem (2 ^ 64 - 1)) (cf0 true) e X_twice) = Ok [[1; 0; 1]; [0; 0; 1]; [1; 1; 1]]%N.
Proof.
  exists (fitted X_twice). split; [intro w; run|]. split; [|split; run].
  split; [lia|]. split; [small|]. intros p H. simpl in H. destruct H as [<-|[<-|[<-|[]]]]; split; simpl; auto.
Qed.

(** ** C07, refuted: missing values in an array of objects *)

(** transform does not look for missing values in arrays of objects. In a categorical
    column, the bin of missing values does not fit in the bits of the column: it overwrites
    the bin of the next sample (second column), and what is read back is another category. *)
Definition X_objects : xdata VQ nat := arr KObject 4 [[str 0; str 1; na; str 0]].
Theorem C07_object_array_missing_refuted : exists e,
  fit VQ nat E0 (cf0 true) (new_encoder VQ) X_objects = (e, Ok tt) /\ data_ok VQ X_objects /\
  e_cols VQ e = Some [LCat VQ [str 0; str 1]] /\
  bins (transform VQ nat Nat.eqb E0 (cf0 true) e X_objects) = Ok [[0]; [1]; [0]; [0]]%N.
Proof.
  exists (fitted X_objects). split; [run|]. split; [|split; [run|run]].
  split; [lia|]. split; [small|]. intros c H. simpl in H. destruct H as [<-|[]]; auto.
Qed.

(** ** C09, refuted: a categorical column without any value *)

Definition X_empty : xdata VQ nat := frame 2 [(10, obj [na; na])].
Theorem C09_no_category_refuted : exists e fb,
  fit VQ nat E0 (cf0 true) (new_encoder VQ) X_empty = (e, Ok tt) /\ data_ok VQ X_empty /\ clean VQ X_empty /\
  transform VQ nat Nat.eqb E0 (cf0 true) e X_empty = Ok fb /\ inverse_transform VQ e fb = Err IndexErr.
Proof.
  exists (fitted X_empty), (get_fb (transform VQ nat Nat.eqb E0 (cf0 true) (fitted X_empty) X_empty)). split; [run|]. split.
  - split; [lia|]. split; [small|]. intros p H. simpl in H. destruct H as [<-|[]]; split; simpl; auto.
  - split; [repeat constructor; simpl; tauto|]. split; run.
Qed.

(** ** C11: data frames and arrays disagree *)

(** The same column is categorical in a data frame and continuous in an array: a missing
    value counts as a value in arrays only. *)
Theorem C11_frame_and_array_disagree_refuted : exists cells e e' thr,
  fit VQ nat E0 (cf0 true) (new_encoder VQ) (frame 4 [(10, flt cells)]) = (e, Ok tt) /\
  fit VQ nat E0 (cf0 true) (new_encoder VQ) (arr KFloat 4 [cells]) = (e', Ok tt) /\
  e_cols VQ e = Some [LCat VQ [nb 1; nb 2]] /\ e_cols VQ e' = Some [LNum VQ thr].
Proof.
  exists [nb 1; nb 2; na; nb 1], (fitted (frame 4 [(10, flt [nb 1; nb 2; na; nb 1])])), (fitted (arr KFloat 4 [[nb 1; nb 2; na; nb 1]])),
    (get_thr (fitted (arr KFloat 4 [[nb 1; nb 2; na; nb 1]]))).
  repeat apply conj; run.
Qed.

(** ** C12, refuted: categorical features given to the constructor *)

Definition to_int (x : num (nan_arith QA)) : res Z := match x with Some q => Ok (Qnum q / Zpos (Qden q))%Z | None => Err ValueErr end.
Definition st0 (ss : pyval (nan_arith QA)) (cf : cat_features) : settings :=
  mkSettings ss (PyStr "log") (PyStr "consider_missing") cf.
Definition X_codes : xdata VQ nat := arr KInt 5 [[nb 1; nb 2; nb 3; nb 4; nb 5]].

Definition codes_run : config * encoder VQ := get_ce (snd (forest_encode VQ nat E0 to_int (st0 PyNone (CFInts [0%Z])) 256 X_codes CFNone)).
Theorem C12_constructor_ignored_refuted : exists c e thr,
  snd (forest_encode VQ nat E0 to_int (st0 PyNone (CFInts [0%Z])) 256 X_codes CFNone) = Ok (c, e) /\
  st_categorical_features (fst (forest_encode VQ nat E0 to_int (st0 PyNone (CFInts [0%Z])) 256 X_codes CFNone)) = CFInts [0%Z] /\
  e_cols VQ e = Some [LNum VQ thr].
Proof. exists (fst codes_run), (snd codes_run), (get_thr (snd codes_run)). repeat apply conj; run. Qed.

(** Given to fit, they are obeyed. *)
Definition codes_run' : config * encoder VQ := get_ce (snd (forest_encode VQ nat E0 to_int (st0 PyNone CFNone) 256 X_codes (CFInts [0%Z]))).
Example C12_fit_argument_used : exists c e cats,
  snd (forest_encode VQ nat E0 to_int (st0 PyNone CFNone) 256 X_codes (CFInts [0%Z])) = Ok (c, e) /\
  get_is_categorical (CFInts [0%Z]) 1 = Ok (Some [true]) /\ declares (CFInts [0%Z]) 1 [true] /\
  e_cols VQ e = Some [LCat VQ cats].
Proof.
  exists (fst codes_run'), (snd codes_run'), (get_cats (snd codes_run')). split; [run|]. split; [reflexivity|]. split; [|run].
  split; auto. intros j Hj. assert (j = 0) by lia. subst j. simpl. tauto.
Qed.

(** Tables for the forests, and the encoder they use. *)
Example a_table : exists t : table VQ nat, tb_X _ _ t = X0.
Proof. exists (mkTable _ _ X0 X0_ok X0_clean CFNone). reflexivity. Qed.
Example a_good_encoding : forall ss cf, good_encoding (forest_encoding VQ nat Nat.eqb E0 to_int (st0 ss cf)).
Proof. intros. exact (encoder_is_good VQ VQ_good nat Nat.eqb E0 to_int names_ok choices_ok _). Qed.

(** ** C55, refuted: large training sets *)

(** With more than [subsample] rows, the thresholds depend on the state of numpy's global
    generator, and not on the random_state of the forest. *)
Definition sample_from (i : nat) : eenv (nan_arith QA) := EQ (fun n k => seq i k).

Definition thresholds_of (r : res (config * encoder VQ)) : option (list (learned VQ)) :=
  match r with Ok (_, e) => e_cols VQ e | Err _ => None end.
Lemma take_seq : forall {A : arith} (V : values A) k a cells, a + k <= length cells ->
  take V (Some (seq a k)) cells = Ok (firstn k (skipn a cells)).
Proof.
  intros A V k. simpl. induction k as [|k IH]; intros a cells H; simpl; auto.
  destruct (nth_error cells a) as [x|] eqn:E; [|apply nth_error_None in E; lia].
  rewrite (proj2 (geti_ok _ _ _) E). cbn [bind]. rewrite IH by lia. cbn [bind].
  apply nth_error_split in E. destruct E as (l1 & l2 & -> & <-).
  rewrite (skipn_app (S (length l1))), skipn_all2 by lia. rewrite (skipn_app (length l1)), skipn_all, Nat.sub_diag.
  replace (S (length l1) - length l1) with 1 by lia. reflexivity.
Qed.

Lemma sampled : forall a (z : Z) n cells, (50000 <= z)%Z -> Z.to_nat z < n -> a + Z.to_nat z <= n -> length cells = n ->
  thresholds_of (snd (forest_encode VQ nat (sample_from a) to_int (st0 (PyInt z) CFNone) 256 (arr KInt n [cells]) (CFBools [false]))) =
  match (let* col := convert VQ (as64 VQ) (dropna VQ (firstn (Z.to_nat z) (skipn a cells))) in
         @find_binning_thresholds (nan_arith QA) (Some 1000000%Q) col (Z.to_nat 256)) with Ok thr => Some [LNum VQ thr] | Err _ => None end.
Proof.
  intros a z n cells Hz Hn Ha Hl. unfold forest_encode, encode_fit, store_categorical, st0. cbn [snd st_subsample st_cat_min st_handle_unknown].
  cbn [shape snd length get_is_categorical Nat.eqb bind]. unfold encoder_init. cbn [check_max_bins as_int Z.ltb Z.compare Pos.compare Pos.compare_cont bind].
  unfold check_subsample. rewrite (proj2 (Z.leb_le _ _) Hz). cbn [bind check_cat_min as_int as_str check_handle_unknown]. simpl (_ =? _)%string. cbn [bind].
  unfold fit. cbn [check_X in_bOSU in_uif orb bind shape snd length c_is_categorical Nat.eqb].
  destruct (Nat.eqb_spec n 0); [lia|]. unfold cat_min_of. cbn [c_cat_min bind].
  unfold learn, get_array_dtypes. cbn [c_is_categorical in_bOSU in_uif]. cbn [enumerate length seq combine mapM fst snd geti nth_error bind].
  unfold learn_array_column, learn_numerical, subset_of. cbn [c_subsample c_max_bins].
  destruct (Nat.ltb_spec (Z.to_nat z) n); [|lia]. cbn [sample_from EQ ee_choice ee_almost_inf].
  rewrite take_seq by (rewrite Hl; lia). cbn [bind].
  destruct (convert VQ (as64 VQ) (dropna VQ (firstn (Z.to_nat z) (skipn a cells)))) as [col|]; cbn [bind]; auto.
  match goal with |- context [@find_binning_thresholds ?A ?x ?y ?w] => destruct (@find_binning_thresholds A x y w) end; reflexivity.
Qed.

Definition cells_many : list (cell QA) := repeat (nb 0) (Z.to_nat 49998) ++ [nb 1; nb 2; nb 3].
Lemma cells_many_length : length cells_many = Z.to_nat 50001.
Proof. unfold cells_many. rewrite app_length, repeat_length. simpl length. lia. Qed.

Theorem C55_subsample_refuted : exists st n cells E E', length cells = n /\
  (forall n k, k < n -> k + 1 = n -> NoDup (ee_choice E n k) /\ NoDup (ee_choice E' n k) /\
     length (ee_choice E n k) = k /\ length (ee_choice E' n k) = k /\
     forall i, In i (ee_choice E n k) \/ In i (ee_choice E' n k) -> i < n) /\
  ee_log E = ee_log E' /\ ee_sqrt E = ee_sqrt E' /\ ee_almost_inf E = ee_almost_inf E' /\
  thresholds_of (snd (forest_encode VQ nat E to_int st 256 (arr KInt n [cells]) (CFBools [false]))) = Some [LNum VQ [Some (1 # 2); Some (3 # 2)]%Q] /\
  thresholds_of (snd (forest_encode VQ nat E' to_int st 256 (arr KInt n [cells]) (CFBools [false]))) = Some [LNum VQ [Some (1 # 2); Some (3 # 2); Some (5 # 2)]%Q].
Proof.
  exists (st0 (PyInt 50000%Z) CFNone), (Z.to_nat 50001), cells_many, (sample_from 0), (sample_from 1).
  split; [apply cells_many_length|]. split.
  - intros n k Hk H1. cbn [sample_from EQ ee_choice]. repeat split; try apply seq_NoDup; try apply seq_length.
    intros i [Hi|Hi]; apply in_seq in Hi; lia.
  - split; [reflexivity|]. split; [reflexivity|]. split; [reflexivity|]. split.
    + rewrite (sampled 0 50000 (Z.to_nat 50001) cells_many (Z.le_refl _) ltac:(lia) ltac:(lia) cells_many_length). run.
    + rewrite (sampled 1 50000 (Z.to_nat 50001) cells_many (Z.le_refl _) ltac:(lia) ltac:(lia) cells_many_length). run.
Qed.

(** Below, they do not: the hypothesis of C55_no_subsampling. *)
Example X0_not_subsampled : forall k, check_subsample to_int (PyInt 50000%Z) = Ok (Some k) -> fst (shape VQ nat X0) <= k.
Proof.
  intros k H. assert (E : k = Z.to_nat 50000) by (unfold check_subsample in H; change (50000 <=? 50000)%Z with true in H; congruence).
  change (fst (shape VQ nat X0)) with 6. lia.
Qed.

(** ** C56, refuted: a fit that fails *)

(** An encoder fitted on [X0] encodes [X0]; after a fit which raises, on a table with another
    number of columns, it does not any more. *)
Definition X_bad : xdata VQ nat := frame 2 [(10, mkColumn VQ KOther None [str 0; str 1])].
Theorem C56_failed_fit_refuted : exists e fb,
  transform VQ nat Nat.eqb E0 (cf0 true) e0 X0 = Ok fb /\
  fit VQ nat E0 (cf0 true) e0 X_bad = (e, Err ValueErr) /\
  transform VQ nat Nat.eqb E0 (cf0 true) e X0 = Err ValueErr.
Proof.
  exists (fst (fit VQ nat E0 (cf0 true) e0 X_bad)), (get_fb (transform VQ nat Nat.eqb E0 (cf0 true) e0 X0)).
  repeat apply conj; run.
Qed.

(** After a fit that raises on a table with as many columns, it does: the hypotheses of
    C56_same_columns. *)
Definition X_bad_too : xdata VQ nat :=
  frame 2 (map (fun k => (k, mkColumn VQ KOther None [str 0; str 1])) (seq 0 (snd (shape VQ nat X0)))).
Example C56_same_columns_applies : exists e fb,
  fit VQ nat E0 (cf0 true) e0 X_bad_too = (e, Err ValueErr) /\ e_n_features VQ e0 = Some (snd (shape VQ nat X_bad_too)) /\
  transform VQ nat Nat.eqb E0 (cf0 true) e X0 = Ok fb.
Proof.
  exists (fst (fit VQ nat E0 (cf0 true) e0 X_bad_too)), (get_fb (transform VQ nat Nat.eqb E0 (cf0 true) e0 X0)).
  repeat apply conj; run.
Qed.

Print Assumptions C10_duplicate_names_refuted.
Print Assumptions C07_object_array_missing_refuted.
Print Assumptions C09_no_category_refuted.
Print Assumptions C11_frame_and_array_disagree_refuted.
Print Assumptions C12_constructor_ignored_refuted.
Print Assumptions C55_subsample_refuted.
Print Assumptions C56_failed_fit_refuted.
