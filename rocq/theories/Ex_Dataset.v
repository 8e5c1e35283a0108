(** * Concrete files: the hypotheses of C59, C60 and C61 are met, and refutations *)

Require Import String List Arith NArith ZArith QArith Bool Lia Permutation.
Require Import Verif.Base Verif.Num Verif.M_Encoder Verif.S_Encoder Verif.Cells Verif.Ex_Data
  Verif.M_Dataset Verif.S_Dataset Verif.P_Dataset Verif.T_Dataset Verif.T_DatasetColumns Verif.T_DatasetLabel Verif.T_EncoderQ.
Import ListNotations.
Local Open Scope string_scope.
Local Open Scope list_scope.
Local Open Scope nat_scope.
Local Notation length := List.length.
Local Notation NQ := (nan_arith QA).

(** The mean and half the number of cells stand for what [StandardScaler] learns; the split
    takes every third row for the test. *)
Definition meanQ (l : list (num NQ)) : num NQ := @adiv NQ (@asum NQ l) (@aofnat NQ (length l)).
Definition toint (x : num NQ) : option (num NQ) :=
  match x with Some q => Some (Some (inject_Z (Z.quot (Qnum q) (Zpos (Qden q))))) | None => None end.
Definition third (n : nat) : list nat * list nat :=
  (filter (fun i => negb (i mod 3 =? 2)) (seq 0 n), filter (fun i => i mod 3 =? 2) (seq 0 n)).
Definition DE : denv VQ :=
  mkDenv VQ (fun seed n strat => Ok (third n)) (fun l => (meanQ l, @aofnat NQ (length l / 2))) toint None.

(** Six rows: two numeric columns, two categorical ones with missing values, and the labels. *)
Definition file (label_cat : bool) (labels : list (Cells.cell QA)) : M_Dataset.frame VQ :=
  mkFrame VQ 6
    [("age", (false, [nb 1; nb 2; nb 9; nb 4; nb 5; nb 3]));
     ("color", (true, [str 1; str 0; str 7; str 1; na; str 0]));
     ("y", (label_cat, labels));
     ("size", (false, [nb 2; nb 2; nb 0; nb 4; nb 4; nb 7]));
     ("city", (true, [str 3; str 3; str 3; str 5; str 5; na]))].
Definition classes6 : list (Cells.cell QA) := [str 8; str 9; str 9; str 9; str 8; str 8].
Definition file6 := file true classes6.
Definition config (task : dtask) (one_hot pd : bool) : dataset :=
  mkDataset task "y" (Some ["age"; "size"]) (Some ["color"; "city"]) [] true one_hot false pd.

Lemma partition_by : forall (f : nat -> bool) l, Permutation (filter (fun i => negb (f i)) l ++ filter f l) l.
Proof.
  intros f l. induction l as [|x l IH]; [constructor|]. cbn [filter]. destruct (f x); cbn [negb].
  - apply Permutation_sym, Permutation_cons_app, Permutation_sym. exact IH.
  - cbn [app]. constructor. exact IH.
Qed.
Lemma DE_splits : splits VQ DE.
Proof.
  intros seed n strat tr te H. injection H as <- <-. apply (partition_by (fun i => i mod 3 =? 2)).
Qed.
Lemma DE_codes : keeps_codes VQ DE.
Proof.
  split; [|split]; [|reflexivity|reflexivity]. intros k. cbn [de_int DE toint]. change (@aofnat NQ k) with (Some (inject_Z (Z.of_nat k))).
  cbn [toint inject_Z Qnum Qden]. rewrite Z.quot_1_r. reflexivity.
Qed.

Lemma file_ok : forall b l, length l = 6 -> frame_ok VQ (file b l).
Proof.
  intros b l Hl. split.
  - cbn. repeat constructor; cbn; intuition discriminate.
  - cbn. intros c H. repeat (destruct H as [<-|H]; [first [reflexivity|exact Hl]|]). destruct H.
Qed.
Lemma file_matching : forall task one_hot pd b l, matching VQ (config task one_hot pd) (file b l).
Proof. intros. split; reflexivity. Qed.

(** One-hot encoding. Row 2 has an unknown colour, row 5 a missing city. *)
Definition out_hot : extracted VQ :=
  mkExtracted VQ
    [[Some (-1); Some (-1 # 2); Some (1 # 2); Some 1]; [Some (-1 # 2); Some (-1 # 2); Some (1 # 2); Some (1 # 2)];
     [Some 0; Some 1; Some 0; Some 0]; [Some 1; Some 0; Some 1; Some 0]; [Some 0; Some 0; Some 0; Some 1];
     [Some 1; Some 1; Some 0; Some 0]; [Some 0; Some 0; Some 1; Some 1]]%Q
    [[Some 3; Some 0]; [Some (-3 # 2); Some 2]; [Some 0; Some 1]; [Some 0; Some 0]; [Some 0; Some 0]; [Some 1; Some 0]; [Some 0; Some 0]]%Q
    (YCodes VQ [0; 1; 1; 0]) (YCodes VQ [1; 0])
    ["age"; "size"; "color#0"; "color#1"; "color#2"; "city#0"; "city#1"] None 6 4 2 7 (Some [str 8; str 9]) (Some (Some 1%Q)).
Example extract_hot : extract VQ DE (config DClassification true false) file6 0 = Ok out_hot.
Proof. vm_cast_no_check (eq_refl (@Ok (extracted VQ) out_hot)). Qed.

(** Ordinal encoding: -1 for an unknown value, NaN for a missing one. *)
Definition out_ord : extracted VQ :=
  mkExtracted VQ
    [[Some (-1); Some (-1 # 2); Some (1 # 2); Some 1]; [Some (-1 # 2); Some (-1 # 2); Some (1 # 2); Some (1 # 2)];
     [Some 1; Some 0; Some 1; None]; [Some 0; Some 0; Some 1; Some 1]]%Q
    [[Some 3; Some 0]; [Some (-3 # 2); Some 2]; [Some (-1); Some 0]; [Some 0; Some (-1)]]%Q
    (YCodes VQ [0; 1; 1; 0]) (YCodes VQ [1; 0])
    ["age"; "size"; "color"; "city"] (Some [false; false; true; true]) 6 4 2 4 (Some [str 8; str 9]) (Some (Some 1%Q)).
Example extract_ord : extract VQ DE (config DClassification false false) file6 0 = Ok out_ord.
Proof. vm_cast_no_check (eq_refl (@Ok (extracted VQ) out_ord)). Qed.

Example chosen6 : forall one_hot pd, chosen_rows VQ DE (config DClassification one_hot pd) file6 0 [0; 1; 3; 4] [2; 5].
Proof. intros. exists classes6. split; reflexivity. Qed.

Lemma ok_with : forall {X} (r : res X) (Q : X -> Prop), match r with Ok o => Q o | Err _ => False end -> exists o, r = Ok o /\ Q o.
Proof. intros X [o|e] Q H; [eauto|destruct H]. Qed.

(** ** C59 *)
Example C59_applies : exists tr te, chosen_rows VQ DE (config DClassification true false) file6 0 tr te /\
  Permutation (tr ++ te) (seq 0 6) /\ length tr = 4 /\ length te = 2.
Proof.
  destruct (C59_partition VQ DE DE_splits (config DClassification true false) file6 0 out_hot extract_hot)
    as (tr & te & H1 & H2 & H3 & H4 & H5 & _). exists tr, te. auto.
Qed.

(** Another file with the same training rows and other test rows. *)
Definition file7 : M_Dataset.frame VQ :=
  mkFrame VQ 6
    [("age", (false, [nb 1; nb 2; nb 3; nb 4; nb 5; nb 100]));
     ("color", (true, [str 1; str 0; str 0; str 1; na; str 6]));
     ("y", (true, [str 8; str 9; str 8; str 9; str 8; str 9]));
     ("size", (false, [nb 2; nb 2; nb 7; nb 4; nb 4; nb 0]));
     ("city", (true, [str 3; str 3; na; str 5; str 5; str 3]))].
Lemma same_rows_67 : forall i, In i [0; 1; 3; 4] -> same_row VQ file6 i file7 i.
Proof.
  intros i Hi c. unfold cell, file6, file7, file. cbn [fr_cols find fst snd].
  repeat (destruct Hi as [<-|Hi]; [repeat (destruct (c =? _)%string; [reflexivity|]); reflexivity|]). destruct Hi.
Qed.
Example C59_learns_applies : exists o', extract VQ DE (config DClassification true false) file7 0 = Ok o' /\
  x_train VQ o' = x_train VQ out_hot /\ x_columns VQ o' = x_columns VQ out_hot /\ x_test VQ o' <> x_test VQ out_hot /\
  (* row 5 of the first file is row 2 of the second one *)
  matrix_row (x_test VQ out_hot) 1 = matrix_row (x_test VQ o') 0.
Proof.
  assert (Hx : exists o', extract VQ DE (config DClassification true false) file7 0 = Ok o' /\ x_test VQ o' <> x_test VQ out_hot)
    by (apply ok_with; vm_compute; discriminate).
  destruct Hx as (o' & Ho & Hd). exists o'. split; [exact Ho|].
  destruct (C59_learns_from_training_rows VQ DE DE (config DClassification true false) file6 file7 0 0 out_hot o' [0; 1; 3; 4] [2; 5] [0; 1; 3; 4] [2; 5]
    eq_refl eq_refl eq_refl) as (H1 & _ & H3 & _ & _ & H6 & _).
  - apply file_ok. reflexivity.
  - split; [cbn; repeat constructor; cbn; intuition discriminate|]. cbn. intros c H. repeat (destruct H as [<-|H]; [reflexivity|]). destruct H.
  - reflexivity.
  - exact extract_hot.
  - exact Ho.
  - apply chosen6.
  - exists [str 8; str 9; str 8; str 9; str 8; str 9]. split; reflexivity.
  - repeat (constructor; [apply same_rows_67; cbn; tauto|]). constructor.
  - split; [auto|]. split; [auto|]. split; [exact Hd|]. apply (H6 1 5 0 2); try reflexivity.
    intros c. unfold cell, file6, file7, file. cbn [fr_cols find fst snd]. repeat (destruct (c =? _)%string; [reflexivity|]); reflexivity.
Qed.

(** ** C60 *)
Example C60_hot_applies : exists c P, meaning VQ DE (config DClassification true false) file6 [0; 1; 3; 4] "color#1" c P /\
  exists x r, cell VQ file6 c 2 = Some x /\ entry (x_test VQ out_hot) 3 0 = Some r /\ P x r.
Proof.
  destruct (C60_columns VQ VQ_good DE (config DClassification true false) file6 0 out_hot [0; 1; 3; 4] [2; 5]) as (_ & _ & H).
  - apply file_ok. reflexivity.
  - apply file_matching.
  - reflexivity.
  - discriminate.
  - exact extract_hot.
  - apply chosen6.
  - destruct (H 3 "color#1" eq_refl) as (c & P & H1 & _ & _ & H2). exists c, P. split; [exact H1|]. apply (H2 0 2). reflexivity.
Qed.

Example C60_mask_applies : exists mask, x_mask VQ out_ord = Some mask /\ length mask = length (x_columns VQ out_ord) /\
  forall j name, nth_error (x_columns VQ out_ord) j = Some name -> exists b, nth_error mask j = Some b /\ In (name, b) (schema VQ file6).
Proof.
  destruct (C60_mask VQ DE (config DClassification false false) file6 0 out_ord) as (_ & H & _).
  - apply file_ok. reflexivity.
  - apply file_matching.
  - reflexivity.
  - exact extract_ord.
  - exists [false; false; true; true]. destruct (H _ eq_refl). auto.
Qed.

(** With [pd_df_categories] and no missing category, codes stay codes. *)
Definition file_full : M_Dataset.frame VQ :=
  mkFrame VQ 6 [("age", (false, [nb 1; nb 2; nb 9; nb 4; nb 5; nb 3])); ("color", (true, [str 1; str 0; str 7; str 1; str 1; str 0])); ("y", (false, [nb 1; nb 2; nb 3; nb 4; nb 5; nb 6]))].
Definition config_pd : dataset := mkDataset DRegression "y" (Some ["age"]) (Some ["color"]) [] true false false true.
Example C60_pd_applies : exists o, extract VQ DE config_pd file_full 0 = Ok o /\
  x_columns VQ o = ["age"; "color"] /\ entry (x_test VQ o) 1 0 = Some (Some (-1)%Q) /\
  exists c P, meaning VQ DE config_pd file_full [0; 1; 3; 4] "color" c P /\
    exists x r, cell VQ file_full c 2 = Some x /\ entry (x_test VQ o) 1 0 = Some r /\ P x r.
Proof.
  assert (Hx : exists o, extract VQ DE config_pd file_full 0 = Ok o /\
    x_columns VQ o = ["age"; "color"] /\ entry (x_test VQ o) 1 0 = Some (Some (-1)%Q)) by (apply ok_with; vm_compute; split; reflexivity).
  destruct Hx as (o & H1 & H2 & H3). exists o. split; [exact H1|]. split; [exact H2|]. split; [exact H3|].
  destruct (C60_columns VQ VQ_good DE config_pd file_full 0 o [0; 1; 3; 4] [2; 5]) as (_ & _ & H).
  - split; [cbn; repeat constructor; cbn; intuition discriminate|]. cbn. intros c H. repeat (destruct H as [<-|H]; [reflexivity|]). destruct H.
  - split; reflexivity.
  - reflexivity.
  - intros _. split; [reflexivity|exact DE_codes].
  - exact H1.
  - reflexivity.
  - destruct (H 1 "color") as (c & P & Hm & _ & _ & Ht); [rewrite H2; reflexivity|]. exists c, P. split; [exact Hm|]. apply (Ht 0 2). reflexivity.
Qed.

(** ** C61 *)
(** The same rows with other labels. *)
Definition file8 := file true [str 9; str 9; str 8; str 8; str 8; str 9].
Example C61_applies : exists o', extract VQ DE (config DClassification true false) file8 0 = Ok o' /\
  label_at VQ (y_train VQ o') 0 <> label_at VQ (y_train VQ out_hot) 0 /\ x_train VQ o' = x_train VQ out_hot /\ x_test VQ o' = x_test VQ out_hot.
Proof.
  assert (Hx : exists o', extract VQ DE (config DClassification true false) file8 0 = Ok o' /\ label_at VQ (y_train VQ o') 0 <> label_at VQ (y_train VQ out_hot) 0)
    by (apply ok_with; vm_compute; discriminate).
  destruct Hx as (o' & Ho & Hd). exists o'. split; [exact Ho|]. split; [exact Hd|].
  destruct (C61_label_not_used VQ DE DE (config DClassification true false) file6 file8 0 0 out_hot o' [0; 1; 3; 4] [2; 5]
    eq_refl eq_refl eq_refl) as (H1 & H2 & _).
  - split; [reflexivity|]. split; [reflexivity|]. intros c i Hc. unfold cell, file6, file8, file. cbn [fr_cols find fst snd].
    destruct (c =? "age")%string; [reflexivity|]. destruct (c =? "color")%string; [reflexivity|].
    destruct (String.eqb_spec c "y"); [contradiction|]. reflexivity.
  - cbn. intuition discriminate.
  - cbn. intuition discriminate.
  - exact extract_hot.
  - exact Ho.
  - apply chosen6.
  - eexists. split; reflexivity.
  - auto.
Qed.

Definition dtype_ages : list (string * bool) := [("age", false); ("color", true); ("size", false); ("city", true)].
Example C61_from_dtype_applies : from_dtype DClassification "y" dtype_ages ["id"] true =
    mkDataset DClassification "y" (Some ["age"; "size"]) (Some ["color"; "city"]) ["id"] true true false false /\
  ~ In "y" (map fst dtype_ages).
Proof. split; [reflexivity|]. cbn. intuition discriminate. Qed.

Example C61_raw_applies : exists X y, get_X_y VQ file6 "y" ["city"] = Ok (X, y) /\ frame_ok VQ file6 /\
  map fst (fr_cols VQ X) = ["age"; "color"; "size"] /\ y = classes6.
Proof.
  destruct (ok_with (get_X_y VQ file6 "y" ["city"]) (fun p => map fst (fr_cols VQ (fst p)) = ["age"; "color"; "size"] /\ snd p = classes6)) as ([X y] & H & H1 & H2).
  - vm_compute. split; reflexivity.
  - exists X, y. split; [exact H|]. split; [apply file_ok; reflexivity|]. split; [exact H1|exact H2].
Qed.

(** ** Refutations *)

(** Three rows of datasets/data/boston.csv.gz. *)
Definition boston : M_Dataset.frame VQ :=
  mkFrame VQ 3
    [("crim", (false, [nb 0.00632; nb 3.32105; nb 0.02731])); ("zn", (false, [nb 18; nb 0; nb 0]));
     ("indus", (false, [nb 2.31; nb 19.58; nb 7.07])); ("chas", (false, [nb 0; nb 1; nb 0]));
     ("nox", (false, [nb 0.538; nb 0.871; nb 0.469])); ("rm", (false, [nb 6.575; nb 5.403; nb 6.421]));
     ("age", (false, [nb 65.2; nb 100; nb 78.9])); ("dis", (false, [nb 4.09; nb 1.3216; nb 4.9671]));
     ("rad", (false, [nb 1; nb 5; nb 2])); ("tax", (false, [nb 296; nb 403; nb 242]));
     ("ptratio", (false, [nb 15.3; nb 14.7; nb 17.8])); ("b", (false, [nb 396.9; nb 396.9; nb 396.9]));
     ("lstat", (false, [nb 4.98; nb 26.82; nb 9.14])); ("medv", (false, [nb 24; nb 13.4; nb 21.6]))].
(** loaders.py:39-76, [load_boston]; [standardize = false] to show the numbers of the file. The
    keys of its [dtype] are not the names of the columns, so that "chas" has the type given by
    [pd.read_csv], a number. *)
Definition load_boston (one_hot : bool) : dataset :=
  mkDataset DRegression "medv"
    (Some ["zn"; "rad"; "crim"; "indus"; "nox"; "rm"; "age"; "dis"; "tax"; "ptratio"; "b"; "lstat"]) (Some ["chas"]) []
    false one_hot false false.
Lemma boston_ok : frame_ok VQ boston.
Proof.
  split; [cbn; repeat constructor; cbn; intuition discriminate|]. cbn. intros c H. repeat (destruct H as [<-|H]; [reflexivity|]). destruct H.
Qed.

(** The bundled "boston" dataset is not [matching]: the first column of the matrix is "zn" and
    its name is "crim", and there are fewer names than columns. *)
Theorem C60_boston_refuted : exists o, frame_ok VQ boston /\ extract VQ DE (load_boston true) boston 0 = Ok o /\
  x_columns VQ o = ["crim"; "zn"; "indus"; "chas"; "nox"; "rm"; "age"; "dis"; "rad"; "tax"; "ptratio"; "b"; "lstat"] /\
  length (x_train VQ o) = 14 /\ (forall i, i < 2 -> option_map (as64 VQ) (cell VQ boston "zn" i) = option_map Some (entry (x_train VQ o) 0 i)) /\
  (exists i, i < 2 /\ option_map (as64 VQ) (cell VQ boston "crim" i) <> option_map Some (entry (x_train VQ o) 0 i)).
Proof.
  destruct (ok_with (extract VQ DE (load_boston true) boston 0) (fun o =>
    x_columns VQ o = ["crim"; "zn"; "indus"; "chas"; "nox"; "rm"; "age"; "dis"; "rad"; "tax"; "ptratio"; "b"; "lstat"] /\
    length (x_train VQ o) = 14 /\ nth_error (x_train VQ o) 0 = Some [Some 18%Q; Some 0%Q])) as (o & H & H1 & H2 & H3).
  - vm_compute. repeat split; reflexivity.
  - exists o. split; [exact boston_ok|]. split; [exact H|]. split; [exact H1|]. split; [exact H2|]. unfold entry. rewrite H3. split.
    + intros [|[|i]] Hi; [reflexivity|reflexivity|lia].
    + exists 0. split; [lia|]. vm_compute. discriminate.
Qed.

(** Without one-hot encoding, "chas" is encoded and no mask says that it is categorical. *)
Theorem C60_boston_mask_refuted : exists o, extract VQ DE (load_boston false) boston 0 = Ok o /\ x_mask VQ o = None /\
  names_in (ds_categorical (load_boston false)) = ["chas"].
Proof.
  destruct (ok_with (extract VQ DE (load_boston false) boston 0) (fun o => x_mask VQ o = None)) as (o & H & H1); [vm_compute; reflexivity|].
  exists o. auto.
Qed.

(** [drop="first"]: more names than columns, even when the lists match. *)
Theorem C60_drop_refuted : exists d o, matching VQ d file6 /\ frame_ok VQ file6 /\ extract VQ DE d file6 0 = Ok o /\
  length (x_columns VQ o) = 7 /\ length (x_train VQ o) = 5.
Proof.
  exists (mkDataset DClassification "y" (Some ["age"; "size"]) (Some ["color"; "city"]) [] true true true false).
  destruct (ok_with (extract VQ DE (mkDataset DClassification "y" (Some ["age"; "size"]) (Some ["color"; "city"]) [] true true true false) file6 0)
    (fun o => length (x_columns VQ o) = 7 /\ length (x_train VQ o) = 5)) as (o & H & H1 & H2); [vm_compute; auto|].
  exists o. split; [split; reflexivity|]. split; [apply file_ok; reflexivity|]. auto.
Qed.

(** [pd_df_categories]: an error with one-hot encoding, and with a missing category. *)
Theorem C60_pd_refuted : extract VQ DE (config DClassification true true) file6 0 = Err IndexErr /\
  extract VQ DE (config DClassification false true) file6 0 = Err ValueErr.
Proof. split; vm_compute; reflexivity. Qed.

(** [from_dtype] with the label among the types: the labels are in the matrix. *)
Theorem C61_from_dtype_refuted : exists o, 
  extract VQ DE (from_dtype DRegression "y" [("age", false); ("y", false)] [] true)
    (mkFrame VQ 3 [("age", (false, [nb 1; nb 2; nb 9])); ("y", (false, [nb 5; nb 6; nb 7]))]) 0 = Ok o /\
  length (x_train VQ o) = 2 /\ label_at VQ (y_train VQ o) 0 = Some (inl (nb 5)) /\ label_at VQ (y_train VQ o) 1 = Some (inl (nb 6)) /\
  nth_error (x_train VQ o) 1 = Some [Some (-1 # 2)%Q; Some (1 # 2)%Q].
Proof.
  apply ok_with. vm_compute. repeat split; reflexivity.
Qed.

(** A class that no training row has: an error. *)
Theorem C59_unseen_class_refuted : extract VQ DE (config DClassification true false) (file true [str 8; str 9; str 7; str 9; str 8; str 8]) 0 = Err ValueErr.
Proof. vm_compute. reflexivity. Qed.

Print Assumptions C60_boston_refuted.
