(** * Classes, labels and class weights: C40, C51, C53 and C54 *)

Require Import String Bool List Arith Lia NArith ZArith Reals Lra Permutation Sorted SpecFloat.
Require Import Verif.Base Verif.Num Verif.M_Bitarray Verif.M_Utils Verif.M_Context Verif.M_Split
  Verif.M_Tree Verif.M_Grow Verif.M_Object Verif.M_Forest Verif.M_Parallel Verif.S_Fit Verif.S_Split Verif.S_Object Verif.S_Params Verif.S_Forest
  Verif.T_Binning Verif.T_Setters Verif.T_Params Verif.P_Forest Verif.T_Forest Verif.P_ForestR Verif.T_ForestR Verif.T_Parallel
  Verif.Ex_Data Verif.Ex_R Verif.Ex_Forest.
Import ListNotations.
Local Open Scope list_scope.
Local Open Scope nat_scope.

(** ** C40: the predicted class *)

(** Position [k] is the first one of the largest values of a row. *)
Definition first_largest {T : Type} (lt : T -> T -> bool) (row : list T) (k : nat) : Prop :=
  exists v, nth_error row k = Some v /\
    (forall j u, nth_error row j = Some u -> lt v u = false) /\
    (forall j u, j < k -> nth_error row j = Some u -> lt u v = true).

(** The values [ok] are compared as the numbers of a line are. *)
Record line {A : arith} (ok : num A -> Prop) : Prop := {
  ln_nan : forall x, ok x -> anan x = false;
  ln_irrefl : forall x, ok x -> altb x x = false;
  ln_trans : forall x y z, ok x -> ok y -> ok z -> altb x y = true -> altb y z = true -> altb x z = true;
  ln_neg : forall x y z, ok x -> ok y -> ok z -> altb x y = false -> altb y z = false -> altb x z = false
}.

Section Argmax.
Context {A : arith} (ok : num A -> Prop) (HL : line ok).
Notation T := (num A).

Lemma argmax_from_first : forall l seen best ib, (forall x, In x (seen ++ l) -> ok x) -> ok best ->
  nth_error seen ib = Some best -> (forall j u, nth_error seen j = Some u -> altb best u = false) ->
  (forall j u, j < ib -> nth_error seen j = Some u -> altb u best = true) ->
  first_largest altb (seen ++ l) (argmax_from best ib (length seen) l).
Proof.
  induction l as [|x l IH]; intros seen best ib Hok Hb H1 H2 H3; cbn [argmax_from].
  - rewrite app_nil_r. exists best. auto.
  - assert (Hx : ok x) by (apply Hok; rewrite in_app_iff; simpl; auto).
    assert (Hseen : forall j u, nth_error seen j = Some u -> ok u) by (intros j u Hu; apply Hok; rewrite in_app_iff; left; eapply nth_error_In; eauto).
    rewrite (ln_nan ok HL best Hb), (ln_nan ok HL x Hx). cbn [orb].
    assert (Eapp : seen ++ x :: l = (seen ++ [x]) ++ l) by (rewrite <- app_assoc; reflexivity).
    assert (Elen : S (length seen) = length (seen ++ [x])) by (rewrite app_length; cbn; lia).
    assert (Hcase : forall j u, nth_error (seen ++ [x]) j = Some u -> (j < length seen /\ nth_error seen j = Some u) \/ (j = length seen /\ u = x)).
    { intros j u Hu. destruct (Nat.lt_ge_cases j (length seen)) as [Hj|Hj].
      - rewrite nth_error_app1 in Hu by exact Hj. auto.
      - rewrite nth_error_app2 in Hu by exact Hj. destruct (j - length seen) as [|m] eqn:Em; cbn in Hu; [|destruct m; discriminate].
        injection Hu as <-. right. split; [lia|reflexivity]. }
    rewrite Eapp, Elen in *. destruct (altb best x) eqn:Ebx.
    + apply IH; auto.
      * rewrite nth_error_app2, Nat.sub_diag by lia. reflexivity.
      * intros j u Hu. destruct (Hcase j u Hu) as [(Hj & Hu')|(-> & ->)]; [|apply (ln_irrefl ok HL); auto].
        destruct (altb x u) eqn:Exu; [|reflexivity]. exfalso.
        pose proof (ln_trans ok HL best x u Hb Hx (Hseen _ _ Hu') Ebx Exu) as C. rewrite (H2 j u Hu') in C. discriminate.
      * intros j u Hj Hu. destruct (Hcase j u Hu) as [(_ & Hu')|(-> & _)]; [|lia].
        destruct (altb u x) eqn:Eux; [reflexivity|]. exfalso.
        pose proof (ln_neg ok HL best u x Hb (Hseen _ _ Hu') Hx (H2 j u Hu') Eux) as C. congruence.
    + apply IH; auto.
      * rewrite nth_error_app1 by (apply nth_error_Some; congruence). exact H1.
      * intros j u Hu. destruct (Hcase j u Hu) as [(Hj & Hu')|(-> & ->)]; eauto.
      * intros j u Hj Hu. destruct (Hcase j u Hu) as [(_ & Hu')|(-> & _)]; [eauto|].
        exfalso. assert (ib < length seen) by (apply nth_error_Some; congruence). lia.
Qed.

Lemma argmax_first : forall row : list T, row <> [] -> (forall x, In x row -> ok x) -> exists k, argmax row = Ok k /\ first_largest altb row k.
Proof.
  intros [|x l] Hne Hok; [congruence|]. eexists. split; [reflexivity|]. apply (argmax_from_first l [x] x 0); auto.
  - apply Hok. simpl. auto.
  - intros [|[|j]] u Hu; try discriminate. injection Hu as <-. apply (ln_irrefl ok HL). apply Hok. simpl. auto.
  - intros j u Hj. lia.
Qed.

(** Whatever the classes and the probabilities: every row is given the class at the first
    position of its largest value. *)
Lemma take_classes_first : forall {L} (classes : list L) (probas : list (list T)), classes <> [] ->
  (forall row, In row probas -> length row = length classes /\ forall x, In x row -> ok x) ->
  exists labels, take_classes classes probas = Ok labels /\
    Forall2 (fun row c => exists k, nth_error classes k = Some c /\ first_largest altb row k) probas labels.
Proof.
  intros L classes probas Hne. induction probas as [|row probas IH]; intros H; [exists []; split; [reflexivity|constructor]|].
  destruct IH as (labels & E1 & E2); [intros r Hr; apply H; simpl; auto|].
  destruct (H row (or_introl eq_refl)) as [Hlen Hok].
  assert (Hr : row <> []) by (destruct row; [destruct classes; [congruence|discriminate]|discriminate]).
  destruct (argmax_first row Hr Hok) as (k & K1 & K2).
  destruct (nth_error classes k) as [c|] eqn:Ec.
  - exists (c :: labels). split; [|constructor; eauto].
    unfold take_classes in *. cbn [mapM]. rewrite K1. cbn [bind]. rewrite Ec. cbn [bind]. rewrite E1. reflexivity.
  - exfalso. apply nth_error_None in Ec. destruct K2 as (v & K2 & _). assert (k < length row) by (apply nth_error_Some; congruence). lia.
Qed.
End Argmax.

Theorem C40_any : forall {A : arith} {L D} {EC : encoding D} (ok : num A -> Prop) (o : clf_forest A L EC) X small order probas,
  line ok -> fo_classes o <> [] -> predict_proba small order o X = Ok probas ->
  (forall row, In row probas -> length row = length (fo_classes o) /\ forall x, In x row -> ok x) ->
  exists labels, predict_class small order o X = Ok labels /\
    Forall2 (fun row c => exists k, nth_error (fo_classes o) k = Some c /\ first_largest altb row k) probas labels.
Proof.
  intros A L D EC ok o X small order probas HL Hne Hp H. unfold predict_class. rewrite Hp. cbn [bind]. apply (take_classes_first ok HL); auto.
Qed.
Print Assumptions C40_any.

Lemma line_R : @line R_arith (fun _ => True).
Proof.
  constructor; try reflexivity; cbn.
  - intros x _. unfold Rltb. destruct (Rlt_dec x x); [lra|reflexivity].
  - intros x y z _ _ _. unfold Rltb. destruct (Rlt_dec x y), (Rlt_dec y z), (Rlt_dec x z); try discriminate; auto; lra.
  - intros x y z _ _ _. unfold Rltb. destruct (Rlt_dec x y), (Rlt_dec y z), (Rlt_dec x z); try discriminate; auto; lra.
Qed.

(** IEEE numbers that are not NaN, with any precision: infinities and both zeros included. *)
Lemma sf_ltb_leb : forall x y, sf_nan x = false -> sf_nan y = false -> SFltb x y = negb (SFleb y x).
Proof.
  intros x y Hx Hy. unfold SFltb, SFleb.
  assert (E : exists c, SFcompare x y = Some c /\ SFcompare y x = Some (CompOpp c)).
  { destruct x as [sx|sx| |sx mx ex], y as [sy|sy| |sy my ey]; try discriminate; cbn; try (destruct sx); try (destruct sy); cbn; eauto;
      rewrite (Z.compare_antisym ex ey); destruct (ex ?= ey)%Z eqn:Ee; cbn; eauto;
      change (Pos.compare_cont Eq mx my) with (mx ?= my)%positive; change (Pos.compare_cont Eq my mx) with (my ?= mx)%positive;
      rewrite (Pos.compare_antisym mx my); destruct (mx ?= my)%positive; cbn; eauto. }
  destruct E as (c & -> & ->). destruct c; reflexivity.
Qed.

Lemma line_ieee : forall prec emax lnf expf, @line (spec_arith prec emax lnf expf) (fun x => sf_nan x = false).
Proof.
  intros prec emax lnf expf. constructor; cbn; unfold sf_ltb.
  - auto.
  - intros x Hx. unfold SFltb. destruct x as [s|s| |s m e]; try discriminate; try (destruct s; reflexivity). cbn.
    rewrite Z.compare_refl. change (Pos.compare_cont Eq m m) with (m ?= m)%positive. rewrite Pos.compare_refl. destruct s; reflexivity.
  - intros x y z Hx Hy Hz. rewrite !sf_ltb_leb by assumption. rewrite !negb_true_iff. intros H1 H2.
    destruct (SFleb z x) eqn:E; [|reflexivity]. exfalso.
    destruct (SFleb y z) eqn:E2; [|pose proof (sf_ltb_leb z y Hz Hy) as Q; rewrite E2 in Q; cbn in Q].
    + rewrite (sf_leb_trans y z x E2 E) in H1. discriminate.
    + unfold SFltb, SFleb in *. destruct (SFcompare z y) as [[]|]; discriminate.
  - intros x y z Hx Hy Hz. rewrite !sf_ltb_leb by assumption. rewrite !negb_false_iff. intros H1 H2. eapply sf_leb_trans; eauto.
Qed.

Theorem C40_binary64 : forall lnf expf {L D} {EC : encoding D} (o : clf_forest (F64 lnf expf) L EC) X small order probas,
  fo_classes o <> [] -> predict_proba small order o X = Ok probas ->
  (forall row, In row probas -> length row = length (fo_classes o) /\ forall x, In x row -> sf_nan x = false) ->
  exists labels, predict_class small order o X = Ok labels /\
    Forall2 (fun row c => exists k, nth_error (fo_classes o) k = Some c /\ first_largest SFltb row k) probas labels.
Proof. intros lnf expf L D EC o X small order probas. apply (C40_any (A := F64 lnf expf) (fun x => sf_nan x = false)). apply line_ieee. Qed.
Print Assumptions C40_binary64.

Section Fitted.
Context {L D : Type} {EC : encoding D} {E : env R_arith} (ME : menv E) (float : num R_arith -> Prop).
Context (GM : good_menv float ME) (GE : good_env E) (GK : good_encoding EC).

(** Fitted forests in exact arithmetic, any schedule of the threads: the answer is the class
    with the first largest probability, and it is a label of the training data. *)
Theorem C40_classifier : forall leb (HO : total_order leb) (o o1 : clf_forest R_arith L EC) X y sw c,
  legal float o -> enough_classes leb o X y -> positive_sample_weights sw -> (forall d, fo_dirichlet o = Some d -> (0 <= d)%R) ->
  clf_fit leb ME o X y sw = ((o1, None), c) ->
  forall X' enc fb' small sched probas, fo_encoder o1 = Some enc -> ec_transform EC enc X' = Ok fb' -> (forall s, small s = false -> s <> 0%R) ->
  predict_proba_run small sched o1 X' = Some probas ->
  exists labels, predict_class_run small sched o1 X' = Some labels /\
    Forall2 (fun row c => exists k, nth_error (fo_classes o1) k = Some c /\ first_largest Rltb row k) probas labels /\
    forall l, In l labels -> In l y.
Proof.
  intros leb HO o o1 X y sw c HL HC HW Hd H X' enc fb' small sched probas Henc Ht Hs HR.
  destruct (C39_predict_proba small sched o1 X' probas HR) as (order & HP & Hpp).
  destruct (C34_forest ME float GM GE GK leb HO o o1 X y sw c HL HC HW Hd H X' enc fb' Henc Ht small order Hs HP) as (ps & rows & _ & _ & _ & G4 & G5 & G6).
  rewrite Hpp in G4. injection G4 as <-.
  assert (Hcl : fo_classes o1 = uniq leb y).
  { destruct (clf_fit_trees ME float GM GK leb HO o o1 X y sw c HL HC H) as (w & d & mf & rs & enc' & fb & ts & H1 & _). subst o1. cbn.
    apply (clf_ready_same leb o y). }
  unfold predict_class_run. rewrite HR. destruct probas as [|row0 probas].
  - exists []. split; [reflexivity|]. split; [constructor|]. intros l [].
  - assert (Hne : fo_classes o1 <> []).
    { intros E0. destruct (G6 row0 (or_introl eq_refl)) as (D1 & D2 & D3). rewrite E0 in D1. destruct row0; [|discriminate]. cbn in D3. lra. }
    destruct (take_classes_first (A := R_arith) (fun _ => True) line_R (fo_classes o1) (row0 :: probas) Hne) as (labels & T1 & T2).
    { intros row Hrow. split; [apply (G6 row Hrow)|auto]. }
    rewrite T1. exists labels. split; [reflexivity|]. split; [exact T2|].
    intros l Hl. apply (uniq_in leb HO). rewrite <- Hcl. clear - Hl T2. induction T2 as [|r x rs xs (k & K1 & _) _ IH]; [destruct Hl|].
    destruct Hl as [<-|Hl]; [eapply nth_error_In; eauto|auto].
Qed.
End Fitted.
Print Assumptions C40_classifier.

Example C40_applies : forall m b agg X sw, bd_fb X = ex_fb -> sw = None \/ sw = ex_weights b ->
  exists o1 c sched probas labels, clf_fit Nat.leb ex_menv (ex_forest m b agg) X ex_names sw = ((o1, None), c) /\
    predict_proba_run (fun s => Rleb s 0) sched o1 X = Some probas /\ length probas = 8 /\
    predict_class_run (fun s => Rleb s 0) sched o1 X = Some labels /\ length labels = 8 /\ forall l, In l labels -> In l [10; 20; 30].
Proof.
  intros m b agg X sw HX Hsw. destruct (ex_X_facts X HX) as (Et & Es & Ef). destruct (ex_fits m b agg X sw HX Hsw) as (o1 & c & H).
  destruct (ex_fitted m b agg X sw o1 c HX Hsw H) as (F1 & F2 & F3 & F4 & F5).
  destruct (C39_classifier ex_menv (fun _ => True) ex_menv_good env_R_good ex_encoding_good Nat.leb nat_order (ex_forest m b agg) o1 X ex_names sw c (ex_legal m b agg) (ex_enough m b agg X)
     (ex_sw_positive b sw Hsw) (ex_dirichlet m b agg) H X 2 ex_fb (fun s => Rleb s 0) F1 Et) as (ps & G1 & G2 & (sched & rows & G3) & G4).
  destruct (C40_classifier ex_menv (fun _ => True) ex_menv_good env_R_good ex_encoding_good Nat.leb nat_order (ex_forest m b agg) o1 X ex_names sw c (ex_legal m b agg) (ex_enough m b agg X)
     (ex_sw_positive b sw Hsw) (ex_dirichlet m b agg) H X 2 ex_fb (fun s => Rleb s 0) sched rows F1 Et) as (labels & L1 & L2 & L3).
  { intros s Hs. apply Rleb_false in Hs. lra. }
  { exact G3. }
  assert (Hr : length rows = 8) by (rewrite (G4 sched rows G3), map_length, seq_length, Es; reflexivity).
  exists o1, c, sched, rows, labels. split; [exact H|]. split; [exact G3|]. split; [exact Hr|]. split; [exact L1|].
  split; [apply Forall2_len in L2; exact (eq_trans (eq_sym L2) Hr)|]. intros l Hl. apply L3 in Hl. cbn in *. intuition.
Qed.

(** ** C53: the classes *)

(** A fit that returns leaves the sorted labels, each one once, and gives every sample the
    position of its label. *)
Section Classes.
Context {A : arith} {E : env A} {L D : Type} {EC : encoding D} (ME : menv E).
Theorem C53_classes : forall leb (HO : total_order leb) (o o1 : clf_forest A L EC) X y sw c,
  clf_fit leb ME o X y sw = ((o1, None), c) ->
  StronglySorted (fun a b => leb a b = true /\ a <> b) (fo_classes o1) /\
  (forall l, In l (fo_classes o1) <-> In l y) /\
  (forall i l, nth_error y i = Some l -> exists k, nth_error (encode_labels leb (fo_classes o1) y) i = Some k /\ nth_error (fo_classes o1) k = Some l).
Proof.
  intros leb HO o o1 X y sw c H. destruct (clf_fit_conds leb ME o X y sw o1 c H) as (w & d & C1 & C2 & C3 & C4 & C5).
  rewrite (clf_fit_eq leb ME o X y sw w d C1 C2 C3 C4 C5) in H. injection H as H Hc.
  destruct (fit_end_inv ME _ _ _ _ _ _ H) as (mf & rs & enc & fb & ts & _ & _ & _ & _ & _ & H6).
  assert (Hcl : fo_classes o1 = uniq leb y) by (subst o1; apply (clf_ready_same leb o y)).
  rewrite Hcl. split; [apply (uniq_sorted leb HO)|]. split; [apply (uniq_in leb HO)|].
  intros i l Hi. exists (index_of leb (uniq leb y) l). split.
  - unfold encode_labels. rewrite nth_error_map, Hi. reflexivity.
  - apply (index_of_in leb HO). apply (uniq_in leb HO). eapply nth_error_In; eauto.
Qed.
End Classes.
Print Assumptions C53_classes.
Example C53_applies : forall m b agg X sw, bd_fb X = ex_fb -> sw = None \/ sw = ex_weights b ->
  exists o1 c, clf_fit Nat.leb ex_menv (ex_forest m b agg) X ex_names sw = ((o1, None), c) /\ fo_classes o1 = [10; 20; 30].
Proof.
  intros m b agg X sw HX Hsw. destruct (ex_fits m b agg X sw HX Hsw) as (o1 & c & H). exists o1, c. split; [exact H|].
  apply (ex_fitted m b agg X sw o1 c HX Hsw H).
Qed.
