(** * Proofs about forests: labels, the calls of the trees, loops over trees *)

Require Import String Bool List Arith Lia NArith ZArith Permutation Sorted.
Require Import Verif.Base Verif.Num Verif.M_Bitarray Verif.M_Utils Verif.M_Impurity Verif.M_Context Verif.M_Node Verif.M_Split
  Verif.M_Tree Verif.M_Grow Verif.M_Object Verif.M_Forest Verif.S_Fit Verif.S_Tree Verif.S_Object Verif.S_Forest Verif.T_Bootstrap Verif.T_Params
  Verif.P_List.
Import ListNotations.
Local Open Scope list_scope.
Local Open Scope nat_scope.

(** ** Labels *)
Section Labels.
Context {L : Type} (leb : L -> L -> bool) (HO : total_order leb).

Lemma leb_refl : forall x, leb x x = true.
Proof. intros x. destruct (to_total _ HO x x); auto. Qed.
Lemma l_eqb_eq : forall x y, l_eqb leb x y = true <-> x = y.
Proof.
  intros x y. unfold l_eqb. rewrite andb_true_iff. split; [intros [H1 H2]; apply (to_antisym _ HO); auto|].
  intros ->. rewrite leb_refl. auto.
Qed.

Lemma uinsert_in : forall x l z, In z (uinsert leb x l) <-> z = x \/ In z l.
Proof.
  intros x l z. induction l as [|y l IH]; simpl; [intuition|].
  destruct (l_eqb leb x y) eqn:Ee.
  - apply l_eqb_eq in Ee. subst y. simpl. intuition.
  - destruct (leb x y); simpl; [intuition|]. rewrite IH. intuition.
Qed.
Lemma uniq_in : forall l x, In x (uniq leb l) <-> In x l.
Proof.
  induction l as [|y l IH]; intros x; simpl; [tauto|]. fold (uniq leb l). rewrite uinsert_in, IH. intuition.
Qed.

Lemma index_of_in : forall l x, In x l -> index_of leb l x < length l /\ nth_error l (index_of leb l x) = Some x.
Proof.
  induction l as [|y l IH]; intros x H; [destruct H|]. cbn [index_of length].
  destruct (l_eqb leb x y) eqn:Ee.
  - apply l_eqb_eq in Ee. subst y. split; [lia|reflexivity].
  - destruct H as [->|H]; [exfalso; assert (l_eqb leb x x = true) by (apply l_eqb_eq; auto); congruence|].
    destruct (IH x H). split; [lia|auto].
Qed.

Lemma encode_range : forall y k, In k (encode_labels leb (uniq leb y) y) -> k < length (uniq leb y).
Proof.
  intros y k H. unfold encode_labels in H. apply in_map_iff in H. destruct H as (x & <- & Hx).
  apply index_of_in. apply uniq_in. auto.
Qed.

Definition lt_label (x y : L) : Prop := leb x y = true /\ x <> y.
Lemma uinsert_sorted : forall x l, StronglySorted lt_label l -> StronglySorted lt_label (uinsert leb x l).
Proof.
  intros x l H. induction H as [|y l Hl IH Hy]; simpl; [repeat constructor|].
  destruct (l_eqb leb x y) eqn:Ee; [constructor; auto|].
  assert (Hne : x <> y) by (intros E; apply l_eqb_eq in E; congruence).
  rewrite Forall_forall in Hy. destruct (leb x y) eqn:El.
  - constructor; [constructor; auto; apply Forall_forall; auto|]. constructor; [split; auto|].
    apply Forall_forall. intros z Hz. destruct (Hy z Hz) as [H1 H2]. split; [eapply (to_trans _ HO); eauto|].
    intros ->. apply Hne. apply (to_antisym _ HO); auto.
  - constructor; auto. apply Forall_forall. intros z Hz. apply uinsert_in in Hz. destruct Hz as [->|Hz]; auto.
    split; [destruct (to_total _ HO x y); congruence|congruence].
Qed.
Lemma uniq_sorted : forall l, StronglySorted lt_label (uniq leb l).
Proof. induction l; [constructor|]. apply uinsert_sorted. auto. Qed.

Lemma sorted_lt_nodup : forall l, StronglySorted lt_label l -> NoDup l.
Proof.
  induction l as [|x l IH]; intros H; constructor; inversion H; subst; auto.
  intros Hi. rewrite Forall_forall in H3. destruct (H3 x Hi). auto.
Qed.
End Labels.

(** ** One tree of a forest *)

Lemma build_tree_inv : forall {A : arith} {E : env A} (ME : menv E) (tk : task A E) d p fb y w seed obj,
  build_tree ME tk d p fb y w seed = Ok obj ->
  exists train valid counts w', generate_train_valid (me_limit ME) (me_randint ME) seed (fb_n_samples fb) = Ok (train, valid, counts) /\
    bootstrap_weights w train counts = Ok w' /\ obj_fit tk d p fb y train valid w' (me_seed ME seed) = Ok obj.
Proof.
  intros A E ME tk d p fb y w seed obj H. unfold build_tree in H. apply bind_ok in H. destruct H as ([[train valid] counts] & H1 & H2).
  apply bind_ok in H2. destruct H2 as (w' & H2 & H3). exists train, valid, counts, w'. auto.
Qed.

Lemma perm_split_length : forall (l m : list nat) n, Permutation (l ++ m) (seq 0 n) -> length l <= n /\ length m <= n.
Proof. intros l m n H. apply Permutation_length in H. rewrite app_length, seq_length in H. lia. Qed.

(** The call of the tree is valid. *)
Lemma build_tree_valid : forall {A : arith} {Y : Type} {E : env A} (ME : menv E) float (p : @tree_params A) fb (y : list Y) w seed train valid counts w',
  good_menv float ME -> packed fb -> length y = fb_n_samples fb -> length w = fb_n_samples fb ->
  1 <= tp_max_features p <= fb_n_features fb -> 2 <= tp_min_samples_split p -> 1 <= tp_min_samples_leaf p ->
  length (tp_is_categorical p) = fb_n_features fb ->
  generate_train_valid (me_limit ME) (me_randint ME) seed (fb_n_samples fb) = Ok (train, valid, counts) ->
  bootstrap_weights w train counts = Ok w' ->
  valid_fit p fb y train valid w' /\ train <> [] /\ valid <> [].
Proof.
  intros A Y E ME float p fb y w seed train valid counts w' GM PK Hy Hw H1 H2 H3 H4 HG HB.
  destruct (C14_bootstrap _ _ _ _ _ _ _ (gm_draws _ _ GM) HG) as (k & _ & _ & T1 & T2 & T3 & T4 & T5 & T6 & T7 & _). cbv zeta in *.
  destruct (C14_weights _ _ _ _ _ _ _ w (gm_draws _ _ GM) HG Hw) as (w2 & l & W1 & W2 & _).
  assert (w2 = w') by congruence. subst w2. destruct (perm_split_length _ _ _ T5) as [P1 P2].
  split; [|auto]. constructor; auto; try (intros i Hi; first [apply T1 in Hi|apply T2 in Hi]; lia).
Qed.

(** ** Loops over the trees *)

Lemma each_tree_all : forall {A : arith} {P Y} (f : tobj A P Y -> tobj A P Y * option err) ts ts',
  Forall2 (fun t t' => f t = (t', None)) ts ts' -> each_tree f ts = (ts', None).
Proof.
  intros A P Y f ts ts' H. induction H as [|t t' ts ts' Ht H IH]; [reflexivity|]. cbn [each_tree]. rewrite Ht, IH. reflexivity.
Qed.

Lemma mapM_Forall2 : forall {X Y} (f : X -> res Y) l r, mapM f l = Ok r <-> Forall2 (fun x y => f x = Ok y) l r.
Proof.
  intros X Y f. induction l as [|x l IH]; intros r; split; intros H.
  - inversion H. constructor.
  - inversion H. reflexivity.
  - cbn [mapM] in H. apply bind_ok in H. destruct H as (y & Hy & H). apply bind_ok in H. destruct H as (r' & Hr & H).
    inversion H; subst. constructor; auto. apply IH. auto.
  - inversion H; subst. cbn [mapM]. rewrite H2. cbn [bind]. apply IH in H4. rewrite H4. reflexivity.
Qed.

Lemma Forall2_len : forall {X Y} (R : X -> Y -> Prop) l r, Forall2 R l r -> length l = length r.
Proof. intros X Y R l r H. induction H; simpl; auto. Qed.

(** Two lists built from the same list, element by element. *)
Lemma Forall2_through : forall {X Y Z} (R : X -> Y -> Prop) (S : Y -> Z -> Prop) (Q : X -> Z -> Prop) l r,
  Forall2 R l r -> (forall x y, In x l -> R x y -> exists z, S y z /\ Q x z) ->
  exists r', Forall2 S r r' /\ Forall2 Q l r'.
Proof.
  intros X Y Z R S Q l r H. induction H as [|x y l r Hxy H IH]; intros G; [exists []; auto|].
  destruct IH as (r' & H1 & H2); [intros; apply G; simpl; auto|]. destruct (G x y) as (z & Hz1 & Hz2); simpl; auto.
  exists (z :: r'). auto.
Qed.

Lemma Forall2_same : forall {X Y} (R : X -> Y -> Prop) l r, Forall2 R l r -> forall S : Y -> Prop,
  (forall x y, In x l -> R x y -> S y) -> Forall S r.
Proof. intros X Y R l r H S. induction H as [|x y l r Hxy H IH]; intros G; constructor; [eapply G; eauto; simpl; auto|]. apply IH. intros. eapply G; eauto; simpl; auto. Qed.

(** ** The end of fit *)
Section End.
Context {A : arith} {E : env A} (ME : menv E) {L D : Type} {EC : encoding D} {P Y : Type}.
Notation forest := (fobj A L EC P Y).

Definition fitted_as (o : forest) (seeds : list N) enc ts k : forest :=
  w_fitted (w_trees (w_encoder (w_seeds o seeds) (Some enc)) (Some ts) k) true.

Definition all_seeds (o : forest) (rs : option Z) (repeats : nat) : list N :=
  flat_map (fun s => repeat s repeats) (me_seeds ME rs (Z.to_nat (fo_n_estimators o))).

Lemma fit_end_inv : forall (o : forest) X repeats k build o', fit_end ME o X repeats k build = (o', None) ->
  exists mf rs enc fb ts, get_max_features ME (fo_max_features o) (snd (ec_shape EC X)) = Ok mf /\
    fo_random_state o = Some rs /\ ec_fit EC (fo_max_bins o) X = Ok enc /\ ec_transform EC enc X = Ok fb /\
    Forall2 (fun ts t => build (tree_params_of o mf (ec_cats EC enc)) fb (fst ts) (snd ts) = Ok t)
      (combine (seq 0 (length (all_seeds o rs repeats))) (all_seeds o rs repeats)) ts /\
    o' = fitted_as o (all_seeds o rs repeats) enc ts k.
Proof.
  intros o X repeats k build o' H. unfold fit_end, raise in H.
  destruct (get_max_features ME (fo_max_features o) (snd (ec_shape EC X))) as [mf|e]; [|inversion H].
  destruct (fo_random_state o) as [rs|] eqn:Er; [|inversion H]. fold (all_seeds o rs repeats) in H.
  destruct (ec_fit EC (fo_max_bins o) X) as [enc|e] eqn:Ef; cbn [bind] in H; [|inversion H].
  destruct (ec_transform EC enc X) as [fb|e] eqn:Et; cbn [bind] in H; [|inversion H].
  destruct (mapM _ _) as [ts|e] eqn:Em in H; [|inversion H]. inversion H; subst o'.
  exists mf, rs, enc, fb, ts. repeat (split; [auto; fail|]). split; [|reflexivity].
  apply mapM_Forall2 in Em. clear - Em.
  induction Em as [|[t s] obj l r Hx Hl IH]; constructor; auto.
Qed.

Lemma fit_end_eq : forall (o : forest) X repeats k build mf rs enc fb ts,
  get_max_features ME (fo_max_features o) (snd (ec_shape EC X)) = Ok mf ->
  fo_random_state o = Some rs -> ec_fit EC (fo_max_bins o) X = Ok enc -> ec_transform EC enc X = Ok fb ->
  Forall2 (fun ts t => build (tree_params_of o mf (ec_cats EC enc)) fb (fst ts) (snd ts) = Ok t)
      (combine (seq 0 (length (all_seeds o rs repeats))) (all_seeds o rs repeats)) ts ->
  fit_end ME o X repeats k build = (fitted_as o (all_seeds o rs repeats) enc ts k, None).
Proof.
  intros o X repeats k build mf rs enc fb ts H1 H2 H3 H4 H5. unfold fit_end. rewrite H1, H2, H3. cbn [bind]. rewrite H4. cbn [bind].
  fold (all_seeds o rs repeats).
  assert (Hm : mapM (fun '(t, seed) => build (tree_params_of o mf (ec_cats EC enc)) fb t seed)
      (combine (seq 0 (length (all_seeds o rs repeats))) (all_seeds o rs repeats)) = Ok ts).
  { apply mapM_Forall2. clear - H5. induction H5 as [|[t s] obj l r Hx Hl IH]; constructor; auto. }
  rewrite Hm. reflexivity.
Qed.

Lemma legal_mf : forall float (o : forest) n z, legal float o -> good_menv float ME -> 1 <= n ->
  get_max_features ME (fo_max_features o) n = Ok z -> (1 <= z <= Z.of_nat n)%Z.
Proof.
  intros float o n z HL GM Hn H. destruct (gm_conv _ _ GM n Hn) as [G1 G2 G3]. pose proof (lg_mf _ _ HL) as M.
  destruct (fo_max_features o) as [| | | |z'|x]; cbn [get_max_features] in H; try (inversion H; subst; lia).
  - destruct (Z.ltb_spec (Z.of_nat n) z'); inversion H; subst; lia.
  - destruct M as (M0 & M1 & M2). rewrite M1, M2 in H. cbn [orb] in H. apply bind_ok in H. destruct H as (z1 & Hz & H). inversion H; subst.
    destruct (G3 x M0 M1 M2) as [(z2 & Hz2 & Hle)|He]; [|congruence]. assert (z2 = z1) by congruence. lia.
Qed.

Lemma in_combine_seq : forall {X} (l : list X) n (p : nat * X), In p (combine (seq n (length l)) l) -> n <= fst p < n + length l /\ In (snd p) l /\ nth_error l (fst p - n) = Some (snd p).
Proof.
  intros X l. induction l as [|x l IH]; intros n p H; [destruct H|]. cbn [length seq combine] in H. destruct H as [<-|H].
  - cbn [fst snd length]. rewrite Nat.sub_diag. repeat split; simpl; auto; lia.
  - destruct (IH (S n) p H) as (H1 & H2 & H3). cbn [length]. repeat split; try lia; simpl; auto.
    replace (fst p - n) with (S (fst p - S n)) by lia. exact H3.
Qed.

Lemma all_seeds_length : forall float (o : forest) rs repeats, good_menv float ME ->
  length (all_seeds o rs repeats) = Z.to_nat (fo_n_estimators o) * repeats.
Proof.
  intros float o rs repeats GM. unfold all_seeds. rewrite <- (gm_seeds _ _ GM rs (Z.to_nat (fo_n_estimators o))) at 2.
  generalize (me_seeds ME rs (Z.to_nat (fo_n_estimators o))). intros l. induction l as [|s l IH]; [reflexivity|].
  cbn [flat_map length]. rewrite app_length, repeat_length, IH. lia.
Qed.
End End.

(** ** fit of classifiers *)
Section Classifier.
Context {A : arith} {E : env A} {L D : Type} (leb : L -> L -> bool) {EC : encoding D} (ME : menv E).
Notation forest := (clf_forest A L EC).
Notation T := (num A).

(** The object when the end of fit starts; the arrays given to the trees. *)
Definition clf_ready (o : forest) (y : list L) : forest :=
  let classes := uniq leb y in
  match fo_multiclass o with
  | Ovr => if length classes <=? 2 then w_multiclass (w_classes o classes) Multinomial else w_classes o classes
  | Multinomial => w_classes o classes
  end.
Definition clf_repeats (o2 : forest) : nat :=
  match fo_multiclass o2 with Multinomial => 1 | Ovr => length (fo_classes o2) end.
Definition clf_k (o2 : forest) : nat :=
  match fo_multiclass o2 with Multinomial => length (fo_classes o2) | Ovr => 2 end.
Definition clf_codes (o2 : forest) (y : list L) (t : nat) : list nat :=
  match fo_multiclass o2 with
  | Multinomial => encode_labels leb (fo_classes o2) y
  | Ovr => binarize (encode_labels leb (fo_classes o2) y) (t / Z.to_nat (fo_n_estimators o2))
  end.
Definition clf_weights (o2 : forest) (w : list T) (codes : list nat) : list T :=
  if fo_balanced o2 then map (fun '(a, b) => amul a b) (combine w (balanced codes)) else w.
Definition clf_caller (o2 : forest) (y : list L) (w : list T) (sw : option (bool * list T)) : list T :=
  match sw with
  | None => []
  | Some (inplace, l) => if inplace then match fo_multiclass o2 with Multinomial => clf_weights o2 w (clf_codes o2 y 0) | Ovr => l end else l
  end.
Definition clf_build (o2 : forest) (y : list L) (w : list T) (d : T) :=
  fun p fb t seed => build_tree ME (clf_task E (clf_k o2) d (crit_of (fo_criterion o2)) (fo_strategy o2)) d p fb
    (clf_codes o2 y t) (clf_weights o2 w (clf_codes o2 y t)) seed.

Lemma clf_fit_conds : forall (o : forest) X y sw o1 c, clf_fit leb ME o X y sw = ((o1, None), c) ->
  exists w d, length y = fst (ec_shape EC X) /\ check_weights (fst (ec_shape EC X)) (option_map snd sw) = Ok w /\
    (fo_multiclass o = Ovr -> length (uniq leb y) <= 2 -> fo_fitted o = false) /\
    fo_dirichlet o = Some d /\ (fo_aggregation o && aisz d)%bool = false.
Proof.
  intros o X y sw o1 c H. unfold clf_fit, raise in H.
  destruct (Nat.eqb_spec (length y) (fst (ec_shape EC X))) as [Hy|Hy]; cbn [negb] in H; [|inversion H].
  destruct (check_weights (fst (ec_shape EC X)) (option_map snd sw)) as [w|e]; [|inversion H]. exists w.
  cbv zeta in H. destruct (fo_multiclass o) eqn:Em.
  - cbn [fo_dirichlet w_classes] in H. destruct (fo_dirichlet o) as [d|]; [|inversion H]. exists d.
    cbn [fo_aggregation w_classes] in H. destruct (fo_aggregation o && aisz d)%bool; [inversion H|]. repeat split; auto. discriminate.
  - destruct (Nat.leb_spec (length (uniq leb y)) 2) as [Hk|Hk].
    + unfold set_multiclass, raise in H. cbn [fo_fitted w_classes as_str] in H. destruct (fo_fitted o) eqn:Ef; [inversion H|].
      cbn [String.eqb Ascii.eqb Bool.eqb fo_dirichlet w_classes w_multiclass fo_aggregation] in H.
      destruct (fo_dirichlet o) as [d|]; [|inversion H]. exists d.
      destruct (fo_aggregation o && aisz d)%bool; [inversion H|]. repeat split; auto.
    + cbn [fo_dirichlet w_classes] in H. destruct (fo_dirichlet o) as [d|]; [|inversion H]. exists d.
      cbn [fo_aggregation w_classes] in H. destruct (fo_aggregation o && aisz d)%bool; [inversion H|]. repeat split; auto. intros; lia.
Qed.

Lemma clf_fit_eq : forall (o : forest) X y sw w d,
  length y = fst (ec_shape EC X) -> check_weights (fst (ec_shape EC X)) (option_map snd sw) = Ok w ->
  (fo_multiclass o = Ovr -> length (uniq leb y) <= 2 -> fo_fitted o = false) ->
  fo_dirichlet o = Some d -> (fo_aggregation o && aisz d)%bool = false ->
  clf_fit leb ME o X y sw = (fit_end ME (clf_ready o y) X (clf_repeats (clf_ready o y)) (clf_k (clf_ready o y)) (clf_build (clf_ready o y) y w d),
                             clf_caller (clf_ready o y) y w sw).
Proof.
  intros o X y sw w d Hy Hw Hm Hd Ha. unfold clf_fit, raise. rewrite Hy, Nat.eqb_refl. cbn [negb]. rewrite Hw. cbv zeta.
  unfold clf_ready.
  assert (HC : forall o2 : forest, fo_classes o2 = uniq leb y -> fo_multiclass o2 = Multinomial ->
    (match sw with Some (true, _) => if fo_balanced o2 then map (fun '(a, b) => amul a b) (combine w (balanced (encode_labels leb (uniq leb y) y))) else w
               | _ => match sw with Some (_, w) => w | None => [] end end) = clf_caller o2 y w sw).
  { intros o2 H1 H2. unfold clf_caller, clf_weights, clf_codes. rewrite H1, H2. destruct sw as [[[] ?]|]; reflexivity. }
  destruct (fo_multiclass o) eqn:Em.
  - cbn [fo_dirichlet w_classes fo_aggregation fo_multiclass]. rewrite Hd, Ha, Em. f_equal.
    + unfold clf_repeats, clf_k, clf_build, clf_codes, clf_weights, clf_k. cbn [fo_multiclass w_classes fo_classes]. rewrite Em. reflexivity.
    + apply HC; [reflexivity|exact Em].
  - destruct (Nat.leb_spec (length (uniq leb y)) 2) as [Hk|Hk].
    + unfold set_multiclass, raise. cbn [fo_fitted w_classes as_str]. rewrite (Hm eq_refl Hk).
      cbn [String.eqb Ascii.eqb Bool.eqb fo_dirichlet w_classes w_multiclass fo_aggregation fo_multiclass]. rewrite Hd, Ha. f_equal.
      apply HC; reflexivity.
    + cbn [fo_dirichlet w_classes fo_aggregation fo_multiclass]. rewrite Hd, Ha, Em. f_equal.
      * unfold clf_repeats, clf_k, clf_build, clf_codes, clf_weights, clf_k. cbn [fo_multiclass w_classes fo_classes fo_balanced]. rewrite Em. reflexivity.
      * unfold clf_caller. cbn [fo_multiclass w_classes]. rewrite Em. destruct sw as [[[] ?]|]; reflexivity.
Qed.

Lemma clf_ready_same : forall o y, let o2 := clf_ready o y in fo_classes o2 = uniq leb y /\ fo_max_features o2 = fo_max_features o /\
  fo_n_estimators o2 = fo_n_estimators o /\ fo_min_samples_split o2 = fo_min_samples_split o /\ fo_min_samples_leaf o2 = fo_min_samples_leaf o /\
  fo_aggregation o2 = fo_aggregation o /\ fo_strategy o2 = fo_strategy o /\ fo_balanced o2 = fo_balanced o /\ fo_step o2 = fo_step o /\
  fo_criterion o2 = fo_criterion o /\ fo_random_state o2 = fo_random_state o /\ fo_max_bins o2 = fo_max_bins o /\
  (fo_multiclass o2 = Ovr -> fo_multiclass o = Ovr /\ 3 <= length (uniq leb y)).
Proof.
  intros o y. unfold clf_ready. destruct (fo_multiclass o) eqn:Em.
  - cbn. rewrite Em. repeat split; auto; discriminate.
  - destruct (Nat.leb_spec (length (uniq leb y)) 2); cbn; rewrite ?Em; repeat split; auto; try discriminate.
Qed.

Lemma ready_legal : forall float o y, legal float o -> legal float (clf_ready o y).
Proof.
  intros float o y [H1 H2 H3 H4]. destruct (clf_ready_same o y) as (_ & E1 & E2 & E3 & E4 & _).
  constructor; rewrite ?E1, ?E2, ?E3, ?E4; auto.
Qed.

Lemma codes_length : forall o2 y t, length (clf_codes o2 y t) = length y.
Proof. intros. unfold clf_codes, encode_labels, binarize. destruct (fo_multiclass o2); rewrite ?map_length; auto. Qed.
Lemma weights_length : forall o2 (w : list T) codes, length w = length codes -> length (clf_weights o2 w codes) = length codes.
Proof. intros o2 w codes H. unfold clf_weights, balanced. destruct (fo_balanced o2); auto. rewrite map_length, combine_length, map_length. lia. Qed.

Lemma codes_range : forall (HO : total_order leb) o y t k, In k (clf_codes (clf_ready o y) y t) -> k < clf_k (clf_ready o y).
Proof.
  intros HO o y t k H. unfold clf_codes, clf_k in *. destruct (clf_ready_same o y) as (Ec & _). rewrite Ec in *.
  destruct (fo_multiclass (clf_ready o y)); [apply (encode_range leb HO); auto|].
  unfold binarize in H. apply in_map_iff in H. destruct H as (c & <- & _). destruct (c =? _); lia.
Qed.

Lemma ready_labels : forall (HO : total_order leb) o y t cats, (In true cats -> fo_strategy o = BinaryMod -> 2 <= length (uniq leb y)) -> y <> [] ->
  valid_labels (clf_k (clf_ready o y)) (fo_strategy (clf_ready o y)) cats (clf_codes (clf_ready o y) y t).
Proof.
  intros HO o y t cats He Hy. constructor.
  - intros k Hk. eapply codes_range; eauto.
  - intros Hc. destruct (clf_ready_same o y) as (Ec & _ & _ & _ & _ & _ & Es & _ & _ & _ & _ & _ & Hm). rewrite Es.
    unfold clf_k. rewrite Ec. destruct (fo_multiclass (clf_ready o y)).
    + split; [|auto]. destruct y as [|x y]; [congruence|].
      assert (Hx : In x (uniq leb (x :: y))) by (apply (uniq_in leb HO); simpl; auto).
      destruct (uniq leb (x :: y)); [destruct Hx|simpl; lia].
    + split; intros; lia.
Qed.

Lemma check_weights_length : forall n sw (w : list T), check_weights n sw = Ok w -> length w = n.
Proof.
  intros n [l|] w H; simpl in H.
  - destruct (Nat.eqb_spec (length l) n); inversion H; subst; auto.
  - inversion H. apply repeat_length.
Qed.
End Classifier.
