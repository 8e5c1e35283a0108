(** * Model of wildwood/forest.py: the forests as Python objects

    An object is a record of attributes; a method is a function from an object to the
    object after the call and the exception it raised, if any. *)

Require Import String Bool List Arith NArith ZArith.
Require Import Verif.Base Verif.Num Verif.M_Bitarray Verif.M_Utils
  Verif.M_Context Verif.M_Node Verif.M_Split Verif.M_Tree Verif.M_Grow Verif.M_Object.
Import ListNotations.
Local Open Scope list_scope.
Local Open Scope nat_scope.
Local Open Scope res_scope.

(** ** Bootstrap *)

(** forest.py:71: [(random_state + 1) % np.iinfo(np.uint32).max]. *)
Definition next_seed (s : N) : N := ((s + 1) mod 4294967295)%N.

(** [np.bincount(l, minlength=n)]. *)
Definition bincount (l : list nat) (n : nat) : list nat :=
  map (count_occ Nat.eq_dec l) (seq 0 (fold_right (fun x m => Nat.max (S x) m) n l)).

(** forest.py:43-78, [_generate_train_valid_samples]. [randint s n] is
    [check_random_state(s).randint(0, n, n)]; [limit] bounds the depth of the recursion,
    as in Python. Masks must have the length of the arrays they select from. *)
Fixpoint generate_train_valid (limit : nat) (randint : N -> nat -> list nat) (s : N) (n : nat)
  : res (list nat * list nat * list nat) :=
  match limit with
  | O => Err Recursion
  | S limit' =>
      let counts := bincount (randint s n) n in
      if negb (length counts =? n) then Err IndexErr
      else
        let valid := filter (fun i => nth i counts 0 =? 0) (seq 0 n) in
        if length valid =? 0 then generate_train_valid limit' randint (next_seed s) n
        else
          let train := filter (fun i => negb (nth i counts 0 =? 0)) (seq 0 n) in
          Ok (train, valid, filter (fun c => negb (c =? 0)) counts)
  end.

Section Forest.
Context {A : arith} (E : env A).
Notation T := (num A).

(** forest.py:118, [sample_weight[train_indices] *= train_indices_count]: one product per
    training sample, since the indices are distinct. *)
Definition bootstrap_weights (w : list T) (train counts : list nat) : res (list T) :=
  foldM (fun w '(i, c) => let* x := get w i in set w i (amul x (aofnat c))) (combine train counts) w.

(** What the forest takes from its environment: numpy's generators, the recursion limit of
    Python, and the conversions [int(np.sqrt(n))], [int(np.log2(n))], [int(x * n)]. *)
Record menv : Type := mkMenv {
  me_randint : N -> nat -> list nat;     (* RandomState(seed).randint(0, n, n) *)
  me_seeds : option Z -> nat -> list N;  (* check_random_state(rs).randint(2**32 - 1, size=n) *)
  me_seed : N -> rng E;                  (* numba's generator after np.random.seed(seed) *)
  me_limit : nat;
  me_isqrt : nat -> Z;
  me_ilog2 : nat -> Z;
  me_ifrac : T -> nat -> res Z
}.

(** forest.py:81-121, [_parallel_build_trees]; the constructor of the tree seeds the
    generator of the thread (_tree.py:160 and 230). *)
Definition build_tree (ME : menv) (tk : task A E) (dirichlet : T) (p : @tree_params A) (fb : fba)
  (y : list (tk_Y tk)) (weights : list T) (seed : N) : res (tobj A (tk_P tk) (tk_Y tk)) :=
  let* ' (train, valid, counts) :=
    generate_train_valid (me_limit ME) (me_randint ME) seed (fb_n_samples fb) in
  let* w := bootstrap_weights weights train counts in
  obj_fit tk dirichlet p fb y train valid w (me_seed ME seed).

(** ** Labels and class weights *)

(** [np.unique]: the sorted distinct labels. *)
Section Labels.
Context {L : Type} (leb : L -> L -> bool).
Definition l_eqb (x y : L) : bool := leb x y && leb y x.
Fixpoint uinsert (x : L) (l : list L) : list L :=
  match l with
  | [] => [x]
  | y :: t => if l_eqb x y then l else if leb x y then x :: l else y :: uinsert x t
  end.
Definition uniq (l : list L) : list L := fold_right uinsert [] l.

(** The position of a label among the classes: LabelEncoder.transform. *)
Fixpoint index_of (l : list L) (x : L) : nat :=
  match l with [] => 0 | y :: t => if l_eqb x y then 0 else S (index_of t x) end.

(** forest.py:1157-1183: LabelEncoder gives the position of each label. LabelBinarizer gives
    the same numbers when there are one or two classes, and otherwise one column of zeros
    and ones for each class. *)
Definition encode_labels (classes : list L) (y : list L) : list nat := map (index_of classes) y.
Definition binarize (y : list nat) (k : nat) : list nat := map (fun c => if c =? k then 1 else 0) y.
End Labels.

(** scikit-learn's [compute_sample_weight("balanced", y)]: each class [k] present in [y] has
    weight [n_samples / (n_present * count_k)]. *)
Definition present (y : list nat) : list nat := uniq Nat.leb y.
Definition balanced_weight (y : list nat) (k : nat) : T :=
  adiv (aofnat (length y)) (amul (aofnat (length (present y))) (aofnat (count_occ Nat.eq_dec y k))).
Definition balanced (y : list nat) : list T := map (balanced_weight y) y.

(** ** Parameters *)

(** Python values given to setters; [PyOther] is any value of another type. *)
Inductive pyval : Type :=
| PyNone | PyBool (b : bool) | PyInt (z : Z) | PyFloat (x : T) | PyStr (s : string) | PyOther.

(** [isinstance(val, int)], true of booleans too. *)
Definition as_int (v : pyval) : option Z :=
  match v with PyBool b => Some (if b then 1%Z else 0%Z) | PyInt z => Some z | _ => None end.
Definition as_float (v : pyval) : option T := match v with PyFloat x => Some x | _ => None end.
Definition as_bool (v : pyval) : option bool := match v with PyBool b => Some b | _ => None end.
Definition as_str (v : pyval) : option string := match v with PyStr s => Some s | _ => None end.

Inductive maxfeat : Type := MFNone | MFAuto | MFSqrt | MFLog2 | MFInt (z : Z) | MFFloat (x : T).
Inductive multi : Type := Multinomial | Ovr.

(** The hyper-parameters of the forests. *)
Inductive param : Type :=
| P_n_estimators | P_criterion | P_loss | P_step | P_aggregation | P_max_depth
| P_min_samples_split | P_min_samples_leaf | P_max_bins | P_max_features | P_n_jobs
| P_random_state | P_verbose
| P_dirichlet | P_class_weight | P_multiclass | P_cat_split_strategy.   (* classifiers only *)

(** forest.py:804-834, [_get_max_features_]. *)
Definition get_max_features (ME : menv) (mf : maxfeat) (n : nat) : res Z :=
  match mf with
  | MFAuto | MFSqrt => Ok (Z.max 1 (me_isqrt ME n))
  | MFLog2 => Ok (Z.max 1 (me_ilog2 ME n))
  | MFNone => Ok (Z.of_nat n)
  | MFInt z => if (Z.of_nat n <? z)%Z then Err ValueErr else Ok z
  | MFFloat x => if altb a1 x || aleb x a0 then Err ValueErr
                 else let* z := me_ifrac ME x n in Ok (Z.max 1 z)
  end.

(** ** Forest objects *)

(** What the forest asks from its Encoder: fit, the categorical columns it decided, and
    transform. The data [D] has a shape. *)
Record encoding (D : Type) : Type := mkEncoding {
  ec_enc : Type;
  ec_shape : D -> nat * nat;
  ec_fit : Z -> D -> res ec_enc;            (* the first argument is max_bins *)
  ec_cats : ec_enc -> list bool;
  ec_transform : ec_enc -> D -> res fba
}.
Arguments ec_enc {D}. Arguments ec_shape {D}. Arguments ec_fit {D}. Arguments ec_cats {D}.
Arguments ec_transform {D}.

Context {L D : Type} (leb : L -> L -> bool) (EC : encoding D) (ME : menv).

Section Objects.
Context {P Y : Type}.

(** forest.py:177-235 and 1084-1136. The attributes of both kinds of forests; regressors
    have no use for those of the third block. [None] in [fo_random_state] and
    [fo_dirichlet] means that the attribute does not exist. *)
Record fobj : Type := mkF {
  fo_fitted : bool;
  fo_n_estimators : Z;
  fo_step : T;
  fo_aggregation : bool;
  fo_max_depth : option Z;
  fo_min_samples_split : Z;
  fo_min_samples_leaf : Z;
  fo_max_bins : Z;
  fo_max_features : maxfeat;
  fo_n_jobs : Z;
  fo_random_state : option (option Z);
  fo_verbose : bool;
  fo_criterion : string;
  fo_loss : string;

  fo_dirichlet : option T;
  fo_balanced : bool;                       (* class_weight == "balanced" *)
  fo_multiclass : multi;
  fo_strategy : cat_strategy;

  fo_classes : list L;                      (* _classes_ *)
  fo_seeds : list N;                        (* _random_states_trees, _random_states_bootstrap *)
  fo_encoder : option (ec_enc EC);
  fo_trees : option (list (tobj A P Y));
  fo_tree_classes : nat                     (* the attribute n_classes of the trees (tree.py:235) *)
}.

Definition mresult : Type := fobj * option err.
Definition raise (o : fobj) (e : err) : mresult := (o, Some e).

(** Attribute assignments. *)
Definition w_fitted (o : fobj) v := mkF v (fo_n_estimators o) (fo_step o) (fo_aggregation o) (fo_max_depth o) (fo_min_samples_split o) (fo_min_samples_leaf o) (fo_max_bins o) (fo_max_features o) (fo_n_jobs o) (fo_random_state o) (fo_verbose o) (fo_criterion o) (fo_loss o) (fo_dirichlet o) (fo_balanced o) (fo_multiclass o) (fo_strategy o) (fo_classes o) (fo_seeds o) (fo_encoder o) (fo_trees o) (fo_tree_classes o).
Definition w_n_estimators (o : fobj) v := mkF (fo_fitted o) v (fo_step o) (fo_aggregation o) (fo_max_depth o) (fo_min_samples_split o) (fo_min_samples_leaf o) (fo_max_bins o) (fo_max_features o) (fo_n_jobs o) (fo_random_state o) (fo_verbose o) (fo_criterion o) (fo_loss o) (fo_dirichlet o) (fo_balanced o) (fo_multiclass o) (fo_strategy o) (fo_classes o) (fo_seeds o) (fo_encoder o) (fo_trees o) (fo_tree_classes o).
Definition w_step (o : fobj) v := mkF (fo_fitted o) (fo_n_estimators o) v (fo_aggregation o) (fo_max_depth o) (fo_min_samples_split o) (fo_min_samples_leaf o) (fo_max_bins o) (fo_max_features o) (fo_n_jobs o) (fo_random_state o) (fo_verbose o) (fo_criterion o) (fo_loss o) (fo_dirichlet o) (fo_balanced o) (fo_multiclass o) (fo_strategy o) (fo_classes o) (fo_seeds o) (fo_encoder o) (fo_trees o) (fo_tree_classes o).
Definition w_aggregation (o : fobj) v := mkF (fo_fitted o) (fo_n_estimators o) (fo_step o) v (fo_max_depth o) (fo_min_samples_split o) (fo_min_samples_leaf o) (fo_max_bins o) (fo_max_features o) (fo_n_jobs o) (fo_random_state o) (fo_verbose o) (fo_criterion o) (fo_loss o) (fo_dirichlet o) (fo_balanced o) (fo_multiclass o) (fo_strategy o) (fo_classes o) (fo_seeds o) (fo_encoder o) (fo_trees o) (fo_tree_classes o).
Definition w_max_depth (o : fobj) v := mkF (fo_fitted o) (fo_n_estimators o) (fo_step o) (fo_aggregation o) v (fo_min_samples_split o) (fo_min_samples_leaf o) (fo_max_bins o) (fo_max_features o) (fo_n_jobs o) (fo_random_state o) (fo_verbose o) (fo_criterion o) (fo_loss o) (fo_dirichlet o) (fo_balanced o) (fo_multiclass o) (fo_strategy o) (fo_classes o) (fo_seeds o) (fo_encoder o) (fo_trees o) (fo_tree_classes o).
Definition w_min_samples_split (o : fobj) v := mkF (fo_fitted o) (fo_n_estimators o) (fo_step o) (fo_aggregation o) (fo_max_depth o) v (fo_min_samples_leaf o) (fo_max_bins o) (fo_max_features o) (fo_n_jobs o) (fo_random_state o) (fo_verbose o) (fo_criterion o) (fo_loss o) (fo_dirichlet o) (fo_balanced o) (fo_multiclass o) (fo_strategy o) (fo_classes o) (fo_seeds o) (fo_encoder o) (fo_trees o) (fo_tree_classes o).
Definition w_min_samples_leaf (o : fobj) v := mkF (fo_fitted o) (fo_n_estimators o) (fo_step o) (fo_aggregation o) (fo_max_depth o) (fo_min_samples_split o) v (fo_max_bins o) (fo_max_features o) (fo_n_jobs o) (fo_random_state o) (fo_verbose o) (fo_criterion o) (fo_loss o) (fo_dirichlet o) (fo_balanced o) (fo_multiclass o) (fo_strategy o) (fo_classes o) (fo_seeds o) (fo_encoder o) (fo_trees o) (fo_tree_classes o).
Definition w_max_bins (o : fobj) v := mkF (fo_fitted o) (fo_n_estimators o) (fo_step o) (fo_aggregation o) (fo_max_depth o) (fo_min_samples_split o) (fo_min_samples_leaf o) v (fo_max_features o) (fo_n_jobs o) (fo_random_state o) (fo_verbose o) (fo_criterion o) (fo_loss o) (fo_dirichlet o) (fo_balanced o) (fo_multiclass o) (fo_strategy o) (fo_classes o) (fo_seeds o) (fo_encoder o) (fo_trees o) (fo_tree_classes o).
Definition w_max_features (o : fobj) v := mkF (fo_fitted o) (fo_n_estimators o) (fo_step o) (fo_aggregation o) (fo_max_depth o) (fo_min_samples_split o) (fo_min_samples_leaf o) (fo_max_bins o) v (fo_n_jobs o) (fo_random_state o) (fo_verbose o) (fo_criterion o) (fo_loss o) (fo_dirichlet o) (fo_balanced o) (fo_multiclass o) (fo_strategy o) (fo_classes o) (fo_seeds o) (fo_encoder o) (fo_trees o) (fo_tree_classes o).
Definition w_n_jobs (o : fobj) v := mkF (fo_fitted o) (fo_n_estimators o) (fo_step o) (fo_aggregation o) (fo_max_depth o) (fo_min_samples_split o) (fo_min_samples_leaf o) (fo_max_bins o) (fo_max_features o) v (fo_random_state o) (fo_verbose o) (fo_criterion o) (fo_loss o) (fo_dirichlet o) (fo_balanced o) (fo_multiclass o) (fo_strategy o) (fo_classes o) (fo_seeds o) (fo_encoder o) (fo_trees o) (fo_tree_classes o).
Definition w_random_state (o : fobj) v := mkF (fo_fitted o) (fo_n_estimators o) (fo_step o) (fo_aggregation o) (fo_max_depth o) (fo_min_samples_split o) (fo_min_samples_leaf o) (fo_max_bins o) (fo_max_features o) (fo_n_jobs o) v (fo_verbose o) (fo_criterion o) (fo_loss o) (fo_dirichlet o) (fo_balanced o) (fo_multiclass o) (fo_strategy o) (fo_classes o) (fo_seeds o) (fo_encoder o) (fo_trees o) (fo_tree_classes o).
Definition w_verbose (o : fobj) v := mkF (fo_fitted o) (fo_n_estimators o) (fo_step o) (fo_aggregation o) (fo_max_depth o) (fo_min_samples_split o) (fo_min_samples_leaf o) (fo_max_bins o) (fo_max_features o) (fo_n_jobs o) (fo_random_state o) v (fo_criterion o) (fo_loss o) (fo_dirichlet o) (fo_balanced o) (fo_multiclass o) (fo_strategy o) (fo_classes o) (fo_seeds o) (fo_encoder o) (fo_trees o) (fo_tree_classes o).
Definition w_criterion (o : fobj) v := mkF (fo_fitted o) (fo_n_estimators o) (fo_step o) (fo_aggregation o) (fo_max_depth o) (fo_min_samples_split o) (fo_min_samples_leaf o) (fo_max_bins o) (fo_max_features o) (fo_n_jobs o) (fo_random_state o) (fo_verbose o) v (fo_loss o) (fo_dirichlet o) (fo_balanced o) (fo_multiclass o) (fo_strategy o) (fo_classes o) (fo_seeds o) (fo_encoder o) (fo_trees o) (fo_tree_classes o).
Definition w_loss (o : fobj) v := mkF (fo_fitted o) (fo_n_estimators o) (fo_step o) (fo_aggregation o) (fo_max_depth o) (fo_min_samples_split o) (fo_min_samples_leaf o) (fo_max_bins o) (fo_max_features o) (fo_n_jobs o) (fo_random_state o) (fo_verbose o) (fo_criterion o) v (fo_dirichlet o) (fo_balanced o) (fo_multiclass o) (fo_strategy o) (fo_classes o) (fo_seeds o) (fo_encoder o) (fo_trees o) (fo_tree_classes o).
Definition w_dirichlet (o : fobj) v := mkF (fo_fitted o) (fo_n_estimators o) (fo_step o) (fo_aggregation o) (fo_max_depth o) (fo_min_samples_split o) (fo_min_samples_leaf o) (fo_max_bins o) (fo_max_features o) (fo_n_jobs o) (fo_random_state o) (fo_verbose o) (fo_criterion o) (fo_loss o) v (fo_balanced o) (fo_multiclass o) (fo_strategy o) (fo_classes o) (fo_seeds o) (fo_encoder o) (fo_trees o) (fo_tree_classes o).
Definition w_balanced (o : fobj) v := mkF (fo_fitted o) (fo_n_estimators o) (fo_step o) (fo_aggregation o) (fo_max_depth o) (fo_min_samples_split o) (fo_min_samples_leaf o) (fo_max_bins o) (fo_max_features o) (fo_n_jobs o) (fo_random_state o) (fo_verbose o) (fo_criterion o) (fo_loss o) (fo_dirichlet o) v (fo_multiclass o) (fo_strategy o) (fo_classes o) (fo_seeds o) (fo_encoder o) (fo_trees o) (fo_tree_classes o).
Definition w_multiclass (o : fobj) v := mkF (fo_fitted o) (fo_n_estimators o) (fo_step o) (fo_aggregation o) (fo_max_depth o) (fo_min_samples_split o) (fo_min_samples_leaf o) (fo_max_bins o) (fo_max_features o) (fo_n_jobs o) (fo_random_state o) (fo_verbose o) (fo_criterion o) (fo_loss o) (fo_dirichlet o) (fo_balanced o) v (fo_strategy o) (fo_classes o) (fo_seeds o) (fo_encoder o) (fo_trees o) (fo_tree_classes o).
Definition w_strategy (o : fobj) v := mkF (fo_fitted o) (fo_n_estimators o) (fo_step o) (fo_aggregation o) (fo_max_depth o) (fo_min_samples_split o) (fo_min_samples_leaf o) (fo_max_bins o) (fo_max_features o) (fo_n_jobs o) (fo_random_state o) (fo_verbose o) (fo_criterion o) (fo_loss o) (fo_dirichlet o) (fo_balanced o) (fo_multiclass o) v (fo_classes o) (fo_seeds o) (fo_encoder o) (fo_trees o) (fo_tree_classes o).
Definition w_classes (o : fobj) v := mkF (fo_fitted o) (fo_n_estimators o) (fo_step o) (fo_aggregation o) (fo_max_depth o) (fo_min_samples_split o) (fo_min_samples_leaf o) (fo_max_bins o) (fo_max_features o) (fo_n_jobs o) (fo_random_state o) (fo_verbose o) (fo_criterion o) (fo_loss o) (fo_dirichlet o) (fo_balanced o) (fo_multiclass o) (fo_strategy o) v (fo_seeds o) (fo_encoder o) (fo_trees o) (fo_tree_classes o).
Definition w_seeds (o : fobj) v := mkF (fo_fitted o) (fo_n_estimators o) (fo_step o) (fo_aggregation o) (fo_max_depth o) (fo_min_samples_split o) (fo_min_samples_leaf o) (fo_max_bins o) (fo_max_features o) (fo_n_jobs o) (fo_random_state o) (fo_verbose o) (fo_criterion o) (fo_loss o) (fo_dirichlet o) (fo_balanced o) (fo_multiclass o) (fo_strategy o) (fo_classes o) v (fo_encoder o) (fo_trees o) (fo_tree_classes o).
Definition w_encoder (o : fobj) v := mkF (fo_fitted o) (fo_n_estimators o) (fo_step o) (fo_aggregation o) (fo_max_depth o) (fo_min_samples_split o) (fo_min_samples_leaf o) (fo_max_bins o) (fo_max_features o) (fo_n_jobs o) (fo_random_state o) (fo_verbose o) (fo_criterion o) (fo_loss o) (fo_dirichlet o) (fo_balanced o) (fo_multiclass o) (fo_strategy o) (fo_classes o) (fo_seeds o) v (fo_trees o) (fo_tree_classes o).
Definition w_trees (o : fobj) v k := mkF (fo_fitted o) (fo_n_estimators o) (fo_step o) (fo_aggregation o) (fo_max_depth o) (fo_min_samples_split o) (fo_min_samples_leaf o) (fo_max_bins o) (fo_max_features o) (fo_n_jobs o) (fo_random_state o) (fo_verbose o) (fo_criterion o) (fo_loss o) (fo_dirichlet o) (fo_balanced o) (fo_multiclass o) (fo_strategy o) (fo_classes o) (fo_seeds o) (fo_encoder o) v k.

(** *** Setters: forest.py:664-881 and 1333-1453, 1719-1745 *)

Definition set_n_estimators (v : pyval) (o : fobj) : mresult :=
  if fo_fitted o then raise o ValueErr
  else match as_int v with
       | None => raise o ValueErr
       | Some z => if (z <? 1)%Z then raise o ValueErr else (w_n_estimators o z, None)
       end.

(** [for tree in self.trees: tree.step = val]: the trees are changed one after the other
    until one of them raises. *)
Fixpoint each_tree (f : tobj A P Y -> tobj A P Y * option err) (ts : list (tobj A P Y))
  : list (tobj A P Y) * option err :=
  match ts with
  | [] => ([], None)
  | t :: ts' => match f t with
                | (t', Some e) => (t' :: ts', Some e)
                | (t', None) => let '(r, e) := each_tree f ts' in (t' :: r, e)
                end
  end.
Definition on_trees (f : tobj A P Y -> tobj A P Y * option err) (o : fobj) : mresult :=
  match fo_trees o with
  | None => raise o TypeErr
  | Some ts => let '(ts', e) := each_tree f ts in (w_trees o (Some ts') (fo_tree_classes o), e)
  end.

Definition set_fstep (v : pyval) (o : fobj) : mresult :=
  match as_float v with
  | None => raise o ValueErr
  | Some x => if aleb x a0 then raise o ValueErr
              else let o1 := w_step o x in
                   if fo_fitted o then on_trees (set_step x) o1 else (o1, None)
  end.

Definition set_aggregation (v : pyval) (o : fobj) : mresult :=
  match as_bool v with None => raise o ValueErr | Some b => (w_aggregation o b, None) end.

Definition set_max_depth (v : pyval) (o : fobj) : mresult :=
  match v with
  | PyNone => (w_max_depth o None, None)
  | _ => match as_int v with
         | None => raise o ValueErr
         | Some z => if (z <? 2)%Z then raise o ValueErr else (w_max_depth o (Some z), None)
         end
  end.

Definition set_min_samples_split (v : pyval) (o : fobj) : mresult :=
  match as_int v with
  | None => raise o ValueErr
  | Some z => if (z <? 2)%Z then raise o ValueErr else (w_min_samples_split o z, None)
  end.

Definition set_min_samples_leaf (v : pyval) (o : fobj) : mresult :=
  match as_int v with
  | None => raise o ValueErr
  | Some z => if (z <? 1)%Z then raise o ValueErr else (w_min_samples_leaf o z, None)
  end.

Definition set_max_bins (v : pyval) (o : fobj) : mresult :=
  match as_int v with
  | None => raise o ValueErr
  | Some z => if (z <? 3)%Z then raise o ValueErr else (w_max_bins o z, None)
  end.

Definition set_max_features (v : pyval) (o : fobj) : mresult :=
  match v with
  | PyNone => (w_max_features o MFNone, None)
  | PyStr s => if String.eqb s "sqrt" then (w_max_features o MFSqrt, None)
               else if String.eqb s "log2" then (w_max_features o MFLog2, None)
               else if String.eqb s "auto" then (w_max_features o MFAuto, None)
               else raise o ValueErr
  | PyFloat x => if altb a1 x || aleb x a0 then raise o ValueErr else (w_max_features o (MFFloat x), None)
  | _ => match as_int v with
         | None => raise o ValueErr
         | Some z => if (z <? 1)%Z then raise o ValueErr else (w_max_features o (MFInt z), None)
         end
  end.

Definition set_n_jobs (v : pyval) (o : fobj) : mresult :=
  match as_int v with
  | None => raise o ValueErr
  | Some z => if (z <? -1)%Z || (z =? 0)%Z then raise o ValueErr else (w_n_jobs o z, None)
  end.

(** forest.py:857-870: the ValueError objects are built but not raised. *)
Definition set_random_state (v : pyval) (o : fobj) : mresult :=
  if fo_fitted o then raise o ValueErr
  else match v with
       | PyNone => (w_random_state o (Some None), None)
       | _ => match as_int v with
              | None => (o, None)
              | Some z => if (0 <=? z)%Z then (w_random_state o (Some (Some z)), None) else (o, None)
              end
       end.

Definition set_verbose (v : pyval) (o : fobj) : mresult :=
  match as_bool v with None => raise o ValueErr | Some b => (w_verbose o b, None) end.

(** [criterion] and [loss] accept the strings of a list: "gini", "entropy" and "log" for
    classifiers, "mse" and "mse" for regressors. *)
Definition set_criterion (allowed : list string) (v : pyval) (o : fobj) : mresult :=
  match as_str v with
  | None => raise o ValueErr
  | Some s => if existsb (String.eqb s) allowed then (w_criterion o s, None) else raise o ValueErr
  end.
Definition set_loss (allowed : list string) (v : pyval) (o : fobj) : mresult :=
  match as_str v with
  | None => raise o ValueErr
  | Some s => if existsb (String.eqb s) allowed then (w_loss o s, None) else raise o ValueErr
  end.

Definition set_class_weight (v : pyval) (o : fobj) : mresult :=
  match v with
  | PyNone => (w_balanced o false, None)
  | PyStr s => if String.eqb s "balanced" then (w_balanced o true, None) else raise o ValueErr
  | _ => raise o ValueErr
  end.

Definition set_multiclass (v : pyval) (o : fobj) : mresult :=
  if fo_fitted o then raise o AttrErr
  else match as_str v with
       | None => raise o ValueErr
       | Some s => if String.eqb s "multinomial" then (w_multiclass o Multinomial, None)
                   else if String.eqb s "ovr" then (w_multiclass o Ovr, None)
                   else raise o ValueErr
       end.

Definition set_cat_split_strategy (v : pyval) (o : fobj) : mresult :=
  if fo_fitted o then raise o AttrErr
  else match as_str v with
       | None => raise o ValueErr
       | Some s => if String.eqb s "binary" then (w_strategy o BinaryMod, None)
                   else if String.eqb s "all" then (w_strategy o AllMods, None)
                   else if String.eqb s "random" then (w_strategy o RandomMod, None)
                   else raise o ValueErr
       end.

(** The getters: [None] when the attribute does not exist. *)
Definition getattr (p : param) (o : fobj) : option pyval :=
  match p with
  | P_n_estimators => Some (PyInt (fo_n_estimators o))
  | P_criterion => Some (PyStr (fo_criterion o))
  | P_loss => Some (PyStr (fo_loss o))
  | P_step => Some (PyFloat (fo_step o))
  | P_aggregation => Some (PyBool (fo_aggregation o))
  | P_max_depth => Some (match fo_max_depth o with None => PyNone | Some z => PyInt z end)
  | P_min_samples_split => Some (PyInt (fo_min_samples_split o))
  | P_min_samples_leaf => Some (PyInt (fo_min_samples_leaf o))
  | P_max_bins => Some (PyInt (fo_max_bins o))
  | P_max_features => Some (match fo_max_features o with
                            | MFNone => PyNone | MFAuto => PyStr "auto" | MFSqrt => PyStr "sqrt"
                            | MFLog2 => PyStr "log2" | MFInt z => PyInt z | MFFloat x => PyFloat x
                            end)
  | P_n_jobs => Some (PyInt (fo_n_jobs o))
  | P_random_state => option_map (fun r => match r with None => PyNone | Some z => PyInt z end) (fo_random_state o)
  | P_verbose => Some (PyBool (fo_verbose o))
  | P_dirichlet => option_map PyFloat (fo_dirichlet o)
  | P_class_weight => Some (if fo_balanced o then PyStr "balanced" else PyNone)
  | P_multiclass => Some (PyStr (match fo_multiclass o with Multinomial => "multinomial" | Ovr => "ovr" end))
  | P_cat_split_strategy =>
      Some (PyStr (match fo_strategy o with BinaryMod => "binary" | AllMods => "all" | RandomMod => "random" end))
  end.

(** The setters shared by both kinds of forests; [crits] and [losses] are the accepted
    strings. The four last parameters are handled below. *)
Definition setattr (crits losses : list string) (p : param) (v : pyval) (o : fobj) : mresult :=
  match p with
  | P_n_estimators => set_n_estimators v o
  | P_criterion => set_criterion crits v o
  | P_loss => set_loss losses v o
  | P_step => set_fstep v o
  | P_aggregation => set_aggregation v o
  | P_max_depth => set_max_depth v o
  | P_min_samples_split => set_min_samples_split v o
  | P_min_samples_leaf => set_min_samples_leaf v o
  | P_max_bins => set_max_bins v o
  | P_max_features => set_max_features v o
  | P_n_jobs => set_n_jobs v o
  | P_random_state => set_random_state v o
  | P_verbose => set_verbose v o
  | _ => (o, None)
  end.

(** forest.py:206-231: the object before the setters of the constructor run. Attributes
    without a value yet are given one here: each of them is set by the constructor, except
    [random_state] and [dirichlet], whose absence is represented. *)
Definition blank : fobj :=
  mkF false 0 a0 false None 0 0 0 MFNone 0 None false "" "" None false Multinomial BinaryMod
      [] [] None None 0.

(** Setters called one after the other until one of them raises. *)
Fixpoint set_all (set : param -> pyval -> fobj -> mresult) (l : list (param * pyval)) (o : fobj) : res fobj :=
  match l with
  | [] => Ok o
  | (p, v) :: l' => match set p v o with
                    | (o', None) => set_all set l' o'
                    | (_, Some e) => Err e
                    end
  end.

(** forest.py:215-231: the order of the constructor. *)
Definition base_params : list param :=
  [P_n_estimators; P_criterion; P_loss; P_step; P_aggregation; P_max_depth; P_min_samples_split;
   P_min_samples_leaf; P_max_bins; P_max_features; P_n_jobs; P_random_state; P_verbose].

(** *** lighten: forest.py:650-653. [self.trees] always exists. *)
Definition flighten (o : fobj) : mresult := on_trees lighten o.

(** *** pickle: forest.py:259-263. [serialize] leaves the attributes of a forest unchanged;
    the trees of the list are pickled by their own methods. *)
Definition funpickle (memN : nat -> N) (pred0 : P) (o : fobj) : res fobj :=
  match fo_trees o with
  | None => Ok o
  | Some ts => let* ts' := mapM (unpickle E memN pred0) ts in Ok (w_trees o (Some ts') (fo_tree_classes o))
  end.

(** *** Parts of fit *)

(** sklearn's [_check_sample_weight]: ones when there are no weights; a ValueError when the
    shape is wrong. *)
Definition check_weights (n : nat) (w : option (list T)) : res (list T) :=
  match w with
  | None => Ok (repeat a1 n)
  | Some l => if length l =? n then Ok l else Err ValueErr
  end.

Definition two64 : N := 18446744073709551615%N.

(** forest.py:724-726. *)
Definition get_max_depth (d : option Z) : N := match d with None => two64 | Some z => Z.to_N z end.

(** The parameters given to each tree: forest.py:380-428. *)
Definition tree_params_of (o : fobj) (mf : Z) (cats : list bool) : @tree_params A :=
  mkTP (Z.to_nat mf) (Z.to_nat (fo_min_samples_split o)) (Z.to_nat (fo_min_samples_leaf o))
       (get_max_depth (fo_max_depth o)) (fo_aggregation o) (fo_step o) cats.

(** forest.py:351-470, the end of fit, common to both kinds of forests. [repeats] is the
    argument of [np.repeat] for the seeds. [build] is the work of one thread of the parallel
    loop, for one tree number and one seed. The exception of the loop is that of the first
    failing tree; in any case the trees are not stored. *)
Definition fit_end (o : fobj) (X : D) (repeats tree_classes : nat)
  (build : @tree_params A -> fba -> nat -> N -> res (tobj A P Y)) : mresult :=
  let n_features := snd (ec_shape EC X) in
  match get_max_features ME (fo_max_features o) n_features with
  | Err e => raise o e
  | Ok mf =>
      match fo_random_state o with
      | None => raise o AttrErr
      | Some rs =>
          let seeds := flat_map (fun s => repeat s repeats) (me_seeds ME rs (Z.to_nat (fo_n_estimators o))) in
          let o1 := w_seeds o seeds in
          match (let* enc := ec_fit EC (fo_max_bins o) X in
                 let* fb := ec_transform EC enc X in Ok (enc, fb)) with
          | Err e => raise o1 e
          | Ok (enc, fb) =>
              let o2 := w_encoder o1 (Some enc) in
              let p := tree_params_of o mf (ec_cats EC enc) in
              match mapM (fun '(t, seed) => build p fb t seed) (combine (seq 0 (length seeds)) seeds) with
              | Err e => raise o2 e
              | Ok ts => (w_fitted (w_trees o2 (Some ts) tree_classes) true, None)
              end
          end
      end
  end.

(** *** Prediction *)

(** One tree adds its prediction to the array, forest.py:146-151; [order] is the order in
    which the threads take the lock. *)
Definition accumulate {Q} (add : Q -> P -> res Q) (ts : list (tobj A P Y)) (mix : T -> P -> P -> res P)
  (fb : fba) (order : list nat) (zero : Q) : res (list Q) :=
  foldM (fun out t => let* tr := get ts t in
                      let* preds := obj_predict mix tr fb in
                      if negb (length out =? length preds) then Err ValueErr
                      else mapM (fun '(q, p) => add q p) (combine out preds))
        order (repeat zero (fb_n_samples fb)).

(** forest.py:640-648: [check_is_fitted] passes on every object (it looks for attributes
    whose name ends with an underscore), and the encoder of an unfitted forest is None. *)
Definition predict_helper (o : fobj) (X : D) : res (fba * list (tobj A P Y)) :=
  match fo_encoder o with
  | None => Err AttrErr
  | Some enc =>
      let* fb := ec_transform EC enc X in
      match fo_trees o with None => Err TypeErr | Some ts => Ok (fb, ts) end
  end.

(** forest.py:472-501. *)
Definition fapply (o : fobj) (X : D) : res (list (list nat)) :=
  let* ' (fb, ts) := predict_helper o X in
  mapM (fun t => obj_apply t fb) ts.

End Objects.
Arguments fobj P Y : clear implicits.
Arguments mresult P Y : clear implicits.

(** ** Classification *)

Definition clf_forest : Type := fobj (list T) nat.

(** forest.py:1365-1377. *)
Definition set_fdirichlet (v : pyval) (o : clf_forest) : mresult (list T) nat :=
  match as_float v with
  | None => raise o ValueErr
  | Some x => if altb x a0 then raise o ValueErr
              else
                let recompute := match fo_dirichlet o with None => false | Some d => negb (num_eqb d x) end in
                let o1 := w_dirichlet o (Some x) in
                if fo_fitted o && recompute
                then on_trees (set_dirichlet E (fo_tree_classes o) x) o1 else (o1, None)
  end.

(** forest.py:1338-1453: all the setters of classifiers. *)
Definition setattr_clf (p : param) (v : pyval) (o : clf_forest) : mresult (list T) nat :=
  match p with
  | P_dirichlet => set_fdirichlet v o
  | P_class_weight => set_class_weight v o
  | P_multiclass => set_multiclass v o
  | P_cat_split_strategy => set_cat_split_strategy v o
  | _ => setattr ["gini"; "entropy"]%string ["log"]%string p v o
  end.

(** forest.py:1084-1136, the constructor; [args] gives the value of each argument. *)
Definition clf_params : list param :=
  base_params ++ [P_dirichlet; P_class_weight; P_multiclass; P_cat_split_strategy].
Definition new_clf (args : param -> pyval) : res clf_forest :=
  set_all setattr_clf (map (fun p => (p, args p)) clf_params) blank.

Definition crit_of (s : string) : criterion := if String.eqb s "entropy" then Entropy else Gini.

(** forest.py:266-349 for classifiers and 1138-1183. [sw] is the sample_weight argument;
    its boolean tells if it is a float32 array, in which case it is used without a copy. The
    second component is the content of the caller's array after the call. *)
Definition clf_fit (o : clf_forest) (X : D) (y : list L) (sw : option (bool * list T))
  : mresult (list T) nat * list T :=
  let n := fst (ec_shape EC X) in
  let caller := match sw with None => [] | Some (_, w) => w end in
  if negb (length y =? n) then (raise o ValueErr, caller) else
  match check_weights n (option_map snd sw) with
  | Err e => (raise o e, caller)
  | Ok w =>
      let classes := uniq leb y in
      let K := length classes in
      let o1 := w_classes o classes in
      (* forest.py:1162-1170 *)
      let '(o2, e2) :=
        match fo_multiclass o with
        | Ovr => if K <=? 2 then set_multiclass (PyStr "multinomial") o1 else (o1, None)
        | Multinomial => (o1, None)
        end in
      match e2 with
      | Some e => (raise o2 e, caller)
      | None =>
          let codes := encode_labels leb classes y in
          match fo_dirichlet o2 with
          | None => (raise o2 AttrErr, caller)
          | Some d =>
              if fo_aggregation o2 && aisz d then (raise o2 ValueErr, caller) else
              match fo_multiclass o2 with
              | Multinomial =>
                  (* forest.py:332-335, in place *)
                  let w' := if fo_balanced o2 then map (fun '(a, b) => amul a b) (combine w (balanced codes)) else w in
                  let caller' := match sw with Some (true, _) => w' | _ => caller end in
                  let tk := clf_task E K d (crit_of (fo_criterion o2)) (fo_strategy o2) in
                  (fit_end o2 X 1 K (fun p fb _ seed => build_tree ME tk d p fb codes w' seed), caller')
              | Ovr =>
                  let tk := clf_task E 2 d (crit_of (fo_criterion o2)) (fo_strategy o2) in
                  (fit_end o2 X K 2 (fun p fb t seed =>
                     let yk := binarize codes (t / Z.to_nat (fo_n_estimators o2)) in
                     let wk := if fo_balanced o2 then map (fun '(a, b) => amul a b) (combine w (balanced yk)) else w in
                     build_tree ME tk d p fb yk wk seed), caller)
              end
          end
      end
  end.

(** forest.py:1226-1277. [small x] is [x <= eps]. *)
Definition add_proba (n_est : nat) (ovr : bool) (t : nat) (row : list T) (p : list T) : res (list T) :=
  if ovr then let* v := get p 1 in add_at row (t / n_est) v
  else zipM aadd row p.

Definition accumulate_proba (n_est : nat) (ovr : bool) (ts : list (tobj A (list T) nat)) (fb : fba)
  (order : list nat) (K : nat) : res (list (list T)) :=
  foldM (fun out t => let* tr := get ts t in
                      let* preds := obj_predict mix_vec tr fb in
                      if negb (length out =? length preds) then Err ValueErr
                      else mapM (fun '(q, p) => add_proba n_est ovr t q p) (combine out preds))
        order (repeat (repeat a0 K) (fb_n_samples fb)).

Definition normalise_ovr (small : T -> bool) (K : nat) (row : list T) : list T :=
  let s := asum row in
  if small s then repeat (adiv a1 (aofnat K)) K else map (fun x => adiv x s) row.

Definition predict_proba (small : T -> bool) (order : list nat) (o : clf_forest) (X : D) : res (list (list T)) :=
  let* ' (fb, ts) := predict_helper o X in
  if negb (fo_fitted o) then Err ValueErr
  else
    let K := length (fo_classes o) in
    let n_est := Z.to_nat (fo_n_estimators o) in
    match fo_multiclass o with
    | Ovr => let* out := accumulate_proba n_est true ts fb order K in
             Ok (map (normalise_ovr small K) out)
    | Multinomial => let* out := accumulate_proba n_est false ts fb order K in
                     Ok (map (map (fun x => adiv x (aofnat (length ts)))) out)
    end.

(** [np.argmax] of a row: the first position of the largest value (a NaN counts as the
    largest). *)
Fixpoint argmax_from (best : T) (ibest i : nat) (l : list T) : nat :=
  match l with
  | [] => ibest
  | x :: t => if anan best then ibest
              else if anan x || altb best x then argmax_from x i (S i) t
              else argmax_from best ibest (S i) t
  end.
Definition argmax (l : list T) : res nat :=
  match l with [] => Err ValueErr | x :: t => Ok (argmax_from x 0 1 t) end.

(** forest.py:1205-1224. *)
Definition take_classes (classes : list L) (probas : list (list T)) : res (list L) :=
  mapM (fun row => let* k := argmax row in
                   match nth_error classes k with Some c => Ok c | None => Err IndexErr end) probas.
Definition predict_class (small : T -> bool) (order : list nat) (o : clf_forest) (X : D) : res (list L) :=
  let* probas := predict_proba small order o X in take_classes (fo_classes o) probas.

(** forest.py:1279-1331. *)
Definition predict_proba_trees (o : clf_forest) (X : D) : res (list (list (list T))) :=
  let* ' (fb, ts) := predict_helper o X in
  mapM (fun t => obj_predict mix_vec t fb) ts.

(** ** Regression *)

Definition reg_forest : Type := fobj T T.

(** forest.py:1719-1745. *)
Definition setattr_reg (p : param) (v : pyval) (o : reg_forest) : mresult T T :=
  setattr ["mse"]%string ["mse"]%string p v o.

(** forest.py:1587-1626. *)
Definition new_reg (args : param -> pyval) : res reg_forest :=
  set_all setattr_reg (map (fun p => (p, args p)) base_params) blank.

(** forest.py:266-349 for regressors. *)
Definition reg_fit (o : reg_forest) (X : D) (y : list T) (sw : option (bool * list T))
  : mresult T T * list T :=
  let n := fst (ec_shape EC X) in
  let caller := match sw with None => [] | Some (_, w) => w end in
  if negb (length y =? n) then (raise o ValueErr, caller) else
  match check_weights n (option_map snd sw) with
  | Err e => (raise o e, caller)
  | Ok w => (fit_end o X 1 0 (fun p fb _ seed => build_tree ME (reg_task E) a0 p fb y w seed), caller)
  end.

(** forest.py:1628-1657. *)
Definition predict_reg (order : list nat) (o : reg_forest) (X : D) : res (list T) :=
  let* ' (fb, ts) := predict_helper o X in
  let* out := accumulate (fun q p => Ok (aadd q p)) ts mix_num fb order a0 in
  Ok (map (fun x => adiv x (aofnat (length ts))) out).

(** forest.py:1659-1677. *)
Definition fweighted_depth (o : reg_forest) (X : D) : res (list (list T)) :=
  let* ' (fb, ts) := predict_helper o X in
  mapM (fun t => obj_weighted_depth t fb) ts.

End Forest.

Arguments fo_fitted {A L D EC P Y}.
Arguments fo_n_estimators {A L D EC P Y}.
Arguments fo_step {A L D EC P Y}.
Arguments fo_aggregation {A L D EC P Y}.
Arguments fo_max_depth {A L D EC P Y}.
Arguments fo_min_samples_split {A L D EC P Y}.
Arguments fo_min_samples_leaf {A L D EC P Y}.
Arguments fo_max_bins {A L D EC P Y}.
Arguments fo_max_features {A L D EC P Y}.
Arguments fo_n_jobs {A L D EC P Y}.
Arguments fo_random_state {A L D EC P Y}.
Arguments fo_verbose {A L D EC P Y}.
Arguments fo_criterion {A L D EC P Y}.
Arguments fo_loss {A L D EC P Y}.
Arguments fo_dirichlet {A L D EC P Y}.
Arguments fo_balanced {A L D EC P Y}.
Arguments fo_multiclass {A L D EC P Y}.
Arguments fo_strategy {A L D EC P Y}.
Arguments fo_classes {A L D EC P Y}.
Arguments fo_seeds {A L D EC P Y}.
Arguments fo_encoder {A L D EC P Y}.
Arguments fo_trees {A L D EC P Y}.
Arguments fo_tree_classes {A L D EC P Y}.
Arguments w_fitted {A L D EC P Y}.
Arguments w_n_estimators {A L D EC P Y}.
Arguments w_step {A L D EC P Y}.
Arguments w_aggregation {A L D EC P Y}.
Arguments w_max_depth {A L D EC P Y}.
Arguments w_min_samples_split {A L D EC P Y}.
Arguments w_min_samples_leaf {A L D EC P Y}.
Arguments w_max_bins {A L D EC P Y}.
Arguments w_max_features {A L D EC P Y}.
Arguments w_n_jobs {A L D EC P Y}.
Arguments w_random_state {A L D EC P Y}.
Arguments w_verbose {A L D EC P Y}.
Arguments w_criterion {A L D EC P Y}.
Arguments w_loss {A L D EC P Y}.
Arguments w_dirichlet {A L D EC P Y}.
Arguments w_balanced {A L D EC P Y}.
Arguments w_multiclass {A L D EC P Y}.
Arguments w_strategy {A L D EC P Y}.
Arguments w_classes {A L D EC P Y}.
Arguments w_seeds {A L D EC P Y}.
Arguments w_encoder {A L D EC P Y}.
Arguments w_trees {A L D EC P Y}.
Arguments set_n_estimators {A L D EC P Y}.
Arguments set_fstep {A L D EC P Y}.
Arguments set_aggregation {A L D EC P Y}.
Arguments set_max_depth {A L D EC P Y}.
Arguments set_min_samples_split {A L D EC P Y}.
Arguments set_min_samples_leaf {A L D EC P Y}.
Arguments set_max_bins {A L D EC P Y}.
Arguments set_max_features {A L D EC P Y}.
Arguments set_n_jobs {A L D EC P Y}.
Arguments set_random_state {A L D EC P Y}.
Arguments set_verbose {A L D EC P Y}.
Arguments set_criterion {A L D EC P Y}.
Arguments set_loss {A L D EC P Y}.
Arguments set_class_weight {A L D EC P Y}.
Arguments set_multiclass {A L D EC P Y}.
Arguments set_cat_split_strategy {A L D EC P Y}.
Arguments getattr {A L D EC P Y}.
Arguments setattr {A L D EC P Y}.
Arguments on_trees {A L D EC P Y}.
Arguments flighten {A L D EC P Y}.
Arguments funpickle {A} E {L D EC P Y}.
Arguments tree_params_of {A L D EC P Y}.
Arguments predict_helper {A L D EC P Y}.
Arguments fapply {A L D EC P Y}.
Arguments raise {A L D EC P Y}.
Arguments blank {A L D EC P Y}.
Arguments set_all {A L D EC P Y}.
Arguments mkF {A L D EC P Y}.
Arguments each_tree {A P Y}. Arguments accumulate {A P Y Q}. Arguments fit_end {A E L D EC} ME {P Y}.
Arguments fobj A L {D} EC P Y. Arguments mresult A L {D} EC P Y. Arguments clf_forest A L {D} EC. Arguments reg_forest A L {D} EC.
Arguments pyval A : clear implicits. Arguments maxfeat A : clear implicits.
Arguments get_max_features {A E} ME. Arguments me_randint {A E}. Arguments me_seeds {A E}. Arguments me_seed {A E}. Arguments me_limit {A E}. Arguments me_isqrt {A E}. Arguments me_ilog2 {A E}. Arguments me_ifrac {A E}. Arguments build_tree {A E} ME.
Arguments setattr_clf {A} E {L D EC}. Arguments new_clf {A} E {L D} EC. Arguments set_fdirichlet {A} E {L D EC}.
Arguments take_classes {A L}. Arguments argmax {A}. Arguments argmax_from {A}. Arguments clf_fit {A E L D} leb {EC} ME. Arguments predict_proba {A L D EC}. Arguments predict_class {A L D EC}. Arguments predict_proba_trees {A L D EC}.
Arguments setattr_reg {A L D EC}. Arguments new_reg {A L D} EC. Arguments reg_fit {A E L D EC} ME. Arguments predict_reg {A L D EC}. Arguments fweighted_depth {A L D EC}.
Arguments ec_enc {D}. Arguments ec_shape {D}. Arguments ec_fit {D}. Arguments ec_cats {D}. Arguments ec_transform {D}.
