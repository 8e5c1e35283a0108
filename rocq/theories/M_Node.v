(** * Model of wildwood/_node.py: node contexts *)

Require Import List Arith NArith.
Require Import Verif.Base Verif.Num Verif.M_Bitarray Verif.M_Utils Verif.M_Context.
Import ListNotations.
Local Open Scope res_scope.

Section Node.
Context {A : arith} {E : env A} (tk : task A E).
Notation T := (num A).

(** The statistics of one considered feature: row [f] of the arrays of the node context
    (_node.py:446-490). Row [f] is written during iteration [f] only, so the arrays are
    modelled as lists of rows. [r_ne_train] is
    [non_empty_bins_train[f, :non_empty_bins_train_count[f]]]. *)
Record row : Type := mkRow {
  r_n_train : list nat;
  r_w_train : list T;
  r_n_valid : list nat;
  r_w_valid : list T;
  r_ne_train : list nat;
  r_ne_valid : list nat;
  r_hist : tk_H tk
}.

(** _node.py:587-595: everything is filled with zeros. *)
Definition row0 (max_n_bins : nat) : row :=
  mkRow (repeat 0 max_n_bins) (repeat a0 max_n_bins) (repeat 0 max_n_bins)
        (repeat a0 max_n_bins) [] [] (tk_hist0 tk max_n_bins).

(** _node.py:645-650: the bin is appended to the non-empty bins the first time it is seen.
    [non_empty_bins] has [max_n_bins] cells. *)
Definition append_bin (max_n_bins n : nat) (ne : list nat) (b : nat) : res (list nat) :=
  if n =? 0 then
    if length ne <? max_n_bins then Ok (ne ++ [b]) else Err OOB
  else Ok ne.

(** Body of the loop over training samples, _node.py:634-656 (regression 840-864).
    [f] is the position of the feature; the state is [w_samples_train], [y_pred], row. *)
Definition train_step (tc : tctx A (tk_Y tk)) (f : nat) (col : list N * N * nat * nat)
  (st : T * tk_P tk * row) (i : nat) : res (T * tk_P tk * row) :=
  let '(w, p, r) := st in
  let* b := column_bin col i in
  let* label := get (tc_y tc) i in
  let* sw := get (tc_weights tc) i in
  let* ' (w', p') :=
    (if f =? 0 then let* p' := tk_pred_add tk p label sw in Ok (aadd w sw, p')
     else Ok (w, p)) in
  let* n := get (r_n_train r) b in
  let* ne := append_bin (tc_max_n_bins tc) n (r_ne_train r) b in
  let* nt := set (r_n_train r) b (n + 1) in
  let* wt := add_at (r_w_train r) b sw in
  let* h := tk_hist_add tk (r_hist r) b label sw in
  Ok (w', p', mkRow nt wt (r_n_valid r) (r_w_valid r) ne (r_ne_valid r) h).

(** Body of the loop over validation samples, _node.py:671-691 (regression 872-892).
    The state is [w_samples_valid], [loss_valid], row. *)
Definition valid_step (tc : tctx A (tk_Y tk)) (f : nat) (p : tk_P tk)
  (col : list N * N * nat * nat) (st : T * T * row) (i : nat) : res (T * T * row) :=
  let '(w, loss, r) := st in
  let* b := column_bin col i in
  let* sw := get (tc_weights tc) i in
  let* ' (w', loss') :=
    (if f =? 0 then
       let* label := get (tc_y tc) i in
       let* loss' := tk_loss_add tk loss p label sw in Ok (aadd w sw, loss')
     else Ok (w, loss)) in
  let* n := get (r_n_valid r) b in
  let* ne := append_bin (tc_max_n_bins tc) n (r_ne_valid r) b in
  let* nv := set (r_n_valid r) b (n + 1) in
  let* wv := add_at (r_w_valid r) b sw in
  Ok (w', loss', mkRow (r_n_train r) (r_w_train r) nv wv (r_ne_train r) ne (r_hist r)).

(** The node-level accumulators carried along the loop over features. *)
Record acc : Type := mkAcc {
  ac_w_train : T; ac_w_valid : T; ac_loss : T; ac_pred : tk_P tk; ac_rows : list row
}.

(** Body of the loop over features, _node.py:629-693 (regression 834-894). *)
Definition feature_step (tc : tctx A (tk_Y tk)) (train valid : list nat) (a : acc) (fj : nat * nat)
  : res acc :=
  let '(f, j) := fj in
  let* col := feature_column (tc_fb tc) j in
  let* ' (w, p, r) := foldM (train_step tc f col) train
                        (ac_w_train a, ac_pred a, row0 (tc_max_n_bins tc)) in
  let* p' := (if f =? 0 then tk_pred_end tk p w else Ok p) in
  let* ' (wv, loss, r') :=
    (if tc_aggregation tc
     then foldM (valid_step tc f p' col) valid (ac_w_valid a, ac_loss a, r)
     else Ok (ac_w_valid a, ac_loss a, r)) in
  Ok (mkAcc w wv loss p' (ac_rows a ++ [r'])).

(** The result of [compute_node_*_context]: _node.py:695-700 and the arrays. *)
Record nctx : Type := mkNctx {
  nc_features : list nat;     (* features_sampled *)
  nc_n_train : nat;
  nc_n_valid : nat;
  nc_w_train : T;
  nc_w_valid : T;
  nc_loss : T;
  nc_pred : tk_P tk;
  nc_rows : list row
}.

(** The part of [compute_node_classifier_context] (_node.py:539-700) and
    [compute_node_regressor_context] (744-902) after the slices have been taken. *)
Definition node_stats (tc : tctx A (tk_Y tk)) (features train valid : list nat) : res nctx :=
  let* a := foldM (feature_step tc train valid) (combine (seq 0 (length features)) features)
              (mkAcc a0 a0 a0 (tk_pred0 tk) []) in
  Ok (mkNctx features (length train) (length valid) (ac_w_train a) (ac_w_valid a)
        (ac_loss a) (ac_pred a) (ac_rows a)).

(** _node.py:446-466, the fields used to sample features. *)
Record fsamp : Type := mkFsamp {
  fs_sample : bool;           (* sample_features *)
  fs_pool : list nat;         (* features_pool *)
  fs_sampled : list nat       (* features_sampled *)
}.

Definition init_fsamp (n_features max_features : nat) : fsamp :=
  mkFsamp (negb (max_features =? n_features)) (seq 0 n_features) (seq 0 max_features).

(** _node.py:580-584 (regression 786-790). *)
Definition sample_features (s : rng E) (fs : fsamp) : res (rng E * fsamp) :=
  if fs_sample fs then
    let* ' (s', pool, out) := sample_without_replacement E s (fs_pool fs) (fs_sampled fs) in
    Ok (s', mkFsamp (fs_sample fs) pool out)
  else Ok (s, fs).

Definition compute_node_context (tc : tctx A (tk_Y tk)) (ps : parts) (s : rng E) (fs : fsamp)
  (start_train end_train start_valid end_valid : nat) : res (nctx * rng E * fsamp) :=
  let* ' (s', fs') := sample_features s fs in
  let* train := slice (p_train ps) start_train end_train in
  let* valid := slice (p_valid ps) start_valid end_valid in
  let* nc := node_stats tc (fs_sampled fs') train valid in
  Ok (nc, s', fs').

End Node.

Arguments r_n_train {A E tk}. Arguments r_w_train {A E tk}. Arguments r_n_valid {A E tk}.
Arguments r_w_valid {A E tk}. Arguments r_ne_train {A E tk}. Arguments r_ne_valid {A E tk}.
Arguments r_hist {A E tk}.
Arguments ac_w_train {A E tk}. Arguments ac_w_valid {A E tk}. Arguments ac_loss {A E tk}.
Arguments ac_pred {A E tk}. Arguments ac_rows {A E tk}.
Arguments nc_features {A E tk}. Arguments nc_n_train {A E tk}. Arguments nc_n_valid {A E tk}.
Arguments nc_w_train {A E tk}. Arguments nc_w_valid {A E tk}. Arguments nc_loss {A E tk}.
Arguments nc_pred {A E tk}. Arguments nc_rows {A E tk}.
