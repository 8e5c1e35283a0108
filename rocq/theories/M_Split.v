(** * Model of wildwood/_split.py *)

Require Import List Arith NArith ZArith.
Require Import Verif.Base Verif.Num Verif.M_Bitarray Verif.M_Utils Verif.M_Impurity
  Verif.M_Context Verif.M_Node.
Import ListNotations.
Local Open Scope res_scope.

(** [np.sort] on bins. *)
Fixpoint insert_bin (x : nat) (l : list nat) : list nat :=
  match l with
  | [] => [x]
  | y :: t => if x <=? y then x :: l else y :: insert_bin x t
  end.
Fixpoint sort_bins (l : list nat) : list nat :=
  match l with [] => [] | x :: t => insert_bin x (sort_bins t) end.

(** _split.py:1090-1122, [is_bin_in_partition]. [left] and [right] are signed integers.
    The loop gets one more unit of fuel than the size of the partition. *)
Fixpoint bin_search (fuel : nat) (b : nat) (part : list nat) (left right : Z) : res bool :=
  match fuel with
  | O => Err Fuel
  | S fuel' =>
      if (left <=? right)%Z then
        let middle := ((left + right) / 2)%Z in
        let* x := get part (Z.to_nat middle) in
        if x =? b then Ok true
        else if x <? b then bin_search fuel' b part (middle + 1)%Z right
        else bin_search fuel' b part left (middle - 1)%Z
      else Ok false
  end.

Definition is_bin_in_partition (b : nat) (part : list nat) : res bool :=
  if length part =? 1 then let* x := get part 0 in Ok (x =? b)
  else bin_search (S (length part)) b part 0 (Z.of_nat (length part) - 1).

(** Inner while loop of _split.py:750-755 (regression 898-903). *)
Fixpoint cumsum_while (fuel : nat) (bins_valid n_valid_in_bins : list nat) (bin_train : nat)
  (st : nat * nat * nat) : res (nat * nat * nat) :=
  match fuel with
  | O => Err Fuel
  | S fuel' =>
      let '(bin_test, idx_valid, cum) := st in
      if ((bin_test <=? bin_train) && (idx_valid <? length bins_valid))%bool then
        let* n := get n_valid_in_bins bin_test in
        let cum' := cum + n in
        let idx' := idx_valid + 1 in
        if idx' =? length bins_valid then Ok (bin_test, idx', cum')
        else let* bt := get bins_valid idx' in
             cumsum_while fuel' bins_valid n_valid_in_bins bin_train (bt, idx', cum')
      else Ok st
  end.

(** _split.py:744-756 (regression 893-904): the number of validation samples on the left
    of each non-empty bin. *)
Definition cumsum_valid (aggregation : bool) (bins_train bins_valid n_valid_in_bins : list nat)
  (size : nat) : res (list nat) :=
  let cumsum := repeat 0 size in
  if aggregation then
    let* bin_test := get bins_valid 0 in
    let* ' (_, cumsum') :=
      foldM (fun '(st, cs) bin_train =>
               let* ' (bt, idx, cum) :=
                 cumsum_while (S (length bins_valid)) bins_valid n_valid_in_bins bin_train st in
               let* cs' := set cs bin_train cum in
               Ok (bt, idx, cum, cs'))
            bins_train (bin_test, 0, 0, cumsum) in
    Ok cumsum'
  else Ok cumsum.

Section Split.
Context {A : arith} {E : env A} (tk : task A E).
Notation T := (num A).

(** _split.py:21-118 and 292-320: the split object. [sp_gain = None] is [-inf];
    [sp_bins] is [bins[:bins_count]], [sp_partition] is
    [bin_partition[:bin_partition_size]]. The fields [w_samples_valid_*] are reset and
    never written again; they are not modelled. *)
Record split : Type := mkSplit {
  sp_found : bool;
  sp_gain : option T;
  sp_feature : nat;
  sp_threshold : nat;
  sp_imp_left : T;
  sp_imp_right : T;
  sp_n_train_left : nat;
  sp_n_train_right : nat;
  sp_w_train_left : T;
  sp_w_train_right : T;
  sp_n_valid_left : nat;
  sp_n_valid_right : nat;
  sp_stat_left : tk_S tk;
  sp_stat_right : tk_S tk;
  sp_is_cat : bool;
  sp_bins : list nat;
  sp_partition : list nat
}.

(** _split.py:292-320, [reset_split]. It does not reset [y_sum_left] and [y_sum_right],
    whose content is unspecified until a split is found (zeros here). *)
Definition reset_split : split :=
  mkSplit false None 0 0 a0 a0 0 0 a0 a0 0 0 (tk_stat0 tk) (tk_stat0 tk) false [] [].

(** [gain_proxy > best_split.gain_proxy]. *)
Definition gain_gt (g : T) (best : option T) : bool :=
  match best with None => agtninf g | Some b => altb b g end.

(** Running counts of the scan over ordered bins. *)
Record scan : Type := mkScan {
  sc_n_left : nat; sc_w_left : T; sc_n_right : nat; sc_w_right : T;
  sc_stat_left : tk_S tk; sc_stat_right : tk_S tk; sc_v_left : nat
}.

(** One iteration of the loop over [ordered_bins_train[:-1]], _split.py:506-577
    (regression 906-977), and the rest of the loop. [bins] are the remaining bins,
    [ordered] the whole order. *)
Fixpoint scan_loop (tc : tctx A (tk_Y tk)) (n_valid : nat) (feature : nat) (is_cat : bool)
  (r : row tk) (cumsum ordered : list nat) (bins : list nat) (s : scan) (best : split)
  : res split :=
  match bins with
  | [] => Ok best
  | b :: rest =>
      let* n := get (r_n_train r) b in
      let* w := get (r_w_train r) b in
      let n_left := sc_n_left s + n in
      let w_left := aadd (sc_w_left s) w in
      let* n_right := usub (sc_n_right s) n in
      let w_right := asub (sc_w_right s) w in
      let* stat_left := tk_stat_add tk (sc_stat_left s) (r_hist r) b in
      let* stat_right := tk_stat_sub tk (sc_stat_right s) (r_hist r) b in
      let* v_left := (if is_cat then let* v := get (r_n_valid r) b in Ok (sc_v_left s + v)
                      else get cumsum b) in
      let* v_right := usub n_valid v_left in
      let s' := mkScan n_left w_left n_right w_right stat_left stat_right v_left in
      let msl := tc_min_samples_leaf tc in
      let agg := tc_aggregation tc in
      if ((n_left <? msl) || (agg && (v_left <? msl)))%bool then
        scan_loop tc n_valid feature is_cat r cumsum ordered rest s' best
      else if ((n_right <? msl) || (agg && (v_right <? msl)))%bool then
        Ok best
      else
        let* ' (il, ir) := tk_impurity tk w_left w_right stat_left stat_right in
        let gain := information_gain_proxy il ir w_left w_right in
        let* best' :=
          (if gain_gt gain (sp_gain best) then
             (* best_split.bins has max_n_bins cells *)
             if length ordered <=? tc_max_n_bins tc then
               Ok (mkSplit true (Some gain) feature b il ir n_left n_right w_left w_right
                     v_left v_right stat_left stat_right is_cat ordered (sp_partition best))
             else Err OOB
           else Ok best) in
        scan_loop tc n_valid feature is_cat r cumsum ordered rest s' best'
  end.

(** _split.py:452-577, [try_feature_order_for_classifier_split]; the regressor version has
    the same text inline (865-977). *)
Definition try_feature_order (tc : tctx A (tk_Y tk)) (nc : nctx tk) (feature : nat) (r : row tk)
  (is_cat : bool) (cumsum : list nat) (best : split) (ordered : list nat) : res split :=
  scan_loop tc (nc_n_valid nc) feature is_cat r cumsum ordered (removelast ordered)
    (mkScan 0 a0 (nc_n_train nc) (nc_w_train nc) (tk_stat0 tk) (tk_stat_total tk (r_hist r)) 0)
    best.

(** _split.py:618-764, [find_best_split_classifier_along_feature], and 819-977,
    [find_best_split_regressor_along_feature]. [f] is the position of the feature. *)
Definition find_best_split_along_feature (tc : tctx A (tk_Y tk)) (nc : nctx tk) (s : rng E)
  (feature f : nat) (best : split) : res (split * rng E) :=
  let* r := get (nc_rows nc) f in
  let* is_cat := get (tc_is_categorical tc) feature in
  if (is_cat : bool) then
    let* ' (orders, s') := tk_cat_orders tk s (r_hist r) (r_ne_train r) in
    let* best' := foldM (try_feature_order tc nc feature r is_cat
                           (repeat 0 (length (r_n_train r)))) orders best in
    Ok (best', s')
  else
    let bins_train := sort_bins (r_ne_train r) in
    let bins_valid := sort_bins (r_ne_valid r) in
    let* cumsum := cumsum_valid (tc_aggregation tc) bins_train bins_valid (r_n_valid r)
                     (length (r_n_train r)) in
    let* best' := try_feature_order tc nc feature r is_cat cumsum best bins_train in
    Ok (best', s).

(** _split.py:1052-1079, [compute_bin_partition]: the bins up to [bin_threshold], included. *)
Fixpoint bins_until (threshold : nat) (bins : list nat) : res (list nat) :=
  match bins with
  | [] => Err OOB
  | b :: t => if b =? threshold then Ok [b] else let* r := bins_until threshold t in Ok (b :: r)
  end.

Definition compute_bin_partition (sp : split) : res split :=
  let* l := bins_until (sp_threshold sp) (sp_bins sp) in
  Ok (mkSplit (sp_found sp) (sp_gain sp) (sp_feature sp) (sp_threshold sp) (sp_imp_left sp)
        (sp_imp_right sp) (sp_n_train_left sp) (sp_n_train_right sp) (sp_w_train_left sp)
        (sp_w_train_right sp) (sp_n_valid_left sp) (sp_n_valid_right sp) (sp_stat_left sp)
        (sp_stat_right sp) (sp_is_cat sp) (sp_bins sp) (sort_bins l)).

(** _split.py:994-1034, [find_node_split]. *)
Definition find_node_split (tc : tctx A (tk_Y tk)) (nc : nctx tk) (s : rng E)
  : res (split * rng E) :=
  let* ' (best, s') :=
    foldM (fun '(best, s) '(f, feature) =>
             let* r := get (nc_rows nc) f in
             if 1 <? length (r_ne_train r)
             then find_best_split_along_feature tc nc s feature f best
             else Ok (best, s))
          (combine (seq 0 (length (nc_features nc))) (nc_features nc)) (reset_split, s) in
  let* best' := (if (sp_found best && sp_is_cat best)%bool
                 then compute_bin_partition best else Ok best) in
  Ok (best', s').

(** The test of _split.py:1236-1254 that sends a sample to the left. *)
Definition goes_left (sp : split) (b : nat) : res bool :=
  if sp_is_cat sp then is_bin_in_partition b (sp_partition sp)
  else Ok (b <=? sp_threshold sp).

(** Loop of _split.py:1236-1254 (train) and 1264-1282 (valid): fills the two buffers.
    State: left buffer, right buffer and their counts. *)
Definition buffer_step (sp : split) (col : list N * N * nat * nat)
  (st : list nat * list nat * nat * nat) (i : nat) : res (list nat * list nat * nat * nat) :=
  let '(lb, rb, nl, nr) := st in
  let* b := column_bin col i in
  let* to_left := goes_left sp b in
  if (to_left : bool) then let* lb' := set lb nl i in Ok (lb', rb, nl + 1, nr)
  else let* rb' := set rb nr i in Ok (lb, rb', nl, nr + 1).

(** One half of [split_indices]: reorders [part[start:end]] and returns the position of
    the first index of the right child. The assignment
    [partition[pos:end] = right_buffer[:n_right]] needs equal lengths. *)
Definition split_part (sp : split) (col : list N * N * nat * nat) (part lb rb : list nat)
  (start end_ : nat) : res (list nat * list nat * list nat * nat) :=
  let* idx := slice part start end_ in
  let* ' (lb', rb', nl, nr) := foldM (buffer_step sp col) idx (lb, rb, 0, 0) in
  let pos := start + nl in
  let* lefts := slice lb' 0 nl in
  let* rights := slice rb' 0 nr in
  let* part1 := splice part start lefts in
  let* n := usub end_ pos in
  if n =? nr then
    let* part2 := splice part1 pos rights in
    Ok (part2, lb', rb', pos)
  else Err ValueErr.

(** _split.py:1156-1284, [split_indices]. *)
Definition split_indices (tc : tctx A (tk_Y tk)) (ps : parts) (sp : split)
  (start_train end_train start_valid end_valid : nat) : res (parts * nat * nat) :=
  let* col := feature_column (tc_fb tc) (sp_feature sp) in
  let* ' (pt, lb, rb, pos_train) :=
    split_part sp col (p_train ps) (p_left ps) (p_right ps) start_train end_train in
  let* ' (pv, lb', rb', pos_valid) :=
    split_part sp col (p_valid ps) lb rb start_valid end_valid in
  Ok (mkParts pt pv lb' rb', pos_train, pos_valid).

End Split.

Arguments sp_found {A E tk}. Arguments sp_gain {A E tk}. Arguments sp_feature {A E tk}.
Arguments sp_threshold {A E tk}. Arguments sp_imp_left {A E tk}. Arguments sp_imp_right {A E tk}.
Arguments sp_n_train_left {A E tk}. Arguments sp_n_train_right {A E tk}.
Arguments sp_w_train_left {A E tk}. Arguments sp_w_train_right {A E tk}.
Arguments sp_n_valid_left {A E tk}. Arguments sp_n_valid_right {A E tk}.
Arguments sp_stat_left {A E tk}. Arguments sp_stat_right {A E tk}. Arguments sp_is_cat {A E tk}.
Arguments sp_bins {A E tk}. Arguments sp_partition {A E tk}.
Arguments sc_n_left {A E tk}. Arguments sc_w_left {A E tk}. Arguments sc_n_right {A E tk}.
Arguments sc_w_right {A E tk}. Arguments sc_stat_left {A E tk}. Arguments sc_stat_right {A E tk}.
Arguments sc_v_left {A E tk}.
