(** * Model of wildwood/preprocessing/_binning.py *)

Require Import List Arith.
Require Import Verif.Base Verif.Num.
Import ListNotations.

Section Binning.
  Context {A : arith}.

  (** [np.sort] and [np.unique]: the library functions are replaced by an insertion sort
      and the removal of repeated neighbours. *)
  Fixpoint insert_num (x : num A) (l : list (num A)) : list (num A) :=
    match l with
    | [] => [x]
    | y :: t => if aleb x y then x :: l else y :: insert_num x t
    end.

  Fixpoint sort_num (l : list (num A)) : list (num A) :=
    match l with [] => [] | x :: t => insert_num x (sort_num t) end.

  Fixpoint dedupe (l : list (num A)) : list (num A) :=
    match l with
    | x :: (y :: _) as t => if aleb y x then dedupe t else x :: dedupe t
    | _ => l
    end.

  Definition unique (l : list (num A)) : list (num A) := dedupe (sort_num l).

  (** wildwood/preprocessing/_binning.py:65-67
      [middles = uniques[:-1] + uniques[1:]; middles *= 0.5]. *)
  Fixpoint middles (u : list (num A)) : list (num A) :=
    match u with
    | x :: (y :: _) as t => amul (aadd x y) ahalf :: middles t
    | _ => []
    end.

  (** wildwood/preprocessing/_binning.py:69-74: [np.percentile(col, q, method="midpoint")]
      for the percentiles [100 * k / max_bins], [0 < k < max_bins]. numpy's contract: with
      [v = (n - 1) * k / max_bins], the result is [sorted[v]] if [v] is an integer and
      otherwise the linear interpolation, with weight one half, of [sorted[floor v]] and
      [sorted[floor v + 1]]. Simplification: the index [v] is computed exactly, numpy
      computes it in binary64. *)
  Definition percentile_midpoint (sorted : list (num A)) (k max_bins : nat) : res (num A) :=
    let v := (length sorted - 1) * k in
    let f := v / max_bins in
    if (v mod max_bins) =? 0 then get sorted f
    else
      let* lo := get sorted f in
      let* hi := get sorted (f + 1) in
      Ok (asub hi (amul (asub hi lo) ahalf)).

  (** [np.clip(middles, a_min=None, a_max=ALMOST_INF)], line 78. NaN is kept by numpy. *)
  Definition clip_max (almost_inf x : num A) : num A :=
    if altb almost_inf x then almost_inf else x.

  (** wildwood/preprocessing/_binning.py:22-79, [_find_binning_thresholds].
      [almost_inf] is the constant [ALMOST_INF = 1e300] (line 16). The column is given
      with its missing values. *)
  Definition find_binning_thresholds (almost_inf : num A) (col : list (num A)) (max_bins : nat)
    : res (list (num A)) :=
    let col := filter (fun x => negb (anan x)) col in
    let uniques := unique col in
    let* mids :=
      if length uniques <=? max_bins then Ok (middles uniques)
      else mapM (fun k => percentile_midpoint (sort_num col) k max_bins) (seq 1 (max_bins - 1)) in
    Ok (map (clip_max almost_inf) mids).

  (** wildwood/preprocessing/_binning.py:107-114, the while loop of the binary search. *)
  Fixpoint find_bin_loop (fuel : nat) (left right : nat) (x : num A) (thr : list (num A))
    : res nat :=
    match fuel with
    | O => Err Fuel
    | S fuel =>
        if left <? right then
          let middle := left + (right - left - 1) / 2 in
          let* t := get thr middle in
          if aleb x t then find_bin_loop fuel left middle x thr
          else find_bin_loop fuel (middle + 1) right x thr
        else Ok left
    end.

  (** wildwood/preprocessing/_binning.py:89-116, [_bin_continuous_column]; the result is the
      content of [binned_col]. The loop is given fuel [len(thresholds) + 1]. *)
  Definition bin_value (thr : list (num A)) (missing_bin : nat) (x : num A) : res nat :=
    if anan x then Ok missing_bin
    else find_bin_loop (length thr + 1) 0 (length thr) x thr.

  Definition bin_continuous_column (col thr : list (num A)) (missing_bin : nat)
    : res (list nat) :=
    mapM (bin_value thr missing_bin) col.
End Binning.
