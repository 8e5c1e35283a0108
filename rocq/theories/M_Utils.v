(** * Model of wildwood/_utils.py *)

Require Import List Arith.
Require Import Verif.Base Verif.Num.
Import ListNotations.
Local Open Scope res_scope.

(** What the code takes from its environment and the model does not compute:
    - the state of numba's random generator and one draw [randint(n)] from it;
    - [np.argsort] on floats (quicksort: the order of equal values is unspecified);
    - the content of memory returned by [np.empty] for arrays of integers. *)
Record env (A : arith) : Type := mkEnv {
  rng : Type;
  draw : rng -> nat -> nat * rng;
  argsort : list (num A) -> list nat;
  mem : nat -> nat
}.
Arguments rng {A} _. Arguments draw {A} _ _ _. Arguments argsort {A} _ _. Arguments mem {A} _ _.

(** [np.random.randint(n)] in numba code: raises when the range is empty. *)
Definition randint {A} (E : env A) (s : rng E) (n : nat) : res (nat * rng E) :=
  if n =? 0 then Err ValueErr else Ok (draw E s n).

(** _utils.py:66-93, [resize]: [new] is zeros or uninitialised memory ([fill i] is the
    content of cell [i]); the old content is copied at the beginning, which fails when
    the new array is smaller. Arrays of two or three dimensions are resized along their
    first axis: a list of rows. *)
Definition resize {T} (fill : nat -> T) (a : list T) (new_size : nat) : res (list T) :=
  if length a <=? new_size
  then Ok (a ++ map fill (seq (length a) (new_size - length a)))
  else Err ValueErr.

(** _utils.py:103-123, [log_sum_2_exp]: [log((e^a + e^b) / 2)]. The division by the
    constant 2 never raises. *)
Definition log_sum_2_exp {A : arith} (a b : num A) : num A :=
  let two := aadd a1 a1 in
  if altb b a then aadd a (aln (adiv (aadd a1 (aexp (asub b a))) two))
  else aadd b (aln (adiv (aadd a1 (aexp (asub a b))) two)).

(** _utils.py:155-176, [sample_without_replacement]: writes [pool] and [out] in place.
    First loop: the pool is reset to [0, ..., population_size - 1]. *)
Definition init_pool (pool : list nat) : res (list nat) :=
  foldM (fun p i => set p i i) (seq 0 (length pool)) pool.

(** Body of the second loop. *)
Definition sample_step {A} (E : env A) (pop : nat) (st : rng E * list nat * list nat) (i : nat)
  : res (rng E * list nat * list nat) :=
  let '(s, pool, out) := st in
  let* m := usub pop i in
  let* ' (j, s') := randint E s m in
  let* x := get pool j in
  let* out' := set out i x in
  let* l := usub m 1 in
  let* y := get pool l in
  let* pool' := set pool j y in
  Ok (s', pool', out').

Definition sample_without_replacement {A} (E : env A) (s : rng E) (pool out : list nat)
  : res (rng E * list nat * list nat) :=
  let* pool0 := init_pool pool in
  foldM (sample_step E (length pool)) (seq 0 (length out)) (s, pool0, out).
