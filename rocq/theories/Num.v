(** * The arithmetic the model is parametrised by

    The code computes with numpy / numba floats (binary32 in the trees, binary64 in the
    encoder). The model takes the operations as a parameter, without any law:
    - theorems stated for every [arith] hold in particular for IEEE numbers;
    - numerical theorems are stated for [R_arith];
    - [spec_arith prec emax] is IEEE arithmetic (round to nearest even) from the standard
      library, used to exhibit inputs where rounding breaks a claim. *)

Require Import List Arith ZArith.
Require Import Reals SpecFloat QArith.
Require Import Verif.Base.
Import ListNotations.

Record arith : Type := mkArith {
  num : Type;
  a0 : num;
  a1 : num;
  ahalf : num;
  aadd : num -> num -> num;
  asub : num -> num -> num;
  amul : num -> num -> num;
  adiv : num -> num -> num;   (* division of numpy arrays and of doubles: never raises *)
  aopp : num -> num;
  aln : num -> num;
  aexp : num -> num;
  aleb : num -> num -> bool;  (* <= *)
  altb : num -> num -> bool;  (* < *)
  aisz : num -> bool;         (* == 0.0 *)
  anan : num -> bool;         (* isnan *)
  agtninf : num -> bool;      (* x > -inf *)
  aofnat : nat -> num;        (* conversion of an integer *)
}.

Arguments a0 {_}. Arguments a1 {_}. Arguments ahalf {_}.
Arguments aadd {_} _ _. Arguments asub {_} _ _. Arguments amul {_} _ _. Arguments adiv {_} _ _.
Arguments aopp {_} _. Arguments aln {_} _. Arguments aexp {_} _.
Arguments aleb {_} _ _. Arguments altb {_} _ _. Arguments aisz {_} _. Arguments anan {_} _.
Arguments agtninf {_} _. Arguments aofnat {_} _.

(** Division of two scalars in numba code: numba's default error model ("python") raises
    ZeroDivisionError when the divisor is zero. *)
Definition divM {A : arith} (x y : num A) : res (num A) :=
  if aisz y then Err ZeroDiv else Ok (adiv x y).

(** Sum of a list, from left to right, as a loop [s = 0.0; s += x]. *)
Definition asum {A : arith} (l : list (num A)) : num A := fold_left aadd l a0.

(** ** Exact real arithmetic *)

Definition Rleb (x y : R) : bool := if Rle_dec x y then true else false.
Definition Rltb (x y : R) : bool := if Rlt_dec x y then true else false.
Definition Risz (x : R) : bool := if Req_EM_T x 0%R then true else false.

Definition R_arith : arith :=
  mkArith R 0%R 1%R (/ 2)%R Rplus Rminus Rmult Rdiv Ropp ln exp
    Rleb Rltb Risz (fun _ => false) (fun _ => true) INR.
Canonical Structure R_arith.

(** ** IEEE arithmetic *)

Definition sf_leb (x y : spec_float) : bool := SFleb x y.
Definition sf_ltb (x y : spec_float) : bool := SFltb x y.
Definition sf_isz (x : spec_float) : bool := match x with S754_zero _ => true | _ => false end.
Definition sf_nan (x : spec_float) : bool := match x with S754_nan => true | _ => false end.
Definition sf_gtninf (x : spec_float) : bool :=
  match x with S754_nan => false | S754_infinity true => false | _ => true end.
Definition sf_ofZ (prec emax z : Z) : spec_float :=
  match z with
  | Z0 => S754_zero false
  | Zpos p => binary_normalize prec emax (Zpos p) 0 false
  | Zneg p => binary_normalize prec emax (Zneg p) 0 false
  end.

(** [lnf] and [expf] are whatever the C library computes. *)
Definition spec_arith (prec emax : Z) (lnf expf : spec_float -> spec_float) : arith :=
  mkArith spec_float (S754_zero false)
    (sf_ofZ prec emax 1) (SFdiv prec emax (sf_ofZ prec emax 1) (sf_ofZ prec emax 2))
    (SFadd prec emax) (SFsub prec emax) (SFmul prec emax) (SFdiv prec emax)
    SFopp lnf expf sf_leb sf_ltb sf_isz sf_nan sf_gtninf
    (fun n => sf_ofZ prec emax (Z.of_nat n)).

Definition F64 := spec_arith 53 1024.
Definition F32 := spec_arith 24 128.

(** ** Rational arithmetic, used to run the model on examples *)

Definition Q_arith (lnf expf : Q -> Q) : arith :=
  mkArith Q 0%Q 1%Q (1 # 2)%Q
    (fun x y => Qred (x + y)%Q) (fun x y => Qred (x - y)%Q)
    (fun x y => Qred (x * y)%Q) (fun x y => Qred (x / y)%Q)
    (fun x => Qred (- x)%Q) lnf expf
    Qle_bool (fun x y => negb (Qle_bool y x)) (fun x => Qeq_bool x 0%Q)
    (fun _ => false) (fun _ => true) (fun n => inject_Z (Z.of_nat n)).
