(** * Specification: Donoho's signals

    D. Donoho and I. Johnstone, Ideal spatial adaptation by wavelet shrinkage, 1994, table 1. *)

Require Import String List Reals.
Import ListNotations.
Local Open Scope R_scope.

Definition sgn (x : R) : R := if Rlt_dec 0 x then 1 else if Rlt_dec x 0 then -1 else 0.

Fixpoint sum (l : list R) : R := match l with [] => 0 | x :: t => x + sum t end.

Definition positions : list R := [0.1; 0.13; 0.15; 0.23; 0.25; 0.4; 0.44; 0.65; 0.76; 0.78; 0.81].
Definition block_heights : list R := [4; -5; 3; -4; 5; -4.2; 2.1; 4.3; -3.1; 2.1; -4.2].
Definition bump_heights : list R := [4; 5; 3; 4; 5; 4.2; 2.1; 4.3; 3.1; 5.1; 4.2].
Definition bump_widths : list R := [0.005; 0.005; 0.006; 0.01; 0.01; 0.03; 0.01; 0.01; 0.005; 0.008; 0.005].

(** The sum of the heights of the jumps on the left; half of the height at a jump. *)
Definition step_at (t p h : R) : R := if Rlt_dec p t then h else if Rlt_dec t p then 0 else h / 2.

Definition donoho (name : string) (t : R) : R :=
  if String.eqb name "bumps" then
    sum (map (fun r => snd (fst r) / (1 + Rabs ((t - fst (fst r)) / snd r)) ^ 4) (combine (combine positions bump_heights) bump_widths))
  else if String.eqb name "blocks" then sum (map (fun r => step_at t (fst r) (snd r)) (combine positions block_heights))
  else if String.eqb name "doppler" then sqrt (t * (1 - t)) * sin (2 * PI * (1 + 0.05) / (t + 0.05))
  else 4 * sin (4 * PI * t) - sgn (t - 0.3) - sgn (0.72 - t).
