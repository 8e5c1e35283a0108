(** * Model of the artificial signals (datasets/signals.py) *)

Require Import String List Arith.
Require Import Verif.Num Verif.Base.
Import ListNotations.
Local Notation length := List.length.

(** numpy's [sin], [sqrt] and [pi]. *)
Record math (A : arith) : Type := mkMath { m_sin : num A -> num A; m_sqrt : num A -> num A; m_pi : num A }.
Arguments m_sin {_}. Arguments m_sqrt {_}. Arguments m_pi {_}.

Section Signals.
Context {A : arith} (M : math A).

(** A decimal literal [n / d], and a negative one. *)
Definition dec (n d : nat) : num A := adiv (aofnat n) (aofnat d).
Definition ndec (n d : nat) : num A := aopp (dec n d).

(** numpy's [sign] (0 for 0, NaN for NaN) and [abs]. *)
Definition sign (x : num A) : num A := if altb a0 x then a1 else if altb x a0 then aopp a1 else x.
Definition absval (x : num A) : num A := if altb x a0 then aopp x else x.

(** signals.py:17-34. *)
Definition heavisine (x : num A) : num A :=
  asub (asub (amul (aofnat 4) (m_sin M (amul (amul (aofnat 4) (m_pi M)) x))) (sign (asub x (dec 3 10)))) (sign (asub (dec 72 100) x)).

(** signals.py:38-63. A row: position, height, width. The power is a product. *)
Definition bumps_table : list (num A * num A * num A) :=
  [(dec 1 10, aofnat 4, dec 5 1000); (dec 13 100, aofnat 5, dec 5 1000); (dec 15 100, aofnat 3, dec 6 1000);
   (dec 23 100, aofnat 4, dec 1 100); (dec 25 100, aofnat 5, dec 1 100); (dec 4 10, dec 42 10, dec 3 100);
   (dec 44 100, dec 21 10, dec 1 100); (dec 65 100, dec 43 10, dec 1 100); (dec 76 100, dec 31 10, dec 5 1000);
   (dec 78 100, dec 51 10, dec 8 1000); (dec 81 100, dec 42 10, dec 5 1000)].
Definition fourth (x : num A) : num A := amul (amul x x) (amul x x).
Definition bumps (x : num A) : num A :=
  fold_left (fun y r => let '(pos, hgt, wth) := r in aadd y (adiv hgt (fourth (aadd a1 (adiv (absval (asub x pos)) wth))))) bumps_table a0.

(** signals.py:67-89. A row: position, height. *)
Definition blocks_table : list (num A * num A) :=
  [(dec 1 10, aofnat 4); (dec 13 100, aopp (aofnat 5)); (dec 15 100, aofnat 3); (dec 23 100, aopp (aofnat 4)); (dec 25 100, aofnat 5);
   (dec 4 10, ndec 42 10); (dec 44 100, dec 21 10); (dec 65 100, dec 43 10); (dec 76 100, ndec 31 10); (dec 78 100, dec 21 10); (dec 81 100, ndec 42 10)].
Definition blocks (x : num A) : num A :=
  fold_left (fun y r => aadd y (amul (aadd a1 (sign (asub x (fst r)))) (adiv (snd r) (aofnat 2)))) blocks_table (aofnat 2).

(** signals.py:93-110. *)
Definition doppler (x : num A) : num A :=
  aadd (amul (m_sqrt M (amul x (asub a1 x))) (m_sin M (adiv (amul (amul (aofnat 2) (m_pi M)) (dec 105 100)) (aadd x (dec 5 100))))) ahalf.

(** signals.py:133-142: any other name is heavisine. *)
Definition raw_signal (signal : string) (x : num A) : num A :=
  if String.eqb signal "heavisine" then heavisine x
  else if String.eqb signal "bumps" then bumps x
  else if String.eqb signal "blocks" then blocks x
  else if String.eqb signal "doppler" then doppler x
  else heavisine x.

(** [y.min()] and [y.max()]: ValueError for an empty array. For NaN see the comparisons of the
    arithmetic (numpy gives NaN; here a NaN which is not the first value is skipped). *)
Definition minimum (l : list (num A)) : res (num A) :=
  match l with [] => Err ValueErr | y :: t => Ok (fold_left (fun m y => if altb y m then y else m) t y) end.
Definition maximum (l : list (num A)) : res (num A) :=
  match l with [] => Err ValueErr | y :: t => Ok (fold_left (fun m y => if altb m y then y else m) t y) end.

(** signals.py:143-145. *)
Definition rescale (y : list (num A)) : res (list (num A)) :=
  let* y_min := minimum y in let* y_max := maximum y in Ok (map (fun v => adiv (asub v y_min) (asub y_max y_min)) y).
(** signals.py:113-145. *)
Definition get_signal (x : list (num A)) (signal : string) : res (list (num A)) := rescale (map (raw_signal signal) x).

(** [np.sort]. *)
Fixpoint insert_num (x : num A) (l : list (num A)) : list (num A) :=
  match l with [] => [x] | y :: t => if altb y x then y :: insert_num x t else x :: l end.
Fixpoint sort_num (l : list (num A)) : list (num A) := match l with [] => [] | x :: t => insert_num x (sort_num t) end.

(** numpy's global generator. *)
Record generator : Type := mkGenerator {
  g_state : Type;
  g_seed : nat -> g_state;
  g_uniform : nat -> g_state -> list (num A) * g_state;
  g_randn : nat -> g_state -> list (num A) * g_state
}.

(** signals.py:148-178; the generator's state after the call is returned too. *)
Definition make_regression (G : generator) (n_samples : nat) (signal : string) (noise : num A) (random_state : option nat) (g : g_state G)
  : res (list (list (num A)) * list (num A)) * g_state G :=
  let g := match random_state with Some seed => g_seed G seed | None => g end in
  let (u, g1) := g_uniform G n_samples g in
  let X := sort_num u in
  match get_signal X signal with
  | Err e => (Err e, g1)
  | Ok y =>
      let (e, g2) := g_randn G n_samples g1 in
      (Ok (map (fun x => [x]) X, map (fun p => aadd (fst p) (amul noise (snd p))) (combine y e)), g2)
  end.
End Signals.
