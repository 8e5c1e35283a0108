(** * Model of wildwood/_impurity.py

    Divisions of scalars raise ZeroDivisionError in numba code ([divM]). *)

Require Import List Arith.
Require Import Verif.Base Verif.Num.
Import ListNotations.
Local Open Scope res_scope.

Section Impurity.
Context {A : arith}.
Notation T := (num A).

(** _impurity.py:22-57, [information_gain_proxy]. *)
Definition information_gain_proxy (impurity_left impurity_right w_left w_right : T) : T :=
  asub (amul (aopp w_left) impurity_left) (amul w_right impurity_right).

(** _impurity.py:67-119, [information_gain]. *)
Definition information_gain (w w_parent w_left w_right imp_parent imp_left imp_right : T) : res T :=
  let* r := divM w_parent w in
  let* rr := divM w_right w_parent in
  let* rl := divM w_left w_parent in
  Ok (amul r (asub (asub imp_parent (amul rr imp_right)) (amul rl imp_left))).

(** The loop [y_sum_sq += y_sum[k] * y_sum[k]] of _impurity.py:157-158. *)
Definition sum_squares (n_classes : nat) (y_sum : list T) : res T :=
  foldM (fun s k => let* y := get y_sum k in Ok (aadd s (amul y y))) (seq 0 n_classes) a0.

(** _impurity.py:135-159, [gini_node]. *)
Definition gini_node (n_classes : nat) (w : T) (y_sum : list T) : res T :=
  let* y_sum_sq := sum_squares n_classes y_sum in
  let* q := divM y_sum_sq (amul w w) in
  Ok (asub a1 q).

(** _impurity.py:177-216, [gini_childs]: the two accumulators of the common loop are
    independent, each is run on its own here. *)
Definition gini_childs (n_classes : nat) (wl wr : T) (yl yr : list T) : res (T * T) :=
  let* sl := sum_squares n_classes yl in
  let* sr := sum_squares n_classes yr in
  let* ql := divM sl (amul wl wl) in
  let* qr := divM sr (amul wr wr) in
  Ok (asub a1 ql, asub a1 qr).

(** One iteration of the loop of _impurity.py:252-257. *)
Definition entropy_term (w : T) (e : T) (y : T) : res T :=
  if altb a0 y then let* p := divM y w in Ok (asub e (amul p (aln p))) else Ok e.

(** _impurity.py:232-258, [entropy_node]. *)
Definition entropy_node (n_classes : nat) (w : T) (y_sum : list T) : res T :=
  foldM (fun e k => let* y := get y_sum k in entropy_term w e y) (seq 0 n_classes) a0.

(** _impurity.py:274-315, [entropy_childs]: one loop, two accumulators. *)
Definition entropy_childs (n_classes : nat) (wl wr : T) (yl yr : list T) : res (T * T) :=
  foldM (fun '(el, er) k =>
           let* y := get yl k in
           let* z := get yr k in
           let* el' := entropy_term wl el y in
           let* er' := entropy_term wr er z in
           Ok (el', er')) (seq 0 n_classes) (a0, a0).

(** _impurity.py:330-349, [mse_node]. *)
Definition mse_node (w y_sum y_sq_sum : T) : res T :=
  let* q := divM y_sq_sum w in
  let* m := divM y_sum w in
  Ok (asub q (amul m m)).

(** _impurity.py:359-399, [mse_childs]. *)
Definition mse_childs (wl wr yl yr ysql ysqr : T) : res (T * T) :=
  let* l := mse_node wl yl ysql in
  let* r := mse_node wr yr ysqr in
  Ok (l, r).

End Impurity.
