(** * Forests with rational numbers, which can be run *)

Require Import String Bool List Arith Lia NArith ZArith QArith.
Require Import Verif.Base Verif.Num Verif.M_Bitarray Verif.P_Bitarray Verif.M_Utils Verif.M_Context Verif.M_Split
  Verif.M_Tree Verif.M_Grow Verif.M_Object Verif.M_Forest Verif.T_Bootstrap Verif.Ex_Data Verif.Ex_Valid Verif.Ex_R Verif.T_Setters Verif.Ex_Forest.
Import ListNotations.
Local Open Scope list_scope.
Local Open Scope nat_scope.

Definition menv_Q : menv env_Q :=
  @mkMenv QA env_Q lcg_randint (fun _ n => map N.of_nat (seq 1 n)) N.to_nat 1000
    (fun n => Z.of_nat (Nat.sqrt n)) (fun n => Z.of_nat (Nat.log2 n)) (fun _ _ => Ok 1%Z).

(** [n] trees per class, without aggregation, [mf] features. *)
Definition exQ (n : Z) (mf : maxfeat QA) (m : multi) (balanced agg : bool) : clf_forest QA nat ex_encoding :=
  @mkF QA nat binned ex_encoding _ _ false n 1%Q agg None 2 1 256 mf 1 (Some (Some 7%Z)) false "gini" "log" (Some (1 # 2)%Q) balanced m BinaryMod [] [] None None 0.

(** The samples of [ex_fb]. *)
Definition X2 : binned.
Proof.
  assert (H : 1 <= fb_n_features ex_fb) by (vm_compute; lia).
  exact (mkBinned ex_fb (proj1 ex_fb_packed) ex_fb_allocated H).
Defined.

Definition okQ {P Y} (r : mresult QA nat ex_encoding P Y * list (num QA)) : bool := match snd (fst r) with None => true | Some _ => false end.
Definition objQ {P Y} (r : mresult QA nat ex_encoding P Y * list (num QA)) : fobj QA nat ex_encoding P Y := fst (fst r).


(** [small] for rational numbers. *)
Definition smallQ (x : num QA) : bool := Qle_bool x 0.
Definition onesQ : list (num QA) := repeat (1%Q : num QA) 8.
