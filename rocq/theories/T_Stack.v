(** * C30: the stack of pending nodes is a stack

    Whatever the history of operations and the content of uninitialised memory, the
    resizable array behaves as a last-in first-out list: nothing is lost, duplicated or
    reordered when it grows. *)

Require Import List Arith Lia.
Require Import Verif.Base Verif.Num Verif.M_Utils Verif.M_Grow Verif.P_Utils Verif.P_Stack.
Import ListNotations.
Local Open Scope res_scope.

(** ** Specification: an ideal stack *)

Inductive op (R : Type) : Type := Push (r : R) | Pop | Ask.
Arguments Push {R}. Arguments Pop {R}. Arguments Ask {R}.

(** What an operation answers: nothing, the popped record, whether there are records. *)
Inductive answer (R : Type) : Type := Done | Popped (r : R) | Has (b : bool).
Arguments Done {R}. Arguments Popped {R}. Arguments Has {R}.

(** Answers of an ideal stack [l]; popping an empty stack is an error. *)
Fixpoint ideal {R} (l : list R) (ops : list (op R)) : res (list (answer R)) :=
  match ops with
  | [] => Ok []
  | Push r :: t => let* a := ideal (r :: l) t in Ok (Done :: a)
  | Ask :: t => let* a := ideal l t in Ok (Has (negb (length l =? 0)) :: a)
  | Pop :: t => match l with
                | [] => Err Overflow
                | r :: l' => let* a := ideal l' t in Ok (Popped r :: a)
                end
  end.

(** Answers of the code. *)
Fixpoint actual {R} (junk : nat -> R) (rs : records R) (ops : list (op R)) : res (list (answer R)) :=
  match ops with
  | [] => Ok []
  | Push r :: t => let* rs' := push_record junk rs r in let* a := actual junk rs' t in Ok (Done :: a)
  | Ask :: t => let* a := actual junk rs t in Ok (Has (has_records rs) :: a)
  | Pop :: t => let* ' (r, rs') := pop_node_record rs in
                let* a := actual junk rs' t in Ok (Popped r :: a)
  end.

Theorem C30_stack_is_lifo : forall (R : Type) (junk : nat -> R) (capacity : nat) (ops : list (op R)),
  1 <= capacity ->
  actual junk (new_records junk capacity) ops = ideal [] ops.
Proof.
  intros R junk capacity ops Hc.
  assert (H : forall ops rs l, stack_is rs l -> actual junk rs ops = ideal l ops).
  { clear ops. induction ops as [|o ops IH]; intros rs l Hs; [reflexivity|].
    destruct o as [r| |]; simpl.
    - destruct (push_record_is junk rs l r Hs) as [rs' [Hp Hs']].
      rewrite Hp. simpl. rewrite (IH rs' (r :: l) Hs'). auto.
    - destruct l as [|r l].
      + rewrite pop_record_empty by auto. auto.
      + destruct (pop_record_is rs l r Hs) as [rs' [Hp Hs']]. rewrite Hp. simpl.
        rewrite (IH rs' l Hs'). auto.
    - rewrite (has_records_is rs l Hs), (IH rs l Hs). destruct l; auto. }
  apply H. apply new_records_is; auto.
Qed.
Print Assumptions C30_stack_is_lifo.

(** A zero initial capacity would never grow: the constant of the code is 10. *)
Theorem C30_zero_capacity_refuted :
  exists (ops : list (op nat)), actual (fun i => i) (new_records (fun i => i) 0) ops <> ideal [] ops.
Proof. exists [Push 3]. discriminate. Qed.
Print Assumptions C30_zero_capacity_refuted.

(** A history that grows the stack twice from the capacity 1. *)
Example C30_example : 1 <= initial_stack_size /\
  actual (fun i => i) (new_records (fun i => i) 1)
    [Push 5; Push 6; Push 7; Pop; Ask; Push 8; Pop; Pop; Pop; Ask] =
  Ok [Done; Done; Done; Popped 7; Has true; Done; Popped 8; Popped 6; Popped 5; Has false].
Proof. split; [unfold initial_stack_size; lia | reflexivity]. Qed.
