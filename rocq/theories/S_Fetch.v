(** * Specification: loading datasets which are downloaded *)

Require Import String List Arith Bool.
Require Import Verif.M_Fetch.
Import ListNotations.

(** The call is about to write a block of file [q]: the file is incomplete. *)
Definition writes_to (q : path) (p : prog) : bool := match p with Write q' _ _ _ => String.eqb q' q | _ => false end.

(** None of these files exists. *)
Definition absent (s : fs) (ps : list path) : Prop := forall p, In p ps -> s p = None.

(** The network serves the published archives. *)
Definition faithful (archives : list (path * content)) (net : path -> content) : Prop :=
  forall a, In a archives -> net (fst a) = snd a.

(** File systems after any number of calls, with any network, each of which was whole or
    interrupted at a point where [allowed] holds. *)
Inductive after_calls (call : bool -> (path -> content) -> prog) (allowed : prog -> Prop) (s0 : fs) : fs -> Prop :=
| after_none : after_calls call allowed s0 s0
| after_call : forall s download_if_missing net n s' p', after_calls call allowed s0 s ->
    steps n s (call download_if_missing net) = (s', p') -> allowed p' -> after_calls call allowed s0 s'.
Definition anywhere (p : prog) : Prop := True.
Definition not_while_writing (q : path) (p : prog) : Prop := writes_to q p = false.
