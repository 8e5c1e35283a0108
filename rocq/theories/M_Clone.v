(** * Copies of forests by their parameters

    The forests inherit [get_params] and [set_params] from sklearn's BaseEstimator
    (forest.py:177, "class ForestBase(BaseEstimator)"), and sklearn's [clone], used by its
    model selection, calls them. These functions of sklearn are modelled from their
    documentation. The values of the parameters are immutable here. The parameters given to
    the Encoder (forest.py:223-227) are stored as they come and are part of the encoding. *)

Require Import String Bool List Arith NArith ZArith.
Require Import Verif.Base Verif.Num Verif.M_Utils Verif.M_Tree Verif.M_Grow Verif.M_Object Verif.M_Forest.
Import ListNotations.
Local Open Scope list_scope.

Section Clone.
Context {A : arith} (E : env A) {L D : Type} {EC : encoding D}.

(** BaseEstimator.get_params: [getattr] for each argument of the constructor
    (forest.py:1084-1108 and 1587-1607). A missing attribute is an AttributeError. *)
Definition get_params {P Y : Type} (names : list param) (o : fobj A L EC P Y) : res (list (param * pyval A)) :=
  mapM (fun p => match getattr p o with Some v => Ok (p, v) | None => Err AttrErr end) names.

(** BaseEstimator.set_params: [setattr] for each given parameter, until one of them raises. *)
Fixpoint set_params {P Y : Type} (set : param -> pyval A -> fobj A L EC P Y -> mresult A L EC P Y)
  (l : list (param * pyval A)) (o : fobj A L EC P Y) : mresult A L EC P Y :=
  match l with
  | [] => (o, None)
  | (p, v) :: l' => match set p v o with
                    | (o', None) => set_params set l' o'
                    | (o', Some e) => (o', Some e)
                    end
  end.

(** sklearn.base.clone: the constructor called with the parameters; the constructor is
    forest.py:1084-1136 and 1587-1626 (see [new_clf] and [new_reg]). *)
Definition clone_clf (o : clf_forest A L EC) : res (clf_forest A L EC) :=
  let* ps := get_params clf_params o in set_all (setattr_clf E) ps blank.
Definition clone_reg (o : reg_forest A L EC) : res (reg_forest A L EC) :=
  let* ps := get_params base_params o in set_all (setattr_reg) ps blank.

End Clone.
