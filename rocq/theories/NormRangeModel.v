(** nimble.calculate.rangeNormalize given to features.normalize. *)
From Verif Require Import Base TableModel CalcModel NormModel.
From Coq Require Import QArith.
Open Scope nat_scope.

(** [functools.partial(rangeNormalize, start=start, end=fin)] (normalize.py:114-140; with
    0 and 1 it is range0to1Normalize, 143-174) as the function of two features of
    features.normalize.  The minimum of a feature without elements cannot be taken (the
    subtraction of None, a TypeError).  Simplified: exact rationals for floats, no missing
    value. *)
Definition rangeBoth (start fin : Q) : fun2 Q :=
  fun v1 v2 => match rangeNormalize v1 v2 start fin with Some p => Ok p | None => Err TypeErr end.
