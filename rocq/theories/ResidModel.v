(** nimble.calculate.residuals (statistic.py:427-481). *)
From Verif Require Import Base NamesModel TableModel MatchModel RidgeModel.
From Coq Require Import QArith.
From Coq Require Import List. Import ListNotations.
Open Scope nat_scope.

Section R.
Variable floatOf : string -> option pval.
(** scipy.linalg.lstsq for one column.  Simplified: several columns at once (statistic.py:478)
    are the columns one after the other. *)
Variable solver : list (list Q) -> list (list Q) -> result (list Q).
(** statistic.py:472-474: the control variables and one feature of ones; nimble.ones has
    no names, so that appending it is always accepted. *)
Definition withOnes (t : table pval) : table pval :=
  appendFts t (mkTable (mkAxis (alen (tp t)) None) (mkAxis 1 None) (repeat [PFloat 1] (alen (tp t)))).
(** column [c] of an array, as a column *)
Definition columnOf (m : list (list Q)) (c : nat) : list (list Q) := map (fun r => [nth c r 0%Q]) m.
(** statistic.py:454-481 (the checks for scipy and for objects that are not nimble's,
    444-452, are left out).  [toPredict - pred] (base.py:5391-5446) is element by element on
    the numbers of toPredict, and gets its names (5440-5441). *)
Definition residuals (toPredict controlVars : table pval) : result (table pval) :=
  if negb (alen (tp toPredict) =? alen (tp controlVars)) then Err InvalidArgumentValueCombination
  else if (alen (tp toPredict) =? 0) || (alen (tf toPredict) =? 0) then Err InvalidArgumentValue
  else if (alen (tp controlVars) =? 0) || (alen (tf controlVars) =? 0) then Err InvalidArgumentValue
  else
    a <- raw floatOf (withOnes controlVars) ;;
    y <- raw floatOf toPredict ;;
    xs <- rmapM (fun c => solver (av a) (columnOf (av y) c)) (seq 0 (aw y)) ;;
    let pred := map (fun r => map (qdot r) xs) (av a) in
    pa <- initAxis (alen (tp toPredict)) (getNamesNoGeneration (tp toPredict)) ;;
    fa <- initAxis (alen (tf toPredict)) (getNamesNoGeneration (tf toPredict)) ;;
    Ok (mkTable pa fa (map (fun i => map (fun j => PFloat (qat (av y) i j - qat pred i j)) (seq 0 (aw y))) (seq 0 (ah y)))).
End R.
