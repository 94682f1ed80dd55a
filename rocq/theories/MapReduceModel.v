(** Model of the object mapReduce returns (C50).
    Source: /repo/nimble/core/data/axis.py:699-755 [_mapReduce] for objects of type
    List: the pairs are handed to nimble.data (RawModel.v), whose names arguments are
    left 'automatic'. *)
From Verif Require Import Base NamesModel TableModel TableOps MatchModel CsvModel RawModel.
Open Scope nat_scope.

Section Object.
Context {K : Type} {EK : EqDec K}.
Variable W : Type.
Variable T : Type.
Context {ET : EqDec T}.
Variable strOf : pval -> string.
Variable conv : T -> pval -> result pval.
Variable junk : nat -> nat -> pval.
(** the texts and values nimble.data treats as missing *)
Variable treat : option (list pval).
(** axis.py:724-753; the reducer returns a key and a value, or None *)
Definition mapReduceObject (mapper : list pval -> list (K * W)) (reducer : K -> list W -> option (pval * pval)) (sd : side) (t : table pval)
  : result (table pval) :=
  l <- mapReduce mapper reducer sd t ;;
  if alen (ax sd t) =? 0 then Ok (mkTable (mkAxis 0 None) (mkAxis 0 None) [])
  else
    let src := match l with [] => RFlat [] | _ => RRows (map (fun p => [fst p; snd p]) l) end in
    rmap fst (initData strOf T ET conv junk src NmAuto NmAuto CNone None None treat PNaN true).
End Object.
