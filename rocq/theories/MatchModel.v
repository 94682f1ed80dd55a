(** Model of nimble.match (C30).
    Sources: /repo/nimble/match/match.py:24-476 (elementwise functions),
    478-574 (anyValues, allValues), 1605-1629 (anyAllValuesBackend), 1631-1692
    (_convertMatchToFunction); core/data/base.py:452-459 (__iter__). *)
From Verif Require Import Base NamesModel TableModel TableOps.
From Coq Require Import QArith.
Open Scope nat_scope.

(** A Python element: numpy numbers, complex numbers and datetimes are not
    modelled; a finite float is an exact rational. *)
Inductive pval :=
| PBool (b : bool) | PInt (z : Z) | PFloat (q : Q) | PPosInf | PNegInf | PNaN | PStr (s : string) | PNone.

(** the real number (or infinity) a value stands for in comparisons *)
Inductive ext := NegInf | Fin (q : Q) | PosInf.
Definition numOf (v : pval) : option ext :=
  match v with
  | PBool b => Some (Fin (if b then 1 else 0)%Q)
  | PInt z => Some (Fin (inject_Z z))
  | PFloat q => Some (Fin q)
  | PPosInf => Some PosInf
  | PNegInf => Some NegInf
  | _ => None
  end.
Definition extEqb (a b : ext) : bool :=
  match a, b with
  | Fin p, Fin q => Qeq_bool p q
  | PosInf, PosInf | NegInf, NegInf => true
  | _, _ => false
  end.
Definition extLtb (a b : ext) : bool :=
  match a, b with
  | Fin p, Fin q => negb (Qle_bool q p)
  | NegInf, NegInf => false
  | NegInf, _ => true
  | _, NegInf => false
  | PosInf, _ => false
  | _, PosInf => true
  end.
Definition numberLike (v : pval) : bool :=
  match v with PStr _ | PNone => false | _ => true end.
(** Python [==] (never raises for these values; NaN differs from everything) *)
Definition pyEq (a b : pval) : bool :=
  match numOf a, numOf b with
  | Some x, Some y => extEqb x y
  | None, None => match a, b with PStr s, PStr s' => String.eqb s s' | PNone, PNone => true | _, _ => false end
  | _, _ => false
  end.
Definition pyNe (a b : pval) : bool := negb (pyEq a b).
(** Python [<]: between two strings by code point, between numbers by value,
    otherwise a TypeError *)
Definition pyLt (a b : pval) : result bool :=
  match a, b with
  | PStr s, PStr s' => Ok (String.ltb s s')
  | _, _ => if numberLike a && numberLike b
            then Ok (match numOf a, numOf b with Some x, Some y => extLtb x y | _, _ => false end)
            else Err TypeErr
  end.
Definition pyLe (a b : pval) : result bool :=
  match pyLt a b with Ok x => Ok (x || pyEq a b) | Err e => Err e end.

(** *** elementwise functions *)
(** match.py:54 *)
Definition missing (v : pval) : bool := match v with PNone => true | _ => pyNe v v end.
(** match.py:86 *)
Definition nonMissing (v : pval) : bool := negb (missing v).
(** match.py:354 *)
Definition boolean (v : pval) : bool := match v with PBool _ => true | _ => false end.
(** match.py:120-121; isinstance(value, (int, float, ...)): bool is an int *)
Definition numeric (v : pval) : bool :=
  match v with PBool _ | PInt _ | PFloat _ | PPosInf | PNegInf | PNaN => true | _ => false end && negb (boolean v).
(** match.py:156 *)
Definition nonNumeric (v : pval) : bool := negb (numeric v).
(** match.py:188, 220 *)
Definition zero (v : pval) : bool := pyEq v (PInt 0).
Definition nonZero (v : pval) : bool := pyNe v (PInt 0).
(** match.py:252-255, 287-290: a TypeError means False *)
Definition isPositive (v : pval) : bool := match pyLt (PInt 0) v with Ok b => b | Err _ => false end.
Definition isNegative (v : pval) : bool := match pyLt v (PInt 0) with Ok b => b | Err _ => false end.
(** match.py:320-323: numpy.isinf, a TypeError means False *)
Definition infinity (v : pval) : bool := match v with PPosInf | PNegInf => true | _ => false end.
(** match.py:383: bool is a subclass of int *)
Definition integer (v : pval) : bool := match v with PInt _ | PBool _ => true | _ => false end.
(** match.py:412 *)
Definition floating (v : pval) : bool := match v with PFloat _ | PPosInf | PNegInf | PNaN => true | _ => false end.
(** match.py:444, 476 *)
Definition true_ (v : pval) : bool := boolean v && match v with PBool true => true | _ => false end.
Definition false_ (v : pval) : bool := boolean v && match v with PBool false => true | _ => false end.

(** *** any / all (match.py:1605-1629) *)
Inductive quantity := QAny | QAll.
Definition quant (q : quantity) (l : list bool) : bool :=
  match q with QAny => existsb (fun b => b) l | QAll => forallb (fun b => b) l end.
(** [quantity([match(val) for val in ...])]: a match function may raise *)
Definition overValues {V} (q : quantity) (m : V -> result bool) (l : list V) : result bool :=
  rmap (quant q) (rmapM m l).
(** base.py:452-459 [__iter__] *)
Definition oneDim {V} (t : table V) : bool :=
  (alen (tp t) <=? 1) || (alen (tf t) <=? 1).
(** the loop over features of 1618-1629 *)
Fixpoint featureLoop {V} (q : quantity) (m : V -> result bool) (fs : list (list V)) : result bool :=
  match fs with
  | [] => Ok (match q with QAny => false | QAll => true end)
  | f :: r =>
      match overValues q m f with
      | Err e => Err e
      | Ok b => match q with
                | QAny => if b then Ok true else featureLoop q m r
                | QAll => if b then featureLoop q m r else Ok false
                end
      end
  end.
(** ImproperObjectAction (raised by [__iter__]) is a TypeError, and so may be
    what the match function raises *)
Definition anyAllValues {V} (q : quantity) (m : V -> result bool) (t : table V) : result bool :=
  match (if oneDim t then overValues q m (List.concat (rows t)) else Err ImproperObjectAction) with
  | Ok b => Ok b
  | Err TypeErr | Err ImproperObjectAction => featureLoop q m (vectors Fts t)
  | Err e => Err e
  end.

(** *** _convertMatchToFunction (match.py:1679-1692) *)
Inductive matchArg := AFun (f : pval -> result bool) | AValues (l : list pval) | AValue (v : pval).
(** [x in list]: identity or equality *)
Definition identical (a b : pval) : bool :=
  match a, b with PNaN, PNaN => false | _, _ => pyEq a b end.
(** simplification: two NaN objects are taken as not identical; where a list
    holds a NaN the function tests [x != x] first, so this changes nothing *)
Definition inList (x : pval) (l : list pval) : bool := existsb (fun y => identical x y || pyEq x y) l.
Definition convertMatch (a : matchArg) : pval -> result bool :=
  match a with
  | AFun f => f
  | AValues l =>
      if forallb (fun v => pyEq v v) l then fun x => Ok (inList x l) else fun x => Ok (pyNe x x || inList x l)
  | AValue v =>
      match v with
      | PNone => fun x => Ok (match x with PNone => true | _ => false end)
      | _ => if pyNe v v then fun x => Ok (pyNe x x) else fun x => Ok (pyEq x v)
      end
  end.
