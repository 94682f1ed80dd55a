(** Model of matrix multiplication and matrix powers of List objects (C58).
    Sources: /repo/nimble/core/data/base.py:4860-4869 (matrixMultiply),
    4871-4895 (__matmul__, __rmatmul__, __imatmul__), 4897-4952
    (_genericMatMul_implementation), 4954-5007 (matrixPower); list.py:621-640
    (_matmul__implementation); /repo/nimble/core/create.py:529-549 (identity);
    /repo/nimble/calculate/linalg.py:32-112 (inverse).  Object names and paths are
    not modelled.  The data of both operands is converted to numbers in place, so
    their states are part of the outcome. *)
From Verif Require Import Base NamesModel TableModel TableOps MatchModel BinOpModel.
Open Scope nat_scope.

(** an operand of matrix multiplication: an object or something else *)
Inductive matOther := MBase (t : table pval) | MJunk.

Section MatMul.
Variable floatOf : string -> option pval.
(** Python [x * y] and [x + y] for two elements *)
Variables pyMul pyAdd : pval -> pval -> result pval.
(** scipy.linalg.inv with the exceptions of linalg.py:88-103 *)
Variable scipyInv : list (list pval) -> result (list (list pval)).

(** list.py:634-636: [runningTotal += sPoint[index] * oFeature[index]] *)
Fixpoint runTotal (idx : list nat) (p f : list pval) (total : pval) : result pval :=
  match idx with
  | [] => Ok total
  | i :: rest =>
      match nth_error p i, nth_error f i with
      | Some x, Some y => m <- pyMul x y ;; t <- pyAdd total m ;; runTotal rest p f t
      | _, _ => Err IndexErr
      end
  end.
(** list.py:629-639 *)
Definition matmulImpl (a b : table pval) : result (list (list pval)) :=
  rmapM (fun p => rmapM (fun f => runTotal (seq 0 (alen (tp b))) p f (PInt 0)) (vectors Fts b)) (rows a).
(** base.py:4897-4952 [_genericMatMul_implementation]: self and other after the
    call, and the value.  NotImplemented makes Python raise TypeError. *)
Definition isEmpty (t : table pval) : bool := (alen (tp t) =? 0) || (alen (tf t) =? 0).
Definition named (a : axis) (n : nat) : result axis :=
  if namesCreated a then namedAxis n (Some (getNames a)) else Ok (mkAxis n None).
Definition matMul (refl : bool) (self : table pval) (other : matOther) : table pval * matOther * result (table pval) :=
  match other with
  | MJunk => (self, other, Err TypeErr)
  | MBase b =>
      if isEmpty self then (self, other, Err ImproperObjectAction)
      else if isEmpty b then (self, other, Err ImproperObjectAction)
      else
        match numericRows floatOf false ImproperObjectAction (rows self) with
        | Err e => (self, other, Err e)
        | Ok ms =>
            match numericRows floatOf false InvalidArgumentValue (rows b) with
            | Err e => (withRows self ms, other, Err e)
            | Ok mb =>
                let s1 := withRows self ms in
                let b1 := withRows b mb in
                let caller := if refl then b1 else s1 in
                let callee := if refl then s1 else b1 in
                (s1, MBase b1,
                 if negb (alen (tf caller) =? alen (tp callee)) then Err InvalidArgumentValue
                 else
                   _ <- validateEqualNames (tf caller) (tp callee) ;;
                   vals <- matmulImpl caller callee ;;
                   pa <- named (tp caller) (alen (tp caller)) ;;
                   fa <- named (tf callee) (alen (tf callee)) ;;
                   Ok (mkTable pa fa vals))
            end
        end
  end.
(** base.py:4886-4895 [__imatmul__] *)
Definition imatMul (self : table pval) (other : matOther) : table pval * matOther * result (table pval) :=
  match matMul false self other with
  | (_, o, Ok r) => (r, o, Ok r)
  | x => x
  end.

(** create.py:529-549 [identity] *)
Definition identity (n : nat) : result (table pval) :=
  if n =? 0 then Err InvalidArgumentValue
  else Ok (mkTable (mkAxis n None) (mkAxis n None) (map (fun i => map (fun j => PInt (if i =? j then 1 else 0)) (seq 0 n)) (seq 0 n))).
(** linalg.py:76-112 [inverse] for a square List *)
Definition inverse (t : table pval) : result (table pval) :=
  if alen (tp t) =? 0 then Ok t
  else m <- scipyInv (rows t) ;; Ok (mkTable (mkAxis (alen (tp t)) None) (mkAxis (alen (tf t)) None) m).
(** base.py:4997-5000: [for _ in range(abs(power) - 1)] *)
Fixpoint powerLoop (n : nat) (ret operand : table pval) : result (table pval) :=
  match n with
  | 0 => Ok ret
  | S k =>
      match matMul false ret (MBase operand) with
      | (_, MBase operand', Ok r) => powerLoop k r operand'
      | (_, _, Ok r) => powerLoop k r operand
      | (_, _, Err e) => Err e
      end
  end.
(** setNames on an object that may have names already (base.py:5002-5004); an
    error leaves the object unfinished *)
Definition renamed (a : axis) (names : option (list (option string))) : result axis :=
  match setNames a (namesArg names) ONone with (a', Ok _) => Ok a' | (_, Err e) => Err e end.
(** base.py:4954-5007 [matrixPower]; self is not changed *)
Definition matrixPower (self : table pval) (power : Z) : result (table pval) :=
  if negb (alen (tp self) =? alen (tf self)) then Err ImproperObjectAction
  else
    operand <- (if (power =? 0)%Z then identity (alen (tp self))
                else if (0 <? power)%Z then Ok (mkTable (mkAxis (alen (tp self)) None) (mkAxis (alen (tf self)) None) (rows self))
                else inverse self) ;;
    ret <- powerLoop (Z.to_nat (Z.abs power - 1)) operand operand ;;
    pa <- renamed (tp ret) (getNamesNoGeneration (tp self)) ;;
    fa <- renamed (tf ret) (getNamesNoGeneration (tf self)) ;;
    Ok (mkTable pa fa (rows ret)).
End MatMul.
