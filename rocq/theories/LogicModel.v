(** Model of the logical operators between objects (&, |, ^) and of ~obj, for
    List objects (C60).
    Sources: /repo/nimble/core/data/base.py:5460-5515 (__and__, __or__, __xor__,
    __invert__, _genericLogicalBinary, _logicalValidationAndConversion);
    match.py:539-574 (allValues).  The operands go through matchingElements
    (ElementsModel.v) and _genericBinaryOperations (BinOpModel.v). *)
From Verif Require Import Base NamesModel TableModel TableOps MatchModel ElementsModel BinOpModel StretchModel.
From Coq Require Import QArith.
Open Scope nat_scope.

(** Python [bool(v)] *)
Definition pyTruth (v : pval) : bool :=
  match v with
  | PBool b => b
  | PInt z => negb (z =? 0)%Z
  | PFloat q => negb (Qeq_bool q 0)
  | PStr s => negb (String.eqb s "")
  | PNone => false
  | PPosInf | PNegInf | PNaN => true
  end.

Section Logic.
(** [int(s)], [float(s)], [str(v)] of numpy.vectorize (ElementsModel.v) *)
Variables intOf floatOf : string -> option pval.
Variable strOf : pval -> string.

(** base.py:5500: [match.allValues([True, False, 0, 1])] of the object *)
Definition onlyTruths (t : table pval) : result bool :=
  anyAllValues QAll (convertMatch (AValues [PBool true; PBool false; PInt 0; PInt 1])) t.
(** [obj.points.setNames(names)] with a list or None, on an axis that may
    already have names (base.py:5479-5481, 5507-5510) *)
Definition setTo (a : axis) (names : option (list (option string))) : result axis :=
  match setNames a (namesArg names) ONone with (a', Ok _) => Ok a' | (_, Err e) => Err e end.
(** matchingElements with a function of one argument, then the names of [src] *)
Definition matchAndName (f : pval -> bool) (t src : table pval) : result (table pval) :=
  r <- matchingElements intOf floatOf strOf t (F1 (fun v => Ok (PBool (f v)))) None None ;;
  pa <- setTo (tp r) (getNamesNoGeneration (tp src)) ;;
  fa <- setTo (tf r) (getNamesNoGeneration (tf src)) ;;
  Ok (mkTable pa fa (rows r)).
(** base.py:5498-5515 [_logicalValidationAndConversion]; a List never reports
    boolean data (5495-5496) *)
Definition logicalConversion (t : table pval) : result (table pval) :=
  valid <- onlyTruths t ;;
  if (valid : bool) then matchAndName pyTruth t t else Err ImproperObjectAction.
(** base.py:5483-5493 [_genericLogicalBinary], other no stretched object (that
    case is [stretchLogical], StretchModel.v).  _genericBinaryOperations reads
    its operator name for 'pow', 'div', 'mod' and the prefix '__i' only: it is
    [binaryOp] with an operator that has none of them, whose elementwise
    operation is the logical one, on arrays of bools. *)
Definition logicalBinary (o : logic) (self : table pval) (other : operand) : result (table pval) :=
  match other with
  | OBase b =>
      _ <- sizeValidation self b ;;
      l <- logicalConversion self ;;
      r <- logicalConversion b ;;
      snd (binaryOp floatOf (fun _ _ _ _ x y => Ok (PBool (logicOp o (pyTruth x) (pyTruth y)))) Plain Add l (OBase r))
  | _ => Err InvalidArgumentType
  end.
(** base.py:5474-5481 [__invert__] *)
Definition invertObj (self : table pval) : result (table pval) :=
  b <- logicalConversion self ;; matchAndName (fun v => negb (pyTruth v)) b self.
End Logic.
