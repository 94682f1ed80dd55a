(** Model of the elementwise arithmetic operators between objects (C17) and of
    abs(obj) (C18), for List objects.
    Sources: /repo/nimble/core/data/base.py:5191-5214 (__abs__), 5216-5256
    (validation), 5272-5284, 5286-5366 (names), 5368-5390, 5391-5445
    (_genericBinaryOperations), 5447-5458, 5946-5985 (_validateEqualNames);
    _dataHelpers.py:84-125, 127-147, 831-864; list.py:600-645, 777-781;
    /repo/nimble/_utility.py:155-191 (numpy2DArray).  Elements are [pval]
    (MatchModel.v); object names and paths are not modelled. *)
From Verif Require Import Base NamesModel TableModel TableOps MatchModel ElementsModel.
From Coq Require Import QArith Qabs.
Open Scope nat_scope.

(** *** name helpers *)
(** _dataHelpers.py:84-104 [mergeNames] *)
Definition mergeNames (baseNames otherNames : option (list (option string))) : option (list (option string)) :=
  match otherNames, baseNames with
  | None, _ => baseNames
  | _, None => otherNames
  | Some r, Some l =>
      Some (map (fun p : option string * option string => match fst p, snd p with None, Some s => Some s | b, _ => b end) (combine l r))
  end.
(** _dataHelpers.py:845-857 [checkFromLeftKeys]: whether it records anything;
    [rightNames[index]] may be out of range *)
Fixpoint checkLeft (index : nat) (left right : list (option string)) : result bool :=
  match left with
  | [] => Ok false
  | lname :: rest =>
      match nth_error right index with
      | None => Err IndexErr
      | Some rname =>
          let found := match lname, rname with
                       | Some l, Some r => negb (String.eqb l r)
                       | Some l, None => mem (Some l) right
                       | None, _ => false
                       end in
          more <- checkLeft (S index) rest right ;; Ok (found || more)
      end
  end.
(** _dataHelpers.py:831-864 [inconsistentNames], whether any is found *)
Definition inconsistentNames (l r : list (option string)) : result bool :=
  x <- checkLeft 0 l r ;; y <- checkLeft 0 r l ;; Ok (x || y).
(** base.py:5946-5985 [_validateEqualNames]; [la], [ra] are the axes compared;
    the test of [rnamesCreated] reads self as well, so that names are compared
    only when the left axis has some *)
Definition validateEqualNames (la ra : axis) : result unit :=
  match getNamesNoGeneration la, getNamesNoGeneration ra with
  | Some l, Some r => b <- inconsistentNames l r ;; if (b : bool) then Err InvalidArgumentValue else Ok tt
  | _, _ => Ok tt
  end.
(** base.py:5338-5366 [_genericBinary_axisNamesDisjoint] *)
Definition nonDefault (l : list (option string)) : list string :=
  flat_map (fun o : option string => match o with Some s => [s] | None => [] end) l.
Definition axisNamesDisjoint (la ra : axis) : result unit :=
  if existsb (fun s => mem s (nonDefault (getNames ra))) (nonDefault (getNames la)) then Err InvalidArgumentValue else Ok tt.

(** *** operators *)
Inductive arith := Mul | Add | Sub | Truediv | Floordiv | Mod | Pow.
Inductive form := Plain | Reflected | InPlace.
(** 'div' in opName or 'mod' in opName; 'pow' in opName; startswith('__i'), startswith('__r') *)
Definition isDivMod (o : arith) : bool := match o with Truediv | Floordiv | Mod => true | _ => false end.
Definition isPow (o : arith) : bool := match o with Pow => true | _ => false end.
Definition isInPlace (f : form) : bool := match f with InPlace => true | _ => false end.
Definition isReflected (f : form) : bool := match f with Reflected => true | _ => false end.
(** the other operand: an object, a scalar, or something else *)
Inductive operand := OBase (t : table pval) | OScalar (v : pval) | OJunk.

(** numpy element types *)
Inductive dtype := DBool | DInt | DFloat | DObj.
Definition isB (v : pval) : bool := match v with PBool _ => true | _ => false end.
Definition isI (v : pval) : bool := match v with PInt _ => true | _ => false end.
Definition isF (v : pval) : bool := match v with PFloat _ | PPosInf | PNegInf | PNaN => true | _ => false end.
(** _utility.py:175-186: one Python type, or numbers without bools *)
Definition dtypeOf (m : list (list pval)) : dtype :=
  let l := List.concat m in
  if forallb isB l then DBool
  else if forallb isI l then DInt
  else if forallb (fun v => isI v || isF v) l then DFloat
  else DObj.
(** copy('numpyarray') of a List (list.py:287-291, 777-781) *)
Definition numpyRows (m : list (list pval)) : list (list pval) :=
  match dtypeOf m with DFloat => map (map storeFloat) m | _ => m end.

Section Binary.
(** [float(s)] for a string *)
Variable floatOf : string -> option pval.
(** one elementwise numpy operation: operator, whether reflected, the element
    types of the two arrays (None for a Python scalar), the two elements *)
Variable npArith : arith -> bool -> dtype -> option dtype -> pval -> pval -> result pval.

(** list.py:642-653: [type(val) in usableTypes], else [float(val)] *)
Definition toNumeric (pow : bool) (v : pval) : result pval :=
  match v with
  | PBool b => Ok (if pow then PFloat (if b then 1 else 0)%Q else v)
  | PInt z => Ok (if pow then PFloat (inject_Z z) else v)
  | PStr s => match floatOf s with Some x => Ok x | None => Err ValueErr end
  | PNone => Err TypeErr
  | _ => Ok v
  end.
(** base.py:5368-5390, with the callers' [except ImproperObjectAction:
    _numericValidation()] (5402-5405, 5322-5325; 5216-5230; _dataHelpers.py:127-147):
    [e] is the exception for non-numeric data on that side *)
Definition looksNumeric (v : pval) : bool := match v with PStr _ | PNone => false | _ => true end.
Definition numericRows (pow : bool) (e : exc) (m : list (list pval)) : result (list (list pval)) :=
  match rmapM (rmapM (toNumeric pow)) m with
  | Ok m' => Ok m'
  | Err _ => if forallb (forallb looksNumeric) m then Ok m else Err e
  end.
Definition withRows (t : table pval) (m : list (list pval)) : table pval := mkTable (tp t) (tf t) m.
(** list.py:600-610 containsZero *)
Definition containsZero (m : list (list pval)) : bool := existsb (existsb (fun v => pyEq v (PInt 0))) m.

(** base.py:5231-5247 [_genericBinary_sizeValidation] (2D objects) *)
Definition sizeValidation (a b : table pval) : result unit :=
  if negb ((alen (tp a) =? alen (tp b)) && (alen (tf a) =? alen (tf b))) then Err InvalidArgumentValue
  else if (alen (tp a) =? 0) || (alen (tf a) =? 0) then Err ImproperObjectAction
  else Ok tt.
(** base.py:5249-5268 [_validateDivMod], 5287-5300 [_genericBinary_validation] *)
Definition binaryValidation (f : form) (o : arith) (a : table pval) (other : operand) : result unit :=
  _ <- match other with
       | OBase b => sizeValidation a b
       | OScalar v => if looksNumeric v then Ok tt else Err InvalidArgumentType
       | OJunk => Err InvalidArgumentType
       end ;;
  if isDivMod o then
    let z := if isReflected f then containsZero (rows a)
             else match other with OBase b => containsZero (rows b) | OScalar v => pyEq v (PInt 0) | OJunk => false end in
    if z then Err ZeroDiv else Ok tt
  else Ok tt.
(** base.py:5302-5336 [_genericBinary_axisNames]: the names of the result and
    the converted copy of other *)
Definition binaryAxisNames (f : form) (o : arith) (a b : table pval)
  : result (option (list (option string)) * option (list (option string)) * table pval) :=
  let eqn la ra := match validateEqualNames la ra with
                   | Ok _ => Ok true
                   | Err InvalidArgumentValue => if isInPlace f then Err InvalidArgumentValue else Ok false
                   | Err e => Err e end in
  ft <- eqn (tf a) (tf b) ;;
  pt <- eqn (tp a) (tp b) ;;
  if negb ft && negb pt then Err InvalidArgumentValue
  else
    m <- numericRows (isPow o) InvalidArgumentValue (rows b) ;;
    let pn := mergeNames (getNamesNoGeneration (tp a)) (getNamesNoGeneration (tp b)) in
    let fn := mergeNames (getNamesNoGeneration (tf a)) (getNamesNoGeneration (tf b)) in
    if ft && negb pt then
      _ <- axisNamesDisjoint (tp a) (tp b) ;; Ok (None, fn, withRows b m)
    else if pt && negb ft then
      _ <- axisNamesDisjoint (tf a) (tf b) ;; Ok (pn, None, withRows b m)
    else Ok (pn, fn, withRows b m).
(** position by position, on the numpy copies (base.py:5447-5458) *)
Definition zipRows (g : pval -> pval -> result pval) (a b : list (list pval)) : result (list (list pval)) :=
  rmapM (fun rr : list pval * list pval => rmapM (fun vv : pval * pval => g (fst vv) (snd vv)) (combine (fst rr) (snd rr))) (combine a b).
Definition applyOp (f : form) (o : arith) (a : table pval) (other : operand) : result (list (list pval)) :=
  let da := dtypeOf (rows a) in
  let r := isReflected f in
  match other with
  | OBase b => zipRows (npArith o r da (Some (dtypeOf (rows b)))) (numpyRows (rows a)) (numpyRows (rows b))
  | OScalar v => rmapM (rmapM (fun x => npArith o r da None x v)) (numpyRows (rows a))
  | OJunk => Err TypeErr
  end.
(** setNames with a list of names or None on an object without names
    (axis.py:198-319) *)
Definition namedAxis (n : nat) (names : option (list (option string))) : result axis :=
  match setNames (mkAxis n None) (namesArg names) ONone with (a, Ok _) => Ok a | (_, Err e) => Err e end.
(** base.py:5391-5445: the state of self afterwards and the value returned *)
Definition binaryOp (f : form) (o : arith) (self : table pval) (other : operand) : table pval * result (table pval) :=
  match numericRows (isPow o) ImproperObjectAction (rows self) with
  | Err e => (self, Err e)
  | Ok m =>
      let obj := withRows self m in
      (* an in-place call converts self before anything is checked *)
      let failed := if isInPlace f then obj else self in
      let res :=
        _ <- binaryValidation f o obj other ;;
        nms <- match other with
               | OBase b => q <- binaryAxisNames f o obj b ;; Ok (fst (fst q), snd (fst q), OBase (snd q))
               | _ => Ok (getNamesNoGeneration (tp obj), getNamesNoGeneration (tf obj), other)
               end ;;
        let '(pn, fn, other') := nms in
        vals <- applyOp f o obj other' ;;
        pa <- namedAxis (alen (tp self)) pn ;;
        fa <- namedAxis (alen (tf self)) fn ;;
        Ok (mkTable pa fa vals) in
      match res with
      | Ok r => (if isInPlace f then r else self, Ok r)
      | Err e => (failed, Err e)
      end
  end.
End Binary.

(** *** abs *)
(** Python abs *)
Definition pyAbs (v : pval) : result pval :=
  match v with
  | PBool b => Ok (PInt (if b then 1 else 0))
  | PInt z => Ok (PInt (Z.abs z))
  | PFloat q => Ok (PFloat (Qabs q))
  | PPosInf | PNegInf => Ok PPosInf
  | PNaN => Ok PNaN
  | _ => Err TypeErr
  end.
(** base.py:5191-5214 [__abs__]: when the features have no names it is the
    POINT names that are set to None.  calculateOnElements works on the numpy
    copy of the data (base.py:1137). *)
Definition absObj (intOf floatOf : string -> option pval) (strOf : pval -> string) (t : table pval) : result (table pval) :=
  r <- calculateOnElements intOf floatOf strOf (mkTable (tp t) (tf t) (numpyRows (rows t))) (F1 pyAbs) None None false false ;;
  pa <- namedAxis (alen (tp r)) (getNamesNoGeneration (tp t)) ;;
  match getNamesNoGeneration (tf t) with
  | Some l => fa <- namedAxis (alen (tf r)) (Some l) ;; Ok (mkTable pa fa (rows r))
  | None => Ok (mkTable (mkAxis (alen (tp r)) None) (tf r) (rows r))
  end.
