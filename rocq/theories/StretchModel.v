(** Model of the [stretch] attribute of List objects (C57).
    Sources: /repo/nimble/core/data/stretch.py:41-246 (Stretch);
    base.py:5406-5410 (an object with a Stretch on the right hands the call to
    the Stretch), 5498-5515 (_logicalValidationAndConversion), 5447-5458 (the
    numpy operation).  Objects are List objects, so that the result type needs no
    conversion (214-216); StretchSparse is not modelled.  The state of both
    operands after a call is part of the result because the data of both is
    converted in place. *)
From Verif Require Import Base NamesModel TableModel TableOps MatchModel ElementsModel BinOpModel ReshapeModel.
Open Scope nat_scope.

(** stretch.py:41-52 [__init__]; [stretch] has the source *)
Definition mkStretch (source : table pval) : result (table pval) :=
  let np := alen (tp source) in
  let nf := alen (tf source) in
  if (1 <? np) && (1 <? nf) then Err ImproperObjectAction
  else if (np =? 0) || (nf =? 0) then Err ImproperObjectAction
  else Ok source.

(** the other operand: an object, another Stretch, something else *)
Inductive stretchOther := SBase (t : table pval) | SStretch (t : table pval) | SJunk.
Definition isStretch (other : stretchOther) : bool := match other with SStretch _ => true | _ => false end.

(** [not self.names] (axis.py:379-380) *)
Definition allDefaultNames (a : axis) : bool := match names_dict a with [] => true | _ => false end.
(** Python truth of a list of names or None *)
Definition truthy (n : option (list (option string))) : bool := match n with Some (_ :: _) => true | _ => false end.
(** [[name + '_' + str(i + 1) for i in range(num)]] with name = names[0] *)
Definition numberedNames (names : option (list (option string))) (num : nat) : result (list (option string)) :=
  match names with
  | Some (Some s :: _) => Ok (map (fun i => Some (s ++ "_" ++ decStr (i + 1))%string) (seq 0 num))
  | Some (None :: _) => match num with 0 => Ok [] | _ => Err TypeErr end
  | Some [] => Err IndexErr
  | None => Err TypeErr
  end.
(** stretch.py:112-132 [getNames] *)
Definition stretchNames (oStretch : bool) (sAxis oAxis : axis) (sNum oNum setNum : nat) : result (option (list (option string))) :=
  let sNames := getNamesNoGeneration sAxis in
  let oNames := getNamesNoGeneration oAxis in
  let sDefault := allDefaultNames sAxis in
  let oDefault := allDefaultNames oAxis in
  if eqbd sNames oNames then Ok sNames
  else if sDefault && oStretch && negb (oNum =? setNum) && truthy oNames then rmap Some (numberedNames oNames setNum)
  else if truthy sNames && sDefault && negb (truthy oNames) then Ok sNames
  else if sDefault then Ok oNames
  else if oDefault && ((1 <? sNum) || (setNum =? 1)) then Ok sNames
  else if oDefault then rmap Some (numberedNames sNames setNum)
  else match sNames, oNames with
       | Some s, Some o => if List.length s =? List.length o then Ok (mergeNames sNames oNames) else Ok None
       | _, _ => Err TypeErr
       end.
(** stretch.py:89-137 [_getOutputNames] *)
Definition outputNames (oStretch : bool) (s o : table pval)
  : result (option (list (option string)) * option (list (option string))) :=
  let np := Nat.max (alen (tp s)) (alen (tp o)) in
  let nf := Nat.max (alen (tf s)) (alen (tf o)) in
  p <- stretchNames oStretch (tp s) (tp o) (alen (tp s)) (alen (tp o)) np ;;
  f <- stretchNames oStretch (tf s) (tf o) (alen (tf s)) (alen (tf o)) nf ;;
  Ok (p, f).

(** base.py:5244-5261 [_validateDivMod] for two objects *)
Definition divModCheck (refl divmod : bool) (s o : table pval) : result unit :=
  if divmod then if containsZero (rows (if refl then s else o)) then Err ZeroDiv else Ok tt else Ok tt.
(** stretch.py:139-185 [_stretchArithmetic_validation]; [divmod]: 'div' in
    opName or 'mod' in opName *)
Definition stretchValidation (refl divmod : bool) (s : table pval) (other : stretchOther) : result unit :=
  let np := alen (tp s) in
  let nf := alen (tf s) in
  match other with
  | SJunk => Err ImproperObjectAction
  | SStretch o =>
      if ((np =? 1) && (alen (tf o) =? 1)) || ((nf =? 1) && (alen (tp o) =? 1)) then divModCheck refl divmod s o
      else Err ImproperObjectAction
  | SBase o =>
      let '(matchPoints, possible) :=
        if (np =? 1) && (nf =? 1) then (1 <? alen (tp o), (alen (tp o) =? 1) || (alen (tf o) =? 1))
        else if np =? 1 then (false, nf =? alen (tf o))
        else (true, np =? alen (tp o)) in
      if negb possible then Err InvalidArgumentValueCombination
      else
        _ <- (if (matchPoints : bool) then validateEqualNames (tp s) (tp o) else validateEqualNames (tf s) (tf o)) ;;
        divModCheck refl divmod s o
  end.

(** numpy broadcasting of two 2D arrays: along an axis the lengths are equal or
    one of them is 1 *)
Definition broadcastLen (a b : nat) : result nat :=
  if a =? b then Ok a else if a =? 1 then Ok b else if b =? 1 then Ok a else Err ValueErr.
Definition widen {A} (n : nat) (l : list A) : list A :=
  if List.length l =? n then l else match l with [x] => repeat x n | _ => l end.
Definition broadcastRows {A} (np nf : nat) (m : list (list A)) : list (list A) := widen np (map (widen nf) m).

Section Stretching.
Variable floatOf : string -> option pval.
Variable npArith : arith -> bool -> dtype -> option dtype -> pval -> pval -> result pval.

(** stretch.py:224-227, base.py:5447-5458 *)
Definition stretchApply (g : pval -> pval -> result pval) (s o : table pval) : result (list (list pval)) :=
  np <- broadcastLen (alen (tp s)) (alen (tp o)) ;;
  nf <- broadcastLen (alen (tf s)) (alen (tf o)) ;;
  zipRows g (broadcastRows np nf (numpyRows (rows s))) (broadcastRows np nf (numpyRows (rows o))).
(** the new object and its names (stretch.py:218-220) *)
Definition stretchResult (s o : table pval) (names : option (list (option string)) * option (list (option string))) (vals : list (list pval)) : result (table pval) :=
  np <- broadcastLen (alen (tp s)) (alen (tp o)) ;;
  nf <- broadcastLen (alen (tf s)) (alen (tf o)) ;;
  pa <- namedAxis np (fst names) ;;
  fa <- namedAxis nf (snd names) ;;
  Ok (mkTable pa fa vals).
(** stretch.py:187-222 [_stretchArithmetic]: the source and the other object
    afterwards, and the value.  Something that is no object has no
    _convertToNumericTypes (200), a Stretch has no getTypeString (215). *)
Definition stretchArith (refl : bool) (o : arith) (s : table pval) (other : stretchOther) : table pval * stretchOther * result (table pval) :=
  match numericRows floatOf (isPow o) ImproperObjectAction (rows s) with
  | Err e => (s, other, Err e)
  | Ok ms =>
      let s1 := withRows s ms in
      let go (b : table pval) (wrap : table pval -> stretchOther) :=
        match numericRows floatOf (isPow o) InvalidArgumentValue (rows b) with
        | Err e => (s1, other, Err e)
        | Ok mb =>
            let b1 := withRows b mb in
            (s1, wrap b1,
             _ <- stretchValidation refl (isDivMod o) s1 (wrap b1) ;;
             vals <- stretchApply (npArith o refl (dtypeOf (rows s1)) (Some (dtypeOf (rows b1)))) s1 b1 ;;
             _ <- (if refl && isStretch other then Err AttributeErr else Ok tt) ;;
             nms <- outputNames (isStretch other) s1 b1 ;;
             stretchResult s1 b1 nms vals)
        end in
      match other with
      | SJunk => (s1, other, Err AttributeErr)
      | SBase b => go b SBase
      | SStretch b => go b SStretch
      end
  end.

(** *** logical operators *)
Inductive logic := LAnd | LOr | LXor.
Definition logicOp (o : logic) (x y : bool) : bool :=
  match o with LAnd => x && y | LOr => x || y | LXor => xorb x y end.
(** base.py:5498-5515: the values True, False, 0 and 1 (1.0 == 1) as bools *)
Definition toBool (v : pval) : result pval :=
  if pyEq v (PInt 0) then Ok (PBool false) else if pyEq v (PInt 1) then Ok (PBool true) else Err ImproperObjectAction.
Definition boolOf (v : pval) : bool := match v with PBool b => b | _ => false end.
(** stretch.py:238-248 [_stretchLogical]: no names are set *)
Definition stretchLogical (o : logic) (s : table pval) (other : stretchOther) : result (table pval) :=
  _ <- stretchValidation false false s other ;;
  match other with
  | SJunk => Err ImproperObjectAction
  | SBase b | SStretch b =>
      ls <- rmapM (rmapM toBool) (rows s) ;;
      rs <- rmapM (rmapM toBool) (rows b) ;;
      vals <- stretchApply (fun x y => Ok (PBool (logicOp o (boolOf x) (boolOf y)))) (withRows s ls) (withRows b rs) ;;
      stretchResult s b (None, None) vals
  end.
End Stretching.
