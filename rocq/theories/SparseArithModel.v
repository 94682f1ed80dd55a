(** Model of the elementwise operators of Sparse objects (C59).
    Sources: /repo/nimble/core/data/sparse.py:1020-1026 (_containsZero), 1028-1073
    (_binaryOperations_implementation), 1075-1092 (_scalarBinary), 1121-1146
    (_genericMul), 1148-1170 (_genericPow), 1172-1187 (_genericFloordiv),
    1189-1213 (_genericMod), 1215-1231 (_scalarZeroPreserving); base.py:5227-5284
    (validation), 5447-5458 (the dense default); stretch.py:250-280
    (StretchSparse).  The other operand is a Sparse object or a scalar; names are
    those of C17 (the same Base code).  An in-place operator runs the plain one on
    the object itself (base.py:5424-5427) and takes over its result, so only plain
    and reflected operators appear. *)
From Verif Require Import Base NamesModel TableModel TableOps MatchModel BinOpModel SparseModel.
Open Scope nat_scope.

Inductive spOther (V : Type) := SpSparse (o : sparse V) | SpScalar (c : V).
Arguments SpSparse {V} _.
Arguments SpScalar {V} _.

Section Arith.
Variable V : Type.
Context {EV : EqDec V}.
(** the numbers 0 and 1 and not-a-number; [other > 0] for a scalar *)
Variables zero one nan : V.
Variable isPos : V -> bool.
(** one elementwise operation of numpy (with np.errstate(divide='raise',
    invalid='raise'), base.py:5428), and of scipy's compiled code, which does not
    raise; [np.floor] of an element *)
Variable np : arith -> V -> V -> result V.
Variable sc : arith -> V -> V -> V.
Variable floorV : V -> V.

(** the stored element at a position *)
Definition entryAt (s : sparse V) (i j : nat) : option V :=
  match find (fun e => (er e =? i) && (ec e =? j)) (ents s) with Some e => Some (ev e) | None => None end.
Definition orZero (o : option V) : V := match o with Some v => v | None => zero end.
(** an object from stored elements, row by row, without zeros *)
Definition ofStored (n f : nat) (g : nat -> nat -> option V) : sparse V :=
  mkSp n f (flat_map (fun i => flat_map (fun j =>
      match g i j with Some v => if eqbd v zero then [] else [mkE i j v] | None => [] end) (seq 0 f)) (seq 0 n)) None None.
(** scipy's binary operation of two matrices of one shape: computed where either
    has a stored element, zeros dropped.  (scipy's product of matrices also takes a
    single element, point or feature for one side; here the shapes differ only for
    two stretched objects of which the left is a single element.) *)
Definition scBinop (g : V -> V -> V) (a b : sparse V) : result (sparse V) :=
  if (snp a =? snp b) && (snf a =? snf b) then
    Ok (ofStored (snp a) (snf a) (fun i j =>
      match entryAt a i j, entryAt b i j with
      | None, None => None
      | x, y => Some (g (orZero x) (orZero y))
      end))
  else Err ValueErr.
(** scipy's quotient of two sparse matrices is a dense array: not-a-number where
    the divisor has nothing stored, otherwise the quotient *)
Definition scDivide (a b : sparse V) : result (list (list V)) :=
  r <- scBinop (sc Truediv) a b ;;
  Ok (map (fun i => map (fun j =>
        match entryAt r i j with
        | Some v => v
        | None => match entryAt b i j with Some _ => zero | None => nan end
        end) (seq 0 (snf a))) (seq 0 (snp a))).
(** [x op y], or [y op x] for a reflected operator *)
Definition npTurn (refl : bool) (o : arith) (x y : V) : result V := if refl then np o y x else np o x y.
(** new values for the stored elements, zeros eliminated (1206-1209, 1222-1227);
    a coo_matrix needs as many values as positions *)
Definition restore (s : sparse V) (data : list V) : result (sparse V) :=
  if List.length data =? List.length (ents s) then
    Ok (mkSp (snp s) (snf s)
          (filter (fun e => negb (eqbd (ev e) zero)) (map (fun p => mkE (er (fst p)) (ec (fst p)) (snd p)) (combine (ents s) data))) None None)
  else Err ValueErr.
(** numpy on two one-dimensional arrays: equal lengths, or one of length one *)
Definition np1D (g : V -> V -> result V) (x y : list V) : result (list V) :=
  if List.length x =? List.length y then rmapM (fun p : V * V => g (fst p) (snd p)) (combine x y)
  else match x, y with
       | [a], _ => rmapM (g a) y
       | _, [b] => rmapM (fun v => g v b) x
       | _, _ => Err ValueErr
       end.
(** 1215-1231: only the stored elements *)
Definition storedScalar (refl : bool) (o : arith) (s : sparse V) (c : V) : result (sparse V) :=
  data <- rmapM (fun e => npTurn refl o (ev e) c) (ents s) ;; restore s data.
(** base.py:5447-5458 with a scalar: every element *)
Definition denseScalar (refl : bool) (o : arith) (s : sparse V) (c : V) : result (sparse V) :=
  m <- rmapM (rmapM (fun v => npTurn refl o v c)) (toDense zero s) ;; Ok (ofDense zero (snp s) (snf s) m).
(** 1075-1092 *)
Definition scalarBinary (refl : bool) (o : arith) (s : sparse V) (c : V) : result (sparse V) :=
  if (match o with Mul => true | Truediv | Pow => negb refl | _ => false end) && eqbd c one
  then Ok (mkSp (snp s) (snf s) (ents s) None None)
  else if (match o with Mul | Truediv | Floordiv | Mod => true | Pow => negb refl && isPos c | _ => false end)
  then storedScalar refl o s c
  else denseScalar refl o s c.
(** 1189-1213 *)
Definition genericMod (s o : sparse V) : result (sparse V) :=
  let sd := sortSide s in
  let s' := sortInternal s sd false false in
  let o' := sortInternal o sd false false in
  data <- np1D (np Mod) (map ev (ents s')) (map ev (ents o')) ;; restore s' data.
(** 1148-1170: every element of the left object raised to the element of the
    right one (calculateOnElements, base.py:1099-1126) *)
Definition genericPow (s o : sparse V) : result (sparse V) :=
  m <- rmapM (fun i => rmapM (fun j => np Pow (orZero (entryAt s i j)) (orZero (entryAt o i j))) (seq 0 (snf s))) (seq 0 (snp s)) ;;
  Ok (ofDense zero (snp s) (snf s) m).
(** 1172-1187 *)
Definition genericFloordiv (s o : sparse V) : result (sparse V) :=
  m <- scDivide s o ;;
  let t := ofDense zero (snp s) (snf s) m in
  restore t (map (fun e => floorV (ev e)) (ents t)).
(** 1028-1073 *)
Definition sparseBinary (refl : bool) (o : arith) (s : sparse V) (other : spOther V) : result (sparse V) :=
  match other with
  | SpScalar c => scalarBinary refl o s c
  | SpSparse b =>
      match o with
      | Mul => scBinop (sc Mul) s b
      | Pow => genericPow s b
      | Add | Sub => scBinop (sc o) s b
      | Truediv => m <- scDivide s b ;; Ok (ofDense zero (snp s) (snf s) m)
      | Floordiv => genericFloordiv s b
      | Mod => genericMod s b
      end
  end.
(** 1020-1026 *)
Definition sparseContainsZero (s : sparse V) : bool := List.length (ents s) <? snp s * snf s.
(** base.py:5227-5284: sizes, emptiness, zero divisors (numeric scalars) *)
Definition sparseValidation (refl : bool) (o : arith) (s : sparse V) (other : spOther V) : result unit :=
  _ <- match other with
       | SpSparse b =>
           if negb ((snp s =? snp b) && (snf s =? snf b)) then Err InvalidArgumentValue
           else if (snp s =? 0) || (snf s =? 0) then Err ImproperObjectAction
           else Ok tt
       | SpScalar _ => Ok tt
       end ;;
  if isDivMod o then
    if (if refl then sparseContainsZero s else match other with SpSparse b => sparseContainsZero b | SpScalar c => eqbd c zero end)
    then Err ZeroDiv else Ok tt
  else Ok tt.
(** base.py:5391-5430 *)
Definition sparseOp (refl : bool) (o : arith) (s : sparse V) (other : spOther V) : result (sparse V) :=
  _ <- sparseValidation refl o s other ;; sparseBinary refl o s other.

(** stretch.py:250-280: the single point or feature is repeated, then the
    objects are combined; [st]: the other operand is stretched as well *)
Definition stretchSparse (o : arith) (st : bool) (s b : sparse V) : result (sparse V) :=
  if st then
    if snp s =? 1
    then sparseBinary false o (sRepeat Pts s (snp b) true) (SpSparse (sRepeat Fts b (snf s) true))
    else sparseBinary false o (sRepeat Fts s (snf b) true) (SpSparse (sRepeat Pts b (snp s) true))
  else
    if (snp s =? 1) && (1 <? snp b) then sparseBinary false o (sRepeat Pts s (snp b) true) (SpSparse b)
    else if (snf s =? 1) && (1 <? snf b) then sparseBinary false o (sRepeat Fts s (snf b) true) (SpSparse b)
    else sparseBinary false o s (SpSparse b).
End Arith.
