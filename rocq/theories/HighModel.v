(** Model of data with more than two dimensions: creation from nested lists
    (/repo/nimble/core/_createHelpers.py 1137-1304), the dimensions an object
    reports (/repo/nimble/core/data/base.py 231-255), and the operations that
    must keep values and dimensions together. *)
From Coq Require Import QArith.
From Coq Require Import Ascii String.
From Verif Require Import Base.
From Coq Require Import List.
Import ListNotations.
Open Scope list_scope.
Open Scope nat_scope.

(** The elements a data object may hold (/repo/nimble/_utility.py 334-351,
    isAllowedSingleElement): numbers, booleans, strings, None and nan.
    Simplified: datetimes are left out and floats are rationals. *)
Inductive leaf := LInt (z : Z) | LFloat (q : Q) | LNan | LBool (b : bool)
  | LText (s : string) | LNone.

(** A nested Python list. *)
Inductive nest := Leaf (v : leaf) | Node (l : list nest).

(** isAllowedSingleElement (_utility.py 334-351): a list has __len__ and is not
    a single element. *)
Definition isSingle (n : nest) : bool := match n with Leaf _ => true | Node _ => false end.

(** The single element itself. *)
Definition leafOf (n : nest) : list leaf := match n with Leaf v => [v] | Node _ => [] end.

(** Iterating over a string yields its letters as strings. *)
Fixpoint letters (s : string) : list leaf :=
  match s with
  | EmptyString => []
  | String c r => LText (String c EmptyString) :: letters r
  end.

(** The mutable arguments of flattenToOneDimension (_createHelpers.py
    1233-1250): toFill, dimensions[0] and dimensions[1]. *)
Record fstate := { ffill : list leaf; frec : bool; fdims : list nat }.

(** dimensions[1].append(_getPointCount(data)) when dimensions[0]
    (_createHelpers.py 1247-1250). *)
Definition recordCount (n : nat) (st : fstate) : fstate :=
  {| ffill := ffill st; frec := frec st;
     fdims := if frec st then fdims st ++ [n] else fdims st |}.

(** toFill.extend(data) (_createHelpers.py 1258). *)
Definition extend (l : list leaf) (st : fstate) : fstate :=
  {| ffill := ffill st ++ l; frec := frec st; fdims := fdims st |}.

(** dimensions[0] = False (_createHelpers.py 1262). *)
Definition stopRecording (st : fstate) : fstate :=
  {| ffill := ffill st; frec := false; fdims := fdims st |}.

(** except TypeError: raise InvalidArgumentValue (_createHelpers.py 1263-1266). *)
Definition catchType {A} (r : result A) : result A :=
  match r with Err TypeErr => Err InvalidArgumentValue | _ => r end.

(** flattenToOneDimension (_createHelpers.py 1233-1268) on nested lists. A
    string is iterated letter by letter; any other single element has neither
    len() nor iter(), a TypeError. Not modelled: nested Base objects, dicts,
    arrays. *)
Fixpoint flattenOne (n : nest) (st : fstate) {struct n} : result fstate :=
  match n with
  | Leaf (LText s) => Ok (extend (letters s) (recordCount (length (letters s)) st))
  | Leaf _ => Err TypeErr
  | Node l =>
      let st := recordCount (length l) st in
      if forallb isSingle l then Ok (extend (flat_map leafOf l) st)
      else catchType
        ((fix go (l : list nest) (st : fstate) {struct l} : result fstate :=
            match l with
            | [] => Ok st
            | c :: cs => st' <- flattenOne c st ;; go cs (stopRecording st')
            end) l st)
  end.

(** The pair flattenToOneDimension returns (_createHelpers.py 1268). *)
Definition flattenToOne (n : nest) : result (list leaf * list nat) :=
  st <- flattenOne n {| ffill := []; frec := true; fdims := [] |} ;;
  Ok (ffill st, fdims st).

(** A nimble object: the two-dimensional internal data (_data) and the
    recorded dimensions (_dims, base.py 197). *)
Record hobj := { hrows : list (list leaf); hdims : list nat }.

Definition prodN (l : list nat) : nat := fold_right Nat.mul 1 l.

(** shape (base.py 231-240). *)
Definition shapeOf (o : hobj) : nat * nat :=
  match hdims o with
  | d :: d' :: d'' :: ds => (d, prodN (d' :: d'' :: ds))
  | d :: d' :: [] => (d, d')
  | _ => (0, 0)
  end.

(** len(self._dims) > 2. *)
Definition isHigh (o : hobj) : bool := 2 <? length (hdims o).

(** rawData[i] = flat (_createHelpers.py 1291, 1299) for a numpy row of n
    entries: a list of another length is refused, except that numpy spreads a
    single value over the whole row. *)
Definition assignRow (n : nat) (flat : list leaf) : result (list leaf) :=
  if length flat =? n then Ok flat
  else match flat with [v] => Ok (repeat v n) | _ => Err ValueErr end.

(** The loop over the remaining points (_createHelpers.py 1292-1299). *)
Fixpoint flattenRest (ptDims : list nat) (n : nat) (pts : list nest)
    : result (list (list leaf)) :=
  match pts with
  | [] => Ok []
  | p :: ps =>
      fd <- flattenToOne p ;;
      (if negb (eqbd (snd fd) ptDims) then Err InvalidArgumentValue
       else row <- assignRow n (fst fd) ;; rows <- flattenRest ptDims n ps ;; Ok (row :: rows))
  end.

(** flattenHighDimensionFeatures (_createHelpers.py 1271-1301) on a list of
    points; the numpy branch (a regular array by construction) is np.reshape. *)
Definition flattenHigh (pts : list nest) : result hobj :=
  match pts with
  | [] => Err StopIter
  | p :: ps =>
      fd <- flattenToOne p ;;
      rows <- flattenRest (snd fd) (length (fst fd)) ps ;;
      Ok {| hrows := fst fd :: rows; hdims := length pts :: snd fd |}
  end.

(** isHighDimensionData (_createHelpers.py 1137-1196) on a nested list with
    rowsArePoints=True: only rawData[0][0] is looked at. *)
Definition isHighData (raw : list nest) : bool :=
  match raw with
  | Node (c :: _) :: _ => negb (isSingle c)
  | _ => false
  end.

(** nimble.data on a nested list (initDataObject, _createHelpers.py 1545-1571),
    names left automatic and treatAsMissing=None. None: the data is treated as
    at most two-dimensional and handled by the code modelled for C61. *)
Definition createHigh (raw : list nest) : result (option hobj) :=
  if isHighData raw then o <- flattenHigh raw ;; Ok (Some o) else Ok None.

(** Consecutive pieces of the given size: numpy's row-major reshape. *)
Fixpoint chunks {A} (count size : nat) (l : list A) : list (list A) :=
  match count with
  | 0 => []
  | S k => firstn size l :: chunks k size (skipn size l)
  end.

(** A flat row-major list as nested lists of the given dimensions. *)
Fixpoint nestOf (dims : list nat) (l : list leaf) : nest :=
  match dims with
  | [] => match l with v :: _ => Leaf v | [] => Leaf LNone end
  | d :: ds => Node (map (nestOf ds) (chunks d (prodN ds) l))
  end.

(** numpy's reshape: the sizes must agree. *)
Definition reshape (dims : list nat) (l : list leaf) : result nest :=
  if length l =? prodN dims then Ok (nestOf dims l) else Err ValueErr.

(** copy('numpy array') (matrix.py 190-193): the array reshaped to the recorded
    dimensions, no conversion of values. *)
Definition copyArray (o : hobj) : result nest :=
  if isHigh o then reshape (hdims o) (concat (hrows o))
  else Ok (Node (map (fun r => Node (map Leaf r)) (hrows o))).

(** numpy's choice of one element type for a list of Python values
    (np.asarray): any None keeps Python objects; otherwise text, float, int,
    bool in that order of preference. *)
Inductive npkind := NpBool | NpInt | NpFloat | NpText | NpObject.
Definition kindOf (v : leaf) : npkind :=
  match v with
  | LInt _ => NpInt | LFloat _ => NpFloat | LNan => NpFloat | LBool _ => NpBool
  | LText _ => NpText | LNone => NpObject
  end.
Definition rank (k : npkind) : nat :=
  match k with NpBool => 0 | NpInt => 1 | NpFloat => 2 | NpText => 3 | NpObject => 4 end.
Definition joinKind (a b : npkind) : npkind := if rank a <? rank b then b else a.
Definition commonKind (l : list leaf) : npkind := fold_right joinKind NpBool (map kindOf l).

Section WithStr.
(** str(v) for a value that is not text. *)
Variable pyStr : leaf -> string.

(** Storing a value in an array of the given element type. *)
Definition castTo (k : npkind) (v : leaf) : leaf :=
  match k, v with
  | NpText, LText s => LText s
  | NpText, LNone => LNone
  | NpText, _ => LText (pyStr v)
  | NpFloat, LInt z => LFloat (inject_Z z)
  | NpFloat, LBool b => LFloat (if b then 1 else 0)
  | NpInt, LBool b => LInt (if b then 1 else 0)
  | _, _ => v
  end.

(** copy('python list') (base.py 3849-3856): with more than two dimensions
    np.reshape(ret, self._dims).tolist(), where np.reshape first turns the list
    into an array of one element type. *)
Definition copyList (o : hobj) : result nest :=
  if isHigh o then
    let flat := concat (hrows o) in
    reshape (hdims o) (map (castTo (commonKind flat)) flat)
  else Ok (Node (map (fun r => Node (map Leaf r)) (hrows o))).
End WithStr.

(** _createNestedObject for Matrix and DataFrame (matrix.py 430-436): the row
    reshaped to (dims[1], prod(dims[2:])), recorded dimensions dims[1:]. *)
Definition nestedMatrix (o : hobj) (i : nat) : result hobj :=
  match nth_error (hrows o) i, hdims o with
  | Some row, _ :: d1 :: rest =>
      if length row =? d1 * prodN rest
      then Ok {| hrows := chunks d1 (prodN rest) row; hdims := d1 :: rest |}
      else Err ValueErr
  | _, _ => Err IndexErr
  end.

(** _createNestedObject for List (list.py 567-579): slices of the row. *)
Definition nestedList (o : hobj) (i : nat) : result hobj :=
  match nth_error (hrows o) i, hdims o with
  | Some row, _ :: d1 :: rest =>
      let size := prodN rest in
      Ok {| hrows := map (fun k => firstn (k * size + size - k * size) (skipn (k * size) row))
                         (seq 0 d1);
            hdims := d1 :: rest |}
  | _, _ => Err IndexErr
  end.

(** The stored entries (row, column, value) of a Sparse object (coo). *)
Definition entries := list (nat * nat * leaf).

(** Sparse._view_implementation with dropDimension (sparse.py 922-941): the
    stored entries of the point, their column split by // and %. *)
Definition nestedSparse (dims : list nat) (es : entries) (i : nat) : entries * list nat :=
  match dims with
  | _ :: d1 :: rest =>
      let fshape := prodN rest in
      (map (fun e => (snd (fst e) / fshape, snd (fst e) mod fshape, snd e))
           (filter (fun e => fst (fst e) =? i) es), d1 :: rest)
  | _ => ([], [])
  end.

(** points[key] (axis.py 363-374): a single key of an object with more than two
    dimensions gives the nested object, several keys the structural backend's
    result, whose dimensions are those of its two-dimensional data
    (matrixAxis.py 65-78). The keys are already positions. *)
Inductive pkey := KOne (i : nat) | KMany (is : list nat) | KFull.
Definition gatherRows (rows : list (list leaf)) (is : list nat) : result (list (list leaf)) :=
  rmapM (fun i => match nth_error rows i with Some r => Ok r | None => Err IndexErr end) is.
Definition backendCopy (o : hobj) (is : list nat) : result hobj :=
  rows <- gatherRows (hrows o) is ;;
  Ok {| hrows := rows; hdims := [length is; snd (shapeOf o)] |}.
Definition pointsGet (o : hobj) (k : pkey) : result hobj :=
  match k with
  | KFull => Ok o
  | KOne i => if isHigh o then nestedMatrix o i else backendCopy o [i]
  | KMany is => backendCopy o is
  end.

(** points.copy / extract / delete / retain with a list of distinct positions
    (axis.py 1219-1232): the result keeps the inner dimensions, and extract and
    delete shrink the first dimension of the object. *)
Definition dropRows (rows : list (list leaf)) (is : list nat) : list (list leaf) :=
  map snd (filter (fun p => negb (mem (fst p) is)) (combine (seq 0 (length rows)) rows)).
Definition pointsCopy (o : hobj) (is : list nat) : result hobj :=
  ret <- backendCopy o is ;;
  Ok {| hrows := hrows ret; hdims := firstn 1 (hdims ret) ++ tl (hdims o) |}.
Definition pointsExtract (o : hobj) (is : list nat) : result (hobj * hobj) :=
  ret <- pointsCopy o is ;;
  match hdims o with
  | d :: ds => Ok (ret, {| hrows := dropRows (hrows o) is; hdims := d - length (hrows ret) :: ds |})
  | [] => Err IndexErr
  end.

(** points.insert / append (axis.py 1313-1330, 619-638, 1483-1495): the number
    of features is compared, the recorded dimensions are not. *)
Definition pointsInsert (o : hobj) (before : nat) (other : hobj) : result hobj :=
  if negb (snd (shapeOf o) =? snd (shapeOf other))
  then Err (if isHigh o then ImproperObjectAction else InvalidArgumentValue)
  else match hdims o with
  | d :: ds => Ok {| hrows := firstn before (hrows o) ++ hrows other ++ skipn before (hrows o);
                     hdims := d + fst (shapeOf other) :: ds |}
  | [] => Err IndexErr
  end.

(** points.permute with an order of positions (axis.py _permute): the recorded
    dimensions stay. *)
Definition pointsPermute (o : hobj) (order : list nat) : result hobj :=
  rows <- gatherRows (hrows o) order ;; Ok {| hrows := rows; hdims := hdims o |}.

(** flatten(order) (base.py 4103-4129), values and dimensions; byFeature is
    order='feature'. *)
Definition column (rows : list (list leaf)) (j : nat) : list leaf :=
  flat_map (fun r => match nth_error r j with Some v => [v] | None => [] end) rows.
Definition flattenObj (o : hobj) (byFeature : bool) : result hobj :=
  let (p, f) := shapeOf o in
  if p =? 0 then Err ImproperObjectAction
  else if f =? 0 then Err ImproperObjectAction
  else if byFeature && isHigh o then Err ImproperObjectAction
  else Ok {| hrows := [if byFeature then flat_map (column (hrows o)) (seq 0 f)
                       else concat (hrows o)];
             hdims := [1; p * f] |}.

(** unflatten(dataDimensions, order='point') (base.py 4303-4344). *)
Definition unflattenObj (o : hobj) (dims : list nat) (byFeature : bool) : result hobj :=
  let (p, f) := shapeOf o in
  if (f =? 0) || (p =? 0) then Err ImproperObjectAction
  else if negb (p =? 1) && negb (f =? 1) then Err ImproperObjectAction
  else if length dims <? 2 then Err InvalidArgumentValue
  else if negb (p * f =? prodN dims) then Err InvalidArgumentValue
  else if (2 <? length dims) && byFeature then Err ImproperObjectAction
  else match dims with
  | d :: ds =>
      let n := prodN ds in
      let flat := concat (hrows o) in
      Ok {| hrows := if byFeature
                     then map (fun i => map (fun j => nth (j * d + i) flat LNone) (seq 0 n)) (seq 0 d)
                     else chunks d n flat;
            hdims := dims |}
  | [] => Err InvalidArgumentValue
  end.

(** A binary operation on two objects (base.py 5228-5243, 5436): the recorded
    dimensions must be equal and are kept; [op] is the operation on elements. *)
Definition binaryObj (op : leaf -> leaf -> leaf) (o other : hobj) : result hobj :=
  if negb (eqbd (hdims o) (hdims other)) then Err InvalidArgumentValue
  else let (p, f) := shapeOf o in
  if (p =? 0) || (f =? 0) then Err ImproperObjectAction
  else Ok {| hrows := map (fun rs => map (fun ab => op (fst ab) (snd ab)) (combine (fst rs) (snd rs)))
                          (combine (hrows o) (hrows other));
             hdims := hdims o |}.

(** limitedTo2D (_dataHelpers.py 779-795): features operations, setitem,
    getitem, merge, replaceRectangle ... are refused. *)
Definition limitedTo2D {A} (o : hobj) (method : result A) : result A :=
  if isHigh o then Err ImproperObjectAction else method.
