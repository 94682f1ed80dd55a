(** Reading elements of an object: obj[...], points[...], features[...],
    countUniqueElements and iterateElements.  Sources:
    /repo/nimble/core/data/base.py, axis.py, _dataHelpers.py, sparse.py. *)
From Verif Require Import Base NamesModel TableModel TableOps ViewModel IdentModel MatchModel SparseModel.

(** ** obj[key] *)
(** A key: a tuple of two components or one component alone. *)
Inductive gkey := GPair (kx ky : skey) | GOne (k : skey).
Definition fullSlice : skey := SMany (KSlice None None None).

Section Get.
Variable V : Type.
Implicit Types t : table V.

(** What indexing returns: one element or a new object. *)
Inductive got := GElem (v : V) | GObj (t : table V).

(** [key in pointsNamesList] (base.py:2105-2110, 2121-2132); only a string can
    be a name. *)
Definition isNameOf (a : axis) (k : skey) : bool :=
  match k with
  | SOne (IdStr s) => namesCreated a && mem (Some s) (getNames a)
  | _ => false
  end.
(** base.py:2112-2138: a key that is not a tuple *)
Definition splitKey t (k : gkey) : result (skey * skey) :=
  match k with
  | GPair kx ky => Ok (kx, ky)
  | GOne k =>
      if alen (tp t) =? 1 then Ok (SOne (IdInt 0), k)
      else if alen (tf t) =? 1 then Ok (k, SOne (IdInt 0))
      else if isNameOf (tp t) k && negb (isNameOf (tf t) k) then Ok (k, fullSlice)
      else if isNameOf (tf t) k && negb (isNameOf (tp t) k) then Ok (fullSlice, k)
      else Err InvalidArgumentType
  end.
(** [self._data[x][y]]: list.py:535-536, matrix.py:400-401 *)
Definition getOne t (x y : Z) : result V :=
  match pyIndex (List.length (rows t)) x with
  | None => Err IndexErr
  | Some i =>
      match nth_error (rows t) i with
      | None => Err IndexErr
      | Some r => match pyIndex (List.length r) y with
                  | None => Err IndexErr
                  | Some j => match nth_error r j with Some v => Ok v | None => Err IndexErr end
                  end
      end
  end.
(** [_structuralBackend_implementation('copy', key)] (axis.py:1215-1253) on
    indices.  (Indices outside the axis, which only a float identifier can
    produce, are an IndexError for every type in the model.) *)
Definition takenZ (sd : side) t (l : list Z) : result (table V) :=
  idx <- rmapM (fun z => match pyIndex (alen (ax sd t)) z with Some i => Ok i | None => Err IndexErr end) l ;;
  taken sd t idx.
Definition asList (r : sres) : option (list Z) := match r with ROne z => Some [z] | RMany o => o end.
(** base.py:2140-2178 [__getitem__] *)
Definition getItem t (k : gkey) : result got :=
  p <- splitKey t k ;;
  rx <- resolveKey (tp t) (fst p) ;;
  ry <- resolveKey (tf t) (snd p) ;;
  match rx, ry with
  | ROne x, ROne y => rmap GElem (getOne t x y)
  | _, _ =>
      rmap GObj
        match asList rx, asList ry with
        | None, None => copyTable t
        | Some xs, None => takenZ Pts t xs
        | None, Some ys => takenZ Fts t ys
        | Some xs, Some ys => r <- takenZ Pts t xs ;; takenZ Fts r ys
        end
  end.
(** axis.py:363-374 [_getitem]: points[key], features[key] (two dimensions) *)
Definition axisItem (sd : side) t (k : skey) : result (table V) :=
  r <- resolveKey (ax sd t) k ;;
  match asList r with
  | None => copyTable t
  | Some l => takenZ sd t l
  end.

(** ** iterateElements *)
Definition eachColumn t : list (list V) := map (column t) (seq 0 (alen (tf t))).
(** _dataHelpers.py:728-767 [NimbleElementIterator], run to the end:
    [np.nditer] in 'C' or 'F' order over the (dense) array; [only] decides
    element by element. *)
Fixpoint keepOnly (only : V -> result bool) (l : list V) : result (list V) :=
  match l with
  | [] => Ok []
  | v :: rest =>
      b <- only v ;;
      r <- keepOnly only rest ;;
      Ok (if b then v :: r else r)
  end.
Definition drained (only : option (V -> result bool)) (l : list V) : result (list V) :=
  match only with None => Ok l | Some f => keepOnly f l end.
(** base.py:464-509, with list.py:654-656, matrix.py:494-495,
    dataframe.py:570-571; [order] is 'point' or 'feature' *)
Definition iterateElements t (order : side) (only : option (V -> result bool)) : result (list V) :=
  drained only (List.concat match order with Pts => rows t | Fts => eachColumn t end).
(** sparse.py:1281-1287: the zeros are skipped when [only] refuses 0, and the
    stored values come in the order of the internal sort. *)
Definition sparseIterate (zero : V) (s : sparse V) (order : side) (only : option (V -> result bool)) : sparse V * result (list V) :=
  let dense := (s, drained only (List.concat match order with
                                | Pts => toDense zero s
                                | Fts => map (fun j => flat_map (fun r => match nth_error r j with Some v => [v] | None => [] end) (toDense zero s))
                                             (seq 0 (snf s))
                                end)) in
  match only with
  | None => dense
  | Some f =>
      match f zero with
      | Err e => (s, Err e)
      | Ok true => dense
      | Ok false =>
          let s' := sortInternal s order false false in
          (s', keepOnly f (map (@ev V) (ents s')))
      end
  end.
End Get.
Arguments GElem {V} _.
Arguments GObj {V} _.
Arguments splitKey {V} _ _.
Arguments getOne {V} _ _ _.
Arguments takenZ {V} _ _ _.
Arguments getItem {V} _ _.
Arguments axisItem {V} _ _ _.
Arguments eachColumn {V} _.
Arguments keepOnly {V} _ _.
Arguments drained {V} _ _.
Arguments iterateElements {V} _ _ _.
Arguments sparseIterate {V} _ _ _ _.

(** ** countUniqueElements *)
(** An element of an array together with the Python object that holds it
    (only the identity of NaN objects matters). *)
Definition ovalue := (pval * nat)%type.
Definition isNaN (v : pval) : bool := match v with PNaN => true | _ => false end.
(** [val in mapping]: the same object, or equal *)
Definition sameKey (a b : ovalue) : bool :=
  (isNaN (fst a) && isNaN (fst b) && (snd a =? snd b)) || pyEq (fst a) (fst b).
(** _dataHelpers.py:486-500 (data that are not numeric): values are numbered
    as they are first met, and the numbers are counted; the result lists them
    in that order.  [np.vectorize] refuses an empty array. *)
Fixpoint bump (v : ovalue) (d : list (ovalue * nat)) : list (ovalue * nat) :=
  match d with
  | [] => [(v, 1)]
  | (k, n) :: rest => if sameKey k v then (k, S n) :: rest else (k, n) :: bump v rest
  end.
Definition objectCounts (l : list ovalue) : result (list (pval * nat)) :=
  match l with
  | [] => Err ValueErr
  | _ => Ok (map (fun p => (fst (fst p), snd p)) (fold_left (fun d v => bump v d) l []))
  end.
(** _dataHelpers.py:481-484, 501-510 (numeric data): [np.unique] sorts the
    values, NaN last, and counts runs of equal values; the counts of NaN are
    added up. *)
Definition numLe (a b : pval) : bool :=
  match numOf a, numOf b with
  | Some x, Some y => extLtb x y || extEqb x y
  | _, None => true
  | None, Some _ => false
  end.
Fixpoint runs (l : list pval) : list (pval * nat) :=
  match l with
  | [] => []
  | v :: rest =>
      match runs rest with
      | (w, n) :: more => if pyEq v w then (v, S n) :: more else (v, 1) :: (w, n) :: more
      | [] => [(v, 1)]
      end
  end.
Fixpoint addNaN (n : nat) (d : list (pval * nat)) : list (pval * nat) :=
  match d with
  | [] => [(PNaN, n)]
  | (k, m) :: rest => if isNaN k then (k, m + n) :: rest else (k, m) :: addNaN n rest
  end.
(** [ret[val] = count] *)
Fixpoint putCount (v : pval) (n : nat) (d : list (pval * nat)) : list (pval * nat) :=
  match d with
  | [] => [(v, n)]
  | (k, m) :: rest => if pyEq k v then (k, n) :: rest else (k, m) :: putCount v n rest
  end.
Definition numericCounts (l : list pval) : list (pval * nat) :=
  fold_left (fun d p => if isNaN (fst p) then addNaN (snd p) d else putCount (fst p) (snd p) d)
            (runs (stableSort numLe l)) [].
(** _dataHelpers.py:463-512 [denseCountUnique] on the flattened array;
    [numeric] is [issubclass(array.dtype.type, np.number)] *)
Definition countArray (numeric : bool) (l : list ovalue) : result (list (pval * nat)) :=
  if numeric then Ok (numericCounts (map fst l)) else objectCounts l.
(** _dataHelpers.py:454-460 [_limitAndConvertToArray]; an element has no
    [copy]. *)
Definition orFull (k : option skey) : skey := match k with Some k => k | None => fullSlice end.
Definition countUnique (numeric : bool) (t : table ovalue) (points features : option skey) : result (list (pval * nat)) :=
  match points, features with
  | None, None => countArray numeric (List.concat (rows t))
  | _, _ =>
      g <- getItem t (GPair (orFull points) (orFull features)) ;;
      match g with
      | GElem _ => Err AttributeErr
      | GObj o => countArray numeric (List.concat (rows o))
      end
  end.
(** sparse.py:241-256 [_countUnique_implementation] on the whole object: the
    stored values are counted, then the number of positions without one is
    stored under 0. *)
Definition sparseCount (numeric : bool) (s : sparse ovalue) : result (list (pval * nat)) :=
  d <- countArray numeric (map (@ev ovalue) (ents s)) ;;
  let numZeros := snp s * snf s - List.length (ents s) in
  Ok (if 0 <? numZeros then putCount (PInt 0) numZeros d else d).
