(** Model of transform and transformElements of Sparse objects (C81).  Sources:
    /repo/nimble/core/data/sparseAxis.py:84-123, sparse.py:144-199, axis.py:490-506,
    _dataHelpers.py:553-697, 1157-1172, base.py:808-818, 5644-5687.  A Sparse object
    here is its axes, the dtype of its data and the stored entries; positions that are
    not stored are read as 0.  Simplifications: integers have no bounds and floats
    are exact; functions that return dictionaries or values that are not allowed as
    elements are left out (the same InvalidArgumentValue, raised by the function). *)
From Verif Require Import Base NamesModel TableModel TableOps SparseModel MatchModel QueryModel ElementsModel LogicModel CopyModel TypedModel.
From Coq Require Import List String. Import ListNotations.
Open Scope nat_scope.

Record sobj := mkS { xTp : axis; xTf : axis; xDt : dt; xEnts : list (entry pval) }.
Definition axOf (sd : side) (x : sobj) : axis := match sd with Pts => xTp x | Fts => xTf x end.
Definition offOf (sd : side) (x : sobj) : axis := match sd with Pts => xTf x | Fts => xTp x end.
(** sparseView.py / sparse.py:840-880: an element that is not stored is 0 *)
Definition readAt (es : list (entry pval)) (i j : nat) : pval :=
  match find (fun e => (er e =? i) && (ec e =? j)) es with Some e => ev e | None => PInt 0 end.
Definition readOf (sd : side) (es : list (entry pval)) (i j : nat) : pval :=
  match sd with Pts => readAt es i j | Fts => readAt es j i end.
(** the view of point (feature) [i], sparseAxis.py:96 *)
Definition vecOf (sd : side) (x : sobj) (i : nat) : list pval := map (readOf sd (xEnts x) i) (seq 0 (alen (offOf sd x))).
Definition entAt (sd : side) (i j : nat) (v : pval) : entry pval := match sd with Pts => mkE i j v | Fts => mkE j i v end.
(** retVal != 0 *)
Definition nonzero (v : pval) : bool := negb (pyEq v (PInt 0)).

Section Strans.
Variable floatOf : string -> option pval.
Variable intOf : string -> option Z.
Notation castTo := (TypedModel.castTo floatOf intOf).

(** ** points.transform, features.transform *)
(** _dataHelpers.py:630-668: the function must return one value per element *)
Definition checkedF (F : list pval -> result (list pval)) (k : nat) (r : list pval) : result (list pval) :=
  ret <- F r ;; if List.length ret =? k then Ok ret else Err InvalidArgumentValue.
(** sparseAxis.py:96-106, _dataHelpers.py:676-692: what the new data has for each
    vector, and the largest type returned *)
Fixpoint axisLoop (F : list pval -> result (list pval)) (only : option (list nat)) (sd : side) (x : sobj) (is : list nat) (c : option dt)
  : result (list (list pval) * option dt) :=
  match is with
  | [] => Ok ([], c)
  | i :: t =>
      if outside only i then
        rest <- axisLoop F only sd x t c ;; Ok (vecOf sd x i :: fst rest, snd rest)
      else
        ret <- checkedF F (alen (offOf sd x)) (vecOf sd x i) ;;
        rest <- axisLoop F only sd x t (fold_left updateType ret c) ;; Ok (ret :: fst rest, snd rest)
  end.
(** sparseAxis.py:102-106: what is not 0 is stored *)
Definition lineEntries (sd : side) (i : nat) (r : list pval) : list (entry pval) :=
  map (fun q => entAt sd i (fst q) (snd q)) (filter (fun q => nonzero (snd q)) (combine (seq 0 (List.length r)) r)).
Fixpoint newEntries (sd : side) (i : nat) (rs : list (list pval)) : list (entry pval) :=
  match rs with [] => [] | r :: t => lineEntries sd i r ++ newEntries sd (S i) t end.
(** sparseAxis.py:108-117.  [c] is None only when no vector is transformed: numpy
    then chooses the type of the data itself, floats when there is none. *)
Definition newDt (limited : bool) (base : dt) (c : option dt) (es : list (entry pval)) : dt :=
  if limited && match base, c with
                | DObj, _ => true
                | DFloat, Some DObj => false | DFloat, _ => true
                | DInt, Some DObj | DInt, Some DFloat => false | DInt, _ => true
                | DBool, _ => false
                end then base
  else match c with Some d => d | None => match es with [] => DFloat | _ => base end end.
Definition castEntry (d : dt) (e : entry pval) : result (entry pval) := w <- castTo d (ev e) ;; Ok (mkE (er e) (ec e) w).
(** axis.py:490-506, sparseAxis.py:84-123: nothing is assigned before the last step *)
Definition transformSparse (sd : side) (F : list pval -> result (list pval)) (limitTo : option (list ident)) (x : sobj) : sobj * result unit :=
  if (alen (xTp x) =? 0) || (alen (xTf x) =? 0) then (x, Err ImproperObjectAction)
  else
    match ElementsModel.resolve (axOf sd x) limitTo with
    | Err e => (x, Err e)
    | Ok only =>
        match axisLoop F only sd x (seq 0 (alen (axOf sd x))) None with
        | Err e => (x, Err e)
        | Ok (rs, c) =>
            let es := newEntries sd 0 rs in
            let d := newDt (match only with Some _ => true | None => false end) (xDt x) c es in
            match rmapM (castEntry d) es with
            | Err e => (x, Err e)
            | Ok es' => (mkS (xTp x) (xTf x) d es', Ok tt)
            end
        end
    end.

(** ** transformElements *)
(** _dataHelpers.py:1157-1172 [modifyNumpyArrayValue] *)
Definition modifyArray (d : dt) (data : list pval) (k : nat) (w : pval) : result (dt * list pval) :=
  let textual := match w with PNone => false | _ => nonNumeric w end in
  let floating := match w with PFloat _ | PPosInf | PNegInf | PNaN | PNone => true | _ => false end in
  let d' := match d with
            | DObj => DObj
            | DFloat => if textual then DObj else DFloat
            | _ => if textual then DObj else if floating then DFloat else d
            end in
  data' <- rmapM (castTo d') data ;; w' <- castTo d' w ;; Ok (d', upd data' k w').
(** sparse.py:178-195: the loop over the stored entries; [data] is self._data.data,
    the function is given the elements the array held at first *)
Fixpoint storedLoop (g : pval -> nat -> nat -> result pval) (ps fs : option (list nat)) (k : nat) (todo : list (entry pval))
  (d : dt) (data : list pval) : (dt * list pval) * result unit :=
  match todo with
  | [] => ((d, data), Ok tt)
  | e :: t =>
      if outside ps (er e) || outside fs (ec e) then storedLoop g ps fs (S k) t d data
      else
        match g (ev e) (er e) (ec e) with
        | Err x => ((d, data), Err x)
        | Ok w =>
            match modifyArray d data k w with
            | Err x => ((d, data), Err x)
            | Ok (d', data') => storedLoop g ps fs (S k) t d' data'
            end
        end
  end.
(** the positions stay, the data is replaced *)
Definition withData (es : list (entry pval)) (data : list pval) : list (entry pval) :=
  map (fun q => mkE (er (fst q)) (ec (fst q)) (snd q)) (combine es data).
(** issubclass(type(d), numbers.Number): not np.bool_, not str, not None *)
Definition allNumbers (d : dt) (data : list pval) : bool :=
  match d with
  | DBool => match data with [] => true | _ => false end
  | _ => forallb (fun v => match v with PStr _ | PNone => false | _ => true end) data
  end.
(** sparse.py:197-198: np.array(list(data)) *)
Definition renumber (d : dt) (data : list pval) : result (dt * list pval) :=
  if allNumbers d data then
    let d' := match map valueDt data with [] => DFloat | a :: l => fold_left dmax l a end in
    data' <- rmapM (castTo d') data ;; Ok (d', data')
  else Ok (d, data).
(** sparse.py:176-199 *)
Definition transformStored (g : pval -> nat -> nat -> result pval) (ps fs : option (list nat)) (x : sobj) : sobj * result unit :=
  let res := storedLoop g ps fs 0 (xEnts x) (xDt x) (map (@ev pval) (xEnts x)) in
  let d := fst (fst res) in let data := snd (fst res) in
  match snd res with
  | Err e => (mkS (xTp x) (xTf x) d (withData (xEnts x) data), Err e)
  | Ok _ =>
      match renumber d data with
      | Err e => (mkS (xTp x) (xTf x) d (withData (xEnts x) data), Err e)
      | Ok (d', data') => (mkS (xTp x) (xTf x) d' (filter (fun e => nonzero (ev e)) (withData (xEnts x) data')), Ok tt)
      end
  end.
(** the table that the object shows *)
Definition denseOf (x : sobj) : table pval :=
  mkTable (xTp x) (xTf x) (map (fun i => map (readAt (xEnts x) i) (seq 0 (alen (xTf x)))) (seq 0 (alen (xTp x)))).
(** sparse.py:150-174: calculateOnElements over everything, where the elements
    outside give None, which is replaced by the element itself *)
Definition wrapperF (g : pval -> nat -> nat -> result pval) (ps fs : option (list nat)) : efun :=
  F3 (fun v i j => if outside ps i || outside fs j then Ok PNone else g v i j).
Variable strOf : pval -> string.
(** base.py:5644-5687: the data of the result, the names of the object itself.  The
    dtype of the new data is not modelled (object). *)
Definition transformDense (g : pval -> nat -> nat -> result pval) (ps fs : option (list nat)) (x : sobj) : sobj * result unit :=
  match calculateOnElements (fun s => option_map PInt (intOf s)) floatOf strOf (denseOf x) (wrapperF g ps fs) None None false true with
  | Err e => (x, Err e)
  | Ok r =>
      match withNames (mkAxis (alen (tp r)) None) (getNamesNoGeneration (xTp x)), withNames (mkAxis (alen (tf r)) None) (getNamesNoGeneration (xTf x)) with
      | Ok a, Ok b => (mkS a b DObj (newEntries Pts 0 (rows r)), Ok tt)
      | Err e, _ | _, Err e => (x, Err e)
      end
  end.
(** base.py:808-818, sparse.py:144-150 *)
Definition transformElementsSparse (f : efun) (points features : option (list ident)) (pz skip : bool) (x : sobj) : sobj * result unit :=
  match ElementsModel.resolve (xTp x) points with
  | Err e => (x, Err e)
  | Ok ps =>
      match ElementsModel.resolve (xTf x) features with
      | Err e => (x, Err e)
      | Ok fs =>
          if zeroPreserving pz f then transformStored (validated pz skip f) ps fs x
          else transformDense (validated pz skip f) ps fs x
      end
  end.
End Strans.
