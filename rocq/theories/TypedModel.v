(** Model of the storage operations of Matrix objects (one numpy dtype) and
    DataFrame objects (one pandas dtype per feature).  Sources:
    /repo/nimble/core/data/matrixAxis.py:55-290, matrix.py:224-246, 400-405,
    dataframeAxis.py:57-310, dataframe.py:270-320, 568-604,
    _dataHelpers.py:335-378, 625-700.  These are the *_implementation methods: the
    front ends (names, validation, indices) are those of TableModel.v,
    ReshapeModel.v and the others.  Simplifications: integers have no bounds and
    floats are exact, datetimes are left out, an exception of numpy or pandas in
    the middle of an assignment leaves the data as it was. *)
From Verif Require Import Base NamesModel TableModel MatchModel LogicModel ReshapeModel CopyModel.
From Coq Require Import List String QArith. Import ListNotations.
Open Scope nat_scope.

(** ** dtypes *)
(** np.dtype comparison: bool < int < float < object *)
Definition level (d : dt) : nat := match d with DBool => 0 | DInt => 1 | DFloat => 2 | DObj => 3 end.
Definition dmax (a b : dt) : dt := if level a <? level b then b else a.
Definition dmaxs (l : list dt) : result dt :=
  match l with [] => Err ValueErr | d :: t => Ok (fold_left dmax t d) end.
(** pd.concat of two columns *)
Definition framePromote (a b : dt) : dt :=
  if level a =? level b then a
  else match a, b with DInt, DFloat | DFloat, DInt => DFloat | _, _ => DObj end.

Section Typed.
(** float(s), int(s) (None: not the text of a number); the integer that a C cast
    makes of NaN and infinities *)
Variable floatOf : string -> option pval.
Variable intOf : string -> option Z.
Variable junk : Z.

(** int(q) *)
Definition truncQ (q : Q) : Z := Z.quot (Qnum q) (Zpos (Qden q)).
(** astype of one element; the same conversion when one value is assigned *)
Definition castTo (d : dt) (v : pval) : result pval :=
  match d with
  | DObj => Ok v
  | DBool => Ok (PBool (pyTruth v))
  | DFloat => asFloat floatOf v
  | DInt =>
      match v with
      | PBool b => Ok (PInt (if b then 1 else 0))
      | PInt z => Ok (PInt z)
      | PFloat q => Ok (PInt (truncQ q))
      | PPosInf | PNegInf | PNaN => Err ValueErr
      | PStr s => match intOf s with Some z => Ok (PInt z) | None => Err ValueErr end
      | PNone => Err TypeErr
      end
  end.
(** array.astype(d) *)
Definition castRows (d : dt) (m : list (list pval)) : result (list (list pval)) := rmapM (rmapM (castTo d)) m.
(** dataframe.py:568-579 [_setDtypes]: each column to its dtype *)
Definition castCols (ds : list dt) (m : list (list pval)) : result (list (list pval)) :=
  rmapM (fun r => rmapM (fun p : dt * pval => castTo (fst p) (snd p)) (combine ds r)) m.

(** ** Lists of rows, of columns, of dtypes *)
(** l[idx]; the indices are in range (front end) *)
Definition takeL {A} (dflt : A) (idx : list nat) (l : list A) : list A := map (fun i => nth i l dflt) idx.
(** np.delete, DataFrame.drop *)
Definition dropL {A} (idx : list nat) (l : list A) : list A :=
  map snd (filter (fun p : nat * A => negb (mem (fst p) idx)) (combine (seq 0 (List.length l)) l)).
(** l[:k] + new + l[k:] *)
Definition insertL {A} (k : nat) (new l : list A) : list A := firstn k l ++ new ++ skipn k l.
(** np.repeat, np.tile *)
Definition repeatL {A} (n : nat) (each : bool) (l : list A) : list A :=
  if each then flat_map (fun x => repeat x n) l else List.concat (repeat l n).
(** on the rows, or on the columns *)
Definition takeM (points : bool) (idx : list nat) (m : list (list pval)) : list (list pval) :=
  if points then takeL [] idx m else map (takeL PNone idx) m.
Definition dropM (points : bool) (idx : list nat) (m : list (list pval)) : list (list pval) :=
  if points then dropL idx m else map (dropL idx) m.
Definition repeatM (points : bool) (n : nat) (each : bool) (m : list (list pval)) : list (list pval) :=
  if points then repeatL n each m else map (repeatL n each) m.
Definition insertM (points : bool) (k : nat) (new m : list (list pval)) : list (list pval) :=
  if points then insertL k new m else map (fun p : list pval * list pval => insertL k (fst p) (snd p)) (combine new m).

(** ** Matrix *)
(** matrixAxis.py:55-80: what copy/extract return, and what delete leaves *)
Definition matTake (points : bool) (idx : list nat) (x : dt * list (list pval)) := (fst x, takeM points idx (snd x)).
Definition matDrop (points : bool) (idx : list nat) (x : dt * list (list pval)) := (fst x, dropM points idx (snd x)).
(** matrixAxis.py:82-87 *)
Definition matPermute (points : bool) (idx : list nat) (x : dt * list (list pval)) := (fst x, takeM points idx (snd x)).
(** matrixAxis.py:114-128 *)
Definition matRepeat (points : bool) (n : nat) (each : bool) (x : dt * list (list pval)) := (fst x, repeatM points n each (snd x)).
(** matrixAxis.py:168-177, 240-250 np.concatenate *)
Definition matInsert (points : bool) (k : nat) (new x : dt * list (list pval)) : result (dt * list (list pval)) :=
  let d := dmax (fst x) (fst new) in
  a <- castRows d (snd x) ;; b <- castRows d (snd new) ;; Ok (d, insertM points k b a).
(** matrix.py:404 [_setitem_implementation] *)
Definition updM (m : list (list pval)) (i j : nat) (v : pval) : list (list pval) :=
  match nth_error m i with Some r => upd m i (upd r j v) | None => m end.
Definition matSet (x : dt * list (list pval)) (i j : nat) (v : pval) : result (dt * list (list pval)) :=
  w <- castTo (fst x) v ;; Ok (fst x, updM (snd x) i j w).
(** base.py:2254-2260: every pair of the lists *)
Fixpoint matSetAll (x : dt * list (list pval)) (ps : list (nat * nat)) (v : pval) : (dt * list (list pval)) * result unit :=
  match ps with
  | [] => (x, Ok tt)
  | p :: t => match matSet x (fst p) (snd p) v with Ok x' => matSetAll x' t v | Err e => (x, Err e) end
  end.
Definition matSetMany (x : dt * list (list pval)) (is js : list nat) (v : pval) : (dt * list (list pval)) * result unit :=
  matSetAll x (list_prod is js) v.
(** assignment of an array of numbers to a slice: a C cast *)
Definition assignTo (numbers : bool) (d : dt) (v : pval) : result pval :=
  match d, v with
  | DInt, PPosInf | DInt, PNegInf | DInt, PNaN => if numbers then Ok (PInt junk) else castTo d v
  | _, _ => castTo d v
  end.
(** m[ps:ps+rows, fs:fs+columns] = values *)
Definition pasteRow (fs : nat) (new old : list pval) : list pval := firstn fs old ++ new ++ skipn (fs + List.length new) old.
Definition paste (ps fs : nat) (values m : list (list pval)) : list (list pval) :=
  firstn ps m
  ++ map (fun p : list pval * list pval => pasteRow fs (fst p) (snd p)) (combine values (firstn (List.length values) (skipn ps m)))
  ++ skipn (ps + List.length values) m.
(** value * np.ones: always floats *)
Definition constant (np nf : nat) (v : pval) : list (list pval) := repeat (repeat (toFloat v) nf) np.
(** matrix.py:224-237 [_replaceRectangle_implementation] with values of dtype [d] *)
Definition matReplace (x : dt * list (list pval)) (ps fs : nat) (values : dt * list (list pval)) : result (dt * list (list pval)) :=
  vs <- rmapM (rmapM (assignTo (negb (isDObj (fst values))) (fst x))) (snd values) ;; Ok (fst x, paste ps fs vs (snd x)).
Definition matReplaceConstant (x : dt * list (list pval)) (ps fs np nf : nat) (v : pval) : result (dt * list (list pval)) :=
  matReplace x ps fs (DFloat, constant np nf v).
(** numpy reshape: the elements in order, row by row or column by column *)
Definition flatElements (nf : nat) (pointOrder : bool) (m : list (list pval)) : list pval :=
  List.concat (if pointOrder then m else transposeRows nf m).
Definition reshapeRows (np nf : nat) (pointOrder : bool) (l : list pval) : list (list pval) :=
  map (fun i => map (fun j => nth (if pointOrder then i * nf + j else j * np + i) l PNone) (seq 0 nf)) (seq 0 np).
(** matrix.py:239-246 *)
Definition matFlatten (nf : nat) (pointOrder : bool) (x : dt * list (list pval)) := (fst x, [flatElements nf pointOrder (snd x)]).
Definition matUnflatten (np nf : nat) (pointOrder : bool) (x : dt * list (list pval)) :=
  (fst x, reshapeRows np nf pointOrder (List.concat (snd x))).

(** *** transform *)
(** _dataHelpers.py:676-692 [updateConvertType]: the largest type returned so far *)
Definition valueDt (v : pval) : dt :=
  match v with PBool _ => DBool | PInt _ => DInt | PStr _ => DObj | _ => DFloat end.
Definition updateType (c : option dt) (v : pval) : option dt :=
  match c with None => Some (valueDt v) | Some d => Some (dmax d (valueDt v)) end.
(** matrixAxis.py:134-146 [_convertBaseDtype] *)
Definition convertBase (base ret : dt) : dt :=
  match base, ret with
  | DObj, _ => DObj
  | _, DObj => DObj
  | DInt, DFloat => DFloat
  | DBool, _ => ret
  | _, _ => base
  end.
(** matrixAxis.py:179-192, 252-267, one vector after another; [only]: the vectors to
    transform (None: all).  The function has been validated: it returns one value
    per element or raises. *)
Fixpoint transformLoop (F : list pval -> result (list pval)) (only : option (list nat)) (is : list nat)
  (d : dt) (c : option dt) (vs : list (list pval)) : (dt * list (list pval) * option dt) * result unit :=
  match is with
  | [] => ((d, vs, c), Ok tt)
  | i :: t =>
      if match only with Some l => negb (mem i l) | None => false end then transformLoop F only t d c vs
      else
        match F (nth i vs []) with
        | Err e => ((d, vs, c), Err e)
        | Ok ret =>
            match fold_left updateType ret c with
            | None => ((d, vs, c), Err ValueErr) (* an empty vector: refused by the front end *)
            | Some c' =>
                match rmapM (castTo c') ret with
                | Err e => ((d, vs, Some c'), Err e)
                | Ok arr =>
                    let d' := convertBase d c' in
                    match castRows d' vs, rmapM (castTo d') arr with
                    | Ok vs', Ok new => transformLoop F only t d' (Some c') (upd vs' i new)
                    | Err e, _ | _, Err e => ((d, vs, Some c'), Err e)
                    end
                end
            end
        end
  end.
Definition transformVectors (F : list pval -> result (list pval)) (only : option (list nat)) (d : dt) (vs : list (list pval))
  : (dt * list (list pval)) * result unit :=
  match transformLoop F only (seq 0 (List.length vs)) d None vs with
  | ((d', vs', _), Err e) => ((d', vs'), Err e)
  | ((d', vs', c), Ok _) =>
      match only, c with
      | None, Some c' =>
          if isDObj d' && negb (isDObj c') then
            match castRows c' vs' with Ok vs2 => ((c', vs2), Ok tt) | Err e => ((d', vs'), Err e) end
          else ((d', vs'), Ok tt)
      | _, _ => ((d', vs'), Ok tt)
      end
  end.
Definition matTransform (points : bool) (np nf : nat) (F : list pval -> result (list pval)) (only : option (list nat)) (x : dt * list (list pval))
  : (dt * list (list pval)) * result unit :=
  if points then transformVectors F only (fst x) (snd x)
  else let '((d, vs), r) := transformVectors F only (fst x) (transposeRows nf (snd x)) in ((d, transposeRows np vs), r).

(** ** DataFrame *)
Notation frame := (list dt * list (list pval))%type.
(** dataframe.py:581-604 [_asNumpyArray] *)
Definition frameArray (x : frame) : list (list pval) := asDt (frameDt (fst x)) (snd x).
(** dataframeAxis.py:57-98 *)
Definition frameTake (points : bool) (idx : list nat) (x : frame) : result frame :=
  let ds := if points then fst x else takeL DObj idx (fst x) in
  m <- castCols ds (takeM points idx (frameArray x)) ;; Ok (ds, m).
Definition frameDrop (points : bool) (idx : list nat) (x : frame) : frame :=
  (if points then fst x else dropL idx (fst x), dropM points idx (snd x)).
(** dataframeAxis.py:100-107 *)
Definition framePermute (points : bool) (idx : list nat) (x : frame) : frame :=
  (if points then fst x else takeL DObj idx (fst x), takeM points idx (snd x)).
(** dataframeAxis.py:130-151 *)
Definition frameRepeat (points : bool) (n : nat) (each : bool) (x : frame) : frame :=
  (if points then fst x else repeatL n each (fst x), repeatM points n each (snd x)).
(** dataframeAxis.py:180-190, 282-292 pd.concat *)
Definition frameInsert (points : bool) (k : nat) (new x : frame) : result frame :=
  if points then
    let ds := map (fun p : dt * dt => framePromote (fst p) (snd p)) (combine (fst x) (fst new)) in
    a <- castCols ds (snd x) ;; b <- castCols ds (snd new) ;; Ok (ds, insertL k b a)
  else Ok (insertL k (fst new) (fst x), insertM false k (snd new) (snd x)).
(** dataframe.py:270-296 [_replaceRectangle_implementation]: dtypes and values of the
    replacement *)
Fixpoint maxFrom (ds news : list dt) : list dt :=
  match ds, news with d :: t, n :: u => dmax d n :: maxFrom t u | _, _ => ds end.
Definition frameReplace (x : frame) (ps fs : nat) (rds : list dt) (values : list (list pval)) : result frame :=
  let ds := firstn fs (fst x) ++ maxFrom (skipn fs (fst x)) rds in
  m <- castCols ds (paste ps fs values (snd x)) ;; Ok (ds, m).
Definition frameReplaceObject (x : frame) (ps fs : nat) (new : frame) : result frame :=
  frameReplace x ps fs (fst new) (frameArray new).
Definition frameReplaceConstant (x : frame) (ps fs np nf : nat) (v : pval) : result frame :=
  frameReplace x ps fs (repeat (valueDt v) nf) (constant np nf v).
(** dataframe.py:298-311 *)
Definition frameFlatten (np nf : nat) (pointOrder : bool) (x : frame) : result frame :=
  let ds := repeatL np (negb pointOrder) (fst x) in
  m <- castCols ds [flatElements nf pointOrder (frameArray x)] ;; Ok (ds, m).
(** dtypes[start::step], dtypes[start:stop] *)
Definition every (start step n : nat) (l : list dt) : list dt :=
  flat_map (fun i => match nth_error l (start + i * step) with Some d => [d] | None => [] end) (seq 0 n).
Definition slice (start stop : nat) (l : list dt) : list dt := firstn (stop - start) (skipn start l).
(** dataframe.py:313-330: in feature order the slice has as many dtypes as there are
    features *)
Definition frameUnflatten (np nf : nat) (pointOrder : bool) (x : frame) : result frame :=
  let ds := match fst x with [d] => if 1 <? nf then repeat d (np * nf) else [d] | ds => ds end in
  news <- rmapM (fun j => dmaxs (if pointOrder then every j nf (List.length ds) ds else slice (j * np) (j * np + nf) ds)) (seq 0 nf) ;;
  m <- castCols news (reshapeRows np nf pointOrder (List.concat (frameArray x))) ;; Ok (news, m).

(** *** Reshaping *)
(** _dataHelpers.py:335-353: one row per point and collapsed feature *)
Definition collapsedRows (names : list pval) (retain collapse : list (list pval)) : list (list pval) :=
  flat_map (fun p : list pval * list pval => map (fun q : pval * pval => fst p ++ [fst q; snd q]) (combine names (snd p)))
           (combine retain collapse).
(** dataframeAxis.py:217-237: the dtypes of the names and of the values stand where the
    first collapsed feature stood *)
Fixpoint collapsedDtypes (retain : list nat) (first : nat) (extra : list dt) (i : nat) (ds : list dt) : list dt :=
  match ds with
  | [] => []
  | d :: t => (if mem i retain then [d] else if i =? first then extra else []) ++ collapsedDtypes retain first extra (S i) t
  end.
Definition frameCollapse (names : list pval) (collapse retain : list nat) (x : frame) : (list (list pval)) * result frame :=
  let a := frameArray x in
  let data := collapsedRows names (map (takeL PNone retain) a) (map (takeL PNone collapse) a) in
  let r := top <- dmaxs (fst x) ;;
           let ds := collapsedDtypes retain (hd 0 collapse) [DObj; top] 0 (fst x) in
           if negb (List.length ds =? S (S (List.length retain))) then Err InvalidArgumentValue
           else m <- castCols ds data ;; Ok (ds, m) in
  (data, r).
(** dataframeAxis.py:239-258; [rows]: the array filled by fillArrayWithExpandedFeatures *)
Definition expandedDtypes (ni n : nat) (uncombined values : list dt) : list dt :=
  firstn ni uncombined ++ List.concat (repeat values n) ++ skipn ni uncombined.
Definition frameExpand (ni ne nf : nat) (names : list pval) (groups : list group) (uncombined values : list dt) : result frame :=
  data <- rmapM (fillExpanded ni ne nf names) groups ;;
  let ds := expandedDtypes ni (List.length names) uncombined values in
  m <- castCols ds data ;; Ok (ds, m).
End Typed.
