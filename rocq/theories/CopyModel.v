(** Model of [copy]: the same data as a nimble object of another type, as nested
    Python lists, numpy arrays, scipy matrices, a pandas DataFrame or
    dictionaries.  Sources: /repo/nimble/core/data/base.py:3680-3874, list.py:264-331,
    777-781, matrix.py:181-223, dataframe.py:195-262, 585-604, sparse.py:357-406,
    _dataHelpers.py:398-451, _utility.py:147-188, 286-311, 364-368.
    Two-dimensional objects; objects with more dimensions only as far as the
    refusals (their copies: HighModel.v).  Views, datetimes, integers beyond 64
    bits and missing packages are not modelled. *)
From Verif Require Import Base NamesModel TableModel MatchModel LogicModel IdentModel SparseModel ReshapeModel CsvTextModel.
From Verif Require LogModel.
From Coq Require Import List Ascii String. Import ListNotations.
Open Scope nat_scope.

(** The numpy dtype of an array or of a pandas column. *)
Inductive dt := DBool | DInt | DFloat | DObj.
(** What the four types store: a list of lists, a numpy array, a pandas DataFrame
    (dtypes of the columns and rows), a scipy coo_matrix (the cache of the last
    sort is part of [sparse]). *)
Inductive store :=
| SList (m : list (list pval))
| SMat (d : dt) (m : list (list pval))
| SFrame (ds : list dt) (m : list (list pval))
| SCoo (d : dt) (s : sparse pval).
(** base.py:120-160: axes with names, [_dims], the data, [_name], [_absPath],
    [_relPath]. *)
Record obj := mkObj { oP : axis; oF : axis; oDims : list nat; oSt : store;
                      oName : option string; oAbs : option string; oRel : option string }.
Definition withStore (o : obj) (s : store) : obj := mkObj (oP o) (oF o) (oDims o) s (oName o) (oAbs o) (oRel o).
Definition nP (o : obj) : nat := alen (oP o).
Definition nF (o : obj) : nat := alen (oF o).
(** base.py:1240 [getTypeString] *)
Definition kindOf (o : obj) : kind :=
  match oSt o with SList _ => IdentModel.KList | SMat _ _ => KMatrix | SFrame _ _ => KDataFrame | SCoo _ _ => KSparse end.

Inductive spfmt := Csr | Csc | Coo.
Inductive format :=
| FNimble (k : kind) | FPyList | FNpArray | FNpMatrix | FScipy (s : spfmt) | FPandas | FListOfDict | FDictOfList.

(** What copy returns.  Arrays, scipy matrices and pandas DataFrames carry their
    shape; the order in which a scipy matrix stores its entries is not modelled. *)
Inductive copied :=
| CNimble (o : obj)
| CList (l : list (list pval))
| CFlat (array : bool) (l : list pval)
| CArray (matrix : bool) (p f : nat) (m : list (list pval))
| CScipy (s : spfmt) (p f : nat) (es : list (entry pval))
| CFrame (index columns : option (list (option string))) (p f : nat) (m : list (list pval))
| CDicts (l : list (dict (option string) pval))
| CDictOf (d : dict (option string) (list pval)).

(** ** The argument [to] *)
Inductive toArg := ToNone | ToText (s : text) | ToOther.
(** str.strip(): the white space of ASCII *)
Definition blank (c : ascii) : bool :=
  let n := nat_of_ascii c in (n =? 32) || ((9 <=? n) && (n <=? 13)) || ((28 <=? n) && (n <=? 31)).
Fixpoint dropBlanks (t : text) : text :=
  match t with c :: r => if blank c then dropBlanks r else t | [] => [] end.
Definition strip (t : text) : text := rev (dropBlanks (rev (dropBlanks t))).
(** to.split(' ') joined, then to.split('.') joined: the character is left out *)
Definition without (c : ascii) (t : text) : text := filter (fun x => negb (Ascii.eqb x c)) t.
Definition formats : list (text * format) :=
  [ (chars "pythonlist", FPyList); (chars "numpyarray", FNpArray); (chars "numpymatrix", FNpMatrix);
    (chars "scipycsr", FScipy Csr); (chars "scipycsc", FScipy Csc); (chars "scipycoo", FScipy Coo);
    (chars "pandasdataframe", FPandas); (chars "listofdict", FListOfDict); (chars "dictoflist", FDictOfList) ].
Definition nimbleTypes : list (text * format) :=
  [ (chars "List", FNimble IdentModel.KList); (chars "Matrix", FNimble KMatrix); (chars "Sparse", FNimble KSparse);
    (chars "DataFrame", FNimble KDataFrame) ].
Fixpoint lookFormat (t : text) (l : list (text * format)) : option format :=
  match l with [] => None | (n, f) :: r => if String.eqb (str t) (str n) then Some f else lookFormat t r end.
(** base.py:3772-3796 *)
Definition resolve (own : kind) (to : toArg) : result format :=
  match to with
  | ToNone => Ok (FNimble own)
  | ToOther => Err InvalidArgumentType
  | ToText s =>
      match lookFormat s nimbleTypes with
      | Some f => Ok f
      | None =>
          let t := without "."%char (without " "%char (strip (map LogModel.lower s))) in
          match lookFormat t formats with Some f => Ok f | None => Err InvalidArgumentValue end
      end
  end.

(** ** numpy arrays *)
Definition isBoolV (v : pval) : bool := match v with PBool _ => true | _ => false end.
Definition isIntV (v : pval) : bool := match v with PInt _ => true | _ => false end.
Definition isNumberV (v : pval) : bool := match v with PStr _ | PNone => false | _ => true end.
Definition isNoneV (v : pval) : bool := match v with PNone => true | _ => false end.
(** one value in an array of floats *)
Definition toFloat (v : pval) : pval :=
  match v with PBool b => PFloat (if b then 1 else 0)%Q | PInt z => PFloat (inject_Z z) | _ => v end.
Definition asDt (d : dt) (m : list (list pval)) : list (list pval) :=
  match d with DFloat => map (map toFloat) m | _ => m end.
(** _utility.py:155-188 [numpy2DArray] of a list of lists: numbers of one type, or
    integers and floats together, become a numeric array; everything else stays
    an array of Python objects. *)
Definition listDt (m : list (list pval)) : dt :=
  let l := List.concat m in
  if negb (forallb isNumberV l) then DObj
  else if existsb isBoolV l then (if forallb isBoolV l then DBool else DObj)
  else if existsb isIntV l && forallb isIntV l then DInt else DFloat.
(** dataframe.py:585-604 [_asNumpyArray] (numericRequired=False) and pandas' choice
    of one dtype for all columns: booleans mixed with numbers are objects. *)
Definition isDObj (d : dt) : bool := match d with DObj => true | _ => false end.
Definition isDBool (d : dt) : bool := match d with DBool => true | _ => false end.
Definition isDInt (d : dt) : bool := match d with DInt => true | _ => false end.
Definition frameDt (ds : list dt) : dt :=
  match ds with
  | [] => DObj
  | _ => if existsb isDObj ds then DObj
         else if existsb isDBool ds then (if forallb isDBool ds then DBool else DObj)
         else if forallb isDInt ds then DInt else DFloat
  end.
(** what an absent entry of a coo_matrix reads as *)
Definition zeroOf (d : dt) : pval := match d with DBool => PBool false | DFloat => PFloat 0 | _ => PInt 0 end.
(** np.empty(shape) of an object without points or features *)
Definition isEmpty (o : obj) : bool := (nP o =? 0) || (nF o =? 0).
Definition emptyRows (p f : nat) : list (list pval) := repeat (repeat PNaN f) p.

(** list.py:287-294, matrix.py:190-193, dataframe.py:218-233, sparse.py:371-374: the
    object as a numpy array, with its dtype *)
Definition arrayOf (o : obj) : dt * list (list pval) :=
  match oSt o with
  | SList m => if isEmpty o then (DFloat, emptyRows (nP o) (nF o)) else (listDt m, asDt (listDt m) m)
  | SMat d m => (d, m)
  | SFrame ds m => (frameDt ds, asDt (frameDt ds) m)
  | SCoo d s => (d, toDense (zeroOf d) s)
  end.
(** list.py:270-271, matrix.py:187-188, dataframe.py:218-230, sparse.py:369-370 *)
Definition pyListOf (o : obj) : list (list pval) :=
  match oSt o with SList m => m | SMat _ m => m | _ => snd (arrayOf o) end.

(** M.nonzero() of coo_matrix(M): the positions whose value is true *)
Definition entriesOf (m : list (list pval)) : list (entry pval) :=
  flat_map (fun p : nat * list pval =>
    flat_map (fun q : nat * pval => if pyTruth (snd q) then [mkE (fst p) (fst q) (snd q)] else [])
      (combine (seq 0 (List.length (snd p))) (snd p)))
    (combine (seq 0 (List.length m)) m).

(** ** To a nimble type *)
(** sparse.py:84-99: None is replaced by NaN in the array given, then
    coo_matrix(array).  First the array afterwards, then what is stored. *)
Definition noneToNan (m : list (list pval)) : list (list pval) :=
  map (map (fun v => if isNoneV v then PNaN else v)) m.
Definition sparseInit (p f : nat) (d : dt) (m : list (list pval)) : list (list pval) * store :=
  let m' := if existsb isNoneV (List.concat m) then noneToNan m else m in
  (m', SCoo d (mkSp p f (entriesOf m') None None)).
(** list.py:273-284, matrix.py:182-186, dataframe.py:203-215, sparse.py:358-367 and
    _dataHelpers.py:427-451, list.py:68-127, matrix.py:62-79, dataframe.py:62-85: what the
    new object stores, and what the object copied stores afterwards (matrix.py:186
    hands over its own array). *)
Definition nimbleStore (k : kind) (o : obj) : store * store :=
  let p := nP o in let f := nF o in
  match oSt o with
  | SList m =>
      let dm := arrayOf o in
      (SList m,
       match k with
       | IdentModel.KList => SList (if isEmpty o then emptyRows p f else m)
       | KMatrix => SMat (fst dm) (snd dm)
       | KDataFrame => SFrame (repeat (fst dm) f) (snd dm)
       | KSparse => snd (sparseInit p f (fst dm) (snd dm))
       end)
  | SMat d m =>
      match k with
      | IdentModel.KList => (SMat d m, SList m)
      | KMatrix => (SMat d m, SMat d m)
      | KDataFrame => (SMat d m, SFrame (repeat d f) m)
      | KSparse => let '(m', s) := sparseInit p f d m in (SMat d m', s)
      end
  | SFrame ds m =>
      let l := if isEmpty o then arrayOf o else (listDt m, asDt (listDt m) m) in
      (SFrame ds m,
       match k with
       | IdentModel.KList => SList (if isEmpty o then snd l else m)
       | KMatrix => SMat (fst l) (snd l)
       | KDataFrame => SFrame ds m
       | KSparse => snd (sparseInit p f (fst l) (snd l))
       end)
  | SCoo d s =>
      let a := toDense (zeroOf d) s in
      (SCoo d s,
       match k with
       | IdentModel.KList => SList a
       | KMatrix => SMat d a
       | KDataFrame => SFrame (repeat d f) a
       | KSparse => SCoo d (mkSp (snp s) (snf s) (ents s) None None)
       end)
  end.
(** a new object with the names of this one *)
Definition makeNimble (o : obj) (s : store) : result obj :=
  pa <- initAxis (nP o) (getNamesNoGeneration (oP o)) ;;
  fa <- initAxis (nF o) (getNamesNoGeneration (oF o)) ;;
  Ok (mkObj pa fa [nP o; nF o] s None None None).

(** base.py:3634-3640 [transpose], list.py:165-186, matrix.py:121, dataframe.py:143,
    sparse.py:257-259 *)
Definition swapE (e : entry pval) : entry pval := mkE (ec e) (er e) (ev e).
Definition transposeStore (p f : nat) (s : store) : store :=
  match s with
  | SList m => SList (transposeRows f m)
  | SMat d m => SMat d (transposeRows f m)
  | SFrame ds m => SFrame (repeat (frameDt ds) p) (transposeRows f (asDt (frameDt ds) m))
  | SCoo d c => SCoo d (mkSp (snf c) (snp c) (map swapE (ents c)) None None)
  end.
Definition transposeObj (o : obj) : obj :=
  let ax := transpose (mkTable (oP o) (oF o) ([] : list (list pval))) in
  mkObj (tp ax) (tf ax) [nF o; nP o] (transposeStore (nP o) (nF o) (oSt o)) (oName o) (oAbs o) (oRel o).

(** ** To scipy *)
Section Copy.
(** str(v) and float(s) (None: not the text of a number) *)
Variable strOf : pval -> string.
Variable floatOf : string -> option pval.
(** astype(np.float64) of one element *)
Definition asFloat (v : pval) : result pval :=
  match v with
  | PNone => Ok PNaN
  | PStr s => match floatOf s with Some w => Ok w | None => Err ValueErr end
  | _ => Ok (toFloat v)
  end.
(** csr_matrix(array), csc_matrix(array): not for arrays of objects, unless nothing
    is stored *)
Definition compress (d : dt) (m : list (list pval)) : result (list (entry pval)) :=
  let es := entriesOf m in
  match d, es with DObj, _ :: _ => Err TypeErr | _, _ => Ok es end.
(** list.py:307-322, matrix.py:203-216, dataframe.py:241-253, sparse.py:388-398 *)
Definition scipyOf (o : obj) (s : spfmt) : result (list (entry pval)) :=
  match oSt o with
  | SList _ => let '(d, m) := arrayOf o in
      match s with Coo => Ok (entriesOf m) | _ => compress d m end
  | SMat d m =>
      match s with
      | Coo => Ok (entriesOf m)
      | _ => m' <- rmapM (rmapM asFloat) m ;; compress DFloat m'
      end
  | SFrame ds m =>
      match s with
      | Coo => Ok (entriesOf (snd (arrayOf o)))
      | _ => if negb (existsb isDObj ds) && negb (List.length ds =? 0)
             then compress (frameDt ds) (asDt (frameDt ds) m)
             else m' <- rmapM (rmapM asFloat) m ;; compress DFloat m'
      end
  | SCoo d c =>
      match s with
      | Coo => Ok (ents c)
      | _ => rmapM (fun e => rmap (fun v => mkE (er e) (ec e) v) (asFloat (ev e))) (ents c)
      end
  end.

(** ** The implementations of the four types *)
(** the data of the pandas DataFrame: list.py:323-331, matrix.py:217-223,
    dataframe.py:236, 254-262, sparse.py:399-406 *)
Definition pandasOf (o : obj) : copied :=
  let names := (getNamesNoGeneration (oP o), getNamesNoGeneration (oF o)) in
  let fr ns m := CFrame (fst ns) (snd ns) (nP o) (nF o) m in
  match oSt o with
  | SList _ => if isEmpty o then fr (None, None) (emptyRows (nP o) (nF o)) else fr names (snd (arrayOf o))
  | SFrame _ m => fr names m
  | _ => fr names (snd (arrayOf o))
  end.
(** [_copy_implementation]: the object afterwards and the copy *)
Definition copyImpl (o : obj) (fm : format) : obj * result copied :=
  let '(d, a) := arrayOf o in
  match fm with
  | FNimble k =>
      let '(mine, new) := nimbleStore k o in
      (withStore o mine, rmap CNimble (makeNimble o new))
  | FNpMatrix => (o, Ok (CArray true (nP o) (nF o) a))
  | FScipy s => (o, rmap (CScipy s (nP o) (nF o)) (scipyOf o s))
  | FPandas => (o, Ok (pandasOf o))
  | _ => (o, Ok (CArray false (nP o) (nF o) a))
  end.
(** ret.transpose() of what is not a nimble object: the transpose of a csr_matrix
    is a csc_matrix and the other way round *)
Definition transposeRaw (c : copied) : copied :=
  match c with
  | CArray b p f m => CArray b f p (transposeRows f m)
  | CScipy s p f es =>
      CScipy (match s with Csr => Csc | Csc => Csr | Coo => Coo end) f p (map swapE es)
  | CFrame ix cs p f m => CFrame cs ix f p (transposeRows f m)
  | _ => c
  end.

(** base.py:3838-3847 [_copy_outputAs1D] *)
Definition copy1D (o : obj) (array : bool) : copied :=
  if isEmpty o then CFlat array []
  else CFlat array (List.concat (if array then snd (arrayOf o) else pyListOf o)).
(** base.py:3849-3856 [_copy_pythonList]: np.transpose first makes an array of the
    nested list, with one type for all elements *)
Definition copyPyList (o : obj) (rowsArePoints : bool) : copied :=
  let l := pyListOf o in
  if rowsArePoints then CList l
  else let a := npArray strOf l in CList (transposeRows (List.length (nth 0 a [])) a).
(** _dataHelpers.py:398-411 [createListOfDict] *)
Definition listOfDict (data : list (list pval)) (names : list (option string)) : list (dict (option string) pval) :=
  map (fun point => dict_of (combine names point)) data.
(** _dataHelpers.py:413-425 [createDictOfList] *)
Definition columnOf (data : list (list pval)) (i : nat) : list pval :=
  flat_map (fun r => match nth_error r i with Some v => [v] | None => [] end) data.
Definition dictOfList (data : list (list pval)) (names : list (option string)) (n : nat)
  : dict (option string) (list pval) :=
  dict_of (map (fun i => (nth i names None, columnOf data i)) (seq 0 n)).
(** base.py:3858-3871 [_copy_nestedPythonTypes] *)
Definition copyNested (o : obj) (ofDicts rowsArePoints : bool) : copied :=
  let data := snd (arrayOf o) in
  let '(data, names, n) :=
    if rowsArePoints then (data, getNames (oF o), nF o)
    else (transposeRows (nF o) data, getNames (oP o), nP o) in
  if ofDicts then CDicts (listOfDict data names) else CDictOf (dictOfList data names n).

(** ** copy (base.py:3680-3836) *)
Definition isNestedOrCompressed (fm : format) : bool :=
  match fm with FListOfDict | FDictOfList | FScipy Csr | FScipy Csc => true | _ => false end.
Definition isHighObj (o : obj) : bool := 2 <? List.length (oDims o).
Definition copy (o : obj) (to : toArg) (rowsArePoints outputAs1D : bool) : obj * result copied :=
  match resolve (kindOf o) to with
  | Err e => (o, Err e)
  | Ok fm =>
      if isHighObj o && isNestedOrCompressed fm then (o, Err ImproperObjectAction)
      else if isHighObj o && (outputAs1D || negb rowsArePoints) then (o, Err ImproperObjectAction)
      else if outputAs1D then
        match fm with
        | FNpArray | FPyList =>
            if negb (nP o =? 1) && negb (nF o =? 1) then (o, Err ImproperObjectAction)
            else (o, Ok (copy1D o (match fm with FNpArray => true | _ => false end)))
        | _ => (o, Err InvalidArgumentValueCombination)
        end
      else if isHighObj o then (o, Err OutOfFuel) (* HighModel.v *)
      else match fm with
      | FPyList => (o, Ok (copyPyList o rowsArePoints))
      | FListOfDict => (o, Ok (copyNested o true rowsArePoints))
      | FDictOfList => (o, Ok (copyNested o false rowsArePoints))
      | _ =>
          match copyImpl o fm with
          | (o', Err e) => (o', Err e)
          | (o', Ok (CNimble c)) =>
              let c1 := if rowsArePoints then mkObj (oP c) (oF c) (oDims o) (oSt c) None None None else transposeObj c in
              (o', Ok (CNimble (mkObj (oP c1) (oF c1) (oDims c1) (oSt c1) (oName o) (oAbs o) (oRel o))))
          | (o', Ok c) => (o', Ok (if rowsArePoints then c else transposeRaw c))
          end
      end
  end.
End Copy.
