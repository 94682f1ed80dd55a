(** Model of loading a CSV file (C25, C26, C27).
    Sources: /repo/nimble/core/_createHelpers.py:173-215 (autoDetectNamesFromRaw),
    2350-2435 (_intFloatOrString, _intFloatBoolOrString, _csvColTypeTracking,
    _colTypeConversion), 2437-2483 (_checkCSVForNames), 2506-2529
    (_namesDictToList), 2556-2658 (_checkForDuplicates,
    _keepIndexValuesValidation, _limitToKeptFeatures), 2799-3104
    (_loadcsvUsingPython).  The input is the list of non-empty rows that
    csv.reader yields after the leading comments.  Which strings int() and
    float() accept are the parameters [isInt] and [isFloat].  The result is the
    nested list handed to pandas/numpy, before any later conversion. *)
From Verif Require Import Base.
Open Scope string_scope.
Open Scope list_scope.
Open Scope nat_scope.

Inductive ctype := TBool | TInt | TFloat | TStr.
#[export] Instance EqDec_ctype : EqDec ctype.
Proof. unfold EqDec. decide equality. Defined.
(** _createHelpers.py:2374 [typeHierarchy] *)
Definition rank (t : ctype) : nat := match t with TBool => 0 | TInt => 1 | TFloat => 2 | TStr => 3 end.
(** a loaded element: the string, or int(s), float(s), a bool, nan *)
Inductive lval := LStr (s : string) | LInt (s : string) | LFloat (s : string) | LBool (b : bool) | LNaN.

Section Csv.
Variables (isInt isFloat : string -> bool).

(** 2350-2372: type(_intFloatBoolOrString(s)); [None] for the empty string *)
Definition colType (s : string) : option ctype :=
  if String.eqb s "" then None
  else if isInt s then Some TInt
  else if isFloat s then Some TFloat
  else if String.eqb s "True" || String.eqb s "False" then Some TBool
  else Some TStr.

(** convertCols, nonNumericFeatures, allEmptyFeatures *)
Record tstate := mkT { tConv : list (nat * ctype); tNon : list nat; tEmpty : list nat }.
Definition at_row (row : list string) (i : nat) : result string :=
  match nth_error row i with Some s => Ok s | None => Err IndexErr end.
Definition addTo (x : nat) (l : list nat) : list nat := if mem x l then l else l ++ [x].
Definition removeFrom (x : nat) (l : list nat) : list nat := filter (fun y => negb (x =? y)) l.
(** 2391-2402: the loop over convertCols: the types afterwards and delKeys *)
Fixpoint trackConv (row : list string) (conv : list (nat * ctype)) : result (list (nat * ctype) * list nat) :=
  match conv with
  | [] => Ok ([], [])
  | (idx, cur) :: t =>
      v <- at_row row idx ;; q <- trackConv row t ;;
      let keep := Ok ((idx, cur) :: fst q, snd q) in
      let drop := Ok ((idx, cur) :: fst q, idx :: snd q) in
      match colType v with
      | None => keep
      | Some ct =>
          if eqbd ct cur then keep
          else if rank cur <? rank ct then
            if eqbd cur TBool || eqbd ct TStr then drop else Ok ((idx, ct) :: fst q, snd q)
          else if eqbd ct TBool then drop
          else keep
      end
  end.
(** 2404-2407 *)
Fixpoint trackEmpty (row : list string) (l : list nat) : result (list nat) :=
  match l with
  | [] => Ok []
  | idx :: t => v <- at_row row idx ;; q <- trackEmpty row t ;; Ok (if String.eqb v "" then q else idx :: q)
  end.
(** 2409-2415 *)
Fixpoint dropKeys (keys : list nat) (st : tstate) : result tstate :=
  match keys with
  | [] => Ok st
  | k :: t =>
      if dmem k (tConv st) then dropKeys t (mkT (ddel k (tConv st)) (addTo k (tNon st)) (tEmpty st))
      else if mem k (tEmpty st) then dropKeys t (mkT (tConv st) (tNon st) (removeFrom k (tEmpty st)))
      else Err KeyErr
  end.
(** 2376-2415 [_csvColTypeTracking] *)
Definition tracking (row : list string) (st : tstate) : result tstate :=
  q <- trackConv row (tConv st) ;; e <- trackEmpty row (tEmpty st) ;;
  dropKeys (snd q ++ e) (mkT (fst q) (tNon st) (tEmpty st)).
(** 2971-2980: the first row *)
Definition firstTypes (row : list string) : tstate :=
  fold_left (fun st p =>
    match colType (snd p) with
    | Some TStr => mkT (tConv st) (addTo (fst p) (tNon st)) (tEmpty st)
    | None => mkT (tConv st) (addTo (fst p) (tNon st)) (addTo (fst p) (tEmpty st))
    | Some t => mkT (dset (fst p) t (tConv st)) (tNon st) (tEmpty st)
    end) (combine (seq 0 (List.length row)) row) (mkT [] [] []).

(** 2418-2434: one value; int() and float() may refuse it *)
Definition castTo (t : ctype) (v : string) : result lval :=
  if String.eqb v "" then Ok LNaN
  else match t with
       | TBool => Ok (LBool (negb (String.eqb v "False")))
       | TInt => if isInt v then Ok (LInt v) else Err ValueErr
       | TFloat => if isFloat v then Ok (LFloat v) else Err ValueErr
       | TStr => Ok (LStr v)
       end.
Fixpoint convertRow (conv : list (nat * ctype)) (row : list string) (out : list lval) : result (list lval) :=
  match conv with
  | [] => Ok out
  | (idx, t) :: rest => v <- at_row row idx ;; x <- castTo t v ;; convertRow rest row (upd out idx x)
  end.
(** [_colTypeConversion] on a row *)
Definition conversion (conv : list (nat * ctype)) (row : list string) : result (list lval) :=
  convertRow conv row (map LStr row).

(** ** Names *)
(** the arguments pointNames and featureNames *)
Inductive nmArg := NmAuto | NmNone | NmBool (b : bool) | NmList (l : list (option string)) | NmDict (d : list (string * Z)).
(** values of the first two rows, _intFloatOrString *)
Inductive pv := PvNum | PvText (s : string) | PvNone.
Definition pvOf (s : string) : pv :=
  if String.eqb s "" then PvNone else if isInt s || isFloat s then PvNum else PvText s.
Definition isTrue (n : nmArg) : bool := match n with NmBool b => b | _ => false end.
Definition isAuto (n : nmArg) : bool := match n with NmAuto => true | _ => false end.
Definition isText (v : pv) : bool := match v with PvText _ => true | _ => false end.
Definition isNumber (v : pv) : bool := match v with PvNum => true | _ => false end.
Definition texts (l : list pv) : list string := flat_map (fun v => match v with PvText s => [s] | _ => [] end) l.
(** 173-215 [autoDetectNamesFromRaw] *)
Definition autoDetect (pn fn : nmArg) (first second : option (list pv)) : nmArg * nmArg :=
  let fail := (NmBool (isTrue pn), NmBool (isTrue fn)) in
  match first, second with
  | Some (f0 :: ft), Some (s0 :: st) =>
      match fn with
      | NmBool false => fail
      | _ =>
          let marked := match f0 with PvText s => String.eqb s "pointNames" | _ => false end in
          let noDup := nodupb (texts ft) in
          let allText := if (isTrue pn || isAuto pn) && marked then forallb isText ft && noDup else forallb isText (f0 :: ft) && noDup in
          let anyNum := if (isTrue pn || isAuto pn) && marked then existsb isNumber st else existsb isNumber (s0 :: st) in
          let fn' := if isAuto fn then NmBool (allText && anyNum) else fn in
          let pn' := if isAuto pn then NmBool (isTrue fn' && marked) else pn in
          (pn', fn')
      end
  | _, _ => fail
  end.
(** 2437-2483 [_checkCSVForNames]: the names arguments and trackPoints *)
Fixpoint zipFirst (i : nat) (a b : list string) : list pv * list pv * bool :=
  match a, b with
  | x :: a', y :: b' =>
      let '(f, s, poss) := zipFirst (S i) a' b' in
      let u := pvOf x in
      let v := pvOf y in
      match u, v with
      | PvNone, PvNone => (u :: f, v :: s, poss)
      | PvNone, _ => (f, s, (i =? 0) || poss)
      | _, _ => (u :: f, v :: s, poss)
      end
  | _, _ => ([], [], false)
  end.
Definition checkNames (raw : list (list string)) (pn fn : nmArg) : nmArg * nmArg * nmArg :=
  match raw with
  | a :: b :: _ =>
      let '(f, s, poss) := zipFirst 0 a b in
      let (pn', fn') := autoDetect pn fn (Some f) (Some s) in
      (pn', fn', if poss then fn' else NmBool false)
  | _ => let (pn', fn') := autoDetect pn fn None None in (pn', fn', NmBool false)
  end.
(** 2506-2529 [_namesDictToList]; Python indexing of the list first *)
Fixpoint namesFill (d : list (string * Z)) (ret : list (option string)) : result (list (option string)) :=
  match d with
  | [] => Ok ret
  | (key, z) :: t =>
      let n := Z.of_nat (List.length ret) in
      let i := if (z <? 0)%Z then (z + n)%Z else z in
      if (i <? 0)%Z || (n <=? i)%Z then Err IndexErr
      else match nth (Z.to_nat i) ret None with
           | Some _ => Err InvalidArgumentValue
           | None => if (z <? 0)%Z then Err TypeErr (* the message adds a str and an int *)
                     else namesFill t (upd ret (Z.to_nat z) (Some key))
           end
  end.
(** after that: False/None, True or a list ('automatic' has been resolved
    before) *)
Inductive nm := NFalse | NTrue | NL (l : list (option string)).
Definition truthyNm (n : nm) : bool := match n with NFalse => false | NTrue => true | NL [] => false | NL _ => true end.
Definition namesDictToList (n : nmArg) : result nm :=
  match n with
  | NmDict d => rmap NL (namesFill d (repeat None (List.length d)))
  | NmList l => Ok (NL l)
  | NmBool true | NmAuto => Ok NTrue
  | NmBool false | NmNone => Ok NFalse
  end.
Definition isNTrue (n : nm) : bool := match n with NTrue => true | _ => false end.
Definition nmLen (n : nm) : nat := match n with NL l => List.length l | _ => 0 end.

(** ** keepPoints and keepFeatures *)
Inductive kid := KStr (s : string) | KInt (z : Z).
#[export] Instance EqDec_kid : EqDec kid.
Proof. unfold EqDec. decide equality; [apply string_dec|apply Z.eq_dec]. Defined.
(** 2556-2567 *)
Definition checkDuplicates (l : list kid) : result unit := if nodupb l then Ok tt else Err InvalidArgumentValue.
(** 2570-2593 *)
Fixpoint keepIndexValidation (l : list kid) : result unit :=
  match l with
  | [] => Ok tt
  | KStr _ :: _ => Err InvalidArgumentValue
  | KInt z :: t => if (z <? 0)%Z then Err InvalidArgumentValue else keepIndexValidation t
  end.
(** list.index *)
Fixpoint indexIn {K} {E : EqDec K} (x : K) (l : list K) : option nat :=
  match l with [] => None | y :: t => if eq_dec x y then Some 0 else option_map S (indexIn x t) end.
(** 2620-2658 [_limitToKeptFeatures] *)
Fixpoint limitToKept (keep : list kid) (names : list (option string)) (idxs : list nat) (kept : list (option string))
  : result (list nat * list (option string)) :=
  match keep with
  | [] => Ok (idxs, kept)
  | KStr s :: t =>
      match indexIn (Some s) names with
      | Some i => if mem i idxs then Err InvalidArgumentValue else limitToKept t names (idxs ++ [i]) (kept ++ [Some s])
      | None => Err InvalidArgumentValue
      end
  | KInt z :: t =>
      if (z <? 0)%Z then Err InvalidArgumentValue
      else match nth_error names (Z.to_nat z) with
           | Some name => if mem name kept then Err InvalidArgumentValue else limitToKept t names (idxs ++ [Z.to_nat z]) (kept ++ [name])
           | None => Err InvalidArgumentValue
           end
  end.
Definition kidIndex (k : kid) : nat := match k with KInt z => Z.to_nat z | KStr _ => 0 end.

(** ** The rows (2922-3001) *)
Record lstate := mkLS {
  sPn : nm; sTrack : nm; sFn : nm; sFirst : option nat; sPoss : list string; sValid : bool;
  sExtr : list (option string); sData : list (option (list string)); sLoc : list kid; sTypes : option tstate }.
Section Loop.
Variables (keepP : option (list kid)) (keepF : option (list nat)).
Definition kpLen : nat := match keepP with Some l => List.length l | None => 3 end. (* len('all') *)
Definition keptIdx (i : nat) : bool := match keepP with Some l => mem (KInt (Z.of_nat i)) l | None => false end.
Definition keptName (n : option string) : bool := match keepP, n with Some l, Some s => mem (KStr s) l | _, _ => false end.
(** 2927-2933: the name of the point and the rest of the row *)
Definition splitName (st : lstate) (i : nat) (row : list string) : result (option string * list string) :=
  if isNTrue (sPn st) || truthyNm (sTrack st) then
    match row with [] => Err IndexErr | n :: r => Ok (Some n, r) end
  else match sPn st with
       | NL (x :: l) => if kpLen <? List.length (x :: l) then match nth_error (x :: l) i with Some n => Ok (n, row) | None => Err IndexErr end
                  else Ok (None, row)
       | _ => Ok (None, row)
       end.
(** 2934-2947: a repeated possible point name: the names were data *)
Definition insertNames (extr : list (option string)) (data : list (option (list string))) : list (option (list string)) :=
  map (fun p => match fst p, snd p with
                | Some n, Some r => Some (n :: r)
                | _, d => d
                end) (combine (extr ++ repeat None (List.length data - List.length extr)) data).
Definition trackStep (st : lstate) (name : option string) (row : list string) : result (lstate * list string) :=
  if truthyNm (sTrack st) then
    match name with
    | None => Ok (st, row)
    | Some n =>
        if mem n (sPoss st) then
          match sFirst st, sFn st with
          | Some w, NL fl => Ok (mkLS NFalse NFalse (NL (None :: fl)) (Some (S w)) (sPoss st) (sValid st) (sExtr st)
                                   (insertNames (sExtr st) (sData st)) (sLoc st) (sTypes st), n :: row)
          | _, _ => Err TypeErr
          end
        else Ok (mkLS (sPn st) (sTrack st) (sFn st) (sFirst st) (n :: sPoss st) (sValid st) (sExtr st) (sData st) (sLoc st) (sTypes st), row)
    end
  else Ok (st, row).
(** 2948-2955 *)
Definition rangeCheck (st : lstate) (row : list string) : result unit :=
  if sValid st then Ok tt
  else match keepF with
       | Some l => if existsb (fun v => List.length row <? v) l then Err InvalidArgumentValue else Ok tt
       | None => Ok tt
       end.
Fixpoint pickRow (row : list string) (l : list nat) : result (list string) :=
  match l with [] => Ok [] | i :: t => v <- at_row row i ;; r <- pickRow row t ;; Ok (v :: r) end.
(** 2957-3001 *)
Definition stepRow (st0 : lstate) (i : nat) (row0 : list string) : result lstate :=
  q <- splitName st0 i row0 ;;
  let name := fst q in
  q2 <- trackStep st0 name (snd q) ;;
  let st := fst q2 in
  let row := snd q2 in
  _ <- rangeCheck st row ;;
  if keptIdx i && keptName name then Err InvalidArgumentValue
  else if match keepP with None => true | _ => keptIdx i || keptName name end then
    let w := match sFirst st with None => List.length row | Some w => w end in
    if negb (w =? List.length row) then Err FileFormatErr
    else
      _ <- (if sValid st then Ok tt else match keepF with Some l => if List.length l =? w then Err InvalidArgumentValue else Ok tt | None => Ok tt end) ;;
      r <- (match keepF with Some l => pickRow row l | None => Ok row end) ;;
      ty <- (match sTypes st with None => Ok (firstTypes r) | Some ts => tracking r ts end) ;;
      let names := isNTrue (sPn st) || truthyNm (sTrack st) in
      match keepP with
      | None => Ok (mkLS (sPn st) (sTrack st) (sFn st) (Some w) (sPoss st) true
                      (if names then sExtr st ++ [name] else sExtr st) (sData st ++ [Some r]) (sLoc st) (Some ty))
      | Some l =>
          let loc := match name with
                     | Some s => if mem (KStr s) l then KStr s else KInt (Z.of_nat i)
                     | None => KInt (Z.of_nat i)
                     end in
          match indexIn loc l with
          | None => Err ValueErr
          | Some p => Ok (mkLS (sPn st) (sTrack st) (sFn st) (Some w) (sPoss st) true
                            (if names then upd (sExtr st) p name else sExtr st) (upd (sData st) p (Some r)) (sLoc st ++ [loc]) (Some ty))
          end
      end
  else Ok st.
Fixpoint loadRows (i : nat) (rows : list (list string)) (st : lstate) : result lstate :=
  match rows with
  | [] => Ok st
  | r :: t => st' <- stepRow st i r ;; loadRows (S i) t st'
  end.
End Loop.

(** for row in retData: ...; an entry that was never filled is None
    (simplification: the error is a TypeError whichever use of it comes first) *)
Definition allRows (l : list (option (list string))) : result (list (list string)) :=
  rmapM (fun o => match o with Some r => Ok r | None => Err TypeErr end) l.
(** 3003-3023: allEmptyFeatures become float when '' is missing *)
Definition emptyTypes (emptyIsMissing : bool) (ts : tstate) : tstate :=
  if emptyIsMissing then
    fold_left (fun st idx => mkT (dset idx TFloat (tConv st)) (removeFrom idx (tNon st)) (tEmpty st)) (tEmpty ts) ts
  else ts.
(** 3005-3008 *)
Definition lengthConflict (keepP : option (list kid)) (pn : nm) (nData total : nat) : bool :=
  match keepP with
  | Some l => truthyNm pn && negb (isNTrue pn) && (nData =? total) && (total =? List.length l)
  | None => false
  end.
(** 3072-3085 *)
Definition finalPNames (keepP : option (list kid)) (pn : nm) (extr : list (option string)) (nData : nat) : result nm :=
  match pn with
  | NTrue => Ok (NL extr)
  | NFalse | NL [] => Ok pn
  | NL l =>
      if nData =? List.length l then Ok pn
      else match keepP with
           | None => Ok (NL [Some "a"; Some "l"; Some "l"]) (* for ptID in 'all' *)
           | Some ks => rmap NL (rmapM (fun k => match k with
                                            | KStr s => Ok (Some s)
                                            | KInt z => match nth_error l (Z.to_nat z) with Some n => Ok n | None => Err IndexErr end
                                            end) ks)
           end
  end.
(** 3022-3033 *)
Definition dropLast {A} (l : list A) : list A := removelast l.
Definition lastRemovable (limitF emptyIsMissing : bool) (first : option nat) (ts : tstate) : bool :=
  negb limitF && emptyIsMissing && match first with Some (S w) => mem w (tEmpty ts) | _ => false end.
Definition noLastName (fnTrue : bool) (fn : nm) (first : option nat) : bool :=
  let w := match first with Some w => w | None => 0 end in
  negb (truthyNm fn) || (nmLen fn =? w - 1) ||
  (fnTrue && match fn with NL l => eqbd (last l None) None | _ => false end).

(** 2868-2878: the header: featureNames, firstRowLength, the lines left *)
Definition headStep (pn fn track : nm) (raw : list (list string)) : result (nm * option nat * list (list string)) :=
  if isNTrue fn then
    match raw with
    | [] => Err StopIter
    | r :: t =>
        let l := map (fun v => if String.eqb v "" then None else Some v) r in
        let l' := if isNTrue pn || truthyNm track then tl l else l in
        Ok (NL l', Some (List.length l'), t)
    end
  else Ok (fn, None, raw).
(** 2886-2901: keepFeatures: the columns, the names, keepFeaturesValidated *)
Definition featStep (fn fn0 : nm) (keepF : option (list kid)) : result (option (list nat) * nm * bool) :=
  match keepF with
  | None => Ok (None, fn0, true)
  | Some l =>
      _ <- checkDuplicates l ;;
      if truthyNm fn0 && (negb (nmLen fn0 =? List.length l) || isNTrue fn) then
        match fn0 with
        | NL names => q <- limitToKept l names [] [] ;; Ok (Some (fst q), NL (snd q), true)
        | _ => Err TypeErr
        end
      else _ <- keepIndexValidation l ;; Ok (Some (map kidIndex l), fn0, false)
  end.
(** 2902-2908 *)
Definition pointStep (pn : nm) (keepP : option (list kid)) : result unit :=
  match keepP with
  | Some l =>
      _ <- checkDuplicates l ;;
      if negb (truthyNm pn) || (negb (isNTrue pn) && (nmLen pn =? List.length l)) then keepIndexValidation l else Ok tt
  | None => Ok tt
  end.
(** 3003-3104 *)
Definition numericOnly {A} (ts : tstate) (l : list A) : list A :=
  map snd (filter (fun p => negb (mem (fst p) (tNon ts))) (combine (seq 0 (List.length l)) l)).
Definition finish (fn : nm) (ignoreNonNumeric : bool) (keepP keepF : option (list kid)) (emptyIsMissing : bool) (total : nat) (st : lstate)
  : result (list (list lval) * nm * nm) :=
  let ts := emptyTypes emptyIsMissing (match sTypes st with Some ts => ts | None => mkT [] [] [] end) in
  let pn' := if truthyNm (sTrack st) then sTrack st else sPn st in
  if lengthConflict keepP pn' (List.length (sData st)) total then Err InvalidArgumentValue
  else if match keepP with Some l => negb (List.length l =? List.length (sLoc st)) | None => false end then Err InvalidArgumentValue
  else
    data <- allRows (sData st) ;;
    let cut := lastRemovable (match keepF with Some _ => true | None => false end) emptyIsMissing (sFirst st) ts && noLastName (isNTrue fn) (sFn st) (sFirst st) in
    let data' := if cut then map dropLast data else data in
    let fn' := if cut && isNTrue fn then match sFn st with NL l => NL (dropLast l) | x => x end else sFn st in
    let conv := if cut then ddel (match sFirst st with Some w => w - 1 | None => 0 end) (tConv ts) else tConv ts in
    out <- rmapM (conversion conv) data' ;;
    let out' := if ignoreNonNumeric then map (numericOnly ts) out else out in
    let fn'' := if ignoreNonNumeric then match fn' with NL (x :: l) => NL (numericOnly ts (x :: l)) | y => y end else fn' in
    rp <- finalPNames keepP pn' (sExtr st) (List.length out') ;;
    Ok (out', rp, fn'').
(** 2861-3104: the rest of [_loadcsvUsingPython], with the names arguments
    resolved; rows, point names, feature names *)
Definition loadWith (raw : list (list string)) (pn fn track : nm) (ignoreNonNumeric : bool) (keepP keepF : option (list kid)) (emptyIsMissing : bool)
  : result (list (list lval) * nm * nm) :=
  h <- headStep pn fn track raw ;;
  let '(fn0, first, rows) := h in
  kf <- featStep fn fn0 keepF ;;
  let '(kF, fn1, valid) := kf in
  _ <- pointStep pn keepP ;;
  let blank {A} : list (option A) := match keepP with Some l => repeat None (List.length l) | None => [] end in
  st <- loadRows keepP kF 0 rows (mkLS pn track fn1 first [] valid blank blank [] None) ;;
  finish fn ignoreNonNumeric keepP keepF emptyIsMissing (List.length rows) st.
(** 2799-2859: the names arguments.  Simplification: trackPoints holds
    featureNames after the conversion of a dict to a list. *)
Definition loadCsv (raw : list (list string)) (pnArg fnArg : nmArg) (ignoreNonNumeric : bool) (keepP keepF : option (list kid)) (emptyIsMissing : bool)
  : result (list (list lval) * nm * nm) :=
  let '(pnA, fnA, trackA) := checkNames raw pnArg fnArg in
  pn <- namesDictToList pnA ;;
  fn <- namesDictToList fnA ;;
  track <- namesDictToList trackA ;;
  loadWith raw pn fn track ignoreNonNumeric keepP keepF emptyIsMissing.
End Csv.
