(** Model of the learning functions of nimble on the caller's objects (C78): which
    data the learner is trained on, applied to and compared with.
    Sources: /repo/nimble/core/learn.py: 385-468 (normalizeData), 677-838 (train,
    without tuning), 841-981 (trainAndApply), 1018-1045 (_trainAndTestBackend),
    1047-1218 (trainAndTest), 1221-1400 (trainAndTestOnTrainingData, without
    crossValidationFolds); /repo/nimble/core/_learnHelpers.py: 118-168
    (computeMetrics), 574-705; /repo/nimble/core/interfaces/_interface_helpers.py:
    662-670; universal_interface.py: 165-312 (train, _train), 1037-1150 (test),
    1152-1306 (apply), 1412-1495 (retrain), 1648-1670 (_validTestData);
    /repo/nimble/calculate/utility.py: 352-540 (performanceFunction).
    Objects live in a store and are passed by reference, so that what happens to
    the caller's objects shows. Simplified: the arguments of the learner, the
    random seed and the log are left out; the learner's [train] and [apply] read
    the objects and return new ones; the strategies 'OneVsAll' and 'OneVsOne'
    (C67) and the scores (C46) are parameters. *)
From Verif Require Import Base NamesModel TableModel MatchModel BinOpModel.
From Verif Require LogModel.
From Coq Require Import List QArith Ascii String. Import ListNotations.
Open Scope string_scope. Open Scope list_scope. Open Scope nat_scope.

(** an object: its data, and what getTypeString() gives *)
Record dobj := mkD { dT : table pval; dK : nat }.
Definition store := list dobj.
Definition prog (A : Type) := store -> store * result A.
Definition pret {A} (a : A) : prog A := fun s => (s, Ok a).
Definition lift {A} (r : result A) : prog A := fun s => (s, r).
Definition pbind {A B} (p : prog A) (f : A -> prog B) : prog B :=
  fun s => match p s with (s', Ok a) => f a s' | (s', Err e) => (s', Err e) end.
Definition get (r : nat) : prog dobj := fun s => (s, match nth_error s r with Some o => Ok o | None => Err KeyErr end).
Definition alloc (o : dobj) : prog nat := fun s => (s ++ [o], Ok (List.length s)).
Definition put (r : nat) (o : dobj) : prog unit := fun s => (upd s r o, Ok tt).
Notation "x <~ p ;;; k" := (pbind p (fun x => k)) (at level 100, p at next level, right associativity).

(** what a caller passes: nothing, an object, an identifier, something else *)
Inductive darg := DNone | DRef (r : nat) | DId (i : ident) | DBad.
(** isinstance(y, (str, int)) *)
Definition idArg (i : ident) : bool := match i with IdStr _ | IdInt _ => true | _ => false end.

(** *** [copy], [features.extract], [features.delete] (C05) *)
Definition copyObj (r : nat) : prog nat := o <~ get r ;;; alloc o.
Definition extractFt (r : nat) (i : ident) : prog nat :=
  o <~ get r ;;; idx <~ lift (constructIndices (tf (dT o)) [i]) ;;;
  q <~ lift (structural SExtract Fts (dT o) idx) ;;;
  match q with
  | (rest, Some y) => _ <~ put r (mkD rest (dK o)) ;;; alloc (mkD y (dK o))
  | (_, None) => lift (Err AttributeErr)
  end.
Definition deleteFt (r : nat) (i : ident) : prog unit :=
  o <~ get r ;;; idx <~ lift (constructIndices (tf (dT o)) [i]) ;;;
  q <~ lift (structural SDelete Fts (dT o) idx) ;;; put r (mkD (fst q) (dK o)).
(** [setNames(names, useLog=False)] on new objects *)
Definition setAll (a : axis) (names : option (list (option string))) : result axis :=
  match setNames a (namesArg names) ONone with (a', Ok _) => Ok a' | (_, Err e) => Err e end.
Definition setFtNames (o : dobj) (names : option (list (option string))) : result dobj :=
  a <- setAll (tf (dT o)) names ;; Ok (mkD (mkTable (tp (dT o)) a (rows (dT o))) (dK o)).
Definition setPtNames (o : dobj) (names : option (list (option string))) : result dobj :=
  a <- setAll (tp (dT o)) names ;; Ok (mkD (mkTable a (tf (dT o)) (rows (dT o))) (dK o)).

(** *** Validation: _learnHelpers.py:574-682, _interface_helpers.py:662-670 *)
Definition lower (s : string) : string := (fix go (s : string) := match s with EmptyString => EmptyString | String c t => String (LogModel.lower c) (go t) end) s.
Definition pts (o : dobj) : nat := alen (tp (dT o)).
Definition fts (o : dobj) : nat := alen (tf (dT o)).
Definition validTrain (x y : darg) : prog unit :=
  match x with
  | DRef rx =>
      ox <~ get rx ;;;
      match y with
      | DNone => pret tt
      | DRef ry => oy <~ get ry ;;; if pts oy =? pts ox then pret tt else lift (Err InvalidArgumentValueCombination)
      | DId i => if idArg i then pret tt else lift (Err InvalidArgumentType)
      | DBad => lift (Err InvalidArgumentType)
      end
  | _ => lift (Err InvalidArgumentType)
  end.
Definition validTest (x y : darg) : prog unit :=
  _ <~ (match x with DNone | DRef _ => pret tt | _ => lift (Err InvalidArgumentType) end) ;;;
  match y with
  | DNone => pret tt
  | DRef ry =>
      match x with
      | DRef rx => ox <~ get rx ;;; oy <~ get ry ;;; if pts oy =? pts ox then pret tt else lift (Err InvalidArgumentValueCombination)
      | _ => lift (Err AttributeErr)
      end
  | DId i => if idArg i then pret tt else lift (Err InvalidArgumentType)
  | DBad => lift (Err InvalidArgumentType)
  end.
Definition validArguments (isDict : bool) : result unit := if isDict then Ok tt else Err InvalidArgumentType.
Definition validMode (mode : option string) : result unit :=
  match mode with None => Ok tt | Some m => if existsb (String.eqb (lower m)) ["bestscore"; "allscores"] then Ok tt else Err InvalidArgumentValue end.
Definition validStrategy (strat : option string) : result unit :=
  match strat with None => Ok tt | Some m => if existsb (String.eqb (lower m)) ["default"; "onevsall"; "onevsone"] then Ok tt else Err InvalidArgumentValue end.
(** 649-669 *)
Definition is2d (x y : darg) : prog bool :=
  match (match y with DNone => x | _ => y end) with
  | DRef r => o <~ get r ;;; pret (1 <? fts o)
  | _ => pret false
  end.
Definition flagCheck (two : bool) (mode strat : option string) : result unit :=
  if two && (match mode, strat with None, None => false | _, _ => true end) then Err InvalidArgumentValueCombination else Ok tt.
Definition validateLearning (x y tx ty : darg) (isDict : bool) (strat mode : option string) : prog unit :=
  _ <~ validTrain x y ;;; _ <~ validTest tx ty ;;; _ <~ lift (validArguments isDict) ;;; _ <~ lift (validMode mode) ;;;
  _ <~ lift (validStrategy strat) ;;; two <~ is2d x y ;;; lift (flagCheck two mode strat).
Definition validateTesting (tx ty : darg) (isDict two : bool) (mode : option string) : prog unit :=
  _ <~ validTest tx ty ;;; _ <~ lift (validArguments isDict) ;;; _ <~ lift (validMode mode) ;;; lift (flagCheck two mode None).

Section Work.
(** what the learner's [train] makes, its [apply], and its scores *)
Variable M : Type.
Variable fit : table pval -> option (table pval) -> result M.
Variable pred : M -> table pval -> result dobj.
Variable scored : string -> M -> table pval -> result dobj.
(** the labels the scores are for *)
Variable order : M -> list string.
(** a classification or regression learner *)
Variable predicts : bool.
(** the performance function and its values *)
Variable R : Type.
Variable perf : table pval -> table pval -> result R.
(** [predict] of the performance function: a scoreMode *)
Variable perfMode : option string.

Record tlearner := mkTL { tlM : M; tlShape : nat * nat; tlY : option (list (option string)); tl2d : bool }.
Variable multi : string -> nat -> darg -> prog tlearner.

(** universal_interface.py:283-286: labels in the data *)
Definition separate (x : nat) (y : darg) : prog (nat * option nat) :=
  match y with
  | DNone => pret (x, None)
  | DRef ry => pret (x, Some ry)
  | DId i => c <~ copyObj x ;;; ry <~ extractFt c i ;;; pret (c, Some ry)
  | DBad => lift (Err AttributeErr)
  end.
(** 290-312 [_train] *)
Definition trainOn (x : nat) (y : option nat) : prog tlearner :=
  ox <~ get x ;;;
  oy <~ (match y with None => pret None | Some r => o <~ get r ;;; pret (Some o) end) ;;;
  m <~ lift (fit (dT ox) (option_map dT oy)) ;;;
  pret (mkTL m (pts ox, fts ox)
         (match oy with None => None | Some o => getNamesNoGeneration (tf (dT o)) end)
         (1 <? match oy with None => fts ox | Some o => fts o end)).
(** 165-288 [train] *)
Definition interfaceTrain (x : nat) (y : darg) (strat : option string) : prog tlearner :=
  match strat with
  | Some s => if existsb (String.eqb s) ["OneVsAll"; "OneVsOne"] then multi s x y else p <~ separate x y ;;; trainOn (fst p) (snd p)
  | None => p <~ separate x y ;;; trainOn (fst p) (snd p)
  end.
(** learn.py:790-838; the flag says whether the call is the user's own (C52) *)
Definition train (entry : bool) (x y : darg) (isDict : bool) (strat : option string) : prog tlearner :=
  _ <~ (if entry then validateLearning x y DNone DNone isDict strat None else pret tt) ;;;
  match x with DRef rx => interfaceTrain rx y strat | _ => lift (Err AttributeErr) end.

(** universal_interface.py:1648-1670 *)
Definition validShape (shape : nat * nat) (o : dobj) : result unit :=
  if snd shape =? fts o then Ok tt
  else if (fst shape =? snd shape) && (pts o =? fts o) then Ok tt
  else Err InvalidArgumentValueCombination.
(** 1236-1306 *)
Definition apply (entry : bool) (t : tlearner) (x : darg) (isDict : bool) (mode : option string) : prog nat :=
  _ <~ (if entry then validateTesting x DNone isDict (tl2d t) mode else pret tt) ;;;
  match x with
  | DRef rx =>
      ox <~ get rx ;;; _ <~ lift (validShape (tlShape t) ox) ;;;
      o <~ lift (match mode with
                 | None => o <- pred (tlM t) (dT ox) ;; if predicts then setFtNames o (tlY t) else Ok o
                 | Some m =>
                     if String.eqb m "bestScore" then
                       o <- scored m (tlM t) (dT ox) ;;
                       match (if predicts then tlY t else None) with Some l => setFtNames o (Some (l ++ [Some "bestScore"])) | None => Ok o end
                     else if String.eqb m "allScores" then
                       o <- scored m (tlM t) (dT ox) ;; if predicts then setFtNames o (Some (map Some (order (tlM t)))) else Ok o
                     else Err InvalidArgumentValue
                 end) ;;;
      o' <~ lift (if pts ox =? pts o then setPtNames o (getNamesNoGeneration (tp (dT ox))) else Ok o) ;;;
      alloc o'
  | _ => lift (Err AttributeErr)
  end.
(** 1122-1150; _learnHelpers.py:118-168 *)
Definition test (entry : bool) (t : tlearner) (x y : darg) (isDict : bool) : prog R :=
  _ <~ (if entry then validateTesting x y isDict (tl2d t) None else pret tt) ;;;
  xy <~ (match y with
         | DNone => pret (x, x)
         | DRef _ => pret (x, y)
         | DId i => match x with DRef rx => c <~ copyObj rx ;;; ry <~ extractFt c i ;;; pret (DRef c, DRef ry) | _ => lift (Err AttributeErr) end
         | DBad => lift (Err AttributeErr)
         end) ;;;
  p <~ apply false t (fst xy) isDict perfMode ;;;
  op <~ get p ;;;
  match snd xy with DRef ry => oy <~ get ry ;;; lift (perf (dT oy) (dT op)) | _ => lift (Err AttributeErr) end.

(** learn.py:925-981 *)
Definition trainAndApply (x y tx : darg) (isDict : bool) (strat mode : option string) : prog nat :=
  _ <~ validateLearning x y tx DNone isDict strat mode ;;;
  t <~ train false x y isDict strat ;;;
  tx' <~ (match tx with
          | DNone => match y with
                     | DId i => match x with DRef rx => c <~ copyObj rx ;;; _ <~ deleteFt c i ;;; pret (DRef c) | _ => lift (Err AttributeErr) end
                     | _ => pret x
                     end
          | _ => pret tx
          end) ;;;
  apply true t tx' true mode.
(** 1018-1045 *)
Definition backend (x y tx ty : darg) (isDict : bool) (strat : option string) : prog (R * tlearner) :=
  t <~ train false x y isDict strat ;;;
  let tx := match tx with DNone => x | _ => tx end in
  xy <~ (match ty with
         | DNone => pret (tx, y)
         | DId i => match tx with DRef rx => c <~ copyObj rx ;;; ry <~ extractFt c i ;;; pret (DRef c, DRef ry) | _ => lift (Err AttributeErr) end
         | _ => pret (tx, ty)
         end) ;;;
  p <~ test true t (fst xy) (snd xy) true ;;; pret (p, t).
(** 1196-1218 *)
Definition trainAndTest (x y tx ty : darg) (isDict : bool) (strat : option string) : prog R :=
  _ <~ validateLearning x y tx ty isDict strat None ;;; q <~ backend x y tx ty isDict strat ;;; pret (fst q).
(** 1365-1400 *)
Definition trainAndTestOnTrainingData (x y : darg) (isDict : bool) (strat : option string) : prog R :=
  _ <~ validateLearning x y DNone DNone isDict strat None ;;; q <~ backend x y x y isDict strat ;;; pret (fst q).
(** 425-468; the result for [trainX], and the one for [testX] *)
Definition normalizeOne (t : tlearner) (r : nat) : prog nat :=
  n <~ apply true t (DRef r) true None ;;; on <~ get n ;;; o <~ get r ;;;
  n' <~ (if dK on =? dK o then pret n else alloc (mkD (dT on) (dK o))) ;;;
  on' <~ get n' ;;;
  (if fts on' =? fts o then o' <~ lift (setFtNames on' (getNamesNoGeneration (tf (dT o)))) ;;; _ <~ put n' o' ;;; pret n' else pret n').
Definition normalizeData (x y tx : darg) : prog (nat * option nat) :=
  _ <~ validateLearning x y tx DNone true None None ;;;
  t <~ train false x y true None ;;;
  match x with
  | DRef rx =>
      a <~ normalizeOne t rx ;;;
      match tx with DRef rt => b <~ normalizeOne t rt ;;; pret (a, Some b) | _ => pret (a, None) end
  | _ => lift (Err AttributeErr)
  end.
(** universal_interface.py:1440-1495: the names of the labels stay *)
Definition retrain (t : tlearner) (x y : darg) (isDict : bool) : prog tlearner :=
  _ <~ validateLearning x y DNone DNone isDict None None ;;;
  two <~ is2d x y ;;;
  match x with
  | DRef rx =>
      p <~ separate rx y ;;; n <~ trainOn (fst p) (snd p) ;;;
      pret (mkTL (tlM n) (tlShape n) (tlY t) two)
  | _ => lift (Err AttributeErr)
  end.
End Work.
Arguments tlM {M} _. Arguments tlShape {M} _. Arguments tlY {M} _. Arguments tl2d {M} _. Arguments mkTL {M} _ _ _ _.

(** *** calculate/utility.py:493-540: what a performance function checks *)
Section Perf.
Variable R : Type.
Variable func : table pval -> table pval -> result R.
Variables requires1D samePtCount sameFtCount allowEmpty allowMissing : bool.
Definition anyMissing (t : table pval) : bool := existsb (existsb missing) (rows t).
Definition emptyT (t : table pval) : bool := (alen (tp t) =? 0) || (alen (tf t) =? 0).
Definition checkedPerf (known predicted : table pval) : result R :=
  if negb allowEmpty && (emptyT known || emptyT predicted) then Err InvalidArgumentValue
  else if samePtCount && negb (alen (tp known) =? alen (tp predicted)) then Err InvalidArgumentValueCombination
  else if sameFtCount && negb (alen (tf known) =? alen (tf predicted)) then Err InvalidArgumentValueCombination
  else if requires1D && (1 <? alen (tf predicted)) then Err InvalidArgumentValue
  else if negb allowMissing && anyMissing known then Err InvalidArgumentValue
  else if negb allowMissing && anyMissing predicted then Err InvalidArgumentValue
  else func known predicted.
End Perf.
