(** Model of nimble.fillMatching (filling matched elements by a learner) and of
    the learner nimble.KNNImputation (C65), for List objects.
    Sources: /repo/nimble/core/learn.py:632-672;
    /repo/nimble/learners/knn_imputation.py:43-112.
    Not modelled: the validation of the arguments and the refusal of
    [missing_values] for scikit-learn (learn.py:632-642), logging, and the
    learners themselves (functions that may raise). *)
From Verif Require Import Base NamesModel TableModel TableOps MatchModel ElementsModel IdentModel BinOpModel StretchModel LogicModel FillModel.
From Coq Require Import QArith.
Open Scope nat_scope.

(** [matchingElements]: a boolean object, or a function (a value or a list of
    values is [valueMatch] of it) *)
Inductive selector := SelFun (f : pval -> result pval) | SelObj (m : table pval).
(** match.py:1631-1702 through [convertMatch] (MatchModel.v) *)
Definition valueMatch (a : matchArg) : selector := SelFun (fun v => rmap PBool (convertMatch a v)).
(** base.py:2117-2136 [obj[i, j]] with two non negative integers *)
Definition elementAt (t : table pval) (i j : nat) : result pval :=
  x <- getIndex (tp t) (IdInt (Z.of_nat i)) true ;;
  y <- getIndex (tf t) (IdInt (Z.of_nat j)) true ;;
  match nth_error (nth (Z.to_nat x) (rows t) []) (Z.to_nat y) with Some v => Ok v | None => Err IndexErr end.
(** equality used by isIdentical (list.py:196) *)
Definition sameOrNan (x y : pval) : bool := pyEq x y || (pyNe x x && pyNe y y).

Section Fill.
Variables intOf floatOf : string -> option pval.
Variable strOf : pval -> string.

(** learn.py:644-654: the matrix of matched positions, and whether missing
    values have to be looked for *)
Definition matchMatrix (t : table pval) (sel : selector) : result (table pval * bool) :=
  match sel with
  | SelObj m =>
      if (alen (tp m) =? alen (tp t)) && (alen (tf m) =? alen (tf t)) then Ok (m, true) else Err InvalidArgumentValue
  | SelFun f =>
      m <- matchingElements intOf floatOf strOf t (F1 f) None None ;;
      r <- f PNaN ;;
      Ok (m, negb (pyTruth r))
  end.
(** learn.py:655-659: [matchMatrix | nanLocs != matchMatrix] *)
Definition checkMissing (t m : table pval) : result unit :=
  nans <- matchingElements intOf floatOf strOf t (F1 (fun v => Ok (PBool (missing v)))) None None ;;
  u <- logicalBinary intOf floatOf strOf LOr m (OBase nans) ;;
  if isIdentical sameOrNan KList KList u m then Ok tt else Err ImproperObjectAction.
(** the mask as fill.constant reads it (fill.py:88-90): truth of each element *)
Definition maskBools (m : table pval) : table bool := mkTable (tp m) (tf m) (map (map pyTruth) (rows m)).
(** learn.py:644-672; [fit] is trainAndApply of the learner.  The second
    component is the exception raised, the first the state of trainX. *)
Definition learnerFill (fit : table pval -> result (table pval)) (t : table pval) (sel : selector) (points features : option (list ident))
  : table pval * result unit :=
  match (mc <- matchMatrix t sel ;; _ <- (if snd mc : bool then checkMissing t (fst mc) else Ok tt) ;; Ok (fst mc)) with
  | Err e => (t, Err e)
  | Ok m =>
      match copyTable t with
      | Err e => (t, Err e)
      | Ok c =>
          match fillMatching Fts (fillConstant PNaN) (MMatrix (maskBools m)) LAll c with
          | (_, Err e) => (t, Err e)
          | (u, Ok _) =>
              match fit u with
              | Err e => (t, Err e)
              | Ok filled =>
                  transformElements t
                    (F3 (fun v i j => b <- elementAt m i j ;; if pyTruth b then elementAt filled i j else Ok v))
                    points features false false
              end
          end
      end
  end.

(** *** KNNImputation (knn_imputation.py) *)
(** the learner called for one element: the training points without the label,
    the labels (trainAndApply with trainY=-1 separates the last feature,
    knn_imputation.py:97-99) and the point to predict *)
Variable predict : list (list pval) -> list pval -> list pval -> result pval.
(** knn_imputation.py:68-69: [train] *)
Definition knnTrain (t : table pval) : result (table pval) :=
  matchingElements intOf floatOf strOf t (F1 (fun v => rmap PBool (convertMatch (AValue PNaN) v))) None None.
(** knn_imputation.py:77-84: [fillIdx] and [keepIdx]; [b] selects which *)
Definition idxWhere (b : bool) (fill : list bool) : list nat :=
  map fst (filter (fun p : nat * bool => Bool.eqb (snd p) b) (combine (seq 0 (List.length fill)) fill)).
(** [match[:, keepIdx].points], [anyTrue] of each (knn_imputation.py:88-89) *)
Definition trainIdxOf (masks : list (list bool)) (keep : list nat) : result (list nat) :=
  flags <- rmapM (fun fill => rmap (existsb (fun b => b)) (gather fill keep)) masks ;;
  Ok (idxWhere false flags).
(** knn_imputation.py:85-95 for one element: [toTrain = testData[trainIdx, keepIdx]]
    whose last feature is the label *)
Definition knnElement (masks : list (list bool)) (data : list (list pval)) (pt : list pval) (keep : list nat) (ft : nat) : result pval :=
  toPredict <- gather pt keep ;;
  trainIdx <- trainIdxOf masks (keep ++ [ft]) ;;
  chosenRows <- gather data trainIdx ;;
  xs <- rmapM (fun r => gather r keep) chosenRows ;;
  ys <- rmapM (fun r => gather r [ft]) chosenRows ;;
  predict xs (List.concat ys) toPredict.
(** knn_imputation.py:74-100: one point *)
Fixpoint knnFill (masks : list (list bool)) (data : list (list pval)) (pt : list pval) (keep fts : list nat) (newPt : list pval) : result (list pval) :=
  match fts with
  | [] => Ok newPt
  | ft :: fts' =>
      p <- knnElement masks data pt keep ft ;;
      if ft <? List.length newPt then knnFill masks data pt keep fts' (upd newPt ft p) else Err IndexErr
  end.
Definition knnPoint (masks : list (list bool)) (data : list (list pval)) (pf : list pval * list bool) : result (list pval) :=
  knnFill masks data (fst pf) (idxWhere false (snd pf)) (idxWhere true (snd pf)) (fst pf).
(** knn_imputation.py:71-112: [apply]; [zip] stops with the shorter of the
    points of testX and of the trained mask.  nimble.data of the rows with the
    names of testX (simplification: None and the empty string are kept) *)
Definition knnApply (mask t : table pval) : result (table pval) :=
  let masks := map (map pyTruth) (rows mask) in
  res <- rmapM (knnPoint masks (rows t)) (combine (rows t) masks) ;;
  pa <- initAxis (List.length res) (getNamesNoGeneration (tp t)) ;;
  fa <- initAxis (match res with r :: _ => List.length r | [] => alen (tf t) end) (getNamesNoGeneration (tf t)) ;;
  Ok (mkTable pa fa res).
(** trainAndApply(KNNImputation, trainX): train and apply on the same object *)
Definition knnImpute (t : table pval) : result (table pval) := mask <- knnTrain t ;; knnApply mask t.
End Fill.
