(** Multiclass strategies end to end: training one classifier per label, the
    predictions and scores of the collection, and the conversion of raw scores
    to one score per label.  Sources:
    /repo/nimble/core/interfaces/universal_interface.py:196-238, 1562-1599,
    1648-1670, 1802-1948 and _interface_helpers.py:152-300, 573-660. *)
From Verif Require Import Base NamesModel TableModel TableOps MatchModel ElementsModel LearnModel GetModel.
From Coq Require Import QArith.
Open Scope string_scope. Open Scope list_scope. Open Scope nat_scope.

(** A trained learner as its [apply]. *)
Definition applier := table pval -> result (table pval).
Inductive labelSrc := YId (i : ident) | YObj (y : table pval).
Inductive scoreMode := MBest | MAll | MOther.

(** ** _interface_helpers.py *)
(** 604-622 [extractWinningPredictionIndex]: [score > maxScore] from -inf; a
    value that is no number cannot be compared *)
Definition beats (v : pval) (m : ext) : result bool :=
  match numOf v with
  | Some x => Ok (extLtb m x)
  | None => if isNaN v then Ok false else Err TypeErr
  end.
Fixpoint bestFrom (i : nat) (l : list pval) (m : ext) (b : option nat) : result (option nat) :=
  match l with
  | [] => Ok b
  | v :: r =>
      c <- beats v m ;;
      if c then bestFrom (S i) r (match numOf v with Some x => x | None => m end) (Some i)
      else bestFrom (S i) r m b
  end.
Definition winnerIndex (l : list pval) : result (option nat) := bestFrom 0 l NegInf None.
(** 648-660 [extractConfidenceScores]: a dict from feature name to score *)
Definition confidence (names : list (option string)) (row : list pval) : result (list (option string * pval)) :=
  match row with
  | [] => Err TypeErr
  | _ => Ok (fold_left (fun d p => dset (fst p) (snd p) d) (combine names row) [])
  end.
(** 624-645 [extractWinningPredictionIndexAndScore] *)
Fixpoint bestPair (l : list (option string * pval)) (m : ext) (b : option string * pval) : result (option string * pval) :=
  match l with
  | [] => Ok b
  | (k, v) :: r =>
      c <- beats v m ;;
      if c then bestPair r (match numOf v with Some x => x | None => m end) (k, v)
      else bestPair r m b
  end.
(** 573-586 [countWins]: as _dataHelpers' counting (one NaN object) *)
Definition countWins (row : list pval) : list (pval * nat) :=
  map (fun p => (fst (fst p), snd p)) (fold_left (fun d v => bump v d) (map (fun v => (v, 0)) row) []).
(** 589-601 [extractWinningPredictionLabel] *)
Definition mostWins (row : list pval) : result pval :=
  match maxKey (countWins row) with Some l => Ok l | None => Err ValueErr end.

Section Multi.
(** the conversions [calculateOnElements] is given, [str(label)],
    [list(set(labels))], the order of strings, and what nimble.data does to a
    value (missing values become nan) *)
Variable intOf : string -> option pval.
Variable floatOf : string -> option pval.
Variable strOf : pval -> string.
Variable strLabel : pval -> string.
Variable setOrder : list pval -> list pval.
Variable sleb : string -> string -> bool.
Variable norm : pval -> pval.
(** the interface's [_train] *)
Variable fit : table pval -> table pval -> result applier.

(** ** OneVsAll training: universal_interface.py:206-238 *)
(** 209-211 *)
Definition separate (x : table pval) (y : labelSrc) : result (table pval * table pval) :=
  match y with
  | YObj y => Ok (x, y)
  | YId i =>
      idx <- constructIndices (tf x) [i] ;;
      r <- structural SExtract Fts x idx ;;
      match r with (rest, Some ys) => Ok (rest, ys) | _ => Err AttributeErr end
  end.
(** 214-215: [trainY.T.copy(to='python list')[0]] *)
Definition labelsOf (y : table pval) : result (list pval) :=
  if alen (tf y) =? 0 then Err IndexErr else Ok (column y 0).
(** 224-230 *)
Definition relabel (label : pval) : efun := F1 (fun v => Ok (if pyEq v label then PInt 1 else PInt 0)).
Definition ovaTrain (x : table pval) (y : labelSrc) : result (list (pval * applier)) :=
  p <- separate x y ;;
  labels <- labelsOf (snd p) ;;
  ls <- rmapM (fun label =>
          y' <- calculateOnElements intOf floatOf strOf (snd p) (relabel label) None None false false ;;
          m <- fit (fst p) y' ;;
          Ok (label, m)) (setOrder labels) ;;
  match ls with [] => Err IndexErr | _ => Ok ls end.

(** ** TrainedLearners.apply *)
(** [features.setNames(name, oldIdentifiers=0)] *)
Definition nameFirst (t : table pval) (s : string) : result (table pval) :=
  match setNames (tf t) (AStr s) (OOne (IdInt 0)) with
  | (a, Ok _) => Ok (mkTable (tp t) a (rows t))
  | (_, Err e) => Err e
  end.
(** 1804-1823: one column of results per learner, named by its label *)
Fixpoint collectOva (acc : option (table pval)) (ls : list (pval * applier)) (test : table pval) : result (table pval) :=
  match ls with
  | [] => match acc with Some t => Ok t | None => Err AttributeErr end
  | (label, m) :: rest =>
      r <- m test ;;
      r' <- nameFirst r (strLabel label) ;;
      match acc with
      | None => collectOva (Some r') rest test
      | Some t => t' <- insertTable Fts t None r' ;; collectOva (Some t') rest test
      end
  end.
(** nimble.data(rows, featureNames=names) *)
Definition newData (m : list (list pval)) (names : list string) : result (table pval) :=
  a <- initAxis (List.length names) (Some (map Some names)) ;;
  Ok (mkTable (mkAxis (List.length m) None) a (map (map norm) m)).
(** 1825-1838 *)
Definition ovaPredict (ls : list (pval * applier)) (raw : table pval) : result (table pval) :=
  idx <- rmapM winnerIndex (rows raw) ;;
  rs <- rmapM (fun o => match o with
                        | None => Err TypeErr
                        | Some i => match nth_error (map fst ls) i with Some l => Ok [l] | None => Err IndexErr end
                        end) idx ;;
  newData rs ["winningLabel"].
(** 1840-1858 *)
Definition nameVal (o : option string) : pval := match o with Some s => PStr s | None => PNone end.
Definition ovaBest (raw : table pval) : result (table pval) :=
  rs <- rmapM (fun row =>
          d <- confidence (getNames (tf raw)) row ;;
          b <- bestPair d NegInf (None, PNegInf) ;;
          Ok [nameVal (fst b); snd b]) (rows raw) ;;
  newData rs ["PredictedClassLabel"; "LabelScore"].
(** 1860-1886 *)
Definition ovaAll (ls : list (pval * applier)) (raw : table pval) : result (table pval) :=
  let headers := stableSort sleb (map (fun p => strLabel (fst p)) ls) in
  rs <- rmapM (fun row => match row with
                          | [] => Err AttributeErr
                          | _ => placeScores (PInt 0) (map Some headers) (getNames (tf raw)) row
                          end) (rows raw) ;;
  newData rs headers.
Definition ovaApply (ls : list (pval * applier)) (test : table pval) (mode : option scoreMode) : result (table pval) :=
  raw <- collectOva None ls test ;;
  match mode with
  | None => ovaPredict ls raw
  | Some MBest => ovaBest raw
  | Some MAll => ovaAll ls raw
  | Some MOther => Err InvalidArgumentValue
  end.

(** 1891-1907: one column per pair of labels; the first keeps its name *)
Variable predictionName : nat -> string.
Fixpoint collectOvo (k : nat) (acc : option (table pval)) (ls : list applier) (test : table pval) : result (table pval) :=
  match ls with
  | [] => match acc with Some t => Ok t | None => Err AttributeErr end
  | m :: rest =>
      r <- m test ;;
      match acc with
      | None => collectOvo (S k) (Some r) rest test
      | Some t => r' <- nameFirst r (predictionName k) ;;
                  t' <- insertTable Fts t None r' ;;
                  collectOvo (S k) (Some t') rest test
      end
  end.
(** 1909-1913: points.calculate keeps the point names *)
Definition ovoPredict (raw : table pval) : result (table pval) :=
  rs <- rmapM (fun row => l <- mostWins row ;; Ok [l]) (rows raw) ;;
  pa <- initAxis (List.length rs) (getNamesNoGeneration (tp raw)) ;;
  nameFirst (mkTable pa (mkAxis 1 None) (map (map norm) rs)) "winningLabel".
(** 1914-1929: [sorted(scores, key=scores.get, reverse=True)[0]] is the first
    key with the highest count *)
Definition ovoBest (raw : table pval) : result (table pval) :=
  rs <- rmapM (fun row => match maxKey (countWins row) with
                          | None => Err IndexErr
                          | Some l => match find (fun p => pyEq (fst p) l || (isNaN (fst p) && isNaN l)) (countWins row) with
                                      | Some (_, c) => Ok [l; PInt (Z.of_nat c)]
                                      | None => Err KeyErr
                                      end
                          end) (rows raw) ;;
  newData rs ["PredictedClassLabel"; "LabelScore"].
(** 1930-1943; [floatStr] is [str(float(label))] *)
Variable floatStr : pval -> result string.
Definition ovoAll (labelSet : list pval) (raw : table pval) : result (table pval) :=
  hs <- rmapM floatStr labelSet ;;
  let headers := stableSort sleb hs in
  let indexDict := fold_left (fun d p => dset (snd p) (fst p) d) (combine (seq 0 (List.length headers)) headers) [] in
  rs <- rmapM (fun row =>
          fold_left (fun (acc : result (list pval)) p =>
            r <- acc ;; s <- floatStr (fst p) ;;
            match dget s indexDict with
            | None => Err KeyErr
            | Some i => Ok (upd r i (PInt (Z.of_nat (snd p))))
            end) (countWins row) (Ok (repeat (PInt 0) (List.length headers)))) (rows raw) ;;
  newData rs headers.
Definition ovoApply (labelSet : list pval) (ls : list applier) (test : table pval) (mode : option scoreMode) : result (table pval) :=
  raw <- collectOvo 0 None ls test ;;
  match mode with
  | None => ovoPredict raw
  | Some MBest => ovoBest raw
  | Some MAll => ovoAll labelSet raw
  | Some MOther => Err InvalidArgumentValue
  end.
End Multi.

(** ** Raw scores to one score per label: universal_interface.py:1562-1599
    [_formatScoresToOvA], with _interface_helpers.py:347-365 (binary), 203-222
    (the decision by size) and 152-200 (the trial with four labels, which sees
    only the number of scores [trial] the learner gives for them).  Three
    labels with a number of scores other than three are decided by looking at
    the scores of some points, [vote]. *)
Definition wideOf (raw : list (list Z)) : nat := match raw with r :: _ => List.length r | [] => 0 end.
Definition formatScores (numLabels width trial : nat) (vote : result (option bool)) (raw : list (list Z)) : result (list (list Q)) :=
  if (numLabels =? 2) && (width =? 1) then
    rmapM (fun r => match r with s :: _ => Ok [inject_Z (-1 * s); inject_Z s] | [] => Err IndexErr end) raw
  else
    ova <- (if negb (width =? 3) then
              (if negb (numLabels =? 3) then Ok (width =? numLabels)
               else o <- vote ;; Ok (match o with Some b => b | None => false end))
            else Ok (trial =? 4)) ;;
    if (ova : bool) then Ok (map (map inject_Z) raw)
    else rmapM (fun r =>
           w <- singleLabelWins r numLabels ;;
           (if numLabels =? 1 then Err ZeroDiv
            else Ok (map (fun c => inject_Z (Z.of_nat c) / inject_Z (Z.of_nat (numLabels - 1)))%Q w))) raw.

(** ** universal_interface.py:1648-1670 [_validTestData] *)
Definition validTestData (trainShape : option (nat * nat)) (points features : nat) : result unit :=
  match trainShape with
  | None => Ok tt
  | Some (np, nf) =>
      if nf =? features then Ok tt
      else if (np =? nf) && (points =? features) then Ok tt
      else Err InvalidArgumentValueCombination
  end.
