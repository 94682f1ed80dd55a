(** Model of the learner-facing helpers.
    Sources: /repo/nimble/_utility.py:94-126 (mergeArguments),
    /repo/nimble/core/_learnHelpers.py:686-705 (trackEntry),
    /repo/nimble/learners/knn_classification.py:39-128 (KNNClassifier),
    /repo/nimble/core/interfaces/_interface_helpers.py:296-345, 552-655,
    /repo/nimble/core/interfaces/universal_interface.py:1236-1300 (apply),
    1437-1480 (retrain), 1598-1640 (getScores), 1802-1930 (TrainedLearners.apply). *)
From Verif Require Import Base TableModel TableSpec.
Open Scope list_scope.
Open Scope nat_scope.

(** ** mergeArguments *)
Section Merge.
Variable V : Type.
Context {EV : EqDec V}.
Notation args := (@dict string V).
(** the second loop: [for k in smaller] *)
Fixpoint mergeLoop (ret : args) (smaller : args) : result args :=
  match smaller with
  | [] => Ok ret
  | (k, val) :: t =>
      match dget k ret with
      | Some v => if eq_dec v val then mergeLoop (dset k val ret) t else Err InvalidArgumentValueCombination
      | None => mergeLoop (dset k val ret) t
      end
  end.
Definition mergeArguments (a kw : args) : result args :=
  match a, kw with
  | [], [] => Ok []
  | [], _ => Ok kw
  | _, [] => Ok a
  | _, _ =>
      let (smaller, larger) := if List.length a <? List.length kw then (a, kw) else (kw, a) in
      mergeLoop (fold_left (fun d p => dset (fst p) (snd p) d) larger []) smaller
  end.

(** ** TrainedLearner.retrain.  [valid] stands for
    _validateLearnerArgumentValues, [isTune] recognises Tune objects, the
    interface's argument transformation is the identity; [tlUsed] records the
    argument sets handed to _trainBackend. *)
Record tlearner := mkTL { tlArgs : args; tlTrans : args; tlUsed : list args }.
Variable valid : args -> bool.
Variable isTune : V -> bool.
(** universal_interface.py:1447-1456: values are stored one by one before a
    Tune value is noticed *)
Fixpoint storeLoop (merged : args) (a tr : args) : (args * args) * result unit :=
  match merged with
  | [] => ((a, tr), Ok tt)
  | (k, v) :: t => if isTune v then ((a, tr), Err InvalidArgumentValue)
                   else storeLoop t (dset k v a) (dset k v tr)
  end.
Definition retrain (s : tlearner) (a kw : args) : tlearner * result unit :=
  match mergeArguments a kw with
  | Err e => (s, Err e)
  | Ok merged =>
      if negb (valid merged) then (s, Err InvalidArgumentValue)
      else match storeLoop merged (tlArgs s) (tlTrans s) with
           | ((a', tr'), Err e) => (mkTL a' tr' (tlUsed s), Err e)
           | ((_, tr'), Ok _) => (mkTL merged tr' (tlUsed s ++ [tr']), Ok tt)
           end
  end.
(** nimble.train: the first training *)
Definition trainTL (a : args) : tlearner := mkTL a a [a].
End Merge.
Arguments mergeLoop {V EV} _ _.
Arguments mergeArguments {V EV} _ _.
Arguments tlArgs {V} _. Arguments tlTrans {V} _. Arguments tlUsed {V} _. Arguments mkTL {V} _ _ _.
Arguments retrain {V EV} _ _ _ _ _.
Arguments storeLoop {V} _ _ _ _.
Arguments trainTL {V} _.

(** ** trackEntry.  A tracked function first decides whether it validates its
    arguments (every use of the flag, learn.py:492, 632, 796, 989, 1196, 1361
    and universal_interface.py:1124, 1240, is at the start of the body), then
    makes nested tracked calls, and may raise after any of them. *)
Inductive call := Call (name : nat) (nested : list call) (raises : bool).
Definition flag := option bool.
(** returns the flag afterwards, whether an exception left the call, and the
    names of the calls that validated, in order *)
Fixpoint runCall (f : flag) (c : call) : flag * bool * list nat :=
  match c with
  | Call name nested raises =>
      let f1 := match f with None => Some true | Some true => Some false | Some false => Some false end in
      let v := match f1 with Some true => [name] | _ => [] end in
      let fix body (f : flag) (l : list call) : bool * list nat :=
        match l with
        | [] => (raises, [])
        | c' :: t => let '(f', exn, vs) := runCall f c' in
                     if exn then (true, vs)
                     else let '(e, vs') := body f' t in (e, vs ++ vs')
        end in
      let '(e, vs) := body f1 nested in
      (None, e, v ++ vs)
  end.

(** ** KNNClassifier *)
Section KNN.
Variable L : Type.
Context {EL : EqDec L}.
Fixpoint dot (a b : list Z) : Z :=
  match a, b with x :: a', y :: b' => (x * y + dot a' b')%Z | _, _ => 0%Z end.
(** lines 96-107; the square root (monotone) is left out *)
Definition dist2 (test train : list Z) : Z := (-2 * dot test train + dot train train + dot test test)%Z.
(** [l[:k]] for any integer k *)
Definition pyPrefix {A} (k : Z) (l : list A) : list A :=
  if (0 <=? k)%Z then firstn (Z.to_nat k) l else firstn (List.length l - Z.to_nat (- k)) l.
(** lines 118-120 *)
Definition nearestIdx (k : Z) (dists : list Z) : list nat :=
  map fst (pyPrefix k (stableSort (fun p q => (snd p <=? snd q)%Z) (combine (seq 0 (List.length dists)) dists))).
(** lines 121-126; also _interface_helpers.py:573-586 [countWins] *)
Definition countVotes (labels : list L) : @dict L nat :=
  fold_left (fun (d : @dict L nat) label => match dget label d with
                            | Some c => dset label (c + 1) d
                            | None => dset label 1 d end) labels [].
(** lines 54-60 *)
Definition bestLabels (votes : list (L * nat)) : list L :=
  fst (fold_left (fun (acc : list L * nat) p =>
         if snd acc <? snd p then ([fst p], snd p)
         else if snd p =? snd acc then (fst acc ++ [fst p], snd acc) else acc) votes ([], 0)).
(** lines 49-70, for one test point *)
Definition knnPredict (k : Z) (trainX : list (list Z)) (trainY : list L) (x : list Z) : result L :=
  let near := nearestIdx k (map (dist2 x) trainX) in
  ordered <- rmapM (fun i => match nth_error trainY i with Some l => Ok l | None => Err IndexErr end) near ;;
  let best := bestLabels (countVotes ordered) in
  if 1 <? List.length best then
    match find (fun l => mem l best) ordered with Some l => Ok l | None => Err IndexErr end
  else match best with l :: _ => Ok l | [] => Err IndexErr end.
(** lines 75-93 [getScores], for one test point; [labelVals] are the sorted
    distinct training labels *)
Definition knnScores (k : Z) (labelVals : list L) (trainX : list (list Z)) (trainY : list L) (x : list Z) : result (list nat) :=
  let near := nearestIdx k (map (dist2 x) trainX) in
  ordered <- rmapM (fun i => match nth_error trainY i with Some l => Ok l | None => Err IndexErr end) near ;;
  Ok (map (fun v => match dget v (countVotes ordered) with Some c => c | None => 0 end) labelVals).

(** ** One-vs-one and one-vs-all helpers (_interface_helpers.py) *)
(** 552-571 [generateAllPairs] *)
Fixpoint pairsOf (items : list L) : list (L * L) :=
  match items with [] => [] | x :: r => map (fun y => (x, y)) r ++ pairsOf r end.
Definition generateAllPairs (items : list L) : option (list (L * L)) :=
  match items with [] => None | _ => Some (pairsOf items) end.
(** 589-601 [extractWinningPredictionLabel]: [max] returns the first maximal key *)
Definition maxKey (votes : list (L * nat)) : option L :=
  match votes with
  | [] => None
  | p :: r => Some (fst (fold_left (fun b q => if snd b <? snd q then q else b) r p))
  end.
Definition winningLabel (predictions : list L) : result L :=
  match maxKey (countVotes predictions) with Some l => Ok l | None => Err ValueErr end.
(** 604-620 [extractWinningPredictionIndex]; every score is a number *)
Definition winningIndex (scores : list Z) : option nat :=
  snd (snd (fold_left (fun (acc : nat * (option Z * option nat)) s =>
      let '(i, (m, b)) := acc in
      match m with
      | Some m' => if (m' <? s)%Z then (S i, (Some s, Some i)) else (S i, (m, b))
      | None => (S i, (Some s, Some i))
      end) scores (0, (None, None)))).
(** universal_interface.py:1836-1844: the one-vs-all winner *)
Definition ovaLabel (labelSet : list L) (row : list Z) : result L :=
  match winningIndex row with
  | None => Err TypeErr
  | Some i => match nth_error labelSet i with Some l => Ok l | None => Err IndexErr end
  end.
End KNN.
Arguments countVotes {L EL} _.
Arguments bestLabels {L} _.
Arguments knnPredict {L EL} _ _ _ _.
Arguments knnScores {L EL} _ _ _ _ _.
Arguments pairsOf {L} _.
Arguments generateAllPairs {L} _.
Arguments maxKey {L} _.
Arguments winningLabel {L EL} _.
Arguments ovaLabel {L} _ _.

(** 322-345 [valueFromOneVOneData] over the flat list of pair scores *)
Definition valueFromOneVOneData (data : list Z) (pos neg n : nat) : result (option Z) :=
  if pos =? neg then Ok None
  else
    let '(flagNegative, lo, hi) := if neg <? pos then (true, neg, pos) else (false, pos, neg) in
    (* (posLabel * numLabels) - ((posLabel * (posLabel + 1)) // 2) + (negLabel - (posLabel + 1)), as
       integers; the subtraction is never negative for lo < n *)
    let start := lo * n - lo * (lo + 1) / 2 in
    let offset := hi - (lo + 1) in
    match nth_error data (start + offset) with
    | None => Err IndexErr
    | Some v => Ok (Some (if flagNegative then (0 - v)%Z else v))
    end.
(** 300-319 [calculateSingleLabelScoresFromOneVsOneScores]: the number of wins
    (the division by numLabels - 1 is left out) *)
Definition winsOf (data : list Z) (n i : nat) : result nat :=
  ss <- rmapM (fun j => valueFromOneVOneData data i j n) (seq 0 n) ;;
  Ok (List.length (filter (fun s => match s with Some v => (0 <? v)%Z | None => false end) ss)).
Definition singleLabelWins (data : list Z) (n : nat) : result (list nat) :=
  rmapM (winsOf data n) (seq 0 n).

(** ** Score columns.  [internal] is _getScoresOrder, [leb] the order of the
    labels, a row of scores is given in internal order. *)
Section Scores.
Variable L S : Type.
Context {EL : EqDec L}.
Variable leb : L -> L -> bool.
(** universal_interface.py:1622-1638 [getScores]: features.permute(sortOrder) *)
Definition sortOrderOf (internal : list L) : list nat :=
  let natural := stableSort leb internal in
  let desired := fold_left (fun d p => dset (snd p) (fst p) d) (combine (seq 0 (List.length natural)) natural) [] in
  flat_map (fun l => match dget l desired with Some i => [i] | None => [] end) internal.
Definition getScoresRow (internal : list L) (row : list S) : list S :=
  if list_eq_dec eq_dec (stableSort leb internal) internal then row
  else selected (sortOrderOf internal) row.
(** 1278-1282 [apply], 'allScores': the columns are then named by [internal] *)
Definition allScoresNamed (internal : list L) (row : list S) : list (L * S) :=
  combine internal (getScoresRow internal row).
(** 1283-1291 'bestScore': row[scoreOrder.index(label)] *)
Fixpoint indexOf (l : L) (ls : list L) : option nat :=
  match ls with
  | [] => None
  | x :: t => if eq_dec l x then Some 0 else option_map Datatypes.S (indexOf l t)
  end.
Definition bestScoreOf (internal : list L) (row : list S) (label : L) : option S :=
  match indexOf label internal with Some i => nth_error (getScoresRow internal row) i | None => None end.

(** 1868-1893 (one-vs-all 'allScores'): [names] are the column names of the
    collected predictions, [headers] the sorted label strings *)
Definition placeScores (zero : S) (headers names : list L) (row : list S) : result (list S) :=
  let indexDict := fold_left (fun d p => dset (snd p) (fst p) d) (combine (seq 0 (List.length headers)) headers) [] in
  let scoreMap := fold_left (fun d p => dset (fst p) (snd p) d) (combine names row) [] in
  fold_left (fun (acc : result (list S)) p =>
      r <- acc ;;
      match dget (fst p) indexDict with
      | None => Err KeyErr
      | Some i => Ok (upd r i (snd p))
      end) scoreMap (Ok (repeat zero (List.length headers))).
(** np.unique: the distinct labels in increasing order.  Every interface
    stores this as the score order: custom_learner.py:159, 172,
    scikit_learn_interface.py:203-211, keras_interface.py:461 *)
Definition npUnique (labels : list L) : list L :=
  stableSort leb (nodup eq_dec labels).
End Scores.
Arguments npUnique {L EL} _ _.
Arguments sortOrderOf {L EL} _ _.
Arguments getScoresRow {L S EL} _ _ _.
Arguments allScoresNamed {L S EL} _ _ _.
Arguments bestScoreOf {L S EL} _ _ _ _.
Arguments placeScores {L S EL} _ _ _ _.
Arguments indexOf {L EL} _ _.

(** ** OneVsOne training, universal_interface.py:240-276.
    The rows of the working copy with the label column at index [c]; [named]
    tells whether every feature has a name, in which case features.append /
    points.append put a re-attached label column back in its place
    (axis.py:_alignNames), otherwise it stays last.  [labelSet] is the list of
    distinct labels in some order.  Each training gets the rows without the
    label column, and the labels. *)
Section OvO.
Variable V : Type.
Context {EV : EqDec V}.
Definition dropAt (c : nat) (row : list V) : list V := firstn c row ++ skipn (S c) row.
Definition labelIn (c : nat) (pr : V * V) (row : list V) : bool :=
  match nth_error row c with Some l => mem l [fst pr; snd pr] | None => false end.
Definition splitRow (c : nat) (row : list V) : list (list V * V) :=
  match nth_error row c with Some l => [(dropAt c row, l)] | None => [] end.
Definition reattach (named : bool) (c : nat) (p : list V * V) : list V :=
  if named then firstn c (fst p) ++ snd p :: skipn c (fst p) else fst p ++ [snd p].
Fixpoint ovoLoop (named : bool) (c : nat) (rows : list (list V)) (pairs : list (V * V)) : list (list (list V * V)) :=
  match pairs with
  | [] => []
  | pr :: t =>
      let pairData := filter (labelIn c pr) rows in
      let rest := filter (fun r => negb (labelIn c pr r)) rows in
      let split := flat_map (splitRow c) pairData in
      split :: ovoLoop named c (rest ++ map (reattach named c) split) t
  end.
Definition ovoTrain (named : bool) (c : nat) (rows : list (list V)) (labelSet : list V) : option (list (list (list V * V))) :=
  match generateAllPairs labelSet with
  | None => None
  | Some pairs => Some (ovoLoop named c rows pairs)
  end.
End OvO.
Arguments dropAt {V} _ _.
Arguments labelIn {V EV} _ _ _.
Arguments splitRow {V} _ _.
Arguments reattach {V} _ _ _.
Arguments ovoLoop {V EV} _ _ _ _.
Arguments ovoTrain {V EV} _ _ _ _.
