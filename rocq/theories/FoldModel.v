(** Model of the cross-validation folds and of the Validator bookkeeping.
    Sources: /repo/nimble/core/tune.py:55-193 (FoldIterator, KFoldIterator,
    GroupFoldIterator), 195-263 (Validator), 265-345 (CrossValidator._validate),
    1735-1745 (the sorted results of Tuning.tune). *)
From Verif Require Import Base NamesModel TableModel TableOps PrepModel.
Open Scope list_scope.
Open Scope nat_scope.

(** tune.py:157-167: the loop over the folds; [m], [r] = divmod(points, folds),
    [indices] is the shuffled list, [end0] the previous fold's end. *)
Fixpoint foldSlices (m r : nat) (indices : list nat) (fold count end0 : nat) : list (list nat) :=
  match count with
  | 0 => []
  | S count' =>
      let start := end0 in
      let stop := (fold + 1) * m + (if fold <? r then fold + 1 else r) in
      firstn (stop - start) (skipn start indices) :: foldSlices m r indices (S fold) count' stop
  end.
(** tune.py:137-169 [KFoldIterator.__init__], [makeFoldList]; [indices] is what
    [pythonRandom.shuffle(list(range(points)))] left. *)
Definition kFolds (points : nat) (folds : Z) (indices : list nat) : result (list (list nat)) :=
  if (folds <=? 0)%Z then Err InvalidArgumentValue
  else if points =? 0 then Err InvalidArgumentValueCombination
  else
    let k := Z.to_nat folds in
    let m := points / k in
    let r := points mod k in
    if m =? 0 then Err InvalidArgumentValueCombination
    else Ok (foldSlices m r indices 0 k 0).
(** tune.py:397-399 [LeaveOneOut]: folds = len(X.points) *)
Definition leaveOneOut (points : nat) (indices : list nat) : result (list (list nat)) :=
  kFolds points (Z.of_nat points) indices.

(** tune.py:184-193 [GroupFoldIterator.makeFoldList] over the group values *)
Section Group.
Variable V : Type.
Context {EV : EqDec V}.
Fixpoint groupLoop (i : nat) (vals : list V) (d : dict V (list nat)) : dict V (list nat) :=
  match vals with
  | [] => d
  | v :: t =>
      groupLoop (S i) t
        (match dget v d with Some l => dset v (l ++ [i]) d | None => dset v [i] d end)
  end.
Definition groupFolds (vals : list V) : list (list nat) := map snd (groupLoop 0 vals []).
(** tune.py:176-182: points whose group value is missing are dropped first;
    [keep] is the list of kept positions. *)
Definition keepNonMissing (missing : V -> bool) (vals : list V) : list nat :=
  map fst (filter (fun p => negb (missing (snd p))) (combine (seq 0 (List.length vals)) vals)).
End Group.
Arguments groupLoop {V EV} _ _ _.
Arguments groupFolds {V EV} _.
Arguments keepNonMissing {V} _ _.

Section Iter.
Variable V : Type.
(** tune.py:86-126 [FoldIterator.__next__]: the (train, test) pair of every
    data object for the current fold.  The state is [self.index]; [shuffle] is
    the list numpyRandom left in [indices]. *)
Definition foldPair (fold shuffle : list nat) (t : table V) : result (table V * table V) :=
  p <- extractIds Pts t (intIds fold) ;;
  train <- permuteIds Pts (fst p) (intIds shuffle) ;;
  Ok (train, snd p).
Definition foldNext (data : list (option (table V))) (folds : list (list nat)) (shuffle : list nat)
  (index : nat) : nat * result (list (option (table V * table V))) :=
  match nth_error folds index with
  | None => (0, Err StopIter)
  | Some fold =>
      match rmapM (fun d => match d with
                            | None => Ok None
                            | Some t => rmap Some (foldPair fold shuffle t) end) data with
      | Ok l => (S index, Ok l)
      | Err e => (index, Err e)
      end
  end.

(** tune.py:171-182 and 65-85 [GroupFoldIterator.__init__]: [vals] are the
    values of the fold feature; the data objects and the fold feature keep only
    the points whose value is not missing.  Returns the data objects and the
    fold list. *)
Definition groupInit {L : Type} {EL : EqDec L} (missing : L -> bool) (vals : list L)
  (data : list (option (table V))) : result (list (option (table V)) * list (list nat)) :=
  let keep := keepNonMissing missing vals in
  let kept := flat_map (fun i => match nth_error vals i with Some v => [v] | None => [] end) keep in
  data' <- rmapM (fun d => match d with
                           | None => Ok None
                           | Some t => rmap Some (copyIds Pts t (intIds keep)) end) data ;;
  match data' with
  | Some t0 :: _ =>
      if existsb (fun d => match d with
                           | Some t => (alen (tp t) =? 0) || negb (alen (tp t) =? alen (tp t0))
                           | None => false end) data'
      then Err InvalidArgumentValueCombination
      else Ok (data', groupFolds kept)
  | [] => Err InvalidArgumentValue
  | None :: _ => Err AttributeErr
  end.

(** tune.py:287-345 [CrossValidator._validate], the loop over the iterator:
    [learn] stands for trainAndApply and computeMetrics on the current fold and
    may raise.  [fuel] bounds the number of calls of [__next__].  [shuf i] is
    the shuffle drawn at index [i]. *)
Variable R : Type.
Fixpoint cvLoop (data : list (option (table V))) (folds : list (list nat)) (shuf : nat -> list nat)
  (learn : list (option (table V * table V)) -> result R) (fuel index : nat) (acc : list R)
  : nat * result (list R) :=
  match fuel with
  | 0 => (index, Err OutOfFuel)
  | S fuel' =>
      match foldNext data folds (shuf index) index with
      | (i', Err StopIter) => (i', Ok acc)
      | (i', Err e) => (i', Err e)
      | (i', Ok sets) =>
          match learn sets with
          | Ok r => cvLoop data folds shuf learn fuel' i' (acc ++ [r])
          | Err e => (i', Err e)
          end
      end
  end.
(** one validation: [for foldNum, fold in enumerate(self._foldIterator)];
    [iter] returns the same object, whose index is not reset. *)
Definition crossValidate (data : list (option (table V))) (folds : list (list nat)) (shuf : nat -> list nat)
  (learn : list (option (table V * table V)) -> result R) (index : nat) : nat * result (list R) :=
  cvLoop data folds shuf learn (S (List.length folds)) index [].

(** tune.py:316-319: [collectedY], the known labels in fold order *)
Fixpoint collectY (acc : option (table V)) (tests : list (table V)) : result (option (table V)) :=
  match tests with
  | [] => Ok acc
  | y :: rest =>
      acc' <- match acc with None => Ok y | Some a => insertTable Pts a None y end ;;
      collectY (Some acc') rest
  end.
End Iter.
Arguments foldPair {V} _ _ _.
Arguments foldNext {V} _ _ _ _.
Arguments groupInit {V L EL} _ _ _.
Arguments cvLoop {V R} _ _ _ _ _ _ _.
Arguments crossValidate {V R} _ _ _ _ _.
Arguments collectY {V} _ _.

(** ** Validator.validate (tune.py:251-263) and the sorted results *)
Section Best.
Variables P A : Type.
Variable isBest : P -> P -> bool. (* operator.gt for 'max', operator.lt for 'min' *)
Record vstate := mkV { vResults : list P; vArguments : list A; vBest : option (P * A) }.
Definition vinit := mkV [] [] None.
Definition record (s : vstate) (pa : P * A) : vstate :=
  mkV (vResults s ++ [fst pa]) (vArguments s ++ [snd pa])
      (match vBest s with
       | None => Some pa
       | Some b => if isBest (fst pa) (fst b) then Some pa else vBest s
       end).
(** [validate(arguments, record)]: with record=False nothing is stored *)
Definition validate (s : vstate) (c : P * A * bool) : vstate :=
  let '(pa, rec) := c in if rec then record s pa else s.
(** tune.py:1739-1744: [sorted(zip(results, arguments), key=itemgetter(0),
    reverse=highestIsBest)]: a stable sort, best first *)
Definition sortedResults (s : vstate) : list (P * A) :=
  stableSort (fun x y => negb (isBest (fst y) (fst x))) (combine (vResults s) (vArguments s)).
End Best.
Arguments mkV {P A} _ _ _.
Arguments vResults {P A} _.
Arguments vArguments {P A} _.
Arguments vBest {P A} _.
Arguments vinit {P A}.
Arguments record {P A} _ _ _.
Arguments validate {P A} _ _ _.
Arguments sortedResults {P A} _ _.
