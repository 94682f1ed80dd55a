(** Model of nimble.calculate.
    Sources: /repo/nimble/calculate/loss.py, similarity.py, binary.py,
    normalize.py, statistic.py, utility.py.
    Numbers are rationals (exact) instead of floats; a vector object is the
    list of its elements. *)
From Verif Require Import Base TableModel TableSpec LearnModel.
From Coq Require Import QArith Qabs.
Open Scope list_scope.
Open Scope nat_scope.

Definition qnat (n : nat) : Q := inject_Z (Z.of_nat n).
Definition qsum (l : list Q) : Q := fold_left Qplus l 0%Q.

(** ** utility.py:480-535: the validation done by @performanceFunction for
    single-feature inputs (missing values are not modelled) *)
Definition performanceFunction {A B} (f : list A -> list A -> result B) (known pred : list A) : result B :=
  if (List.length known =? 0) || (List.length pred =? 0) then Err InvalidArgumentValue
  else if negb (List.length known =? List.length pred) then Err InvalidArgumentValueCombination
  else f known pred.
(** loss.py:34-68 [_computeError] *)
Fixpoint errLoop {A} (loop : A -> A -> Q -> Q) (known pred : list A) (i : nat) (total : Q) : result Q :=
  match pred with
  | [] => Ok total
  | pv :: t => match nth_error known i with
               | None => Err IndexErr
               | Some av => errLoop loop known t (S i) (loop av pv total)
               end
  end.
Definition computeError {A} (loop : A -> A -> Q -> Q) (compress : Q -> Q -> Q) (known pred : list A) : result Q :=
  total <- errLoop loop known pred 0 0%Q ;;
  if 0 <? List.length pred then Ok (compress total (qnat (List.length pred))) else Err InvalidArgumentValue.
(** loss.py:71-80; the final square root is left out: this is the square of
    rootMeanSquareError *)
Definition meanSquareError : list Q -> list Q -> result Q :=
  performanceFunction (computeError (fun x y z => z + (y - x) * (y - x)) (fun x y => x / y))%Q.
(** loss.py:101-110 *)
Definition meanAbsoluteError : list Q -> list Q -> result Q :=
  performanceFunction (computeError (fun x y z => z + Qabs (y - x)) (fun x y => x / y))%Q.
Section Labels.
Context {L : Type} {EL : EqDec L}.
(** loss.py:112-121 *)
Definition fractionIncorrect : list L -> list L -> result Q :=
  performanceFunction (computeError (fun x y z => if eqbd x y then z else (z + 1)%Q) (fun x y => (x / y)%Q)).
(** similarity.py:126-133 *)
Definition fractionCorrect (known pred : list L) : result Q :=
  rmap (fun q => (1 - q)%Q) (fractionIncorrect known pred).

(** ** similarity.py:135-374 [confusionMatrix]; a matrix is a list of rows,
    rows are predicted labels, columns known labels *)
Definition matrix := list (list nat).
Definition zeros (n : nat) : matrix := repeat (repeat 0 n) n.
Definition getCell (m : matrix) (p k : nat) : nat := nth k (nth p m []) 0.
Definition setCell (m : matrix) (p k : nat) (v : nat) : matrix := upd m p (upd (nth p m []) k v).
(** 320-335 / 342-358: look both labels up, then [toFill[p, k] += 1] *)
Fixpoint countLoop (idx : L -> result nat) (pairs : list (L * L)) (m : matrix) : result matrix :=
  match pairs with
  | [] => Ok m
  | (kv, pv) :: t => ki <- idx kv ;; pi <- idx pv ;;
                     countLoop idx t (setCell m pi ki (getCell m pi ki + 1))
  end.
(** [list.index] *)
Definition indexIn (e : exc) (ls : list L) (l : L) : result nat :=
  match indexOf l ls with Some i => Ok i | None => Err e end.
(** 342-361 [_confusionMatrixWithLabelsDict], keyed by the sorted keys; the
    second component are the keys whose labels name the axes *)
Definition confusionDictLabels (leb : L -> L -> bool) (keys known pred : list L) : result (matrix * list L) :=
  let sorted := stableSort leb keys in
  m <- countLoop (indexIn KeyErr sorted) (combine known pred) (zeros (List.length keys)) ;;
  Ok (m, sorted).
(** 364-389 [_confusionMatrixNoLabels] (_mapInt is the identity) *)
Fixpoint fillLoop (ls : list L) (cd : list ((L * L) * nat)) (m : matrix) : result matrix :=
  match cd with
  | [] => Ok m
  | ((kv, pv), c) :: t => ki <- indexIn ValueErr ls kv ;; pi <- indexIn ValueErr ls pv ;;
                          fillLoop ls t (setCell m pi ki c)
  end.
Definition confusionNoLabels (leb : L -> L -> bool) (known pred : list L) : result (matrix * list L) :=
  let ls := npUnique leb known in
  m <- fillLoop ls (countVotes (combine known pred)) (zeros (List.length ls)) ;;
  Ok (m, ls).
End Labels.
(** 304-335 [_confusionMatrixWithLabelsList]: integral values index [labels] *)
Definition validIndex (n : nat) (z : Z) : result nat :=
  if ((0 <=? z) && (z <? Z.of_nat n))%Z%bool then Ok (Z.to_nat z) else Err IndexErr.
Definition confusionListLabels (n : nat) (known pred : list Z) : result matrix :=
  countLoop (validIndex n) (combine known pred) (zeros n).
(** ** binary.py:113-133 and 137-150 *)
Definition binaryMatrix (known pred : list Z) : result matrix :=
  match confusionListLabels 2 known pred with
  | Err IndexErr => Err InvalidArgumentValue
  | r => r
  end.
Definition truePositive (known pred : list Z) : result nat := rmap (fun m => getCell m 1 1) (performanceFunction binaryMatrix known pred).
Definition trueNegative (known pred : list Z) : result nat := rmap (fun m => getCell m 0 0) (performanceFunction binaryMatrix known pred).
Definition falsePositive (known pred : list Z) : result nat := rmap (fun m => getCell m 1 0) (performanceFunction binaryMatrix known pred).
Definition falseNegative (known pred : list Z) : result nat := rmap (fun m => getCell m 0 1) (performanceFunction binaryMatrix known pred).
(** 137-184: the ratios (numpy's 0/0 is not modelled: ZeroDiv) *)
Definition qdiv (a b : nat) : result Q := if b =? 0 then Err ZeroDiv else Ok (qnat a / qnat b)%Q.
Definition recallOf (m : matrix) : result Q := qdiv (getCell m 1 1) (getCell m 0 1 + getCell m 1 1).
Definition precisionOf (m : matrix) : result Q := qdiv (getCell m 1 1) (getCell m 1 0 + getCell m 1 1).
Definition specificityOf (m : matrix) : result Q := qdiv (getCell m 0 0) (getCell m 0 0 + getCell m 1 0).

(** ** utility.py:214-257 [_runTrialGivenParameters], given the list of scores
    (first all correct, last all wrong) *)
Inductive best := BMax | BMin.
Inductive trial := TBest (b : best) | TNonMonotonic | TNoDifference.
Fixpoint maxLoop (wrong correct prev : Q) (l : list Q) : bool :=
  match l with
  | [] => true
  | s :: t => if (negb (Qle_bool wrong s) || negb (Qle_bool s correct) || negb (Qle_bool s prev))%bool then false
              else maxLoop wrong correct s t
  end.
Fixpoint minLoop (wrong correct prev : Q) (l : list Q) : bool :=
  match l with
  | [] => true
  | s :: t => if (negb (Qle_bool s wrong) || negb (Qle_bool correct s) || negb (Qle_bool prev s))%bool then false
              else minLoop wrong correct s t
  end.
Definition runTrial (scores : list Q) : trial :=
  let correct := hd 0%Q scores in
  let wrong := last scores 0%Q in
  if negb (Qle_bool correct wrong) then
    if maxLoop wrong correct (correct + 1) scores then TBest BMax else TNonMonotonic
  else if negb (Qle_bool wrong correct) then
    if minLoop wrong correct (correct - 1) scores then TBest BMin else TNonMonotonic
  else TNoDifference.

(** ** normalize.py:114-140 [rangeNormalize]; [None] when the vector is empty *)
Definition qmin (l : list Q) : option Q :=
  match l with [] => None | x :: t => Some (fold_left (fun a b => if Qle_bool a b then a else b) t x) end.
Definition qmax (l : list Q) : option Q :=
  match l with [] => None | x :: t => Some (fold_left (fun a b => if Qle_bool b a then a else b) t x) end.
Definition rangeVal (mn spread start fin v : Q) : Q :=
  let sub := (v - mn)%Q in
  let r := (fin * sub - start * sub)%Q in
  ((if Qeq_bool spread 0 then r else r / spread) + start)%Q.
Definition rangeNormalize (v1 v2 : list Q) (start fin : Q) : option (list Q * list Q) :=
  match qmin v1, qmax v1 with
  | Some mn, Some mx =>
      let f := rangeVal mn (mx - mn)%Q start fin in
      Some (map f v1, map f v2)
  | _, _ => None
  end.

(** ** normalize.py:177-296 [percentileNormalize].  A missing value is [None].
    [order] is the result of np.argsort: any permutation of the positions that
    sorts the values, missing ones last (numpy's default sort is not stable). *)
Definition isNan (x : option Q) : bool := match x with None => true | _ => false end.
Definition sameAs (v : Q) (x : option Q) : bool := match x with Some y => Qeq_bool y v | None => false end.
(** 238-248; [None] is the ZeroDivisionError *)
Definition epsilonOf (arr : list (option Q)) : option Q :=
  let d := if existsb isNan arr then (Z.of_nat (List.length arr) - 2)%Z else (Z.of_nat (List.length arr) - 1)%Z in
  if (d =? 0)%Z then None else Some (1 / inject_Z d)%Q.
(** 249-251 *)
Definition ranks (eps : Q) (arr : list (option Q)) (order : list nat) : list (option Q) :=
  fold_left (fun percs p =>
      match nth_error percs (snd p) with
      | Some (Some _) => upd percs (snd p) (Some (qnat (fst p) * eps)%Q)
      | _ => percs
      end) (combine (seq 0 (List.length order)) order) arr.
(** 254-258: for every distinct value, the mean of the percentiles at the
    positions holding it *)
Definition positionsOf (v : Q) (arr : list (option Q)) : list nat :=
  filter (fun i => match nth_error arr i with Some x => sameAs v x | None => false end) (seq 0 (List.length arr)).
Definition averageTies (arr percs : list (option Q)) (v : Q) : list (option Q) :=
  let pos := positionsOf v arr in
  let same := flat_map (fun i => match nth_error percs i with Some (Some q) => [q] | _ => [] end) pos in
  if 1 <? List.length same then
    let m := (qsum same / qnat (List.length same))%Q in
    fold_left (fun p i => upd p i (Some m)) pos percs
  else percs.
(** np.unique, up to Qeq (the order does not matter) *)
Fixpoint qunique (l : list (option Q)) : list Q :=
  match l with
  | [] => []
  | None :: t => qunique t
  | Some x :: t => x :: filter (fun y => negb (Qeq_bool y x)) (qunique t)
  end.
Definition percentiles (arr : list (option Q)) (order : list nat) : option (list (option Q)) :=
  match epsilonOf arr with
  | None => None
  | Some eps => Some (fold_left (averageTies arr) (qunique arr) (ranks eps arr order))
  end.
(** 281-296 [_interpPercentile] for data without missing values *)
Definition searchsorted (sorted : list Q) (v : Q) : nat :=
  List.length (filter (fun x => negb (Qle_bool v x)) sorted).
Definition interpPercentile (mn mx : Q) (sortedV sortedP : list Q) (v : Q) : option Q :=
  if (Qeq_bool v mn && Qeq_bool mn mx)%bool then Some (1 # 2)%Q
  else if Qle_bool v mn then Some 0%Q
  else if Qle_bool mx v then Some 1%Q
  else
    let idx := searchsorted sortedV v in
    match nth_error sortedV (idx - 1), nth_error sortedV idx, nth_error sortedP (idx - 1), nth_error sortedP idx with
    | Some lv, Some rv, Some lp, Some rp =>
        if Qeq_bool v rv then Some rp
        else Some (lp + (rp - lp) * ((v - lv) / (rv - lv)))%Q
    | _, _, _, _ => None
    end.

(** 265-280: the percentile of an element of [values2]; [vals] is values1
    (without missing values) and [order] its argsort *)
Definition percentile2 (vals : list Q) (order : list nat) (v : Q) : option Q :=
  match percentiles (map Some vals) order, qmin vals, qmax vals with
  | Some P, Some mn, Some mx =>
      interpPercentile mn mx (map (fun i => nth i vals 0%Q) order)
        (map (fun i => match nth_error P i with Some (Some q) => q | _ => 0%Q end) order) v
  | _, _, _ => None
  end.

(** ** statistic.py.  A dense vector is a list of [option Q] ([None] missing).
    A sparse vector is its length and the list of stored values ([._data.data],
    in whatever order they are stored). *)
Record spvec := mkSp { spLen : nat; spStored : list (option Q) }.
Definition nonMissing (l : list (option Q)) : list Q :=
  flat_map (fun x => match x with Some q => [q] | None => [] end) l.
Definition nanCount (l : list (option Q)) : nat := List.length (filter isNan l).
(** np.nanmean / 183-199 *)
Definition meanDense (l : list (option Q)) : option Q :=
  let v := nonMissing l in
  if List.length v =? 0 then None else Some (qsum v / qnat (List.length v))%Q.
Definition meanSparse (s : spvec) : option Q :=
  let d := (Z.of_nat (spLen s) - Z.of_nat (nanCount (spStored s)))%Z in
  if (d =? 0)%Z then None else Some (qsum (nonMissing (spStored s)) / inject_Z d)%Q.
(** np.nanvar / 325-344; ddof is 1 for the sample variance *)
Definition sqdev (m : Q) (v : list Q) : Q := qsum (map (fun x => (x - m) * (x - m))%Q v).
Definition varianceDense (ddof : nat) (l : list (option Q)) : option Q :=
  match meanDense l with
  | None => None
  | Some m => let v := nonMissing l in
      if (Z.of_nat (List.length v) - Z.of_nat ddof =? 0)%Z then None
      else Some (sqdev m v / inject_Z (Z.of_nat (List.length v) - Z.of_nat ddof))%Q
  end.
Definition varianceSparse (ddof : nat) (s : spvec) : option Q :=
  match meanSparse s with
  | None => None
  | Some m =>
      let zeroSum := (m * m * inject_Z (Z.of_nat (spLen s) - Z.of_nat (List.length (spStored s))))%Q in
      let divisor := (Z.of_nat (spLen s) - Z.of_nat (nanCount (spStored s)) - Z.of_nat ddof)%Z in
      if (divisor =? 0)%Z then None
      else Some ((sqdev m (nonMissing (spStored s)) + zeroSum) / inject_Z divisor)%Q
  end.
(** 67-90 [proportionZero]; numerators, the common denominator is the length *)
Definition isZero (x : option Q) : bool := match x with Some q => Qeq_bool q 0 | None => false end.
Definition numZeroDense (l : list (option Q)) : nat := List.length (filter isZero l).
Definition numZeroSparse (s : spvec) : Z := (Z.of_nat (spLen s) - Z.of_nat (List.length (spStored s)))%Z.
(** 122-147 [_minmax] *)
Definition minDense (l : list (option Q)) : option Q := qmin (nonMissing l).
Definition maxDense (l : list (option Q)) : option Q := qmax (nonMissing l).
Definition toProcess (s : spvec) : list (option Q) :=
  if List.length (spStored s) <? spLen s then spStored s ++ [Some 0%Q] else spStored s.
Definition minSparse (s : spvec) : option Q := qmin (nonMissing (toProcess s)).
Definition maxSparse (s : spvec) : option Q := qmax (nonMissing (toProcess s)).
