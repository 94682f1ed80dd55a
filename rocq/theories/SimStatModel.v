(** Model of points.similarities / features.similarities and points.statistics /
    features.statistics.
    Sources: /repo/nimble/core/data/axis.py:861-935 (_similarities, _statistics,
    _statisticsBackend), 1572-1580 (_process_statistics);
    /repo/nimble/calculate/similarity.py:45-121; /repo/nimble/_utility.py:42-46,
    596-632; /repo/nimble/core/data/_dataHelpers.py:193-224.
    Simplifications: numbers are exact; the statistics themselves are parameters (the
    calculations are the subject of C41 and C71); letters are ASCII; paths and the log
    are left out; the values of a statistic are stored as they are (nimble.data would
    turn its markers of missing values into nan). *)
From Verif Require Import Base NamesModel TableModel TableOps MatchModel BinOpModel CalcModel CopyModel MatMulModel.
From Verif Require LogModel WorkModel.
From Coq Require Import List Arith ZArith QArith Ascii String. Import ListNotations.
Open Scope string_scope. Open Scope list_scope. Open Scope nat_scope.

(** ** The names of functions *)
(** the characters that str.split() splits at (ASCII) *)
Definition isBlank (c : ascii) : bool :=
  let n := nat_of_ascii c in ((9 <=? n) && (n <=? 13)) || ((28 <=? n) && (n <=? 32)).
(** _dataHelpers.py:193-202 [cleanKeywordInput] *)
Fixpoint clean (s : string) : string :=
  match s with
  | EmptyString => EmptyString
  | String c t => if isBlank c then clean t else String (LogModel.lower c) (clean t)
  end.
(** _dataHelpers.py:204-224 [validateInputString]; None: not a string *)
Definition validateInput (accepted : list string) (arg : option string) : result string :=
  match arg with
  | None => Err InvalidArgumentType
  | Some s => if mem (clean s) (map clean accepted) then Ok (clean s) else Err InvalidArgumentValue
  end.
(** _utility.py:42-46 *)
Definition acceptedStats : list string :=
  ["max"; "mean"; "median"; "min"; "unique count"; "proportion missing"; "proportion zero";
   "standard deviation"; "std"; "population std"; "population standard deviation"; "sample std";
   "sample standard deviation"; "count"; "mode"; "sum"; "variance"; "median absolute deviation"; "quartiles"].
Inductive stat :=
| SMax | SMin | SMean | SMedian | SMode | SSum | SVariance | SUnique | SMissing | SZero | SQuartiles | SMad | SSample | SPopulation.
(** _utility.py:596-632 [_getStatsFunction] *)
Definition statFunction (name : string) : result stat :=
  if String.eqb name "max" then Ok SMax
  else if String.eqb name "min" then Ok SMin
  else if String.eqb name "mean" then Ok SMean
  else if String.eqb name "median" then Ok SMedian
  else if String.eqb name "mode" then Ok SMode
  else if String.eqb name "sum" then Ok SSum
  else if String.eqb name "variance" then Ok SVariance
  else if String.eqb name "uniquecount" then Ok SUnique
  else if String.eqb name "proportionmissing" then Ok SMissing
  else if String.eqb name "proportionzero" then Ok SZero
  else if String.eqb name "quartiles" then Ok SQuartiles
  else if String.eqb name "medianabsolutedeviation" then Ok SMad
  else if mem name ["std"; "standarddeviation"; "samplestd"; "samplestandarddeviation"] then Ok SSample
  else if mem name ["populationstd"; "populationstandarddeviation"] then Ok SPopulation
  else Err ValueErr.

(** ** Statistics *)
Section Statistics.
Context {V : Type}.
(** the statistic of the values of a vector (of all but quartiles), and the three
    quartiles *)
Variable one : stat -> list V -> V.
Variable three : list V -> V * V * V.
Definition valuesOf (s : stat) (v : list V) : list V :=
  match s with SQuartiles => let '(a, b, c) := three v in [a; b; c] | _ => [one s v] end.
(** axis.py:917-921 *)
Definition label (a : axis) (name : string) : result axis :=
  let r := if String.eqb name "quartiles"
           then setNames a (AList [NStr "quartile1"; NStr "quartile2"; NStr "quartile3"]) (OList [IdInt 0; IdInt 1; IdInt 2])
           else setNames a (AStr name) (OOne (IdInt 0)) in
  match r with (a', Ok _) => Ok a' | (_, Err e) => Err e end.
(** axis.py:914-930 [_statisticsBackend]; 553-570: the object [_calculate_backend]
    builds from the values *)
Definition statisticsBackend (sd : side) (t : table V) (name : string) (s : stat) : result (table V) :=
  r <- calculate sd t (valuesOf s) None ;;
  let '(a, vs) := r in
  let k := match vs with v :: _ => List.length v | [] => 0 end in
  match sd with
  | Pts =>
      p <- WorkModel.setAll a (Some (getNames (tp t))) ;;
      f <- label (mkAxis k None) name ;;
      Ok (mkTable p f vs)
  | Fts =>
      p <- label (mkAxis k None) name ;;
      f <- WorkModel.setAll a (Some (getNames (tf t))) ;;
      Ok (mkTable p f (transposeRows k vs))
  end.
(** axis.py:899-907 [_statistics] without groupByFeature *)
Definition statistics (sd : side) (t : table V) (arg : option string) : result (table V) :=
  name <- validateInput acceptedStats arg ;;
  s <- statFunction name ;;
  statisticsBackend sd t name s.
(** axis.py:899-912 [_statistics] of features with groupByFeature; [key], [by_] as in
    TableOps.groupByFeature *)
Definition groupedStatistics {K : Type} {EK : EqDec K} (key : list V -> K) (t : table V) (by_ : list nat) (arg : option string)
  : result (dict K (table V)) :=
  name <- validateInput acceptedStats arg ;;
  s <- statFunction name ;;
  groups <- groupByFeature key t by_ ;;
  rmapM (fun kg => rmap (fun r => (fst kg, r)) (statisticsBackend Fts (snd kg) name s)) groups.
End Statistics.

(** ** Similarities *)
Section Similarities.
Variable floatOf : string -> option pval.
(** np.std: the square root of the population variance *)
Variable std : list Q -> Q.
Variables pyMul pyAdd : pval -> pval -> result pval.

(** np.isfinite of a float *)
Definition finite (v : pval) : option Q :=
  match v with PFloat q => Some q | PInt z => Some (inject_Z z) | PBool b => Some (if b then 1 else 0)%Q | _ => None end.
(** similarity.py:55-58: the array of floats with its mask *)
Definition masked (m : list (list pval)) : result (list (list (option Q))) :=
  rmapM (rmapM (fun v => rmap finite (asFloat floatOf v))) m.
(** the division of numpy floats where 0/0 is nan (nothing else is divided by 0:
    C80_nothing_over_zero) *)
Definition npDiv (a b : Q) : option Q := if Qeq_bool b 0 then None else Some (a / b)%Q.
Definition optDiv (a : option Q) (b : Q) : option Q := match a with Some x => npDiv x b | None => None end.
Definition mean (l : list Q) : Q := (qsum l / qnat (List.length l))%Q.
Definition dot (a b : list Q) : Q := qsum (map (fun xy => (fst xy * snd xy)%Q) (combine a b)).
Definition deviations (l : list Q) : list Q := map (fun x => x - mean l)%Q l.
(** similarity.py:61-71: no data is missing *)
Definition wholeCell (sample corr : bool) (x y : list Q) : option Q :=
  let m := Z.of_nat (List.length x) in
  let r := npDiv (dot (deviations x) (deviations y)) (inject_Z (if sample then m - 1 else m)) in
  if corr then optDiv r (std x * std y)%Q else r.
(** similarity.py:78-99: where both have a value *)
Definition bothPresent (x y : list (option Q)) : list (Q * Q) :=
  flat_map (fun p => match p with (Some a, Some b) => [(a, b)] | _ => [] end) (combine x y).
Definition pairCell (sample corr : bool) (x y : list (option Q)) : option Q :=
  let use := bothPresent x y in
  match use with
  | [] => None
  | _ =>
      let row := map fst use in
      let col := map snd use in
      let val := dot (deviations row) (deviations col) in
      let denominator := Z.of_nat (if sample then List.length row - 1 else List.length row) in
      let val := if (denominator =? 0)%Z then None else Some (val / inject_Z denominator)%Q in
      if corr then
        let corrDenominator := (std row * std col)%Q in
        if Qeq_bool corrDenominator 0 then None else optDiv val corrDenominator
      else val
  end.
(** similarity.py:73-77, 101-103: the loop over i <= j writing both cells *)
Definition writeBoth {A} (cellAt : nat -> nat -> A) (f : nat -> nat -> A) (ij : nat * nat) : nat -> nat -> A :=
  fun a b => if ((a =? fst ij) && (b =? snd ij)) || ((a =? snd ij) && (b =? fst ij)) then cellAt (fst ij) (snd ij) else f a b.
Definition loopPairs (n : nat) : list (nat * nat) :=
  flat_map (fun i => map (fun j => (i, j)) (seq i (n - i))) (seq 0 n).
Definition pairResults (sample corr : bool) (X : list (list (option Q))) : list (list (option Q)) :=
  let n := List.length X in
  let cellAt i j := pairCell sample corr (nth i X []) (nth j X []) in
  let final := fold_left (writeBoth cellAt) (loopPairs n) (fun _ _ => None) in
  map (fun i => map (final i) (seq 0 n)) (seq 0 n).
(** similarity.py:60 *)
Definition isPresent (o : option Q) : bool := match o with Some _ => true | None => false end.
Definition valuesIn (l : list (option Q)) : list Q := nonMissing l.
(** similarity.py:45-107 [_nanCovCorr]; X_T is the transpose of X *)
Definition nanCovCorr (sample corr : bool) (a : axis) (m : list (list pval)) : result (axis * axis * list (list (option Q))) :=
  X <- masked m ;;
  let cells :=
    if forallb (forallb isPresent) X
    then map (fun x => map (fun y => wholeCell sample corr (valuesIn x) (valuesIn y)) X) X
    else pairResults sample corr X in
  let names := getNamesNoGeneration a in
  p <- initAxis (List.length X) names ;;
  f <- initAxis (List.length X) names ;;
  Ok (p, f, cells).
(** axis.py:862-865 *)
Definition acceptedSimilarities : list string :=
  ["correlation"; "covariance"; "dot product"; "sample covariance"; "population covariance"].
(** what is computed: a table of numbers or nan, or a product of tables *)
Inductive similar := Cells (p f : axis) (cells : list (list (option Q))) | Product (t : table pval).
(** axis.py:861-897 [_similarities]: self afterwards and the outcome *)
Definition similarities (sd : side) (t : table pval) (arg : option string) : table pval * result similar :=
  match validateInput acceptedSimilarities arg with
  | Err e => (t, Err e)
  | Ok name =>
      let numbers sample corr :=
        (t, rmap (fun r => let '(p, f, c) := r in Cells p f c) (nanCovCorr sample corr (ax sd t) (vectors sd t))) in
      if String.eqb name "correlation" then numbers false true
      else if mem name ["covariance"; "samplecovariance"] then numbers true false
      else if String.eqb name "populationcovariance" then numbers false false
      else
        match sd with
        | Pts => match matMul floatOf pyMul pyAdd false t (MBase (transpose t)) with (s, _, r) => (s, rmap Product r) end
        | Fts => match matMul floatOf pyMul pyAdd false (transpose t) (MBase t) with
                 | (_, MBase b, r) => (b, rmap Product r)
                 | (_, _, r) => (t, rmap Product r)
                 end
        end
  end.
End Similarities.
