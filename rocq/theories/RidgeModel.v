(** Model of the regression learners of nimble and of nimble.calculate.solve,
    leastSquaresSolution and inverse (C76).
    Sources: /repo/nimble/learners/ridge_regression.py:39-68,
    /repo/nimble/learners/multioutput_ridge_regression.py:35-55,
    /repo/nimble/calculate/linalg.py:32-121 (inverse), 302-372 (the solvers),
    /repo/nimble/_utility.py:313-323 (dtypeConvert).
    Simplifications: floats are exact rationals; arrays with NaN or infinities are
    not followed (OutOfFuel); the routines of numpy and scipy are parameters. *)
From Verif Require Import Base NamesModel TableModel MatchModel BinOpModel.
From Coq Require Import QArith.
From Coq Require Import List. Import ListNotations.
Open Scope nat_scope.

(** a two dimensional numpy array: shape, whether its dtype is bool, elements *)
Record arr := mkArr { ah : nat; aw : nat; ab : bool; av : list (list Q) }.
Definition qat (m : list (list Q)) (i j : nat) : Q := nth j (nth i m []) 0%Q.
Definition isBoolean (v : pval) : bool := match v with PBool _ => true | _ => false end.

Section Learners.
Variable floatOf : string -> option pval.
(** one element after _utility.py:313-323 [dtypeConvert]; a text that is not a
    number leaves an array of objects, on which matmul raises *)
Definition num (v : pval) : result Q :=
  match v with
  | PBool b => Ok (if b then 1 else 0)%Q
  | PInt z => Ok (inject_Z z)
  | PFloat q => Ok q
  | PStr s => match floatOf s with
              | Some (PBool b) => Ok (if b then 1 else 0)%Q | Some (PInt z) => Ok (inject_Z z) | Some (PFloat q) => Ok q
              | Some _ => Err OutOfFuel
              | None => Err TypeErr
              end
  | _ => Err OutOfFuel
  end.
(** [dtypeConvert(t.copy(to="numpyarray"))]; an object of booleans is an array of
    booleans *)
Definition raw (t : table pval) : result arr :=
  m <- rmapM (rmapM num) (rows t) ;;
  let bools := negb (alen (tp t) =? 0) && negb (alen (tf t) =? 0) && forallb (forallb isBoolean) (rows t) in
  Ok (mkArr (alen (tp t)) (alen (tf t)) bools m).
Definition qcol (m : list (list Q)) (j : nat) : list Q := map (fun r => nth j r 0%Q) m.
(** numpy transpose *)
Definition tr (a : arr) : arr := mkArr (aw a) (ah a) (ab a) (map (qcol (av a)) (seq 0 (aw a))).
Fixpoint qdot (u v : list Q) : Q := match u, v with x :: u', y :: v' => (x * y + qdot u' v')%Q | _, _ => 0%Q end.
(** np.matmul, np.dot: for two arrays of booleans "and" and "or" *)
Definition matmul (a b : arr) : result arr :=
  if aw a =? ah b then
    let bools := ab a && ab b in
    let el r j := let s := qdot r (qcol (av b) j) in if bools then (if Qeq_bool s 0 then 0 else 1)%Q else s in
    Ok (mkArr (ah a) (aw b) bools (map (fun r => map (el r) (seq 0 (aw b))) (av a)))
  else Err ValueErr.
(** [a + b] for arrays of one shape, b of floats *)
Definition addA (a b : arr) : arr :=
  mkArr (ah a) (aw a) false (map (fun i => map (fun j => (qat (av a) i j + qat (av b) i j)%Q) (seq 0 (aw a))) (seq 0 (ah a))).
(** [lamb * np.identity(n)] *)
Definition eye (lamb : Q) (n : nat) : arr :=
  mkArr n n false (map (fun i => map (fun j => (lamb * if i =? j then 1 else 0)%Q) (seq 0 n)) (seq 0 n)).
(** nimble.data of an array of floats *)
Definition tableOf (a : arr) : table pval := mkTable (mkAxis (ah a) None) (mkAxis (aw a) None) (map (map PFloat) (av a)).

(** np.linalg.inv of a square array *)
Variable inv : list (list Q) -> result (list (list Q)).
(** ridge_regression.py:39-61 [train]: the weights *)
Definition ridgeTrain (lamb : Q) (trainX trainY : table pval) : result arr :=
  x <- raw trainX ;;
  let xt := tr x in
  y <- raw trainY ;;
  space <- matmul xt x ;;
  i <- inv (av (addA space (eye lamb (alen (tf trainX))))) ;;
  a <- matmul (mkArr (aw x) (aw x) false i) xt ;;
  matmul a y.
(** ridge_regression.py:63-78 [apply] *)
Definition ridgeApply (w : arr) (testX : table pval) : result (table pval) :=
  x <- raw testX ;;
  p <- matmul (tr w) (tr x) ;;
  Ok (tableOf (tr p)).
(** features.copy(i); the names do not matter here *)
Definition oneFeature (t : table pval) (j : nat) : table pval :=
  mkTable (mkAxis (alen (tp t)) None) (mkAxis 1 None) (map (fun r => [nth j r PNone]) (rows t)).
(** multioutput_ridge_regression.py:35-43 [train] *)
Definition multiTrain (lamb : Q) (trainX trainY : table pval) : result (list arr) :=
  rmapM (fun j => ridgeTrain lamb trainX (oneFeature trainY j)) (seq 0 (alen (tf trainY))).
(** features.append of one more object *)
Definition appendFts (a b : table pval) : table pval :=
  mkTable (tp a) (mkAxis (alen (tf a) + alen (tf b)) None) (map (fun p => fst p ++ snd p) (combine (rows a) (rows b))).
(** multioutput_ridge_regression.py:45-55 [apply]; without learners the result is
    None, which is no data object *)
Definition multiApply (ws : list arr) (testX : table pval) : result (table pval) :=
  rs <- rmapM (fun w => ridgeApply w testX) ws ;;
  match rs with
  | [] => Err InvalidArgumentType
  | r :: rest => Ok (fold_left appendFts rest r)
  end.

(** ** nimble.calculate *)
(** linalg.py:76-121 [inverse]; scipy.linalg.inv or scipy.sparse.linalg.inv with
    the exceptions of lines 88-118 *)
Definition inverse (a : table pval) : result (table pval) :=
  if (alen (tp a) =? 0) && (alen (tf a) =? 0) then Ok a
  else if negb (alen (tp a) =? alen (tf a)) then Err InvalidArgumentValue
  else x <- raw a ;; m <- inv (av x) ;; Ok (tableOf (mkArr (ah x) (aw x) false m)).

(** scipy.linalg.solve and scipy.sparse.linalg.spsolve, or lstsq and lsqr: the
    column of the solution *)
Variable solver : list (list Q) -> list (list Q) -> result (list Q).
(** linalg.py:338-372 [_backendSolversValidation]: the column b *)
Definition solverCheck (square : bool) (a b : table pval) : result (table pval) :=
  if square && negb (alen (tp a) =? alen (tf a)) then Err InvalidArgumentValue
  else if negb (alen (tp b) =? 1) && negb (alen (tf b) =? 1) then Err InvalidArgumentValue
  else if (alen (tp b) =? 1) && (1 <? alen (tf b)) then
    if negb (alen (tp a) =? alen (tf b)) then Err InvalidArgumentValueCombination
    else Ok (mkTable (tf b) (tp b) (map (fun j => map (fun r => nth j r PNone) (rows b)) (seq 0 (alen (tf b)))))
  else if (1 <? alen (tp b)) && (alen (tf b) =? 1) then
    if negb (alen (tp a) =? alen (tp b)) then Err InvalidArgumentValueCombination else Ok b
  else Ok b.
(** linalg.py:302-335 [_backendSolvers]: the solution is one point *)
Definition solve (square : bool) (a b : table pval) : result (table pval) :=
  b' <- solverCheck square a b ;;
  x <- raw a ;; y <- raw b' ;;
  if negb (ah x =? ah y) then Err ValueErr
  else
    s <- solver (av x) (av y) ;;
    fa <- namedAxis (List.length s) (Some (getNames (tf a))) ;;
    Ok (mkTable (mkAxis 1 None) fa [map PFloat s]).
End Learners.
