(** Model of the argument selectors and of nimble.Tune.
    Sources: /repo/nimble/core/tune.py:732-782 (BruteForce), 785-887
    (Consecutive), 1005-1136 (Iterative), 1382-1455 (Tune.__init__). *)
From Verif Require Import Base TableModel.
From Coq Require Import QArith.
Open Scope list_scope.
Open Scope nat_scope.

(** An argument is a plain value or a Tune object with its list of values. *)
Inductive argval (V : Type) := AVal (v : V) | ATune (vals : list V).
Arguments AVal {V} _.
Arguments ATune {V} _.

Section Args.
Variable V : Type.
Context {EV : EqDec V}.
Definition args := dict string V.
Definition spec := dict string (argval V).

(** ** BruteForce *)
(** [itertools.product] *)
Fixpoint product (ls : list (list V)) : list (list V) :=
  match ls with
  | [] => [[]]
  | l :: r => flat_map (fun v => map (cons v) (product r)) l
  end.
(** tune.py:751-761: a non-Tune value is wrapped in a 1-tuple *)
Definition candidates (a : argval V) : list V :=
  match a with ATune vals => vals | AVal v => [v] end.
(** tune.py:763-773: [iterableArgDict.keys()] and [.values()] correspond *)
Definition combinationsList (sp : spec) : list args :=
  match sp with
  | [] => [[]]
  | _ => map (fun combination => combine (map fst sp) combination) (product (map (fun p => candidates (snd p)) sp))
  end.
(** tune.py:751-756 *)
Definition numCombinations (sp : spec) : nat :=
  match sp with
  | [] => 1
  | _ => fold_left (fun n p => match snd p with ATune vals => n * List.length vals | AVal _ => n end) sp 1
  end.
(** tune.py:775-782 [BruteForce.__next__]; the state is the index *)
Definition bruteNext (sp : spec) (index : nat) : nat * result args :=
  if numCombinations sp <=? index then (0, Err StopIter)
  else match nth_error (combinationsList sp) index with
       | Some c => (S index, Ok c)
       | None => (index, Err IndexErr)
       end.
(** tune.py:723-729 [validateAll]: the combinations validated, in order *)
Fixpoint bruteRun (sp : spec) (fuel index : nat) (acc : list args) : nat * result (list args) :=
  match fuel with
  | 0 => (index, Err OutOfFuel)
  | S fuel' => match bruteNext sp index with
               | (i, Ok c) => bruteRun sp fuel' i (acc ++ [c])
               | (i, Err StopIter) => (i, Ok acc)
               | (i, Err e) => (i, Err e)
               end
  end.

(** ** Consecutive *)
Section Consecutive.
Variable P : Type.
Variable isBest : P -> P -> bool.
(** the performance of the n-th validation, with the given arguments *)
Variable perf : nat -> args -> P.

(** An entry of [self._tune]: the values still to come, and for the
    generators made in later loops (tune.py:869-872) the key whose current
    value is skipped.  The generator reads [key] and [self._currArgs] when it
    is advanced; [key] is then the last element of [order]. *)
Definition iterator := (list V * option string)%type.
Fixpoint dropEq (x : option V) (l : list V) : list V :=
  match l with
  | [] => []
  | v :: t => match x with
              | Some y => if eq_dec v y then dropEq x t else v :: t
              | None => v :: t
              end
  end.
Definition iterNext (curr : args) (it : iterator) : option (V * iterator) :=
  match (match snd it with None => fst it | Some key => dropEq (dget key curr) (fst it) end) with
  | [] => None
  | v :: t => Some (v, (t, snd it))
  end.
Record cstate := mkC {
  cLoop : nat; cTune : dict string iterator; cTarget : nat; cBest : option (P * args);
  cCurr : option args; cOrder : option (list string); cTried : list args;
  cRec : list (P * args) (* what the validator recorded *) }.
(** tune.py:814-835 [__init__] (loops >= 1 is checked there) *)
Definition cinit (order : option (list string)) : cstate := mkC 1 [] 0 None None order [] [].

(** tune.py:840-858, the first call *)
Fixpoint firstArgs (sp : spec) : result (args * dict string iterator) :=
  match sp with
  | [] => Ok ([], [])
  | (k, AVal v) :: r => p <- firstArgs r ;; Ok ((k, v) :: fst p, snd p)
  | (k, ATune (v :: vs)) :: r => p <- firstArgs r ;; Ok ((k, v) :: fst p, (k, (vs, None)) :: snd p)
  | (k, ATune []) :: r => Err IndexErr
  end.
(** tune.py:873-887: skip what was tried, else validate and keep the best *)
Definition tuneKeys (sp : spec) : list string :=
  flat_map (fun p => match snd p with ATune _ => [fst p] | AVal _ => [] end) sp.
Fixpoint consNext (sp : spec) (loops : nat) (fuel : nat) (s : cstate) {struct fuel} : cstate * result args :=
  match fuel with
  | 0 => (s, Err OutOfFuel)
  | S fuel' =>
    let finish (s : cstate) (curr : args) : cstate * result args :=
      if mem curr (cTried s) then consNext sp loops fuel' s
      else
        let p := perf (List.length (cRec s)) curr in
        let best := match cBest s with
                    | None => Some (p, curr)
                    | Some b => if isBest p (fst b) then Some (p, curr) else cBest s
                    end in
        (mkC (cLoop s) (cTune s) (cTarget s) best (cCurr s) (cOrder s) (cTried s ++ [curr])
             (cRec s ++ [(p, curr)]), Ok curr) in
    if loops <? cLoop s then (s, Err StopIter)
    else match cCurr s with
    | None =>
        match cOrder s with
        | Some o => if forallb (fun k => mem k o) (tuneKeys sp) then
                      match firstArgs sp with
                      | Ok (c, tn) => let s' := mkC (cLoop s) tn (cTarget s) (cBest s) (Some c) (Some o) (cTried s) (cRec s) in finish s' c
                      | Err e => (s, Err e)
                      end
                    else (s, Err ImproperObjectAction)
        | None => match firstArgs sp with
                  | Ok (c, tn) => let s' := mkC (cLoop s) tn (cTarget s) (cBest s) (Some c) (Some (tuneKeys sp)) (cTried s) (cRec s) in finish s' c
                  | Err e => (s, Err e)
                  end
        end
    | Some curr =>
        let order := match cOrder s with Some o => o | None => [] end in
        match order with
        | [] => (s, Err StopIter)
        | k0 :: _ =>
          match nth_error order (cTarget s) with
          | None => (s, Err IndexErr)
          | Some target =>
            match dget target (cTune s) with
            | None => (s, Err KeyErr)
            | Some it =>
              match iterNext curr it with
              | Some (v, it') =>
                  let curr' := dset target v curr in
                  finish (mkC (cLoop s) (dset target it' (cTune s)) (cTarget s) (cBest s) (Some curr') (cOrder s) (cTried s) (cRec s)) curr'
              | None =>
                let bestArgs := match cBest s with Some b => snd b | None => [] end in
                match nth_error order (cTarget s + 1) with
                | Some target' =>
                    match dget target bestArgs with
                    | None => (s, Err KeyErr)
                    | Some bv =>
                        let curr1 := dset target bv curr in
                        let s1 := mkC (cLoop s) (cTune s) (cTarget s + 1) (cBest s) (Some curr1) (cOrder s) (cTried s) (cRec s) in
                        match dget target' (cTune s) with
                        | None => (s1, Err KeyErr)
                        | Some it2 =>
                            match iterNext curr1 it2 with
                            | None => (s1, Err StopIter)
                            | Some (v, it') =>
                                let curr2 := dset target' v curr1 in
                                finish (mkC (cLoop s) (dset target' it' (cTune s)) (cTarget s + 1) (cBest s) (Some curr2) (cOrder s) (cTried s) (cRec s)) curr2
                            end
                        end
                    end
                | None =>
                    if loops <? cLoop s + 1 then (s, Err StopIter)
                    else
                      let lastKey := last order k0 in
                      let tn := map (fun k => (k, (match dget k sp with Some a => candidates a | None => [] end, Some lastKey))) order in
                      let s1 := mkC (cLoop s + 1) tn 0 (cBest s) (Some bestArgs) (cOrder s) (cTried s) (cRec s) in
                      match dget k0 tn with
                      | None => (s1, Err KeyErr)
                      | Some it2 =>
                          match iterNext bestArgs it2 with
                          | None => (s1, Err StopIter)
                          | Some (v, it') =>
                              let curr2 := dset k0 v bestArgs in
                              finish (mkC (cLoop s + 1) (dset k0 it' tn) 0 (cBest s) (Some curr2) (cOrder s) (cTried s) (cRec s)) curr2
                          end
                      end
                end
              end
            end
          end
        end
    end
  end.
(** [validateAll]: [inner] bounds the recursion of one [__next__], [fuel] the
    number of calls; returns the final state *)
Fixpoint consRun (sp : spec) (loops inner fuel : nat) (s : cstate) : result cstate :=
  match fuel with
  | 0 => Err OutOfFuel
  | S fuel' => match consNext sp loops inner s with
               | (s', Ok _) => consRun sp loops inner fuel' s'
               | (s', Err StopIter) => Ok s'
               | (_, Err e) => Err e
               end
  end.
End Consecutive.

(** ** Iterative (without incremental training; maxIterations as a number of
    steps, no timeout; threshold omitted) *)
Section Iterative.
Variable P : Type.
Variable isBest : P -> P -> bool.
Variable perf : args -> P.
Record istate := mkI {
  iIdx : dict string nat; iVals : dict string (list V); iCurr : args; iBestPerf : P; iBestArgs : args }.
Variable leb : V -> V -> bool.
(** tune.py:1056-1072 and the first [__next__] (1075-1080) *)
Definition iinit (sp : spec) : istate :=
  let tuned := flat_map (fun p => match snd p with ATune vals => [(fst p, stableSort leb vals)] | AVal _ => [] end) sp in
  let idx := map (fun p => (fst p, List.length (snd p) / 2)) tuned in
  let curr := flat_map (fun p => match snd p with
                       | AVal v => [(fst p, v)]
                       | ATune vals => match nth_error (stableSort leb vals) (List.length (stableSort leb vals) / 2) with
                                       | Some v => [(fst p, v)] | None => [] end
                       end) sp in
  mkI idx tuned curr (perf curr) curr.
(** tune.py:1094-1124, the body of the loop for one argument: the chosen value
    (if any) and the new index *)
Definition probe (s : istate) (name : string) (idx : nat) : option V * nat :=
  let values := match dget name (iVals s) with Some l => l | None => [] end in
  let better (v : V) : bool := isBest (perf (dset name v (iBestArgs s))) (iBestPerf s) in
  let low := match idx with 0 => None | S i => nth_error values i end in
  let high := nth_error values (S idx) in
  let lowBest := match low with Some v => better v | None => false end in
  let highBest := match high with Some v => better v | None => false end in
  match low, high with
  | Some l, Some h =>
      if lowBest && highBest then
        if isBest (perf (dset name h (iBestArgs s))) (perf (dset name l (iBestArgs s)))
        then (Some l, S idx) else (Some h, idx - 1)
      else if lowBest then (Some l, idx - 1)
      else if highBest then (Some h, S idx) else (None, idx)
  | Some l, None => if lowBest then (Some l, idx - 1) else (None, idx)
  | None, Some h => if highBest then (Some h, S idx) else (None, idx)
  | None, None => (None, idx)
  end.
Definition iterStep (s : istate) : istate * result args :=
  let ps := map (fun p => (fst p, probe s (fst p) (snd p))) (iIdx s) in
  let best := flat_map (fun p => match fst (snd p) with Some v => [(fst p, v)] | None => [] end) ps in
  let idx' := map (fun p => (fst p, snd (snd p))) ps in
  match best with
  | [] => (mkI idx' (iVals s) (iCurr s) (iBestPerf s) (iBestArgs s), Err StopIter)
  | _ =>
      let curr := fold_left (fun d p => dset (fst p) (snd p) d) best (iCurr s) in
      let p := perf curr in
      (if isBest p (iBestPerf s) then mkI idx' (iVals s) curr p curr
       else mkI idx' (iVals s) curr (iBestPerf s) (iBestArgs s), Ok curr)
  end.
(** at most [n] further calls of [__next__] *)
Fixpoint iterRun (n : nat) (s : istate) : istate :=
  match n with
  | 0 => s
  | S n' => match iterStep s with (s', Ok _) => iterRun n' s' | (s', Err _) => s' end
  end.
End Iterative.
End Args.
Arguments product {V} _.
Arguments candidates {V} _.
Arguments combinationsList {V} _.
Arguments numCombinations {V} _.
Arguments bruteNext {V} _ _.
Arguments bruteRun {V} _ _ _ _.
Arguments consRun {V EV P} _ _ _ _ _ _ _.
Arguments consNext {V EV P} _ _ _ _ _ _.
Arguments cinit {V P} _.
Arguments iterStep {V P} _ _ _.
Arguments iterRun {V P} _ _ _ _.
Arguments iinit {V P} _ _ _.
Arguments probe {V P} _ _ _ _ _.
Arguments tuneKeys {V} _.
Arguments firstArgs {V} _.
Arguments cTune {V P} _. Arguments cTarget {V P} _. Arguments cBest {V P} _. Arguments cCurr {V P} _.
Arguments cOrder {V P} _. Arguments cTried {V P} _. Arguments cRec {V P} _. Arguments cLoop {V P} _.
Arguments mkC {V P} _ _ _ _ _ _ _ _.
Arguments iIdx {V P} _. Arguments iVals {V P} _. Arguments iCurr {V P} _. Arguments iBestPerf {V P} _.
Arguments iBestArgs {V P} _. Arguments mkI {V P} _ _ _ _ _.

(** ** Tune ranges (tune.py:1382-1455).  Exact arithmetic: integers for
    'add' (the rounding correction at 1450-1452 is then the identity),
    rationals for 'multiply'. *)
Section Range.
Variable A : Type.
Variables (comp : A -> bool) (op : A -> A).
Fixpoint rangeLoop (fuel : nat) (curr : A) : result (list A) :=
  match fuel with
  | 0 => Err OutOfFuel
  | S fuel' => if comp curr then r <- rangeLoop fuel' (op curr) ;; Ok (curr :: r) else Ok []
  end.
End Range.
Arguments rangeLoop {A} _ _ _ _.
Definition tuneAdd (fuel : nat) (start stop change : Z) : result (list Z) :=
  if (start <? stop)%Z then
    if (change <=? 0)%Z then Err InvalidArgumentValue
    else rangeLoop (fun c => (c <=? stop)%Z) (fun c => (c + change)%Z) fuel start
  else if (stop <? start)%Z then
    if (0 <=? change)%Z then Err InvalidArgumentValue
    else rangeLoop (fun c => (stop <=? c)%Z) (fun c => (c + change)%Z) fuel start
  else Err UnboundErr.
Definition tuneMul (fuel : nat) (start stop change : Q) : result (list Q) :=
  if negb (Qle_bool stop start) then
    if negb (Qle_bool 1 change) then Err InvalidArgumentValue
    else rangeLoop (fun c => Qle_bool c stop) (fun c => Qmult c change) fuel start
  else if negb (Qle_bool start stop) then
    if Qle_bool 1 change || Qle_bool change 0 then Err InvalidArgumentValue
    else rangeLoop (fun c => Qle_bool stop c) (fun c => Qmult c change) fuel start
  else Err UnboundErr.
(** tune.py:1396-1400: a python range(a, b, step) *)
Definition tuneRange (fuel : nat) (a b step : Z) : result (list Z) := tuneAdd fuel a (b - 1) step.
