(** Model of the argument handling of custom learners (C63, C64).
    Sources: /repo/nimble/_utility.py:58-91 (inspectArguments),
    /repo/nimble/core/interfaces/custom_learner.py:40-416,
    /repo/nimble/core/interfaces/universal_interface.py:280-425 (train,
    _trainBackend, argument validation), 427-450 (_argumentInit), 451-500
    (_chooseBestParameterSet), 501-527 (_getMethodArguments), 605-660,
    1236-1262 (apply), 1437-1478 (retrain), 1508-1530 (incrementalTrain),
    1603-1622 (getScores).
    Simplified: data, random seeds, labels, logging and output formats are left
    out; argument values are plain (no Tune); the learner's own methods do not
    raise once they are called. *)
From Verif Require Import Base LearnModel.
Open Scope string_scope.
Open Scope list_scope.
Open Scope nat_scope.

Inductive kind := PositionalOrKeyword | KeywordOnly.

Section Args.
Variable V : Type.
Context {EV : EqDec V}.
Notation args := (@dict string V).

(** a Python signature: parameters in order, and whether there is a
    [**keywords] parameter *)
Record param := mkParam { pname : string; pkind : kind; pdefault : option V }.
Record signature := mkSig { sparams : list param; svarkw : bool }.

(** [f( x1, ..., xn, **kw )]: Python's binding of a call with [npos] positional
    arguments; the result is what the parameters other than those are bound
    to *)
Definition given (npos : nat) (s : signature) : list string := map pname (firstn npos (sparams s)).
Definition rest (npos : nat) (s : signature) : list param := skipn npos (sparams s).
Definition callMethod (npos : nat) (s : signature) (kw : args) : result args :=
  let known := map pname (rest npos s) in
  if existsb (fun k => mem k (given npos s)) (dkeys kw) then Err TypeErr
  else if negb (svarkw s) && existsb (fun k => negb (mem k known)) (dkeys kw) then Err TypeErr
  else
    env <- rmapM (fun p => match dget (pname p) kw with
                           | Some v => Ok (pname p, v)
                           | None => match pdefault p with Some v => Ok (pname p, v) | None => Err TypeErr end
                           end) (rest npos s) ;;
    Ok (env ++ filter (fun kv => negb (mem (fst kv) known)) kw).

(** _utility.py:58-91: positional-or-keyword names and their defaults;
    keyword-only parameters are left out *)
Definition inspectArguments (s : signature) : list string * list V :=
  let pos := filter (fun p => match pkind p with PositionalOrKeyword => true | KeywordOnly => false end) (sparams s) in
  (map pname pos, flat_map (fun p => match pdefault p with Some v => [v] | None => [] end) pos).

(** custom_learner.py:226-273: the loops [ret[objArgs[-(i+1)]] = d[-(i+1)]] *)
Definition methodDefaults (s : signature) : args :=
  let (a, d) := inspectArguments s in dict_of (combine (rev a) (rev d)).

Record learnerClass := mkClass { cTrain : signature; cIncremental : signature; cApply : signature }.

(** custom_learner.py:226-233 and 249-256: [info[0][2:]] and [info[0][1:]] *)
Definition trainParameters (c : learnerClass) : list string := skipn 2 (fst (inspectArguments (cTrain c))).
Definition applyParameters (c : learnerClass) : list string := skipn 1 (fst (inspectArguments (cApply c))).
(** custom_learner.py:43 *)
Definition ignoreNames : list string := ["trainX"; "trainY"; "testX"].
(** custom_learner.py:95-106, 205-211, and universal_interface.py:605-627,
    which removes duplicates (the order only shows in messages) *)
Definition learnerParameterNames (c : learnerClass) : list string :=
  nodup string_dec (filter (fun k => negb (mem k ignoreNames)) (trainParameters c ++ applyParameters c)).
(** custom_learner.py:111-122, 213-223 *)
Definition learnerDefaultValues (c : learnerClass) : args :=
  filter (fun kv => negb (mem (fst kv) ignoreNames))
         (dict_of (methodDefaults (cTrain c) ++ methodDefaults (cApply c))).

(** universal_interface.py:362-425 (_argumentValueValidation): the loop over
    the needed parameters, with the arguments not met so far *)
Fixpoint validationLoop (needed : list string) (defaults check : args) : result args :=
  match needed with
  | [] => Ok check
  | p :: t => if dmem p check then validationLoop t defaults (ddel p check)
              else if dmem p defaults then validationLoop t defaults check
              else Err InvalidArgumentValue
  end.
Definition argumentValueValidation (needed : list string) (defaults arguments : args) : result unit :=
  check <- validationLoop needed defaults arguments ;;
  match check with [] => Ok tt | _ => Err InvalidArgumentValue end.

(** universal_interface.py:451-500 (_chooseBestParameterSet); [bestParams] is
    never updated, so its length stays 0 *)
Definition allIn (arguments : args) (ps : list string * args) : bool :=
  forallb (fun p => dmem p arguments || dmem p (snd ps)) (fst ps).
Fixpoint chooseLoop (i : nat) (sets : list (list string * args)) (arguments : args) (best : option nat) : option nat :=
  match sets with
  | [] => best
  | ps :: t => chooseLoop (S i) t arguments (if allIn arguments ps && (0 <=? List.length (fst ps)) then Some i else best)
  end.
Definition chooseBestParameterSet (sets : list (list string * args)) (arguments : args) : result nat :=
  if List.length sets =? 1 then Ok 0
  else match chooseLoop 0 sets arguments None with Some i => Ok i | None => Err InvalidArgumentValue end.
(** universal_interface.py:341-361 *)
Definition validateSets (sets : list (list string * args)) (arguments : args) : result unit :=
  i <- chooseBestParameterSet sets arguments ;;
  match nth_error sets i with
  | None => Err IndexErr
  | Some ps => argumentValueValidation (fst ps) (snd ps) arguments
  end.
Definition validateLearner (c : learnerClass) (arguments : args) : result unit :=
  validateSets [(learnerParameterNames c, learnerDefaultValues c)] arguments.

(** universal_interface.py:501-527 *)
Definition getMethodArguments (argNames : list string) (new stored : args) : result args :=
  if existsb (fun k => negb (mem k argNames)) (dkeys new) then Err InvalidArgumentValue
  else Ok (fold_left (fun d k => if dmem k d then d
                                 else match dget k stored with Some v => dset k v d | None => d end) argNames new).

(** A TrainedLearner: _arguments, _transformedArguments, and the backend, as
    the calls of train / incrementalTrain it received *)
Inductive trainCall := Trained (env : args) | Extended (env : args).
Record trained := mkTrained { tArguments : args; tTransformed : args; tBackend : list trainCall }.

Definition update (d new : args) : args := fold_left (fun d p => dset (fst p) (snd p) d) new d.

(** nimble.train without tuning: learn.py merges the two dicts, then
    universal_interface.py:286-337 with custom_learner.py:134-139, 152-165 *)
Definition train (c : learnerClass) (a kw : args) : result trained :=
  m <- mergeArguments a kw ;;
  _ <- validateLearner c m ;;
  env <- callMethod 3 (cTrain c) m ;;
  Ok (mkTrained m m [Trained env]).

(** universal_interface.py:1437-1478: the values are stored before the
    training, which validates what is stored once more *)
Definition retrain (c : learnerClass) (t : trained) (a kw : args) : trained * result unit :=
  match mergeArguments a kw with
  | Err e => (t, Err e)
  | Ok m =>
      match validateLearner c m with
      | Err e => (t, Err e)
      | Ok _ =>
          let args' := update (tArguments t) m in
          let trans' := update (tTransformed t) m in
          match (_ <- validateLearner c trans' ;; callMethod 3 (cTrain c) trans') with
          | Err e => (mkTrained args' trans' (tBackend t), Err e)
          | Ok env => (mkTrained m trans' [Trained env], Ok tt)
          end
      end
  end.

(** universal_interface.py:1508-1530 with custom_learner.py:167-180 *)
Definition incrementalTrain (c : learnerClass) (t : trained) (oa : option args) : trained * result unit :=
  let args' := match oa with Some a => update (tArguments t) a | None => tArguments t end in
  match callMethod 3 (cIncremental c) args' with
  | Err e => (mkTrained args' (tTransformed t) (tBackend t), Err e)
  | Ok env => (mkTrained args' (tTransformed t) (tBackend t ++ [Extended env]), Ok tt)
  end.

(** universal_interface.py:1236-1262 with custom_learner.py:182-187: what the
    learner's apply method receives *)
Definition apply (c : learnerClass) (t : trained) (a kw : args) : result args :=
  m <- mergeArguments a kw ;;
  used <- getMethodArguments (skipn 1 (applyParameters c)) m (tTransformed t) ;;
  callMethod 2 (cApply c) used.

(** universal_interface.py:1603-1622 with custom_learner.py:124-126: what the
    learner's getScores method, which must have the signature of apply,
    receives *)
Definition getScores (c : learnerClass) (t : trained) (a kw : args) : result args :=
  m <- mergeArguments a kw ;;
  callMethod 2 (cApply c) [].

(** a history of calls on a TrainedLearner *)
Inductive op := ORetrain (a kw : args) | OIncremental (oa : option args).
Definition step (c : learnerClass) (t : trained) (o : op) : trained * result unit :=
  match o with ORetrain a kw => retrain c t a kw | OIncremental oa => incrementalTrain c t oa end.
Fixpoint run (c : learnerClass) (t : trained) (ops : list op) : trained * list (op * result unit) :=
  match ops with
  | [] => (t, [])
  | o :: r => let (t1, res) := step c t o in
              let (t2, l) := run c t1 r in (t2, (o, res) :: l)
  end.

(** nimble.Init arguments, universal_interface.py:427-450.  [find] gives the
    parameter sets of the names the interface knows; calling a found class
    builds an object from exactly the keyword arguments of the call. *)
Inductive init := Init (name : string) (kwargs : list (string * argument))
with argument := Plain (v : V) | Nested (i : init).
Inductive object := Object (name : string) (kwargs : list (string * value))
with value := VPlain (v : V) | VObject (o : object).
End Args.
Arguments mkParam {V} _ _ _. Arguments pname {V} _. Arguments pkind {V} _. Arguments pdefault {V} _.
Arguments mkSig {V} _ _. Arguments sparams {V} _. Arguments svarkw {V} _.
Arguments mkClass {V} _ _ _. Arguments cTrain {V} _. Arguments cIncremental {V} _. Arguments cApply {V} _.
Arguments given {V} _ _. Arguments rest {V} _ _.
Arguments callMethod {V} _ _ _.
Arguments inspectArguments {V} _. Arguments methodDefaults {V} _.
Arguments trainParameters {V} _. Arguments applyParameters {V} _.
Arguments learnerParameterNames {V} _. Arguments learnerDefaultValues {V} _.
Arguments validationLoop {V} _ _ _. Arguments argumentValueValidation {V} _ _ _.
Arguments allIn {V} _ _. Arguments chooseLoop {V} _ _ _ _. Arguments chooseBestParameterSet {V} _ _.
Arguments validateSets {V} _ _. Arguments validateLearner {V} _ _.
Arguments getMethodArguments {V} _ _ _.
Arguments Trained {V} _. Arguments Extended {V} _.
Arguments mkTrained {V} _ _ _. Arguments tArguments {V} _. Arguments tTransformed {V} _. Arguments tBackend {V} _.
Arguments update {V} _ _. Arguments train {V EV} _ _ _. Arguments retrain {V EV} _ _ _ _.
Arguments incrementalTrain {V} _ _ _. Arguments apply {V EV} _ _ _ _. Arguments getScores {V EV} _ _ _ _.
Arguments ORetrain {V} _ _. Arguments OIncremental {V} _.
Arguments step {V EV} _ _ _. Arguments run {V EV} _ _ _.
Arguments Init {V} _ _. Arguments Plain {V} _. Arguments Nested {V} _.
Arguments Object {V} _ _. Arguments VPlain {V} _. Arguments VObject {V} _.

Section InitModel.
Variable V : Type.
Variable find : string -> option (list (list string * @dict string (value V))).
Fixpoint argumentInit (i : init V) : result (object V) :=
  match i with
  | Init name kwargs =>
      match find name with
      | None => Err InvalidArgumentValue
      | Some sets =>
          initArgs <- (fix go (l : list (string * argument V)) : result (list (string * value V)) :=
             match l with
             | [] => Ok []
             | (k, Plain v) :: t => r <- go t ;; Ok ((k, VPlain v) :: r)
             | (k, Nested j) :: t => o <- argumentInit j ;; r <- go t ;; Ok ((k, VObject o) :: r)
             end) kwargs ;;
          _ <- validateSets sets initArgs ;;
          Ok (Object name initArgs)
      end
  end.
End InitModel.
Arguments argumentInit {V} _ _.
