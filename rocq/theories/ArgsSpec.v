(** Independent specification for C63 and C64. *)
From Verif Require Import Base LearnModel LearnSpec ArgsModel.
Open Scope string_scope.
Open Scope list_scope.
Open Scope nat_scope.

Section Spec.
Context {V : Type}.
Notation args := (@dict string V).

(** [p] is one of the learner's parameters: it follows the [n] parameters
    (self and the data) that nimble fills in *)
Definition Param (n : nat) (s : signature V) (p : param V) : Prop :=
  exists i, n <= i /\ nth_error (sparams s) i = Some p.
(** the part of Python's rules for signatures that matters: distinct names,
    and a positional parameter with a default is followed by positional
    parameters with defaults only *)
Definition ProperSignature (s : signature V) : Prop :=
  NoDup (map pname (sparams s)) /\
  forall i j p q, i < j -> nth_error (sparams s) i = Some p -> nth_error (sparams s) j = Some q ->
    pkind p = PositionalOrKeyword -> pkind q = PositionalOrKeyword -> pdefault p <> None -> pdefault q <> None.
Definition Starts (names : list string) (s : signature V) : Prop :=
  forall i k, nth_error names i = Some k ->
    exists p, nth_error (sparams s) i = Some p /\ pname p = k /\ pkind p = PositionalOrKeyword.
(** what registration checks *)
Definition ProperClass (c : learnerClass V) : Prop :=
  ProperSignature (cTrain c) /\ ProperSignature (cIncremental c) /\ ProperSignature (cApply c) /\
  Starts ["self"; "trainX"; "trainY"] (cTrain c) /\
  Starts ["self"; "trainX"; "trainY"] (cIncremental c) /\
  Starts ["self"; "testX"] (cApply c).

(** a parameter of train or apply that can also be given by position *)
Definition Offered (c : learnerClass V) (p : param V) : Prop :=
  (Param 3 (cTrain c) p \/ Param 2 (cApply c) p) /\ pkind p = PositionalOrKeyword /\
  ~ In (pname p) ["trainX"; "trainY"; "testX"].
(** C63: the arguments nimble accepts for a learner *)
Definition Accepted (c : learnerClass V) (m : args) : Prop :=
  (forall k v, dget k m = Some v -> exists p, Offered c p /\ pname p = k) /\
  (forall k, (exists p, Offered c p /\ pname p = k) ->
     (forall p, Offered c p -> pname p = k -> pdefault p = None) -> exists v, dget k m = Some v).
(** the two argument dicts of a call together *)
Definition Together (a kw m : args) : Prop :=
  forall k v, dget k m = Some v <-> dget k a = Some v \/ dget k kw = Some v.

(** Python accepts the call [f( x1, ..., xn, **kw )] *)
Definition Callable (n : nat) (s : signature V) (val : string -> option V) : Prop :=
  (forall k v, val k = Some v ->
     (exists p, Param n s p /\ pname p = k) \/
     (svarkw s = true /\ forall i p, i < n -> nth_error (sparams s) i = Some p -> pname p <> k)) /\
  (forall p, Param n s p -> pdefault p = None -> exists v, val (pname p) = Some v).
(** and then the parameters have these values *)
Definition Receives (n : nat) (s : signature V) (val : string -> option V) (env : args) : Prop :=
  (forall p, Param n s p ->
     dget (pname p) env = match val (pname p) with Some v => Some v | None => pdefault p end) /\
  (forall k, (forall p, Param n s p -> pname p <> k) -> dget k env = val k).

(** what a history of calls, with their outcomes, has stored for training and
    apply, oldest first: the arguments of every retrain that got as far as
    calling the learner (only the learner's signature can still refuse them,
    with a TypeError) *)
Inductive Settings : list (op V * result unit) -> list args -> Prop :=
| Set_none : Settings [] []
| Set_incremental : forall h l oa r, Settings h l -> Settings (h ++ [(OIncremental oa, r)]) l
| Set_retrain : forall h l a kw m r, Settings h l -> (r = Ok tt \/ r = Err TypeErr) ->
    Together a kw m -> Settings (h ++ [(ORetrain a kw, r)]) (l ++ [m])
| Set_refused : forall h l a kw e, Settings h l -> e <> TypeErr ->
    Settings (h ++ [(ORetrain a kw, Err e)]) l.
(** what it has stored for incrementalTrain: a retrain that succeeds forgets
    everything before it *)
Inductive IncrementalSettings (m0 : args) : list (op V * result unit) -> list args -> Prop :=
| Inc_none : IncrementalSettings m0 [] [m0]
| Inc_plain : forall h l r, IncrementalSettings m0 h l -> IncrementalSettings m0 (h ++ [(OIncremental None, r)]) l
| Inc_given : forall h l a r, IncrementalSettings m0 h l ->
    IncrementalSettings m0 (h ++ [(OIncremental (Some a), r)]) (l ++ [a])
| Inc_retrain : forall h l a kw m, IncrementalSettings m0 h l -> Together a kw m ->
    IncrementalSettings m0 (h ++ [(ORetrain a kw, Ok tt)]) [m]
| Inc_failed : forall h l a kw m, IncrementalSettings m0 h l -> Together a kw m ->
    IncrementalSettings m0 (h ++ [(ORetrain a kw, Err TypeErr)]) (l ++ [m])
| Inc_refused : forall h l a kw e, IncrementalSettings m0 h l -> e <> TypeErr ->
    IncrementalSettings m0 (h ++ [(ORetrain a kw, Err e)]) l.
(** the values stored, by name *)
Definition Stored (l : list args) (val : string -> option V) : Prop := forall k, latest k l (val k).

(** what apply's parameters should be given: what the call says, else what is
    stored; a keyword-only parameter cannot be reached *)
Definition ApplyValues (c : learnerClass V) (m : args) (stored val : string -> option V) : Prop :=
  (forall p, Param 2 (cApply c) p -> pkind p = PositionalOrKeyword ->
     val (pname p) = match dget (pname p) m with Some v => Some v | None => stored (pname p) end) /\
  (forall k, (forall p, Param 2 (cApply c) p -> pkind p = PositionalOrKeyword -> pname p <> k) -> val k = None).

Definition properOp (o : op V) : Prop :=
  match o with
  | ORetrain a kw => wfdict a /\ wfdict kw
  | OIncremental (Some a) => wfdict a
  | OIncremental None => True
  end.

(** several parameter sets, each with its defaults, and the names of the
    arguments given *)
Definition Satisfied (names : list string) (ps : list string * args) : Prop :=
  forall p, In p (fst ps) -> dget p (snd ps) = None -> In p names.
Definition SetAccepts (names : list string) (ps : list string * args) : Prop :=
  Satisfied names ps /\ forall k, In k names -> In k (fst ps).
(** the last set whose required parameters are all given accepts the rest *)
Definition LastAccepts (names : list string) (sets : list (list string * args)) : Prop :=
  exists i ps, nth_error sets i = Some ps /\ SetAccepts names ps /\
    forall j ps', i < j -> nth_error sets j = Some ps' -> ~ Satisfied names ps'.

(** C64: which object a tree of Inits stands for *)
Inductive Built : init V -> object V -> Prop :=
| Built_init : forall name kwargs vals, Forall2 BuiltArg kwargs vals -> Built (Init name kwargs) (Object name vals)
with BuiltArg : string * argument V -> string * value V -> Prop :=
| Built_plain : forall k v, BuiltArg (k, Plain v) (k, VPlain v)
| Built_nested : forall k i o, Built i o -> BuiltArg (k, Nested i) (k, VObject o).
(** [j] is [i] or one of the Inits inside it *)
Inductive Inside : init V -> init V -> Prop :=
| Inside_self : forall i, Inside i i
| Inside_arg : forall i name kwargs k j, In (k, Nested j) kwargs -> Inside i j -> Inside i (Init name kwargs).
(** the names given to every Init of the tree are distinct, as in any dict *)
Definition ProperInit (i : init V) : Prop :=
  forall name kwargs, Inside (Init name kwargs) i -> NoDup (map fst kwargs).
End Spec.
