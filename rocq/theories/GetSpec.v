(** Specification vocabulary for reading elements (C66). *)
From Verif Require Import Base NamesModel NamesSpec TableModel TableSpec ViewModel MatchModel MatchSpec GetModel.
From Coq Require Import Sorted.

(** The positions, in order, that one component of a key selects on an axis:
    an identifier, everything, an inclusive slice, a mask of the axis' length,
    or a list of identifiers without repetition. *)
Inductive Selects (a : axis) : skey -> list nat -> Prop :=
| sel_one id i : Denotes a true id (Z.of_nat i) -> Selects a (SOne id) [i]
| sel_slice st sp se s e l :
    Denotes a true (slice_default st 0) s -> Denotes a true (slice_default sp (Z.of_nat (alen a) - 1)) e ->
    slice_step se <> 0%Z ->
    (forall m x, nth_error l m = Some x <->
       Z.of_nat x = (s + Z.of_nat m * slice_step se)%Z /\
       ((0 < slice_step se /\ Z.of_nat x <= e)%Z \/ (slice_step se < 0 /\ e <= Z.of_nat x)%Z)) ->
    Selects a (SMany (KSlice st sp se)) l
| sel_mask mask l : List.length mask = alen a ->
    (forall i, In i l <-> nth_error mask i = Some true) -> StronglySorted lt l ->
    Selects a (SMany (KList (map KBool mask))) l
| sel_ids ids l : Forall2 (fun id i => Denotes a true id (Z.of_nat i)) ids l -> NoDup l ->
    Selects a (SMany (KList (map KId ids))) l.

(** Every identifier written as a float lies inside the axis, and a list is
    either a mask or a list of identifiers. *)
Definition PlainKey (a : axis) (k : skey) : Prop :=
  match k with
  | SOne id => FloatInRange a id
  | SMany (KSlice st sp se) => (forall i, st = Some i -> FloatInRange a i) /\ (forall i, sp = Some i -> FloatInRange a i)
  | SMany (KList l) => (exists mask, l = map KBool mask) \/ (exists ids, l = map KId ids /\ forall i, In i ids -> FloatInRange a i)
  end.
Definition isSingle (k : skey) : bool := match k with SOne _ => true | SMany _ => false end.

(** [t'] consists of the points [xs] and features [ys] of [t], in this order,
    with their names. *)
Definition Window {V} (t t' : table V) (xs ys : list nat) : Prop :=
  wf t' /\ alen (tp t') = List.length xs /\ alen (tf t') = List.length ys /\
  (forall i x j y, nth_error xs i = Some x -> nth_error ys j = Some y -> cell t' i j = cell t x y) /\
  (forall i x, nth_error xs i = Some x -> nth_error (getNames (tp t')) i = nth_error (getNames (tp t)) x) /\
  (forall j y, nth_error ys j = Some y -> nth_error (getNames (tf t')) j = nth_error (getNames (tf t)) y).

(** ** Iteration: the elements in the order of their positions *)
Definition posBefore (order : side) (p q : nat * nat) : Prop :=
  match order with
  | Pts => fst p < fst q \/ (fst p = fst q /\ snd p < snd q)
  | Fts => snd p < snd q \/ (snd p = snd q /\ fst p < fst q)
  end.
(** [l] lists the values of exactly those positions of an np x nf matrix whose
    value satisfies [keep], each once, in the stated order. *)
Definition Visits {V} (np nf : nat) (at_ : nat -> nat -> option V) (order : side) (keep : V -> Prop) (l : list V) : Prop :=
  exists ps, StronglySorted (posBefore order) ps /\
    (forall i j, In (i, j) ps <-> i < np /\ j < nf /\ exists v, at_ i j = Some v /\ keep v) /\
    Forall2 (fun p v => at_ (fst p) (snd p) = Some v) ps l.

(** Which elements an [only] filter keeps. *)
Definition keeps {V} (only : option (V -> result bool)) (v : V) : Prop :=
  match only with None => True | Some f => f v = Ok true end.
(** The positions an optional argument selects: all of them when omitted. *)
Definition Chosen (a : axis) (o : option skey) (l : list nat) : Prop :=
  match o with None => l = seq 0 (alen a) | Some k => Selects a k l end.
(** A key that is one string naming a position of the axis. *)
Definition NamesOne (a : axis) (k : skey) : Prop :=
  exists s, k = SOne (IdStr s) /\ In (Some s) (getNames a).

(** ** Counting *)
(** Two elements are counted together: equal in Python, or both NaN. *)
Definition SameElement (a b : pval) : Prop := Same a b \/ (a = PNaN /\ b = PNaN).
Inductive NumberOf {A} (P : A -> Prop) : list A -> nat -> Prop :=
| no_nil : NumberOf P [] 0
| no_yes x l n : P x -> NumberOf P l n -> NumberOf P (x :: l) (S n)
| no_no x l n : ~ P x -> NumberOf P l n -> NumberOf P (x :: l) n.
(** The result counts every element of [l] under one key. *)
Definition CountsOf (l : list pval) (d : list (pval * nat)) : Prop :=
  (forall v, In v l -> exists k n, In (k, n) d /\ SameElement k v) /\
  (forall k n, In (k, n) d -> In k l /\ NumberOf (SameElement k) l n) /\
  (forall i j k n k' n', nth_error d i = Some (k, n) -> nth_error d j = Some (k', n') -> SameElement k k' -> i = j).
(** a number that is not a bool, or NaN *)
Definition Numeric (v : pval) : Prop := match v with PInt _ | PFloat _ | PPosInf | PNegInf | PNaN => True | _ => False end.
(** All NaN elements are one object. *)
Definition OneNaN (l : list ovalue) : Prop := forall n m, In (PNaN, n) l -> In (PNaN, m) l -> n = m.
