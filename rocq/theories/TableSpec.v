(** Specification vocabulary for tables (C05-C11, C53). *)
From Verif Require Import Base NamesModel NamesSpec TableModel.

Section Spec.
Variable V : Type.
Implicit Types t : table V.

(** A well-formed object: the shape matches the axes and the names are
    consistent (what [checkInvariants], base.py:2447-2490, asserts). *)
Definition wf t : Prop :=
  List.length (rows t) = alen (tp t) /\
  (forall r, In r (rows t) -> List.length r = alen (tf t)) /\
  Inv (tp t) /\ Inv (tf t).

(** The element at (i, j). *)
Definition cell t (i j : nat) : option V :=
  match nth_error (rows t) i with Some r => nth_error r j | None => None end.

(** The points (features) of an object in order, each with its name. *)
Definition items (sd : side) t : list (option string * list V) :=
  combine (getNames (ax sd t)) (vectors sd t).

(** Positions [idx] of a list, in the order of [idx]. *)
Definition selected {A} (idx : list nat) (l : list A) : list A :=
  flat_map (fun i => match nth_error l i with Some x => [x] | None => [] end) idx.

Definition sameOff (sd : side) t t' : Prop :=
  alen (offax sd t') = alen (offax sd t) /\
  getNames (offax sd t') = getNames (offax sd t).

(** Lexicographic order on points/features by a list of keys.  [k]-th key of
    the [i]-th point is cell i k; of the [i]-th feature it is cell k i. *)
Definition keyOf (sd : side) t (i k : nat) : option V :=
  match sd with Pts => cell t i k | Fts => cell t k i end.
End Spec.
Arguments wf {V} _.
Arguments cell {V} _ _ _.
Arguments items {V} _ _.
Arguments sameOff {V} _ _ _.
Arguments keyOf {V} _ _ _ _.

(** "point (feature) i comes strictly before j": smaller on the first key on
    which they differ; if they tie on all keys, the one that was earlier. *)
Section SortSpec.
Variable V : Type.
Variable le : V -> V -> bool.
Fixpoint comesBefore (key : nat -> nat -> option V) (ks : list nat) (i j : nat) : Prop :=
  match ks with
  | [] => i < j
  | k :: ks' => exists x y, key i k = Some x /\ key j k = Some y /\
      ((le x y = true /\ le y x = false) \/
       (le x y = true /\ le y x = true /\ comesBefore key ks' i j))
  end.
(** A total preorder. *)
Definition TotalOrder : Prop :=
  (forall x y, le x y = true \/ le y x = true) /\
  (forall x y z, le x y = true -> le y z = true -> le x z = true).
End SortSpec.
Arguments comesBefore {V} _ _ _ _ _.
Arguments TotalOrder {V} _.

(** The other axis' names never contradict each other position by position. *)
Definition namesAgree (l r : list (option string)) : Prop :=
  forall j s s', nth_error l j = Some (Some s) -> nth_error r j = Some (Some s') -> s = s'.
Definition fullyNamed (a : axis) : Prop := forall i, i < alen a -> exists s, nth_error (getNames a) i = Some (Some s).
Definition otherSide (sd : side) : side := match sd with Pts => Fts | Fts => Pts end.
