(** Specification of merge for Sparse objects (C75). *)
From Verif Require Import Base NamesModel NamesSpec TableModel TableSpec MatchModel MatchSpec GetSpec MergeModel MergeSpec MergeMatSpec SparseModel SparseSpec SparseReshapeModel SparseReshapeSpec.
From Coq Require Import List. Import ListNotations.
Open Scope nat_scope.

(** [r] is the join (MergeSpec.v) of the tables, with the values of self where
    both have one *)
Definition SparseJoin (t o : table pval) (point feature : how) (byName : bool) (m : nat -> nat -> bool) (r : sobj) : Prop :=
  let rs := joinRows point (alen (tp t)) (alen (tp o)) m in
  let cs := joinCols feature (getNames (tf t)) (getNames (tf o)) in
  Inv (oPts r) /\ Inv (oFts r) /\ sinv (PInt 0) (oMat r) /\
  snp (oMat r) = List.length rs /\ snf (oMat r) = List.length cs /\
  alen (oPts r) = List.length rs /\ alen (oFts r) = List.length cs /\
  getNames (oFts r) = map (joinName (getNames (tf t)) (getNames (tf o))) cs /\
  getNames (oPts r) = (if byName then map (joinName (getNames (tp t)) (getNames (tp o))) rs else repeat None (List.length rs)) /\
  forall i j rw c, nth_error rs i = Some rw -> nth_error cs j = Some c ->
    SameElement (keptCell t o rw c) (SparseSpec.val (PInt 0) (oMat r) i j).

(** ** Conditions *)
(** numbers, NaN and infinities *)
Definition Numbers (t : table pval) : Prop :=
  forall i j v, cell t i j = Some v -> match v with PStr _ | PNone => False | _ => True end.
(** the features joined on have no zero; by names, every point has one *)
Definition KeysStored (t o : table pval) (on : option onArg) : Prop :=
  match on with
  | None => AllNamed (getNames (tp t)) /\ AllNamed (getNames (tp o))
  | Some (OnName s) =>
      (forall i j, nth_error (getNames (tf t)) j = Some (Some s) -> cell t i j <> Some (PInt 0)) /\
      (forall i j, nth_error (getNames (tf o)) j = Some (Some s) -> cell o i j <> Some (PInt 0))
  | Some (OnIndex z) => forall i, cell t i (Z.to_nat z) <> Some (PInt 0) /\ cell o i (Z.to_nat z) <> Some (PInt 0)
  end.
(** the values of point k of other in the features self does not have *)
Definition ownValues (t o : table pval) (k : nat) : list pval :=
  flat_map (fun j => match cell o k j with Some v => [v] | None => [] end)
    (filter (fun j => negb (hasPartner (getNames (tf o)) (getNames (tf t)) j)) (seq 0 (alen (tf o)))).
(** points of other that match none have, in the features that only other has,
    zeros only after everything that is not zero *)
Definition RestShown (t o : table pval) (m : nat -> nat -> bool) : Prop :=
  forall k, k < alen (tp o) -> (forall i, i < alen (tp t) -> m i k = false) -> ZerosLast (ownValues t o k).
(** self has features and the joined table has elements *)
Definition Nonempty (t o : table pval) (point feature : how) (m : nat -> nat -> bool) : Prop :=
  0 < alen (tf t) /\ joinRows point (alen (tp t)) (alen (tp o)) m <> [] /\ joinCols feature (getNames (tf t)) (getNames (tf o)) <> [].
