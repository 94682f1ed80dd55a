(** Specification of merge with a strict axis (C16). *)
From Verif Require Import Base NamesModel NamesSpec TableModel TableSpec MatchModel MatchSpec MergeModel MergeSpec BinOpSpec.
From Coq Require Import Sorted Permutation String.
From Coq Require DecimalString.
Open Scope string_scope.
Open Scope list_scope.
Open Scope nat_scope.

(** how the points (features) of the two objects correspond: by name, in any
    order, if all have names; otherwise, if forced, by position *)
Inductive Corresponds (force : bool) (l r : list (option string)) : bool -> Prop :=
| co_names : ~ In None l -> ~ In None r -> Permutation l r -> Corresponds force l r true
| co_position : force = true -> In None l \/ In None r -> List.length l = List.length r -> Corresponds force l r false.
Definition strictPairs (byName : bool) (l r : list (option string)) : list (option nat * option nat) :=
  map (fun i => (Some i, if byName then partner l r i else Some i)) (seq 0 (List.length l)).
(** the names afterwards: those of self; by position, the names either has *)
Definition endNames (byName : bool) (l r : list (option string)) : list (option string) := if byName then l else combined l r.
(** the names used during the merge: positions without name get one *)
Definition standIn (i : nat) : string := "_STRICT" ++ DecimalString.NilEmpty.string_of_uint (Nat.to_uint i).
Definition workNames (byName : bool) (l r : list (option string)) : list (option string) :=
  map (fun p : nat * option string => match snd p with None => Some (standIn (fst p)) | n => n end) (combine (seq 0 (List.length l)) (endNames byName l r)).
Definition DifferentNames (l : list (option string)) : Prop := forall i j s, nth_error l i = Some (Some s) -> nth_error l j = Some (Some s) -> i = j.

(** two points taken together have different values for features taken together *)
Definition Disagree (t o : table pval) (rs cs : list (option nat * option nat)) : Prop :=
  exists i k j j' v w, In (Some i, Some k) rs /\ In (Some j, Some j') cs /\
    cell t i j = Some v /\ cell o k j' = Some w /\ v <> PNaN /\ w <> PNaN /\ ~ Same v w.
(** [r] has a point for each of [rs], a feature for each of [cs] *)
Definition Joined (t o : table pval) (rs cs : list (option nat * option nat)) (pn fn : list (option string)) (r : table pval) : Prop :=
  wf r /\ rows r = map (fun rw => map (joinCell t o rw) cs) rs /\ alen (tp r) = List.length rs /\ alen (tf r) = List.length cs /\
  getNames (tp r) = pn /\ getNames (tf r) = fn.
(** the features joined on, when the features are strict: a name (of self's
    feature), or an index that means corresponding features *)
Inductive StrictKey (t o : table pval) (byName : bool) : option onArg -> nat -> nat -> Prop :=
| sk_name s j j' : nth_error (workNames byName (getNames (tf t)) (getNames (tf o))) j = Some (Some s) ->
    In (Some j, Some j') (strictPairs byName (getNames (tf t)) (getNames (tf o))) -> StrictKey t o byName (Some (OnName s)) j j'
| sk_index j : In (Some j, Some j) (strictPairs byName (getNames (tf t)) (getNames (tf o))) -> StrictKey t o byName (Some (OnIndex (Z.of_nat j))) j j.
Inductive StrictMatch (t o : table pval) (byName : bool) : option onArg -> (nat -> nat -> bool) -> Prop :=
| sm_names : namesCreated (tp t) = true -> namesCreated (tp o) = true -> StrictMatch t o byName None (sameName t o)
| sm_key on j j' : StrictKey t o byName (Some on) j j' -> AllDifferent t j \/ AllDifferent o j' -> StrictMatch t o byName (Some on) (sameValue t o j j').
(** a point of self with NaN has at most one match *)
Definition OneMatch (t o : table pval) (m : nat -> nat -> bool) : Prop :=
  forall i k k' j, m i k = true -> m i k' = true -> k < alen (tp o) -> k' < alen (tp o) -> cell t i j = Some PNaN -> k = k'.
(** the features of the key: named [s] in both objects, or at the same index with
    the same name *)
Inductive KeyOf (t o : table pval) : onArg -> nat -> nat -> Prop :=
| ko_name s j j' : nth_error (getNames (tf t)) j = Some (Some s) -> nth_error (getNames (tf o)) j' = Some (Some s) -> KeyOf t o (OnName s) j j'
| ko_index s j : nth_error (getNames (tf t)) j = Some (Some s) -> nth_error (getNames (tf o)) j = Some (Some s) -> KeyOf t o (OnIndex (Z.of_nat j)) j j.
(** point i of self goes with point [order]_i of other: equal values of the key,
    that differ within self *)
Definition OneToOne (t o : table pval) (j j' : nat) (order : list nat) : Prop :=
  Permutation order (seq 0 (alen (tp o))) /\
  (forall i k, nth_error order i = Some k -> exists v w, cell t i j = Some v /\ cell o k j' = Some w /\ Same v w) /\
  (forall i i' v w, i <> i' -> cell t i j = Some v -> cell t i' j = Some w -> ~ Same v w).
Definition pairsBy (order : list nat) : list (option nat * option nat) :=
  map (fun p : nat * nat => (Some (fst p), Some (snd p))) (combine (seq 0 (List.length order)) order).
(** [r'] is [r] with its points in increasing order of feature [k] *)
Definition SortedByFeature (leb : pval -> pval -> bool) (k : nat) (r r' : table pval) : Prop :=
  exists order, wf r' /\ Permutation order (seq 0 (alen (tp r))) /\
    combine (getNames (tp r')) (rows r') = selected order (combine (getNames (tp r)) (rows r)) /\
    getNames (tf r') = getNames (tf r) /\
    forall p q i j v w, p < q -> nth_error order p = Some i -> nth_error order q = Some j ->
      cell r i k = Some v -> cell r j k = Some w -> leb v w = true /\ (leb w v = true -> i < j).
(** the feature joined on, in the result: by name, or by a positive index *)
Inductive SortKey (r : table pval) : onArg -> nat -> Prop :=
| so_name s k : s <> "" -> nth_error (getNames (tf r)) k = Some (Some s) -> SortKey r (OnName s) k
| so_index k : 0 < k < alen (tf r) -> SortKey r (OnIndex (Z.of_nat k)) k.
