(** Specification of merge: the relational join of two tables (C16). *)
From Verif Require Import Base NamesModel NamesSpec TableModel TableSpec MatchModel MatchSpec MergeModel.
From Coq Require Import Sorted Permutation.
Open Scope nat_scope.

(** ** Columns: which feature of self and which of other a column comes from *)
Fixpoint posName (s : string) (l : list (option string)) : option nat :=
  match l with
  | [] => None
  | o :: t => if (match o with Some s' => String.eqb s s' | None => false end) then Some 0 else option_map S (posName s t)
  end.
(** the feature of other that has the name of feature j of self *)
Definition partner (ln rn : list (option string)) (j : nat) : option nat :=
  match nth j ln None with Some s => posName s rn | None => None end.
Definition hasPartner (ln rn : list (option string)) (j : nat) : bool := match partner ln rn j with Some _ => true | None => false end.
Definition joinCols (feature : how) (ln rn : list (option string)) : list (option nat * option nat) :=
  let left := map (fun j => (Some j, partner ln rn j)) in
  match feature with
  | Intersection => left (filter (hasPartner ln rn) (seq 0 (List.length ln)))
  | LeftOnly => left (seq 0 (List.length ln))
  | Union => left (seq 0 (List.length ln)) ++
             map (fun j => (None, Some j)) (filter (fun j => negb (hasPartner rn ln j)) (seq 0 (List.length rn)))
  end.

(** ** Rows: which point of self and which of other a row comes from, when [m i k]
    says that point i of self and point k of other match *)
Definition joinRows (point : how) (nl nr : nat) (m : nat -> nat -> bool) : list (option nat * option nat) :=
  flat_map (fun i => match filter (m i) (seq 0 nr), point with
                     | [], Intersection => []
                     | [], _ => [(Some i, None)]
                     | ms, _ => map (fun k => (Some i, Some k)) ms
                     end) (seq 0 nl) ++
  match point with
  | Union => map (fun k => (None, Some k)) (filter (fun k => negb (existsb (fun i => m i k) (seq 0 nl))) (seq 0 nr))
  | _ => []
  end.
(** points match by name, or by equal values of a feature *)
Definition sameName (t o : table pval) (i k : nat) : bool :=
  match nth i (getNames (tp t)) None, nth k (getNames (tp o)) None with Some a, Some b => String.eqb a b | _, _ => false end.
Definition sameValue (t o : table pval) (j j' : nat) (i k : nat) : bool :=
  match cell t i j, cell o k j' with Some v, Some w => pyEq v w | _, _ => false end.

(** ** Cells: the value of self unless it is NaN, else that of other; NaN if
    neither object has one *)
Definition valueAt (t : table pval) (i j : option nat) : option pval :=
  match i, j with Some i, Some j => cell t i j | _, _ => None end.
Definition joinCell (t o : table pval) (r c : option nat * option nat) : pval :=
  match valueAt t (fst r) (fst c), valueAt o (snd r) (snd c) with
  | Some PNaN, Some w => w
  | Some v, _ => v
  | None, Some w => w
  | None, None => PNaN
  end.
Definition joinName (ln rn : list (option string)) (c : option nat * option nat) : option string :=
  match c with (Some j, _) => nth j ln None | (None, Some j) => nth j rn None | _ => None end.

(** two matching points have different values for a shared feature *)
Definition Conflict (t o : table pval) (m : nat -> nat -> bool) : Prop :=
  exists i k j j' v w, m i k = true /\ partner (getNames (tf t)) (getNames (tf o)) j = Some j' /\
    cell t i j = Some v /\ cell o k j' = Some w /\ v <> PNaN /\ w <> PNaN /\ ~ Same v w.
(** [r] is the join *)
Definition JoinOf (t o : table pval) (point feature : how) (byName : bool) (m : nat -> nat -> bool) (r : table pval) : Prop :=
  let rs := joinRows point (alen (tp t)) (alen (tp o)) m in
  let cs := joinCols feature (getNames (tf t)) (getNames (tf o)) in
  wf r /\ rows r = map (fun rw => map (joinCell t o rw) cs) rs /\
  alen (tp r) = List.length rs /\ alen (tf r) = List.length cs /\
  getNames (tf r) = map (joinName (getNames (tf t)) (getNames (tf o))) cs /\
  getNames (tp r) = if byName then map (joinName (getNames (tp t)) (getNames (tp o))) rs else repeat None (List.length rs).

(** ** Conditions *)
(** the key of the join *)
Inductive JoinKey (t o : table pval) : option onArg -> (nat -> nat -> bool) -> Prop :=
| jk_names : JoinKey t o None (sameName t o)
| jk_feature s j j' : nth_error (getNames (tf t)) j = Some (Some s) -> nth_error (getNames (tf o)) j' = Some (Some s) ->
    JoinKey t o (Some (OnName s)) (sameValue t o j j')
| jk_index s j : nth_error (getNames (tf t)) j = Some (Some s) -> nth_error (getNames (tf o)) j = Some (Some s) ->
    JoinKey t o (Some (OnIndex (Z.of_nat j))) (sameValue t o j j).
(** without a feature to join on, the points are joined by name *)
Definition byNames (on : option onArg) : bool := match on with None => true | _ => false end.
(** all values of a feature differ *)
Definition AllDifferent (t : table pval) (j : nat) : Prop :=
  forall i i' v w, i <> i' -> cell t i j = Some v -> cell t i' j = Some w -> ~ Same v w /\ (v <> PNaN \/ w <> PNaN).
Definition UniqueKey (t o : table pval) (on : option onArg) : Prop :=
  match on with
  | None => True
  | Some (OnName s) => exists j j', nth_error (getNames (tf t)) j = Some (Some s) /\ nth_error (getNames (tf o)) j' = Some (Some s) /\
                       (AllDifferent t j \/ AllDifferent o j')
  | Some (OnIndex z) => exists j s, z = Z.of_nat j /\ nth_error (getNames (tf t)) j = Some (Some s) /\ nth_error (getNames (tf o)) j = Some (Some s) /\
                        (AllDifferent t j \/ AllDifferent o j)
  end.
(** the dict of names lists them in the order of the axis *)
Definition InOrder (a : axis) : Prop := StronglySorted lt (map snd (names_dict a)).
(** all features of self before the key are also in other *)
Definition KeyAfterShared (t o : table pval) (on : option onArg) : Prop :=
  forall k, match on with
            | None => False
            | Some (OnName s) => nth_error (getNames (tf t)) k = Some (Some s)
            | Some (OnIndex z) => z = Z.of_nat k
            end -> forall j, j < k -> hasPartner (getNames (tf t)) (getNames (tf o)) j = true.
(** a point of self with NaN for a shared feature has at most one match *)
Definition NoRefill (t o : table pval) (m : nat -> nat -> bool) : Prop :=
  forall i k k' j, m i k = true -> m i k' = true -> k < alen (tp o) -> k' < alen (tp o) ->
  hasPartner (getNames (tf t)) (getNames (tf o)) j = true -> cell t i j = Some PNaN -> k = k'.
(** [r'] is [r] with its points in increasing order of the feature named [s],
    points with equal values in the order they had *)
Definition SortedBy (leb : pval -> pval -> bool) (s : string) (r r' : table pval) : Prop :=
  exists k order, nth_error (getNames (tf r)) k = Some (Some s) /\ wf r' /\
    Permutation order (seq 0 (alen (tp r))) /\
    combine (getNames (tp r')) (rows r') = selected order (combine (getNames (tp r)) (rows r)) /\
    getNames (tf r') = getNames (tf r) /\
    forall p q i j v w, p < q -> nth_error order p = Some i -> nth_error order q = Some j ->
      cell r i k = Some v -> cell r j k = Some w -> leb v w = true /\ (leb w v = true -> i < j).
(** the name of the feature joined on *)
Definition keyIs (t : table pval) (on : onArg) (s : string) : Prop :=
  match on with OnName n => n = s | OnIndex z => exists j, z = Z.of_nat j /\ nth_error (getNames (tf t)) j = Some (Some s) end.
