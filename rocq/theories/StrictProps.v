(** Property C16: merge with point='strict' or feature='strict'.  Definitions used
    in the statements: StrictSpec.v (Corresponds, strictPairs, endNames, Joined,
    Disagree, StrictMatch, OneToOne, ...), MergeSpec.v (joinRows, joinCols). *)
From Verif Require Import Base NamesModel NamesSpec NamesProofs TableModel TableSpec TableProofs TableOps MatchModel MatchSpec MatchProofs
  MergeModel MergeSpec MergeMainProofs MergeSortProofs MergeProps BinOpSpec StrictModel StrictSpec StrictProofs StrictMainProofs.
From Coq Require Import Sorted Permutation String Lia.
Open Scope string_scope.
Open Scope list_scope.
Open Scope nat_scope.

(** *** The features must be the same, by name in any order, or by position if
    forced.  The points are joined as asked; each feature of self is filled from
    the corresponding feature of other; the call fails exactly if corresponding
    elements disagree.  Missing from the full claim: names of features out of order in the dict
    of names (InOrder) and points with NaN that have two matches (OneMatch), as in
    C16_join_partial. *)
Theorem C16_strict_features_partial :
  forall h on force (t o : table pval) bn m, wf t -> wf o -> 0 < alen (tp t) -> 0 < alen (tp o) -> 0 < alen (tf t) -> alen (tf t) = alen (tf o) ->
  let ln := getNames (tf t) in let rn := getNames (tf o) in
  Corresponds force ln rn bn -> DifferentNames (workNames bn ln rn) -> In None ln \/ InOrder (tf t) ->
  StrictMatch t o bn on m -> OneMatch t o m ->
  let rs := joinRows h (alen (tp t)) (alen (tp o)) m in let cs := strictPairs bn ln rn in
  (~ Disagree t o rs cs /\ exists r, strictMerge Fts h on force t o = (r, Ok tt) /\
     Joined t o rs cs (if byNames on then map (joinName (getNames (tp t)) (getNames (tp o))) rs else repeat None (List.length rs)) (endNames bn ln rn) r) \/
  (Disagree t o rs cs /\ exists r, strictMerge Fts h on force t o = (r, Err InvalidArgumentValue)).
Proof. exact strict_features. Qed.
Print Assumptions C16_strict_features_partial.

(** *** The points must be the same, by name in any order, or by position if
    forced: the result has exactly the points of self. *)
Theorem C16_strict_points_partial :
  forall h force (t o : table pval) bn, wf t -> wf o -> 0 < alen (tp t) -> alen (tp t) = alen (tp o) -> namesCreated (tf t) = true -> namesCreated (tf o) = true ->
  let ln := getNames (tp t) in let rn := getNames (tp o) in
  Corresponds force ln rn bn -> DifferentNames (workNames bn ln rn) -> (h = Intersection -> InOrder (tf t)) ->
  let rs := strictPairs bn ln rn in let cs := joinCols h (getNames (tf t)) (getNames (tf o)) in
  (~ Disagree t o rs cs /\ exists r, strictMerge Pts h None force t o = (r, Ok tt) /\
     Joined t o rs cs (endNames bn ln rn) (map (joinName (getNames (tf t)) (getNames (tf o))) cs) r) \/
  (Disagree t o rs cs /\ exists r, strictMerge Pts h None force t o = (r, Err InvalidArgumentValue)).
Proof. exact strict_points. Qed.
Print Assumptions C16_strict_points_partial.

(** *** The points must be the same, by the values of a feature: accepted exactly
    if the values differ within self and are, in some order, those of other; each
    point is then filled from its own partner. *)
Theorem C16_strict_key_partial :
  forall h on force (t o : table pval) j j', wf t -> wf o -> 0 < alen (tp t) -> alen (tp t) = alen (tp o) -> namesCreated (tf t) = true -> namesCreated (tf o) = true ->
  KeyOf t o on j j' -> (h = Intersection -> InOrder (tf t)) -> (h = LeftOnly -> InOrder (tf t) /\ KeyAfterShared t o (Some on)) ->
  let cs := joinCols h (getNames (tf t)) (getNames (tf o)) in
  (forall order, OneToOne t o j j' order ->
    (~ Disagree t o (pairsBy order) cs /\ exists r, strictMerge Pts h (Some on) force t o = (r, Ok tt) /\
       Joined t o (pairsBy order) cs (repeat None (alen (tp t))) (map (joinName (getNames (tf t)) (getNames (tf o))) cs) r) \/
    (Disagree t o (pairsBy order) cs /\ exists r, strictMerge Pts h (Some on) force t o = (r, Err InvalidArgumentValue))) /\
  ((forall order, ~ OneToOne t o j j' order) -> strictMerge Pts h (Some on) force t o = (t, Err InvalidArgumentValueCombination)).
Proof. exact strict_key. Qed.
Print Assumptions C16_strict_key_partial.
Theorem C16_strict_key_unknown :
  forall h force (t o : table pval) s, wf t -> 0 < alen (tf t) -> alen (tp t) = alen (tp o) -> ~ In (Some s) (getNames (tf t)) ->
  strictMerge Pts h (Some (OnName s)) force t o = (t, Err InvalidArgumentValue).
Proof. exact strict_key_unknown. Qed.
Print Assumptions C16_strict_key_unknown.

(** *** Different sizes of the strict axis, or names that do not correspond: refused,
    self unchanged. *)
Theorem C16_strict_sizes :
  forall sd h on force (t o : table pval), alen (ax sd t) <> alen (ax sd o) -> strictMerge sd h on force t o = (t, Err InvalidArgumentValue).
Proof. exact strict_sizes. Qed.
Print Assumptions C16_strict_sizes.
Theorem C16_strict_names_refused :
  forall sd h on force (t o : table pval), wf t -> wf o -> 0 < alen (ax sd t) -> (sd = Pts -> on = None) ->
  (forall bn, Corresponds force (getNames (ax sd t)) (getNames (ax sd o)) bn -> ~ DifferentNames (workNames bn (getNames (ax sd t)) (getNames (ax sd o)))) ->
  strictMerge sd h on force t o = (t, Err InvalidArgumentValue).
Proof. exact strict_names_refused. Qed.
Print Assumptions C16_strict_names_refused.

(** *** The whole call: with feature='strict' and point='union' the result is
    sorted by the feature joined on, otherwise it is the above. *)
Theorem C16_strict_sorted :
  forall leb on force (t o r : table pval) k, TotalOrder leb -> strictMerge Fts Union (Some on) force t o = (r, Ok tt) -> wf r -> SortKey r on k ->
  exists r', mergeStrict leb Fts Union (Some on) force t o = (r', Ok tt) /\ SortedByFeature leb k r r'.
Proof. exact strict_sorted. Qed.
Print Assumptions C16_strict_sorted.
Theorem C16_strict_unsorted :
  forall leb sd h on force (t o : table pval), (sd = Fts -> h = Union -> on = None \/ on = Some (OnName "") \/ on = Some (OnIndex 0)) ->
  mergeStrict leb sd h on force t o = strictMerge sd h on force t o.
Proof. exact strict_plain. Qed.
Print Assumptions C16_strict_unsorted.
Theorem C16_strict_failed :
  forall leb sd h on force (t o x : table pval) e, strictMerge sd h on force t o = (x, Err e) -> mergeStrict leb sd h on force t o = (x, Err e).
Proof. exact strict_failed. Qed.
Print Assumptions C16_strict_failed.

(** ** What a user may expect and does not hold *)
Definition axn (l : list (option string)) : axis := fst (setNames (fresh (List.length l)) (AList (map to_newname l)) ONone).
(** Forced, with names that differ at a position both have named: instead of the
    refusal the error message announces, the features are taken together and the
    name of other is dropped. *)
Theorem C16_strict_force_overrides_refuted :
  exists (t o r : table pval), wf t /\ wf o /\ getNames (tf t) = [Some "height"; None] /\ getNames (tf o) = [Some "weight"; None] /\
  strictMerge Fts Union None true t o = (r, Ok tt) /\ getNames (tf r) = [Some "height"; None] /\ rows r = [[PInt 1; PInt 2]; [PInt 3; PInt 4]].
Proof.
  exists (mkTable (ax' ["p"]) (axn [Some "height"; None]) [[PInt 1; PInt 2]]), (mkTable (ax' ["q"]) (axn [Some "weight"; None]) [[PInt 3; PInt 4]]). eexists.
  split; [|split].
  - split; [reflexivity|]. split; [intros x [<-|[]]; reflexivity|]. split; apply setNames_list_Inv, fresh_Inv.
  - split; [reflexivity|]. split; [intros x [<-|[]]; reflexivity|]. split; apply setNames_list_Inv, fresh_Inv.
  - split; [reflexivity|]. split; [reflexivity|]. split; [vm_compute; reflexivity|]. split; reflexivity.
Qed.
Print Assumptions C16_strict_force_overrides_refuted.
(** A forced merge that fails leaves self with the names made up for the merge. *)
Theorem C16_strict_failure_names_refuted :
  exists (t o r : table pval), wf t /\ wf o /\ getNames (tf t) = [None; None] /\
  strictMerge Fts Union None true t o = (r, Err InvalidArgumentValue) /\ getNames (tf r) = [Some "_STRICT0"; Some "_STRICT1"].
Proof.
  exists (mkTable (ax' ["p"]) (fresh 2) [[PInt 1; PInt 2]]), (mkTable (ax' ["p"]) (fresh 2) [[PInt 1; PInt 3]]). eexists.
  split; [|split].
  - split; [reflexivity|]. split; [intros x [<-|[]]; reflexivity|]. split; [apply setNames_list_Inv, fresh_Inv|apply fresh_Inv].
  - split; [reflexivity|]. split; [intros x [<-|[]]; reflexivity|]. split; [apply setNames_list_Inv, fresh_Inv|apply fresh_Inv].
  - split; [reflexivity|]. split; vm_compute; reflexivity.
Qed.
Print Assumptions C16_strict_failure_names_refuted.
(** ** Examples: the conditions of the theorems hold *)
Definition sT := tab ["p"; "q"] ["id"; "x"] [[PInt 1; PNaN]; [PInt 2; PInt 20]].
Definition sO := tab ["q"; "r"] ["x"; "id"] [[PInt 20; PInt 2]; [PInt 30; PInt 3]].
Example C16_strict_example : wf sT /\ wf sO /\ Corresponds false (getNames (tf sT)) (getNames (tf sO)) true /\
  DifferentNames (workNames true (getNames (tf sT)) (getNames (tf sO))) /\ InOrder (tf sT) /\ StrictMatch sT sO true None (sameName sT sO) /\
  exists r, strictMerge Fts Union None false sT sO = (r, Ok tt) /\ getNames (tp r) = [Some "p"; Some "q"; Some "r"] /\ getNames (tf r) = [Some "id"; Some "x"] /\
    rows r = [[PInt 1; PNaN]; [PInt 2; PInt 20]; [PInt 3; PInt 30]].
Proof.
  split; [tabwf|]. split; [tabwf|]. split; [|split; [|split; [|split]]].
  - apply co_names; [vm_compute; intros [H|[H|[]]]; discriminate|vm_compute; intros [H|[H|[]]]; discriminate|apply perm_swap].
  - intros i j s A B. change (workNames true (getNames (tf sT)) (getNames (tf sO))) with [Some "id"; Some "x"] in A, B. destruct i as [|[|[|i]]]; destruct j as [|[|[|j]]]; cbn in A, B; congruence.
  - exact (setNames_list_InOrder (fresh 2) [NStr "id"; NStr "x"] _ eq_refl).
  - apply sm_names; reflexivity.
  - eexists. split; [vm_compute; reflexivity|]. repeat split; reflexivity.
Qed.
Definition kT := tab [] ["id"; "x"] [[PInt 1; PNaN]; [PInt 2; PInt 20]].
Definition kO := tab [] ["y"; "id"] [[PStr "b"; PInt 2]; [PStr "a"; PFloat 1]].
Example C16_strict_key_example : wf kT /\ wf kO /\ KeyOf kT kO (OnName "id") 0 1 /\ OneToOne kT kO 0 1 [1; 0] /\
  exists r, strictMerge Pts Union (Some (OnName "id")) false kT kO = (r, Ok tt) /\ getNames (tf r) = [Some "id"; Some "x"; Some "y"] /\
    rows r = [[PInt 1; PNaN; PStr "a"]; [PInt 2; PInt 20; PStr "b"]].
Proof.
  split; [tabwf|]. split; [tabwf|]. split; [constructor; reflexivity|]. split; [split; [apply perm_swap|split]|].
  - intros i k E. destruct i as [|[|[|i]]]; cbn in E; try discriminate; injection E as <-; do 2 eexists; (split; [reflexivity|]); (split; [reflexivity|]); apply pyEq_spec; reflexivity.
  - intros i i' v w N A B S1. destruct i as [|[|i]]; [| |destruct i; discriminate]; (destruct i' as [|[|i']]; [| |destruct i'; discriminate]); try lia; cbn in A, B; injection A as <-; injection B as <-; apply pyEq_spec in S1; discriminate.
  - eexists. split; [vm_compute; reflexivity|]. split; reflexivity.
Qed.
Example C16_strict_forced_example : exists r,
  strictMerge Pts Union None true (mkTable (axn [Some "p"; None]) (ax' ["x"]) [[PInt 1]; [PInt 2]]) (mkTable (axn [None; Some "q"]) (ax' ["y"]) [[PInt 3]; [PInt 4]]) = (r, Ok tt) /\
  getNames (tp r) = [Some "p"; Some "q"] /\ rows r = [[PInt 1; PInt 3]; [PInt 2; PInt 4]].
Proof. eexists. split; [vm_compute; reflexivity|]. split; reflexivity. Qed.
