(** Property C74: merge of Matrix objects.  Definitions used in the statements:
    MergeMatSpec.v (keptCell, KeptJoin, NothingToFill, AllNamed), MergeSpec.v
    (joinRows, joinCols, JoinOf, Conflict, JoinKey, UniqueKey, InOrder,
    KeyAfterShared, SortedBy), TableSpec.v (wf, cell). *)
From Verif Require Import Base NamesModel NamesSpec NamesProofs TableModel TableSpec TableProofs TableOps MatchModel MatchSpec MatchProofs
  MergeModel MergeSpec MergeMainProofs MergeSortProofs MergeProps MergeMatModel MergeMatSpec MergeMatMain MergeMatRest.
From Coq Require Import Sorted Permutation QArith.
Open Scope string_scope.
Open Scope list_scope.
Open Scope nat_scope.

(** ** The join *)
(** Any two objects, without points or not, also an object with itself, and
    points with several matches.  Unless two matching points disagree about a
    shared feature, self becomes the join, in which it keeps its values.  Missing
    from the full claim (each shown to fail below): NaN of self is to be filled
    from other; names not set in the order of the features; a 'left' join on a
    feature behind one that other does not have. *)
Theorem C74_join_partial :
  forall t o point feature on m, wf t -> wf o ->
  namesCreated (tf t) = true -> namesCreated (tf o) = true -> (on = None -> namesCreated (tp t) = true /\ namesCreated (tp o) = true) ->
  JoinKey t o on m -> UniqueKey t o on ->
  (feature = Intersection -> InOrder (tf t)) -> (feature = LeftOnly -> on <> None -> InOrder (tf t) /\ KeyAfterShared t o on) ->
  (~ Conflict t o m /\ exists r, matMerge t o point feature on = (r, Ok tt) /\ KeptJoin t o point feature (byNames on) m r) \/
  (Conflict t o m /\ exists r, matMerge t o point feature on = (r, Err InvalidArgumentValue)).
Proof. exact matMerge_spec. Qed.
Print Assumptions C74_join_partial.
(** with nothing to fill this is the join that List objects give *)
Theorem C74_join_filled :
  forall t o point feature on m, wf t -> wf o ->
  namesCreated (tf t) = true -> namesCreated (tf o) = true -> (on = None -> namesCreated (tp t) = true /\ namesCreated (tp o) = true) ->
  JoinKey t o on m -> UniqueKey t o on -> NothingToFill t o m -> ~ Conflict t o m ->
  (feature = Intersection -> InOrder (tf t)) -> (feature = LeftOnly -> on <> None -> InOrder (tf t) /\ KeyAfterShared t o on) ->
  exists r, matMerge t o point feature on = (r, Ok tt) /\ JoinOf t o point feature (byNames on) m r.
Proof. exact matMerge_filled. Qed.
Print Assumptions C74_join_filled.
(** an object all of whose points and features have names, merged with itself by
    the point names, stays as it is *)
Theorem C74_with_itself :
  forall t point feature, wf t -> namesCreated (tf t) = true -> namesCreated (tp t) = true -> (feature = Intersection -> InOrder (tf t)) ->
  AllNamed (getNames (tp t)) -> AllNamed (getNames (tf t)) ->
  exists r, matMerge t t point feature None = (r, Ok tt) /\ wf r /\ rows r = rows t /\ getNames (tp r) = getNames (tp t) /\ getNames (tf r) = getNames (tf t).
Proof. exact matMerge_self. Qed.
Print Assumptions C74_with_itself.
(** ** The order of the points *)
Theorem C74_no_sort :
  forall leb t o point feature on, (point = Union -> on = None \/ on = Some (OnName "") \/ on = Some (OnIndex 0)) ->
  matMergeSorted leb t o point feature on = matMerge t o point feature on.
Proof. exact mat_plain. Qed.
Print Assumptions C74_no_sort.
(** Missing: a feature given by index 0 or named "" (not sorted) and a feature
    given by index together with an 'intersection' of the features. *)
Theorem C74_union_sorted_partial :
  forall leb t o feature on m s, TotalOrder leb -> wf t -> wf o -> JoinKey t o (Some on) m -> keyIs t on s ->
  match on with OnName n => n <> "" | OnIndex z => z <> 0%Z /\ feature <> Intersection end ->
  forall r, matMerge t o Union feature (Some on) = (r, Ok tt) -> KeptJoin t o Union feature false m r ->
  exists r', matMergeSorted leb t o Union feature (Some on) = (r', Ok tt) /\ SortedBy leb s r r'.
Proof. exact mat_union_sorted. Qed.
Print Assumptions C74_union_sorted_partial.

(** ** Refusals: self is left as it was *)
Theorem C74_names_required :
  forall t o point feature on,
  (on = None /\ (namesCreated (tp t) = false \/ namesCreated (tp o) = false)) \/ namesCreated (tf t) = false \/ namesCreated (tf o) = false ->
  matMerge t o point feature on = (t, Err InvalidArgumentValueCombination).
Proof. exact mat_names_required. Qed.
Print Assumptions C74_names_required.
Theorem C74_key_unknown :
  forall t o point feature s, wf t -> wf o -> namesCreated (tf t) = true -> namesCreated (tf o) = true ->
  ~ (In (Some s) (getNames (tf t)) /\ In (Some s) (getNames (tf o))) ->
  matMerge t o point feature (Some (OnName s)) = (t, Err InvalidArgumentValue).
Proof. exact mat_key_unknown. Qed.
Print Assumptions C74_key_unknown.
Theorem C74_key_not_unique :
  forall t o point feature s j j', wf t -> wf o -> namesCreated (tf t) = true -> namesCreated (tf o) = true ->
  nth_error (getNames (tf t)) j = Some (Some s) -> nth_error (getNames (tf o)) j' = Some (Some s) ->
  (exists i i' v w, i <> i' /\ cell t i j = Some v /\ cell t i' j = Some w /\ Same v w) ->
  (exists i i' v w, i <> i' /\ cell o i j' = Some v /\ cell o i' j' = Some w /\ Same v w) ->
  matMerge t o point feature (Some (OnName s)) = (t, Err InvalidArgumentValue).
Proof. exact mat_key_not_unique. Qed.
Print Assumptions C74_key_not_unique.
Theorem C74_key_index_differs :
  forall (t o : table pval) point feature j, namesCreated (tf t) = true -> namesCreated (tf o) = true ->
  j < List.length (getNames (tf t)) -> j < List.length (getNames (tf o)) ->
  (nth j (getNames (tf t)) None <> nth j (getNames (tf o)) None \/ nth j (getNames (tf t)) None = None) ->
  matMerge t o point feature (Some (OnIndex (Z.of_nat j))) = (t, Err InvalidArgumentValue).
Proof. exact mat_key_index. Qed.
Print Assumptions C74_key_index_differs.

(** ** What fails *)
(** NaN of self in a shared feature is not filled from the matching point of
    other, although the values do not disagree (a List object fills it) *)
Theorem C74_fill_refuted :
  exists t o, wf t /\ wf o /\ ~ Conflict t o (sameValue t o 0 0) /\ AllDifferent t 0 /\ AllDifferent o 0 /\
    cell t 0 1 = Some PNaN /\ cell o 0 1 = Some (PInt 5) /\
    exists r l, matMerge t o Union Union (Some (OnName "k")) = (r, Ok tt) /\ cell r 0 1 = Some PNaN /\
      mergeFrontend false t o Union Union (Some (OnName "k")) = (l, Ok tt) /\ cell l 0 1 = Some (PInt 5).
Proof.
  exists (tab [] ["k"; "x"] [[PInt 1; PNaN]]), (tab [] ["k"; "x"] [[PInt 1; PInt 5]]).
  split; [tabwf|]. split; [tabwf|]. split; [|split; [|split]].
  - intros (i & k & j & j' & v & w & M & P & A & B & V & W & S').
    destruct i as [|i]; [|destruct i; discriminate]. destruct j as [|[|j]]; [| |destruct j; discriminate].
    + cbn in P. injection P as <-. destruct k as [|k]; [|destruct k; discriminate]; cbn in A, B; injection A as <-; injection B as <-; apply S'; apply pyEq_spec; reflexivity.
    + cbn in A. injection A as <-. apply V. reflexivity.
  - intros i i' v w N A B. destruct i as [|i]; [|destruct i; discriminate]. destruct i' as [|i']; [lia|destruct i'; discriminate].
  - intros i i' v w N A B. destruct i as [|i]; [|destruct i; discriminate]. destruct i' as [|i']; [lia|destruct i'; discriminate].
  - split; [reflexivity|]. split; [reflexivity|]. eexists. eexists. split; [vm_compute; reflexivity|]. split; [reflexivity|]. split; [vm_compute; reflexivity|]. reflexivity.
Qed.
Print Assumptions C74_fill_refuted.
(** a 'left' join of the features on a feature that comes after one that other
    does not have: another feature of self is compared *)
Theorem C74_left_on_feature_refuted :
  exists t o j j', wf t /\ wf o /\ InOrder (tf t) /\
    nth_error (getNames (tf t)) j = Some (Some "k") /\ nth_error (getNames (tf o)) j' = Some (Some "k") /\
    joinRows Intersection (alen (tp t)) (alen (tp o)) (sameValue t o j j') = [(Some 0, Some 0)] /\
    exists r, matMerge t o Intersection LeftOnly (Some (OnName "k")) = (r, Ok tt) /\ rows r = [].
Proof.
  exists l1, o1, 1, 0. split; [tabwf|]. split; [tabwf|].
  split; [exact (setNames_list_InOrder (fresh 2) [NStr "x"; NStr "k"] _ eq_refl)|].
  repeat (split; [vm_compute; reflexivity|]). eexists. split; vm_compute; reflexivity.
Qed.
Print Assumptions C74_left_on_feature_refuted.
(** feature names set out of order: an 'intersection' labels the values with each
    other's names *)
Theorem C74_renamed_refuted :
  exists (t o : table pval), wf t /\ wf o /\ getNames (tf t) = [Some "a"; Some "b"] /\ getNames (tf o) = [Some "a"; Some "b"] /\
    cell t 0 0 = Some (PInt 1) /\ cell t 0 1 = Some (PInt 2) /\
    exists r, matMerge t o Intersection Intersection (Some (OnName "a")) = (r, Ok tt) /\
      getNames (tf r) = [Some "a"; Some "b"] /\ cell r 0 0 = Some (PInt 2) /\ cell r 0 1 = Some (PInt 1).
Proof.
  exists (mkTable (fresh 1) renamed [[PInt 1; PInt 2]]), (tab [] ["a"; "b"] [[PInt 1; PInt 2]]).
  split; [|split; [tabwf|]].
  - split; [reflexivity|]. split; [intros r [<-|[]]; reflexivity|]. split; [apply fresh_Inv|]. apply setNames_Inv; [apply setNames_list_Inv, fresh_Inv|exact I].
  - repeat (split; [vm_compute; reflexivity|]). eexists. split; [vm_compute; reflexivity|]. repeat (split; [vm_compute; reflexivity|]). vm_compute; reflexivity.
Qed.
Print Assumptions C74_renamed_refuted.
(** and by point names too *)
Theorem C74_renamed_by_names_refuted :
  exists (t o : table pval), wf t /\ wf o /\ getNames (tf t) = [Some "a"; Some "b"] /\ getNames (tf o) = [Some "a"; Some "b"] /\
    cell t 0 0 = Some (PInt 1) /\ cell t 0 1 = Some (PInt 2) /\
    exists r, matMerge t o Intersection Intersection None = (r, Ok tt) /\
      getNames (tf r) = [Some "a"; Some "b"] /\ cell r 0 0 = Some (PInt 2) /\ cell r 0 1 = Some (PInt 1).
Proof.
  exists (mkTable (ax' ["p"]) renamed [[PInt 1; PInt 2]]), (tab ["p"] ["a"; "b"] [[PInt 1; PInt 2]]).
  split; [|split; [tabwf|]].
  - split; [reflexivity|]. split; [intros r [<-|[]]; reflexivity|]. split; [apply setNames_list_Inv, fresh_Inv|]. apply setNames_Inv; [apply setNames_list_Inv, fresh_Inv|exact I].
  - repeat (split; [vm_compute; reflexivity|]). eexists. split; [vm_compute; reflexivity|]. repeat (split; [vm_compute; reflexivity|]). vm_compute; reflexivity.
Qed.
Print Assumptions C74_renamed_by_names_refuted.
(** a merge by point names that is refused has already changed self *)
Theorem C74_failure_changes_refuted :
  exists t o r, wf t /\ wf o /\ matMerge t o Union Union None = (r, Err InvalidArgumentValue) /\ ~ wf r.
Proof.
  exists (tab ["p"] ["x"] [[PInt 1]]), (tab ["p"] ["x"] [[PInt 2]]). eexists. split; [tabwf|]. split; [tabwf|]. split; [vm_compute; reflexivity|].
  intros [_ [H _]]. specialize (H _ (or_introl eq_refl)). discriminate H.
Qed.
Print Assumptions C74_failure_changes_refuted.

(** ** Examples: the conditions of the theorems hold *)
Example C74_example_union : exists r, matMerge eT eO Union Union (Some (OnName "id")) = (r, Ok tt) /\ getNames (tf r) = [Some "id"; Some "x"; Some "y"] /\
  rows r = [[PInt 1; PNaN; PNaN]; [PInt 2; PInt 20; PStr "b"]; [PInt 3; PInt 30; PStr "c"]].
Proof. eexists. split; [vm_compute; reflexivity|]. split; reflexivity. Qed.
Example C74_example_names : exists r, matMerge eT eO LeftOnly Intersection None = (r, Ok tt) /\ getNames (tf r) = [Some "id"; Some "x"] /\ getNames (tp r) = [Some "p"; Some "q"] /\
  rows r = [[PInt 1; PNaN]; [PInt 2; PInt 20]].
Proof. eexists. split; [vm_compute; reflexivity|]. split; [reflexivity|]. split; reflexivity. Qed.
Example C74_example_conditions : JoinKey eT eO (Some (OnName "id")) (sameValue eT eO 0 0) /\ UniqueKey eT eO (Some (OnName "id")) /\ NothingToFill eT eO (sameValue eT eO 0 0) /\
  InOrder (tf eT) /\ KeyAfterShared eT eO (Some (OnName "id")).
Proof.
  destruct C16_example_conditions as (A & B & _ & D & E). split; [exact A|]. split; [exact B|]. split; [|split; [exact D|exact E]].
  intros i k j j' M P C w X. destruct i as [|[|i]]; [| |destruct i; discriminate].
  - destruct k as [|[|k]]; [vm_compute in M; discriminate..|]. destruct k; discriminate.
  - destruct j as [|[|j]]; [vm_compute in C; discriminate..|]. destruct j; discriminate.
Qed.
(** an object without points *)
Example C74_example_empty : exists r, matMerge eT (tab [] ["id"; "z"] []) Union Union (Some (OnName "id")) = (r, Ok tt) /\
  rows r = [[PInt 1; PNaN; PNaN]; [PInt 2; PInt 20; PNaN]].
Proof. eexists. split; vm_compute; reflexivity. Qed.
(** two matches of a point with NaN *)
Example C74_example_two : exists r, matMerge (tab [] ["k"; "x"] [[PInt 1; PNaN]]) (tab [] ["k"; "x"; "y"] [[PInt 1; PInt 5; PInt 8]; [PInt 1; PInt 6; PInt 9]]) Union Union (Some (OnName "k")) = (r, Ok tt) /\
  rows r = [[PInt 1; PNaN; PInt 8]; [PInt 1; PNaN; PInt 9]].
Proof. eexists. split; vm_compute; reflexivity. Qed.
Example C74_example_itself : wf eT /\ namesCreated (tf eT) = true /\ namesCreated (tp eT) = true /\ AllNamed (getNames (tp eT)) /\ AllNamed (getNames (tf eT)).
Proof. split; [tabwf|]. split; [reflexivity|]. split; [reflexivity|]. split; intros H; vm_compute in H; intuition discriminate. Qed.
