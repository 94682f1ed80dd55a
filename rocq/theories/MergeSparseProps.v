(** Property C75: merge of Sparse objects.  Definitions used in the statements:
    MergeSparseSpec.v (SparseJoin, Numbers, KeysStored, RestShown, Nonempty),
    MergeMatSpec.v (keptCell, AllNamed), MergeSpec.v (joinRows, joinCols, Conflict,
    JoinKey, UniqueKey, InOrder), SparseReshapeSpec.v (Holds: the table the object
    stands for), SparseSpec.v (val, sinv). *)
From Verif Require Import Base NamesModel NamesSpec NamesProofs TableModel TableSpec TableProofs TableOps MatchModel MatchSpec MatchProofs GetSpec
  MergeModel MergeSpec MergeSortProofs MergeProps MergeMatModel MergeMatSpec SparseModel SparseSpec SparseReshapeModel SparseReshapeSpec SparseReshapeProofs
  CopyModel MergeSparseModel MergeSparseSpec MergeSparseMain MergeSparseRest.
From Verif Require SparseReshapeProps.
From Coq Require Import QArith.
From Coq Require Import List. Import ListNotations.
Open Scope string_scope.
Open Scope list_scope.
Open Scope nat_scope.
Notation val := (SparseSpec.val (PInt 0)).

(** ** The join *)
(** Unless two matching points disagree about a shared feature, self becomes the
    join, in which it keeps its values; a merge that is refused leaves the table
    as it was.  Unlike List and Matrix objects no condition on the position of the
    key or on the number of points is needed.  Missing from the full claim (each
    shown to fail below): zeros in the feature joined on; points without names;
    points of other without a match that have zeros among the features only other
    has; an empty join; text; NaN of self to be filled; names not set in order. *)
Theorem C75_join_partial :
  forall floatOf so oo t o point feature, wf t -> wf o -> Holds so t -> Holds oo o -> sinv (PInt 0) (oMat so) -> sinv (PInt 0) (oMat oo) ->
  Numbers t -> Numbers o -> forall on m,
  namesCreated (tf t) = true -> namesCreated (tf o) = true -> (on = None -> namesCreated (tp t) = true /\ namesCreated (tp o) = true) ->
  JoinKey t o on m -> UniqueKey t o on -> KeysStored t o on -> (point = Union -> feature = Union -> RestShown t o m) -> Nonempty t o point feature m ->
  (feature = Intersection -> InOrder (tf t)) ->
  (~ Conflict t o m /\ exists r, sparseMerge floatOf so oo point feature on = (r, Ok tt) /\ SparseJoin t o point feature (byNames on) m r) \/
  (Conflict t o m /\ exists r, sparseMerge floatOf so oo point feature on = (r, Err InvalidArgumentValue) /\ Holds r t /\ sinv (PInt 0) (oMat r)).
Proof. exact sparseMerge_spec. Qed.
Print Assumptions C75_join_partial.
(** an object all of whose points and features have names, merged with itself by
    the point names, keeps its values *)
Theorem C75_with_itself :
  forall floatOf so t point feature, wf t -> Holds so t -> sinv (PInt 0) (oMat so) -> Numbers t ->
  namesCreated (tf t) = true -> namesCreated (tp t) = true -> (feature = Intersection -> InOrder (tf t)) ->
  AllNamed (getNames (tp t)) -> AllNamed (getNames (tf t)) -> 0 < alen (tp t) -> 0 < alen (tf t) ->
  exists r, sparseMerge floatOf so so point feature None = (r, Ok tt) /\ getNames (oPts r) = getNames (tp t) /\ getNames (oFts r) = getNames (tf t) /\
    forall i j v, cell t i j = Some v -> SameElement v (val (oMat r) i j).
Proof. exact sparse_self. Qed.
Print Assumptions C75_with_itself.

(** ** Refusals: self is left as it was *)
Theorem C75_names_required :
  forall floatOf so oo point feature on,
  (on = None /\ (namesCreated (oPts so) = false \/ namesCreated (oPts oo) = false)) \/ namesCreated (oFts so) = false \/ namesCreated (oFts oo) = false ->
  sparseMerge floatOf so oo point feature on = (so, Err InvalidArgumentValueCombination).
Proof. exact sparse_names_required. Qed.
Print Assumptions C75_names_required.
Theorem C75_key_unknown :
  forall floatOf so oo t o, wf t -> wf o -> Holds so t -> Holds oo o -> sinv (PInt 0) (oMat so) -> sinv (PInt 0) (oMat oo) ->
  namesCreated (tf t) = true -> namesCreated (tf o) = true -> forall point feature s,
  ~ (In (Some s) (getNames (tf t)) /\ In (Some s) (getNames (tf o))) ->
  sparseMerge floatOf so oo point feature (Some (OnName s)) = (so, Err InvalidArgumentValue).
Proof. exact sparse_key_unknown. Qed.
Print Assumptions C75_key_unknown.
Theorem C75_key_not_unique :
  forall floatOf so oo t o, wf t -> wf o -> Holds so t -> Holds oo o -> sinv (PInt 0) (oMat so) -> sinv (PInt 0) (oMat oo) ->
  namesCreated (tf t) = true -> namesCreated (tf o) = true -> forall point feature s j j',
  nth_error (getNames (tf t)) j = Some (Some s) -> nth_error (getNames (tf o)) j' = Some (Some s) ->
  (exists i i' v w, i <> i' /\ cell t i j = Some v /\ cell t i' j = Some w /\ Same v w) ->
  (exists i i' v w, i <> i' /\ cell o i j' = Some v /\ cell o i' j' = Some w /\ Same v w) ->
  sparseMerge floatOf so oo point feature (Some (OnName s)) = (so, Err InvalidArgumentValue).
Proof. exact sparse_key_not_unique. Qed.
Print Assumptions C75_key_not_unique.
Theorem C75_key_index_differs :
  forall floatOf so oo t o, wf t -> wf o -> Holds so t -> Holds oo o -> sinv (PInt 0) (oMat so) -> sinv (PInt 0) (oMat oo) ->
  namesCreated (tf t) = true -> namesCreated (tf o) = true -> forall point feature j,
  j < List.length (getNames (tf t)) -> j < List.length (getNames (tf o)) ->
  (nth j (getNames (tf t)) None <> nth j (getNames (tf o)) None \/ nth j (getNames (tf t)) None = None) ->
  sparseMerge floatOf so oo point feature (Some (OnIndex (Z.of_nat j))) = (so, Err InvalidArgumentValue).
Proof. exact sparse_key_index. Qed.
Print Assumptions C75_key_index_differs.

(** ** What fails *)
Definition noFloat (s : string) : option pval := None.
Notation st t := (SparseReshapeProps.stored t 2).
Definition look (r : sobj) : list (list pval) := map (fun i => map (val (oMat r) i) (seq 0 (snf (oMat r)))) (seq 0 (snp (oMat r))).
Ltac obj := split; [tabwf|split; [SparseReshapeProps.held|split; [SparseReshapeProps.ents_ok|reflexivity]]].
Definition Obj (t : table pval) : Prop := wf t /\ Holds (st t) t /\ sinv (PInt 0) (oMat (st t)).
(** the first key is zero and not stored, so the second key is taken for that of
    the first point: matching points are said to have different values *)
Theorem C75_zero_key_refuted :
  exists t o r, Obj t /\ Obj o /\ rows t = [[PInt 0; PInt 10]; [PInt 2; PInt 20]] /\ rows o = [[PInt 2; PInt 7]] /\
    getNames (tf t) = [Some "k"; Some "x"] /\ getNames (tf o) = [Some "k"; Some "y"] /\ AllDifferent o 0 /\ ~ Conflict t o (sameValue t o 0 0) /\
    sparseMerge noFloat (st t) (st o) LeftOnly Union (Some (OnName "k")) = (r, Err InvalidArgumentValue).
Proof.
  exists (tab [] ["k"; "x"] [[PInt 0; PInt 10]; [PInt 2; PInt 20]]), (tab [] ["k"; "y"] [[PInt 2; PInt 7]]). eexists.
  split; [obj|]. split; [obj|]. do 4 (split; [reflexivity|]). split; [|split].
  - intros i i' v w N A B. destruct i as [|i]; [|destruct i; discriminate]. destruct i' as [|i']; [lia|destruct i'; discriminate].
  - intros (i & k & j & j' & v & w & M & P & A & B & V & W & S'). destruct j as [|[|j]]; [| |destruct j; discriminate P].
    + cbn in P. injection P as <-. apply S'. apply pyEq_spec. unfold sameValue in M. rewrite A, B in M. exact M.
    + discriminate P.
  - vm_compute. reflexivity.
Qed.
Print Assumptions C75_zero_key_refuted.
(** without a match a point of self is lost *)
Theorem C75_zero_key_lost_refuted :
  exists t o r, Obj t /\ Obj o /\ rows t = [[PInt 0; PInt 10]; [PInt 2; PInt 20]] /\
    joinRows LeftOnly (alen (tp t)) (alen (tp o)) (sameValue t o 0 0) = [(Some 0, None); (Some 1, None)] /\
    sparseMerge noFloat (st t) (st o) LeftOnly Union (Some (OnName "k")) = (r, Ok tt) /\ look r = [[PInt 0; PFloat 10; PNaN]].
Proof.
  exists (tab [] ["k"; "x"] [[PInt 0; PInt 10]; [PInt 2; PInt 20]]), (tab [] ["k"; "y"] [[PInt 5; PInt 7]]). eexists.
  split; [obj|]. split; [obj|]. split; [reflexivity|]. split; [vm_compute; reflexivity|]. split; vm_compute; reflexivity.
Qed.
Print Assumptions C75_zero_key_lost_refuted.
(** a point of other without a match: its value 8 of feature z is shown as y *)
Theorem C75_rest_zero_refuted :
  exists t o r, Obj t /\ Obj o /\ rows o = [[PInt 2; PInt 0; PInt 8]] /\
    sparseMerge noFloat (st t) (st o) Union Union (Some (OnName "k")) = (r, Ok tt) /\
    getNames (oFts r) = [Some "k"; Some "y"; Some "z"] /\ look r = [[PFloat 1; PNaN; PNaN]; [PFloat 2; PFloat 8; PInt 0]].
Proof.
  exists (tab [] ["k"] [[PInt 1]]), (tab [] ["k"; "y"; "z"] [[PInt 2; PInt 0; PInt 8]]). eexists.
  split; [obj|]. split; [obj|]. split; [reflexivity|]. split; [vm_compute; reflexivity|]. split; vm_compute; reflexivity.
Qed.
Print Assumptions C75_rest_zero_refuted.
(** no matching points: instead of an object without points, an AttributeError *)
Theorem C75_empty_refuted :
  exists t o r, Obj t /\ Obj o /\ joinRows Intersection (alen (tp t)) (alen (tp o)) (sameValue t o 0 0) = [] /\
    sparseMerge noFloat (st t) (st o) Intersection Union (Some (OnName "k")) = (r, Err AttributeErr).
Proof.
  exists (tab [] ["k"] [[PInt 1]]), (tab [] ["k"] [[PInt 2]]). eexists. split; [obj|]. split; [obj|]. split; vm_compute; reflexivity.
Qed.
Print Assumptions C75_empty_refuted.
(** text is refused after the join has been found *)
Theorem C75_text_refuted :
  exists t o r, Obj t /\ Obj o /\ rows t = [[PInt 1; PStr "a"]] /\
    sparseMerge noFloat (st t) (st o) Union Union (Some (OnName "k")) = (r, Err ValueErr).
Proof.
  exists (tab [] ["k"; "x"] [[PInt 1; PStr "a"]]), (tab [] ["k"; "y"] [[PInt 1; PInt 5]]). eexists. split; [obj|]. split; [obj|]. split; vm_compute; reflexivity.
Qed.
Print Assumptions C75_text_refuted.
(** and text that reads as a number becomes that number *)
Theorem C75_text_number_refuted :
  exists t o r, Obj t /\ Obj o /\ rows t = [[PInt 1; PStr "5"]] /\
    sparseMerge (fun s => if String.eqb s "5" then Some (PFloat 5) else None) (st t) (st o) Union Union (Some (OnName "k")) = (r, Ok tt) /\ look r = [[PFloat 1; PFloat 5; PFloat 7]].
Proof.
  exists (tab [] ["k"; "x"] [[PInt 1; PStr "5"]]), (tab [] ["k"; "y"] [[PInt 1; PInt 7]]). eexists. split; [obj|]. split; [obj|]. split; [reflexivity|]. split; vm_compute; reflexivity.
Qed.
Print Assumptions C75_text_number_refuted.
(** the second point of self has no name, a point of other is named "1": they are
    joined *)
Definition halfNamed : axis := fst (setNames (fresh 2) (AList [NStr "a"; NNone]) ONone).
Theorem C75_unnamed_refuted :
  exists t o r, Obj t /\ Obj o /\ getNames (tp t) = [Some "a"; None] /\ getNames (tp o) = [Some "1"] /\ rows t = [[PInt 10]; [PInt 20]] /\ rows o = [[PInt 7]] /\
    joinRows LeftOnly (alen (tp t)) (alen (tp o)) (sameName t o) = [(Some 0, None); (Some 1, None)] /\
    sparseMerge noFloat (st t) (st o) LeftOnly Union None = (r, Ok tt) /\ look r = [[PFloat 10; PNaN]; [PFloat 20; PFloat 7]].
Proof.
  exists (mkTable halfNamed (ax' ["x"]) [[PInt 10]; [PInt 20]]), (tab ["1"] ["y"] [[PInt 7]]). eexists.
  split.
  - split; [|split; [SparseReshapeProps.held|split; [SparseReshapeProps.ents_ok|reflexivity]]]. split; [reflexivity|]. split; [intros r [<-|[<-|[]]]; reflexivity|]. split; apply setNames_list_Inv, fresh_Inv.
  - split; [obj|]. repeat (split; [vm_compute; reflexivity|]). vm_compute. reflexivity.
Qed.
Print Assumptions C75_unnamed_refuted.
(** or the merge is refused when self has been changed: one point, two names *)
Theorem C75_unnamed_broken_refuted :
  exists t o r, Obj t /\ Obj o /\ getNames (tp t) = [Some "a"; None] /\ getNames (tp o) = [Some "1"] /\
    sparseMerge noFloat (st t) (st o) Intersection Union None = (r, Err InvalidArgumentValue) /\ snp (oMat r) = 1 /\ alen (oPts r) = 2.
Proof.
  exists (mkTable halfNamed (ax' ["x"]) [[PInt 10]; [PInt 20]]), (tab ["1"] ["y"] [[PInt 7]]). eexists.
  split.
  - split; [|split; [SparseReshapeProps.held|split; [SparseReshapeProps.ents_ok|reflexivity]]]. split; [reflexivity|]. split; [intros r [<-|[<-|[]]]; reflexivity|]. split; apply setNames_list_Inv, fresh_Inv.
  - split; [obj|]. repeat (split; [vm_compute; reflexivity|]). vm_compute. reflexivity.
Qed.
Print Assumptions C75_unnamed_broken_refuted.
(** NaN of self in a shared feature is not filled from the matching point *)
Theorem C75_fill_refuted :
  exists t o r, Obj t /\ Obj o /\ cell t 0 1 = Some PNaN /\ cell o 0 1 = Some (PInt 5) /\
    sparseMerge noFloat (st t) (st o) Union Union (Some (OnName "k")) = (r, Ok tt) /\ val (oMat r) 0 1 = PNaN.
Proof.
  exists (tab [] ["k"; "x"] [[PInt 1; PNaN]]), (tab [] ["k"; "x"] [[PInt 1; PInt 5]]). eexists.
  split; [obj|]. split; [obj|]. split; [reflexivity|]. split; [reflexivity|]. split; vm_compute; reflexivity.
Qed.
Print Assumptions C75_fill_refuted.
(** feature names set out of order: an 'intersection' labels the values with each
    other's names *)
Theorem C75_renamed_refuted :
  exists t o r, Obj t /\ Obj o /\ getNames (tf t) = [Some "a"; Some "b"] /\ getNames (tf o) = [Some "a"; Some "b"] /\
    rows t = [[PInt 1; PInt 2]] /\
    sparseMerge noFloat (st t) (st o) Intersection Intersection (Some (OnName "a")) = (r, Ok tt) /\
    getNames (oFts r) = [Some "a"; Some "b"] /\ look r = [[PFloat 2; PFloat 1]].
Proof.
  exists (mkTable (fresh 1) renamed [[PInt 1; PInt 2]]), (tab [] ["a"; "b"] [[PInt 1; PInt 2]]). eexists.
  split; [split; [|split; [SparseReshapeProps.held|split; [SparseReshapeProps.ents_ok|reflexivity]]]|split; [obj|]].
  - split; [reflexivity|]. split; [intros r [<-|[]]; reflexivity|]. split; [apply fresh_Inv|]. apply setNames_Inv; [apply setNames_list_Inv, fresh_Inv|exact Logic.I].
  - repeat (split; [vm_compute; reflexivity|]). vm_compute; reflexivity.
Qed.
Print Assumptions C75_renamed_refuted.

(** ** Examples: the conditions of the theorems hold *)
Definition sT : table pval := tab ["p"; "q"] ["id"; "x"] [[PInt 1; PInt 0]; [PInt 2; PInt 20]].
Definition sO : table pval := tab ["q"; "r"] ["y"; "id"] [[PFloat (5#2); PInt 2]; [PInt 0; PInt 3]].
Example C75_example_union : exists r, sparseMerge noFloat (st sT) (st sO) Union Union (Some (OnName "id")) = (r, Ok tt) /\ getNames (oFts r) = [Some "id"; Some "x"; Some "y"] /\
  look r = [[PFloat 1; PInt 0; PNaN]; [PFloat 2; PFloat 20; PFloat (5#2)]; [PFloat 3; PNaN; PInt 0]].
Proof. eexists. split; [vm_compute; reflexivity|]. split; vm_compute; reflexivity. Qed.
Example C75_example_names : exists r, sparseMerge noFloat (st sT) (st sO) LeftOnly LeftOnly None = (r, Ok tt) /\ getNames (oFts r) = [Some "id"; Some "x"] /\ getNames (oPts r) = [Some "p"; Some "q"] /\
  look r = [[PFloat 1; PInt 0]; [PFloat 2; PFloat 20]].
Proof. eexists. split; [vm_compute; reflexivity|]. split; [reflexivity|]. split; vm_compute; reflexivity. Qed.
Example C75_example_conditions : Obj sT /\ Obj sO /\ Numbers sT /\ Numbers sO /\ JoinKey sT sO (Some (OnName "id")) (sameValue sT sO 0 1) /\ UniqueKey sT sO (Some (OnName "id")) /\
  KeysStored sT sO (Some (OnName "id")) /\ KeysStored sT sO None /\ RestShown sT sO (sameValue sT sO 0 1) /\ Nonempty sT sO Union Union (sameValue sT sO 0 1) /\ InOrder (tf sT).
Proof.
  split; [obj|]. split; [obj|].
  split; [intros [|[|i]] [|[|j]] v V; try (injection V as <-; exact Logic.I); cbn in V; try destruct j; try destruct i; discriminate|].
  split; [intros [|[|i]] [|[|j]] v V; try (injection V as <-; exact Logic.I); cbn in V; try destruct j; try destruct i; discriminate|].
  split; [apply (jk_feature sT sO "id" 0 1); reflexivity|].
  split.
  { exists 0, 1. split; [reflexivity|]. split; [reflexivity|]. left. intros i i' v w N A B. destruct i as [|[|i]]; [| |destruct i; discriminate]; (destruct i' as [|[|i']]; [| |destruct i'; discriminate]); try lia;
    cbn in A, B; injection A as <-; injection B as <-; (split; [intros S2; apply pyEq_spec in S2; discriminate|left; discriminate]). }
  split.
  { split; intros i j J C.
    - destruct j as [|[|j]]; [|discriminate J|destruct j; discriminate J]. destruct i as [|[|i]]; [discriminate C..|destruct i; discriminate C].
    - destruct j as [|[|j]]; [discriminate J| |destruct j; discriminate J]. destruct i as [|[|i]]; [discriminate C..|destruct i; discriminate C]. }
  split; [split; intros H; vm_compute in H; intuition discriminate|].
  split.
  { intros k K U a b AB B. assert (L : List.length (ownValues sT sO k) <= 1) by (destruct k as [|[|k]]; [vm_compute; lia..|vm_compute in K; lia]). lia. }
  split; [split; [cbn; lia|split; vm_compute; discriminate]|].
  exact (setNames_list_InOrder (fresh 2) [NStr "id"; NStr "x"] _ eq_refl).
Qed.
