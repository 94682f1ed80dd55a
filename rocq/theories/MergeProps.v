(** Property C16: merge.  Definitions used in the statements: MergeSpec.v
    (joinRows, joinCols, joinCell, JoinOf, Conflict, JoinKey, UniqueKey, InOrder,
    KeyAfterShared, NoRefill, SortedBy), TableSpec.v (wf, cell). *)
From Verif Require Import Base NamesModel NamesSpec NamesProofs TableModel TableSpec TableProofs TableOps MatchModel MatchSpec MatchProofs
  MergeModel MergeSpec MergeMainProofs MergeSortProofs.
From Coq Require Import Sorted Permutation QArith.
Open Scope string_scope.
Open Scope list_scope.
Open Scope nat_scope.

(** ** The join *)
(** Two different objects (List type) with points and names.  Unless two matching
    points disagree about a shared feature, self becomes the relational join: the
    rows, columns, elements and names of [JoinOf].  Missing from the full claim
    (each shown to fail below): shared features of an 'intersection', or the key
    of a 'left' join on a feature, when the names were not set in the order of the
    features; a 'left' join on a feature behind one that other does not have; NaN
    in a shared feature of a point with several matches; an object without
    points; other being self.  Joins 'strict' are not modelled here. *)
Theorem C16_join_partial :
  forall t o point feature on m, wf t -> wf o -> 0 < alen (tp t) -> 0 < alen (tp o) ->
  namesCreated (tf t) = true -> namesCreated (tf o) = true -> (on = None -> namesCreated (tp t) = true /\ namesCreated (tp o) = true) ->
  JoinKey t o on m -> UniqueKey t o on -> NoRefill t o m ->
  (feature = Intersection -> InOrder (tf t)) -> (feature = LeftOnly -> on <> None -> InOrder (tf t) /\ KeyAfterShared t o on) ->
  (~ Conflict t o m /\ exists r, mergeFrontend false t o point feature on = (r, Ok tt) /\ JoinOf t o point feature (byNames on) m r) \/
  (Conflict t o m /\ exists r, mergeFrontend false t o point feature on = (r, Err InvalidArgumentValue)).
Proof. exact mergeFrontend_spec. Qed.
Print Assumptions C16_join_partial.
(** merge does nothing else unless it is a 'union' of the points on a feature *)
Theorem C16_no_sort :
  forall leb t o point feature on, (point = Union -> on = None \/ on = Some (OnName "") \/ on = Some (OnIndex 0)) ->
  merge leb false t o point feature on = mergeFrontend false t o point feature on.
Proof. exact merge_plain. Qed.
Print Assumptions C16_no_sort.
(** and that is sorted by the feature.  Missing: a feature given by index 0 or
    named "" (not sorted) and a feature given by index together with an
    'intersection' of the features (sorted by another one). *)
Theorem C16_union_sorted_partial :
  forall leb t o feature on m s, TotalOrder leb -> wf t -> wf o -> JoinKey t o (Some on) m -> keyIs t on s ->
  match on with OnName n => n <> "" | OnIndex z => z <> 0%Z /\ feature <> Intersection end ->
  forall r, mergeFrontend false t o Union feature (Some on) = (r, Ok tt) -> JoinOf t o Union feature false m r ->
  exists r', merge leb false t o Union feature (Some on) = (r', Ok tt) /\ SortedBy leb s r r'.
Proof. exact merge_union_sorted. Qed.
Print Assumptions C16_union_sorted_partial.
(** names given as a list are in order *)
Theorem C16_list_names_in_order :
  forall a l x, setNames a (AList l) ONone = (x, Ok tt) -> InOrder x.
Proof. exact setNames_list_InOrder. Qed.
Print Assumptions C16_list_names_in_order.

(** ** Refusals: self is left as it was *)
Theorem C16_names_required :
  forall same t o point feature on,
  (on = None /\ (namesCreated (tp t) = false \/ namesCreated (tp o) = false)) \/ namesCreated (tf t) = false \/ namesCreated (tf o) = false ->
  mergeFrontend same t o point feature on = (t, Err InvalidArgumentValueCombination).
Proof. exact merge_names_required. Qed.
Print Assumptions C16_names_required.
Theorem C16_key_unknown :
  forall same t o point feature s, wf t -> wf o -> namesCreated (tf t) = true -> namesCreated (tf o) = true ->
  ~ (In (Some s) (getNames (tf t)) /\ In (Some s) (getNames (tf o))) ->
  mergeFrontend same t o point feature (Some (OnName s)) = (t, Err InvalidArgumentValue).
Proof. exact merge_key_unknown. Qed.
Print Assumptions C16_key_unknown.
Theorem C16_key_not_unique :
  forall same t o point feature s j j', wf t -> wf o -> namesCreated (tf t) = true -> namesCreated (tf o) = true ->
  nth_error (getNames (tf t)) j = Some (Some s) -> nth_error (getNames (tf o)) j' = Some (Some s) ->
  (exists i i' v w, i <> i' /\ cell t i j = Some v /\ cell t i' j = Some w /\ Same v w) ->
  (exists i i' v w, i <> i' /\ cell o i j' = Some v /\ cell o i' j' = Some w /\ Same v w) ->
  mergeFrontend same t o point feature (Some (OnName s)) = (t, Err InvalidArgumentValue).
Proof. exact merge_key_not_unique. Qed.
Print Assumptions C16_key_not_unique.
(** an index must mean one named feature of both *)
Theorem C16_key_index_differs :
  forall same t o point feature j, namesCreated (tf t) = true -> namesCreated (tf o) = true ->
  j < List.length (getNames (tf t)) -> j < List.length (getNames (tf o)) ->
  (nth j (getNames (tf t)) None <> nth j (getNames (tf o)) None \/ nth j (getNames (tf t)) None = None) ->
  mergeFrontend same t o point feature (Some (OnIndex (Z.of_nat j))) = (t, Err InvalidArgumentValue).
Proof. exact merge_key_index. Qed.
Print Assumptions C16_key_index_differs.

(** ** What fails *)
Definition ax' (l : list string) : axis := fst (setNames (fresh (List.length l)) (AList (map NStr l)) ONone).
Definition tab (p : list string) (f : list string) (r : list (list pval)) : table pval := mkTable (match p with [] => fresh (List.length r) | _ => ax' p end) (ax' f) r.
Lemma tab_wf p f r : (p = [] \/ List.length p = List.length r) -> (forall x, In x r -> List.length x = List.length f) -> List.length (getNames (ax' f)) = List.length f -> List.length (getNames (tp (tab p f r))) = List.length r -> wf (tab p f r).
Proof.
  intros H1 H2 H3 H4. assert (I2 : Inv (ax' f)) by (apply setNames_list_Inv, fresh_Inv).
  assert (I1 : Inv (tp (tab p f r))) by (cbn; destruct p; [apply fresh_Inv|apply setNames_list_Inv, fresh_Inv]).
  split; [change (rows (tab p f r)) with r; rewrite <- H4, (getNames_length _ I1); reflexivity|]. split; [|split; assumption].
  intros x X. rewrite (H2 x X), <- H3. apply (getNames_length _ I2).
Qed.
Ltac tabwf := apply tab_wf; [first [left; reflexivity|right; reflexivity]|intros x X; cbn in X; repeat (destruct X as [<-|X]; [reflexivity|]); contradiction|reflexivity|reflexivity].

(** a 'left' join of the features on a feature that comes after one that other
    does not have: another feature of self is compared *)
Definition l1 := tab [] ["x"; "k"] [[PInt 5; PInt 1]].
Definition o1 := tab [] ["k"; "z"] [[PInt 1; PInt 7]].
Theorem C16_left_on_feature_refuted :
  exists t o j j', wf t /\ wf o /\ 0 < alen (tp t) /\ 0 < alen (tp o) /\ InOrder (tf t) /\
    nth_error (getNames (tf t)) j = Some (Some "k") /\ nth_error (getNames (tf o)) j' = Some (Some "k") /\
    joinRows Intersection (alen (tp t)) (alen (tp o)) (sameValue t o j j') = [(Some 0, Some 0)] /\
    exists r, mergeFrontend false t o Intersection LeftOnly (Some (OnName "k")) = (r, Ok tt) /\ rows r = [].
Proof.
  exists l1, o1, 1, 0. split; [tabwf|]. split; [tabwf|]. split; [vm_compute; lia|]. split; [vm_compute; lia|].
  split; [exact (setNames_list_InOrder (fresh 2) [NStr "x"; NStr "k"] _ eq_refl)|].
  repeat (split; [vm_compute; reflexivity|]). eexists. split; vm_compute; reflexivity.
Qed.
Print Assumptions C16_left_on_feature_refuted.
(** feature names set out of order (the first feature was renamed last): an
    'intersection' labels the values with each other's names *)
Definition renamed : axis := fst (setNames (ax' ["c"; "b"]) (AStr "a") (OOne (IdStr "c"))).
Theorem C16_renamed_refuted :
  exists (t o : table pval), wf t /\ wf o /\ getNames (tf t) = [Some "a"; Some "b"] /\ getNames (tf o) = [Some "a"; Some "b"] /\
    cell t 0 0 = Some (PInt 1) /\ cell t 0 1 = Some (PInt 2) /\
    exists r, mergeFrontend false t o Intersection Intersection (Some (OnName "a")) = (r, Ok tt) /\
      getNames (tf r) = [Some "a"; Some "b"] /\ cell r 0 0 = Some (PInt 2) /\ cell r 0 1 = Some (PInt 1).
Proof.
  exists (mkTable (fresh 1) renamed [[PInt 1; PInt 2]]), (tab [] ["a"; "b"] [[PInt 1; PInt 2]]).
  split; [|split; [tabwf|]].
  - split; [reflexivity|]. split; [intros r [<-|[]]; reflexivity|]. split; [apply fresh_Inv|]. apply setNames_Inv; [apply setNames_list_Inv, fresh_Inv|exact I].
  - repeat (split; [vm_compute; reflexivity|]). eexists. split; [vm_compute; reflexivity|]. repeat (split; [vm_compute; reflexivity|]). vm_compute; reflexivity.
Qed.
Print Assumptions C16_renamed_refuted.
(** NaN in a shared feature and two matches: the first match fills self, the
    second then seems to disagree *)
Theorem C16_refill_refuted :
  exists t o, wf t /\ wf o /\ ~ Conflict t o (sameValue t o 0 0) /\ AllDifferent t 0 /\
    exists r, mergeFrontend false t o Union Union (Some (OnName "k")) = (r, Err InvalidArgumentValue).
Proof.
  exists (tab [] ["k"; "x"] [[PInt 1; PNaN]]), (tab [] ["k"; "x"] [[PInt 1; PInt 5]; [PInt 1; PInt 6]]).
  split; [tabwf|]. split; [tabwf|]. split; [|split].
  - intros (i & k & j & j' & v & w & M & P & A & B & V & W & S').
    destruct i as [|i]; [|destruct i; discriminate]. destruct j as [|[|j]]; [| |destruct j; discriminate].
    + cbn in P. injection P as <-. destruct k as [|[|k]]; [| |destruct k; discriminate]; cbn in A, B; injection A as <-; injection B as <-; apply S'; apply pyEq_spec; reflexivity.
    + cbn in A. injection A as <-. apply V. reflexivity.
  - intros i i' v w N A B. destruct i as [|i]; [|destruct i; discriminate]. destruct i' as [|i']; [lia|destruct i'; discriminate].
  - eexists. vm_compute. reflexivity.
Qed.
Print Assumptions C16_refill_refuted.
(** a merge by point names that is refused has already changed self *)
Theorem C16_failure_changes_refuted :
  exists t o r, wf t /\ wf o /\ mergeFrontend false t o Union Union None = (r, Err InvalidArgumentValue) /\ ~ wf r.
Proof.
  exists (tab ["p"] ["x"] [[PInt 1]]), (tab ["p"] ["x"] [[PInt 2]]). eexists. split; [tabwf|]. split; [tabwf|]. split; [vm_compute; reflexivity|].
  intros [_ [H _]]. specialize (H _ (or_introl eq_refl)). discriminate H.
Qed.
Print Assumptions C16_failure_changes_refuted.
(** a.merge(a) by point names: the rows of other have changed under way *)
Theorem C16_with_itself_refuted :
  exists t r e, wf t /\ ~ Conflict t t (sameName t t) /\ mergeFrontend true t t Union Union None = (r, Err e).
Proof.
  exists (tab ["p"] ["x"] [[PInt 1]]). eexists. eexists. split; [tabwf|]. split; [|vm_compute; reflexivity].
  intros (i & k & j & j' & v & w & M & P & A & B & V & W & S').
  destruct i as [|i]; [|destruct i; discriminate]. destruct k as [|k]; [|destruct k; discriminate]. destruct j as [|j]; [|destruct j; discriminate]. cbn in P. injection P as <-.
  cbn in A, B. injection A as <-. injection B as <-. apply S', pyEq_spec. reflexivity.
Qed.
Print Assumptions C16_with_itself_refuted.
(** other without points *)
Theorem C16_empty_refuted :
  exists t o r, wf t /\ wf o /\ alen (tp o) = 0 /\ getNames (tf o) = getNames (tf t) /\ mergeFrontend false t o Union Union (Some (OnName "k")) = (r, Err IndexErr).
Proof.
  exists (tab [] ["k"] [[PInt 1]]), (tab [] ["k"] []). eexists. split; [tabwf|]. split; [tabwf|]. repeat (split; [vm_compute; reflexivity|]). vm_compute. reflexivity.
Qed.
Print Assumptions C16_empty_refuted.
(** a feature given by index: 'union' of the points and 'intersection' of the
    features; the index is used again after the features have moved.  Index 0 is
    never sorted by. *)
Definition leZ (a b : pval) : bool := match a, b with PInt x, PInt y => (x <=? y)%Z | _, _ => true end.
Theorem C16_sort_index_refuted :
  exists t o r, wf t /\ wf o /\ nth_error (getNames (tf t)) 1 = Some (Some "k") /\ nth_error (getNames (tf o)) 1 = Some (Some "k") /\
    merge leZ false t o Union Intersection (Some (OnIndex 1)) = (r, Err IndexErr).
Proof.
  exists (tab [] ["x"; "k"] [[PInt 1; PInt 2]]), (tab [] ["y"; "k"] [[PInt 1; PInt 2]]). eexists. split; [tabwf|]. split; [tabwf|]. repeat (split; [vm_compute; reflexivity|]). vm_compute. reflexivity.
Qed.
Print Assumptions C16_sort_index_refuted.
Theorem C16_sort_index_zero_refuted :
  exists t o r, wf t /\ wf o /\ merge leZ false t o Union Union (Some (OnIndex 0)) = (r, Ok tt) /\ cell r 0 0 = Some (PInt 2) /\ cell r 1 0 = Some (PInt 1).
Proof.
  exists (tab [] ["k"] [[PInt 2]]), (tab [] ["k"] [[PInt 1]]). eexists. split; [tabwf|]. split; [tabwf|]. repeat (split; [vm_compute; reflexivity|]). vm_compute. reflexivity.
Qed.
Print Assumptions C16_sort_index_zero_refuted.

(** ** Examples: the conditions of the theorems hold *)
Definition eT := tab ["p"; "q"] ["id"; "x"] [[PInt 1; PNaN]; [PInt 2; PInt 20]].
Definition eO := tab ["q"; "r"] ["id"; "x"; "y"] [[PInt 2; PInt 20; PStr "b"]; [PInt 3; PInt 30; PStr "c"]].
Example C16_example_wf : wf eT /\ wf eO.
Proof. split; tabwf. Qed.
Example C16_example_union : exists r, mergeFrontend false eT eO Union Union (Some (OnName "id")) = (r, Ok tt) /\ getNames (tf r) = [Some "id"; Some "x"; Some "y"] /\
  rows r = [[PInt 1; PNaN; PNaN]; [PInt 2; PInt 20; PStr "b"]; [PInt 3; PInt 30; PStr "c"]].
Proof. eexists. split; [vm_compute; reflexivity|]. split; reflexivity. Qed.
Example C16_example_names : exists r, mergeFrontend false eT eO LeftOnly Intersection None = (r, Ok tt) /\ getNames (tf r) = [Some "id"; Some "x"] /\ getNames (tp r) = [Some "p"; Some "q"] /\
  rows r = [[PInt 1; PNaN]; [PInt 2; PInt 20]].
Proof. eexists. split; [vm_compute; reflexivity|]. split; [reflexivity|]. split; reflexivity. Qed.
Example C16_example_conditions : JoinKey eT eO (Some (OnName "id")) (sameValue eT eO 0 0) /\ UniqueKey eT eO (Some (OnName "id")) /\ NoRefill eT eO (sameValue eT eO 0 0) /\
  InOrder (tf eT) /\ KeyAfterShared eT eO (Some (OnName "id")).
Proof.
  split; [constructor; reflexivity|]. split; [|split; [|split]].
  - exists 0, 0. split; [reflexivity|]. split; [reflexivity|]. left. intros i i' v w N A B.
    destruct i as [|[|i]]; [| |destruct i; discriminate]; (destruct i' as [|[|i']]; [| |destruct i'; discriminate]); try lia; cbn in A, B; injection A as <-; injection B as <-;
      (split; [intros S'; apply pyEq_spec in S'; discriminate|left; discriminate]).
  - intros i k k' j A B L L' H C. destruct i as [|[|i]]; [| |destruct i; discriminate]; (destruct k as [|[|k]]; [| |vm_compute in L; lia]); (destruct k' as [|[|k']]; [| |vm_compute in L'; lia]); try reflexivity; vm_compute in A, B; discriminate.
  - exact (setNames_list_InOrder (fresh 2) [NStr "id"; NStr "x"] _ eq_refl).
  - intros k H. destruct k as [|[|k]]; [intros j L; lia|discriminate|]. destruct k; discriminate.
Qed.
