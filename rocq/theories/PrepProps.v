(** Property C14: trainAndTestSets. *)
From Verif Require Import Base NamesModel NamesSpec NamesProofs TableModel TableSpec TableProofs TableOps
  PrepModel PrepSpec PrepProofs SplitProofs.
Open Scope string_scope.
Open Scope list_scope.
Open Scope nat_scope.

(** C14: without labels, for every object, every test fraction in [0,1] and
    every point order (the identity, or any shuffle): the points are divided
    into [tr] and [te], each point in exactly one; the number of test points is
    an integer nearest to fraction * n; both parts carry all features and every
    point keeps its name and values. *)
Theorem C14_split_no_labels :
  forall (V : Type) (t : table V) (f : Q) (order : list nat), wf t -> (0 <= f)%Q -> (f <= 1)%Q ->
  Permutation order (seq 0 (alen (tp t))) ->
  exists trainX testX tr te, trainAndTestSets t f LNone order = Ok (Two trainX testX) /\
    tr ++ te = order /\ nearest (f * inject_Z (Z.of_nat (alen (tp t)))) (Z.of_nat (List.length te)) /\
    subTable t tr (seq 0 (alen (tf t))) trainX /\
    subTable t te (seq 0 (alen (tf t))) testX.
Proof. exact split_none_full. Qed.
Print Assumptions C14_split_no_labels.

(** C14: labels given as feature identifiers ([lab] are the features they
    denote, in the given order).  The X objects hold every other feature, the Y
    objects the label features; the rows of X and Y come from the same points
    in the same order.  Partial: needs a non-empty test set, see the refutation
    below. *)
Theorem C14_split_label_columns_partial :
  forall (V : Type) (t : table V) (f : Q) (order : list nat) (ids : list ident) (lab : list nat),
  wf t -> (0 <= f)%Q -> (f <= 1)%Q -> Permutation order (seq 0 (alen (tp t))) ->
  constructIndices (tf t) ids = Ok lab -> NoDup lab -> testSize f (alen (tp t)) <> 0 ->
  exists trainX trainY testX testY tr te,
    trainAndTestSets t f (LIds ids) order = Ok (Four trainX trainY testX testY) /\
    tr ++ te = order /\ nearest (f * inject_Z (Z.of_nat (alen (tp t)))) (Z.of_nat (List.length te)) /\
    subTable t tr (without (alen (tf t)) lab) trainX /\ subTable t tr lab trainY /\
    subTable t te (without (alen (tf t)) lab) testX /\ subTable t te lab testY.
Proof. exact split_ids_full. Qed.
Print Assumptions C14_split_label_columns_partial.

(** C14: labels given as a separate object with the same point names: the Y
    objects hold the same points as the X objects, and the features of [t]
    whose name also occurs in the labels object are removed from X. *)
Theorem C14_split_label_object :
  forall (V : Type) (t : table V) (f : Q) (order : list nat) (o : table V),
  wf t -> wf o -> (0 <= f)%Q -> (f <= 1)%Q -> Permutation order (seq 0 (alen (tp t))) ->
  alen (tp o) = alen (tp t) -> getNames (tp o) = getNames (tp t) ->
  exists trainX trainY testX testY tr te drop,
    trainAndTestSets t f (LObj o) order = Ok (Four trainX trainY testX testY) /\
    tr ++ te = order /\ nearest (f * inject_Z (Z.of_nat (alen (tp t)))) (Z.of_nat (List.length te)) /\
    (forall j, In j drop <-> exists s k, nth_error (getNames (tf t)) j = Some (Some s) /\
                                    nth_error (getNames (tf o)) k = Some (Some s)) /\
    subTable t tr (without (alen (tf t)) drop) trainX /\ subTable o tr (seq 0 (alen (tf o))) trainY /\
    subTable t te (without (alen (tf t)) drop) testX /\ subTable o te (seq 0 (alen (tf o))) testY.
Proof. exact split_obj_full. Qed.
Print Assumptions C14_split_label_object.

(** C14: everything else is rejected: a fraction outside [0,1], or a labels
    object with another number of points. *)
Theorem C14_split_rejects :
  forall (V : Type) (t : table V) (f : Q) (order : list nat) (lab : labelsArg V),
  (~ (0 <= f)%Q \/ ~ (f <= 1)%Q -> trainAndTestSets t f lab order = Err InvalidArgumentValue) /\
  (forall o, wf t -> (0 <= f)%Q -> (f <= 1)%Q -> Permutation order (seq 0 (alen (tp t))) ->
     alen (tp o) <> alen (tp t) -> trainAndTestSets t f (LObj o) order = Err InvalidArgumentValue).
Proof. exact split_rejects. Qed.
Print Assumptions C14_split_rejects.

(** C14 is false of the code when the test set is empty: with testFraction 0
    and the label column named "y", the label column stays in trainX and
    trainY has no features (base.py:1706-1712). *)
Theorem C14_empty_test_set_refuted :
  exists (t : table nat) trainX trainY testX testY,
    wf t /\ trainAndTestSets t 0 (LIds [IdStr "y"]) [0; 1] = Ok (Four trainX trainY testX testY) /\
    getNames (tf trainX) = [Some "x"; Some "y"] /\ alen (tf trainY) = 0.
Proof. exact split_empty_test. Qed.
Print Assumptions C14_empty_test_set_refuted.

Example ex_split : exists a b c d,
  trainAndTestSets
    (mkTable (fst (setNames (fresh 4) (AList [NStr "a"; NStr "b"; NNone; NStr "d"]) ONone))
             (fst (setNames (fresh 3) (AList [NStr "x"; NStr "y"; NStr "z"]) ONone))
             [[1; 5; 0]; [2; 6; 7]; [3; 3; 7]; [4; 5; 2]])
    (1 # 4) (LIds [IdStr "y"]) [2; 0; 3; 1] = Ok (Four a b c d) /\
  rows a = [[3; 7]; [1; 0]; [4; 2]] /\ rows b = [[3]; [5]; [5]] /\ rows c = [[2; 7]] /\ rows d = [[6]] /\
  getNames (tp a) = [None; Some "a"; Some "d"] /\ getNames (tp b) = [None; Some "a"; Some "d"].
Proof. do 4 eexists. split; [vm_compute; reflexivity|]. vm_compute. auto 10. Qed.
Example ex_split_fraction : testSize (1 # 4) 4 = 1 /\ testSize (1 # 2) 5 = 2 /\ testSize (3 # 10) 5 = 2.
Proof. vm_compute; auto. Qed.
