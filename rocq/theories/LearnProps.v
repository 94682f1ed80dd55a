(** Properties C44-C48 and C52. *)
From Verif Require Import Base TableModel TableSpec LearnModel LearnSpec LearnProofs LearnMultiProofs.
From Coq Require Import Sorted.
Open Scope string_scope.
Open Scope list_scope.
Open Scope nat_scope.

(** C44: merging two argument dicts fails exactly when some argument has two
    different values; otherwise every argument of either is there with its
    value and nothing else. *)
Theorem C44_merge_arguments :
  forall (V : Type) (EV : EqDec V) (a kw : @dict string V), wfdict a -> wfdict kw ->
  ((exists k v w, dget k a = Some v /\ dget k kw = Some w /\ v <> w) ->
     mergeArguments a kw = Err InvalidArgumentValueCombination) /\
  (~ (exists k v w, dget k a = Some v /\ dget k kw = Some w /\ v <> w) ->
     exists m, mergeArguments a kw = Ok m /\ wfdict m /\
       forall k v, dget k m = Some v <-> dget k a = Some v \/ dget k kw = Some v).
Proof.
  intros V EV a kw Ha Hk.
  destruct (mergeArguments_spec a kw Ha Hk) as [[He Hc]|(m & Hm & Hw & Hg & Hc)]; split.
  - intros _; exact He.
  - intros Hn; contradiction.
  - intros (k & v & w & H1 & H2 & H3). exfalso; apply H3; eapply Hc; eauto.
  - intros _. exists m. repeat split; auto.
    + rewrite Hg. destruct (dget k a); auto.
    + rewrite Hg. intros [->|H]; auto. destruct (dget k a) eqn:E; auto. f_equal. eapply Hc; eauto.
Qed.
Print Assumptions C44_merge_arguments.
Example C44_example :
  mergeArguments [("k", 5); ("p", 2)] [("p", 2); ("q", 9)] = Ok [("k", 5); ("p", 2); ("q", 9)] /\
  mergeArguments [("k", 5); ("p", 2)] [("p", 3)] = Err InvalidArgumentValueCombination.
Proof. split; reflexivity. Qed.

(** C45: whatever the history of retrain calls (some of which may be refused),
    one training happens per accepted call, and the arguments handed to the
    most recent training are, for each name, the most recent value among the
    first training and the accepted calls.  Partial: no call passes a Tune
    value (see below), and this is about the arguments used, not the ones
    reported. *)
Theorem C45_retrain_arguments_used_partial :
  forall (V : Type) (EV : EqDec V) (valid : @dict string V -> bool) (isTune : V -> bool)
         (a0 : @dict string V) (h : list (@dict string V * @dict string V)),
  Forall (goodCall isTune) h ->
  let s := retrainAll valid isTune (trainTL a0) h in
  List.length (tlUsed s) = S (List.length (successes valid h)) /\
  exists u, last (tlUsed s) [] = u /\ tlTrans s = u /\
    forall k, latest k (a0 :: successes valid h) (dget k u).
Proof. intros V EV valid isTune a0 h H. apply retrainAll_spec; auto. Qed.
Print Assumptions C45_retrain_arguments_used_partial.
Example C45_example :
  tlUsed (retrainAll (fun _ => true) (fun _ => false) (trainTL [("k", 1); ("w", 7)])
            [([("k", 2)], []); ([("x", 1)], [("x", 2)]); ([], [("z", 3)])]) =
  [[("k", 1); ("w", 7)]; [("k", 2); ("w", 7)]; [("k", 2); ("w", 7); ("z", 3)]].
Proof. reflexivity. Qed.
(** Refuted: the reported arguments are those of the last call only, although
    the training used the earlier ones as well. *)
Theorem C45_reported_arguments_refuted :
  exists (a0 : @dict string nat) h,
    let s := retrainAll (fun _ => true) (fun _ => false) (trainTL a0) h in
    dget "k" (last (tlUsed s) []) = Some 1 /\ dget "k" (tlArgs s) = None.
Proof. exists [("k", 1)], [([("w", 2)], [])]. split; reflexivity. Qed.
Print Assumptions C45_reported_arguments_refuted.
(** Refuted: a refused retrain (a Tune value) leaves the values that precede it
    in the argument dict behind, and the next retrain trains with them. *)
Theorem C45_refused_retrain_leaks_refuted :
  exists (a0 : @dict string nat) bad, let r := retrain (fun _ => true) (Nat.eqb 99) (trainTL a0) bad [] in
    snd r = Err InvalidArgumentValue /\
    tlUsed (fst (retrain (fun _ => true) (Nat.eqb 99) (fst r) [] [])) = [[("k", 1)]; [("k", 5)]].
Proof. exists [("k", 1)], [("k", 5); ("w", 99)]. split; reflexivity. Qed.
Print Assumptions C45_refused_retrain_leaks_refuted.

(** C46: with labels in any total order, the columns of allScores are named by
    the sorted distinct training labels, the column named l holds the score the
    learner gave to l, and bestScore reports for a predicted label its score. *)
Theorem C46_score_columns :
  forall (L S : Type) (EL : EqDec L) (leb : L -> L -> bool),
  (forall x y, leb x y = true \/ leb y x = true) ->
  (forall x y z, leb x y = true -> leb y z = true -> leb x z = true) ->
  forall (trainY : list L) (row : list S), let classes := npUnique leb trainY in
  List.length row = List.length classes ->
  NoDup classes /\ (forall l, In l classes <-> In l trainY) /\ StronglySorted (fun x y => leb x y = true) classes /\
  map fst (allScoresNamed leb classes row) = classes /\
  forall i l s, nth_error classes i = Some l -> nth_error row i = Some s ->
    dget l (allScoresNamed leb classes row) = Some s /\ bestScoreOf leb classes row l = Some s.
Proof.
  intros L S EL leb Ht Htr trainY row classes Hlen.
  destruct (npUnique_spec leb Ht Htr trainY) as (H1 & H2 & H3).
  destruct (scores_spec leb Ht Htr trainY row Hlen) as (H4 & H5). auto.
Qed.
Print Assumptions C46_score_columns.
Example C46_example :
  allScoresNamed Nat.leb (npUnique Nat.leb [7; 3; 7; 5]) [10; 20; 30] = [(3, 10); (5, 20); (7, 30)] /\
  bestScoreOf Nat.leb (npUnique Nat.leb [7; 3; 7; 5]) [10; 20; 30] 5 = Some 20.
Proof. split; reflexivity. Qed.
(** That interfaces report a sorted order is essential: on an unsorted order of
    three labels getScores applies the inverse permutation (no interface in the
    package does this today). *)
Example C46_unsorted_order_is_misplaced :
  getScoresRow Nat.leb [2; 3; 1] [20; 30; 10] = [30; 10; 20].
Proof. reflexivity. Qed.

(** One-vs-all: the predicted label is that of the first learner with the
    largest score. *)
Theorem C46_one_vs_all_winner :
  forall (L : Type) (labelSet : list L) (row : list Z), row <> [] -> List.length row = List.length labelSet ->
  exists i l, ovaLabel labelSet row = Ok l /\ nth_error labelSet i = Some l /\ firstMax row i.
Proof. exact @ovaLabel_spec. Qed.
Print Assumptions C46_one_vs_all_winner.
Example C46_winner_example : ovaLabel ["a"; "b"; "c"] [0; 1; 1]%Z = Ok "b".
Proof. reflexivity. Qed.
(** One-vs-all 'allScores': each score goes to the column of its label. *)
Theorem C46_one_vs_all_scores :
  forall (L S : Type) (EL : EqDec L) (zero : S) (headers names : list L) (row : list S),
  NoDup headers -> Permutation names headers -> List.length row = List.length names ->
  exists out, placeScores zero headers names row = Ok out /\ List.length out = List.length headers /\
    forall i j l s, nth_error names i = Some l -> nth_error row i = Some s -> nth_error headers j = Some l ->
      nth_error out j = Some s.
Proof. exact @placeScores_spec. Qed.
Print Assumptions C46_one_vs_all_scores.
Example C46_place_example : placeScores 0 ["1"; "2"; "3"] ["2"; "3"; "1"] [20; 30; 10] = Ok [10; 20; 30].
Proof. reflexivity. Qed.

(** C47: the pairs of a list of distinct labels: every two different labels form
    a pair in exactly one order, once. *)
Theorem C47_all_pairs_once :
  forall (L : Type) (labels : list L), NoDup labels ->
  NoDup (pairsOf labels) /\
  (forall a b, In a labels -> In b labels -> a <> b ->
     (In (a, b) (pairsOf labels) /\ ~ In (b, a) (pairsOf labels)) \/
     (In (b, a) (pairsOf labels) /\ ~ In (a, b) (pairsOf labels))) /\
  (forall a b, In (a, b) (pairsOf labels) -> In a labels /\ In b labels /\ a <> b).
Proof.
  intros L labels Hn. split; [apply pairsOf_NoDup; auto|].
  assert (Hone : forall a b, In (a, b) (pairsOf labels) -> ~ In (b, a) (pairsOf labels)).
  { intros a b H1 H2. apply pairsOf_In in H1 as (i & j & Hij & Hi & Hj).
    apply pairsOf_In in H2 as (i' & j' & Hij' & Hi' & Hj').
    pose proof (NoDup_nth_error_inj _ _ Hn Hi Hj'). pose proof (NoDup_nth_error_inj _ _ Hn Hj Hi'). lia. }
  split.
  - intros a b Ha Hb Hab. apply In_nth_error in Ha as [i Hi]. apply In_nth_error in Hb as [j Hj].
    destruct (Nat.lt_trichotomy i j) as [H|[->|H]]; [left| congruence |right].
    + assert (In (a, b) (pairsOf labels)) by (apply pairsOf_In; eauto). auto.
    + assert (In (b, a) (pairsOf labels)) by (apply pairsOf_In; eauto). auto.
  - intros a b H. apply pairsOf_In in H as (i & j & Hij & Hi & Hj).
    split; [eapply nth_error_In; eauto|]. split; [eapply nth_error_In; eauto|].
    intros ->. pose proof (NoDup_nth_error_inj _ _ Hn Hi Hj). lia.
Qed.
Print Assumptions C47_all_pairs_once.
(** C47: each pair's learner is trained on exactly the points with one of its
    two labels, each point with its own features and label.  Partial: the label
    column is the last one (as it is whenever trainY is given as an object), or
    every feature is named. *)
Theorem C47_ovo_training_partial :
  forall (V : Type) (EV : EqDec V) named c (rows : list (list V)) labels,
  (forall r, In r rows -> c < List.length r /\ (named = false -> S c = List.length r)) -> labels <> [] ->
  exists trs, ovoTrain named c rows labels = Some trs /\ Forall2 (pairTraining c rows) (pairsOf labels) trs.
Proof. exact @ovo_training. Qed.
Print Assumptions C47_ovo_training_partial.
Example C47_ovo_example :
  ovoTrain false 1 [[10; 1]; [20; 2]; [30; 3]; [11; 1]] [1; 2; 3] =
  Some [[([10], 1); ([20], 2); ([11], 1)]; [([30], 3); ([10], 1); ([11], 1)]; [([20], 2); ([30], 3)]].
Proof. reflexivity. Qed.
(** Refuted without the guard: label in column 0 of unnamed data. After the first
    pair the label column has moved, and feature values are taken for labels. *)
Theorem C47_ovo_label_column_first_refuted :
  exists (rows : list (list nat)) trs,
    ovoTrain false 0 rows [1; 2; 3] = Some trs /\
    ~ Forall2 (pairTraining 0 rows) (pairsOf [1; 2; 3]) trs.
Proof.
  exists [[1; 3]; [2; 20]; [3; 30]]. eexists. split; [reflexivity|]. intros H.
  inversion H as [|? ? ? ? _ H2]; subst. inversion H2 as [|? ? ? ? (sel & HP & HF) _]; subst.
  cbn in HF. inversion HF as [|? ? ? ? Hr HF2]; subst. inversion HF2 as [|? ? ? ? Hr2 HF3]; subst.
  inversion HF3; subst. destruct Hr as [Hr _]. destruct Hr2 as [Hr2 _].
  destruct y as [f l], y0 as [f0 l0]. cbn in Hr, Hr2. injection Hr as <-. injection Hr2 as <-.
  symmetry in HP. apply Permutation_in with (x := (f, 1)) in HP; [|left; reflexivity].
  cbn in HP. intuition congruence.
Qed.
Print Assumptions C47_ovo_label_column_first_refuted.
(** C47: the looked-up score of (pos, neg) is that of their pair, negated when
    the pair is stored the other way round. *)
Theorem C47_pair_score_lookup :
  forall (data : list Z) n pos neg, List.length data = List.length (pairsOf (seq 0 n)) ->
  pos < n -> neg < n ->
  (pos = neg /\ valueFromOneVOneData data pos neg n = Ok None) \/
  exists i v, nth_error data i = Some v /\
    (pos < neg /\ nth_error (pairsOf (seq 0 n)) i = Some (pos, neg) /\ valueFromOneVOneData data pos neg n = Ok (Some v) \/
     neg < pos /\ nth_error (pairsOf (seq 0 n)) i = Some (neg, pos) /\ valueFromOneVOneData data pos neg n = Ok (Some (- v)%Z)).
Proof. exact valueFrom_spec. Qed.
Print Assumptions C47_pair_score_lookup.
Example C47_lookup_example : valueFromOneVOneData [1; 2; 3; 4; 5; 6]%Z 3 1 4 = Ok (Some (-5))%Z.
Proof. reflexivity. Qed.
(** C47: the prediction is a label with the most votes. *)
Theorem C47_winning_label :
  forall (L : Type) (EL : EqDec L) (preds : list L), preds <> [] ->
  exists l, winningLabel preds = Ok l /\ In l preds /\
    forall x, count_occ eq_dec preds x <= count_occ eq_dec preds l.
Proof. exact @winningLabel_spec. Qed.
Print Assumptions C47_winning_label.
Example C47_winning_example : winningLabel [1; 3; 3] = Ok 3 /\ winningLabel [2; 1; 3] = Ok 2.
Proof. split; reflexivity. Qed.

(** C48: for k >= 1 and a nonempty training set, KNN predicts the most frequent
    label among the k nearest training points; among equally frequent labels,
    the one of the nearest point. *)
Theorem C48_knn_prediction :
  forall (L : Type) (EL : EqDec L) (k : Z) trainX (trainY : list L) x, (1 <= k)%Z -> trainX <> [] ->
  List.length trainY = List.length trainX -> (forall r, In r trainX -> List.length r = List.length x) ->
  exists near l, kNearest (Z.to_nat k) (map (sqdist x) trainX) near /\
    knnPredict k trainX trainY x = Ok l /\ modalFirst (selected near trainY) l.
Proof. exact @knn_spec. Qed.
Print Assumptions C48_knn_prediction.
(** the scores are the vote counts of the same k nearest points *)
Theorem C48_knn_scores :
  forall (L : Type) (EL : EqDec L) (k : Z) labelVals trainX (trainY : list L) x, (1 <= k)%Z ->
  List.length trainY = List.length trainX -> (forall r, In r trainX -> List.length r = List.length x) ->
  exists near, kNearest (Z.to_nat k) (map (sqdist x) trainX) near /\
    knnScores k labelVals trainX trainY x = Ok (map (count_occ eq_dec (selected near trainY)) labelVals).
Proof. exact @knnScores_spec. Qed.
Print Assumptions C48_knn_scores.
Example C48_example :
  knnPredict 3 [[0; 0]; [5; 5]; [1; 0]; [2; 0]]%Z ["a"; "b"; "b"; "b"] [0; 0]%Z = Ok "b" /\
  knnPredict 2 [[0; 1]; [5; 5]; [1; 0]; [2; 0]]%Z ["a"; "b"; "c"; "b"] [0; 0]%Z = Ok "a" /\
  knnPredict 0 [[0; 1]]%Z ["a"] [0; 0]%Z = Err IndexErr /\
  knnScores 3 ["a"; "b"] [[0; 0]; [5; 5]; [1; 0]; [2; 0]]%Z ["a"; "b"; "b"; "b"] [0; 0]%Z = Ok [1; 2].
Proof. repeat split; reflexivity. Qed.

(** C52: in any sequence of user calls, whatever each call does internally and
    whether or not it raises, every user call validates its own arguments (the
    first thing it does), and the flag is clear again at the end; a call whose
    nested calls form a chain validates nothing else.  Partial: the last clause
    is restricted to chains (see below). *)
Theorem C52_outermost_validates_partial :
  forall cs : list call, snd (runSession cs) = None /\
  List.length (fst (runSession cs)) = List.length cs /\
  forall i c, nth_error cs i = Some c -> exists vs, nth_error (fst (runSession cs)) i = Some (callName c :: vs) /\
    (chain c -> vs = []).
Proof. exact runSession_spec. Qed.
Print Assumptions C52_outermost_validates_partial.
Example C52_example :
  runSession [Call 1 [Call 2 [Call 3 [] false] false] false; Call 4 [Call 5 [] true] false] = ([[1]; [4]], None).
Proof. reflexivity. Qed.
(** Refuted: the second of two nested calls takes itself for a user call. *)
Theorem C52_second_nested_call_refuted :
  exists c, runCall None c = (None, false, [1; 3]) /\ callName c = 1.
Proof. exists (Call 1 [Call 2 [] false; Call 3 [] false] false). split; reflexivity. Qed.
Print Assumptions C52_second_nested_call_refuted.
