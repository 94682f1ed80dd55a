(** Properties C40-C43: nimble.calculate. *)
From Verif Require Import Base TableModel TableSpec TableSortProofs LearnModel LearnMultiProofs CalcModel CalcStatModel CalcSpec
  CalcProofs CalcNormProofs CalcPercProofs CalcInterpProofs CalcStatProofs CalcModeProofs.
From Coq Require Import QArith Qabs Lqa.
Open Scope string_scope.
Open Scope list_scope.
Open Scope nat_scope.

(** C40: the two fractions are the shares of wrong and right predictions. *)
Theorem C40_fractions :
  forall (L : Type) (EL : EqDec L) (known pred : list L),
  pred <> [] -> List.length known = List.length pred ->
  exists wrong right, fractionIncorrect known pred = Ok wrong /\ fractionCorrect known pred = Ok right /\
    (wrong == qnat (numWrong known pred) / qnat (List.length pred))%Q /\
    (right == qnat (numCorrect known pred) / qnat (List.length pred))%Q /\
    (wrong + right == 1)%Q /\ (0 <= wrong <= 1)%Q /\ (0 <= right <= 1)%Q /\
    numWrong known pred + numCorrect known pred = List.length pred.
Proof.
  intros L EL known pred Hne Hl. destruct (fraction_spec known pred Hne Hl) as (q & H1 & H2 & H3 & H4 & H5).
  pose proof (correct_wrong known pred Hl). exists q, (1 - q)%Q. repeat (split; auto); try lra; lia.
Qed.
Print Assumptions C40_fractions.
Theorem C40_error_metrics :
  forall (known pred : list Q), pred <> [] -> List.length known = List.length pred ->
  exists mse mae, meanSquareError known pred = Ok mse /\ meanAbsoluteError known pred = Ok mae /\
    (mse == sqs (combine known pred) / qnat (List.length pred))%Q /\
    (mae == abss (combine known pred) / qnat (List.length pred))%Q /\
    (0 <= mse)%Q /\ (0 <= mae)%Q /\ (mae * mae <= mse)%Q /\
    ((mse == 0)%Q <-> forall i k p, nth_error known i = Some k -> nth_error pred i = Some p -> (k == p)%Q) /\
    ((mae == 0)%Q <-> forall i k p, nth_error known i = Some k -> nth_error pred i = Some p -> (k == p)%Q).
Proof.
  intros known pred Hne Hl. destruct (errors_spec known pred Hne Hl) as (a & b & H).
  exists a, b. tauto.
Qed.
Print Assumptions C40_error_metrics.
(** every performance function refuses empty inputs and unequal lengths *)
Theorem C40_validation :
  forall (A B : Type) (f : list A -> list A -> result B) known pred,
  List.length known <> List.length pred \/ pred = [] -> exists e, performanceFunction f known pred = Err e.
Proof. intros A B f known pred H. exact (perf_bad f known pred H). Qed.
Print Assumptions C40_validation.
Theorem C40_confusion_matrix_labels_given :
  forall (L : Type) (EL : EqDec L) (leb : L -> L -> bool) (labels known pred : list L),
  NoDup labels -> List.length known = List.length pred ->
  ((forall x, In x known \/ In x pred -> In x labels) ->
   exists m axis, confusionDictLabels leb labels known pred = Ok (m, axis) /\ Permutation axis labels /\
     isConfusion axis known pred m /\ total m = List.length pred /\ trace m = numCorrect known pred) /\
  ((exists q, In q (combine known pred) /\ ~ (In (fst q) labels /\ In (snd q) labels)) ->
   exists e, confusionDictLabels leb labels known pred = Err e).
Proof.
  intros L EL leb labels known pred Hn Hl. split.
  - intros Hin. destruct (confusionDict_spec leb labels known pred Hn Hin) as (m & Hm & Hc).
    pose proof (stableSort_perm leb labels) as HP. exists m, (stableSort leb labels).
    destruct (confusion_sums (stableSort leb labels) known pred m) as [S1 S2]; [ | | | |repeat (split; auto)]; auto.
    + eapply Permutation_NoDup; [apply Permutation_sym, HP|auto].
    + intros x Hx; (eapply Permutation_in; [apply Permutation_sym, HP|auto]).
  - intros (q & Hq & Hno). eapply confusionDict_reject; eauto.
Qed.
Print Assumptions C40_confusion_matrix_labels_given.
Example C40_confusion_example :
  confusionDictLabels Nat.leb [2; 0; 1] [0; 1; 1; 2] [0; 2; 1; 2] = Ok ([[1; 0; 0]; [0; 1; 0]; [0; 1; 1]], [0; 1; 2]).
Proof. reflexivity. Qed.
(** without labels only predictions that occur among the known labels are
    accepted *)
Theorem C40_confusion_matrix_no_labels_partial :
  forall (L : Type) (EL : EqDec L) (leb : L -> L -> bool) (known pred : list L),
  (forall x y, leb x y = true \/ leb y x = true) -> (forall x y z, leb x y = true -> leb y z = true -> leb x z = true) ->
  List.length known = List.length pred -> (forall x, In x pred -> In x known) ->
  exists m axis, confusionNoLabels leb known pred = Ok (m, axis) /\ NoDup axis /\ (forall x, In x axis <-> In x known) /\
    isConfusion axis known pred m /\ total m = List.length pred /\ trace m = numCorrect known pred.
Proof.
  intros L EL leb known pred Ht Htr Hl Hin. destruct (confusionNoLabels_spec leb known pred Ht Htr Hl Hin) as (m & Hm & Hc).
  destruct (npUnique_spec leb Ht Htr known) as (N1 & N2 & _). exists m, (npUnique leb known).
  destruct (confusion_sums (npUnique leb known) known pred m) as [S1 S2]; auto; [intros x [Hx|Hx]; apply N2; auto|].
  split; auto.
Qed.
Print Assumptions C40_confusion_matrix_no_labels_partial.
Theorem C40_confusion_unseen_label_refuted :
  forall (L : Type) (EL : EqDec L) (leb : L -> L -> bool) (known pred : list L),
  (forall x y, leb x y = true \/ leb y x = true) -> (forall x y z, leb x y = true -> leb y z = true -> leb x z = true) ->
  List.length known = List.length pred -> (exists x, In x pred /\ ~ In x known) ->
  exists e, confusionNoLabels leb known pred = Err e.
Proof. intros L EL leb known pred Ht Htr Hl Hin. exact (confusionNoLabels_reject leb known pred Ht Htr Hl Hin). Qed.
Print Assumptions C40_confusion_unseen_label_refuted.
Theorem C40_confusion_matrix_integer_labels :
  forall n known pred, List.length known = List.length pred ->
  ((forall x, In x known \/ In x pred -> In x (indices n)) ->
   exists m, confusionListLabels n known pred = Ok m /\ isConfusion (indices n) known pred m /\
     total m = List.length pred /\ trace m = numCorrect known pred) /\
  ((exists q, In q (combine known pred) /\ ~ (In (fst q) (indices n) /\ In (snd q) (indices n))) ->
   confusionListLabels n known pred = Err IndexErr).
Proof.
  intros n known pred Hl. split.
  - intros Hin. destruct (confusionList_spec n known pred Hin) as (m & Hm & Hc). exists m.
    destruct (confusion_sums (indices n) known pred m) as [S1 S2]; auto using indices_NoDup.
  - intros H. apply countLoop_index_err; auto.
Qed.
Print Assumptions C40_confusion_matrix_integer_labels.
Theorem C40_binary_counts :
  forall known pred, pred <> [] -> List.length known = List.length pred ->
  ((forall x, In x known \/ In x pred -> x = 0%Z \/ x = 1%Z) ->
   truePositive known pred = Ok (countBoth known pred 1 1) /\ trueNegative known pred = Ok (countBoth known pred 0 0) /\
   falsePositive known pred = Ok (countBoth known pred 0 1) /\ falseNegative known pred = Ok (countBoth known pred 1 0) /\
   countBoth known pred 1 1 + countBoth known pred 0 0 + countBoth known pred 0 1 + countBoth known pred 1 0 = List.length pred) /\
  ((exists x, (In x known \/ In x pred) /\ x <> 0%Z /\ x <> 1%Z) ->
   truePositive known pred = Err InvalidArgumentValue /\ trueNegative known pred = Err InvalidArgumentValue /\
   falsePositive known pred = Err InvalidArgumentValue /\ falseNegative known pred = Err InvalidArgumentValue).
Proof. intros known pred Hne Hl. split; [apply binary_spec; auto|apply binary_reject; auto]. Qed.
Print Assumptions C40_binary_counts.
(** recall, precision and specificity are the usual ratios of those counts *)
Theorem C40_binary_ratios :
  forall known pred m, List.length known = List.length pred ->
  (forall x, In x known \/ In x pred -> x = 0%Z \/ x = 1%Z) -> binaryMatrix known pred = Ok m ->
  recallOf m = qdiv (countBoth known pred 1 1) (countBoth known pred 1 0 + countBoth known pred 1 1) /\
  precisionOf m = qdiv (countBoth known pred 1 1) (countBoth known pred 0 1 + countBoth known pred 1 1) /\
  specificityOf m = qdiv (countBoth known pred 0 0) (countBoth known pred 0 0 + countBoth known pred 0 1) /\
  (forall q, recallOf m = Ok q \/ precisionOf m = Ok q \/ specificityOf m = Ok q -> (0 <= q <= 1)%Q).
Proof.
  intros known pred m Hl Hb Hm. unfold binaryMatrix in Hm.
  assert (Hin : forall x, In x known \/ In x pred -> In x (indices 2)).
  { intros x Hx. apply indices_In. destruct (Hb x Hx); lia. }
  destruct (confusionList_spec 2 known pred Hin) as (m' & Hm' & _ & _ & H3). rewrite Hm' in Hm. injection Hm as <-.
  pose proof (H3 1 1 1%Z 1%Z eq_refl eq_refl) as E11. pose proof (H3 0 0 0%Z 0%Z eq_refl eq_refl) as E00.
  pose proof (H3 1 0 1%Z 0%Z eq_refl eq_refl) as E10. pose proof (H3 0 1 0%Z 1%Z eq_refl eq_refl) as E01.
  unfold recallOf, precisionOf, specificityOf, getCell. rewrite E11, E00, E10, E01.
  fold (countBoth known pred 1 1) (countBoth known pred 0 0) (countBoth known pred 0 1) (countBoth known pred 1 0).
  repeat (split; auto). all: destruct H as [H|[H|H]]; try (apply qdiv_range in H; apply H); rewrite Nat.add_comm in H; apply qdiv_range in H; apply H.
Qed.
Print Assumptions C40_binary_ratios.
Example C40_binary_example :
  let known := [1; 0; 1; 1; 0]%Z in let pred := [1; 1; 0; 1; 0]%Z in
  truePositive known pred = Ok 2 /\ falsePositive known pred = Ok 1 /\
  falseNegative known pred = Ok 1 /\ trueNegative known pred = Ok 1.
Proof. repeat split; reflexivity. Qed.

(** C41 *)
Theorem C41_range_normalize :
  forall v1 v2 start fin, v1 <> [] -> (start <= fin)%Q ->
  exists mn mx f, In mn v1 /\ In mx v1 /\ (forall x, In x v1 -> (mn <= x <= mx)%Q) /\
    rangeNormalize v1 v2 start fin = Some (map f v1, map f v2) /\
    (f mn == start)%Q /\ ((mn < mx)%Q -> (f mx == fin)%Q) /\
    (forall x, In x v1 -> (start <= f x <= fin)%Q) /\
    (forall x y, (x <= y)%Q -> (f x <= f y)%Q).
Proof. exact rangeNormalize_spec. Qed.
Print Assumptions C41_range_normalize.
(** for any order argsort may return.  Partial: at most one missing value and
    at least two present ones *)
Theorem C41_percentile_partial :
  forall arr order, isArgsort arr order -> numMissing arr <= 1 -> 2 <= numPresent arr ->
  exists P, percentiles arr order = Some P /\ List.length P = List.length arr /\
   (forall i, nth_error arr i = Some None -> nth_error P i = Some None) /\
   (forall i x, nth_error arr i = Some (Some x) -> exists q, nth_error P i = Some (Some q) /\ (q == percentileOf arr x)%Q).
Proof. exact percentiles_spec. Qed.
Print Assumptions C41_percentile_partial.
(** what the documented formula gives *)
Theorem C41_percentile_formula :
  forall arr, 2 <= numPresent arr ->
  (forall x, In (Some x) arr -> (0 <= percentileOf arr x <= 1)%Q) /\
  (forall x y, In (Some x) arr -> In (Some y) arr -> ((x < y)%Q <-> (percentileOf arr x < percentileOf arr y)%Q)) /\
  (forall x, In (Some x) arr -> (forall y, In (Some y) arr -> (x <= y)%Q) -> numEq x arr = 1 -> (percentileOf arr x == 0)%Q) /\
  (forall x, In (Some x) arr -> (forall y, In (Some y) arr -> (y <= x)%Q) -> numEq x arr = 1 -> (percentileOf arr x == 1)%Q).
Proof.
  intros arr Hp. split; [intros; apply percentile_range; auto|]. split; [|split].
  - intros x y Hx Hy. split; [intros; apply percentile_lt; auto|]. intros H. apply Qnot_le_lt. intros C.
    pose proof (percentile_le arr y x Hy Hx Hp C). lra.
  - intros; apply percentile_min; auto.
  - intros; apply percentile_max; auto.
Qed.
Print Assumptions C41_percentile_formula.
(** the second vector: linear interpolation between neighbouring values,
    monotone, 0 below and 1 above, and the same percentile for a value strictly
    inside the range of the first vector *)
Theorem C41_percentile_second_vector :
  forall vals order, isArgsort (map Some vals) order -> 2 <= List.length vals ->
  exists mn mx f, In mn vals /\ In mx vals /\ (forall x, In x vals -> (mn <= x <= mx)%Q) /\
   (forall v, percentile2 vals order v = Some (f v)) /\
   (forall v, (0 <= f v <= 1)%Q) /\ (forall v w, (v <= w)%Q -> (f v <= f w)%Q) /\
   (forall v, (v < mn)%Q -> f v = 0%Q) /\ (forall v, (mx < v)%Q -> f v = 1%Q) /\
   (forall v, In v vals -> (mn < v < mx)%Q -> (f v == percentileOf (map Some vals) v)%Q) /\
   (forall v a b, In a vals -> In b vals -> (a < v < b)%Q -> (forall x, In x vals -> (x <= a)%Q \/ (b <= x)%Q) ->
     (f v == percentileOf (map Some vals) a +
             (percentileOf (map Some vals) b - percentileOf (map Some vals) a) * ((v - a) / (b - a)))%Q).
Proof. exact percentile2_spec. Qed.
Print Assumptions C41_percentile_second_vector.
(** the docstring's example *)
Example C41_percentile_example :
  isArgsort [Some 1; Some 2; Some 4; Some 4; Some 5]%Q [0; 1; 3; 2; 4] /\
  option_map (map (option_map Qred)) (percentiles [Some 1; Some 2; Some 4; Some 4; Some 5]%Q [0; 1; 3; 2; 4])
    = Some [Some 0; Some (1 # 4); Some (5 # 8); Some (5 # 8); Some 1]%Q /\
  option_map Qred (percentile2 [1; 2; 4; 4; 5]%Q [0; 1; 3; 2; 4] 3%Q) = Some (7 # 16)%Q.
Proof.
  split; [|split; reflexivity]. split.
  - simpl. apply perm_skip, perm_skip, perm_swap.
  - intros a b i j x y Hab Ha Hb Hx Hy.
    do 5 (destruct a as [|a]; [simpl in Ha; injection Ha as <-; simpl in Hx; injection Hx as <-;
      do 5 (destruct b as [|b]; [try lia; simpl in Hb; injection Hb as <-; simpl in Hy; injection Hy as <-; simpl; lra|]); destruct b; discriminate|]).
    destruct a; discriminate.
Qed.
(** with two missing values the largest value does not get percentile 1 *)
Theorem C41_two_missing_refuted :
  isArgsort [Some 1; Some 2; Some 3; None; None]%Q [0; 1; 2; 3; 4] /\
  option_map (map (option_map Qred)) (percentiles [Some 1; Some 2; Some 3; None; None]%Q [0; 1; 2; 3; 4])
    = Some [Some 0; Some (1 # 3); Some (2 # 3); None; None]%Q /\
  (percentileOf [Some 1; Some 2; Some 3; None; None] 3 == 1)%Q.
Proof.
  split; [|split; reflexivity]. split; [apply Permutation_refl|].
  intros a b i j x y Hab Ha Hb Hx Hy.
  do 5 (destruct a as [|a]; [simpl in Ha; injection Ha as <-; simpl in Hx; injection Hx as <-;
    do 5 (destruct b as [|b]; [try lia; simpl in Hb; injection Hb as <-; simpl in Hy; injection Hy as <-; simpl; auto; lra|]); destruct b; discriminate|]).
  destruct a; discriminate.
Qed.
Print Assumptions C41_two_missing_refuted.
(** a tied minimum has a positive percentile in the first vector and 0 in the
    second *)
Theorem C41_tied_minimum_refuted :
  (percentileOf (map Some [1; 1; 2]%Q) 1 == 1 # 4)%Q /\ percentile2 [1; 1; 2]%Q [0; 1; 2] 1%Q = Some 0%Q.
Proof. split; reflexivity. Qed.
Print Assumptions C41_tied_minimum_refuted.
(** a single value (or one value and one missing) divides by zero *)
Theorem C41_single_value_refuted :
  forall x order, percentiles [Some x] order = None /\ percentiles [Some x; None] order = None.
Proof. intros x order. split; reflexivity. Qed.
Print Assumptions C41_single_value_refuted.

(** C42: [denseOf s l]: the Sparse vector [s] stores exactly the nonzero (and
    missing) values of [l], in any order *)
Theorem C42_mean : forall s l, denseOf s l -> optQeq (meanSparse s) (meanDense l).
Proof. exact mean_sparse. Qed.
Print Assumptions C42_mean.
Theorem C42_variance : forall ddof s l, denseOf s l -> optQeq (varianceSparse ddof s) (varianceDense ddof l).
Proof. exact variance_sparse. Qed.
Print Assumptions C42_variance.
Theorem C42_proportion_zero : forall s l, denseOf s l -> numZeroSparse s = Z.of_nat (numZeroDense l).
Proof. intros s l H. symmetry. exact (zero_sparse s l H). Qed.
Print Assumptions C42_proportion_zero.
Theorem C42_minimum_maximum : forall s l, denseOf s l ->
  optQeq (minSparse s) (minDense l) /\ optQeq (maxSparse s) (maxDense l).
Proof. exact minmax_sparse. Qed.
Print Assumptions C42_minimum_maximum.
Theorem C42_minimum_maximum_meaning : forall l, nonMissing l <> [] ->
  exists mn mx, minDense l = Some mn /\ maxDense l = Some mx /\
  In (Some mn) l /\ In (Some mx) l /\ forall x, In (Some x) l -> (mn <= x <= mx)%Q.
Proof. exact minmax_spec. Qed.
Print Assumptions C42_minimum_maximum_meaning.
Theorem C42_mode :
  forall (V : Type) (EV : EqDec V) (zero : V) (leb : V -> V -> bool),
  (forall x y, leb x y = true \/ leb y x = true) -> (forall x y z, leb x y = true -> leb y z = true -> leb x z = true) ->
  (forall x y, leb x y = true -> leb y x = true -> x = y) ->
  forall len stored l, denseOfV zero len stored l -> present l <> [] ->
  exists v, modeDense leb l = Ok v /\ modeSparse zero leb len stored = Ok v /\ isMode leb (present l) v.
Proof.
  intros V EV zero leb Ht Htr Ha len stored l Hd Hne.
  destruct (mode_dense leb Ht Htr l Hne) as (v & Hv & Mv). destruct (mode_sparse zero leb Ht Htr len stored l Hd Hne) as (w & Hw & Mw).
  exists v. split; auto. split; auto. rewrite Hw. f_equal. eapply isMode_unique; eauto.
Qed.
Print Assumptions C42_mode.
Theorem C42_unique_count :
  forall (V : Type) (EV : EqDec V) (zero : V) len stored (l : list (option V)), denseOfV zero len stored l ->
  uniqueCountSparse zero len stored = uniqueCountDense l.
Proof. intros V EV zero len stored l H. exact (unique_sparse zero len stored l H). Qed.
Print Assumptions C42_unique_count.
Example C42_example :
  denseOf (mkSp 5 [Some 3; None; Some 1]%Q) [Some 1; Some 0; Some 3; Some 0; None]%Q /\
  option_map Qred (meanSparse (mkSp 5 [Some 3; None; Some 1]%Q)) = Some 1%Q /\
  option_map Qred (varianceSparse 1 (mkSp 5 [Some 3; None; Some 1]%Q)) = Some 2%Q /\
  denseOfV 0 6 [Some 7; None; Some 2; Some 7] [Some 0; Some 7; Some 2; Some 0; Some 7; None] /\
  modeDense Nat.leb [Some 0; Some 7; Some 2; Some 0; Some 7; None] = Ok 0 /\
  modeSparse 0 Nat.leb 6 [Some 7; None; Some 2; Some 7] = Ok 0.
Proof.
  split; [split; [reflexivity|]|]. { simpl. apply (Permutation_trans (perm_skip _ (perm_swap _ _ _)) (perm_swap _ _ _)). }
  repeat (split; [reflexivity|]).
  split; [split; [reflexivity|]|split; reflexivity].
  simpl. apply perm_skip. eapply Permutation_trans; [apply perm_swap|]. apply perm_skip, perm_swap.
Qed.

(** C43: the direction reported for one trial *)
Theorem C43_direction :
  forall s l, let scores := s :: l in let first := s in let final := last scores 0%Q in
  (runTrial scores = TBest BMax <-> nonincreasing scores /\ (final < first)%Q) /\
  (runTrial scores = TBest BMin <-> nondecreasing scores /\ (first < final)%Q) /\
  (runTrial scores = TNoDifference <-> (first == final)%Q).
Proof. exact runTrial_spec. Qed.
Print Assumptions C43_direction.
Example C43_example :
  runTrial [1; 3 # 4; 1 # 2; 1 # 2; 0]%Q = TBest BMax /\ runTrial [0; 1 # 3; 1]%Q = TBest BMin /\ runTrial [0; 2; 1]%Q = TNonMonotonic.
Proof. repeat split; reflexivity. Qed.
