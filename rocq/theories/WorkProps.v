(** C78: the learning functions on the caller's objects. Definitions used in the
    statements: WorkSpec.v (RawSpec.NamesFit, NamesSpec.Denotes). [fit], [pred],
    [scored], [order] stand for the learner, [perf] for the performance function. *)
From Verif Require Import Base NamesModel NamesSpec TableModel TableSpec MatchModel RawSpec WorkModel WorkSpec WorkProofs WorkMain WorkRest StretchProps.
From Coq Require Import List Lia Ascii String Arith. Import ListNotations.
Open Scope string_scope.
Open Scope list_scope.
Open Scope nat_scope.

(** *** train: the learner is fitted on the data and the labels, whether the labels
    are an object of their own or a feature of the data (then removed from it); or
    the call was a bad one, there is no such feature, or the learner failed. The
    caller's objects are unchanged in all cases. *)
Theorem C78_train :
  forall M fit multi s x y d strat, WfStore s -> Present s x -> Present s y -> Plain strat ->
  exists s' res, train M fit multi true x y d strat s = (s', res) /\ Unchanged s s' /\ WfStore s' /\
    match res with
    | Ok t => (forall e, ~ BadCall s x y DNone DNone d strat None e) /\ exists xs ys, DataAndLabels s x y xs ys /\ TrainedOn M fit xs ys t
    | Err e => BadCall s x y DNone DNone d strat None e \/ NoFeature s x y e \/ exists xs ys, DataAndLabels s x y xs ys /\ fit xs ys = Err e
    end.
Proof. exact train_spec. Qed.
Print Assumptions C78_train.
(** *** apply: the answer is a new object, what the learner gives for exactly the
    object asked about, with the names of its points and of the labels; or the
    object does not have the shape, or the names cannot be given *)
Theorem C78_apply :
  forall M fit pred scored order predicts, GoodLearner M pred scored ->
  forall s x t d mode xs ys, WfStore s -> Present s x -> TrainedOn M fit xs ys t -> (forall y, ys = Some y -> wf y) ->
  exists s' res, apply M pred scored order predicts true t x d mode s = (s', res) /\ Unchanged s s' /\ WfStore s' /\
    match res with
    | Ok p => (forall e, ~ BadTesting s x DNone d (tl2d t) mode e) /\ p = List.length s /\
        exists r o o', x = DRef r /\ nth_error s r = Some o /\ s' = s ++ [o'] /\ Predicted M fit pred scored order predicts mode xs ys (dT o) o'
    | Err e => s' = s /\ (BadTesting s x DNone d (tl2d t) mode e \/ (x = DNone /\ e = AttributeErr) \/
        exists r o, x = DRef r /\ nth_error s r = Some o /\ NoPrediction M fit pred scored order predicts mode xs ys (dT o) e)
    end.
Proof. intros M fit pred scored order predicts. exact (apply_spec M fit pred scored order predicts (fun _ _ _ => lift (Err ValueErr))). Qed.
Print Assumptions C78_apply.
(** *** test: the labels (an object, or the feature named, or without either the data
    itself) are compared with the answer for the data without them *)
Theorem C78_test :
  forall M fit pred scored order predicts R perf perfMode, GoodLearner M pred scored ->
  forall s x y t d xs ys, WfStore s -> Present s x -> Present s y -> TrainedOn M fit xs ys t -> (forall y, ys = Some y -> wf y) ->
  exists s' res, test M pred scored order predicts R perf perfMode true t x y d s = (s', res) /\ Unchanged s s' /\ WfStore s' /\
    match res with
    | Ok p => (forall e, ~ BadTesting s x y d (tl2d t) None e) /\ exists u lab, DataAndLabels s x y u lab /\
        Performance M fit pred scored order predicts R perf perfMode xs ys u (labelsOr u lab) p
    | Err e => BadTesting s x y d (tl2d t) None e \/ (x = DNone /\ e = AttributeErr) \/ NoFeature s x y e \/
        exists u lab, DataAndLabels s x y u lab /\ NoPerformance M fit pred scored order predicts R perf perfMode xs ys u (labelsOr u lab) e
    end.
Proof. intros M fit pred scored order predicts R perf perfMode. exact (test_spec M fit pred scored order predicts R perf perfMode (fun _ _ _ => lift (Err ValueErr))). Qed.
Print Assumptions C78_test.
(** *** trainAndApply: the answer is the one for [testX], or without it for the
    training data without its labels *)
Theorem C78_train_and_apply :
  forall M fit pred scored order predicts multi, GoodLearner M pred scored ->
  forall s x y tx d strat mode, WfStore s -> Present s x -> Present s y -> Present s tx -> Plain strat ->
  exists s' res, trainAndApply M fit pred scored order predicts multi x y tx d strat mode s = (s', res) /\ Unchanged s s' /\ WfStore s' /\
    match res with
    | Ok p => (forall e, ~ BadCall s x y tx DNone d strat mode e) /\ List.length s <= p /\
        exists xs ys t o, DataAndLabels s x y xs ys /\
          ((tx = DNone /\ t = xs) \/ exists r o, tx = DRef r /\ nth_error s r = Some o /\ t = dT o) /\
          nth_error s' p = Some o /\ Predicted M fit pred scored order predicts mode xs ys t o
    | Err e => BadCall s x y tx DNone d strat mode e \/ NoFeature s x y e \/
        exists xs ys t, DataAndLabels s x y xs ys /\
          ((tx = DNone /\ t = xs) \/ exists r o, tx = DRef r /\ nth_error s r = Some o /\ t = dT o) /\
          NoPrediction M fit pred scored order predicts mode xs ys t e
    end.
Proof. exact trainAndApply_spec. Qed.
Print Assumptions C78_train_and_apply.
(** *** trainAndTest: the learner is trained on [trainX] and [trainY], and tested on
    [testX] and [testY], each taken from the training data if it is left out *)
Theorem C78_train_and_test :
  forall M fit pred scored order predicts R perf perfMode multi, GoodLearner M pred scored ->
  forall s x y tx ty d strat, WfStore s -> Present s x -> Present s y -> Present s tx -> Present s ty -> Plain strat ->
  exists s' res, trainAndTest M fit pred scored order predicts R perf perfMode multi x y tx ty d strat s = (s', res) /\ Unchanged s s' /\ WfStore s' /\
    match res with
    | Ok p => (forall e, ~ BadCall s x y tx ty d strat None e) /\
        exists xs ys t lab, DataAndLabels s x y xs ys /\ DataAndLabels s (orElse tx x) (orElse ty y) t lab /\
          Performance M fit pred scored order predicts R perf perfMode xs ys t (labelsOr t lab) p
    | Err e => BadCall s x y tx ty d strat None e \/ NoFeature s x y e \/ (exists xs ys, DataAndLabels s x y xs ys /\ fit xs ys = Err e) \/
        BadTest s (orElse tx x) (orElse ty y) e \/ NoFeature s (orElse tx x) (orElse ty y) e \/
        exists xs ys t lab, DataAndLabels s x y xs ys /\ DataAndLabels s (orElse tx x) (orElse ty y) t lab /\
          NoPerformance M fit pred scored order predicts R perf perfMode xs ys t (labelsOr t lab) e
    end.
Proof. exact trainAndTest_spec. Qed.
Print Assumptions C78_train_and_test.
(** *** trainAndTestOnTrainingData: the same data and the same labels twice *)
Theorem C78_training_data :
  forall M fit pred scored order predicts R perf perfMode multi, GoodLearner M pred scored ->
  forall s x y d strat, WfStore s -> Present s x -> Present s y -> Plain strat ->
  exists s' res, trainAndTestOnTrainingData M fit pred scored order predicts R perf perfMode multi x y d strat s = (s', res) /\ Unchanged s s' /\ WfStore s' /\
    match res with
    | Ok p => (forall e, ~ BadCall s x y DNone DNone d strat None e) /\ exists xs ys, DataAndLabels s x y xs ys /\
        Performance M fit pred scored order predicts R perf perfMode xs ys xs (labelsOr xs ys) p
    | Err e => BadCall s x y DNone DNone d strat None e \/ NoFeature s x y e \/ exists xs ys, DataAndLabels s x y xs ys /\
        NoPerformance M fit pred scored order predicts R perf perfMode xs ys xs (labelsOr xs ys) e
    end.
Proof. exact trainingData_spec. Qed.
Print Assumptions C78_training_data.
(** *** normalizeData: for each of the two objects a new one, of its kind, with the
    names of its points, and of its features if there are as many. Missing for the
    full statement, and false: labels named by an identifier (see the refutation). *)
Theorem C78_normalize_partial :
  forall M fit pred scored order predicts multi, GoodLearner M pred scored ->
  forall s x y tx, WfStore s -> Present s x -> Present s y -> Present s tx ->
  exists s' res, normalizeData M fit pred scored order predicts multi x y tx s = (s', res) /\ Unchanged s s' /\ WfStore s' /\
    match res with
    | Ok (a, b) => (forall e, ~ BadCall s x y tx DNone true None None e) /\ exists xs ys, DataAndLabels s x y xs ys /\
        (exists r o ra, x = DRef r /\ nth_error s r = Some o /\ nth_error s' a = Some ra /\ List.length s <= a /\ Normalized M fit pred scored order predicts xs ys o ra) /\
        match b with
        | None => tx = DNone
        | Some b => exists r o rb, tx = DRef r /\ nth_error s r = Some o /\ nth_error s' b = Some rb /\ List.length s <= b /\ b <> a /\ Normalized M fit pred scored order predicts xs ys o rb
        end
    | Err e => BadCall s x y tx DNone true None None e \/ NoFeature s x y e \/
        exists xs ys r o, DataAndLabels s x y xs ys /\ (DRef r = x \/ DRef r = tx) /\ nth_error s r = Some o /\ NoPrediction M fit pred scored order predicts None xs ys (dT o) e
    end.
Proof. exact normalizeData_spec. Qed.
Print Assumptions C78_normalize_partial.
(** *** retrain: the learner is fitted on the new data and labels and takes objects of
    their shape. Missing for the full statement, and false: the names of the new
    labels (see the refutation). *)
Theorem C78_retrain_partial :
  forall M fit s t x y d, WfStore s -> Present s x -> Present s y ->
  exists s' res, retrain M fit t x y d s = (s', res) /\ Unchanged s s' /\ WfStore s' /\
    match res with
    | Ok t' => (forall e, ~ BadCall s x y DNone DNone d None None e) /\ exists xs ys, DataAndLabels s x y xs ys /\
        fit xs ys = Ok (tlM t') /\ tlShape t' = (alen (tp xs), alen (tf xs)) /\ tlY t' = tlY t /\ (tl2d t' = true <-> Wide s x y)
    | Err e => BadCall s x y DNone DNone d None None e \/ NoFeature s x y e \/ exists xs ys, DataAndLabels s x y xs ys /\ fit xs ys = Err e
    end.
Proof. intros M fit. exact (retrain_spec M fit (fun _ _ _ => lift (Err ValueErr))). Qed.
Print Assumptions C78_retrain_partial.
(** *** a performance function compares exactly the objects that meet what it asks *)
Theorem C78_performance_checked :
  forall R func r1 sp sf ae am known predicted,
  (checkedPerf R func r1 sp sf ae am known predicted = func known predicted /\ forall e, ~ PerfRefused r1 sp sf ae am known predicted e) \/
  (exists e, checkedPerf R func r1 sp sf ae am known predicted = Err e /\ PerfRefused r1 sp sf ae am known predicted e).
Proof. exact checkedPerf_spec. Qed.
Print Assumptions C78_performance_checked.

(** normalizeData takes the labels out of a copy to train, and then applies the
    learner to the data that still has them: with labels named by an identifier it
    never succeeds, whatever the data and the learner. *)
Theorem C78_normalize_labels_refuted :
  forall M fit pred scored order predicts multi, GoodLearner M pred scored ->
  forall s x i tx, WfStore s -> Present s x -> Present s tx ->
  exists s' e, normalizeData M fit pred scored order predicts multi x (DId i) tx s = (s', Err e).
Proof. exact normalizeData_id. Qed.
Print Assumptions C78_normalize_labels_refuted.
(** A strategy written in another case ('onevsall') passes the check, which lowers
    it, and then has no effect: the call trains what it trains without it. *)
Theorem C78_strategy_case_refuted :
  forall M fit multi s s' x y d w t, Present s x -> Present s y -> Plain (Some w) ->
  train M fit multi true x y d (Some w) s = (s', Ok t) -> train M fit multi true x y d None s = (s', Ok t).
Proof. intros M fit multi. exact (strategy_ignored M fit multi). Qed.
Print Assumptions C78_strategy_case_refuted.
(** A scoreMode written in another case ('BESTSCORE') passes the check, and every
    such call fails after the learner has been trained. *)
Theorem C78_mode_case_refuted :
  forall M fit pred scored order predicts multi s x y tx d strat w, GoodLearner M pred scored -> WfStore s -> Present s x -> Present s y -> Present s tx -> Plain strat ->
  w <> "bestScore" -> w <> "allScores" ->
  exists s' e, trainAndApply M fit pred scored order predicts multi x y tx d strat (Some w) s = (s', Err e).
Proof. exact mode_case. Qed.
Print Assumptions C78_mode_case_refuted.
(** Leaving out [testX] means the training data, but not if [testY] is an object:
    the check of the two asks None for its points. *)
Theorem C78_test_labels_alone_refuted :
  forall M fit pred scored order predicts R perf perfMode multi s r o ry oy q d strat,
  nth_error s r = Some o -> nth_error s ry = Some oy -> alen (tp (dT oy)) = alen (tp (dT o)) -> q < List.length s ->
  trainAndTest M fit pred scored order predicts R perf perfMode multi (DRef r) (DRef ry) DNone (DRef q) d strat s = (s, Err AttributeErr).
Proof. exact test_alone. Qed.
Print Assumptions C78_test_labels_alone_refuted.

(** ** Concrete cases *)
(** a learner that remembers how often each label was seen with the first feature *)
Definition fit0 (x : table pval) (y : option (table pval)) : result nat :=
  match y with Some t => Ok (alen (tf x) * 10 + alen (tf t)) | None => Ok (alen (tf x) * 10) end.
Definition pred0 (m : nat) (t : table pval) : result dobj :=
  Ok (mkD (tab57 (map (fun _ => None) (rows t)) [None] (map (fun _ => [PInt (Z.of_nat m)]) (rows t))) 7).
Definition scored0 (w : string) (m : nat) (t : table pval) : result dobj :=
  Ok (mkD (tab57 (map (fun _ => None) (rows t)) [None; None] (map (fun _ => [PInt 1; PInt 2]) (rows t))) 7).
Lemma good0 : GoodLearner nat pred0 scored0.
Proof.
  split; intros; match goal with H : _ = Ok _ |- _ => injection H as <- end; apply tab57_wf; cbn; try (rewrite !map_length; reflexivity);
    intros r Hr; apply in_map_iff in Hr; destruct Hr as [? [<- _]]; reflexivity.
Qed.
Definition order0 (_ : nat) : list string := ["l1"; "l2"].
Definition multi0 (w : string) (r : nat) (y : darg) : prog (tlearner nat) := lift (Err ValueErr).
Definition perf0 (known predicted : table pval) : result nat := Ok (100 * alen (tf known) + alen (tf predicted)).
Definition store0 : store :=
  [ mkD (tab57 [Some "p"; None; Some "q"] [Some "f"; Some "g"; Some "lab"] [[PInt 1; PInt 2; PStr "u"]; [PInt 3; PInt 4; PStr "v"]; [PInt 5; PInt 6; PStr "u"]]) 1;
    mkD (tab57 [None; None; None] [Some "kind"] [[PStr "u"]; [PStr "v"]; [PStr "u"]]) 2;
    mkD (tab57 [Some "z"; None] [None; None] [[PInt 7; PInt 8]; [PInt 9; PInt 9]]) 3 ].
Lemma store0_wf : WfStore store0.
Proof. intros o [<-|[<-|[<-|[]]]]; (apply tab57_wf; [reflexivity|]); intros r Hr; cbn in Hr; intuition (subst; reflexivity). Qed.
(** the labels are in the data; the answer for the third object is named after them *)
Example trained_inside :
  fst (train nat fit0 multi0 true (DRef 0) (DId (IdStr "lab")) true None store0) <> [] /\
  (match snd (train nat fit0 multi0 true (DRef 0) (DId (IdStr "lab")) true None store0) with Ok t => tlM t = 21 /\ tlShape t = (3, 2) /\ tlY t = Some [Some "lab"] /\ tl2d t = false | Err _ => False end) /\
  match trainAndApply nat fit0 pred0 scored0 order0 true multi0 (DRef 0) (DId (IdInt (-1))) (DRef 2) true None None store0 with
  | (s', Ok p) => match nth_error s' p with
                  | Some o => rows (dT o) = [[PInt 21]; [PInt 21]] /\ getNames (tp (dT o)) = [Some "z"; None] /\ getNames (tf (dT o)) = [Some "lab"]
                  | None => False end
  | _ => False
  end.
Proof. split; [vm_compute; discriminate|]. vm_compute. repeat split. Qed.
Example hypotheses_met : WfStore store0 /\ Present store0 (DRef 0) /\ Present store0 (DId (IdStr "lab")) /\ Plain None /\ GoodLearner nat pred0 scored0.
Proof. split; [exact store0_wf|]. split; [intros r [= <-]; cbn; lia|]. split; [intros r [=]|]. split; [split; discriminate|exact good0]. Qed.
(** tested on data whose labels are an object of their own *)
Example tested :
  snd (trainAndTest nat fit0 pred0 scored0 order0 true nat perf0 None multi0 (DRef 0) (DRef 1) DNone DNone true None store0) = Ok 101 /\
  snd (trainAndTestOnTrainingData nat fit0 pred0 scored0 order0 true nat perf0 None multi0 (DRef 0) (DId (IdStr "lab")) true None store0) = Ok 101 /\
  snd (trainAndTest nat fit0 pred0 scored0 order0 true nat perf0 None multi0 (DRef 0) (DRef 1) (DRef 2) DNone true None store0) = Err InvalidArgumentValueCombination /\
  snd (trainAndTest nat fit0 pred0 scored0 order0 true nat perf0 None multi0 (DRef 0) (DId (IdStr "none")) DNone DNone true None store0) = Err KeyErr.
Proof. vm_compute. repeat split. Qed.
(** scores are named after the labels that are scored *)
Example scores_named :
  match trainAndApply nat fit0 pred0 scored0 order0 true multi0 (DRef 0) (DId (IdStr "lab")) (DRef 2) true None (Some "allScores") store0 with
  | (s', Ok p) => match nth_error s' p with Some o => getNames (tf (dT o)) = [Some "l1"; Some "l2"] | None => False end
  | _ => False
  end /\
  snd (trainAndApply nat fit0 pred0 scored0 order0 true multi0 (DRef 0) (DId (IdStr "lab")) (DRef 2) true None (Some "BESTSCORE") store0) = Err InvalidArgumentValue.
Proof. vm_compute. repeat split. Qed.
(** normalizing: kinds and names of the objects given *)
Example normalized :
  match normalizeData nat fit0 (fun m t => Ok (mkD t 7)) scored0 order0 false multi0 (DRef 2) DNone (DRef 2) store0 with
  | (s', Ok (a, Some b)) => option_map dK (nth_error s' a) = Some 3 /\ option_map dK (nth_error s' b) = Some 3
  | _ => False
  end.
Proof. vm_compute. repeat split. Qed.
(** After training again with labels named 'kind', the answers are still named after
    the labels of the first training. *)
Theorem C78_retrain_names_refuted :
  exists M fit pred scored order multi s t s1 s2 s3 t' p o,
    GoodLearner M pred scored /\ WfStore s /\
    train M fit multi true (DRef 0) (DId (IdStr "lab")) true None s = (s1, Ok t) /\
    retrain M fit t (DRef 2) (DRef 1) true s1 = (s2, Ok t') /\
    apply M pred scored order true true t' (DRef 2) true None s2 = (s3, Ok p) /\
    nth_error s3 p = Some o /\ getNames (tf (dT o)) = [Some "lab"] /\
    (exists labels, nth_error s 1 = Some labels /\ getNames (tf (dT labels)) = [Some "kind"]).
Proof.
  set (s := [mkD (tab57 [None] [Some "f"; Some "lab"] [[PInt 1; PStr "u"]]) 1; mkD (tab57 [None; None] [Some "kind"] [[PStr "u"]; [PStr "v"]]) 2; mkD (tab57 [None; None] [None] [[PInt 7]; [PInt 8]]) 3]).
  exists nat, fit0, pred0, scored0, order0, multi0, s.
  destruct (train nat fit0 multi0 true (DRef 0) (DId (IdStr "lab")) true None s) as [s1 [t|e]] eqn:E1; [|vm_compute in E1; discriminate].
  destruct (retrain nat fit0 t (DRef 2) (DRef 1) true s1) as [s2 [t'|e]] eqn:E2; [|vm_compute in E1; injection E1 as <- <-; vm_compute in E2; discriminate].
  vm_compute in E1. injection E1 as <- <-. vm_compute in E2. injection E2 as <- <-.
  do 7 eexists. split; [exact good0|]. split; [intros q [<-|[<-|[<-|[]]]]; (apply tab57_wf; [reflexivity|]); intros r Hr; cbn in Hr; intuition (subst; reflexivity)|].
  split; [reflexivity|]. split; [vm_compute; reflexivity|]. split; [vm_compute; reflexivity|]. split; [vm_compute; reflexivity|]. split; [vm_compute; reflexivity|].
  eexists. split; [reflexivity|]. vm_compute. reflexivity.
Qed.
Print Assumptions C78_retrain_names_refuted.
(** what a performance function refuses *)
Example refused : PerfRefused true true true false false (tab57 [None] [None] [[PInt 1]]) (tab57 [None] [None; None] [[PInt 1; PInt 2]]) InvalidArgumentValueCombination.
Proof. apply pr_features; [reflexivity|vm_compute; discriminate]. Qed.
Example not_refused : forall e, ~ PerfRefused true true true false false (tab57 [None] [None] [[PInt 1]]) (tab57 [None] [None] [[PInt 2]]) e.
Proof.
  intros e B. destruct (checkedPerf_spec nat (fun _ _ => Ok 5) true true true false false (tab57 [None] [None] [[PInt 1]]) (tab57 [None] [None] [[PInt 2]])) as [[_ N]|[e' [K _]]]; [exact (N e B)|vm_compute in K; discriminate].
Qed.
