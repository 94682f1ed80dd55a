(** Properties C63 and C64. *)
From Verif Require Import Base LearnModel LearnSpec ArgsModel ArgsSpec ArgsProofs ArgsMainProofs.
Open Scope string_scope.
Open Scope list_scope.
Open Scope nat_scope.

(** a learner with train(self, trainX, trainY, k, w=5),
    incrementalTrain(self, trainX, trainY, k, w=6) and apply(self, testX, w=7, q=8) *)
Definition demo : learnerClass nat :=
  let P n d := mkParam n PositionalOrKeyword d in
  mkClass (mkSig [P "self" None; P "trainX" None; P "trainY" None; P "k" None; P "w" (Some 5)] false)
          (mkSig [P "self" None; P "trainX" None; P "trainY" None; P "k" None; P "w" (Some 6)] false)
          (mkSig [P "self" None; P "testX" None; P "w" (Some 7); P "q" (Some 8)] false).
Ltac startsTac := intros i k H; destruct i as [|[|[|i]]]; cbn in H;
  first [discriminate H | injection H as <-; eexists; split; [reflexivity|split; reflexivity] | destruct i; discriminate H].
Ltac properTac := split; [repeat constructor; cbn; intuition discriminate|
  intros i j p q L Hp Hq; destruct i as [|[|[|[|[|[|i]]]]]]; cbn in Hp; try discriminate Hp; try (destruct i; discriminate Hp);
  injection Hp as <-; cbn; try congruence;
  destruct j as [|[|[|[|[|[|j]]]]]]; cbn in Hq; try discriminate Hq; try (destruct j; discriminate Hq); try lia;
  injection Hq as <-; cbn; congruence].
Example C63_demo_proper : ProperClass demo.
Proof. unfold ProperClass. split; [properTac|]. split; [properTac|]. split; [properTac|]. split; [startsTac|]. split; startsTac. Qed.

(** C63: nimble accepts arguments for a learner exactly when every name is a
    parameter of its train or apply method and every parameter without a
    default is given; otherwise it raises InvalidArgumentValue. *)
Theorem C63_accepted_arguments :
  forall (V : Type) (EV : EqDec V) (c : learnerClass V) (m : @dict string V), ProperClass c -> wfdict m ->
  (validateLearner c m = Ok tt <-> Accepted c m) /\
  (~ Accepted c m -> validateLearner c m = Err InvalidArgumentValue).
Proof.
  intros V EV c m Hc Hw. destruct (validateLearner_spec c m Hc Hw) as [[A B]|[A B]].
  - split; [tauto|]. intros H; contradiction.
  - split; [|intros _; exact A]. split; [congruence|contradiction].
Qed.
Print Assumptions C63_accepted_arguments.
Example C63_accepted_example :
  validateLearner demo [("q", 1); ("k", 2)] = Ok tt /\
  validateLearner demo [("q", 1)] = Err InvalidArgumentValue /\
  validateLearner demo [("k", 1); ("z", 1)] = Err InvalidArgumentValue /\
  validateLearner demo [("k", 1); ("trainX", 1)] = Err InvalidArgumentValue.
Proof. repeat split. Qed.

(** C63: training calls the learner with exactly the arguments of the call and
    the defaults of the other parameters, and happens exactly when the
    arguments are accepted and fit the train method. *)
Theorem C63_train_receives :
  forall (V : Type) (EV : EqDec V) (c : learnerClass V) (a kw m : @dict string V),
  ProperClass c -> wfdict a -> wfdict kw -> Together a kw m ->
  ((exists t, train c a kw = Ok t) <-> Accepted c m /\ Callable 3 (cTrain c) (fun k => dget k m)) /\
  (forall t, train c a kw = Ok t ->
     exists env, tBackend t = [Trained env] /\ Receives 3 (cTrain c) (fun k => dget k m) env).
Proof.
  intros V EV c a kw m Hc Ha Hk T.
  destruct (train_spec c a kw Hc Ha Hk) as [(m' & env & T' & W & A & C & E & R)|[[e E] N]].
  - assert (G : forall k, dget k m' = dget k m) by (intros k; exact (Together_dget a kw m' m T' T k)). split.
    + split; [intros _|intros _; eauto]. split; [eapply Accepted_ext; [exact G|exact A]|].
      eapply Callable_ext; [|exact C]. exact G.
    + intros t H. rewrite E in H. injection H as <-. exists env. split; [reflexivity|].
      eapply Receives_ext; [|exact R]. exact G.
  - split; [split; [intros [t H]; congruence|intros [A C]; exfalso; exact (N m T A C)]|]. intros t H. congruence.
Qed.
Print Assumptions C63_train_receives.
Example C63_train_example :
  train demo [("k", 2)] [] = Ok (mkTrained [("k", 2)] [("k", 2)] [Trained [("k", 2); ("w", 5)]]) /\
  train demo [("k", 2)] [("w", 3)] = Ok (mkTrained [("k", 2); ("w", 3)] [("k", 2); ("w", 3)] [Trained [("k", 2); ("w", 3)]]).
Proof. split; reflexivity. Qed.

(** C63: after any history of retrain and incrementalTrain calls, with any
    outcomes, a retrain trains exactly when its own arguments are accepted and
    the values in force, for each name the most recent one, fit the train
    method, which receives exactly those and defaults; a retrain that does not
    train leaves the learner's model as it was, and one whose arguments are not
    accepted leaves everything as it was. *)
Theorem C63_retrain_receives :
  forall (V : Type) (EV : EqDec V) (c : learnerClass V) (a0 kw0 m0 : @dict string V) t0 ops l stored (a kw m : @dict string V),
  ProperClass c -> wfdict a0 -> wfdict kw0 -> Forall properOp ops -> train c a0 kw0 = Ok t0 ->
  Together a0 kw0 m0 -> Settings (snd (run c t0 ops)) l ->
  wfdict a -> wfdict kw -> Together a kw m -> Stored (m0 :: l ++ [m]) stored ->
  let t := fst (run c t0 ops) in
  (snd (retrain c t a kw) = Ok tt <-> Accepted c m /\ Callable 3 (cTrain c) stored) /\
  (snd (retrain c t a kw) = Ok tt ->
     exists env, tBackend (fst (retrain c t a kw)) = [Trained env] /\ Receives 3 (cTrain c) stored env) /\
  (snd (retrain c t a kw) <> Ok tt -> tBackend (fst (retrain c t a kw)) = tBackend t) /\
  (~ Accepted c m -> fst (retrain c t a kw) = t).
Proof. intros V EV c a0 kw0 m0 t0 ops l stored a kw m. exact (retrain_after c a0 kw0 t0 ops m0 l stored a kw m). Qed.
Print Assumptions C63_retrain_receives.

(** C63: every history has its list of stored settings. *)
Theorem C63_settings_exist :
  forall (V : Type) (EV : EqDec V) (c : learnerClass V) (a0 kw0 : @dict string V) t0 ops,
  ProperClass c -> wfdict a0 -> wfdict kw0 -> Forall properOp ops -> train c a0 kw0 = Ok t0 ->
  (exists l, Settings (snd (run c t0 ops)) l) /\ (exists l, IncrementalSettings (tArguments t0) (snd (run c t0 ops)) l) /\
  Together a0 kw0 (tArguments t0) /\ List.length (snd (run c t0 ops)) = List.length ops.
Proof.
  intros V EV c a0 kw0 t0 ops Hc Ha Hk Hf Ht. destruct (train_state c a0 kw0 t0 Hc Ha Hk Ht) as (Ho & T & _).
  split; [exact (proj1 (stored_spec c t0 ops Hc Ho Hf))|]. split; [exact (proj1 (inc_stored_spec c t0 ops Hc Ho Hf))|].
  split; [exact T|]. clear. revert t0. induction ops as [|o ops IH]; intros t; [reflexivity|]. cbn [run].
  destruct (step c t o) as [t1 r]. specialize (IH t1). destruct (run c t1 ops). cbn in *. congruence.
Qed.
Print Assumptions C63_settings_exist.

(** C63: after any history, apply runs the learner exactly when the arguments
    of the call are parameters of apply and no parameter without a default is
    left without a value; each parameter receives the value of the call, else
    the most recent value stored by train or retrain, else its default. *)
Theorem C63_apply_receives :
  forall (V : Type) (EV : EqDec V) (c : learnerClass V) (a0 kw0 m0 : @dict string V) t0 ops l stored (a kw m : @dict string V) val,
  ProperClass c -> wfdict a0 -> wfdict kw0 -> Forall properOp ops -> train c a0 kw0 = Ok t0 ->
  Together a0 kw0 m0 -> Settings (snd (run c t0 ops)) l -> Stored (m0 :: l) stored ->
  wfdict a -> wfdict kw -> Together a kw m -> ApplyValues c m stored val ->
  ((exists env, apply c (fst (run c t0 ops)) a kw = Ok env) <->
     (forall k v, dget k m = Some v -> exists p, Param 2 (cApply c) p /\ pkind p = PositionalOrKeyword /\ pname p = k) /\
     Callable 2 (cApply c) val) /\
  (forall env, apply c (fst (run c t0 ops)) a kw = Ok env -> Receives 2 (cApply c) val env).
Proof. intros V EV c a0 kw0 m0 t0 ops l stored a kw m val. exact (apply_after c a0 kw0 t0 ops m0 l stored a kw m val). Qed.
Print Assumptions C63_apply_receives.
Example C63_history_example :
  exists t0, train demo [("k", 2)] [] = Ok t0 /\
  let t := fst (run demo t0 [ORetrain [("k", 3)] [("w", 4)]; OIncremental (Some [("w", 9)]); ORetrain [("w", 1)] []]) in
  snd (run demo t0 [ORetrain [("k", 3)] [("w", 4)]; OIncremental (Some [("w", 9)]); ORetrain [("w", 1)] []]) =
    [(ORetrain [("k", 3)] [("w", 4)], Ok tt); (OIncremental (Some [("w", 9)]), Ok tt); (ORetrain [("w", 1)] [], Err InvalidArgumentValue)] /\
  tBackend t = [Trained [("k", 3); ("w", 4)]; Extended [("k", 3); ("w", 9)]] /\
  apply demo t [] [] = Ok [("w", 4); ("q", 8)] /\ apply demo t [("q", 0)] [("w", 1)] = Ok [("w", 1); ("q", 0)] /\
  apply demo t [("k", 0)] [] = Err InvalidArgumentValue.
Proof. eexists. split; [reflexivity|]. repeat split. Qed.

(** C63: incrementalTrain extends the model exactly when the arguments in force
    for it fit the incrementalTrain method, which receives exactly those and
    defaults; those are the ones of the last successful training and of the
    incrementalTrain calls and failed retrains since. *)
Theorem C63_incremental_receives :
  forall (V : Type) (EV : EqDec V) (c : learnerClass V) (a0 kw0 m0 : @dict string V) t0 ops l stored (oa : option (@dict string V)),
  ProperClass c -> wfdict a0 -> wfdict kw0 -> Forall properOp ops -> train c a0 kw0 = Ok t0 ->
  Together a0 kw0 m0 -> IncrementalSettings m0 (snd (run c t0 ops)) l ->
  (forall a, oa = Some a -> wfdict a) -> Stored (l ++ match oa with Some a => [a] | None => [] end) stored ->
  let t := fst (run c t0 ops) in
  (snd (incrementalTrain c t oa) = Ok tt <-> Callable 3 (cIncremental c) stored) /\
  (snd (incrementalTrain c t oa) = Ok tt ->
     exists env, tBackend (fst (incrementalTrain c t oa)) = tBackend t ++ [Extended env] /\
       Receives 3 (cIncremental c) stored env) /\
  (snd (incrementalTrain c t oa) <> Ok tt -> tBackend (fst (incrementalTrain c t oa)) = tBackend t).
Proof. intros V EV c a0 kw0 m0 t0 ops l stored oa. exact (incremental_after c a0 kw0 t0 ops m0 l stored oa). Qed.
Print Assumptions C63_incremental_receives.

(** Refuted: an argument of apply only (documented as to be used "during
    training and application") cannot be given at training: whatever the
    learner, the call never trains. *)
Theorem C63_apply_only_argument_refuted :
  forall (V : Type) (EV : EqDec V) (c : learnerClass V) (a kw : @dict string V) k v,
  ProperClass c -> wfdict a -> wfdict kw -> svarkw (cTrain c) = false ->
  (forall p, Param 3 (cTrain c) p -> pname p <> k) -> dget k a = Some v ->
  exists e, train c a kw = Err e.
Proof.
  intros V EV c a kw k v Hc Ha Hk W N Hv.
  destruct (train_spec c a kw Hc Ha Hk) as [(m & env & T & _ & A & C & E & R)|[E _]]; [exfalso|exact E].
  assert (X : dget k m = Some v) by (apply T; auto). exact (not_callable 3 _ _ k v W N X C).
Qed.
Print Assumptions C63_apply_only_argument_refuted.
Example C63_apply_only_example : train demo [("k", 2)] [("q", 1)] = Err TypeErr /\ validateLearner demo [("k", 2); ("q", 1)] = Ok tt.
Proof. split; reflexivity. Qed.
(** Refuted: a learner whose apply method alone has a parameter without a
    default cannot be trained at all. *)
Theorem C63_required_apply_parameter_refuted :
  forall (V : Type) (EV : EqDec V) (c : learnerClass V) p,
  ProperClass c -> svarkw (cTrain c) = false -> Param 2 (cApply c) p -> pkind p = PositionalOrKeyword -> pdefault p = None ->
  ~ In (pname p) ["trainX"; "trainY"; "testX"] -> (forall q, Param 3 (cTrain c) q -> pname q <> pname p) ->
  forall (a kw : @dict string V), wfdict a -> wfdict kw -> exists e, train c a kw = Err e.
Proof.
  intros V EV c p Hc W Hp K D I N a kw Ha Hk.
  destruct (train_spec c a kw Hc Ha Hk) as [(m & env & T & _ & [_ A] & C & E & R)|[E _]]; [exfalso|exact E].
  assert (O : Offered c p) by (split; [right; exact Hp|auto]).
  destruct (A (pname p)) as [v Hv].
  - exists p; auto.
  - intros q (Q1 & Q2 & Q3) Qn. destruct Q1 as [Q1|Q1]; [exfalso; exact (N q Q1 Qn)|].
    destruct Hc as (_ & _ & [S _] & _). destruct Hp as (i & _ & Hi). destruct Q1 as (j & _ & Hj).
    assert (i = j); [|congruence]. apply (proj1 (NoDup_nth_error _) S); [rewrite map_length; apply nth_error_Some; congruence|].
    rewrite !nth_error_map, Hi, Hj. cbn. congruence.
  - exact (not_callable 3 _ _ (pname p) v W N Hv C).
Qed.
Print Assumptions C63_required_apply_parameter_refuted.
Example C63_required_apply_example :
  let c := mkClass (cTrain demo) (cIncremental demo)
    (mkSig [mkParam "self" PositionalOrKeyword None; mkParam "testX" PositionalOrKeyword None;
            mkParam "q" PositionalOrKeyword None] false) in
  ProperClass c /\ train c [("k", 1)] [] = Err InvalidArgumentValue /\ train c [("k", 1); ("q", 2)] [] = Err TypeErr.
Proof.
  split; [|split; reflexivity].
  split; [properTac|]. split; [properTac|]. split; [properTac|]. split; [startsTac|]. split; startsTac.
Qed.
(** Refuted: after one retrain with an argument of apply only (it is accepted,
    then the training fails), no later retrain trains, whatever happens in
    between. *)
Theorem C63_retrain_never_again_refuted :
  forall (V : Type) (EV : EqDec V) (c : learnerClass V) (a0 kw0 : @dict string V) t0 before after (a1 kw1 a kw : @dict string V) k v,
  ProperClass c -> wfdict a0 -> wfdict kw0 -> train c a0 kw0 = Ok t0 -> Forall properOp before -> Forall properOp after ->
  wfdict a1 -> wfdict kw1 -> wfdict a -> wfdict kw ->
  svarkw (cTrain c) = false -> (forall p, Param 3 (cTrain c) p -> pname p <> k) ->
  let t := fst (run c t0 before) in
  dget k a1 = Some v -> snd (retrain c t a1 kw1) = Err TypeErr ->
  snd (retrain c (fst (run c (fst (retrain c t a1 kw1)) after)) a kw) <> Ok tt.
Proof.
  intros V EV c a0 kw0 t0 before after a1 kw1 a kw k v Hc Ha0 Hk0 Ht Hb Hf Ha1 Hk1 Ha Hk W N t Hv H.
  destruct (train_state c a0 kw0 t0 Hc Ha0 Hk0 Ht) as (Ho & _).
  exact (blocked_after c t after a1 kw1 a kw k v Hc (run_wf c t0 before Hc Ho Hb) Hf Ha1 Hk1 Ha Hk W N Hv H).
Qed.
Print Assumptions C63_retrain_never_again_refuted.
Example C63_never_again_example :
  exists t0, train demo [("k", 2)] [] = Ok t0 /\
    snd (run demo t0 [ORetrain [("k", 3)] []; ORetrain [("k", 4); ("q", 1)] []; ORetrain [("k", 3)] []]) =
    [(ORetrain [("k", 3)] [], Ok tt); (ORetrain [("k", 4); ("q", 1)] [], Err TypeErr); (ORetrain [("k", 3)] [], Err TypeErr)].
Proof. eexists; split; reflexivity. Qed.
(** Refuted: an argument that training got and incrementalTrain does not have
    (or an unknown one once given to incrementalTrain) makes every later
    incrementalTrain fail. *)
Theorem C63_incremental_never_refuted :
  forall (V : Type) (EV : EqDec V) (c : learnerClass V) (a0 kw0 : @dict string V) t0 k v oas,
  ProperClass c -> wfdict a0 -> wfdict kw0 -> train c a0 kw0 = Ok t0 -> dget k a0 = Some v ->
  svarkw (cIncremental c) = false -> (forall p, Param 3 (cIncremental c) p -> pname p <> k) ->
  Forall properOp (map OIncremental oas) ->
  Forall (fun x => snd x = Err TypeErr) (snd (run c t0 (map OIncremental oas))).
Proof.
  intros V EV c a0 kw0 t0 k v oas Hc Ha Hk Ht Hv W N Hf. destruct (train_state c a0 kw0 t0 Hc Ha Hk Ht) as (Ho & T & _).
  apply (incremental_blocked c k Hc W N); [exact (proj1 Ho)| |exact Hf]. apply dget_key. exists v. apply T. auto.
Qed.
Print Assumptions C63_incremental_never_refuted.
(** Refuted: arguments given to incrementalTrain are not used by apply, and the
    arguments that retrain keeps for training are lost for incrementalTrain. *)
Theorem C63_incremental_arguments_refuted :
  exists t0, train demo [("k", 2)] [("w", 1)] = Ok t0 /\
    apply demo (fst (run demo t0 [OIncremental (Some [("w", 9)])])) [] [] = Ok [("w", 1); ("q", 8)] /\
    tBackend (fst (run demo t0 [ORetrain [("k", 3)] []; OIncremental None])) =
      [Trained [("k", 3); ("w", 1)]; Extended [("k", 3); ("w", 6)]].
Proof. eexists. split; [reflexivity|]. split; reflexivity. Qed.
Print Assumptions C63_incremental_arguments_refuted.
(** Refuted: the arguments of a call of getScores, or of apply with a
    scoreMode, do not reach the scores, nor do the stored ones: the scores are
    those for the defaults, next to labels for the arguments. *)
Theorem C63_scores_ignore_arguments_refuted :
  (forall (V : Type) (EV : EqDec V) (c : learnerClass V) t (a kw : @dict string V) m,
     mergeArguments a kw = Ok m -> getScores c t a kw = getScores c t [] []) /\
  (exists t0, train demo [("k", 2)] [] = Ok t0 /\ apply demo t0 [("w", 1)] [] = Ok [("w", 1); ("q", 8)] /\
     getScores demo t0 [("w", 1)] [] = Ok [("w", 7); ("q", 8)]).
Proof.
  split.
  - intros V EV c t a kw m H. unfold getScores. rewrite H. reflexivity.
  - eexists. split; [reflexivity|]. split; reflexivity.
Qed.
Print Assumptions C63_scores_ignore_arguments_refuted.
(** Refuted: arguments are accepted although the train method needs one of
    them, because apply has a default for a parameter of that name. *)
Theorem C63_default_of_apply_hides_refuted :
  exists c : learnerClass nat, ProperClass c /\ validateLearner c [] = Ok tt /\ train c [] [] = Err TypeErr.
Proof.
  exists (mkClass (cTrain demo) (cIncremental demo)
    (mkSig [mkParam "self" PositionalOrKeyword None; mkParam "testX" PositionalOrKeyword None;
            mkParam "k" PositionalOrKeyword (Some 3)] false)).
  split; [|split; reflexivity].
  split; [properTac|]. split; [properTac|]. split; [properTac|]. split; [startsTac|]. split; startsTac.
Qed.
Print Assumptions C63_default_of_apply_hides_refuted.
(** Refuted: a keyword-only parameter without a default makes a learner
    untrainable: nimble does not know the name, and Python requires it. *)
Theorem C63_keyword_only_refuted :
  forall (V : Type) (EV : EqDec V) (c : learnerClass V) p,
  ProperClass c -> Param 3 (cTrain c) p -> pkind p = KeywordOnly -> pdefault p = None ->
  (forall q, Param 2 (cApply c) q -> pname q <> pname p) ->
  forall (a kw : @dict string V), wfdict a -> wfdict kw -> exists e, train c a kw = Err e.
Proof.
  intros V EV c p Hc Hp K D N a kw Ha Hk.
  destruct (train_spec c a kw Hc Ha Hk) as [(m & env & T & _ & [A _] & [_ C] & E & R)|[E _]]; [exfalso|exact E].
  destruct (C p Hp D) as [v Hv]. destruct (A _ v Hv) as (q & (Q1 & Q2 & _) & Qn).
  destruct Q1 as [Q1|Q1]; [|exact (N q Q1 Qn)].
  destruct Hc as ([S _] & _). destruct Hp as (i & _ & Hi). destruct Q1 as (j & _ & Hj).
  assert (i = j); [|congruence]. apply (proj1 (NoDup_nth_error _) S); [rewrite map_length; apply nth_error_Some; congruence|].
  rewrite !nth_error_map, Hi, Hj. cbn. congruence.
Qed.
Print Assumptions C63_keyword_only_refuted.
Example C63_keyword_only_example :
  let c := mkClass (mkSig (sparams (cTrain demo) ++ [mkParam "z" KeywordOnly None]) false) (cIncremental demo) (cApply demo) in
  ProperClass c /\ train c [("k", 1)] [] = Err TypeErr /\ train c [("k", 1); ("z", 2)] [] = Err InvalidArgumentValue.
Proof.
  split; [|split; reflexivity].
  split; [properTac|]. split; [properTac|]. split; [properTac|]. split; [startsTac|]. split; startsTac.
Qed.

(** C64: with several parameter sets, arguments are accepted exactly when the
    last set whose required parameters are all given knows all the names;
    anything else is refused with InvalidArgumentValue.  In particular no
    arguments are accepted that fit none of the sets. *)
Theorem C64_parameter_sets :
  forall (V : Type) (EV : EqDec V) (sets : list (list string * @dict string V)) (m : @dict string V),
  Forall (fun ps => NoDup (fst ps)) sets -> wfdict m ->
  (validateSets sets m = Ok tt <-> LastAccepts (dkeys m) sets) /\
  (~ LastAccepts (dkeys m) sets -> validateSets sets m = Err InvalidArgumentValue) /\
  (validateSets sets m = Ok tt -> exists ps, In ps sets /\ SetAccepts (dkeys m) ps).
Proof.
  intros V EV sets m Hn Hw. destruct (validateSets_spec sets m Hn Hw) as [[A B]|[A B]].
  - split; [tauto|]. split; [contradiction|]. intros _. destruct B as (i & ps & H & K & _). exists ps.
    split; [eapply nth_error_In; exact H|exact K].
  - split; [split; [congruence|contradiction]|]. split; [intros _; exact A|congruence].
Qed.
Print Assumptions C64_parameter_sets.
(** Refuted: arguments that fit one of the parameter sets are refused when a
    later set has nothing missing either, even though it does not know them. *)
Theorem C64_last_set_wins_refuted :
  exists (sets : list (list string * @dict string nat)) (m : @dict string nat) ps,
    In ps sets /\ SetAccepts (dkeys m) ps /\ validateSets sets m = Err InvalidArgumentValue.
Proof.
  exists [(["alpha"; "beta"], []); (["gamma"], [("gamma", 1)])], [("alpha", 1); ("beta", 2)], (["alpha"; "beta"], []).
  split; [left; reflexivity|]. split; [|reflexivity]. split.
  - intros p H _. exact H.
  - intros k H. exact H.
Qed.
Print Assumptions C64_last_set_wins_refuted.
(** C64: a tree of nimble.Init objects of any depth is instantiated exactly
    when the interface knows every name in it and accepts the arguments of
    every node; the objects are built with exactly the arguments written, each
    Init replaced by its object.  Otherwise InvalidArgumentValue is raised. *)
Theorem C64_init_trees :
  forall (V : Type) (find : string -> option (list (list string * @dict string (value V)))) (i : init V),
  (forall name sets, find name = Some sets -> Forall (fun ps => NoDup (fst ps)) sets) -> ProperInit i ->
  let known := forall name kwargs, Inside (Init name kwargs) i ->
                 exists sets, find name = Some sets /\ LastAccepts (map fst kwargs) sets in
  ((exists o, argumentInit find i = Ok o) <-> known) /\
  (forall o, argumentInit find i = Ok o -> Built i o) /\
  (~ known -> argumentInit find i = Err InvalidArgumentValue).
Proof.
  intros V find i Hf Hp known.
  destruct (argumentInit_spec find Hf (initSize i) i (le_n _) Hp) as [(o & E & B & K)|[E (j & J1 & J2)]].
  - assert (Kn : known) by (intros name kwargs H; exact (K _ H)).
    split; [split; [intros _; exact Kn|intros _; eauto]|]. split; [intros o' H; rewrite E in H; injection H as <-; exact B|].
    intros H; contradiction.
  - split; [split; [intros [o H]; congruence|]|split; [intros o H; congruence|intros _; exact E]].
    intros Kn. exfalso. apply J2. destruct j as [name kwargs]. exact (Kn name kwargs J1).
Qed.
Print Assumptions C64_init_trees.
Example C64_init_example :
  let find n := if string_dec n "SGD" then Some [(["rate"; "decay"], [("rate", VPlain 1); ("decay", VPlain 0)])]
                else if string_dec n "Schedule" then Some [(["start"], [])] else None in
  argumentInit find (Init "SGD" [("rate", Nested (Init "Schedule" [("start", Plain 5)])); ("decay", Plain 2)]) =
    Ok (Object "SGD" [("rate", VObject (Object "Schedule" [("start", VPlain 5)])); ("decay", VPlain 2)]) /\
  argumentInit find (Init "SGD" [("rate", Nested (Init "Schedule" []))]) = Err InvalidArgumentValue /\
  argumentInit find (Init "SGD" [("rate", Nested (Init "Missing" []))]) = Err InvalidArgumentValue.
Proof. repeat split. Qed.
