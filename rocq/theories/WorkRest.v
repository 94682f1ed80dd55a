(** Proofs about the learning functions (C78): what does not hold, and the checks of
    the performance functions. *)
From Verif Require Import Base NamesModel NamesSpec NamesProofs TableModel TableSpec TableProofs
  MatchModel RawSpec WorkModel WorkSpec WorkProofs WorkMain.
From Coq Require Import List Lia Ascii String Arith. Import ListNotations.
Open Scope string_scope. Open Scope list_scope. Open Scope nat_scope.

Lemma emptyT_spec t : emptyT t = true <-> EmptyObject t.
Proof. unfold emptyT, EmptyObject. rewrite Bool.orb_true_iff, !Nat.eqb_eq. reflexivity. Qed.
Lemma checkedPerf_spec R func r1 sp sf ae am known predicted :
  (checkedPerf R func r1 sp sf ae am known predicted = func known predicted /\ forall e, ~ PerfRefused r1 sp sf ae am known predicted e) \/
  (exists e, checkedPerf R func r1 sp sf ae am known predicted = Err e /\ PerfRefused r1 sp sf ae am known predicted e).
Proof.
  unfold checkedPerf.
  destruct (negb ae && (emptyT known || emptyT predicted))%bool eqn:E1.
  { right. eexists. split; [reflexivity|]. apply andb_prop in E1. destruct E1 as [A B]. apply pr_empty; [destruct ae; [discriminate|reflexivity]|].
    apply Bool.orb_true_iff in B. rewrite !emptyT_spec in B. exact B. }
  destruct (sp && negb (alen (tp known) =? alen (tp predicted)))%bool eqn:E2.
  { right. eexists. split; [reflexivity|]. apply andb_prop in E2. destruct E2 as [A B]. apply pr_points; [exact A|]. apply Bool.negb_true_iff, Nat.eqb_neq in B. exact B. }
  destruct (sf && negb (alen (tf known) =? alen (tf predicted)))%bool eqn:E3.
  { right. eexists. split; [reflexivity|]. apply andb_prop in E3. destruct E3 as [A B]. apply pr_features; [exact A|]. apply Bool.negb_true_iff, Nat.eqb_neq in B. exact B. }
  destruct (r1 && (1 <? alen (tf predicted)))%bool eqn:E4.
  { right. eexists. split; [reflexivity|]. apply andb_prop in E4. destruct E4 as [A B]. apply pr_labels; [exact A|]. apply Nat.ltb_lt in B. exact B. }
  destruct (negb am && anyMissing known)%bool eqn:E5.
  { right. eexists. split; [reflexivity|]. apply andb_prop in E5. destruct E5 as [A B]. apply pr_missing; [destruct am; [discriminate|reflexivity]|]. left. apply anyMissing_spec, B. }
  destruct (negb am && anyMissing predicted)%bool eqn:E6.
  { right. eexists. split; [reflexivity|]. apply andb_prop in E6. destruct E6 as [A B]. apply pr_missing; [destruct am; [discriminate|reflexivity]|]. right. apply anyMissing_spec, B. }
  left. split; [reflexivity|]. intros e B. inversion B as [Ha He|Ha He|Ha He|Ha He|Ha He]; subst.
  - rewrite <- !emptyT_spec, <- Bool.orb_true_iff in He. rewrite He in E1. discriminate.
  - apply Nat.eqb_neq in He. rewrite He in E2. discriminate.
  - apply Nat.eqb_neq in He. rewrite He in E3. discriminate.
  - apply Nat.ltb_lt in He. rewrite He in E4. discriminate.
  - destruct He as [He|He]; apply anyMissing_spec in He; rewrite He in *; discriminate.
Qed.

Section Work.
Variable M : Type.
Variable fit : table pval -> option (table pval) -> result M.
Variable pred : M -> table pval -> result dobj.
Variable scored : string -> M -> table pval -> result dobj.
Variable order : M -> list string.
Variable predicts : bool.
Variable R : Type.
Variable perf : table pval -> table pval -> result R.
Variable perfMode : option string.
Variable multi : string -> nat -> darg -> prog (tlearner M).

(** a strategy spelled in another case is accepted and has no effect *)
Lemma strategy_ignored s s' x y d w t : Present s x -> Present s y -> Plain (Some w) ->
  train M fit multi true x y d (Some w) s = (s', Ok t) -> train M fit multi true x y d None s = (s', Ok t).
Proof.
  clear pred scored order predicts perf perfMode R. intros Px Py [P1 P2]. assert (E : forall st, train M fit multi true x y d st s = (_ <~ validateLearning x y DNone DNone d st None ;;; train M fit multi false x y d st) s) by reflexivity.
  rewrite !E. clear E. intros H.
  destruct (validateLearning_spec s x y DNone DNone d (Some w) None Px Py (Present_None s) (Present_None s)) as [[V N]|[e [V B]]].
  2:{ rewrite (bind_err _ _ _ _ _ V) in H. discriminate. }
  rewrite (bind_ok _ _ _ _ _ V) in H.
  destruct (validateLearning_spec s x y DNone DNone d None None Px Py (Present_None s) (Present_None s)) as [[V2 N2]|[e [V2 B]]].
  2:{ exfalso. inversion B; subst; try discriminate; [eapply N, bc_train; eassumption|eapply N, bc_test; eassumption|eapply N, bc_dict; reflexivity|intuition congruence]. }
  rewrite (bind_ok _ _ _ _ _ V2). rewrite <- H. unfold train, pbind, pret. destruct x as [|r|i|]; try reflexivity. unfold interfaceTrain.
  assert (X : existsb (String.eqb w) ["OneVsAll"; "OneVsOne"] = false).
  { cbn. destruct (String.eqb_spec w "OneVsAll"); [congruence|]. destruct (String.eqb_spec w "OneVsOne"); [congruence|reflexivity]. }
  rewrite X. reflexivity.
Qed.
(** a score mode spelled in another case is accepted, and refused after training *)
Lemma mode_case s x y tx d strat w : GoodLearner M pred scored -> WfStore s -> Present s x -> Present s y -> Present s tx -> Plain strat ->
  w <> "bestScore" -> w <> "allScores" ->
  exists s' e, trainAndApply M fit pred scored order predicts multi x y tx d strat (Some w) s = (s', Err e).
Proof.
  clear perf perfMode R. intros G W Px Py Ptx Pl N1 N2.
  destruct (trainAndApply_spec M fit pred scored order predicts multi G s x y tx d strat (Some w) W Px Py Ptx Pl) as (s' & res & K & _ & _ & H).
  destruct res as [p|e]; [exfalso|eauto]. destruct H as (_ & _ & xs & ys & t & o & _ & _ & _ & Pr). destruct Pr as (m & q & _ & _ & Out & _). cbn in Out. intuition congruence.
Qed.
(** labels to test with, and the data left out *)
Lemma test_alone s r o ry oy q d strat : nth_error s r = Some o -> nth_error s ry = Some oy -> alen (tp (dT oy)) = alen (tp (dT o)) -> q < List.length s ->
  trainAndTest M fit pred scored order predicts R perf perfMode multi (DRef r) (DRef ry) DNone (DRef q) d strat s = (s, Err AttributeErr).
Proof.
  intros E Ey L Lq. unfold trainAndTest, validateLearning. rewrite (bind_err _ _ s s AttributeErr); [reflexivity|].
  rewrite (bind_ok _ _ s s tt).
  - reflexivity.
  - cbn [validTrain]. rewrite (bind_ok _ _ _ _ _ (get_ok _ _ _ E)), (bind_ok _ _ _ _ _ (get_ok _ _ _ Ey)). unfold pts. rewrite L, Nat.eqb_refl. reflexivity.
Qed.
(** after training again, answers are still named after the first labels *)
Lemma retrain_names s t x y d s' t' : WfStore s -> Present s x -> Present s y -> retrain M fit t x y d s = (s', Ok t') -> tlY t' = tlY t.
Proof.
  clear pred scored order predicts perf perfMode R. intros W Px Py H. destruct (retrain_spec M fit multi s t x y d W Px Py) as (s1 & res & K & _ & _ & A).
  assert (res = Ok t') by congruence. subst res. destruct A as (_ & xs & ys & _ & _ & _ & E & _). exact E.
Qed.
End Work.
