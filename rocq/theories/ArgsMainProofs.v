(** Proofs for C63 and C64: learners, histories of calls, Inits. *)
From Verif Require Import Base LearnModel LearnSpec LearnProofs ArgsModel ArgsSpec ArgsProofs.
Open Scope string_scope.
Open Scope list_scope.
Open Scope nat_scope.

Section P.
Context {V : Type} {EV : EqDec V}.
Notation args := (@dict string V).

(** ** accepted arguments *)
Lemma Starts_cons k ks (s : signature V) : Starts (k :: ks) s ->
  exists p ps, sparams s = p :: ps /\ pname p = k /\ pkind p = PositionalOrKeyword /\ Starts ks (mkSig ps (svarkw s)).
Proof.
  intros H. destruct (H 0 k eq_refl) as (p & P1 & P2 & P3). destruct (sparams s) as [|q ps] eqn:E; [discriminate|].
  injection P1 as ->. exists p, ps. do 3 (split; auto). intros i k' Hk. destruct (H (S i) k' Hk) as (r & R).
  rewrite E in R. exists r. exact R.
Qed.
Lemma trainParameters_In (c : learnerClass V) k : ProperClass c -> ~ In k ignoreNames ->
  (In k (trainParameters c) <-> exists p, Param 3 (cTrain c) p /\ pkind p = PositionalOrKeyword /\ pname p = k).
Proof.
  intros (_ & _ & _ & St & _) Hi.
  destruct (Starts_cons _ _ _ St) as (p0 & l0 & E0 & N0 & K0 & St1).
  destruct (Starts_cons _ _ _ St1) as (p1 & l1 & E1 & N1 & K1 & St2).
  destruct (Starts_cons _ _ _ St2) as (p2 & l2 & E2 & N2 & K2 & _). cbn in E1, E2. subst l0 l1.
  unfold trainParameters, inspectArguments. cbn [fst]. rewrite E0. cbn [filter]. rewrite K0, K1, K2. cbn [map skipn].
  rewrite N2. split.
  - intros [<- |H]; [exfalso; apply Hi; cbn; tauto|]. apply in_map_iff in H. destruct H as (p & <- & Hp).
    apply filter_In in Hp. destruct Hp as [Hp Hk]. exists p. split; [|split; [|reflexivity]].
    + apply Param_rest. unfold rest. rewrite E0. exact Hp.
    + destruct (pkind p); [reflexivity|discriminate].
  - intros (p & Hp & Hk & <-). right. apply in_map. apply filter_In.
    apply Param_rest in Hp. unfold rest in Hp. rewrite E0 in Hp. cbn [skipn] in Hp. rewrite Hk. auto.
Qed.
Lemma applyParameters_In (c : learnerClass V) k : ProperClass c ->
  (In k (skipn 1 (applyParameters c)) <-> exists p, Param 2 (cApply c) p /\ pkind p = PositionalOrKeyword /\ pname p = k) /\
  (~ In k ignoreNames -> (In k (applyParameters c) <-> In k (skipn 1 (applyParameters c)))).
Proof.
  intros (_ & _ & _ & _ & _ & St).
  destruct (Starts_cons _ _ _ St) as (p0 & l0 & E0 & N0 & K0 & St1).
  destruct (Starts_cons _ _ _ St1) as (p1 & l1 & E1 & N1 & K1 & _). cbn in E1. subst l0.
  unfold applyParameters, inspectArguments. cbn [fst]. rewrite E0. cbn [filter]. rewrite K0, K1. cbn [map skipn].
  rewrite N1. split.
  - split.
    + intros H. apply in_map_iff in H. destruct H as (p & <- & Hp).
      apply filter_In in Hp. destruct Hp as [Hp Hk]. exists p. split; [|split; [|reflexivity]].
      * apply Param_rest. unfold rest. rewrite E0. exact Hp.
      * destruct (pkind p); [reflexivity|discriminate].
    + intros (p & Hp & Hk & <-). apply in_map. apply filter_In.
      apply Param_rest in Hp. unfold rest in Hp. rewrite E0 in Hp. cbn [skipn] in Hp. rewrite Hk. auto.
  - intros Hi. cbn [In]. split; [|tauto]. intros [<- |H]; [exfalso; apply Hi; cbn; tauto|exact H].
Qed.
Lemma Offered_ignore (c : learnerClass V) p : Offered c p -> ~ In (pname p) ignoreNames.
Proof. intros (_ & _ & H). exact H. Qed.

Lemma parameterNames_spec (c : learnerClass V) k : ProperClass c ->
  (In k (learnerParameterNames c) <-> exists p, Offered c p /\ pname p = k).
Proof.
  intros Hc. unfold learnerParameterNames. rewrite nodup_In, filter_In, in_app_iff. split.
  - intros [H Hi]. apply negb_true_iff in Hi. assert (Ni : ~ In k ignoreNames) by (intros T; apply mem_In in T; congruence).
    destruct H as [H|H].
    + apply trainParameters_In in H; auto. destruct H as (p & A & B & C). exists p. split; [|exact C].
      split; [left; exact A|]. split; [exact B|]. rewrite C. exact Ni.
    + apply (proj2 (applyParameters_In c k Hc) Ni) in H. apply (proj1 (applyParameters_In c k Hc)) in H.
      destruct H as (p & A & B & C). exists p. split; [|exact C].
      split; [right; exact A|]. split; [exact B|]. rewrite C. exact Ni.
  - intros (p & (A & B & C) & <-). split.
    + destruct A as [A|A].
      * left. apply trainParameters_In; auto. exists p; auto.
      * right. apply (proj2 (applyParameters_In c _ Hc) C). apply (proj1 (applyParameters_In c _ Hc)). exists p; auto.
    + apply negb_true_iff. destruct (mem (pname p) ignoreNames) eqn:E; [|reflexivity]. apply mem_In in E. contradiction.
Qed.
Lemma dict_of_keys_aux (ps : list (string * V)) : forall d k,
  In k (dkeys (fold_left (fun d p => dset (fst p) (snd p) d) ps d)) <-> In k (map fst ps) \/ In k (dkeys d).
Proof.
  induction ps as [|[k0 v0] ps IH]; intros d k; [cbn; tauto|]. cbn [fold_left map fst snd]. rewrite IH.
  cbn [In]. rewrite dkeys_dset. destruct (mem k0 (dkeys d)) eqn:E.
  - apply mem_In in E. split; [tauto|]. intros [[<- |H]|H]; tauto.
  - rewrite in_app_iff. cbn. tauto.
Qed.
Lemma Starts_ignored (s : signature V) names p : Starts names s -> In p (sparams s) -> ~ In (pname p) names ->
  Param (List.length names) s p.
Proof.
  intros H Hp Hn. apply In_nth_error in Hp. destruct Hp as [i Hi]. exists i. split; [|exact Hi].
  destruct (Nat.le_gt_cases (List.length names) i) as [L|L]; [exact L|exfalso].
  destruct (nth_error names i) as [k|] eqn:E; [|apply nth_error_None in E; lia].
  destruct (H i k E) as (q & Q1 & Q2 & _). rewrite Hi in Q1. injection Q1 as <-. apply Hn. rewrite Q2.
  eapply nth_error_In; exact E.
Qed.
Lemma Param_In n (s : signature V) p : Param n s p -> In p (sparams s).
Proof. intros (i & _ & H). eapply nth_error_In; exact H. Qed.
(** no parameter that nimble fills in has the name of one of the others *)
Lemma Starts_self (s : signature V) names : ProperSignature s -> Starts names s ->
  forall p, In p (sparams s) -> In (pname p) names -> exists i, i < List.length names /\ nth_error (sparams s) i = Some p.
Proof.
  intros [Hd _] H p Hp Hn. apply In_nth_error in Hn. destruct Hn as [i Hi].
  destruct (H i _ Hi) as (q & Q1 & Q2 & _). apply In_nth_error in Hp. destruct Hp as [j Hj].
  exists i. split; [apply nth_error_Some; congruence|].
  assert (i = j); [|subst; exact Hj].
  assert (A : nth_error (map pname (sparams s)) i = Some (pname p)) by (rewrite nth_error_map, Q1; cbn; congruence).
  assert (B : nth_error (map pname (sparams s)) j = Some (pname p)) by (rewrite nth_error_map, Hj; reflexivity).
  apply (proj1 (NoDup_nth_error _) Hd); [apply nth_error_Some; congruence|congruence].
Qed.

Lemma not_self n (s : signature V) names : ProperSignature s -> Starts names s -> nth_error names 0 = Some "self" ->
  1 <= n -> forall r : param V, Param n s r -> pname r <> "self".
Proof.
  intros PS ST N1 N2 r (i & Ri & Rn) Rs. destruct (ST 0 "self" N1) as (z & Z1 & Z2 & _).
  assert (i = 0); [|lia]. destruct PS as [Hd _].
  apply (proj1 (NoDup_nth_error _) Hd); [rewrite map_length; apply nth_error_Some; congruence|].
  rewrite !nth_error_map, Rn, Z1. cbn. congruence.
Qed.
(** 'self' could only be offered by a parameter after self: names are distinct *)
Lemma defaults_spec (c : learnerClass V) k : ProperClass c -> (exists p, Offered c p /\ pname p = k) ->
  (dget k (learnerDefaultValues c) = None <-> forall p, Offered c p -> pname p = k -> pdefault p = None).
Proof.
  intros Hc Ho. assert (Hc' := Hc). destruct Hc' as (S1 & _ & S2 & T1 & _ & T2).
  unfold learnerDefaultValues. rewrite (dget_filter (fun k => negb (mem k ignoreNames))).
  assert (Ni : mem k ignoreNames = false).
  { destruct Ho as (p & O & <-). apply Offered_ignore in O. destruct (mem (pname p) ignoreNames) eqn:E; [|reflexivity].
    apply mem_In in E. contradiction. }
  rewrite Ni. cbn [negb]. rewrite dget_None. unfold dict_of. rewrite dict_of_keys_aux, map_app, in_app_iff.
  pose proof (proj2 (methodDefaults_spec (cTrain c) S1) k) as D1.
  pose proof (proj2 (methodDefaults_spec (cApply c) S2) k) as D2. unfold dkeys in *.
  split.
  - intros H p O <-. destruct (pdefault p) eqn:E; [exfalso|reflexivity].
    destruct O as (A & B & C). apply H. left. destruct A as [A|A]; [left; apply D1|right; apply D2];
      (exists p; split; [eapply Param_In; exact A|]; split; [exact B|]; split; [reflexivity|congruence]).
  - intros H [[K|K]|K]; [| |destruct K].
    + apply D1 in K. destruct K as (p & A & B & C & D). apply D. apply (H p); [|exact C].
      split; [left|split; [exact B|]].
      * apply (Starts_ignored _ ["self"; "trainX"; "trainY"] p T1 A). rewrite C. intros [<- |T].
        -- (* a parameter named self: p is the first one *)
           destruct Ho as (q & (Q1 & Q2 & Q3) & Q4).
           destruct Q1 as [Q1|Q1].
           ++ exact (not_self 3 _ _ S1 T1 eq_refl ltac:(lia) q Q1 Q4).
           ++ exact (not_self 2 _ _ S2 T2 eq_refl ltac:(lia) q Q1 Q4).
        -- assert (In k ignoreNames) by (cbn in *; tauto). apply mem_In in H0. congruence.
      * rewrite C. intros T. apply mem_In in T. unfold ignoreNames in Ni. congruence.
    + apply D2 in K. destruct K as (p & A & B & C & D). apply D. apply (H p); [|exact C].
      split; [right|split; [exact B|]].
      * apply (Starts_ignored _ ["self"; "testX"] p T2 A). rewrite C. intros [<- |T].
        -- destruct Ho as (q & (Q1 & Q2 & Q3) & Q4).
           destruct Q1 as [Q1|Q1].
           ++ exact (not_self 3 _ _ S1 T1 eq_refl ltac:(lia) q Q1 Q4).
           ++ exact (not_self 2 _ _ S2 T2 eq_refl ltac:(lia) q Q1 Q4).
        -- assert (In k ignoreNames) by (cbn in *; tauto). apply mem_In in H0. congruence.
      * rewrite C. intros T. apply mem_In in T. unfold ignoreNames in Ni. congruence.
Qed.

Lemma validateLearner_spec (c : learnerClass V) (m : args) : ProperClass c -> wfdict m ->
  (validateLearner c m = Ok tt /\ Accepted c m) \/
  (validateLearner c m = Err InvalidArgumentValue /\ ~ Accepted c m).
Proof.
  intros Hc Hw. unfold validateLearner.
  assert (Eq : LastAccepts (dkeys m) [(learnerParameterNames c, learnerDefaultValues c)] <-> Accepted c m).
  { unfold LastAccepts, SetAccepts, Satisfied, Accepted. split.
    - intros (i & ps & H & [A B] & _). destruct i as [|[|i]]; [|discriminate|discriminate]. injection H as <-.
      cbn [fst snd] in *. split.
      + intros k v Hk. apply parameterNames_spec; auto. apply B. apply dget_key. eauto.
      + intros k Ho Hd. apply dget_key. apply A; [apply parameterNames_spec; auto|]. apply defaults_spec; auto.
    - intros [A B]. exists 0, (learnerParameterNames c, learnerDefaultValues c). split; [reflexivity|].
      cbn [fst snd]. split; [split|].
      + intros p Hp Hd. apply parameterNames_spec in Hp; auto. apply dget_key. apply B; [exact Hp|].
        apply (defaults_spec c p Hc Hp). exact Hd.
      + intros k Hk. apply parameterNames_spec; auto. apply dget_key in Hk. destruct Hk as [v Hv]. eapply A; exact Hv.
      + intros [|[|j]] ps' L H; [lia|discriminate|discriminate]. }
  destruct (validateSets_spec [(learnerParameterNames c, learnerDefaultValues c)] m) as [[A B]|[A B]]; auto.
  - constructor; [|constructor]. cbn. apply NoDup_nodup.
  - left. split; [exact A|apply Eq; exact B].
  - right. split; [exact A|]. intros K. apply B, Eq, K.
Qed.

(** ** stored arguments *)
Lemma update_get (d m : args) k : wfdict m -> dget k (update d m) = match dget k m with Some v => Some v | None => dget k d end.
Proof. intros H. unfold update. apply fold_dset_get. exact H. Qed.
Lemma update_wf (m d : args) : wfdict d -> wfdict (update d m).
Proof. unfold update. revert d. induction m as [|[k v] m IH]; intros d H; [exact H|]. apply IH. apply wfdict_dset. exact H. Qed.

Lemma latest_snoc k (l : list args) m o : latest k (l ++ [m]) o <->
  match dget k m with Some v => o = Some v | None => latest k l o end.
Proof.
  split.
  - intros H. inversion H as [E|h m' v Hv E|h m' o' Hn Hl E]; subst.
    + destruct l; discriminate.
    + apply app_inj_tail in E. destruct E as [<- <-]. rewrite Hv. reflexivity.
    + apply app_inj_tail in E. destruct E as [<- <-]. rewrite Hn. exact Hl.
  - destruct (dget k m) as [v|] eqn:E; intros H; [subst o; apply latest_set; exact E|apply latest_skip; auto].
Qed.
Lemma latest_fun k (l : list args) : forall o o', latest k l o -> latest k l o' -> o = o'.
Proof.
  induction l as [|m l IH] using rev_ind; intros o o' H H'.
  - inversion H as [|h m v _ E|h m ? _ _ E]; try (destruct h; discriminate).
    inversion H' as [|h m v _ E|h m ? _ _ E]; try (destruct h; discriminate). reflexivity.
  - apply latest_snoc in H. apply latest_snoc in H'. destruct (dget k m); [congruence|eauto].
Qed.

Lemma Together_dget (a kw m m' : args) : Together a kw m -> Together a kw m' -> forall k, dget k m = dget k m'.
Proof.
  intros H H' k. destruct (dget k m) as [v|] eqn:E.
  - symmetry. apply H'. apply H. exact E.
  - destruct (dget k m') as [v|] eqn:E'; [|reflexivity]. rewrite <- E. apply H. apply H'. exact E'.
Qed.
Lemma merge_cases (a kw : args) : wfdict a -> wfdict kw ->
  (exists m, mergeArguments a kw = Ok m /\ wfdict m /\ Together a kw m) \/
  (mergeArguments a kw = Err InvalidArgumentValueCombination /\ forall m, ~ Together a kw m).
Proof.
  intros Ha Hk. destruct (mergeArguments_spec a kw Ha Hk) as [[E (k & v & w & H1 & H2 & H3)]|(m & E & W & G & C)].
  - right. split; [exact E|]. intros m T. apply H3.
    assert (A : dget k m = Some v) by (apply T; auto). assert (B : dget k m = Some w) by (apply T; auto). congruence.
  - left. exists m. split; [exact E|]. split; [exact W|]. intros k v. rewrite G. split.
    + destruct (dget k a); auto.
    + intros [-> |H]; [reflexivity|]. destruct (dget k a) as [x|] eqn:F; [|exact H]. f_equal. exact (C k x v F H).
Qed.
Lemma Accepted_ext (c : learnerClass V) (m m' : args) : (forall k, dget k m = dget k m') -> Accepted c m -> Accepted c m'.
Proof.
  intros E [A B]. split.
  - intros k v H. rewrite <- E in H. eapply A; exact H.
  - intros k H1 H2. rewrite <- E. exact (B k H1 H2).
Qed.
Lemma Callable_ext n (s : signature V) (f g : string -> option V) : (forall k, f k = g k) -> Callable n s f -> Callable n s g.
Proof.
  intros E [A B]. split.
  - intros k v H. rewrite <- E in H. exact (A k v H).
  - intros p H D. rewrite <- E. exact (B p H D).
Qed.
Lemma Receives_ext n (s : signature V) (f g : string -> option V) env : (forall k, f k = g k) -> Receives n s f env -> Receives n s g env.
Proof.
  intros E [A B]. split.
  - intros p H. rewrite <- E. exact (A p H).
  - intros k H. rewrite <- E. exact (B k H).
Qed.
Lemma Accepted_update (c : learnerClass V) (d m : args) : wfdict m -> Accepted c d -> Accepted c m -> Accepted c (update d m).
Proof.
  intros W [A B] [A' B']. split.
  - intros k v H. rewrite update_get in H by exact W. destruct (dget k m) as [x|] eqn:E; [exact (A' k x E)|exact (A k v H)].
  - intros k H1 H2. rewrite update_get by exact W. destruct (B' k H1 H2) as [v Hv]. rewrite Hv. eauto.
Qed.

(** ** training *)
Lemma train_spec (c : learnerClass V) (a kw : args) : ProperClass c -> wfdict a -> wfdict kw ->
  (exists m env, Together a kw m /\ wfdict m /\ Accepted c m /\ Callable 3 (cTrain c) (fun k => dget k m) /\
     train c a kw = Ok (mkTrained m m [Trained env]) /\ Receives 3 (cTrain c) (fun k => dget k m) env) \/
  ((exists e, train c a kw = Err e) /\
     forall m, Together a kw m -> Accepted c m -> ~ Callable 3 (cTrain c) (fun k => dget k m)).
Proof.
  intros Hc Ha Hk. unfold train. destruct (merge_cases a kw Ha Hk) as [(m & E & W & T)|[E N]]; rewrite E; cbn [rbind].
  - destruct (validateLearner_spec c m Hc W) as [[A B]|[A B]]; rewrite A; cbn [rbind].
    + destruct (callMethod_spec 3 (cTrain c) m (proj1 Hc) W) as [(env & C & D & R)|[C D]]; rewrite C; cbn [rbind].
      * left. exists m, env. do 4 (split; auto).
      * right. split; [eauto|]. intros m' T' _ K. apply D. eapply Callable_ext; [|exact K].
        intros k. cbn. symmetry. exact (Together_dget a kw m m' T T' k).
    + right. split; [eauto|]. intros m' T' K. exfalso. apply B.
      eapply Accepted_ext; [|exact K]. intros k. symmetry. exact (Together_dget a kw m m' T T' k).
  - right. split; [eauto|]. intros m T. exfalso. exact (N m T).
Qed.

Definition okState (c : learnerClass V) (t : trained V) : Prop :=
  wfdict (tArguments t) /\ wfdict (tTransformed t) /\ Accepted c (tTransformed t).

Lemma retrain_spec (c : learnerClass V) t (a kw : args) : ProperClass c -> okState c t -> wfdict a -> wfdict kw ->
  let val (m : args) k := match dget k m with Some v => Some v | None => dget k (tTransformed t) end in
  (exists m env t', Together a kw m /\ wfdict m /\ Accepted c m /\ Callable 3 (cTrain c) (val m) /\
     retrain c t a kw = (t', Ok tt) /\ tArguments t' = m /\ tTransformed t' = update (tTransformed t) m /\
     tBackend t' = [Trained env] /\ Receives 3 (cTrain c) (val m) env) \/
  (exists m t', Together a kw m /\ wfdict m /\ Accepted c m /\ ~ Callable 3 (cTrain c) (val m) /\
     retrain c t a kw = (t', Err TypeErr) /\ tArguments t' = update (tArguments t) m /\
     tTransformed t' = update (tTransformed t) m /\ tBackend t' = tBackend t) \/
  (exists e, retrain c t a kw = (t, Err e) /\ e <> TypeErr /\ forall m, Together a kw m -> ~ Accepted c m).
Proof.
  intros Hc (W1 & W2 & Ac) Ha Hk val. unfold retrain.
  destruct (merge_cases a kw Ha Hk) as [(m & E & W & T)|[E N]]; rewrite E.
  2:{ right. right. eexists; split; [reflexivity|]. split; [discriminate|]. intros m T. exfalso. exact (N m T). }
  destruct (validateLearner_spec c m Hc W) as [[A B]|[A B]]; rewrite A.
  2:{ right. right. eexists; split; [reflexivity|]. split; [discriminate|]. intros m' T' K. apply B.
      eapply Accepted_ext; [|exact K]. intros k. symmetry. exact (Together_dget a kw m m' T T' k). }
  assert (Wu : wfdict (update (tTransformed t) m)) by (apply update_wf; exact W2).
  assert (Gu : forall k, dget k (update (tTransformed t) m) = val m k) by (intros k; apply update_get; exact W).
  destruct (validateLearner_spec c (update (tTransformed t) m) Hc Wu) as [[A2 _]|[_ B2]].
  2:{ exfalso. apply B2. apply Accepted_update; auto. }
  rewrite A2. cbn [rbind].
  destruct (callMethod_spec 3 (cTrain c) (update (tTransformed t) m) (proj1 Hc) Wu) as [(env & C & D & R)|[C D]]; rewrite C.
  - left. exists m, env. eexists. do 3 (split; auto). split; [eapply Callable_ext; [exact Gu|exact D]|].
    split; [reflexivity|]. cbn. do 3 (split; auto). eapply Receives_ext; [exact Gu|exact R].
  - right. left. exists m. eexists. do 3 (split; auto). split.
    { intros K. apply D. eapply Callable_ext; [|exact K]. intros k. symmetry. apply Gu. }
    split; [reflexivity|]. cbn. auto.
Qed.

Lemma incremental_spec (c : learnerClass V) t (oa : option args) : ProperClass c -> wfdict (tArguments t) ->
  (forall a, oa = Some a -> wfdict a) ->
  let val k := match oa with
               | Some a => match dget k a with Some v => Some v | None => dget k (tArguments t) end
               | None => dget k (tArguments t) end in
  exists args', wfdict args' /\ (forall k, dget k args' = val k) /\
  ((exists env, incrementalTrain c t oa = (mkTrained args' (tTransformed t) (tBackend t ++ [Extended env]), Ok tt) /\
      Callable 3 (cIncremental c) val /\ Receives 3 (cIncremental c) val env) \/
   (incrementalTrain c t oa = (mkTrained args' (tTransformed t) (tBackend t), Err TypeErr) /\
      ~ Callable 3 (cIncremental c) val)).
Proof.
  intros Hc W Ho val. unfold incrementalTrain.
  set (args' := match oa with Some a => update (tArguments t) a | None => tArguments t end).
  assert (Wa : wfdict args') by (unfold args'; destruct oa; [apply update_wf|]; exact W).
  assert (Ga : forall k, dget k args' = val k).
  { intros k. unfold args', val. destruct oa as [a|]; [|reflexivity]. apply update_get. apply Ho. reflexivity. }
  clearbody args'. exists args'. split; [exact Wa|]. split; [exact Ga|].
  destruct Hc as (_ & Hi & _).
  destruct (callMethod_spec 3 (cIncremental c) args' Hi Wa) as [(env & C & D & R)|[C D]]; rewrite C.
  - left. exists env. split; [reflexivity|]. split; [eapply Callable_ext; [exact Ga|exact D]|eapply Receives_ext; [exact Ga|exact R]].
  - right. split; [reflexivity|]. intros K. apply D. eapply Callable_ext; [|exact K]. intros k. symmetry. apply Ga.
Qed.

(** ** histories *)
Lemma run_snoc (c : learnerClass V) ops : forall t o,
  run c t (ops ++ [o]) =
  let (t1, h) := run c t ops in let (t2, r) := step c t1 o in (t2, h ++ [(o, r)]).
Proof.
  induction ops as [|x ops IH]; intros t o; cbn [run app].
  - destruct (step c t o) as [t2 r]. reflexivity.
  - destruct (step c t x) as [t1 r1]. rewrite IH. destruct (run c t1 ops) as [t2 h]. destruct (step c t2 o) as [t3 r]. reflexivity.
Qed.

Lemma step_wf (c : learnerClass V) t o : ProperClass c -> okState c t -> properOp o -> okState c (fst (step c t o)).
Proof.
  intros Hc Ho Hp. destruct Ho as (W1 & W2 & Ac). destruct o as [a kw|oa]; cbn [step].
  - destruct Hp as [Ha Hk].
    destruct (retrain_spec c t a kw Hc (conj W1 (conj W2 Ac)) Ha Hk) as
      [(m & env & t' & T & W & A & _ & E & E1 & E2 & _)|[(m & t' & T & W & A & _ & E & E1 & E2 & _)|(e & E & _)]];
      rewrite E; cbn [fst]; unfold okState.
    + rewrite E1, E2. do 2 (split; [solve [auto using update_wf]|]). apply Accepted_update; auto.
    + rewrite E1, E2. do 2 (split; [solve [auto using update_wf]|]). apply Accepted_update; auto.
    + auto.
  - destruct (incremental_spec c t oa Hc W1) as (args' & Wa & _ & [(env & E & _)|[E _]]).
    { intros a ->. exact Hp. }
    all: rewrite E; cbn [fst]; unfold okState; cbn; auto.
Qed.
Lemma run_wf (c : learnerClass V) t ops : ProperClass c -> okState c t -> Forall properOp ops -> okState c (fst (run c t ops)).
Proof.
  intros Hc. revert t. induction ops as [|o ops IH]; intros t Ho Hf; [exact Ho|].
  inversion Hf as [|? ? P Q]; subst. cbn [run]. pose proof (step_wf c t o Hc Ho P) as H1.
  destruct (step c t o) as [t1 r]. cbn [fst] in H1. specialize (IH t1 H1 Q). destruct (run c t1 ops) as [t2 l]. exact IH.
Qed.

Lemma Settings_snoc h o r (l : list args) : Settings (h ++ [(o, r)]) l ->
  match o with
  | OIncremental _ => Settings h l
  | ORetrain a kw =>
      (exists l' m, l = l' ++ [m] /\ Settings h l' /\ (r = Ok tt \/ r = Err TypeErr) /\ Together a kw m) \/
      (exists e, r = Err e /\ e <> TypeErr /\ Settings h l)
  end.
Proof.
  intros H. inversion H as [E|h' l' oa r' Hs E|h' l' a kw m r' Hs Hr Ht E|h' l' a kw e Hs He E]; subst.
  - destruct h; discriminate.
  - apply app_inj_tail in E. destruct E as [-> E]. injection E as <- <-. exact Hs.
  - apply app_inj_tail in E. destruct E as [-> E]. injection E as <- <-. left. exists l', m. auto.
  - apply app_inj_tail in E. destruct E as [-> E]. injection E as <- <-. right. exists e. auto.
Qed.

Lemma stored_spec (c : learnerClass V) t0 ops : ProperClass c -> okState c t0 -> Forall properOp ops ->
  (exists l, Settings (snd (run c t0 ops)) l) /\
  forall l, Settings (snd (run c t0 ops)) l -> forall k, latest k (tTransformed t0 :: l) (dget k (tTransformed (fst (run c t0 ops)))).
Proof.
  intros Hc Ho. induction ops as [|o ops IH] using rev_ind; intros Hf.
  - cbn [run fst snd]. split; [exists []; constructor|]. intros l H k.
    inversion H as [E|h ? ? ? _ E|h ? ? ? ? ? _ _ _ E|h ? ? ? ? _ _ E]; subst; try (destruct h; discriminate).
    change [tTransformed t0] with ([] ++ [tTransformed t0]). apply latest_snoc.
    destruct (dget k (tTransformed t0)); [reflexivity|constructor].
  - apply Forall_app in Hf. destruct Hf as [Hf Hp]. inversion Hp as [|? ? Po _]; subst.
    destruct (IH Hf) as [[l0 Hl0] IHl]. clear IH. pose proof (run_wf c t0 ops Hc Ho Hf) as Hw.
    rewrite run_snoc. destruct (run c t0 ops) as [t h] eqn:ER. cbn [fst snd] in *.
    destruct o as [a kw|oa]; cbn [step].
    + destruct Po as [Ha Hk].
      destruct (retrain_spec c t a kw Hc Hw Ha Hk) as
        [(m & env & t' & T & W & A & _ & E & E1 & E2 & _)|[(m & t' & T & W & A & _ & E & E1 & E2 & _)|(e & E & E1 & E2)]];
        rewrite E; cbn [fst snd].
      * split; [exists (l0 ++ [m]); apply Set_retrain; auto|].
        intros l Hl k. apply Settings_snoc in Hl. destruct Hl as [(l' & m' & -> & Hl & _ & Ht)|(e & D & _)]; [|discriminate].
        rewrite app_comm_cons. apply latest_snoc. rewrite E2, update_get by exact W.
        rewrite (Together_dget a kw m m' T Ht k). destruct (dget k m'); [reflexivity|]. apply IHl; exact Hl.
      * split; [exists (l0 ++ [m]); apply Set_retrain; auto|].
        intros l Hl k. apply Settings_snoc in Hl. destruct Hl as [(l' & m' & -> & Hl & _ & Ht)|(e & D & N & _)]; [|congruence].
        rewrite app_comm_cons. apply latest_snoc. rewrite E2, update_get by exact W.
        rewrite (Together_dget a kw m m' T Ht k). destruct (dget k m'); [reflexivity|]. apply IHl; exact Hl.
      * split; [exists l0; apply Set_refused; auto|].
        intros l Hl k. apply Settings_snoc in Hl. destruct Hl as [(l' & m' & -> & Hl & [D|D] & Ht)|(e' & D & N & Hl)].
        -- discriminate.
        -- congruence.
        -- apply IHl; exact Hl.
    + destruct (incremental_spec c t oa Hc (proj1 Hw)) as (args' & Wa & _ & [(env & E & _)|[E _]]).
      { intros a ->. exact Po. }
      all: rewrite E; cbn [fst snd]; (split; [exists l0; apply Set_incremental; exact Hl0|]);
        intros l Hl k; apply Settings_snoc in Hl; cbn [tTransformed]; apply IHl; exact Hl.
Qed.

Lemma IncSettings_snoc m0 h o r (l : list args) : IncrementalSettings m0 (h ++ [(o, r)]) l ->
  match o with
  | OIncremental None => IncrementalSettings m0 h l
  | OIncremental (Some a) => exists l', l = l' ++ [a] /\ IncrementalSettings m0 h l'
  | ORetrain a kw =>
      exists l', IncrementalSettings m0 h l' /\
       ((exists m, r = Ok tt /\ Together a kw m /\ l = [m]) \/
        (exists m, r = Err TypeErr /\ Together a kw m /\ l = l' ++ [m]) \/
        (exists e, r = Err e /\ e <> TypeErr /\ l = l'))
  end.
Proof.
  intros H. inversion H as [E|h' l' r' Hs E|h' l' a r' Hs E|h' l' a kw m Hs Ht E|h' l' a kw m Hs Ht E|h' l' a kw e Hs He E]; subst;
    try (apply app_inj_tail in E; destruct E as [-> E]; injection E as <- <-).
  - destruct h; discriminate.
  - exact Hs.
  - exists l'; auto.
  - exists l'. split; [exact Hs|]. left. exists m; auto.
  - exists l'. split; [exact Hs|]. right; left. exists m; auto.
  - exists l. split; [exact Hs|]. right; right. exists e; auto.
Qed.

Lemma inc_stored_spec (c : learnerClass V) t0 ops : ProperClass c -> okState c t0 -> Forall properOp ops ->
  (exists l, IncrementalSettings (tArguments t0) (snd (run c t0 ops)) l) /\
  forall l, IncrementalSettings (tArguments t0) (snd (run c t0 ops)) l ->
    forall k, latest k l (dget k (tArguments (fst (run c t0 ops)))).
Proof.
  intros Hc Ho. induction ops as [|o ops IH] using rev_ind; intros Hf.
  - cbn [run fst snd]. split; [exists [tArguments t0]; constructor|]. intros l H k.
    inversion H as [E|h ? ? _ E|h ? ? ? _ E|h ? ? ? ? _ _ E|h ? ? ? ? _ _ E|h ? ? ? ? _ _ E]; subst; try (destruct h; discriminate).
    change [tArguments t0] with ([] ++ [tArguments t0]). apply latest_snoc.
    destruct (dget k (tArguments t0)); [reflexivity|constructor].
  - apply Forall_app in Hf. destruct Hf as [Hf Hp]. inversion Hp as [|? ? Po _]; subst.
    destruct (IH Hf) as [[l0 Hl0] IHl]. clear IH. pose proof (run_wf c t0 ops Hc Ho Hf) as Hw.
    rewrite run_snoc. destruct (run c t0 ops) as [t h] eqn:ER. cbn [fst snd] in *.
    destruct o as [a kw|oa]; cbn [step].
    + destruct Po as [Ha Hk].
      destruct (retrain_spec c t a kw Hc Hw Ha Hk) as
        [(m & env & t' & T & W & A & _ & E & E1 & E2 & _)|[(m & t' & T & W & A & _ & E & E1 & E2 & _)|(e & E & E1 & E2)]];
        rewrite E; cbn [fst snd].
      * split; [exists [m]; eapply Inc_retrain; eauto|].
        intros l Hl k. apply IncSettings_snoc in Hl.
        destruct Hl as (l' & Hl & [(m' & _ & Ht & ->)|[(m' & D & _)|(e & D & _)]]); try discriminate.
        change [m'] with ([] ++ [m']). apply latest_snoc. rewrite E1, (Together_dget a kw m m' T Ht k).
        destruct (dget k m'); [reflexivity|constructor].
      * split; [exists (l0 ++ [m]); eapply Inc_failed; eauto|].
        intros l Hl k. apply IncSettings_snoc in Hl.
        destruct Hl as (l' & Hl & [(m' & D & _)|[(m' & _ & Ht & ->)|(e & D & N & _)]]); try congruence.
        apply latest_snoc. rewrite E1, update_get by exact W. rewrite (Together_dget a kw m m' T Ht k).
        destruct (dget k m'); [reflexivity|]. apply IHl; exact Hl.
      * split; [exists l0; apply Inc_refused; auto|].
        intros l Hl k. apply IncSettings_snoc in Hl.
        destruct Hl as (l' & Hl & [(m' & D & _)|[(m' & D & Ht & ->)|(e' & D & N & ->)]]); try congruence.
        apply IHl; exact Hl.
    + destruct (incremental_spec c t oa Hc (proj1 Hw)) as (args' & Wa & Ga & K).
      { intros a ->. exact Po. }
      assert (F : exists r, incrementalTrain c t oa = (fst (incrementalTrain c t oa), r) /\
                    tArguments (fst (incrementalTrain c t oa)) = args').
      { destruct K as [(env & E & _)|[E _]]; rewrite E; eexists; split; reflexivity. }
      destruct F as (r & F1 & F2). rewrite F1. cbn [fst snd]. rewrite F2.
      destruct oa as [a|].
      * split; [exists (l0 ++ [a]); apply Inc_given; exact Hl0|]. intros l Hl k. apply IncSettings_snoc in Hl.
        destruct Hl as (l' & -> & Hl). apply latest_snoc. rewrite Ga. destruct (dget k a); [reflexivity|]. apply IHl; exact Hl.
      * split; [exists l0; apply Inc_plain; exact Hl0|]. intros l Hl k. apply IncSettings_snoc in Hl.
        rewrite Ga. apply IHl; exact Hl.
Qed.

(** ** apply *)
Lemma getMethod_fold names (stored : args) : forall d, wfdict d ->
  let d' := fold_left (fun d k => if dmem k d then d
                                 else match dget k stored with Some v => dset k v d | None => d end) names d in
  wfdict d' /\ forall k, dget k d' = match dget k d with Some v => Some v | None => if mem k names then dget k stored else None end.
Proof.
  induction names as [|n names IH]; intros d W; cbn [fold_left].
  - split; [exact W|]. intros k. cbn. destruct (dget k d); reflexivity.
  - set (d1 := if dmem n d then d else match dget n stored with Some v => dset n v d | None => d end).
    assert (W1 : wfdict d1) by (unfold d1; destruct (dmem n d); [exact W|]; destruct (dget n stored); [apply wfdict_dset|]; exact W).
    destruct (IH d1 W1) as [A B]. split; [exact A|]. intros k. rewrite B. cbn [mem]. unfold d1.
    destruct (dmem n d) eqn:E.
    + destruct (dget k d) eqn:G; [reflexivity|]. destruct (eq_dec k n) as [-> |N]; [|reflexivity].
      apply dmem_dget in E. destruct E; congruence.
    + assert (Gn : dget n d = None).
      { destruct (dget n d) eqn:G; [|reflexivity]. assert (dmem n d = true) by (apply dmem_dget; eauto). congruence. }
      destruct (dget n stored) as [v|] eqn:S1.
      * rewrite dget_dset. destruct (eq_dec k n) as [-> |N]; [rewrite Gn, S1; reflexivity|reflexivity].
      * destruct (eq_dec k n) as [-> |N]; [|reflexivity]. rewrite Gn, S1. destruct (mem n names); reflexivity.
Qed.

Lemma apply_spec (c : learnerClass V) t (a kw : args) : ProperClass c -> okState c t -> wfdict a -> wfdict kw ->
  let offered k := exists p, Param 2 (cApply c) p /\ pkind p = PositionalOrKeyword /\ pname p = k in
  (exists m val env, Together a kw m /\ (forall k v, dget k m = Some v -> offered k) /\
     (forall k, offered k -> val k = match dget k m with Some v => Some v | None => dget k (tTransformed t) end) /\
     (forall k, ~ offered k -> val k = None) /\
     Callable 2 (cApply c) val /\ apply c t a kw = Ok env /\ Receives 2 (cApply c) val env) \/
  (exists e, apply c t a kw = Err e /\
     forall m val, Together a kw m -> (forall k v, dget k m = Some v -> offered k) ->
     (forall k, offered k -> val k = match dget k m with Some v => Some v | None => dget k (tTransformed t) end) ->
     (forall k, ~ offered k -> val k = None) -> ~ Callable 2 (cApply c) val).
Proof.
  intros Hc (W1 & W2 & Ac) Ha Hk offered. unfold apply.
  assert (Of : forall k, mem k (skipn 1 (applyParameters c)) = true <-> offered k).
  { intros k. rewrite mem_In. apply (proj1 (applyParameters_In c k Hc)). }
  destruct (merge_cases a kw Ha Hk) as [(m & E & W & T)|[E N]]; rewrite E; cbn [rbind].
  2:{ right. eexists; split; [reflexivity|]. intros m val T. exfalso. exact (N m T). }
  unfold getMethodArguments.
  destruct (existsb (fun k => negb (mem k (skipn 1 (applyParameters c)))) (dkeys m)) eqn:X; cbn [rbind].
  { right. eexists; split; [reflexivity|]. intros m' val T' O. exfalso. apply existsb_exists in X.
    destruct X as (k & K1 & K2). apply negb_true_iff in K2. apply dget_key in K1. destruct K1 as [v Hv].
    rewrite (Together_dget a kw m m' T T' k) in Hv. apply O in Hv. apply Of in Hv. congruence. }
  assert (Om : forall k v, dget k m = Some v -> offered k).
  { intros k v Hv. apply Of. destruct (mem k (skipn 1 (applyParameters c))) eqn:M; [reflexivity|].
    assert (existsb (fun k => negb (mem k (skipn 1 (applyParameters c)))) (dkeys m) = true); [|congruence].
    apply existsb_exists. exists k. split; [apply dget_key; eauto|rewrite M; reflexivity]. }
  destruct (getMethod_fold (skipn 1 (applyParameters c)) (tTransformed t) m W) as [Wd Gd].
  set (d' := fold_left _ _ _) in *. clearbody d'.
  assert (V1 : forall k, offered k -> dget k d' = match dget k m with Some v => Some v | None => dget k (tTransformed t) end).
  { intros k O. rewrite Gd. apply Of in O. rewrite O. reflexivity. }
  assert (V2 : forall k, ~ offered k -> dget k d' = None).
  { intros k O. rewrite Gd. destruct (dget k m) as [v|] eqn:Hv; [exfalso; exact (O (Om k v Hv))|].
    destruct (mem k (skipn 1 (applyParameters c))) eqn:M; [|reflexivity]. exfalso. apply O, Of, M. }
  destruct Hc as (_ & _ & Hs & _).
  destruct (callMethod_spec 2 (cApply c) d' Hs Wd) as [(env & C & D & R)|[C D]]; rewrite C.
  - left. exists m, (fun k => dget k d'), env. do 6 (split; auto).
  - right. exists TypeErr. split; [reflexivity|]. intros m' val T' O' P1 P2 K. apply D. eapply Callable_ext; [|exact K].
    intros k. cbn. destruct (mem k (skipn 1 (applyParameters c))) eqn:M.
    + apply Of in M. rewrite (P1 k M), (V1 k M), (Together_dget a kw m m' T T' k). reflexivity.
    + assert (~ offered k) by (intros Z; apply Of in Z; congruence). rewrite (P2 k H), (V2 k H). reflexivity.
Qed.

Lemma latest_head k (m m' : args) l : dget k m = dget k m' -> forall o, latest k (m :: l) o -> latest k (m' :: l) o.
Proof.
  intros E. induction l as [|x l IH] using rev_ind; intros o H.
  - change [m] with ([] ++ [m]) in H. change [m'] with ([] ++ [m']). apply latest_snoc in H. apply latest_snoc.
    rewrite <- E. exact H.
  - rewrite app_comm_cons in *. apply latest_snoc in H. apply latest_snoc. destruct (dget k x); auto.
Qed.

Lemma train_state (c : learnerClass V) (a kw : args) t : ProperClass c -> wfdict a -> wfdict kw -> train c a kw = Ok t ->
  okState c t /\ Together a kw (tArguments t) /\ tTransformed t = tArguments t.
Proof.
  intros Hc Ha Hk H. destruct (train_spec c a kw Hc Ha Hk) as [(m & env & T & W & A & C & E & R)|[[e E] _]]; rewrite E in H; [|discriminate].
  injection H as <-. cbn. split; [split; [exact W|split; [exact W|exact A]]|]. auto.
Qed.

Lemma stored_after (c : learnerClass V) (a0 kw0 : args) t0 ops m0 l stored :
  ProperClass c -> wfdict a0 -> wfdict kw0 -> Forall properOp ops -> train c a0 kw0 = Ok t0 ->
  Together a0 kw0 m0 -> Settings (snd (run c t0 ops)) l -> Stored (m0 :: l) stored ->
  okState c (fst (run c t0 ops)) /\ forall k, dget k (tTransformed (fst (run c t0 ops))) = stored k.
Proof.
  intros Hc Ha Hk Hf Ht T Hs St. destruct (train_state c a0 kw0 t0 Hc Ha Hk Ht) as (Ho & T0 & E0).
  split; [apply run_wf; auto|]. intros k. destruct (stored_spec c t0 ops Hc Ho Hf) as [_ H].
  specialize (H l Hs k). apply (latest_head k (tTransformed t0) m0) in H.
  - exact (latest_fun k _ _ _ H (St k)).
  - rewrite E0. exact (Together_dget a0 kw0 _ _ T0 T k).
Qed.

Lemma apply_after (c : learnerClass V) (a0 kw0 : args) t0 ops m0 l stored (a kw m : args) val :
  ProperClass c -> wfdict a0 -> wfdict kw0 -> Forall properOp ops -> train c a0 kw0 = Ok t0 ->
  Together a0 kw0 m0 -> Settings (snd (run c t0 ops)) l -> Stored (m0 :: l) stored ->
  wfdict a -> wfdict kw -> Together a kw m -> ApplyValues c m stored val ->
  ((exists env, apply c (fst (run c t0 ops)) a kw = Ok env) <->
     (forall k v, dget k m = Some v -> exists p, Param 2 (cApply c) p /\ pkind p = PositionalOrKeyword /\ pname p = k) /\
     Callable 2 (cApply c) val) /\
  (forall env, apply c (fst (run c t0 ops)) a kw = Ok env -> Receives 2 (cApply c) val env).
Proof.
  intros Hc Ha0 Hk0 Hf Ht T0 Hs St Ha Hk T [V1 V2].
  destruct (stored_after c a0 kw0 t0 ops m0 l stored Hc Ha0 Hk0 Hf Ht T0 Hs St) as [Ho Hst].
  set (t := fst (run c t0 ops)) in *. clearbody t.
  assert (Dec : forall k, (exists p, Param 2 (cApply c) p /\ pkind p = PositionalOrKeyword /\ pname p = k) \/
                          ~ (exists p, Param 2 (cApply c) p /\ pkind p = PositionalOrKeyword /\ pname p = k)).
  { intros k. destruct (mem k (skipn 1 (applyParameters c))) eqn:M.
    - left. apply (proj1 (applyParameters_In c k Hc)). apply mem_In. exact M.
    - right. intros H. apply (proj1 (applyParameters_In c k Hc)) in H. apply mem_In in H. congruence. }
  destruct (apply_spec c t a kw Hc Ho Ha Hk) as [(m' & val' & env' & T' & O & P1 & P2 & C & E & R)|(e & E & N)].
  - assert (Ev : forall k, val' k = val k).
    { intros k. destruct (Dec k) as [D|D].
      - rewrite (P1 k D). destruct D as (p & D1 & D2 & <-). rewrite (V1 p D1 D2), Hst.
        rewrite (Together_dget a kw m' m T' T (pname p)). reflexivity.
      - rewrite (P2 k D). symmetry. apply V2. intros p D1 D2 D3. apply D. exists p; auto. }
    split.
    + split; [intros _|intros _; eauto]. split; [|eapply Callable_ext; [exact Ev|exact C]].
      intros k v H. rewrite <- (Together_dget a kw m' m T' T k) in H. exact (O k v H).
    + intros env Henv. rewrite E in Henv. injection Henv as <-. eapply Receives_ext; [exact Ev|exact R].
  - split.
    + split; [intros [env H]; congruence|]. intros [O C]. exfalso. refine (N m val T O _ _ C).
      * intros k (p & D1 & D2 & <-). rewrite Hst. exact (V1 p D1 D2).
      * intros k D. apply V2. intros p D1 D2 D3. apply D. exists p; auto.
    + intros env H. congruence.
Qed.

Lemma retrain_after (c : learnerClass V) (a0 kw0 : args) t0 ops m0 l stored (a kw m : args) :
  ProperClass c -> wfdict a0 -> wfdict kw0 -> Forall properOp ops -> train c a0 kw0 = Ok t0 ->
  Together a0 kw0 m0 -> Settings (snd (run c t0 ops)) l ->
  wfdict a -> wfdict kw -> Together a kw m -> Stored (m0 :: l ++ [m]) stored ->
  let t := fst (run c t0 ops) in
  (snd (retrain c t a kw) = Ok tt <-> Accepted c m /\ Callable 3 (cTrain c) stored) /\
  (snd (retrain c t a kw) = Ok tt ->
     exists env, tBackend (fst (retrain c t a kw)) = [Trained env] /\ Receives 3 (cTrain c) stored env) /\
  (snd (retrain c t a kw) <> Ok tt -> tBackend (fst (retrain c t a kw)) = tBackend t) /\
  (~ Accepted c m -> fst (retrain c t a kw) = t).
Proof.
  intros Hc Ha0 Hk0 Hf Ht T0 Hs Ha Hk T St t.
  destruct (train_state c a0 kw0 t0 Hc Ha0 Hk0 Ht) as (Ho0 & TT & E0).
  assert (Ho : okState c t) by (apply run_wf; auto).
  assert (Ev : forall k, match dget k m with Some v => Some v | None => dget k (tTransformed t) end = stored k).
  { intros k. specialize (St k). rewrite app_comm_cons in St. apply latest_snoc in St.
    destruct (dget k m) as [v|]; [congruence|].
    destruct (stored_spec c t0 ops Hc Ho0 Hf) as [_ H]. specialize (H l Hs k).
    apply (latest_head k (tTransformed t0) m0) in H; [exact (latest_fun k _ _ _ H St)|].
    rewrite E0. exact (Together_dget a0 kw0 _ _ TT T0 k). }
  clearbody t.
  assert (Em : forall m' k, Together a kw m' ->
     match dget k m' with Some v => Some v | None => dget k (tTransformed t) end = stored k).
  { intros m' k T'. rewrite <- Ev. rewrite (Together_dget a kw m' m T' T k). reflexivity. }
  destruct (retrain_spec c t a kw Hc Ho Ha Hk) as
    [(m' & env & t' & T' & W & A & C & E & E1 & E2 & E3 & R)|[(m' & t' & T' & W & A & C & E & E1 & E2 & E3)|(e & E & E1 & E2)]];
    rewrite E; cbn [fst snd].
  - assert (Acc : Accepted c m) by (eapply Accepted_ext; [|exact A]; intros k; exact (Together_dget a kw m' m T' T k)).
    split; [split; [intros _; split; [exact Acc|]|intros _; reflexivity]|].
    { eapply Callable_ext; [|exact C]. intros k; exact (Em m' k T'). }
    split; [intros _; exists env; split; [exact E3|eapply Receives_ext; [|exact R]; intros k; exact (Em m' k T')]|].
    split; [intros H; contradiction|intros H; contradiction].
  - split; [split; [discriminate|]|].
    { intros [_ K]. exfalso. apply C. eapply Callable_ext; [|exact K]. intros k. symmetry. exact (Em m' k T'). }
    split; [discriminate|]. split; [intros _; exact E3|]. intros H. exfalso. apply H.
    eapply Accepted_ext; [|exact A]. intros k; exact (Together_dget a kw m' m T' T k).
  - split; [split; [discriminate|intros [K _]; exfalso; exact (E2 m T K)]|]. split; [discriminate|]. split; reflexivity.
Qed.

Lemma incremental_after (c : learnerClass V) (a0 kw0 : args) t0 ops m0 l stored (oa : option args) :
  ProperClass c -> wfdict a0 -> wfdict kw0 -> Forall properOp ops -> train c a0 kw0 = Ok t0 ->
  Together a0 kw0 m0 -> IncrementalSettings m0 (snd (run c t0 ops)) l ->
  (forall a, oa = Some a -> wfdict a) -> Stored (l ++ match oa with Some a => [a] | None => [] end) stored ->
  let t := fst (run c t0 ops) in
  (snd (incrementalTrain c t oa) = Ok tt <-> Callable 3 (cIncremental c) stored) /\
  (snd (incrementalTrain c t oa) = Ok tt ->
     exists env, tBackend (fst (incrementalTrain c t oa)) = tBackend t ++ [Extended env] /\
       Receives 3 (cIncremental c) stored env) /\
  (snd (incrementalTrain c t oa) <> Ok tt -> tBackend (fst (incrementalTrain c t oa)) = tBackend t).
Proof.
  intros Hc Ha0 Hk0 Hf Ht T0 Hs Hoa St t.
  destruct (train_state c a0 kw0 t0 Hc Ha0 Hk0 Ht) as (Ho0 & TT & E0).
  assert (Ho : okState c t) by (apply run_wf; auto).
  assert (Inv : forall h l, IncrementalSettings m0 h l -> exists l', IncrementalSettings (tArguments t0) h l' /\
             forall k o, latest k l' o -> latest k l o).
  { clear -TT T0. intros h l H. induction H as [|h l r H (l' & A & B)|h l a r H (l' & A & B)|h l a kw m H (l' & A & B) HT|h l a kw m H (l' & A & B) HT|h l a kw e H (l' & A & B) HE].
    - exists [tArguments t0]. split; [constructor|]. intros k o. apply latest_head.
      exact (Together_dget a0 kw0 _ _ TT T0 k).
    - exists l'. split; [constructor; exact A|exact B].
    - exists (l' ++ [a]). split; [constructor; exact A|]. intros k o K. apply latest_snoc in K. apply latest_snoc.
      destruct (dget k a); auto.
    - exists [m]. split; [eapply Inc_retrain; eauto|auto].
    - exists (l' ++ [m]). split; [eapply Inc_failed; eauto|]. intros k o K. apply latest_snoc in K. apply latest_snoc.
      destruct (dget k m); auto.
    - exists l'. split; [apply Inc_refused; auto|exact B]. }
  assert (La : forall k, latest k l (dget k (tArguments t))).
  { intros k. destruct (Inv _ _ Hs) as (l' & A & B). apply B. apply (proj2 (inc_stored_spec c t0 ops Hc Ho0 Hf)). exact A. }
  clearbody t. destruct Ho as (W & _).
  destruct (incremental_spec c t oa Hc W Hoa) as (args' & Wa & Ga & K).
  assert (Ev : forall k, match oa with
               | Some a => match dget k a with Some v => Some v | None => dget k (tArguments t) end
               | None => dget k (tArguments t) end = stored k).
  { intros k. specialize (St k). destruct oa as [a|].
    - apply latest_snoc in St. destruct (dget k a); [congruence|]. exact (latest_fun k _ _ _ (La k) St).
    - rewrite app_nil_r in St. exact (latest_fun k _ _ _ (La k) St). }
  destruct K as [(env & E & C & R)|[E C]]; rewrite E; cbn [fst snd tBackend].
  - split; [split; [intros _; eapply Callable_ext; [exact Ev|exact C]|reflexivity]|].
    split; [intros _; exists env; split; [reflexivity|eapply Receives_ext; [exact Ev|exact R]]|]. intros H; contradiction.
  - split; [split; [discriminate|]|].
    { intros Z. exfalso. apply C. eapply Callable_ext; [|exact Z]. intros k; symmetry; apply Ev. }
    split; [discriminate|reflexivity].
Qed.

(** ** names the learner's methods do not have *)
Lemma not_callable n (s : signature V) (val : string -> option V) k v : svarkw s = false ->
  (forall p, Param n s p -> pname p <> k) -> val k = Some v -> ~ Callable n s val.
Proof. intros W H Hv [C _]. destruct (C k v Hv) as [(p & P1 & P2)|[P _]]; [exact (H p P1 P2)|congruence]. Qed.

Lemma trans_keys_step (c : learnerClass V) t o k : ProperClass c -> okState c t -> properOp o ->
  In k (dkeys (tTransformed t)) -> In k (dkeys (tTransformed (fst (step c t o)))).
Proof.
  intros Hc Ho Hp Hk. destruct o as [a kw|oa]; cbn [step].
  - destruct Hp as [Ha Hkw].
    destruct (retrain_spec c t a kw Hc Ho Ha Hkw) as
    [(m' & env & t' & T' & W & A & C & E & E1 & E2 & E3 & R)|[(m' & t' & T' & W & A & C & E & E1 & E2 & E3)|(e & E & E1 & E2)]];
    rewrite E; cbn [fst]; try rewrite E2; auto;
    apply dget_key; rewrite update_get by exact W; destruct (dget k m'); eauto; apply dget_key; exact Hk.
  - destruct Ho as (W & _). destruct (incremental_spec c t oa Hc W) as (args' & Wa & _ & [(env & E & _)|[E _]]).
    { intros a ->. exact Hp. }
    all: rewrite E; cbn [fst tTransformed]; exact Hk.
Qed.
Lemma trans_keys_run (c : learnerClass V) ops k : forall t, ProperClass c -> okState c t -> Forall properOp ops ->
  In k (dkeys (tTransformed t)) -> In k (dkeys (tTransformed (fst (run c t ops)))).
Proof.
  induction ops as [|o ops IH]; intros t Hc Ho Hf Hk; [exact Hk|]. inversion Hf as [|? ? P Q]; subst. cbn [run].
  pose proof (trans_keys_step c t o k Hc Ho P Hk) as H1. pose proof (step_wf c t o Hc Ho P) as H2.
  destruct (step c t o) as [t1 r]. cbn [fst] in *. specialize (IH t1 Hc H2 Q H1). destruct (run c t1 ops). exact IH.
Qed.
Lemma stored_key_blocks (c : learnerClass V) t k (a kw : args) : ProperClass c -> okState c t -> wfdict a -> wfdict kw ->
  svarkw (cTrain c) = false -> (forall p, Param 3 (cTrain c) p -> pname p <> k) -> In k (dkeys (tTransformed t)) ->
  snd (retrain c t a kw) <> Ok tt.
Proof.
  intros Hc Ho Ha Hk W N K H.
  destruct (retrain_spec c t a kw Hc Ho Ha Hk) as
    [(m & env & t' & T & W' & A & C & E & _)|[(m & t' & T & W' & A & C & E & _)|(e & E & _)]];
    rewrite E in H; cbn in H; try discriminate.
  apply dget_key in K. destruct K as [v Hv]. destruct (dget k m) as [w|] eqn:D.
  - refine (not_callable 3 (cTrain c) _ k w W N _ C). cbn. rewrite D. reflexivity.
  - refine (not_callable 3 (cTrain c) _ k v W N _ C). cbn. rewrite D. exact Hv.
Qed.
Lemma blocked_after (c : learnerClass V) t ops (a1 kw1 a kw : args) k v : ProperClass c -> okState c t -> Forall properOp ops ->
  wfdict a1 -> wfdict kw1 -> wfdict a -> wfdict kw ->
  svarkw (cTrain c) = false -> (forall p, Param 3 (cTrain c) p -> pname p <> k) ->
  dget k a1 = Some v -> snd (retrain c t a1 kw1) = Err TypeErr ->
  snd (retrain c (fst (run c (fst (retrain c t a1 kw1)) ops)) a kw) <> Ok tt.
Proof.
  intros Hc Ho Hf Ha1 Hk1 Ha Hk W N Hv H.
  assert (O1 : okState c (fst (retrain c t a1 kw1))) by (apply (step_wf c t (ORetrain a1 kw1)); [exact Hc|exact Ho|split; auto]).
  apply stored_key_blocks with (k := k); auto; [apply run_wf; auto|]. apply trans_keys_run; auto.
  destruct (retrain_spec c t a1 kw1 Hc Ho Ha1 Hk1) as
    [(m & env & t' & T & W' & A & C & E & _)|[(m & t' & T & W' & A & C & E & E1 & E2 & _)|(e & E & E1 & _)]];
    rewrite E in H |- *; cbn [fst snd] in H |- *; try congruence.
  rewrite E2. apply dget_key. exists v. rewrite update_get by exact W'.
  assert (X : dget k m = Some v) by (apply T; auto). rewrite X. reflexivity.
Qed.
Lemma incremental_blocked (c : learnerClass V) k : ProperClass c -> svarkw (cIncremental c) = false ->
  (forall p, Param 3 (cIncremental c) p -> pname p <> k) ->
  forall oas t, wfdict (tArguments t) -> In k (dkeys (tArguments t)) -> Forall properOp (map OIncremental oas) ->
  Forall (fun x => snd x = Err TypeErr) (snd (run c t (map OIncremental oas))).
Proof.
  intros Hc W N. induction oas as [|oa oas IH]; intros t Wt K Hf; [constructor|]. cbn [map] in *.
  inversion Hf as [|? ? P Q]; subst. cbn [run step].
  destruct (incremental_spec c t oa Hc Wt) as (args' & Wa & Ga & X).
  { intros a ->. exact P. }
  apply dget_key in K. destruct K as [v Hv].
  assert (K' : exists w, dget k args' = Some w).
  { rewrite Ga. destruct oa as [a|]; [|eauto]. destruct (dget k a); eauto. }
  destruct X as [(env & E & C & _)|[E C]].
  - exfalso. destruct K' as [w Hw]. rewrite Ga in Hw. exact (not_callable 3 _ _ k w W N Hw C).
  - rewrite E. specialize (IH (mkTrained args' (tTransformed t) (tBackend t)) Wa (proj2 (dget_key k args') K') Q).
    destruct (run c _ (map OIncremental oas)) as [t2 h]. cbn [snd] in *. constructor; [reflexivity|exact IH].
Qed.
End P.

(** ** Init trees *)
Section InitProofs.
Context {V : Type}.
Variable find : string -> option (list (list string * @dict string (value V))).
Hypothesis Hfind : forall name sets, find name = Some sets -> Forall (fun ps => NoDup (fst ps)) sets.

Fixpoint initSize (i : init V) : nat :=
  match i with Init _ kwargs =>
    S ((fix go (l : list (string * argument V)) := match l with
        | [] => 0 | (_, Plain _) :: t => go t | (_, Nested j) :: t => initSize j + go t end) kwargs)
  end.
Fixpoint argsSize (l : list (string * argument V)) : nat :=
  match l with [] => 0 | (_, Plain _) :: t => argsSize t | (_, Nested j) :: t => initSize j + argsSize t end.
Lemma initSize_eq name kwargs : initSize (Init name kwargs) = S (argsSize kwargs).
Proof. reflexivity. Qed.
Fixpoint initArgs (l : list (string * argument V)) : result (list (string * value V)) :=
  match l with
  | [] => Ok []
  | (k, Plain v) :: t => r <- initArgs t ;; Ok ((k, VPlain v) :: r)
  | (k, Nested j) :: t => o <- argumentInit find j ;; r <- initArgs t ;; Ok ((k, VObject o) :: r)
  end.
Lemma argumentInit_eq name kwargs : argumentInit find (Init name kwargs) =
  match find name with
  | None => Err InvalidArgumentValue
  | Some sets => vals <- initArgs kwargs ;; _ <- validateSets sets vals ;; Ok (Object name vals)
  end.
Proof.
  cbn [argumentInit]. destruct (find name) as [sets|]; [|reflexivity].
  assert (E : forall l, (fix go (l : list (string * argument V)) : result (list (string * value V)) :=
             match l with
             | [] => Ok []
             | (k, Plain v) :: t => r <- go t ;; Ok ((k, VPlain v) :: r)
             | (k, Nested j) :: t => o <- argumentInit find j ;; r <- go t ;; Ok ((k, VObject o) :: r)
             end) l = initArgs l).
  { induction l as [|[k [v|j]] t IH]; cbn [initArgs]; [reflexivity| |]; rewrite <- IH; reflexivity. }
  rewrite E. reflexivity.
Qed.

(** the requirement on one Init of the tree *)
Definition nodeOk (i : init V) : Prop :=
  match i with Init name kwargs => exists sets, find name = Some sets /\ LastAccepts (map fst kwargs) sets end.

Lemma BuiltArgs_keys (l : list (string * argument V)) vals : Forall2 BuiltArg l vals -> map fst vals = map fst l.
Proof. induction 1 as [|x y l vals H _ IH]; [reflexivity|]. cbn. rewrite IH. f_equal. destruct H; reflexivity. Qed.

Lemma Inside_sub (i j : init V) : Inside j i -> forall i', Inside i i' -> Inside j i'.
Proof.
  intros H i' H'. induction H' as [i'|i name kwargs k j' Hin _ IH]; [exact H|].
  eapply Inside_arg; [exact Hin|]. apply IH. exact H.
Qed.

Lemma argumentInit_spec : forall n i, initSize i <= n -> ProperInit i ->
  (exists o, argumentInit find i = Ok o /\ Built i o /\ forall j, Inside j i -> nodeOk j) \/
  (argumentInit find i = Err InvalidArgumentValue /\ exists j, Inside j i /\ ~ nodeOk j).
Proof.
  induction n as [|n IH]; intros [name kwargs] Hn Hp; [rewrite initSize_eq in Hn; lia|].
  rewrite initSize_eq in Hn. assert (Hs : argsSize kwargs <= n) by lia. clear Hn.
  assert (Hk : NoDup (map fst kwargs)) by (apply (Hp name kwargs); constructor).
  assert (Ha : (exists vals, initArgs kwargs = Ok vals /\ Forall2 BuiltArg kwargs vals /\
                  forall k j j', In (k, Nested j) kwargs -> Inside j' j -> nodeOk j') \/
               (initArgs kwargs = Err InvalidArgumentValue /\
                  exists k j j', In (k, Nested j) kwargs /\ Inside j' j /\ ~ nodeOk j')).
  { assert (Hp' : forall k j, In (k, Nested j) kwargs -> ProperInit j).
    { intros k j Hj nm kws Hi. apply (Hp nm kws). eapply Inside_arg; eauto. }
    clear Hk Hp. revert Hs Hp'. induction kwargs as [|[k [v|j]] t IHt]; intros Hs Hp'; cbn [initArgs].
    - left. exists []. split; [reflexivity|]. split; [constructor|]. intros k j j' [].
    - cbn [argsSize] in Hs. destruct (IHt Hs) as [(vals & E & B & C)|[E (k' & j & j' & A & B & C)]].
      { intros k' j Hj. apply (Hp' k' j). right; exact Hj. }
      + rewrite E. left. cbn [rbind]. eexists; split; [reflexivity|]. split; [constructor; [constructor|exact B]|].
        intros k' j j' [D|D]; [discriminate|exact (C k' j j' D)].
      + rewrite E. right. split; [reflexivity|]. exists k', j, j'. split; [right; exact A|auto].
    - cbn [argsSize] in Hs. destruct (IH j) as [(o & E & B & C)|[E (j' & A & B)]].
      { lia. } { apply (Hp' k j). left; reflexivity. }
      + rewrite E. cbn [rbind]. destruct IHt as [(vals & E' & B' & C')|[E' (k' & j2 & j' & A' & B' & C')]].
        { lia. } { intros k' j' Hj. apply (Hp' k' j'). right; exact Hj. }
        * rewrite E'. left. cbn [rbind]. eexists; split; [reflexivity|].
          split; [constructor; [constructor; exact B|exact B']|].
          intros k' j2 j' [D|D]; [injection D as <- <-; exact (C j')|exact (C' k' j2 j' D)].
        * rewrite E'. right. split; [reflexivity|]. exists k', j2, j'. split; [right; exact A'|auto].
      + rewrite E. right. split; [reflexivity|]. exists k, j, j'. split; [left; reflexivity|auto]. }
  rewrite argumentInit_eq. destruct (find name) as [sets|] eqn:F.
  2:{ right. split; [reflexivity|]. exists (Init name kwargs). split; [constructor|].
      intros (sets & H & _). congruence. }
  destruct Ha as [(vals & E & B & C)|[E (k & j & j' & A & B & C)]]; rewrite E; cbn [rbind].
  - assert (Kv := BuiltArgs_keys _ _ B).
    destruct (validateSets_spec sets vals (Hfind name sets F)) as [[P Q]|[P Q]].
    { unfold wfdict, dkeys. rewrite Kv. exact Hk. }
    + rewrite P. cbn [rbind]. left. eexists; split; [reflexivity|]. split; [constructor; exact B|].
      intros j Hj. inversion Hj as [|? ? ? k j2 Hin Hins]; subst.
      * exists sets. split; [exact F|]. unfold dkeys in Q. rewrite Kv in Q. exact Q.
      * exact (C k j2 j Hin Hins).
    + rewrite P. cbn [rbind]. right. split; [reflexivity|]. exists (Init name kwargs). split; [constructor|].
      intros (sets' & F' & L). rewrite F in F'. injection F' as <-. apply Q. unfold dkeys. rewrite Kv. exact L.
  - right. split; [reflexivity|]. exists j'. split; [eapply Inside_arg; eauto|exact C].
Qed.
End InitProofs.
