From Verif Require Import Base NamesModel NamesSpec NamesProofs NamesIndexProofs TableModel TableSpec TableProofs TablePermProofs TableOps TableOps3Proofs TableProps
  MatchModel MatchSpec MatchProofs QueryModel QuerySpec QueryProofs QueryParseProofs.
From Coq Require Import QArith Sorted.
Open Scope nat_scope.

Lemma hasName_spec a n : Inv a -> (hasName a n = true <-> exists k, nth_error (getNames a) k = Some (Some n)).
Proof.
  intros Ia. unfold hasName. split.
  - destruct (getIndex a (IdStr n) false) as [z|e] eqn:E; [|discriminate]. intros _.
    apply getIndex_Denotes in E; [|exact Ia|exact I]. destruct E as [k [_ Hk]]. eauto.
  - intros [k Hk]. rewrite (proj2 (getIndex_Denotes a (IdStr n) false (Z.of_nat k) Ia I)); [reflexivity|]. exists k. auto.
Qed.
Lemma valueAt_spec a v n k : Inv a -> nth_error (getNames a) k = Some (Some n) -> List.length v = alen a ->
  exists x, valueAt a v n = Ok x /\ nth_error v k = Some x.
Proof.
  intros Ia Hk L. unfold valueAt. rewrite (proj2 (getIndex_Denotes a (IdStr n) true (Z.of_nat k) Ia I)) by (exists k; auto).
  cbn [rbind]. rewrite Nat2Z.id. pose proof (nth_error_lt _ _ Hk) as H. rewrite getNames_length in H by exact Ia.
  rewrite <- L in H. destruct (nth_error_is_some _ H) as [x Hx]. rewrite Hx. eauto.
Qed.
Lemma whereTrue_spec f l : forall i r, whereTrue i f l = Ok r ->
  StronglySorted lt r /\ (forall k, In k r <-> exists j v, k = i + j /\ nth_error l j = Some v /\ f v = Ok true) /\
  (forall j v, nth_error l j = Some v -> exists b, f v = Ok b).
Proof.
  induction l as [|v l IH]; intros i r H; cbn [whereTrue] in H.
  - injection H as <-. split; [constructor|]. split.
    + intros k. split; [intros []|]. intros [[|j] [u [_ [C _]]]]; discriminate.
    + intros [|j] u; discriminate.
  - destruct (f v) as [b|e] eqn:E; cbn [rbind] in H; [|discriminate]. destruct (whereTrue (S i) f l) as [r'|e] eqn:E2; [|discriminate].
    cbn [rbind] in H. injection H as <-. destruct (IH _ _ E2) as [A [B C]].
    assert (B' : forall k, In k r' <-> exists j u, k = i + S j /\ nth_error l j = Some u /\ f u = Ok true).
    { intros k. rewrite B. split; intros [j [u [-> G]]]; exists j, u; (split; [lia|exact G]). }
    split; [|split].
    + destruct b; [|exact A]. constructor; [exact A|]. apply Forall_forall. intros k Hk. apply B' in Hk. destruct Hk as [j [u [-> _]]]. lia.
    + intros k. assert (T : In k (if b then i :: r' else r') <-> (b = true /\ k = i) \/ In k r').
      { destruct b; simpl; intuition congruence. }
      rewrite T, B'. split.
      * intros [[-> ->]|[j [u [-> G]]]]; [exists 0, v; split; [lia|]; split; [reflexivity|exact E]|exists (S j), u; auto].
      * intros [[|j] [u [-> [Hn Hf]]]]; [left; simpl in Hn; injection Hn as <-; split; [congruence|lia]|right; exists j, u; auto].
    + intros [|j] u Hj; [simpl in Hj; injection Hj as <-; eauto|exact (C j u Hj)].
Qed.
Lemma whereTrue_ok f l : forall i, (forall v, In v l -> exists b, f v = Ok b) -> exists r, whereTrue i f l = Ok r.
Proof.
  induction l as [|v l IH]; intros i H; cbn [whereTrue]; [eauto|]. destruct (H v (or_introl eq_refl)) as [b E]. rewrite E. cbn [rbind].
  destruct (IH (S i)) as [r E2]; [intros u Hu; apply H; right; exact Hu|]. rewrite E2. cbn [rbind]. eauto.
Qed.


Section T.
Variable floatOf : string -> option pval.
Variable accepted : string -> bool.
Variable otherFn : string -> pval -> result bool.
Notation Reading := (Reading floatOf accepted).
Notation stringTargets := (stringTargets floatOf accepted otherFn).
Notation applyFun := (applyFun otherFn).

Lemma applyAxis_spec sd t q n k i v : wf t -> qIdent q = Some n -> nth_error (getNames (offax sd t)) k = Some (Some n) ->
  nth_error (vectors sd t) i = Some v ->
  exists x, elementOf sd t i k = Some x /\ applyAxis otherFn (offax sd t) q v = applyFun (qFun q) x.
Proof.
  intros W Hq Hk Hv. unfold applyAxis. rewrite Hq.
  destruct (valueAt_spec (offax sd t) v n k (wf_InvOff _ sd t W) Hk (vector_len _ sd t i v W Hv)) as [x [E Hx]].
  exists x. rewrite E. split; [|reflexivity]. rewrite <- Hx. symmetry. unfold elementOf. exact (vectors_cell _ sd t i v k W Hv).
Qed.
Lemma axisQuery_sound sd t s q : wf t -> axisQuery floatOf accepted sd t s = Ok q ->
  parse floatOf accepted s (Some false) = Ok q /\ Reading s q /\ exists n k, qIdent q = Some n /\ nth_error (getNames (offax sd t)) k = Some (Some n).
Proof.
  intros W. unfold axisQuery. destruct (parse floatOf accepted s (Some false)) as [q'|e] eqn:E; [|discriminate].
  destruct (qIdent q') as [n|] eqn:Ei; [|discriminate]. destruct (hasName (offax sd t) n) eqn:Eh; [|discriminate].
  intros H. injection H as <-. split; [reflexivity|]. split; [apply (parse_sound floatOf accepted s _ q' E)|].
  apply hasName_spec in Eh; [|apply wf_InvOff; exact W]. destruct Eh as [k Hk]. exists n, k. auto.
Qed.
Lemma stringTargets_query sd t s l : wf t -> (forall k, nth_error (getNames (ax sd t)) k <> Some (Some s)) -> stringTargets sd t s = Ok l ->
  exists q n k, Reading s q /\ qIdent q = Some n /\ nth_error (getNames (offax sd t)) k = Some (Some n) /\
    StronglySorted lt l /\
    (forall i, In i l <-> exists x, elementOf sd t i k = Some x /\ applyFun (qFun q) x = Ok true) /\
    (forall i x, elementOf sd t i k = Some x -> exists b, applyFun (qFun q) x = Ok b).
Proof.
  intros W HN. unfold QueryModel.stringTargets. destruct (hasName (ax sd t) s) eqn:Eh.
  - exfalso. apply hasName_spec in Eh; [|apply wf_Inv; exact W]. destruct Eh as [k Hk]. exact (HN k Hk).
  - destruct (axisQuery floatOf accepted sd t s) as [q|e] eqn:Eq; [|discriminate]. cbn [rbind]. intros H.
    apply axisQuery_sound in Eq; [|exact W]. destruct Eq as [_ [HR [n [k [Hq Hk]]]]].
    apply whereTrue_spec in H. destruct H as [A [B C]]. exists q, n, k. split; [exact HR|]. split; [exact Hq|]. split; [exact Hk|]. split; [exact A|].
    assert (EV : forall i x, elementOf sd t i k = Some x -> exists v, nth_error (vectors sd t) i = Some v /\ applyAxis otherFn (offax sd t) q v = applyFun (qFun q) x).
    { intros i x Hx. assert (Hi : i < alen (ax sd t)).
      { unfold elementOf, cell in Hx. destruct sd.
        - destruct (nth_error (rows t) i) eqn:Er; [|discriminate]. apply nth_error_lt in Er. destruct W as [W _]. rewrite W in Er. exact Er.
        - destruct (nth_error (rows t) k) as [r|] eqn:Er; [|discriminate]. apply nth_error_lt in Hx. destruct W as [_ [W _]].
          rewrite (W r (nth_error_In _ _ Er)) in Hx. exact Hx. }
      rewrite <- (vectors_length _ sd t W) in Hi. destruct (nth_error_is_some _ Hi) as [v Hv]. exists v. split; [exact Hv|].
      destruct (applyAxis_spec sd t q n k i v W Hq Hk Hv) as [x' [Hx' E]]. rewrite E. congruence. }
    split.
    + intros i. rewrite B. split.
      * intros [j [v [-> [Hv Hf]]]]. simpl. destruct (applyAxis_spec sd t q n k j v W Hq Hk Hv) as [x [Hx E]]. exists x. split; [exact Hx|congruence].
      * intros [x [Hx Hf]]. destruct (EV i x Hx) as [v [Hv E]]. exists i, v. split; [reflexivity|]. split; [exact Hv|congruence].
    + intros i x Hx. destruct (EV i x Hx) as [v [Hv E]]. rewrite <- E. exact (C i v Hv).
Qed.
Lemma stringTargets_name sd t s k : wf t -> nth_error (getNames (ax sd t)) k = Some (Some s) -> stringTargets sd t s = Ok [k].
Proof.
  intros W Hk. unfold QueryModel.stringTargets. rewrite (proj2 (hasName_spec (ax sd t) s (wf_Inv _ sd t W))) by eauto.
  apply constructIndices_Denotes; [apply wf_Inv; exact W|]. constructor; [|constructor]. exists k. auto.
Qed.
Lemma stringTargets_ok sd t s q n k : wf t -> (forall k, nth_error (getNames (ax sd t)) k <> Some (Some s)) ->
  parse floatOf accepted s (Some false) = Ok q -> qIdent q = Some n -> nth_error (getNames (offax sd t)) k = Some (Some n) ->
  (forall i x, elementOf sd t i k = Some x -> exists b, applyFun (qFun q) x = Ok b) -> exists l, stringTargets sd t s = Ok l.
Proof.
  intros W HN HP Hq Hk HE. unfold QueryModel.stringTargets. destruct (hasName (ax sd t) s) eqn:Eh.
  - exfalso. apply hasName_spec in Eh; [|apply wf_Inv; exact W]. destruct Eh as [k' Hk']. exact (HN k' Hk').
  - unfold axisQuery. rewrite HP, Hq. rewrite (proj2 (hasName_spec (offax sd t) n (wf_InvOff _ sd t W))) by eauto. cbn [rbind].
    apply whereTrue_ok. intros v Hv. apply In_nth_error in Hv. destruct Hv as [i Hi].
    destruct (applyAxis_spec sd t q n k i v W Hq Hk Hi) as [x [Hx E]]. rewrite E. exact (HE i x Hx).
Qed.
Lemma stringTargets_range sd t s l : wf t -> stringTargets sd t s = Ok l -> NoDup l /\ forall i, In i l -> i < alen (ax sd t).
Proof.
  intros W. unfold QueryModel.stringTargets. destruct (hasName (ax sd t) s) eqn:Eh.
  - intros H. pose proof H as H2. apply constructIndices_Denotes in H; [|apply wf_Inv; exact W]. inversion H as [|? k ? ? Hk HN]. subst. inversion HN. subst.
    split; [repeat constructor; intros []|]. intros i [<-|[]]. destruct Hk as [k' [E Hk]]. apply Nat2Z.inj in E. subst k'.
    apply nth_error_lt in Hk. rewrite getNames_length in Hk by (apply wf_Inv; exact W). exact Hk.
  - destruct (axisQuery floatOf accepted sd t s) as [q|e]; [|discriminate]. cbn [rbind]. intros H. apply whereTrue_spec in H. destruct H as [A [B _]].
    split.
    + clear - A. induction A as [|x l H IH HF]; constructor; [|exact IH]. intros C. rewrite Forall_forall in HF. specialize (HF x C). lia.
    + intros i Hi. apply B in Hi. destruct Hi as [j [v [-> [Hv _]]]]. apply nth_error_lt in Hv. rewrite vectors_length in Hv by exact W. exact Hv.
Qed.
End T.

(** comparisons *)
Lemma pyLt_num a b p q : IsNumber a p -> IsNumber b q -> exists r, pyLt a b = Ok r /\ (r = true <-> (p < q)%Q).
Proof.
  intros A B. pose proof A as A'. pose proof B as B'. apply IsNumber_numOf in A'. apply IsNumber_numOf in B'.
  assert (E : pyLt a b = Ok (extLtb (Fin p) (Fin q))).
  { unfold pyLt. rewrite A', B'. destruct A, B; reflexivity. }
  exists (extLtb (Fin p) (Fin q)). split; [exact E|]. simpl. rewrite Bool.negb_true_iff. split; intros H.
  - apply Qnot_le_lt. intros C. apply Qle_bool_iff in C. congruence.
  - destruct (Qle_bool q p) eqn:G; [|reflexivity]. apply Qle_bool_iff in G. exfalso. exact (Qlt_not_le _ _ H G).
Qed.
Lemma pyLe_num a b p q : IsNumber a p -> IsNumber b q -> exists r, pyLe a b = Ok r /\ (r = true <-> (p <= q)%Q).
Proof.
  intros A B. unfold pyLe. destruct (pyLt_num a b p q A B) as [r [E Hr]]. rewrite E. eexists. split; [reflexivity|].
  rewrite Bool.orb_true_iff, Hr, pyEq_spec. split.
  - intros [H|H]; [apply Qlt_le_weak; exact H|]. apply IsNumber_numOf in A. apply IsNumber_numOf in B.
    inversion H as [? ? p' q' HA HB HQ| | | |]; subst; try discriminate. apply IsNumber_numOf in HA. apply IsNumber_numOf in HB.
    assert (p' = p) by congruence. assert (q' = q) by congruence. subst. rewrite HQ. apply Qle_refl.
  - intros H. destruct (Qle_lt_or_eq _ _ H) as [H'|H']; [left; exact H'|]. right. econstructor; eauto.
Qed.
