(** What a Sparse object sorted by feature stores of a point and of a feature, and
    the matrix built from the merged points (C75). *)
From Verif Require Import Base NamesModel NamesSpec NamesProofs TableModel TableSpec TableProofs TableOps MatchModel MatchSpec MatchProofs ElementsProofs GetSpec
  MergeModel MergeSpec MergeLoopProofs SparseModel SparseSpec SparseProofs SparseEqProofs SparseRefine SparseReshapeModel SparseReshapeSpec SparseReshapeProofs SparseReshapeCollapse
  CopyModel CopySpec CopyProofs CopyRawProofs MergeSparseModel MergeSparseSpec MergeSparseProofs.
From Coq Require Import Sorted QArith Lqa.
From Coq Require Import List. Import ListNotations.
Open Scope nat_scope.
Notation val := (SparseSpec.val (PInt 0)).

Section Sorted.
Variable s : sparse pval.
Hypothesis E : entsOK (PInt 0) s.
Hypothesis SO : StronglySorted (lexlt Fts) (ents s).
Lemma fts_filter f l : StronglySorted (@lexlt pval Fts) l -> StronglySorted (lexlt Fts) (filter f l).
Proof.
  induction 1 as [|x l S IH F]; [constructor|]. cbn [filter]. destruct (f x); [|exact IH]. constructor; [exact IH|].
  apply Forall_forall. intros y Y. apply filter_In in Y. rewrite Forall_forall in F. apply F. tauto.
Qed.
Lemma frow_cols (f : nat -> bool) p :
  map ec (filter (fun e => (er e =? p) && f (ec e)) (ents s)) = filter (fun c => f c && negb (isZero (val s p c))) (seq 0 (snf s)).
Proof.
  destruct E as [N R]. apply sorted_lt_ext.
  - pose proof (fts_filter (fun e => (er e =? p) && f (ec e)) _ SO) as S.
    assert (Q : forall e, In e (filter (fun e => (er e =? p) && f (ec e)) (ents s)) -> er e = p).
    { intros e I. apply filter_In in I. destruct I as [_ I]. apply andb_true_iff in I. apply Nat.eqb_eq. tauto. }
    induction S as [|x l S IH F]; cbn; [constructor|]. constructor; [apply IH; intros e I; apply Q; right; exact I|].
    apply Forall_forall. intros c C. apply in_map_iff in C. destruct C as [y [<- Y]]. rewrite Forall_forall in F. specialize (F y Y).
    pose proof (Q x (or_introl eq_refl)). pose proof (Q y (or_intror Y)). unfold lexlt in F. cbn in F. lia.
  - apply StronglySorted_filter, StronglySorted_seq.
  - intros c. rewrite in_map_iff, filter_In, in_seq, andb_true_iff, negb_true_iff. split.
    + intros [e [<- I]]. apply filter_In in I. destruct I as [I F]. apply andb_true_iff in F. destruct F as [P F]. apply Nat.eqb_eq in P. subst p.
      destruct (R e I) as [_ [B Z]]. split; [lia|]. split; [exact F|]. rewrite <- (ents_val s e N I). destruct (isZero (ev e)) eqn:X; [|reflexivity].
      apply isZero_spec in X. contradiction.
    + intros [B [F Z]]. exists (mkE p c (val s p c)). split; [reflexivity|]. apply filter_In. split; [|cbn [er ec]; rewrite Nat.eqb_refl; exact F].
      apply val_stored. intros X. apply isZero_spec in X. congruence.
Qed.
Lemma frow_vals (f : nat -> bool) p :
  map ev (filter (fun e => (er e =? p) && f (ec e)) (ents s)) = nonzeros (map (val s p) (filter f (seq 0 (snf s)))).
Proof.
  transitivity (map (val s p) (map ec (filter (fun e => (er e =? p) && f (ec e)) (ents s)))).
  - rewrite map_map. apply map_ext_in. intros e I. apply filter_In in I. destruct I as [I P]. apply andb_true_iff in P. destruct P as [P _]. apply Nat.eqb_eq in P. subst p.
    apply ents_val; [exact (proj1 E)|exact I].
  - rewrite frow_cols. generalize (seq 0 (snf s)). intros l. unfold nonzeros. induction l as [|c l IH]; [reflexivity|]. cbn [filter].
    destruct (f c); cbn [andb]; [|exact IH]. cbn [map filter]. destruct (negb (isZero (val s p c))); cbn [map]; congruence.
Qed.
Lemma fcol_rows c : map er (filter (fun e => ec e =? c) (ents s)) = filter (fun i => negb (isZero (val s i c))) (seq 0 (snp s)).
Proof.
  destruct E as [N R]. apply sorted_lt_ext.
  - pose proof (fts_filter (fun e => ec e =? c) _ SO) as S.
    assert (Q : forall e, In e (filter (fun e => ec e =? c) (ents s)) -> ec e = c).
    { intros e I. apply filter_In in I. apply Nat.eqb_eq. tauto. }
    induction S as [|x l S IH F]; cbn; [constructor|]. constructor; [apply IH; intros e I; apply Q; right; exact I|].
    apply Forall_forall. intros i C. apply in_map_iff in C. destruct C as [y [<- Y]]. rewrite Forall_forall in F. specialize (F y Y).
    pose proof (Q x (or_introl eq_refl)). pose proof (Q y (or_intror Y)). unfold lexlt in F. cbn in F. lia.
  - apply StronglySorted_filter, StronglySorted_seq.
  - intros i. rewrite in_map_iff, filter_In, in_seq, negb_true_iff. split.
    + intros [e [<- I]]. apply filter_In in I. destruct I as [I P]. apply Nat.eqb_eq in P. subst c.
      destruct (R e I) as [B [_ Z]]. split; [lia|]. rewrite <- (ents_val s e N I). destruct (isZero (ev e)) eqn:X; [|reflexivity].
      apply isZero_spec in X. contradiction.
    + intros [B Z]. exists (mkE i c (val s i c)). split; [reflexivity|]. apply filter_In. split; [|cbn [er ec]; apply Nat.eqb_refl].
      apply val_stored. intros X. apply isZero_spec in X. congruence.
Qed.
Lemma fcol_vals c : (forall i, i < snp s -> val s i c <> PInt 0) -> keysOf c (ents s) = map (fun i => val s i c) (seq 0 (snp s)).
Proof.
  intros NZ. unfold keysOf. transitivity (map (fun i => val s i c) (map er (filter (fun e => ec e =? c) (ents s)))).
  - rewrite map_map. apply map_ext_in. intros e I. apply filter_In in I. destruct I as [I P]. apply Nat.eqb_eq in P. subst c. apply ents_val; [exact (proj1 E)|exact I].
  - rewrite fcol_rows. f_equal. assert (F : forall i, In i (seq 0 (snp s)) -> negb (isZero (val s i c)) = true).
    { intros i I. apply in_seq in I. apply negb_true_iff. destruct (isZero (val s i c)) eqn:X; [|reflexivity]. apply isZero_spec in X. exfalso. apply (NZ i); [lia|exact X]. }
    revert F. generalize (seq 0 (snp s)). intros l F. induction l as [|x l IH]; [reflexivity|]. cbn [filter]. rewrite (F x (or_introl eq_refl)). f_equal. apply IH. intros y Y. apply F. right. exact Y.
Qed.
End Sorted.
Lemma rowAt_val (s : sparse pval) n i : rowAt n (ents s) i = map (val s i) (seq 0 n).
Proof. reflexivity. Qed.

(** ** the matrix built from the points *)
Definition entriesFrom (fl : list (list pval)) : list (entry pval) := List.concat (mapi (fun i pt => mapi (fun c v => mkE i c v) pt) fl).
Lemma mapi_In {A B} (f : nat -> A -> B) l y : In y (mapi f l) <-> exists i x, nth_error l i = Some x /\ y = f i x.
Proof.
  unfold mapi. rewrite in_map_iff. split.
  - intros [[i x] [<- I]]. apply In_nth_error in I. destruct I as [k K]. assert (L : k < List.length l). { assert (X := nth_error_lt _ _ K). rewrite combine_length, seq_length in X. lia. }
    destruct (nth_error_is_some l (i := k) L) as [x' X']. assert (Y := nth_error_combine (seq 0 (List.length l)) l k). rewrite K, X', nth_error_seq in Y.
    destruct (k <? List.length l) eqn:Q; [|apply Nat.ltb_ge in Q; lia]. cbn [Nat.add] in Y. injection Y as -> ->. exists k, x'. auto.
  - intros [i [x [X ->]]]. exists (i, x). split; [reflexivity|]. apply (nth_error_In _ i). rewrite (nth_error_combine (seq 0 (List.length l)) l i), nth_error_seq, X.
    apply nth_error_lt in X. apply Nat.ltb_lt in X. rewrite X. reflexivity.
Qed.
Lemma entriesFrom_In fl e : In e (entriesFrom fl) <-> exists pt, nth_error fl (er e) = Some pt /\ nth_error pt (ec e) = Some (ev e).
Proof.
  unfold entriesFrom. rewrite in_concat. split.
  - intros [es [A B]]. apply mapi_In in A. destruct A as [i [pt [X ->]]]. apply mapi_In in B. destruct B as [c [v [Y ->]]]. exists pt. auto.
  - intros [pt [X Y]]. exists (mapi (fun c v => mkE (er e) c v) pt). split; [apply mapi_In; eauto|]. apply mapi_In. exists (ec e), (ev e). split; [exact Y|]. destruct e; reflexivity.
Qed.
Lemma concat_mapi_NoDup {A B K} (key : B -> K) (f : nat -> A -> list B) (l : list A) :
  (forall i x, NoDup (map key (f i x))) -> (forall i i' x x' b b', In b (f i x) -> In b' (f i' x') -> key b = key b' -> i = i') ->
  NoDup (map key (List.concat (mapi f l))).
Proof.
  intros H1 H2. unfold mapi. generalize 0 as a. induction l as [|x l IH]; intros a; [constructor|]. cbn [List.length seq combine map List.concat fst snd]. rewrite map_app. apply FlatProofs.NoDup_app_intro; [apply H1|apply IH|].
  intros k K1 K2. apply in_map_iff in K1. destruct K1 as [b [<- B1]]. apply in_map_iff in K2. destruct K2 as [b' [Eb B2]]. apply in_concat in B2. destruct B2 as [y [Y1 Y2]]. apply in_map_iff in Y1. destruct Y1 as [[i' x'] [<- I']].
  apply in_combine_l in I'. apply in_seq in I'. cbn [fst snd] in Y2. assert (a = i') by (eapply H2; [exact B1|exact Y2|congruence]). lia.
Qed.
Lemma entriesFrom_NoDup fl : NoDup (map pos (entriesFrom fl)).
Proof.
  apply concat_mapi_NoDup.
  - intros i pt. unfold mapi. rewrite map_map. assert (G : forall (l : list pval) a, NoDup (map (fun p => pos (mkE i (fst p) (snd p))) (combine (seq a (List.length l)) l))).
    { induction l as [|x l IH]; intros a; [constructor|]. cbn [List.length seq combine map fst snd]. constructor; [|apply IH]. intros H. apply in_map_iff in H. destruct H as [[c v] [H I]]. apply in_combine_l in I. apply in_seq in I. unfold pos in H. cbn in H. injection H as H. lia. }
    apply G.
  - intros i i' x x' b b' H H' Q. apply mapi_In in H. apply mapi_In in H'. destruct H as [c [v [_ ->]]]. destruct H' as [c' [v' [_ ->]]]. unfold pos in Q. cbn in Q. congruence.
Qed.

Definition numberV (v : pval) : Prop := match v with PStr _ | PNone => False | _ => True end.
Lemma pyEq_zero v : numberV v -> pyEq (toFloat v) pzero = true -> SameElement v (PInt 0).
Proof.
  intros _ H. apply pyEq_spec in H. left. destruct (toFloat_same v) as [S|[-> T]]; [exact (ElementsCalcProofs.Same_trans _ _ _ S H)|]. cbn in H. inversion H; subst; match goal with X : IsNumber PNaN _ |- _ => inversion X end.
Qed.
Section Build.
Variable floatOf : string -> option pval.
Lemma asFloat_number v : numberV v -> asFloat floatOf v = Ok (toFloat v).
Proof. destruct v; cbn; intros H; try reflexivity; destruct H. Qed.
Lemma build_spec nf pts full : Forall2 shownAs pts full -> (forall r, In r full -> List.length r = nf) -> (forall r v, In r full -> In v r -> numberV v) -> List.concat pts <> [] ->
  exists s', sparseBuild floatOf nf pts = Ok s' /\ sinv (PInt 0) s' /\ snp s' = List.length full /\ snf s' = nf /\
    forall i j row v, nth_error full i = Some row -> nth_error row j = Some v -> SameElement v (val s' i j).
Proof.
  intros F2 HW HN NE. unfold sparseBuild. destruct (List.concat pts) as [|v0 vs] eqn:EC; [congruence|]. clear NE EC.
  assert (PT : forall i pt, nth_error pts i = Some pt -> exists row z, nth_error full i = Some row /\ row = pt ++ repeat (PInt 0) z).
  { clear -F2. induction F2 as [|pt row pts full S _ IH]; intros i p H; [destruct i; discriminate|]. destruct i as [|i]; [injection H as <-; destruct S as [z [Z _]]; exists row, z; auto|apply IH; exact H]. }
  assert (TP : forall i row, nth_error full i = Some row -> exists pt z, nth_error pts i = Some pt /\ row = pt ++ repeat (PInt 0) z).
  { clear -F2. induction F2 as [|pt row pts full S _ IH]; intros i p H; [destruct i; discriminate|]. destruct i as [|i]; [injection H as <-; destruct S as [z [Z _]]; exists pt, z; auto|apply IH; exact H]. }
  assert (LF : List.length pts = List.length full) by (clear -F2; induction F2; cbn; congruence).
  assert (RM : rmapM (rmapM (asFloat floatOf)) pts = Ok (map (map toFloat) pts)).
  { apply MergeColsProofs.rmapM_all. intros pt P. apply MergeColsProofs.rmapM_all. intros v V. apply asFloat_number. apply In_nth_error in P. destruct P as [i P]. destruct (PT i pt P) as [row [z [R ->]]]. apply (HN _ v (nth_error_In _ _ R)). apply in_or_app. auto. }
  rewrite RM. cbn [rbind]. change (List.concat (mapi (fun i pt => mapi (fun c v => mkE i c v) pt) (map (map toFloat) pts))) with (entriesFrom (map (map toFloat) pts)).
  assert (IN : forall e, In e (entriesFrom (map (map toFloat) pts)) <-> exists pt v, nth_error pts (er e) = Some pt /\ nth_error pt (ec e) = Some v /\ ev e = toFloat v).
  { intros e. rewrite entriesFrom_In. split.
    - intros [q [A B]]. rewrite nth_error_map in A. destruct (nth_error pts (er e)) as [pt|] eqn:P; [|discriminate]. cbn in A. injection A as <-. rewrite nth_error_map in B. destruct (nth_error pt (ec e)) as [v|] eqn:V; [|discriminate]. cbn in B. injection B as B. exists pt, v. auto.
    - intros [pt [v [A [B C]]]]. exists (map toFloat pt). rewrite !nth_error_map, A. cbn [option_map]. split; [reflexivity|]. rewrite B, C. reflexivity. }
  assert (BD : forall e, In e (entriesFrom (map (map toFloat) pts)) -> er e < List.length pts /\ ec e < nf).
  { intros e I. apply IN in I. destruct I as [pt [v [A [B _]]]]. split; [exact (nth_error_lt _ _ A)|]. destruct (PT _ _ A) as [row [z [R ->]]]. rewrite <- (HW _ (nth_error_In _ _ R)), app_length. apply nth_error_lt in B. lia. }
  assert (EX : existsb (fun e : entry pval => nf <=? ec e) (entriesFrom (map (map toFloat) pts)) = false).
  { apply not_true_is_false. intros X. apply existsb_exists in X. destruct X as [e [I X]]. apply Nat.leb_le in X. apply BD in I. lia. }
  rewrite EX. set (s' := mkSp (List.length pts) nf (filter (fun e => negb (pyEq (ev e) pzero)) (entriesFrom (map (map toFloat) pts))) None None).
  assert (OK : entsOK (PInt 0) s').
  { split.
    - cbn [s' ents]. assert (G : forall (f : entry pval -> bool) l, NoDup (map pos l) -> NoDup (map pos (filter f l))).
      { intros f. induction l as [|x l IH]; intros ND; [constructor|]. cbn [map] in ND. inversion ND as [|? ? X Y]; subst. cbn [filter]. destruct (f x); [|apply IH; exact Y]. cbn [map]. constructor; [|apply IH; exact Y].
        intros H. apply X. apply in_map_iff in H. destruct H as [y [Q I]]. apply filter_In in I. apply in_map_iff. exists y. tauto. }
      apply G. apply entriesFrom_NoDup.
    - intros e I. cbn [s' ents] in I. apply filter_In in I. destruct I as [I Z]. destruct (BD e I) as [A B]. cbn [s' snp snf]. split; [exact A|]. split; [exact B|]. intros X. rewrite X in Z. discriminate Z. }
  exists s'. split; [reflexivity|]. split; [split; [exact OK|reflexivity]|]. split; [exact LF|]. split; [reflexivity|].
  intros i j row v R V. destruct (TP i row R) as [pt [z [P ->]]].
  assert (NV : numberV v) by exact (HN _ v (nth_error_In _ _ R) (nth_error_In _ _ V)).
  destruct (nth_error pt j) as [w|] eqn:W.
  - assert (w = v). { rewrite nth_error_app1 in V by exact (nth_error_lt _ _ W). congruence. } subst w.
    destruct (pyEq (toFloat v) pzero) eqn:Z.
    + assert (Q : val s' i j = PInt 0).
      { apply val_is; [|auto]. intros x X. cbn [s' ents] in X. apply filter_In in X. destruct X as [X Y]. apply IN in X. destruct X as [pt' [v' [A [B C]]]]. cbn [er ec ev] in *. assert (pt' = pt) by congruence. subst pt'. assert (v' = v) by congruence. subst v'. subst x. rewrite Z in Y. discriminate Y. }
      rewrite Q. apply pyEq_zero; auto.
    + assert (Q : val s' i j = toFloat v).
      { apply val_In; [exact (proj1 OK)|]. cbn [s' ents]. apply filter_In. split; [|cbn [ev]; rewrite Z; reflexivity]. apply IN. exists pt, v. auto. }
      rewrite Q. apply toFloat_same.
  - assert (Q : val s' i j = PInt 0).
    { apply val_is; [|auto]. intros x X. cbn [s' ents] in X. apply filter_In in X. destruct X as [X Y]. apply IN in X. destruct X as [pt' [v' [A [B C]]]]. cbn [er ec ev] in *. assert (pt' = pt) by congruence. subst pt'. congruence. }
    rewrite Q. assert (v = PInt 0). { apply nth_error_None in W. rewrite nth_error_app2 in V by lia. apply nth_error_In in V. apply repeat_spec in V. exact V. } subst v. apply same_refl.
Qed.
End Build.
