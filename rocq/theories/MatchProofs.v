From Verif Require Import Base NamesModel NamesSpec NamesProofs TableModel TableSpec TableProofs TableOps TableOps3Proofs MatchModel MatchSpec.
From Coq Require Import QArith.
Open Scope nat_scope.

Lemma numOf_spec v : match numOf v with
  | Some (Fin q) => IsNumber v q
  | Some PosInf => v = PPosInf
  | Some NegInf => v = PNegInf
  | None => v = PNaN \/ v = PNone \/ exists s, v = PStr s
  end.
Proof. destruct v; simpl; eauto; constructor. Qed.
Lemma IsNumber_numOf v q : IsNumber v q <-> numOf v = Some (Fin q).
Proof. split; [intros []; reflexivity|]. intros H. pose proof (numOf_spec v) as G. rewrite H in G. exact G. Qed.
Lemma pyEq_spec a b : pyEq a b = true <-> Same a b.
Proof.
  unfold pyEq. split.
  - intros H. pose proof (numOf_spec a) as A. pose proof (numOf_spec b) as B.
    destruct (numOf a) as [[|p|]|] eqn:Ea; destruct (numOf b) as [[|q|]|] eqn:Eb; try discriminate; subst; try constructor.
    + simpl in H. apply Qeq_bool_iff in H. econstructor; eauto.
    + destruct A as [->|[->|[s ->]]]; destruct B as [->|[->|[s' ->]]]; try discriminate; [constructor|].
      apply String.eqb_eq in H. subst. constructor.
  - intros H. destruct H as [a b p q HA HB HQ| | | |]; try reflexivity.
    + apply IsNumber_numOf in HA. apply IsNumber_numOf in HB. rewrite HA, HB. simpl. apply Qeq_bool_iff. exact HQ.
    + simpl. apply String.eqb_refl.
Qed.
Lemma pyEq_self v : pyEq v v = true <-> v <> PNaN.
Proof.
  destruct v; simpl; unfold pyEq; simpl; (split; [intros H C; try discriminate|intros H]); try reflexivity; try (apply Qeq_bool_iff; reflexivity); try (apply String.eqb_refl); try congruence.
Qed.
Lemma missing_spec v : missing v = true <-> v = PNone \/ v = PNaN.
Proof.
  unfold missing, pyNe. destruct v; try (split; [intros H|intros [C|C]; discriminate];
    apply Bool.negb_true_iff in H; assert (X : PNaN <> PNaN -> False) by tauto;
    match type of H with pyEq ?v ?v = false => assert (Y : pyEq v v = true) by (apply pyEq_self; discriminate); congruence end).
  - split; auto.
  - split; auto.
Qed.

(** quantifiers *)
Lemma quant_spec q l : quant q l = true <-> match q with QAny => exists b, In b l /\ b = true | QAll => forall b, In b l -> b = true end.
Proof.
  destruct q; simpl; [apply existsb_exists|apply forallb_forall].
Qed.
Section Q.
Variable V : Type.
Implicit Types m : V -> result bool.
Lemma rmapM_ok m l bs : rmapM m l = Ok bs -> Forall2 (fun v b => m v = Ok b) l bs.
Proof.
  revert bs. induction l as [|v l IH]; intros bs H; cbn [rmapM] in H.
  - injection H as <-. constructor.
  - destruct (m v) as [b|e] eqn:E; cbn [rbind] in H; [|discriminate]. destruct (rmapM m l) as [bs'|]; [|discriminate].
    injection H as <-. constructor; auto.
Qed.
Lemma rmapM_err m l e : rmapM m l = Err e -> exists v, In v l /\ m v = Err e.
Proof.
  induction l as [|v l IH]; intros H; cbn [rmapM] in H; [discriminate|].
  destruct (m v) as [b|e'] eqn:E; cbn [rbind] in H.
  - destruct (rmapM m l) as [bs'|e2]; [discriminate|]. cbn [rbind] in H. destruct (IH H) as [w [Hw Hm]]. exists w. split; [right|]; auto.
  - injection H as ->. exists v. split; [left|]; auto.
Qed.
(** what a verdict over the values [l] means *)
Definition verdict q m (l : list V) (b : bool) : Prop :=
  match q, b with
  | QAny, true => exists v, In v l /\ m v = Ok true
  | QAny, false => forall v, In v l -> m v = Ok false
  | QAll, true => forall v, In v l -> m v = Ok true
  | QAll, false => exists v, In v l /\ m v = Ok false
  end.
Lemma overValues_spec q m l : match overValues q m l with Ok b => verdict q m l b | Err e => exists v, In v l /\ m v = Err e end.
Proof.
  unfold overValues. destruct (rmapM m l) as [bs|e] eqn:E; simpl; [|apply rmapM_err; exact E].
  apply rmapM_ok in E. destruct q; simpl.
  - induction E as [|v b l bs H E IH]; simpl; [intros ? []|]. destruct b; simpl.
    + exists v. auto.
    + destruct (existsb (fun b => b) bs).
      * destruct IH as [w [Hw Hm]]. exists w. auto.
      * intros w [<-|Hw]; auto.
  - induction E as [|v b l bs H E IH]; simpl; [intros ? []|]. destruct b; simpl.
    + destruct (forallb (fun b => b) bs).
      * intros w [<-|Hw]; auto.
      * destruct IH as [w [Hw Hm]]. exists w. auto.
    + exists v. auto.
Qed.
Lemma featureLoop_spec q m fs : match featureLoop q m fs with Ok b => verdict q m (List.concat fs) b | Err e => exists v, In v (List.concat fs) /\ m v = Err e end.
Proof.
  induction fs as [|f fs IH]; [destruct q; simpl; intros ? []|]. cbn [featureLoop List.concat].
  pose proof (overValues_spec q m f) as H. destruct (overValues q m f) as [b|e].
  - destruct q, b; cbn beta iota.
    + destruct H as [v [Hv Hm]]. exists v. split; [apply in_or_app; auto|exact Hm].
    + destruct (featureLoop QAny m fs) as [[]|e]; simpl in *.
      * destruct IH as [v [Hv Hm]]. exists v. split; [apply in_or_app; auto|exact Hm].
      * intros v Hv. apply in_app_or in Hv. destruct Hv; auto.
      * destruct IH as [v [Hv Hm]]. exists v. split; [apply in_or_app; auto|exact Hm].
    + destruct (featureLoop QAll m fs) as [[]|e]; simpl in *.
      * intros v Hv. apply in_app_or in Hv. destruct Hv; auto.
      * destruct IH as [v [Hv Hm]]. exists v. split; [apply in_or_app; auto|exact Hm].
      * destruct IH as [v [Hv Hm]]. exists v. split; [apply in_or_app; auto|exact Hm].
    + destruct H as [v [Hv Hm]]. exists v. split; [apply in_or_app; auto|exact Hm].
  - destruct H as [v [Hv Hm]]. exists v. split; [apply in_or_app; auto|exact Hm].
Qed.
Lemma concat_rows_cell (t : table V) v : In v (List.concat (rows t)) <-> isCell t v.
Proof.
  unfold isCell, cell. rewrite in_concat. split.
  - intros [r [Hr Hv]]. apply In_nth_error in Hr. destruct Hr as [i Hi]. apply In_nth_error in Hv. destruct Hv as [j Hj].
    exists i, j. rewrite Hi. exact Hj.
  - intros [i [j H]]. destruct (nth_error (rows t) i) as [r|] eqn:E; [|discriminate]. exists r. split; eapply nth_error_In; eauto.
Qed.
Lemma concat_features_cell (t : table V) v : wf t -> (In v (List.concat (vectors Fts t)) <-> isCell t v).
Proof.
  intros W. rewrite in_concat. unfold isCell. split.
  - intros [r [Hr Hv]]. apply In_nth_error in Hr. destruct Hr as [j Hj]. apply In_nth_error in Hv. destruct Hv as [i Hi].
    exists i, j. rewrite <- Hi. symmetry. exact (vectors_cell V Fts t j r i W Hj).
  - intros [i [j H]]. assert (Hj : j < alen (tf t)).
    { unfold cell in H. destruct (nth_error (rows t) i) as [r|] eqn:E; [|discriminate]. destruct W as [_ [W _]].
      rewrite <- (W r (nth_error_In _ _ E)). exact (nth_error_lt _ _ H). }
    assert (Hl : j < List.length (vectors Fts t)) by (rewrite (vectors_length V Fts t W); exact Hj).
    destruct (nth_error_is_some _ Hl) as [r Hr]. exists r. split; [eapply nth_error_In; exact Hr|].
    apply (nth_error_In _ i). rewrite (vectors_cell V Fts t j r i W Hr). exact H.
Qed.
Lemma verdict_ext q m l l' b : (forall v, In v l <-> In v l') -> verdict q m l b -> verdict q m l' b.
Proof.
  intros H. destruct q, b; simpl.
  - intros [v [Hv Hm]]. exists v. split; [apply H; exact Hv|exact Hm].
  - intros G v Hv. apply G. apply H. exact Hv.
  - intros G v Hv. apply G. apply H. exact Hv.
  - intros [v [Hv Hm]]. exists v. split; [apply H; exact Hv|exact Hm].
Qed.
Lemma anyAll_spec q m (t : table V) : wf t -> match anyAllValues q m t with
  | Ok b => verdict q m (List.concat (rows t)) b
  | Err e => exists v, isCell t v /\ m v = Err e
  end.
Proof.
  intros W. unfold anyAllValues.
  assert (F : match featureLoop q m (vectors Fts t) with Ok b => verdict q m (List.concat (rows t)) b | Err e => exists v, isCell t v /\ m v = Err e end).
  { pose proof (featureLoop_spec q m (vectors Fts t)) as H. destruct (featureLoop q m (vectors Fts t)) as [b|e].
    - eapply verdict_ext; [|exact H]. intros v. rewrite concat_rows_cell. apply concat_features_cell. exact W.
    - destruct H as [v [Hv Hm]]. exists v. split; [apply concat_features_cell; assumption|exact Hm]. }
  destruct (oneDim t); [|exact F]. pose proof (overValues_spec q m (List.concat (rows t))) as H.
  destruct (overValues q m (List.concat (rows t))) as [b|e]; [exact H|].
  destruct H as [v [Hv Hm]]. apply concat_rows_cell in Hv. destruct e; eauto.
Qed.
End Q.

(** conversion *)
Lemma identical_or x y : identical x y || pyEq x y = pyEq x y.
Proof. unfold identical. destruct x, y; try (rewrite Bool.orb_diag; reflexivity); reflexivity. Qed.
Lemma inList_spec x l : inList x l = true <-> exists y, In y l /\ Same x y.
Proof.
  unfold inList. rewrite existsb_exists. split; intros [y [Hy H]]; exists y; (split; [exact Hy|]).
  - rewrite identical_or in H. apply pyEq_spec. exact H.
  - rewrite identical_or. apply pyEq_spec. exact H.
Qed.
Lemma convertMatch_values l x : exists b, convertMatch (AValues l) x = Ok b /\
  (b = true <-> (exists y, In y l /\ Same x y) \/ (x = PNaN /\ In PNaN l)).
Proof.
  cbn [convertMatch]. destruct (forallb (fun v => pyEq v v) l) eqn:E; eexists; (split; [reflexivity|]).
  - rewrite inList_spec. split; [auto|]. intros [H|[-> H]]; [exact H|]. rewrite forallb_forall in E. specialize (E _ H). discriminate.
  - rewrite Bool.orb_true_iff, inList_spec. unfold pyNe. rewrite Bool.negb_true_iff. split.
    + intros [H|H]; [|auto]. right. assert (x = PNaN).
      { destruct (pyEq_self x) as [_ G]. destruct x; try reflexivity; exfalso; rewrite G in H by discriminate; discriminate. }
      split; [assumption|]. clear H. induction l as [|v l IH]; [discriminate|]. cbn [forallb] in E. destruct (pyEq v v) eqn:Ev.
      * right. apply IH. exact E.
      * left. destruct (pyEq_self v) as [_ G]. destruct v; try reflexivity; exfalso; rewrite G in Ev by discriminate; discriminate.
    + intros [H|[-> H]]; auto.
Qed.
Lemma convertMatch_value v x : exists b, convertMatch (AValue v) x = Ok b /\
  (b = true <-> Same x v \/ (x = PNaN /\ v = PNaN)).
Proof.
  assert (N : forall u, pyNe u u = true <-> u = PNaN).
  { intros u. unfold pyNe. rewrite Bool.negb_true_iff. split; intros H.
    - destruct (pyEq_self u) as [_ G]. destruct u; try reflexivity; exfalso; rewrite G in H by discriminate; discriminate.
    - subst. reflexivity. }
  destruct v; cbn [convertMatch].
  all: try (replace (pyNe _ _) with false by (symmetry; match goal with |- pyNe ?u ?u = false => destruct (pyNe u u) eqn:E; [apply N in E; discriminate|reflexivity] end);
    eexists; (split; [reflexivity|]); rewrite pyEq_spec; split; [auto|intros [H|[_ C]]; [exact H|discriminate]]).
  - eexists. split; [reflexivity|]. rewrite N. split; [intros ->; auto|]. intros [H|[H _]]; [|exact H].
    exfalso. apply pyEq_spec in H. unfold pyEq in H. destruct x; discriminate.
  - eexists. split; [reflexivity|]. split.
    + destruct x; try discriminate. intros _. left. constructor.
    + intros [H|[_ C]]; [|discriminate]. apply pyEq_spec in H. destruct x; try discriminate. reflexivity.
Qed.

(** order *)
Lemma isPositive_spec v : isPositive v = true <-> v = PPosInf \/ exists q, IsNumber v q /\ (0 < q)%Q.
Proof.
  assert (G : forall q, negb (Qle_bool q 0) = true <-> (0 < q)%Q).
  { intros q. rewrite Bool.negb_true_iff. split; intros H.
    - apply Qnot_le_lt. intros C. apply Qle_bool_iff in C. congruence.
    - destruct (Qle_bool q 0) eqn:E; [|reflexivity]. apply Qle_bool_iff in E. exfalso. exact (Qlt_not_le _ _ H E). }
  unfold isPositive, pyLt. destruct v; cbn [numberLike andb numOf extLtb];
    try (split; [discriminate|intros [C|[q [HN _]]]; [discriminate|inversion HN]]).
  - rewrite G. split; [intros H; right; eexists; split; [constructor|exact H]|]. intros [C|[q [HN H]]]; [discriminate|]. inversion HN; subst. exact H.
  - rewrite G. split; [intros H; right; eexists; split; [constructor|exact H]|]. intros [C|[q [HN H]]]; [discriminate|]. inversion HN; subst. exact H.
  - rewrite G. split; [intros H; right; eexists; split; [constructor|exact H]|]. intros [C|[q' [HN H]]]; [discriminate|]. inversion HN; subst. exact H.
  - split; auto.
Qed.
Lemma isNegative_spec v : isNegative v = true <-> v = PNegInf \/ exists q, IsNumber v q /\ (q < 0)%Q.
Proof.
  assert (G : forall q, negb (Qle_bool 0 q) = true <-> (q < 0)%Q).
  { intros q. rewrite Bool.negb_true_iff. split; intros H.
    - apply Qnot_le_lt. intros C. apply Qle_bool_iff in C. congruence.
    - destruct (Qle_bool 0 q) eqn:E; [|reflexivity]. apply Qle_bool_iff in E. exfalso. exact (Qlt_not_le _ _ H E). }
  unfold isNegative, pyLt. destruct v; cbn [numberLike andb numOf extLtb];
    try (split; [discriminate|intros [C|[q [HN _]]]; [discriminate|inversion HN]]).
  - rewrite G. split; [intros H; right; eexists; split; [constructor|exact H]|]. intros [C|[q [HN H]]]; [discriminate|]. inversion HN; subst. exact H.
  - rewrite G. split; [intros H; right; eexists; split; [constructor|exact H]|]. intros [C|[q [HN H]]]; [discriminate|]. inversion HN; subst. exact H.
  - rewrite G. split; [intros H; right; eexists; split; [constructor|exact H]|]. intros [C|[q' [HN H]]]; [discriminate|]. inversion HN; subst. exact H.
  - split; auto.
Qed.
Lemma zero_spec v : zero v = true <-> exists q, IsNumber v q /\ (q == 0)%Q.
Proof.
  unfold zero. rewrite pyEq_spec. split.
  - intros H. inversion H as [a b p q HA HB HQ| | | |]; subst. inversion HB; subst. exists p. auto.
  - intros [q [HN HQ]]. econstructor; [exact HN|constructor|exact HQ].
Qed.
