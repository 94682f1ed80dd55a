(** C65: filling matched elements by a learner (nimble.fillMatching) and the
    learner nimble.KNNImputation. *)
From Verif Require Import Base NamesModel NamesSpec TableModel TableSpec TableOps TableOps3Proofs MatchModel MatchSpec MatchProofs ElementsModel ElementsSpec ElementsProofs
  BinOpModel BinOpSpec StretchModel StretchSpec LogicModel LogicProofs ImputeModel ImputeSpec ImputeProofs ImputeKnnProofs SparseRefine StretchProps.
From Coq Require Import Sorted.
Open Scope string_scope. Open Scope list_scope. Open Scope nat_scope.

(** ** C65 *)
(** The learner is trained and applied to a copy of the data with NaN at the
    matched positions; on success exactly the matched elements in the chosen
    points and features take the value the result has at the same position;
    names, shape and all other elements stay.  Arguments are refused exactly
    as [Refuses] says, and then, or when the learner fails, the data is not
    changed.  The only other failure is a result that lacks a matched
    position. *)
Theorem C65_fill :
  forall intOf floatOf strOf, FloatOracle floatOf ->
  forall fit t sel points features ps fs, wf t -> (forall m, sel = SelObj m -> wf m) -> (forall u x, fit u = Ok x -> wf x) ->
  limitDenotes (tp t) points ps -> limitDenotes (tf t) features fs ->
  let res := learnerFill intOf floatOf strOf fit t sel points features in
  (exists M u, Accepts t sel M /\ Blanked t M u /\
     match fit u with
     | Err e => res = (t, Err e)
     | Ok filled =>
         match snd res with
         | Ok _ => FilledFrom t M ps fs filled (fst res)
         | Err e => e = IndexErr /\ exists i j, M i j = true /\ addressed ps fs i j /\ i < alen (tp t) /\ j < alen (tf t) /\ cell filled i j = None
         end
     end) \/
  (exists e, Refuses t sel e /\ res = (t, Err e)).
Proof.
  intros io fl so FO fit t sel points features ps fs W Ws WF D1 D2. apply learnerFill_spec; try assumption. destruct sel; [exact Logic.I|exact (Ws _ eq_refl)].
Qed.
Print Assumptions C65_fill.

(** What is accepted is not refused: the two cases exclude each other. *)
Theorem C65_exclusive :
  forall t sel M e, wf t -> (forall m, sel = SelObj m -> wf m) -> Accepts t sel M -> ~ Refuses t sel e.
Proof.
  intros t sel M e W Ws (NE & MK & A) R. destruct R as [f v e Hc H|f v x Hc H K|f M' e _ H|f r N _|f M' r MK' E NT NM|m N|m _ N|m _ _ N|m S NE' TM N|m S NE' TM NA N|m M' S MK' N].
  - destruct Hc as (i & j & Hc). destruct (MK i j v Hc) as (x & E & _). congruence.
  - destruct Hc as (i & j & Hc). destruct (MK i j v Hc) as (y & E & T). apply (K (M i j)). congruence.
  - destruct A as (r & E & _). congruence.
  - contradiction.
  - destruct A as (r' & E' & [T|[_ MM]]); [rewrite E in E'; injection E' as <-; contradiction|]. apply NM. intros i j v Hc Hm. rewrite <- (MM i j v Hc Hm).
    destruct (MK i j v Hc) as (x & Ex & Tx). destruct (MK' i j v Hc) as (y & Ey & Ty). rewrite Ex in Ey. injection Ey as <-. exact (TruthOf_fun _ _ _ Ty Tx).
  - destruct A as (S & _). contradiction.
  - contradiction.
  - apply N. intros i j v Hc. exists (M i j). exact (MK i j v Hc).
  - destruct A as (_ & C1 & C2 & _). apply N. destruct (Ws m eq_refl) as (_ & _ & I1 & I2). left.
    assert (G : forall a b, Inv a -> NamesCovered a b -> NamesConsistent (getNames a) (getNames b)).
    { intros a b Ia C. split; [intros i s s' Ha Hb; apply C in Hb; congruence|]. intros i j s Ha Hb. apply C in Hb. exact (BinOpProofs.names_Distinct a Ia i j s Ha Hb). }
    split; apply G; assumption.
  - apply N. tauto.
  - destruct A as (_ & _ & _ & MM). apply N. intros i j v Hc Hm. rewrite <- (MM i j v Hc Hm). pose proof (Ws m eq_refl) as Wm. destruct S as [S1 S2].
    destruct (cell_range t i j v W Hc) as [Hi Hj]. destruct (cell_some m i j Wm ltac:(congruence) ltac:(congruence)) as (y & Hy & _).
    exact (TruthOf_fun _ _ _ (MK' i j y Hy) (MK i j y Hy)).
Qed.
Print Assumptions C65_exclusive.

(** A call that raises leaves the data as it was, whatever was given, if the
    learner's results have the shape of what it was applied to. *)
Theorem C65_atomic_partial :
  forall intOf floatOf strOf, FloatOracle floatOf ->
  forall fit t sel points features e, wf t -> (forall m, sel = SelObj m -> wf m) ->
  (forall u x, fit u = Ok x -> wf x /\ sameShapeAs x u) ->
  snd (learnerFill intOf floatOf strOf fit t sel points features) = Err e ->
  fst (learnerFill intOf floatOf strOf fit t sel points features) = t.
Proof.
  intros io fl so FO fit t sel points features e W Ws HF. apply (learnerFill_atomic io fl so); try assumption. destruct sel; [exact Logic.I|exact (Ws _ eq_refl)].
Qed.
Print Assumptions C65_atomic_partial.

(** The learner nimble.KNNImputation: an element that is not NaN is kept; a NaN
    becomes what the predictor answers for the elements its point has, trained
    on exactly the points that have all of those features and the missing one.
    All answers are computed from the original data, none from another answer.
    The call fails exactly with the failure of such an answer. *)
Theorem C65_knn :
  forall intOf floatOf strOf predict t, wf t -> 0 < alen (tp t) ->
  match knnImpute intOf floatOf strOf predict t with
  | Ok r => wf r /\ sameShapeAs r t /\ getNames (tp r) = getNames (tp t) /\ getNames (tf r) = getNames (tf t) /\
      forall i j v, cell t i j = Some v ->
        (v <> PNaN -> cell r i j = Some v) /\ (v = PNaN -> exists x, cell r i j = Some x /\ KnnAnswer predict t i j (Ok x))
  | Err e => exists i j, cell t i j = Some PNaN /\ KnnAnswer predict t i j (Err e)
  end.
Proof. exact knnImpute_spec. Qed.
Print Assumptions C65_knn.
(** The predictor never sees a NaN, and its arguments have matching sizes. *)
Theorem C65_knn_clean :
  forall predict t i j r, KnnAnswer predict t i j r ->
  exists xs ys x, predict xs ys x = r /\ List.length xs = List.length ys /\
    (forall vs v, In vs xs -> In v vs -> v <> PNaN) /\ (forall y, In y ys -> y <> PNaN) /\ (forall v, In v x -> v <> PNaN) /\
    (forall vs, In vs xs -> List.length vs = List.length x).
Proof. exact KnnAnswer_clean. Qed.
Print Assumptions C65_knn_clean.
(** The answer for an element is determined by the data. *)
Theorem C65_knn_determined :
  forall predict t i j r r', KnnAnswer predict t i j r -> KnnAnswer predict t i j r' -> r = r'.
Proof.
  intros predict t i j r r' (k & tr & xs & ys & x & (K1 & K2) & (T1 & T2) & X & Y & V & <-) (k' & tr' & xs' & ys' & x' & (K1' & K2') & (T1' & T2') & X' & Y' & V' & <-).
  assert (k = k') by (apply SparseRefine.sorted_lt_ext; [assumption|assumption|intros f; rewrite K2, K2'; reflexivity]). subst k'.
  assert (tr = tr') by (apply SparseRefine.sorted_lt_ext; [assumption|assumption|intros f; rewrite T2, T2'; reflexivity]). subst tr'.
  assert (FUN : forall A B (P : A -> B -> Prop) l m m', (forall a b b', P a b -> P a b' -> b = b') -> Forall2 P l m -> Forall2 P l m' -> m = m').
  { intros A B P l m m' HP F. revert m'. induction F as [|a b l m H F IH]; intros m' G; inversion G; subst; [reflexivity|]. f_equal; [eapply HP; eauto|auto]. }
  assert (VF : forall a vs vs', Values t a k vs -> Values t a k vs' -> vs = vs') by (intros a vs vs'; apply FUN; intros; congruence).
  rewrite (VF _ _ _ V V'). f_equal.
  - exact (FUN _ _ _ _ _ _ VF X X').
  - refine (FUN _ _ _ _ _ _ _ Y Y'). intros a b b' H H'. cbn in H, H'. congruence.
Qed.
Print Assumptions C65_knn_determined.

(** Both together: filling the missing values of an object by KNN imputation
    leaves nothing missing in the chosen points and features if the predictor
    never answers with a missing value, and keeps every value that was there. *)
Theorem C65_knn_fill_complete :
  forall intOf floatOf strOf, FloatOracle floatOf ->
  forall predict t points features ps fs, wf t -> NonEmpty t ->
  (forall xs ys x r, predict xs ys x = Ok r -> ~ isMissing r) ->
  limitDenotes (tp t) points ps -> limitDenotes (tf t) features fs ->
  let res := learnerFill intOf floatOf strOf (knnImpute intOf floatOf strOf predict) t (SelFun (fun v => Ok (PBool (missing v)))) points features in
  match snd res with
  | Ok _ => wf (fst res) /\ tp (fst res) = tp t /\ tf (fst res) = tf t /\
      (forall i j v, cell t i j = Some v -> ~ isMissing v -> cell (fst res) i j = Some v) /\
      (forall i j v, cell (fst res) i j = Some v -> addressed ps fs i j -> ~ isMissing v)
  | Err e => fst res = t /\ exists xs ys x, predict xs ys x = Err e
  end.
Proof. exact knn_fill_complete. Qed.
Print Assumptions C65_knn_fill_complete.

(** Refutation: a boolean object without names marks all missing values of an
    object with names, and is refused: the check compares names too. *)
Theorem C65_nameless_mask_refuted :
  forall intOf floatOf strOf fit, exists (t m : table pval), wf t /\ wf m /\ NonEmpty t /\ sameShapeAs m t /\ NamesAccepted Plain m t /\
    (exists M, Marks t (SelObj m) M /\ MissingMarked t M) /\
    learnerFill intOf floatOf strOf fit t (SelObj m) None None = (t, Err ImproperObjectAction).
Proof.
  intros io fl so fit. exists (tab57 [None] [Some "a"; Some "b"] [[PNaN; PInt 2]]), (tab57 [None] [None; None] [[PBool true; PBool false]]).
  split; [(apply tab57_wf; [reflexivity|cbn; intros r Hr; repeat (destruct Hr as [<-|Hr]; [reflexivity|]); destruct Hr])|]. split; [(apply tab57_wf; [reflexivity|cbn; intros r Hr; repeat (destruct Hr as [<-|Hr]; [reflexivity|]); destruct Hr])|]. split; [split; cbn; lia|]. split; [split; reflexivity|].
  split. { left. split; split; intros i s s' H H'; cbn in *; destruct i as [|[|[|]]]; discriminate. }
  split. { exists (fun i j => j =? 0). split.
    - intros [|[|i]] [|[|[|j]]] v H; try discriminate; injection H as <-; exact (TruthOf_bool _).
    - intros [|[|i]] [|[|[|j]]] v H [->| ->]; try discriminate; reflexivity. }
  vm_compute. reflexivity.
Qed.
Print Assumptions C65_nameless_mask_refuted.
(** Refutation: with a learner whose result lacks a feature (as an imputer that
    drops features without any value), matched elements are filled from the
    wrong feature. *)
Theorem C65_misaligned_refuted :
  forall intOf floatOf strOf, exists (t t' : table pval) fit, wf t /\ (forall u x, fit u = Ok x -> wf x) /\
    learnerFill intOf floatOf strOf fit t (SelFun (fun v => Ok (PBool (missing v)))) None (Some [IdInt 0]) = (t', Ok tt) /\
    cell t 0 0 = Some PNaN /\ cell t' 0 0 = Some (PInt 7) /\
    fit t = Ok (tab57 [None] [Some "b"] [[PInt 7]]) /\ cell t 0 1 = Some (PInt 7) /\ getNames (tf t) = [Some "a"; Some "b"].
Proof.
  intros io fl so. exists (tab57 [None] [Some "a"; Some "b"] [[PNaN; PInt 7]]), (tab57 [None] [Some "a"; Some "b"] [[PInt 7; PInt 7]]),
    (fun _ => Ok (tab57 [None] [Some "b"] [[PInt 7]])).
  split; [(apply tab57_wf; [reflexivity|cbn; intros r Hr; repeat (destruct Hr as [<-|Hr]; [reflexivity|]); destruct Hr])|]. split; [intros u x E; injection E as <-; (apply tab57_wf; [reflexivity|cbn; intros r Hr; repeat (destruct Hr as [<-|Hr]; [reflexivity|]); destruct Hr])|]. repeat split; vm_compute; reflexivity.
Qed.
Print Assumptions C65_misaligned_refuted.
(** Refutation: and if the result lacks a position the call raises after some
    elements have been filled. *)
Theorem C65_half_filled_refuted :
  forall intOf floatOf strOf, exists (t t' : table pval) fit e, wf t /\ (forall u x, fit u = Ok x -> wf x) /\
    learnerFill intOf floatOf strOf fit t (SelFun (fun v => Ok (PBool (missing v)))) None None = (t', Err e) /\ cell t 0 0 = Some PNaN /\ cell t' 0 0 = Some (PInt 7).
Proof.
  intros io fl so. exists (tab57 [None] [Some "a"; Some "b"] [[PNaN; PNaN]]), (tab57 [None] [Some "a"; Some "b"] [[PInt 7; PNaN]]),
    (fun _ => Ok (tab57 [None] [Some "b"] [[PInt 7]])), IndexErr.
  split; [(apply tab57_wf; [reflexivity|cbn; intros r Hr; repeat (destruct Hr as [<-|Hr]; [reflexivity|]); destruct Hr])|]. split; [intros u x E; injection E as <-; (apply tab57_wf; [reflexivity|cbn; intros r Hr; repeat (destruct Hr as [<-|Hr]; [reflexivity|]); destruct Hr])|]. repeat split; vm_compute; reflexivity.
Qed.
Print Assumptions C65_half_filled_refuted.
(** Refutation: applied to other data than it was trained on, KNNImputation
    looks for missing values where the training data had them: it drops the
    points beyond the training data and leaves missing values in place. *)
Theorem C65_knn_other_data_refuted :
  forall intOf floatOf strOf predict, exists (train test r mask : table pval), wf train /\ wf test /\
    knnTrain intOf floatOf strOf train = Ok mask /\ knnApply predict mask test = Ok r /\
    alen (tp test) = 2 /\ alen (tp r) = 1 /\ cell r 0 1 = Some PNaN.
Proof.
  intros io fl so pr. exists (mkTable (fresh 1) (fresh 2) [[PInt 1; PInt 2]]), (mkTable (fresh 2) (fresh 2) [[PInt 1; PNaN]; [PInt 3; PInt 4]]).
  eexists. eexists. split; [split; [reflexivity|]; split; [intros r [<-|[]]; reflexivity|split; exact Logic.I]|].
  split; [split; [reflexivity|]; split; [intros r [<-|[<-|[]]]; reflexivity|split; exact Logic.I]|].
  split; [vm_compute; reflexivity|]. repeat split; vm_compute; reflexivity.
Qed.
Print Assumptions C65_knn_other_data_refuted.

(** Non-vacuity: three points, a predictor that answers the first label. *)
Definition exT : table pval := tab57 [Some "p"; Some "q"; Some "r"] [None; None; None] [[PInt 1; PNaN; PInt 5]; [PInt 1; PInt 3; PInt 6]; [PNone; PInt 4; PInt 6]].
Definition exPredict (xs : list (list pval)) (ys : list pval) (x : list pval) : result pval := match ys with y :: _ => Ok y | [] => Err InvalidArgumentValue end.
Example exT_wf : wf exT.
Proof. (apply tab57_wf; [reflexivity|cbn; intros r Hr; repeat (destruct Hr as [<-|Hr]; [reflexivity|]); destruct Hr]). Qed.
Example ex_knn : exists r, knnImpute (fun _ => None) (fun _ => None) (fun _ => "") exPredict exT = Ok r /\ rows r = [[PInt 1; PInt 3; PInt 5]; [PInt 1; PInt 3; PInt 6]; [PNone; PInt 4; PInt 6]].
Proof. eexists. split; vm_compute; reflexivity. Qed.
Example ex_fill : learnerFill (fun _ => None) (fun _ => None) (fun _ => "") (knnImpute (fun _ => None) (fun _ => None) (fun _ => "") exPredict) exT (SelFun (fun v => Ok (PBool (missing v)))) None (Some [IdInt (-2)])
  = (tab57 [Some "p"; Some "q"; Some "r"] [None; None; None] [[PInt 1; PInt 3; PInt 5]; [PInt 1; PInt 3; PInt 6]; [PNone; PInt 4; PInt 6]], Ok tt).
Proof. vm_compute. reflexivity. Qed.
Example ex_complete : wf exT /\ NonEmpty exT /\ limitDenotes (tp exT) None None /\ limitDenotes (tf exT) (Some [IdInt (-2)]) (Some [1]).
Proof. split; [exact exT_wf|]. split; [split; cbn; lia|]. split; [exact Logic.I|]. constructor; [|constructor]. cbn. lia. Qed.
