(** Property C29: query strings.  Definitions used in the statements:
    QuerySpec.v (Reading, onlyOperator, isHarmless, elementOf, ...), MatchSpec.v
    (IsNumber, Same). *)
From Verif Require Import Base NamesModel NamesSpec NamesProofs TableModel TableSpec TableProofs TableOps TableOps3Proofs TableProps
  MatchModel MatchSpec MatchProofs MatchProps QueryModel QuerySpec QueryProofs QueryParseProofs QueryTargetProofs.
From Coq Require Import QArith Sorted.
Open Scope string_scope.
Open Scope list_scope.
Open Scope nat_scope.

(** A query that is accepted is read as it is written: "id op value", "op
    value", "id is [not] name", "is [not] name"; a points/features query has an
    identifier and an elementwise one has none.  The only error is
    InvalidArgumentValue, so text with no such reading is rejected. *)
Theorem C29_sound :
  forall floatOf accepted s elementQuery,
  match parse floatOf accepted s elementQuery with
  | Ok q => Reading floatOf accepted s q /\ (elementQuery = Some false -> qIdent q <> None) /\ (elementQuery = Some true -> qIdent q = None)
  | Err e => e = InvalidArgumentValue
  end.
Proof.
  intros fl ac s eq. destruct (parse fl ac s eq) as [q|e] eqn:E; [exact (parse_sound fl ac s eq q E)|].
  unfold parse in E. destruct (parseCore fl ac s eq) as [q|]; [|congruence]. destruct eq as [[]|]; destruct (qIdent q); congruence.
Qed.
Print Assumptions C29_sound.
Theorem C29_rejects_malformed :
  forall floatOf accepted s elementQuery, (forall q, ~ Reading floatOf accepted s q) -> parse floatOf accepted s elementQuery = Err InvalidArgumentValue.
Proof.
  intros fl ac s eq H. pose proof (C29_sound fl ac s eq) as G. destruct (parse fl ac s eq) as [q|e]; [|congruence].
  destruct G as [G _]. exfalso. exact (H q G).
Qed.
Print Assumptions C29_rejects_malformed.

(** "id op value" is accepted whenever the text has one space-padded operator
    and no interfering "is". *)
Theorem C29_axis_complete_partial :
  forall floatOf accepted id o text, let s := (id ++ padded o ++ text)%string in
  onlyOperator s id o -> isHarmless s text ->
  parse floatOf accepted s (Some false) = Ok (mkQuery (Some id) (QCmp o (toFilter floatOf text))).
Proof. exact parse_axis_complete. Qed.
Print Assumptions C29_axis_complete_partial.
(** "id is name" and "id is not name" are always accepted, whatever the id. *)
Theorem C29_is_complete :
  forall floatOf id neg name elementQuery, In name publicNames -> elementQuery <> Some true ->
  parse floatOf isAccepted (id ++ " " ++ isWord neg ++ name)%string elementQuery = Ok (mkQuery (Some id) (QIs name neg)).
Proof.
  intros fl id neg name eq HI. apply parse_is_complete.
  - intros [a [b ->]]. assert (G : forallb (fun n => negb (match splitFirst " " n with Some _ => true | None => false end)) publicNames = true) by (vm_compute; reflexivity).
    rewrite forallb_forall in G. specialize (G _ HI). pose proof (splitFirst_spec " " (a ++ " " ++ b)%string) as S. destruct (splitFirst " " (a ++ " " ++ b)%string); [discriminate|].
    apply S. exists a, b. reflexivity.
  - unfold isAccepted. apply existsb_exists. exists name. split; [exact HI|apply String.eqb_refl].
Qed.
Print Assumptions C29_is_complete.
(** Elementwise: "op value" and "is [not] name". *)
Theorem C29_element_complete_partial :
  forall floatOf accepted o sp text elementQuery, let s := (opStr o ++ sp ++ text)%string in
  (sp = " " \/ sp = "" /\ forall r, text <> (" " ++ r)%string) -> longest s o -> noNewline text -> ~ occurs " is " s ->
  (elementQuery = Some true \/ elementQuery = None /\ forall o', ~ occurs (padded o') s) ->
  parse floatOf accepted s elementQuery = Ok (mkQuery None (QCmp o (toFilter floatOf text))).
Proof. exact parse_element_complete. Qed.
Print Assumptions C29_element_complete_partial.
Theorem C29_element_is_complete :
  forall floatOf accepted neg name elementQuery, spaceless name -> noNewline name -> accepted name = true -> elementQuery <> Some false ->
  parse floatOf accepted (isWord neg ++ name)%string elementQuery = Ok (mkQuery None (QIs name neg)).
Proof. exact parse_isElement_complete. Qed.
Print Assumptions C29_element_is_complete.

(** A string target that is the name of a point (feature) selects it, whatever
    it looks like. *)
Theorem C29_name_first :
  forall floatOf accepted otherFn sd t s k, wf t -> nth_error (getNames (ax sd t)) k = Some (Some s) ->
  stringTargets floatOf accepted otherFn sd t s = Ok [k].
Proof. exact stringTargets_name. Qed.
Print Assumptions C29_name_first.
(** Any other string target that is accepted is a query naming a feature (point)
    of the object, and selects, in order, exactly the points (features) whose
    element there satisfies the comparison. *)
Theorem C29_selects :
  forall floatOf accepted otherFn sd t s l, wf t -> (forall k, nth_error (getNames (ax sd t)) k <> Some (Some s)) ->
  stringTargets floatOf accepted otherFn sd t s = Ok l ->
  exists q n k, Reading floatOf accepted s q /\ qIdent q = Some n /\ nth_error (getNames (offax sd t)) k = Some (Some n) /\
    StronglySorted lt l /\
    (forall i, In i l <-> exists x, elementOf sd t i k = Some x /\ applyFun otherFn (qFun q) x = Ok true) /\
    (forall i x, elementOf sd t i k = Some x -> exists b, applyFun otherFn (qFun q) x = Ok b).
Proof. exact stringTargets_query. Qed.
Print Assumptions C29_selects.
(** Copy and extract with a string target return these vectors and no others,
    extract leaves the rest. *)
Theorem C29_structural :
  forall floatOf accepted otherFn sd (t : table pval) s l, wf t -> stringTargets floatOf accepted otherFn sd t s = Ok l ->
  (exists r, structural SCopy sd t l = Ok (t, Some r) /\ wf r /\ items sd r = selected l (items sd t)) /\
  (exists t' r, structural SExtract sd t l = Ok (t', Some r) /\ wf r /\ wf t' /\ items sd r = selected l (items sd t) /\ items sd t' = survivors l (items sd t)) /\
  (exists t', structural SDelete sd t l = Ok (t', None) /\ wf t' /\ items sd t' = survivors l (items sd t)) /\
  (exists t', structural SRetain sd t l = Ok (t', None) /\ wf t' /\ items sd t' = selected l (items sd t)).
Proof.
  intros fl ac ot sd t s l W H. destruct (stringTargets_range fl ac ot sd t s l W H) as [ND HR].
  destruct (taken_spec pval sd t l W ND HR) as [r [E1 [W1 [_ [_ I1]]]]].
  destruct (remaining_spec pval sd t l W ND HR) as [r2 [E2 [W2 [_ [_ I2]]]]].
  unfold structural. rewrite E1, E2. cbn [rbind]. split; [exists r; auto|]. split; [exists r2, r; auto|]. split; [exists r2; auto|exists r; auto].
Qed.
Print Assumptions C29_structural.
(** A well-formed query naming a present feature is answered unless the
    comparison itself fails. *)
Theorem C29_answered :
  forall floatOf accepted otherFn sd t s q n k, wf t -> (forall k, nth_error (getNames (ax sd t)) k <> Some (Some s)) ->
  parse floatOf accepted s (Some false) = Ok q -> qIdent q = Some n -> nth_error (getNames (offax sd t)) k = Some (Some n) ->
  (forall i x, elementOf sd t i k = Some x -> exists b, applyFun otherFn (qFun q) x = Ok b) ->
  exists l, stringTargets floatOf accepted otherFn sd t s = Ok l.
Proof. exact stringTargets_ok. Qed.
Print Assumptions C29_answered.

(** The comparisons mean what the operators say: on numbers the order of the
    numbers, on strings the order of strings, equality as in C30; comparing the
    order of a string or None with a number fails. *)
Theorem C29_comparisons :
  forall a b,
  (exists r, compareOp CEq a b = Ok r /\ (r = true <-> Same a b)) /\
  (exists r, compareOp CNe a b = Ok r /\ (r = true <-> ~ Same a b)) /\
  (forall p q, IsNumber a p -> IsNumber b q ->
     (exists r, compareOp CLt a b = Ok r /\ (r = true <-> (p < q)%Q)) /\ (exists r, compareOp CLe a b = Ok r /\ (r = true <-> (p <= q)%Q)) /\
     (exists r, compareOp CGt a b = Ok r /\ (r = true <-> (q < p)%Q)) /\ (exists r, compareOp CGe a b = Ok r /\ (r = true <-> (q <= p)%Q))) /\
  (forall s s', a = PStr s -> b = PStr s' ->
     compareOp CLt a b = Ok (String.ltb s s') /\ compareOp CLe a b = Ok (String.ltb s s' || String.eqb s s') /\
     compareOp CGt a b = Ok (String.ltb s' s) /\ compareOp CGe a b = Ok (String.ltb s' s || String.eqb s' s)) /\
  (forall o q, o <> CEq -> o <> CNe -> (a = PNone \/ exists s, a = PStr s) -> IsNumber b q -> compareOp o a b = Err TypeErr) /\
  (forall o, a = PNaN -> o <> CNe -> numberLike b = true -> compareOp o a b = Ok false).
Proof.
  intros a b. split; [|split; [|split; [|split; [|split]]]].
  - eexists. split; [reflexivity|apply pyEq_spec].
  - eexists. split; [reflexivity|]. unfold pyNe. rewrite Bool.negb_true_iff, <- pyEq_spec. destruct (pyEq a b); split; congruence.
  - intros p q A B. split; [exact (pyLt_num a b p q A B)|]. split; [exact (pyLe_num a b p q A B)|]. split; [exact (pyLt_num b a q p B A)|exact (pyLe_num b a q p B A)].
  - intros s s' -> ->. repeat split; reflexivity.
  - intros o q H1 H2 HA HB. destruct HA as [->|[s ->]]; destruct HB; destruct o; try contradiction; reflexivity.
  - intros o -> HO HB. destruct b; try discriminate HB; destruct o; try contradiction; reflexivity.
Qed.
Print Assumptions C29_comparisons.

(** "is name" and "is not name" say what the name says. *)
Theorem C29_is_functions :
  forall otherFn name P neg v, In (name, P) meanings ->
  exists b, applyFun otherFn (QIs name neg) v = Ok b /\ (b = true <-> if neg then ~ P v else P v).
Proof.
  intros ot name P neg v H.
  assert (G : exists b, elementFn ot name v = Ok b /\ (b = true <-> P v)).
  { destruct (C30_signs v) as [SZ [SP [SN SI]]].
    repeat (destruct H as [E|H]; [injection E as <- <-; eexists; (split; [reflexivity|])|]); try destruct H.
    - apply missing_spec.
    - unfold nonMissing. rewrite Bool.negb_true_iff, <- Bool.not_true_iff_false, missing_spec. tauto.
    - destruct v; cbn; (split; [intros G; try discriminate G|intros G; try reflexivity]); eauto 6; destruct G as [[? G]|[[? G]|[G|[G|G]]]]; discriminate.
    - destruct v; cbn; (split; [intros G; try discriminate G|intros G; try reflexivity]); eauto 6; destruct G as [[? G]|[G|[? G]]]; discriminate.
    - unfold zero. apply pyEq_spec.
    - unfold nonZero, pyNe. rewrite Bool.negb_true_iff, <- Bool.not_true_iff_false, pyEq_spec. reflexivity.
    - exact SP.
    - exact SN.
    - exact SI.
    - destruct v; cbn; (split; [intros G; try discriminate G|intros G; try reflexivity]); eauto 6; destruct G as [? G]; discriminate.
    - destruct v; cbn; (split; [intros G; try discriminate G|intros G; try reflexivity]); eauto 6; destruct G as [[? G]|[? G]]; discriminate.
    - destruct v; cbn; (split; [intros G; try discriminate G|intros G; try reflexivity]); eauto 6; destruct G as [[? G]|[G|[G|G]]]; discriminate.
    - destruct v as [[]| | | | | | |]; cbn; split; congruence.
    - destruct v as [[]| | | | | | |]; cbn; split; congruence.
    - destruct v as [[]| | | | | | |]; cbn; split; congruence.
    - destruct v as [[]| | | | | | |]; cbn; split; congruence.
    - destruct v as [[]| | | | | | |]; cbn; split; congruence. }
  destruct G as [b [E S]]. cbn [applyFun]. rewrite E. cbn [rmap]. eexists. split; [reflexivity|]. destruct neg; [|exact S].
  rewrite <- S. destruct b; cbn; split; congruence.
Qed.
Print Assumptions C29_is_functions.
(** The accepted names are the elementwise functions, their any/all versions
    and True, False, None. *)
Theorem C29_accepted_names : forall s, isAccepted s = true <-> In s acceptedNames.
Proof.
  assert (L : forall A B, forallb (fun s => existsb (String.eqb s) B) A = true -> incl A B).
  { intros A B H s Hs. rewrite forallb_forall in H. specialize (H s Hs). apply existsb_exists in H. destruct H as [x [Hx E]]. apply String.eqb_eq in E. subst. exact Hx. }
  intros s. unfold isAccepted. rewrite existsb_exists. split.
  - intros [x [Hx E]]. apply String.eqb_eq in E. subst. revert Hx. apply L. vm_compute. reflexivity.
  - intros H. exists s. split; [|apply String.eqb_refl]. revert H. apply L. vm_compute. reflexivity.
Qed.
Print Assumptions C29_accepted_names.

(** Refutations of unrestricted completeness. *)
Definition noFloat (s : string) : option pval := None.
Definition noOther (n : string) (v : pval) : result bool := Err TypeErr.
Definition exNames (l : list string) : axis :=
  fst (setNames (mkAxis (List.length l) None) (AList (map NStr l)) ONone).
(** a feature whose name contains a padded operator cannot be queried *)
Theorem C29_operator_in_name_refuted :
  exists t : table pval, nth_error (getNames (tf t)) 0 = Some (Some "a > b") /\
    stringTargets noFloat isAccepted noOther Pts t "a > b == x" = Err InvalidArgumentValue.
Proof. exists (mkTable (fresh 1) (exNames ["a > b"]) [[PStr "x"]]). split; reflexivity. Qed.
Print Assumptions C29_operator_in_name_refuted.
(** nor one whose name contains " is " when the value happens to hold "is " *)
Theorem C29_is_in_name_refuted :
  exists t : table pval, nth_error (getNames (tf t)) 0 = Some (Some "what is it") /\
    onlyOperator "what is it == this one" "what is it" CEq /\
    stringTargets noFloat isAccepted noOther Pts t "what is it == this one" = Err InvalidArgumentValue.
Proof.
  exists (mkTable (fresh 1) (exNames ["what is it"]) [[PStr "this one"]]). split; [reflexivity|]. split; [|reflexivity].
  assert (H : containsOp "what is it == this one" = [CEq]) by reflexivity. apply containsOp_one in H. destruct H as [id [text [Hs HO]]].
  destruct (HO "what is it" CEq "this one" eq_refl) as [E _]. rewrite E. exact HO.
Qed.
Print Assumptions C29_is_in_name_refuted.
(** elementwise, a value containing " is " is rejected, and text after a newline
    is dropped *)
Theorem C29_element_value_refuted :
  parse noFloat isAccepted "== what is it" (Some true) = Err InvalidArgumentValue /\
  parse noFloat isAccepted ("== a" ++ String newline "b") (Some true) = Ok (mkQuery None (QCmp CEq (PStr "a"))).
Proof. split; reflexivity. Qed.
Print Assumptions C29_element_value_refuted.

(** Non-vacuity. *)
Definition exFloat (s : string) : option pval := if String.eqb s "30" then Some (PFloat (30#1)) else None.
Definition exQ : table pval :=
  mkTable (fresh 3) (exNames ["age"; "who is it"]) [[PInt 29; PStr "a"]; [PInt 30; PNone]; [PFloat (61#2); PStr "c"]].
Example C29_example :
  stringTargets exFloat isAccepted noOther Pts exQ "age >= 30" = Ok [1; 2] /\
  stringTargets exFloat isAccepted noOther Pts exQ "who is it is missing" = Ok [1] /\
  stringTargets exFloat isAccepted noOther Pts exQ "who is it != a" = Ok [1; 2] /\
  stringTargets exFloat isAccepted noOther Pts exQ "agE >= 30" = Err InvalidArgumentValue /\
  stringTargets exFloat isAccepted noOther Fts exQ "age" = Ok [0] /\
  parse exFloat isAccepted ">=30" (Some true) = Ok (mkQuery None (QCmp CGe (PFloat (30#1)))) /\
  onlyOperator "who is it != a" "who is it" CNe /\ isHarmless "who is it != a" "a" /\ wf exQ.
Proof.
  split; [reflexivity|]. split; [reflexivity|]. split; [reflexivity|]. split; [reflexivity|]. split; [reflexivity|]. split; [reflexivity|].
  split; [|split].
  - assert (H : containsOp "who is it != a" = [CNe]) by reflexivity. apply containsOp_one in H. destruct H as [id [text [Hs HO]]].
    destruct (HO "who is it" CNe "a" eq_refl) as [E _]. rewrite E. exact HO.
  - right. split.
    + intros H. apply searchIs_spec in H. discriminate.
    + assert (H : containsIs "who is it != a" = [" is "]) by reflexivity. unfold containsIs in H. apply scan_unique in H. destruct H as [a [b [_ [_ HU]]]].
      intros x y x' y' E E'. assert (N : forall z, isAt (" is " ++ z)%string <> None) by (intros z C; rewrite isAt_none in C; exact (C z eq_refl)).
      destruct (HU x _ E (N y)) as [-> _]. destruct (HU x' _ E' (N y')) as [-> _]. reflexivity.
  - split; [reflexivity|]. split; [intros r [<-|[<-|[<-|[]]]]; reflexivity|]. split; [apply fresh_Inv|].
    unfold exQ, exNames. apply (setNames_list_Inv (mkAxis 2 None)). apply fresh_Inv.
Qed.
