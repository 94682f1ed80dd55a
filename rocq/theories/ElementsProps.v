(** Properties C53 (elementwise part) and C56: transformElements,
    calculateOnElements, matchingElements, countElements.  Definitions used in
    the statements: ElementsSpec.v (addressed, before, Becomes, ZeroUniform,
    OneKind, positionsOf, countTrue), MatchSpec.v (Same, isCell), QuerySpec.v
    (Reading). *)
From Verif Require Import Base NamesModel NamesSpec NamesProofs TableModel TableSpec TableProofs TableOps TableOps3Proofs MatchModel MatchSpec MatchProofs
  QueryModel QuerySpec QueryProofs QueryParseProofs QueryProps SparseModel ElementsModel ElementsSpec ElementsProofs ElementsCalcProofs.
From Coq Require Import QArith.
Open Scope string_scope.
Open Scope list_scope.
Open Scope nat_scope.

(** ** C53 *)
(** transformElements changes exactly the addressed elements, each to what the
    function gives for it; after an exception, exactly the addressed elements
    before the failing one (row by row) are changed.  Names and shape stay. *)
Theorem C53_transformElements_partial :
  forall t f points features ps fs pz skip, wf t -> limitDenotes (tp t) points ps -> limitDenotes (tf t) features fs -> ZeroUniform f ->
  let res := transformElements t f points features pz skip in
  tp (fst res) = tp t /\ tf (fst res) = tf t /\ wf (fst res) /\
  match snd res with
  | Ok _ => forall i j v, cell t i j = Some v -> exists w, cell (fst res) i j = Some w /\
      (addressed ps fs i j -> Becomes pz skip f v i j w) /\ (~ addressed ps fs i j -> w = v)
  | Err e => exists a b u, cell t a b = Some u /\ addressed ps fs a b /\ callF f u a b = Err e /\
      forall i j v, cell t i j = Some v -> exists w, cell (fst res) i j = Some w /\
      (addressed ps fs i j -> before (i, j) (a, b) -> Becomes pz skip f v i j w) /\
      (~ addressed ps fs i j \/ ~ before (i, j) (a, b) -> w = v)
  end.
Proof. exact transformElements_spec. Qed.
Print Assumptions C53_transformElements_partial.
(** Missing (ZeroUniform): a function that maps 0 to 0 is not called for False
    (or 0.0) either, the element becomes 0.0. *)
Theorem C53_transformElements_False_refuted :
  exists (t : table pval) g, wf t /\ cell t 0 0 = Some (PBool false) /\ g (PBool false) = Ok (PStr "no") /\
    exists t', transformElements t (F1 g) None None false false = (t', Ok tt) /\ cell t' 0 0 = Some (PFloat 0).
Proof.
  exists (mkTable (fresh 1) (fresh 1) [[PBool false]]), (fun v => match v with PBool false => Ok (PStr "no") | _ => Ok v end).
  split; [split; [reflexivity|]; split; [intros r [<-|[]]; reflexivity|split; exact I]|]. split; [reflexivity|]. split; [reflexivity|].
  eexists. split; vm_compute; reflexivity.
Qed.
Print Assumptions C53_transformElements_False_refuted.

(** calculateOnElements: the result has the addressed points and features in
    the order given, no names, and at each position what the function gives for
    that element (None as NaN).  A one-argument function must give results of
    one kind, and those of a function of the position must not look like a line of
    names above data. *)
Theorem C53_calculateOnElements_partial :
  forall intOf floatOf strOf t f points features ps fs pz skip, wf t -> limitDenotes (tp t) points ps -> limitDenotes (tf t) features fs ->
  ps <> Some [] -> fs <> Some [] -> ZeroUniform f -> (isOneArg f = true -> OneKind pz skip f ps fs t) ->
  let pl := positionsOf (alen (tp t)) ps in let fl := positionsOf (alen (tf t)) fs in
  (isOneArg f = false -> ~ LikeHeader pz skip f pl fl t) ->
  match calculateOnElements intOf floatOf strOf t f points features pz skip with
  | Ok r => wf r /\ tp r = fresh (List.length pl) /\ tf r = fresh (List.length fl) /\
      forall a b i j v, nth_error pl a = Some i -> nth_error fl b = Some j -> cell t i j = Some v ->
      exists w, cell r a b = Some w /\ BecomesNew pz skip f v i j w
  | Err e => exists i j v, addressed ps fs i j /\ cell t i j = Some v /\ callF f v i j = Err e
  end.
Proof. exact calculateOnElements_spec. Qed.
Print Assumptions C53_calculateOnElements_partial.
(** Missing (OneKind): numpy.vectorize takes the type of the first result, later
    ones are truncated to it. *)
Theorem C53_calculateOnElements_truncates_refuted :
  forall intOf floatOf strOf, exists (t r : table pval) g, wf t /\ ZeroUniform (F1 g) /\
    cell t 0 1 = Some (PInt 3) /\ g (PInt 3) = Ok (PFloat (3#2)) /\
    calculateOnElements intOf floatOf strOf t (F1 g) None None false false = Ok r /\ cell r 0 1 = Some (PInt 1).
Proof.
  intros a b c. exists (mkTable (fresh 1) (fresh 2) [[PInt 2; PInt 3]]).
  exists (mkTable (fresh 1) (fresh 2) [[PInt 1; PInt 1]]). exists (fun v => match v with PInt 2 => Ok (PInt 1) | _ => Ok (PFloat (3 # 2)) end).
  split; [split; [reflexivity|]; split; [intros r [<-|[]]; reflexivity|split; exact I]|].
  split; [intros v S; inversion S as [x y p q X Y E E1 E2| | | |]; subst; inversion Y; subst; inversion X; subst; try reflexivity|].
  - unfold Qeq in E. cbn in E. rewrite Z.mul_1_r in E. subst. reflexivity.
  - repeat split; vm_compute; reflexivity.
Qed.
Print Assumptions C53_calculateOnElements_truncates_refuted.
(** Missing (LikeHeader): when the results for the first point are texts and one for
    the second is a number, the first point is taken for the names of the features:
    the result has a point less. *)
Theorem C53_calculateOnElements_header_refuted :
  forall intOf floatOf strOf, exists (t r : table pval) g, wf t /\ ZeroUniform (F3 g) /\ alen (tp t) = 2 /\
    (forall v i j, exists w, g v i j = Ok w) /\ g (PInt 1) 0 0 = Ok (PStr "low") /\
    calculateOnElements intOf floatOf strOf t (F3 g) None None false false = Ok r /\ alen (tp r) = 1 /\ getNames (tf r) = [Some "low"%string].
Proof.
  intros a b c. exists (mkTable (fresh 2) (fresh 1) [[PInt 1]; [PInt 5]]).
  exists (mkTable (fresh 1) (fst (setNames (fresh 1) (AList [NStr "low"]) ONone)) [[PInt 5]]).
  exists (fun v i j => Ok (match v with PInt 1 => PStr "low" | _ => v end)).
  split; [split; [reflexivity|]; split; [intros r [<-|[<-|[]]]; reflexivity|split; exact I]|]. split; [exact I|]. split; [reflexivity|].
  split; [intros v i j; eexists; reflexivity|]. repeat split; vm_compute; reflexivity.
Qed.
Print Assumptions C53_calculateOnElements_header_refuted.
(** a function of the position whose results do not look like names *)
Example C53_header_case : ~ LikeHeader false false (F3 (fun v i j => Ok (PInt (Z.of_nat i)))) [0; 1] [0] (mkTable (fresh 2) (fresh 1) [[PInt 1]; [PInt 5]]).
Proof.
  intros (i0 & i1 & rest & E & H & _). injection E as <- <- <-. destruct (H 0 (PInt 1) (or_introl eq_refl) eq_refl) as [s [[C _]|[_ [r [Hr HB]]]]]; [discriminate|].
  cbn in Hr. injection Hr as <-. cbn in HB. destruct HB as [C|C]; [discriminate|]. inversion C as [x y p q X| | | |]. inversion X.
Qed.
(** Missing (nonempty selections): an empty list of points selects all points. *)
Theorem C53_calculateOnElements_empty_refuted :
  forall intOf floatOf strOf, exists (t r : table pval), wf t /\ limitDenotes (tp t) (Some []) (Some []) /\
    calculateOnElements intOf floatOf strOf t (F1 (fun v => Ok v)) (Some []) None false false = Ok r /\ alen (tp r) = 2.
Proof.
  intros a b c. exists (mkTable (fresh 2) (fresh 1) [[PInt 2]; [PInt 3]]). eexists.
  split; [split; [reflexivity|]; split; [intros r [<-|[<-|[]]]; reflexivity|split; exact I]|]. split; [constructor|]. split; vm_compute; reflexivity.
Qed.
Print Assumptions C53_calculateOnElements_empty_refuted.
(** Sparse with preserveZeros on a subset: the result keeps the positions of the
    source, so it has the wrong shape; with only one of points and features
    given the call fails. *)
Theorem C53_sparse_subset_refuted :
  exists (s r : sparse nat), sparseCalcSubset s (fun v => v) (Some [2]) (Some [1]) = Ok r /\ snp r = 3 /\ snf r = 2 /\
    sparseCalcSubset s (fun v => v) None (Some [1]) = Err TypeErr.
Proof. exists (mkSp 3 2 [mkE 0 0 5; mkE 2 1 7] None None). eexists. repeat split; vm_compute; reflexivity. Qed.
Print Assumptions C53_sparse_subset_refuted.

(** ** C56 *)
(** matchingElements: True exactly where the function says 1/True, False where
    it says 0/False, names and order as selected; the call fails only if the
    function does, or returns something else. *)
Theorem C56_matching_partial :
  forall intOf floatOf strOf t f points features ps fs, wf t -> limitDenotes (tp t) points ps -> limitDenotes (tf t) features fs ->
  ps <> Some [] -> fs <> Some [] ->
  let pl := positionsOf (alen (tp t)) ps in let fl := positionsOf (alen (tf t)) fs in
  NoDup pl -> NoDup fl ->
  match matchingElements intOf floatOf strOf t f points features with
  | Ok r => wf r /\ alen (tp r) = List.length pl /\ alen (tf r) = List.length fl /\
      getNames (tp r) = selected pl (getNames (tp t)) /\ getNames (tf r) = selected fl (getNames (tf t)) /\
      forall a b i j v, nth_error pl a = Some i -> nth_error fl b = Some j -> cell t i j = Some v ->
      exists x, callF f v i j = Ok x /\ ((Same x (PInt 1) /\ cell r a b = Some (PBool true)) \/ (Same x (PInt 0) /\ cell r a b = Some (PBool false)))
  | Err e => exists i j v, addressed ps fs i j /\ cell t i j = Some v /\
      (callF f v i j = Err e \/ (e = InvalidArgumentValue /\ exists x, callF f v i j = Ok x /\ ~ Same x (PInt 1) /\ ~ Same x (PInt 0)))
  end.
Proof. exact matchingElements_spec. Qed.
Print Assumptions C56_matching_partial.
(** With a string: a query if it can be read as one, otherwise the elements equal
    to the string. *)
Theorem C56_matching_string :
  forall floatOf accepted otherFn s v,
  (forall q, parse floatOf accepted s (Some true) = Ok q ->
     Reading floatOf accepted s q /\ qIdent q = None /\
     callF (matchFunOf floatOf accepted otherFn s) v 0 0 = rmap PBool (applyFun otherFn (qFun q) v)) /\
  ((forall q, Reading floatOf accepted s q -> qIdent q <> None) ->
     exists b, callF (matchFunOf floatOf accepted otherFn s) v 0 0 = Ok (PBool b) /\ (b = true <-> v = PStr s)).
Proof.
  intros fl ac ot s v. pose proof (C29_sound fl ac s (Some true)) as H. split.
  - intros q E. rewrite E in H. destruct H as [R [_ N]]. split; [exact R|]. split; [exact (N eq_refl)|]. unfold matchFunOf, elementMatcher. cbn [callF]. rewrite E. reflexivity.
  - intros HN. destruct (parse fl ac s (Some true)) as [q|e] eqn:E.
    + destruct H as [R [_ N]]. exfalso. exact (HN q R (N eq_refl)).
    + exists (pyEq v (PStr s)). split; [unfold matchFunOf, elementMatcher; cbn [callF]; rewrite E; reflexivity|]. rewrite pyEq_spec. split.
      * intros S. inversion S as [x y p q X Y| | | |]; subst; [inversion Y|reflexivity].
      * intros ->. constructor.
Qed.
Print Assumptions C56_matching_string.
(** countElements counts the elements satisfying the condition. *)
Theorem C56_count_partial :
  forall intOf floatOf strOf t g, wf t -> (forall v, Same v (PInt 0) -> g v = g (PInt 0)) ->
  match countElements intOf floatOf strOf t (F1 (fun v => rmap PBool (g v))) with
  | Ok n => n = Z.of_nat (countTrue g (List.concat (rows t))) /\ forall v, isCell t v -> exists b, g v = Ok b
  | Err e => exists v, isCell t v /\ g v = Err e
  end.
Proof. exact countElements_spec. Qed.
Print Assumptions C56_count_partial.
(** In particular every comparison query. *)
Theorem C56_count_comparison :
  forall intOf floatOf strOf accepted otherFn t s q o w, wf t -> parse floatOf accepted s (Some true) = Ok q -> qFun q = QCmp o w ->
  match countQuery intOf floatOf strOf floatOf accepted otherFn t s with
  | Ok n => n = Z.of_nat (countTrue (fun v => compareOp o v w) (List.concat (rows t)))
  | Err e => exists v, isCell t v /\ compareOp o v w = Err e
  end.
Proof.
  intros io fl so ac ot t s q o w W E EQ. unfold countQuery. rewrite E. cbn [rbind]. rewrite EQ. cbn [applyFun].
  pose proof (countElements_spec io fl so t (fun v => compareOp o v w) W (compareOp_uniform o w)) as H.
  destruct (countElements io fl so t (F1 (fun v => rmap PBool (compareOp o v w)))) as [n|e]; [exact (proj1 H)|exact H].
Qed.
Print Assumptions C56_count_comparison.
(** Missing (uniform on zeros): a condition false for 0 is taken to be false for
    False too, so "is false" counts nothing. *)
Theorem C56_count_false_refuted :
  forall intOf floatOf strOf, exists t : table pval, wf t /\
    countQuery intOf floatOf strOf noFloat isAccepted noOther t "is false" = Ok 0%Z /\ cell t 0 0 = Some (PBool false) /\
    applyFun noOther (QIs "false" false) (PBool false) = Ok true.
Proof.
  intros a b c. exists (mkTable (fresh 1) (fresh 2) [[PBool false; PBool true]]).
  split; [split; [reflexivity|]; split; [intros r [<-|[]]; reflexivity|split; exact I]|]. repeat split; vm_compute; reflexivity.
Qed.
Print Assumptions C56_count_false_refuted.

(** Non-vacuity. *)
Definition exE : table pval :=
  mkTable (exNames ["a"; "b"; "c"]) (fresh 2) [[PInt 1; PFloat (1#2)]; [PInt 0; PStr "x"]; [PInt 4; PNone]].
Definition exF : efun := F1 (fun v => match v with PStr _ => Err TypeErr | PNone => Ok PNone | PInt z => Ok (PInt (z + 10))
  | _ => if pyEq v (PInt 0) then Ok (PInt 10) else Ok PNone end).
Example C53_elements_example :
  wf exE /\ limitDenotes (tp exE) (Some [IdStr "c"; IdInt 0]) (Some [2; 0]) /\ ZeroUniform exF /\
  snd (transformElements exE exF (Some [IdStr "c"; IdInt 0]) None false true) = Ok tt /\
  rows (fst (transformElements exE exF (Some [IdStr "c"; IdInt 0]) None false true)) = [[PInt 11; PFloat (1#2)]; [PInt 0; PStr "x"]; [PInt 14; PNone]] /\
  snd (transformElements exE exF None None true true) = Err TypeErr /\
  rows (fst (transformElements exE exF None None true true)) = [[PInt 11; PFloat (1#2)]; [PFloat 0; PStr "x"]; [PInt 4; PNone]] /\
  OneKind false false exF (Some [2; 0]) (Some [0]) exE /\
  rmap rows (calculateOnElements noFloat noFloat (fun _ => "") exE exF (Some [IdStr "c"; IdInt 0]) (Some [IdInt 0]) false false) = Ok [[PInt 14]; [PInt 11]] /\
  rmap (fun r => (getNames (tp r), rows r)) (matchingElements noFloat noFloat (fun _ => "") exE (matchFunOf noFloat isAccepted noOther "x") (Some [IdInt 1; IdInt 0]) None)
    = Ok ([Some "b"; Some "a"], [[PBool false; PBool true]; [PBool false; PBool false]]) /\
  countQuery noFloat noFloat (fun _ => "") noFloat isAccepted noOther exE "is missing" = Ok 1%Z.
Proof.
  assert (W : wf exE).
  { split; [reflexivity|]. split; [intros r [<-|[<-|[<-|[]]]]; reflexivity|]. split; [|apply fresh_Inv]. unfold exE, exNames. apply (setNames_list_Inv (mkAxis 3 None)). apply fresh_Inv. }
  split; [exact W|]. split; [constructor; [exists 2; split; reflexivity|]; constructor; [left; split; [split; reflexivity || lia|reflexivity]|constructor]|]. split.
  { intros v S. pose proof S as S'. apply pyEq_spec in S'. destruct v; try (rewrite S'; reflexivity); inversion S as [x y p q X Y E E1 E2| | | |]; subst; inversion Y; subst; inversion X; subst.
    unfold Qeq in E. cbn in E. rewrite !Z.mul_1_r in E. subst. reflexivity. }
  split; [vm_compute; reflexivity|]. split; [vm_compute; reflexivity|]. split; [vm_compute; reflexivity|]. split; [vm_compute; reflexivity|].
  split.
  { exists KInt. split; [discriminate|]. intros i j v r C [A B] _ H. cbn in A, B. destruct B as [<-|[]]. destruct A as [<-|[<-|[]]]; cbn in C; injection C as <-; cbn in H; injection H as <-; reflexivity. }
  split; [vm_compute; reflexivity|]. split; vm_compute; reflexivity.
Qed.
