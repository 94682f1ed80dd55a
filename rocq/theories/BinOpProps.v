(** Properties C17 and C18: elementwise operators and abs.  Definitions used in
    the statements: BinOpSpec.v (NamesConsistent, NamesDisjoint, NamesAccepted,
    ResultNames, combined, AsNumber, AllNumeric, ArrayType, ValuesCombined,
    ZeroDivisor, AfterFailure, AbsOf), TableSpec.v (wf, cell). *)
From Verif Require Import Base NamesModel NamesSpec NamesProofs TableModel TableSpec TableProofs TableOps MatchModel MatchSpec MatchProofs
  ElementsModel ElementsSpec BinOpModel BinOpSpec BinOpProofs BinOpMainProofs.
From Coq Require Import QArith Qabs.
Open Scope string_scope.
Open Scope list_scope.
Open Scope nat_scope.

(** ** C17 *)
(** Two objects of one shape with numeric data.  The call succeeds exactly when
    the names are acceptable, a division has no zero divisor and numpy computes
    every element; the result's elements come from the elements at the same
    position, its names are the combined ones of a consistent axis and none on an
    inconsistent one.  Only an in-place call changes self, and other is never
    changed (it is a value here; the code copies it, base.py:5417-5418). *)
Theorem C17_elementwise :
  forall floatOf, FloatOracle floatOf -> forall npArith f o a b,
  wf a -> wf b -> alen (tp a) = alen (tp b) -> alen (tf a) = alen (tf b) -> 0 < alen (tp a) -> 0 < alen (tf a) ->
  AllNumeric floatOf a -> AllNumeric floatOf b ->
  match binaryOp floatOf npArith f o a (OBase b) with
  | (a', Ok r) => NamesAccepted f a b /\ ~ (dividing o = true /\ ZeroDivisor floatOf f a b) /\
      wf r /\ alen (tp r) = alen (tp a) /\ alen (tf r) = alen (tf a) /\
      ResultNames (getNames (tp a)) (getNames (tp b)) (getNames (tp r)) /\ ResultNames (getNames (tf a)) (getNames (tf b)) (getNames (tf r)) /\
      ValuesCombined floatOf npArith o f a b r /\ a' = (match f with InPlace => r | _ => a end)
  | (a', Err e) => AfterFailure floatOf f a a' /\
      ((e = ZeroDiv /\ dividing o = true /\ ZeroDivisor floatOf f a b) \/
       (e = InvalidArgumentValue /\ ~ NamesAccepted f a b) \/
       (NamesAccepted f a b /\ ValueFails floatOf npArith o f a b e))
  end.
Proof. exact binaryOp_spec. Qed.
Print Assumptions C17_elementwise.
(** With a scalar: the names stay as they are. *)
Theorem C17_scalar :
  forall floatOf, FloatOracle floatOf -> forall npArith f o a v,
  wf a -> 0 < alen (tp a) -> 0 < alen (tf a) -> AllNumeric floatOf a -> aNumber v = true ->
  match binaryOp floatOf npArith f o a (OScalar v) with
  | (a', Ok r) => wf r /\ alen (tp r) = alen (tp a) /\ alen (tf r) = alen (tf a) /\ getNames (tp r) = getNames (tp a) /\ getNames (tf r) = getNames (tf a) /\
      ValuesWithScalar floatOf npArith o f a v r /\ a' = (match f with InPlace => r | _ => a end)
  | (a', Err e) => AfterFailure floatOf f a a' /\
      ((e = ZeroDiv /\ dividing o = true /\ ZeroDivisorScalar floatOf f a v) \/
       exists da i j x x', ArrayType (raising o) a da /\ cell a i j = Some x /\ AsNumber floatOf x x' /\ npArith o (reflectedCall f) da None x' v = Err e)
  end.
Proof. exact binaryOp_scalar. Qed.
Print Assumptions C17_scalar.
(** Other operands are refused: non-numeric data on the left, on the right,
    different shapes, empty objects, something that is no number. *)
Theorem C17_left_not_numeric :
  forall floatOf npArith f o a other, wf a -> ~ AllNumeric floatOf a -> binaryOp floatOf npArith f o a other = (a, Err ImproperObjectAction).
Proof. exact binaryOp_left. Qed.
Print Assumptions C17_left_not_numeric.
Theorem C17_right_not_numeric :
  forall floatOf npArith f o a b, wf a -> wf b -> AllNumeric floatOf a -> ~ AllNumeric floatOf b ->
  exists a' e, binaryOp floatOf npArith f o a (OBase b) = (a', Err e) /\ (e = InvalidArgumentValue \/ e = ImproperObjectAction \/ e = ZeroDiv) /\ AfterFailure floatOf f a a'.
Proof. exact binaryOp_right. Qed.
Print Assumptions C17_right_not_numeric.
Theorem C17_shapes :
  forall floatOf npArith f o a b, wf a -> AllNumeric floatOf a -> (alen (tp a) <> alen (tp b) \/ alen (tf a) <> alen (tf b)) ->
  exists a', binaryOp floatOf npArith f o a (OBase b) = (a', Err InvalidArgumentValue) /\ AfterFailure floatOf f a a'.
Proof. exact binaryOp_size. Qed.
Print Assumptions C17_shapes.
Theorem C17_empty :
  forall floatOf npArith f o a b, wf a -> AllNumeric floatOf a -> alen (tp a) = alen (tp b) -> alen (tf a) = alen (tf b) -> alen (tp a) = 0 \/ alen (tf a) = 0 ->
  exists a', binaryOp floatOf npArith f o a (OBase b) = (a', Err ImproperObjectAction) /\ AfterFailure floatOf f a a'.
Proof. exact binaryOp_empty. Qed.
Print Assumptions C17_empty.

(** An in-place call that is refused has already turned the numeric strings of
    self into numbers. *)
Theorem C17_refused_inplace_refuted :
  exists floatOf, FloatOracle floatOf /\ forall npArith, exists (a b a' : table pval), wf a /\ wf b /\
    binaryOp floatOf npArith InPlace Add a (OBase b) = (a', Err InvalidArgumentValue) /\ cell a 0 0 = Some (PStr "1") /\ cell a' 0 0 = Some (PFloat 1).
Proof.
  exists (fun s => if String.eqb s "1" then Some (PFloat 1) else None). split.
  { intros s v H. destruct (String.eqb s "1"); [|discriminate]. injection H as <-. reflexivity. }
  intros np. exists (mkTable (fresh 1) (fresh 1) [[PStr "1"]]), (mkTable (fresh 1) (fresh 2) [[PInt 2; PInt 3]]). eexists.
  split; [split; [reflexivity|]; split; [intros r [<-|[]]; reflexivity|split; exact I]|]. split; [split; [reflexivity|]; split; [intros r [<-|[]]; reflexivity|split; exact I]|].
  split; [reflexivity|]. split; reflexivity.
Qed.
Print Assumptions C17_refused_inplace_refuted.
(** An element of a sum depends on elements at other positions: numpy adds two
    arrays of bools as a logical or, two arrays of Python objects as numbers. *)
Theorem C17_position_refuted :
  forall floatOf npArith, npArith Add false DBool (Some DBool) (PBool true) (PBool true) = Ok (PBool true) ->
  npArith Add false DObj (Some DObj) (PBool true) (PBool true) = Ok (PInt 2) -> npArith Add false DObj (Some DObj) (PInt 3) (PInt 3) = Ok (PInt 6) ->
  exists (a b r r' : table pval), wf a /\ wf b /\ cell a 0 0 = cell b 0 0 /\
    snd (binaryOp floatOf npArith Plain Add a (OBase a)) = Ok r /\ snd (binaryOp floatOf npArith Plain Add b (OBase b)) = Ok r' /\
    cell r 0 0 = Some (PBool true) /\ cell r' 0 0 = Some (PInt 2).
Proof.
  intros fo np H1 H2 H3. exists (mkTable (fresh 1) (fresh 1) [[PBool true]]), (mkTable (fresh 1) (fresh 2) [[PBool true; PInt 3]]).
  exists (mkTable (fresh 1) (fresh 1) [[PBool true]]), (mkTable (fresh 1) (fresh 2) [[PInt 2; PInt 6]]).
  split; [split; [reflexivity|]; split; [intros r [<-|[]]; reflexivity|split; exact I]|]. split; [split; [reflexivity|]; split; [intros r [<-|[]]; reflexivity|split; exact I]|].
  split; [reflexivity|]. split; [cbn; rewrite H1; reflexivity|]. split; [cbn; rewrite H2; cbn; rewrite H3; reflexivity|]. split; reflexivity.
Qed.
Print Assumptions C17_position_refuted.

(** Non-vacuity: partially named operands with consistent points, disjoint
    features. *)
Definition exAxis (l : list (option string)) : axis := fst (setNames (fresh (List.length l)) (AList (map to_newname l)) ONone).
Definition exA : table pval := mkTable (exAxis [Some "p"; None]) (exAxis [Some "x"; Some "y"]) [[PInt 1; PInt 2]; [PInt 3; PInt 4]].
Definition exB : table pval := mkTable (exAxis [Some "p"; Some "q"]) (exAxis [Some "u"; Some "v"]) [[PInt 10; PInt 20]; [PInt 30; PInt 40]].
Definition exNp (o : arith) (r : bool) (d : dtype) (d' : option dtype) (x y : pval) : result pval :=
  match x, y with PInt a, PInt b => Ok (PInt (a + b)) | _, _ => Err TypeErr end.
Example C17_example :
  exists r, binaryOp (fun _ => None) exNp Plain Add exA (OBase exB) = (exA, Ok r) /\
    getNames (tp r) = [Some "p"; Some "q"] /\ getNames (tf r) = [None; None] /\ rows r = [[PInt 11; PInt 22]; [PInt 33; PInt 44]].
Proof. eexists. split; [vm_compute; reflexivity|]. vm_compute. auto. Qed.
Example C17_example_inplace : snd (binaryOp (fun _ => None) exNp InPlace Add exA (OBase exB)) = Err InvalidArgumentValue.
Proof. vm_compute. reflexivity. Qed.
Example C17_example_hyps : wf exA /\ AllNumeric (fun _ => None) exA.
Proof.
  split; [split; [reflexivity|]; split; [intros r [<-|[<-|[]]]; reflexivity|]; split; apply setNames_list_Inv, fresh_Inv|].
  intros [|[|[|i]]] [|[|[|j]]] v H; cbn in H; try discriminate; injection H as <-; eexists; apply asn_same; reflexivity.
Qed.

(** ** C18 *)
(** abs: absolute values everywhere, feature names kept; point names kept when
    the feature names exist (were ever set or read). *)
Theorem C18_abs_partial :
  forall intOf floatOf strOf t, wf t -> 0 < alen (tp t) -> 0 < alen (tf t) -> NumbersOnly t -> ~ BoolsAndFloats t ->
  exists r, absObj intOf floatOf strOf t = Ok r /\ wf r /\ alen (tp r) = alen (tp t) /\ alen (tf r) = alen (tf t) /\
    (forall i j v, cell t i j = Some v -> exists w, cell r i j = Some w /\ AbsOf v w) /\
    getNames (tf r) = getNames (tf t) /\
    getNames (tp r) = (if namesCreated (tf t) then getNames (tp t) else repeat None (alen (tp t))).
Proof. exact absObj_spec. Qed.
Print Assumptions C18_abs_partial.
Theorem C18_point_names_refuted :
  forall intOf floatOf strOf, exists t r, wf t /\ absObj intOf floatOf strOf t = Ok r /\ getNames (tp t) = [Some "a"; Some "b"] /\ getNames (tp r) = [None; None].
Proof.
  intros a b c. exists (mkTable (exAxis [Some "a"; Some "b"]) (fresh 1) [[PInt (-1)]; [PInt 2]]). eexists.
  split; [split; [reflexivity|]; split; [intros r [<-|[<-|[]]]; reflexivity|]; split; [apply setNames_list_Inv, fresh_Inv|exact I]|].
  split; [vm_compute; reflexivity|]. split; vm_compute; reflexivity.
Qed.
Print Assumptions C18_point_names_refuted.
(** Missing (BoolsAndFloats): the array has Python objects, numpy.vectorize takes
    the type of the first result, abs(-2.5) becomes 2. *)
Theorem C18_truncates_refuted :
  forall intOf floatOf strOf, exists (t r : table pval), wf t /\ NumbersOnly t /\ absObj intOf floatOf strOf t = Ok r /\
    cell t 0 1 = Some (PFloat (-5 # 2)) /\ cell r 0 1 = Some (PInt 2).
Proof.
  intros a b c. exists (mkTable (fresh 1) (fresh 2) [[PBool true; PFloat (-5 # 2)]]). eexists.
  split; [split; [reflexivity|]; split; [intros r [<-|[]]; reflexivity|split; exact I]|].
  split; [intros [|i] [|[|j]] v H; cbn in H; try discriminate; try (destruct i; discriminate); try (destruct j; discriminate); injection H as <-; reflexivity|].
  split; [vm_compute; reflexivity|]. split; vm_compute; reflexivity.
Qed.
Print Assumptions C18_truncates_refuted.
Example C18_example : exists r, absObj (fun _ => None) (fun _ => None) (fun _ => "") exA = Ok r /\ rows r = rows exA /\ getNames (tp r) = [Some "p"; None].
Proof. eexists. split; [vm_compute; reflexivity|]. vm_compute. auto. Qed.
