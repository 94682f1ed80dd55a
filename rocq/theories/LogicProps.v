(** C60: logical operators &, |, ^ and ~ between objects.  Definitions used in
    the statements: LogicSpec.v, StretchSpec.v (TruthOf, AllTruths, connective),
    BinOpSpec.v (NamesAccepted, ResultNames, FloatOracle). *)
From Verif Require Import Base NamesModel NamesSpec TableModel TableSpec TableOps MatchModel MatchSpec ElementsModel BinOpModel BinOpSpec BinOpProps StretchModel StretchSpec StretchProps LogicModel LogicSpec LogicProofs.
From Coq Require Import QArith.
Open Scope string_scope.
Open Scope list_scope.
Open Scope nat_scope.

(** Two objects: accepted exactly when the shapes agree, no axis is empty, all
    elements are True, False, 0 or 1 and the names are accepted; the result has
    at every position the connective of the two truth values there. *)
Theorem C60_logical :
  forall intOf floatOf strOf, FloatOracle floatOf -> forall o a b, wf a -> wf b ->
  match logicalBinary intOf floatOf strOf o a (OBase b) with
  | Ok r => alen (tp a) = alen (tp b) /\ alen (tf a) = alen (tf b) /\ 0 < alen (tp a) /\ 0 < alen (tf a) /\ AllTruths a /\ AllTruths b /\ NamesAccepted Plain a b /\
      wf r /\ alen (tp r) = alen (tp a) /\ alen (tf r) = alen (tf a) /\
      ResultNames (getNames (tp a)) (getNames (tp b)) (getNames (tp r)) /\ ResultNames (getNames (tf a)) (getNames (tf b)) (getNames (tf r)) /\
      forall i j x y, cell a i j = Some x -> cell b i j = Some y -> exists p q, TruthOf x p /\ TruthOf y q /\ cell r i j = Some (PBool (connective o p q))
  | Err e => ((alen (tp a) <> alen (tp b) \/ alen (tf a) <> alen (tf b)) /\ e = InvalidArgumentValue) \/
      (alen (tp a) = alen (tp b) /\ alen (tf a) = alen (tf b) /\
        (((alen (tp a) = 0 \/ alen (tf a) = 0) /\ e = ImproperObjectAction) \/
         (0 < alen (tp a) /\ 0 < alen (tf a) /\
           (((~ AllTruths a \/ ~ AllTruths b) /\ e = ImproperObjectAction) \/
            (AllTruths a /\ AllTruths b /\ ~ NamesAccepted Plain a b /\ e = InvalidArgumentValue)))))
  end.
Proof. exact logicalBinary_spec. Qed.
Print Assumptions C60_logical.
(** ~obj, for every object, empty ones included. *)
Theorem C60_invert :
  forall intOf floatOf strOf t, wf t ->
  (AllTruths t /\ exists r, invertObj intOf floatOf strOf t = Ok r /\ wf r /\ alen (tp r) = alen (tp t) /\ alen (tf r) = alen (tf t) /\
     getNames (tp r) = getNames (tp t) /\ getNames (tf r) = getNames (tf t) /\ TruthsMapped negb t r) \/
  (~ AllTruths t /\ invertObj intOf floatOf strOf t = Err ImproperObjectAction).
Proof. exact invertObj_spec. Qed.
Print Assumptions C60_invert.
(** Anything but an object is refused. *)
Theorem C60_not_an_object :
  forall intOf floatOf strOf o a v, logicalBinary intOf floatOf strOf o a (OScalar v) = Err InvalidArgumentType /\ logicalBinary intOf floatOf strOf o a OJunk = Err InvalidArgumentType.
Proof. intros. split; reflexivity. Qed.
Print Assumptions C60_not_an_object.
(** The order of the operands does not matter: same result with the same names,
    or the same exception. *)
Theorem C60_commutes :
  forall intOf floatOf strOf, FloatOracle floatOf -> forall o a b, wf a -> wf b ->
  match logicalBinary intOf floatOf strOf o a (OBase b), logicalBinary intOf floatOf strOf o b (OBase a) with
  | Ok r, Ok r' => SameObject r r'
  | Err e, Err e' => e = e'
  | _, _ => False
  end.
Proof. exact logical_commutes. Qed.
Print Assumptions C60_commutes.
(** ~(a & b) is ~a | ~b, and ~(a | b) is ~a & ~b, names included. *)
Theorem C60_de_morgan :
  forall intOf floatOf strOf, FloatOracle floatOf -> forall a b, wf a -> wf b -> forall (conj : bool) r,
  logicalBinary intOf floatOf strOf (if conj then LAnd else LOr) a (OBase b) = Ok r ->
  exists x na nb y, invertObj intOf floatOf strOf r = Ok x /\ invertObj intOf floatOf strOf a = Ok na /\ invertObj intOf floatOf strOf b = Ok nb /\
    logicalBinary intOf floatOf strOf (if conj then LOr else LAnd) na (OBase nb) = Ok y /\ SameObject x y.
Proof. exact de_morgan. Qed.
Print Assumptions C60_de_morgan.
(** ~~a holds the truth values of a. *)
Theorem C60_double_negation :
  forall intOf floatOf strOf a r, wf a -> invertObj intOf floatOf strOf a = Ok r ->
  exists x, invertObj intOf floatOf strOf r = Ok x /\ wf x /\ alen (tp x) = alen (tp a) /\ alen (tf x) = alen (tf a) /\
    getNames (tp x) = getNames (tp a) /\ getNames (tf x) = getNames (tf a) /\ TruthsMapped (fun b => b) a x.
Proof. exact double_negation. Qed.
Print Assumptions C60_double_negation.
(** a & a and a | a hold the truth values of a, a ^ a is False everywhere. *)
Theorem C60_with_itself :
  forall intOf floatOf strOf, FloatOracle floatOf -> forall o a, wf a -> 0 < alen (tp a) -> 0 < alen (tf a) -> AllTruths a ->
  exists r, logicalBinary intOf floatOf strOf o a (OBase a) = Ok r /\ getNames (tp r) = getNames (tp a) /\ getNames (tf r) = getNames (tf a) /\
    TruthsMapped (fun b => match o with LXor => false | _ => b end) a r.
Proof. exact logical_self. Qed.
Print Assumptions C60_with_itself.

(** Non-vacuity: the hypotheses hold of objects with mixed numbers and bools and
    partly overlapping names. *)
Definition ex60a : table pval := tab57 [Some "p"; None] [Some "x"; Some "y"] [[PInt 1; PFloat 0]; [PBool true; PBool false]].
Definition ex60b : table pval := tab57 [Some "p"; Some "q"] [None; Some "y"] [[PInt 1; PInt 1]; [PFloat 0; PBool false]].
Lemma ex60_wf : wf ex60a /\ wf ex60b.
Proof. split; (apply tab57_wf; [reflexivity|intros r [<-|[<-|[]]]; reflexivity]). Qed.
Lemma ex60_oracle : FloatOracle (fun _ => None).
Proof. intros s v H. discriminate H. Qed.
Example C60_example :
  exists r, logicalBinary (fun _ => None) (fun _ => None) (fun _ => "") LXor ex60a (OBase ex60b) = Ok r /\
    rows r = [[PBool false; PBool true]; [PBool true; PBool false]] /\ getNames (tp r) = [Some "p"; Some "q"] /\ getNames (tf r) = [Some "x"; Some "y"].
Proof. eexists. split; [vm_compute; reflexivity|]. repeat split; vm_compute; reflexivity. Qed.
Example C60_example_invert :
  exists r, invertObj (fun _ => None) (fun _ => None) (fun _ => "") ex60a = Ok r /\ rows r = [[PBool false; PBool true]; [PBool false; PBool true]].
Proof. eexists. split; vm_compute; reflexivity. Qed.
Example C60_example_refused :
  invertObj (fun _ => None) (fun _ => None) (fun _ => "") (tab57 [None] [None; None] [[PInt 1; PInt 2]]) = Err ImproperObjectAction /\
  logicalBinary (fun _ => None) (fun _ => None) (fun _ => "") LAnd (tab57 [Some "a"] [Some "x"] [[PInt 1]]) (OBase (tab57 [Some "b"] [Some "y"] [[PInt 1]])) = Err InvalidArgumentValue.
Proof. split; vm_compute; reflexivity. Qed.
Example C60_example_self : AllTruths ex60a.
Proof.
  intros i j v H. destruct i as [|[|i]]; cbn in H; [| |destruct i; discriminate H]; destruct j as [|[|j]]; cbn in H; try (destruct j; discriminate H); injection H as <-.
  - exists true. apply (same_num _ _ _ _ (num_int 1) (num_int 1)). reflexivity.
  - exists false. apply (same_num _ _ _ _ (num_float 0) (num_int 0)). reflexivity.
  - exists true. apply TruthOf_bool.
  - exists false. apply TruthOf_bool.
Qed.
