(** Property C57: operations with stretched objects.  Definitions used in the
    statements: StretchSpec.v (Stretchable, Fits, NamesFit, StretchedNames,
    StretchedValues, StretchedFails, DividesByZero, OnlyConverted, NamesReady,
    SingleElementReady, TruthOf, connective), BinOpSpec.v, TableSpec.v. *)
From Verif Require Import Base NamesModel NamesSpec NamesProofs TableModel TableSpec TableProofs TableOps MatchModel MatchSpec MatchProofs
  ElementsModel ElementsSpec BinOpModel BinOpSpec BinOpProofs BinOpProps ReshapeModel StretchModel StretchSpec StretchProofs StretchMainProofs.
From Coq Require Import QArith.
Open Scope string_scope.
Open Scope list_scope.
Open Scope nat_scope.

(** What can be stretched. *)
Theorem C57_source : forall t, (Stretchable t -> mkStretch t = Ok t) /\ (~ Stretchable t -> mkStretch t = Err ImproperObjectAction).
Proof.
  intros t. rewrite mkStretch_spec. unfold Stretchable. destruct (alen (tp t)) as [|[|n]]; destruct (alen (tf t)) as [|[|k]]; cbn; split; intros H;
    try reflexivity; exfalso; lia.
Qed.
Print Assumptions C57_source.

(** Arithmetic: stretched object with an object ([st = false], either side:
    [refl] is a call with the object on the left) or with a stretched object.
    It succeeds exactly when the shapes fit, the names along the common axis are
    consistent, no divisor is zero and numpy computes every element; the result
    has the shape of the larger operand along each axis and its element (i, j)
    comes from the elements of the two operands at (i, j), where an axis of
    length one is repeated.  Both operands keep their axes and their elements
    up to conversion to numbers. *)
Theorem C57_arithmetic_partial :
  forall floatOf, FloatOracle floatOf -> forall npArith (st refl : bool) o s b,
  wf s -> wf b -> Stretchable s -> 0 < alen (tp b) -> 0 < alen (tf b) -> (st = true -> refl = false) ->
  AllNumeric floatOf s -> AllNumeric floatOf b -> (st = false -> SingleElementReady s b) -> NamesReady st (tp s) (tp b) -> NamesReady st (tf s) (tf b) ->
  exists s' b' res, stretchArith floatOf npArith refl o s (wrapped st b) = (s', wrapped st b', res) /\ OnlyConverted floatOf s s' /\ OnlyConverted floatOf b b' /\
  match res with
  | Ok r => Fits st s b /\ NamesFit st s b /\ ~ (dividing o = true /\ DividesByZero floatOf refl s b) /\
      wf r /\ alen (tp r) = longer (tp s) (tp b) /\ alen (tf r) = longer (tf s) (tf b) /\
      StretchedNames (alen (tp r)) (getNames (tp s)) (getNames (tp b)) (getNames (tp r)) /\
      StretchedNames (alen (tf r)) (getNames (tf s)) (getNames (tf b)) (getNames (tf r)) /\ StretchedValues floatOf npArith o refl s b r
  | Err e => (~ Fits st s b /\ e = if st then ImproperObjectAction else InvalidArgumentValueCombination) \/
      (Fits st s b /\ ~ NamesFit st s b /\ e = InvalidArgumentValue) \/
      (Fits st s b /\ NamesFit st s b /\ dividing o = true /\ DividesByZero floatOf refl s b /\ e = ZeroDiv) \/
      (Fits st s b /\ NamesFit st s b /\ StretchedFails floatOf npArith o refl s b e)
  end.
Proof. exact stretchArith_spec. Qed.
Print Assumptions C57_arithmetic_partial.
(** Data that is not numeric is refused. *)
Theorem C57_left_not_numeric :
  forall floatOf npArith refl o s other, wf s -> ~ AllNumeric floatOf s -> stretchArith floatOf npArith refl o s other = (s, other, Err ImproperObjectAction).
Proof. exact stretchArith_left. Qed.
Print Assumptions C57_left_not_numeric.
Theorem C57_right_not_numeric :
  forall floatOf npArith (st refl : bool) o s b, wf s -> wf b -> AllNumeric floatOf s -> ~ AllNumeric floatOf b ->
  exists s', stretchArith floatOf npArith refl o s (wrapped st b) = (s', wrapped st b, Err InvalidArgumentValue) /\ OnlyConverted floatOf s s'.
Proof. exact stretchArith_right. Qed.
Print Assumptions C57_right_not_numeric.
(** and, or, exclusive or: values 0, 1, True, False; no names on the result. *)
Theorem C57_logical_partial :
  forall (st : bool) o s b, wf s -> wf b -> Stretchable s -> 0 < alen (tp b) -> 0 < alen (tf b) -> (st = false -> SingleElementReady s b) ->
  match stretchLogical o s (wrapped st b) with
  | Ok r => Fits st s b /\ NamesFit st s b /\ AllTruths s /\ AllTruths b /\ wf r /\ alen (tp r) = longer (tp s) (tp b) /\ alen (tf r) = longer (tf s) (tf b) /\
      ~ Named (getNames (tp r)) /\ ~ Named (getNames (tf r)) /\
      forall i j, i < alen (tp r) -> j < alen (tf r) ->
      exists x y p q, cell s (from (alen (tp s)) i) (from (alen (tf s)) j) = Some x /\ cell b (from (alen (tp b)) i) (from (alen (tf b)) j) = Some y /\
        TruthOf x p /\ TruthOf y q /\ cell r i j = Some (PBool (connective o p q))
  | Err e => (~ Fits st s b /\ e = if st then ImproperObjectAction else InvalidArgumentValueCombination) \/
      (Fits st s b /\ ~ NamesFit st s b /\ e = InvalidArgumentValue) \/
      (Fits st s b /\ NamesFit st s b /\ (~ AllTruths s \/ ~ AllTruths b) /\ e = ImproperObjectAction)
  end.
Proof. exact stretchLogical_spec. Qed.
Print Assumptions C57_logical_partial.

(** ** what the hypotheses leave out *)
Definition tab57 (p f : list (option string)) (m : list (list pval)) : table pval := mkTable (exAxis p) (exAxis f) m.
Lemma tab57_wf p f m : List.length m = List.length p -> (forall r, In r m -> List.length r = List.length f) -> wf (tab57 p f m).
Proof.
  intros H1 H2. assert (L : forall l, alen (exAxis l) = List.length l) by (intros l; apply (setNames_list_len (fresh (List.length l)))).
  split; [cbn; rewrite L; exact H1|]. split; [cbn; intros r Hr; rewrite L; apply H2; exact Hr|]. split; apply setNames_list_Inv, fresh_Inv.
Qed.
(** NamesReady: asking for the names of the stretched point makes the same call
    fail. *)
Theorem C57_names_asked_refuted :
  forall floatOf npArith, (forall x y, npArith Add false DInt (Some DInt) x y = Ok (PInt 0)) ->
  exists (s s' b : table pval), wf s /\ wf s' /\ wf b /\ getNames (tp s) = getNames (tp s') /\ tf s = tf s' /\ rows s = rows s' /\
    (exists r, snd (stretchArith floatOf npArith false Add s (SBase b)) = Ok r) /\
    snd (stretchArith floatOf npArith false Add s' (SBase b)) = Err InvalidArgumentValue.
Proof.
  intros fo np Hn. exists (mkTable (fresh 1) (fresh 2) [[PInt 1; PInt 2]]), (mkTable (ensure (fresh 1)) (fresh 2) [[PInt 1; PInt 2]]), (mkTable (fresh 2) (fresh 2) [[PInt 1; PInt 2]; [PInt 3; PInt 4]]).
  split; [split; [reflexivity|]; split; [intros r [<-|[]]; reflexivity|split; exact I]|].
  split; [split; [reflexivity|]; split; [intros r [<-|[]]; reflexivity|]; split; [|exact I]; split; [reflexivity|]; split; [constructor|]; intros s [|[|i]]; cbn; split; discriminate|].
  split; [split; [reflexivity|]; split; [intros r [<-|[<-|[]]]; reflexivity|split; exact I]|].
  split; [reflexivity|]. split; [reflexivity|]. split; [reflexivity|]. split; [eexists|]; cbn; rewrite !Hn; cbn; reflexivity.
Qed.
Print Assumptions C57_names_asked_refuted.
(** NamesReady, second part: of two stretched objects. *)
Theorem C57_names_asked_both_refuted :
  forall floatOf npArith, (forall x y, npArith Add false DInt (Some DInt) x y = Ok (PInt 0)) ->
  exists (s b b' : table pval), wf s /\ wf b /\ wf b' /\ getNames (tf b) = getNames (tf b') /\ tp b = tp b' /\ rows b = rows b' /\
    (exists r, snd (stretchArith floatOf npArith false Add s (SStretch b)) = Ok r) /\
    snd (stretchArith floatOf npArith false Add s (SStretch b')) = Err TypeErr.
Proof.
  intros fo np Hn. exists (mkTable (fresh 1) (fresh 2) [[PInt 1; PInt 2]]), (mkTable (fresh 2) (fresh 1) [[PInt 1]; [PInt 3]]), (mkTable (fresh 2) (ensure (fresh 1)) [[PInt 1]; [PInt 3]]).
  split; [split; [reflexivity|]; split; [intros r [<-|[]]; reflexivity|split; exact I]|].
  split; [split; [reflexivity|]; split; [intros r [<-|[<-|[]]]; reflexivity|split; exact I]|].
  split; [split; [reflexivity|]; split; [intros r [<-|[<-|[]]]; reflexivity|]; split; [exact I|]; split; [reflexivity|]; split; [constructor|]; intros s [|[|i]]; cbn; split; discriminate|].
  split; [reflexivity|]. split; [reflexivity|]. split; [reflexivity|]. split; [eexists|]; cbn; rewrite !Hn; cbn; reflexivity.
Qed.
Print Assumptions C57_names_asked_both_refuted.
(** SingleElementReady: one named element with a named feature fails with an
    internal error. *)
Theorem C57_single_element_refuted :
  forall floatOf npArith, exists (s b : table pval), wf s /\ wf b /\ Stretchable s /\ Fits false s b /\
    getNames (tp s) = [Some "a"] /\ getNames (tp b) = [Some "a"; Some "c"] /\ snd (stretchArith floatOf npArith false Add s (SBase b)) = Err IndexErr.
Proof.
  intros fo np. exists (tab57 [Some "a"] [None] [[PInt 1]]), (tab57 [Some "a"; Some "c"] [None] [[PInt 1]; [PInt 2]]).
  split; [apply tab57_wf; [reflexivity|intros r [<-|[]]; reflexivity]|]. split; [apply tab57_wf; [reflexivity|intros r [<-|[<-|[]]]; reflexivity]|].
  split; [vm_compute; repeat split; auto|]. split; [left; vm_compute; auto|]. repeat split; vm_compute; reflexivity.
Qed.
Print Assumptions C57_single_element_refuted.
(** Both operands are converted in place: a power turns the ints of both
    objects into floats for good. *)
Theorem C57_operands_changed_refuted :
  forall floatOf npArith, exists (s b s' b' : table pval) res, wf s /\ wf b /\
    stretchArith floatOf npArith false Pow s (SBase b) = (s', SBase b', res) /\ cell s 0 0 = Some (PInt 2) /\ cell s' 0 0 = Some (PFloat 2) /\
    cell b 0 0 = Some (PInt 3) /\ cell b' 0 0 = Some (PFloat 3).
Proof.
  intros fo np. exists (mkTable (fresh 1) (fresh 1) [[PInt 2]]), (mkTable (fresh 1) (fresh 1) [[PInt 3]]). do 3 eexists.
  split; [split; [reflexivity|]; split; [intros r [<-|[]]; reflexivity|split; exact I]|]. split; [split; [reflexivity|]; split; [intros r [<-|[]]; reflexivity|split; exact I]|].
  split; [cbn; reflexivity|]. repeat split; reflexivity.
Qed.
Print Assumptions C57_operands_changed_refuted.
(** A number as the other operand gets an AttributeError from arithmetic where
    the code means to refuse it with ImproperObjectAction, as the logical
    operators do. *)
Theorem C57_scalar_refuted :
  forall floatOf npArith refl o s, wf s -> AllNumeric floatOf s ->
  snd (stretchArith floatOf npArith refl o s SJunk) = Err AttributeErr /\ forall l, stretchLogical l s SJunk = Err ImproperObjectAction.
Proof.
  intros fo np refl o s W N. split; [|reflexivity]. unfold stretchArith. destruct (numeric_Conv fo (isPow o) ImproperObjectAction s W N) as (m & -> & _). reflexivity.
Qed.
Print Assumptions C57_scalar_refuted.
(** Objects without points: the result has no points, but gets the name of the
    stretched point. *)
Theorem C57_empty_other_refuted :
  forall floatOf npArith, exists (s b : table pval), wf s /\ wf b /\ Stretchable s /\ Fits false s b /\ alen (tp b) = 0 /\
    snd (stretchArith floatOf npArith false Add s (SBase b)) = Err InvalidArgumentValue.
Proof.
  intros fo np. exists (tab57 [Some "a"] [None; None] [[PInt 1; PInt 2]]), (mkTable (fresh 0) (fresh 2) []).
  split; [apply tab57_wf; [reflexivity|intros r [<-|[]]; reflexivity]|]. split; [split; [reflexivity|]; split; [intros r []|split; exact I]|].
  split; [vm_compute; repeat split; auto|]. split; [left; vm_compute; auto|]. split; reflexivity.
Qed.
Print Assumptions C57_empty_other_refuted.
(** Explicit reflected call with two stretched objects. *)
Theorem C57_reflected_both_refuted :
  forall floatOf npArith, (forall x y, npArith Add true DInt (Some DInt) x y = Ok (PInt 0)) ->
  exists (s b : table pval), wf s /\ wf b /\ Fits true s b /\ snd (stretchArith floatOf npArith true Add s (SStretch b)) = Err AttributeErr.
Proof.
  intros fo np Hn. exists (mkTable (fresh 1) (fresh 2) [[PInt 1; PInt 2]]), (mkTable (fresh 2) (fresh 1) [[PInt 1]; [PInt 3]]).
  split; [split; [reflexivity|]; split; [intros r [<-|[]]; reflexivity|split; exact I]|].
  split; [split; [reflexivity|]; split; [intros r [<-|[<-|[]]]; reflexivity|split; exact I]|].
  split; [left; split; reflexivity|]. cbn. rewrite !Hn. reflexivity.
Qed.
Print Assumptions C57_reflected_both_refuted.

(** ** examples *)
Definition ex57s : table pval := tab57 [Some "row"] [Some "x"; None] [[PInt 10; PInt 20]].
Definition ex57b : table pval := tab57 [None; None] [None; Some "y"] [[PInt 1; PInt 2]; [PInt 3; PInt 4]].
Definition ex57f : table pval := tab57 [Some "p"; Some "q"; None] [Some "col"] [[PInt 1]; [PInt 2]; [PInt 3]].
Example C57_example_point :
  exists r, stretchArith (fun _ => None) exNp false Add ex57s (SBase ex57b) = (ex57s, SBase ex57b, Ok r) /\
    rows r = [[PInt 11; PInt 22]; [PInt 13; PInt 24]] /\ getNames (tp r) = [Some "row_1"; Some "row_2"] /\ getNames (tf r) = [Some "x"; Some "y"].
Proof. eexists. split; [vm_compute; reflexivity|]. vm_compute. auto. Qed.
Example C57_example_both :
  exists r, stretchArith (fun _ => None) exNp false Add ex57s (SStretch ex57f) = (ex57s, SStretch ex57f, Ok r) /\
    rows r = [[PInt 11; PInt 21]; [PInt 12; PInt 22]; [PInt 13; PInt 23]] /\ getNames (tp r) = [None; None; None] /\ getNames (tf r) = [None; None].
Proof. eexists. split; [vm_compute; reflexivity|]. vm_compute. auto. Qed.
Example C57_example_hyps : wf ex57s /\ wf ex57b /\ Stretchable ex57s /\ AllNumeric (fun _ => None) ex57s /\ AllNumeric (fun _ => None) ex57b /\
  SingleElementReady ex57s ex57b /\ NamesReady false (tp ex57s) (tp ex57b) /\ NamesReady false (tf ex57s) (tf ex57b).
Proof.
  split; [apply tab57_wf; [reflexivity|intros r [<-|[]]; reflexivity]|]. split; [apply tab57_wf; [reflexivity|intros r [<-|[<-|[]]]; reflexivity]|].
  split; [vm_compute; repeat split; auto|].
  split; [intros [|[|[|i]]] [|[|[|j]]] v H; cbn in H; try discriminate; injection H as <-; eexists; apply asn_same; reflexivity|].
  split; [intros [|[|[|i]]] [|[|[|j]]] v H; cbn in H; try discriminate; injection H as <-; eexists; apply asn_same; reflexivity|].
  split; [intros _ H; vm_compute in H; discriminate|]. split.
  - split; [|discriminate]. intros _ _ _. exists "row". left. reflexivity.
  - split; [|discriminate]. intros H. vm_compute in H. discriminate.
Qed.
Example C57_example_logical :
  exists r, stretchLogical LXor (tab57 [Some "row"] [None; None] [[PInt 1; PBool false]]) (SBase (tab57 [None; None] [None; None] [[PInt 1; PInt 1]; [PFloat 0; PBool false]])) = Ok r /\
    rows r = [[PBool false; PBool true]; [PBool true; PBool false]].
Proof. eexists. split; [vm_compute; reflexivity|]. reflexivity. Qed.
