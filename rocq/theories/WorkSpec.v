(** Specification vocabulary for the learning functions (C78). *)
From Verif Require Import Base NamesModel NamesSpec TableModel TableSpec MatchModel WorkModel RawSpec.
From Coq Require Import List Ascii String. Import ListNotations.
Open Scope string_scope. Open Scope list_scope. Open Scope nat_scope.

(** the caller's objects are what they were *)
Definition Unchanged (s s' : store) : Prop := forall r o, nth_error s r = Some o -> nth_error s' r = Some o.
Definition WfStore (s : store) : Prop := forall o, In o s -> wf (dT o).
Definition Present (s : store) (x : darg) : Prop := forall r, x = DRef r -> r < List.length s.

(** [xs] is [x] without the feature [i]; [ys] is that feature alone *)
Definition Split (x : table pval) (i : ident) (xs ys : table pval) : Prop :=
  exists j, Denotes (tf x) false i (Z.of_nat j) /\ wf xs /\ wf ys /\ sameOff Fts x xs /\ sameOff Fts x ys /\
    items Fts ys = selected [j] (items Fts x) /\ items Fts xs = survivors [j] (items Fts x).
(** what the learner is to be trained on (or tested with): the labels are in an
    object of their own, or in the data under an identifier *)
Inductive DataAndLabels (s : store) : darg -> darg -> table pval -> option (table pval) -> Prop :=
| dl_none r o : nth_error s r = Some o -> DataAndLabels s (DRef r) DNone (dT o) None
| dl_obj r o q oq : nth_error s r = Some o -> nth_error s q = Some oq -> DataAndLabels s (DRef r) (DRef q) (dT o) (Some (dT oq))
| dl_id r o i xs ys : nth_error s r = Some o -> Split (dT o) i xs ys -> DataAndLabels s (DRef r) (DId i) xs (Some ys).

(** ** Words whose case does not matter *)
Fixpoint Spells (s w : string) : Prop :=
  match s, w with
  | EmptyString, EmptyString => True
  | String c s', String d w' => (c = d \/ (65 <= nat_of_ascii c <= 90 /\ nat_of_ascii d = nat_of_ascii c + 32)) /\ Spells s' w'
  | _, _ => False
  end.
Definition ModeWord (m : string) : Prop := Spells m "bestscore" \/ Spells m "allscores".
Definition StrategyWord (m : string) : Prop := Spells m "default" \/ Spells m "onevsall" \/ Spells m "onevsone".

(** ** Arguments that are refused before anything is done *)
Definition TextOrInt (i : ident) : Prop := match i with IdStr _ | IdInt _ => True | _ => False end.
Inductive BadTrain (s : store) : darg -> darg -> exc -> Prop :=
| bt_x x y : (forall r, x <> DRef r) -> BadTrain s x y InvalidArgumentType
| bt_y r : BadTrain s (DRef r) DBad InvalidArgumentType
| bt_id r i : ~ TextOrInt i -> BadTrain s (DRef r) (DId i) InvalidArgumentType
| bt_points r q o oq : nth_error s r = Some o -> nth_error s q = Some oq -> alen (tp (dT oq)) <> alen (tp (dT o)) -> BadTrain s (DRef r) (DRef q) InvalidArgumentValueCombination.
(** testing data may be left out *)
Inductive BadTest (s : store) : darg -> darg -> exc -> Prop :=
| be_x x y : x <> DNone -> (forall r, x <> DRef r) -> BadTest s x y InvalidArgumentType
| be_y x : BadTest s x DBad InvalidArgumentType
| be_id x i : ~ TextOrInt i -> BadTest s x (DId i) InvalidArgumentType
| be_alone q : BadTest s DNone (DRef q) AttributeErr
| be_points r q o oq : nth_error s r = Some o -> nth_error s q = Some oq -> alen (tp (dT oq)) <> alen (tp (dT o)) -> BadTest s (DRef r) (DRef q) InvalidArgumentValueCombination.
(** more than one feature of labels (of data, without labels) *)
Definition Wide (s : store) (x y : darg) : Prop :=
  exists r o, (y = DRef r \/ (y = DNone /\ x = DRef r)) /\ nth_error s r = Some o /\ 1 < alen (tf (dT o)).
Inductive BadCall (s : store) (x y tx ty : darg) (isDict : bool) (strat mode : option string) : exc -> Prop :=
| bc_train e : BadTrain s x y e -> BadCall s x y tx ty isDict strat mode e
| bc_test e : BadTest s tx ty e -> BadCall s x y tx ty isDict strat mode e
| bc_dict : isDict = false -> BadCall s x y tx ty isDict strat mode InvalidArgumentType
| bc_mode m : mode = Some m -> ~ ModeWord m -> BadCall s x y tx ty isDict strat mode InvalidArgumentValue
| bc_strategy m : strat = Some m -> ~ StrategyWord m -> BadCall s x y tx ty isDict strat mode InvalidArgumentValue
| bc_wide : Wide s x y -> (mode <> None \/ strat <> None) -> BadCall s x y tx ty isDict strat mode InvalidArgumentValueCombination.
(** calls on a trained learner; [two]: it was trained for more than one feature *)
Inductive BadTesting (s : store) (tx ty : darg) (isDict two : bool) (mode : option string) : exc -> Prop :=
| bg_test e : BadTest s tx ty e -> BadTesting s tx ty isDict two mode e
| bg_dict : isDict = false -> BadTesting s tx ty isDict two mode InvalidArgumentType
| bg_mode m : mode = Some m -> ~ ModeWord m -> BadTesting s tx ty isDict two mode InvalidArgumentValue
| bg_wide : two = true -> mode <> None -> BadTesting s tx ty isDict two mode InvalidArgumentValueCombination.
(** strategies of the learner itself *)
Definition Plain (strat : option string) : Prop := strat <> Some "OneVsAll" /\ strat <> Some "OneVsOne".
(** what is left out is taken from the training data *)
Definition orElse (a b : darg) : darg := match a with DNone => b | _ => a end.
Definition labelsOr (t : table pval) (ys : option (table pval)) : table pval := match ys with Some y => y | None => t end.
(** an identifier that is no feature of the data *)
Definition NoFeature (s : store) (x y : darg) (e : exc) : Prop :=
  exists r o i, x = DRef r /\ nth_error s r = Some o /\ y = DId i /\ (forall z, ~ Denotes (tf (dT o)) false i z) /\ (e = IndexErr \/ e = KeyErr).

(** ** Trained learners *)
(** the test data has the features of the training data, or both are square *)
Definition ShapeFits (x t : table pval) : Prop :=
  alen (tf t) = alen (tf x) \/ (alen (tp x) = alen (tf x) /\ alen (tp t) = alen (tf t)).
Definition NoNames (a : axis) : Prop := forall s, ~ In (Some s) (getNames a).

Section Spec.
Variable M : Type.
Variable fit : table pval -> option (table pval) -> result M.
Variable pred : M -> table pval -> result dobj.
Variable scored : string -> M -> table pval -> result dobj.
Variable order : M -> list string.
Variable predicts : bool.
Variable R : Type.
Variable perf : table pval -> table pval -> result R.

(** [t] is what training on [xs] and [ys] gives *)
Definition TrainedOn (xs : table pval) (ys : option (table pval)) (t : tlearner M) : Prop :=
  fit xs ys = Ok (tlM t) /\ tlShape t = (alen (tp xs), alen (tf xs)) /\
  tlY t = match ys with Some y => getNamesNoGeneration (tf y) | None => None end /\
  (tl2d t = true <-> 1 < match ys with Some y => alen (tf y) | None => alen (tf xs) end).
(** the raw output *)
Definition Output (mode : option string) (m : M) (t : table pval) (r : result dobj) : Prop :=
  match mode with None => pred m t = r | Some w => (w = "bestScore" \/ w = "allScores") /\ scored w m t = r end.
(** the feature names of the answer: those of the labels, those of the labels and
    'bestScore', or the labels that are scored *)
Inductive FtNames (m : M) (ys : option (table pval)) : option string -> axis -> axis -> Prop :=
| fn_keep mode a a' : predicts = false -> getNames a' = getNames a -> FtNames m ys mode a a'
| fn_labels y a a' : predicts = true -> ys = Some y -> getNames a' = getNames (tf y) -> FtNames m ys None a a'
| fn_unnamed a a' : predicts = true -> (forall y, ys = Some y -> NoNames (tf y)) -> NoNames a' -> FtNames m ys None a a'
| fn_best y a a' : predicts = true -> ys = Some y -> getNames a' = getNames (tf y) ++ [Some "bestScore"] -> FtNames m ys (Some "bestScore") a a'
| fn_best_unnamed a a' : predicts = true -> (forall y, ys = Some y -> NoNames (tf y)) -> getNames a' = getNames a -> FtNames m ys (Some "bestScore") a a'
| fn_all a a' : predicts = true -> getNames a' = map Some (order m) -> FtNames m ys (Some "allScores") a a'.
(** names that cannot be given *)
Inductive Intended (m : M) (ys : option (table pval)) : option string -> list (option string) -> Prop :=
| in_labels y : ys = Some y -> Intended m ys None (getNames (tf y))
| in_best y : ys = Some y -> Intended m ys (Some "bestScore") (getNames (tf y) ++ [Some "bestScore"])
| in_all : Intended m ys (Some "allScores") (map Some (order m)).
(** [o'] is the answer of the learner trained on [xs] and [ys] for [t] *)
Definition Predicted (mode : option string) (xs : table pval) (ys : option (table pval)) (t : table pval) (o' : dobj) : Prop :=
  exists m o, fit xs ys = Ok m /\ ShapeFits xs t /\ Output mode m t (Ok o) /\
    dK o' = dK o /\ rows (dT o') = rows (dT o) /\ wf (dT o') /\ alen (tp (dT o')) = alen (tp (dT o)) /\ alen (tf (dT o')) = alen (tf (dT o)) /\
    (alen (tp (dT o)) = alen (tp t) -> getNames (tp (dT o')) = getNames (tp t)) /\
    (alen (tp (dT o)) <> alen (tp t) -> getNames (tp (dT o')) = getNames (tp (dT o))) /\
    FtNames m ys mode (tf (dT o)) (tf (dT o')).
(** why there is none *)
Inductive NoPrediction (mode : option string) (xs : table pval) (ys : option (table pval)) (t : table pval) : exc -> Prop :=
| np_fit e : fit xs ys = Err e -> NoPrediction mode xs ys t e
| np_shape : ~ ShapeFits xs t -> NoPrediction mode xs ys t InvalidArgumentValueCombination
| np_out m e : fit xs ys = Ok m -> Output mode m t (Err e) -> NoPrediction mode xs ys t e
| np_word w : mode = Some w -> w <> "bestScore" -> w <> "allScores" -> NoPrediction mode xs ys t InvalidArgumentValue
| np_names m o l : fit xs ys = Ok m -> Output mode m t (Ok o) -> predicts = true -> Intended m ys mode l -> ~ NamesFit l (alen (tf (dT o))) -> NoPrediction mode xs ys t InvalidArgumentValue.
(** the performance: the labels against the answer for the data *)
Definition Performance (mode : option string) (xs : table pval) (ys : option (table pval)) (t : table pval) (labels : table pval) (p : R) : Prop :=
  exists o, Predicted mode xs ys t o /\ perf labels (dT o) = Ok p.
Definition NoPerformance (mode : option string) (xs : table pval) (ys : option (table pval)) (t : table pval) (labels : table pval) (e : exc) : Prop :=
  NoPrediction mode xs ys t e \/ exists o, Predicted mode xs ys t o /\ perf labels (dT o) = Err e.
(** normalized data: an object of the kind of [o], with its feature names if it has
    as many features *)
Definition Normalized (xs : table pval) (ys : option (table pval)) (o r : dobj) : Prop :=
  exists o', Predicted None xs ys (dT o) o' /\ dK r = dK o /\ rows (dT r) = rows (dT o') /\ wf (dT r) /\
    alen (tf (dT r)) = alen (tf (dT o')) /\ getNames (tp (dT r)) = getNames (tp (dT o')) /\
    (alen (tf (dT o')) = alen (tf (dT o)) -> getNames (tf (dT r)) = getNames (tf (dT o))) /\
    (alen (tf (dT o')) <> alen (tf (dT o)) -> getNames (tf (dT r)) = getNames (tf (dT o'))).
(** the answers have names that fit, as every object does (C01, C04) *)
Definition GoodLearner : Prop :=
  (forall m t o, wf t -> pred m t = Ok o -> wf (dT o)) /\ (forall w m t o, wf t -> scored w m t = Ok o -> wf (dT o)).
End Spec.

(** ** What a performance function refuses before it compares *)
Definition HasMissing (t : table pval) : Prop := exists r v, In r (rows t) /\ In v r /\ (v = PNone \/ v = PNaN).
Definition EmptyObject (t : table pval) : Prop := alen (tp t) = 0 \/ alen (tf t) = 0.
Inductive PerfRefused (requires1D samePtCount sameFtCount allowEmpty allowMissing : bool) (known predicted : table pval) : exc -> Prop :=
| pr_empty : allowEmpty = false -> EmptyObject known \/ EmptyObject predicted -> PerfRefused requires1D samePtCount sameFtCount allowEmpty allowMissing known predicted InvalidArgumentValue
| pr_points : samePtCount = true -> alen (tp known) <> alen (tp predicted) -> PerfRefused requires1D samePtCount sameFtCount allowEmpty allowMissing known predicted InvalidArgumentValueCombination
| pr_features : sameFtCount = true -> alen (tf known) <> alen (tf predicted) -> PerfRefused requires1D samePtCount sameFtCount allowEmpty allowMissing known predicted InvalidArgumentValueCombination
| pr_labels : requires1D = true -> 1 < alen (tf predicted) -> PerfRefused requires1D samePtCount sameFtCount allowEmpty allowMissing known predicted InvalidArgumentValue
| pr_missing : allowMissing = false -> HasMissing known \/ HasMissing predicted -> PerfRefused requires1D samePtCount sameFtCount allowEmpty allowMissing known predicted InvalidArgumentValue.
