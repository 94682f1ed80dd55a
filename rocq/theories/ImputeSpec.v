(** Specification vocabulary for filling by a learner and for KNN imputation
    (C65). *)
From Verif Require Import Base NamesModel NamesSpec TableModel TableSpec TableOps TableOps3Proofs MatchModel MatchSpec ElementsModel ElementsSpec
  BinOpModel BinOpSpec StretchModel StretchSpec ImputeModel.
From Coq Require Import Sorted.
Open Scope nat_scope.

Definition isMissing (v : pval) : Prop := v = PNaN \/ v = PNone.
(** Python truth of a value *)
Definition Truthy (v : pval) : Prop := ~ (Same v (PInt 0) \/ v = PStr "" \/ v = PNone).
Definition sameShapeAs {V W} (a : table V) (b : table W) : Prop := alen (tp a) = alen (tp b) /\ alen (tf a) = alen (tf b).
Definition NonEmpty (t : table pval) : Prop := 0 < alen (tp t) /\ 0 < alen (tf t).
(** [M] says of each position whether it is matched *)
Definition Marks (t : table pval) (sel : selector) (M : nat -> nat -> bool) : Prop :=
  match sel with
  | SelFun f => forall i j v, cell t i j = Some v -> exists x, f v = Ok x /\ TruthOf x (M i j)
  | SelObj m => forall i j v, cell m i j = Some v -> TruthOf v (M i j)
  end.
Definition MissingMarked (t : table pval) (M : nat -> nat -> bool) : Prop :=
  forall i j v, cell t i j = Some v -> isMissing v -> M i j = true.
(** every name of [b] is the name of the same position in [a] *)
Definition NamesCovered (a b : axis) : Prop :=
  forall i s, nth_error (getNames b) i = Some (Some s) -> nth_error (getNames a) i = Some (Some s).
(** The arguments are accepted, the matched positions being [M]. *)
Definition Accepts (t : table pval) (sel : selector) (M : nat -> nat -> bool) : Prop :=
  NonEmpty t /\ Marks t sel M /\
  match sel with
  | SelFun f => exists r, f PNaN = Ok r /\ (Truthy r \/ (~ Truthy r /\ MissingMarked t M))
  | SelObj m => sameShapeAs m t /\ NamesCovered (tp m) (tp t) /\ NamesCovered (tf m) (tf t) /\ MissingMarked t M
  end.
(** The arguments are refused, and with which exception. *)
Inductive Refuses (t : table pval) : selector -> exc -> Prop :=
| ref_fun f v e : isCell t v -> f v = Err e -> Refuses t (SelFun f) e
| ref_fun_value f v x : isCell t v -> f v = Ok x -> (forall b, ~ TruthOf x b) -> Refuses t (SelFun f) InvalidArgumentValue
| ref_fun_nan f M e : Marks t (SelFun f) M -> f PNaN = Err e -> Refuses t (SelFun f) e
| ref_fun_empty f r : ~ NonEmpty t -> f PNaN = Ok r -> Refuses t (SelFun f) ImproperObjectAction
| ref_fun_missing f M r : Marks t (SelFun f) M -> f PNaN = Ok r -> ~ Truthy r -> ~ MissingMarked t M -> Refuses t (SelFun f) ImproperObjectAction
| ref_obj_shape m : ~ sameShapeAs m t -> Refuses t (SelObj m) InvalidArgumentValue
| ref_obj_empty m : sameShapeAs m t -> ~ NonEmpty t -> Refuses t (SelObj m) ImproperObjectAction
| ref_obj_values m : sameShapeAs m t -> NonEmpty t -> ~ AllTruths m -> Refuses t (SelObj m) ImproperObjectAction
| ref_obj_names m : sameShapeAs m t -> NonEmpty t -> AllTruths m -> ~ NamesAccepted Plain m t -> Refuses t (SelObj m) InvalidArgumentValue
| ref_obj_uncovered m : sameShapeAs m t -> NonEmpty t -> AllTruths m -> NamesAccepted Plain m t ->
    ~ (NamesCovered (tp m) (tp t) /\ NamesCovered (tf m) (tf t)) -> Refuses t (SelObj m) ImproperObjectAction
| ref_obj_missing m M : sameShapeAs m t -> Marks t (SelObj m) M -> ~ MissingMarked t M -> Refuses t (SelObj m) ImproperObjectAction.
(** what the learner gets: the data with NaN at the matched positions *)
Definition Blanked (t : table pval) (M : nat -> nat -> bool) (u : table pval) : Prop :=
  wf u /\ sameShapeAs u t /\ getNames (tp u) = getNames (tp t) /\ getNames (tf u) = getNames (tf t) /\
  forall i j v, cell t i j = Some v -> cell u i j = Some (if M i j then PNaN else v).
(** the data afterwards: the matched elements in the chosen points and features
    are those of [filled], everything else is as before *)
Definition FilledFrom (t : table pval) (M : nat -> nat -> bool) (ps fs : option (list nat)) (filled t' : table pval) : Prop :=
  tp t' = tp t /\ tf t' = tf t /\ wf t' /\
  forall i j v, cell t i j = Some v ->
    (M i j = true /\ addressed ps fs i j -> exists w, cell filled i j = Some w /\ cell t' i j = Some w) /\
    (M i j = false \/ ~ addressed ps fs i j -> cell t' i j = Some v).

(** *** KNN imputation *)
(** [l] lists exactly the positions with the property, in order *)
Definition Exactly (l : list nat) (P : nat -> Prop) : Prop := StronglySorted lt l /\ forall k, In k l <-> P k.
Definition present (t : table pval) (i j : nat) : Prop := exists v, cell t i j = Some v /\ v <> PNaN.
(** [vs] are the elements of point [i] at the features [js] *)
Definition Values (t : table pval) (i : nat) (js : list nat) (vs : list pval) : Prop := Forall2 (fun j v => cell t i j = Some v) js vs.
(** The answer for the missing element (i, j): the prediction for the elements
    point [i] has, after training on the points that have all of these and
    feature [j], feature [j] being the label. *)
Definition KnnAnswer (predict : list (list pval) -> list pval -> list pval -> result pval) (t : table pval) (i j : nat) (r : result pval) : Prop :=
  exists keep train xs ys x,
    Exactly keep (present t i) /\
    Exactly train (fun k => present t k j /\ forall f, present t i f -> present t k f) /\
    Forall2 (fun k vs => Values t k keep vs) train xs /\
    Forall2 (fun k y => cell t k j = Some y) train ys /\
    Values t i keep x /\ predict xs ys x = r.
