(** Vocabulary of C79: replacing points or features. *)
From Verif Require Import Base NamesModel NamesSpec TableModel TableSpec RawSpec ReplaceModel.
From Coq Require Import List ZArith. Import ListNotations.
Open Scope nat_scope.

Section Spec.
Context {V : Type}.
Implicit Types t d : table V.

(** rows and columns, with their names, exchanged *)
Definition Flipped d d' : Prop :=
  wf d' /\ alen (tp d') = alen (tf d) /\ alen (tf d') = alen (tp d) /\
  getNames (tp d') = getNames (tf d) /\ getNames (tf d') = getNames (tp d) /\
  forall i j, cell d' j i = cell d i j.
(** a column given for points (a row given for features): one vector in the wrong
    direction *)
Definition Lengthwise (sd : side) d : Prop := alen (offax sd d) = 1 /\ 1 < alen (ax sd d).
Definition Oriented (sd : side) d d' : Prop := (Lengthwise sd d /\ Flipped d d') \/ (~ Lengthwise sd d /\ d' = d).
(** the names of an axis, after new names were given or not *)
Definition Named (o : option (option (list (option string)))) (a a' : axis) : Prop :=
  match o with
  | None => getNames a' = getNames a
  | Some None => forall s, ~ In (Some s) (getNames a')
  | Some (Some l) => NamesFit l (alen a) /\ getNames a' = l
  end.
(** the object with the replacements *)
Inductive DataOf (sd : side) : source V -> table V -> Prop :=
| do_obj d : DataOf sd (SrcObj d false) d
| do_raw d0 d1 d pn fn : Oriented sd d0 d1 -> wf d -> rows d = rows d1 -> alen (tp d) = alen (tp d1) -> alen (tf d) = alen (tf d1) ->
    Named pn (tp d1) (tp d) -> Named fn (tf d1) (tf d) -> DataOf sd (SrcRaw (Ok d0) pn fn) d.

Definition SameShape t d : Prop := alen (tp t) = alen (tp d) /\ alen (tf t) = alen (tf d).
(** where each vector of the data goes *)
Inductive Places (sd : side) t d : option (list ident) -> list nat -> Prop :=
| pl_given ids idx : Forall2 (fun id i => Denotes (ax sd t) false id (Z.of_nat i)) ids idx -> Places sd t d (Some ids) idx
| pl_all idx : SameShape t d -> idx = seq 0 (alen (ax sd t)) -> Places sd t d None idx
| pl_names idx : ~ SameShape t d -> getNamesNoGeneration (ax sd t) <> None -> getNamesNoGeneration (ax sd d) <> None ->
    Forall2 (fun o i => exists s, o = Some s /\ nth_error (getNames (ax sd t)) i = Some (Some s)) (getNames (ax sd d)) idx ->
    Places sd t d None idx.
Definition Fit (sd : side) t d (idx : list nat) : Prop :=
  List.length idx = alen (ax sd d) /\ (idx <> [] -> alen (offax sd d) = alen (offax sd t) /\ 0 < alen (offax sd t)).
(** [k] is the last position at which the list has [i] *)
Definition LastAt (idx : list nat) (i k : nat) : Prop :=
  nth_error idx k = Some i /\ forall k', k < k' -> nth_error idx k' <> Some i.
(** [t'] is [t] with vector [k] of [d] at the place [idx] says *)
Definition Assigned (sd : side) (idx : list nat) d t t' : Prop :=
  wf t' /\ alen (tp t') = alen (tp t) /\ alen (tf t') = alen (tf t) /\
  getNames (tp t') = getNames (tp t) /\ getNames (tf t') = getNames (tf t) /\
  (forall i k j, LastAt idx i k -> keyOf sd t' i j = keyOf sd d k j) /\
  (forall i j, ~ In i idx -> keyOf sd t' i j = keyOf sd t i j).

Definition NamesOf (d : table V) (pn fn : option (option (list (option string)))) : Prop :=
  (forall l, pn = Some (Some l) -> NamesFit l (alen (tp d))) /\ (forall l, fn = Some (Some l) -> NamesFit l (alen (tf d))).
Inductive Refused (sd : side) t : source V -> option (list ident) -> exc -> Prop :=
| rf_keywords d locs : Refused sd t (SrcObj d true) locs InvalidArgumentValue
| rf_build e pn fn locs : Refused sd t (SrcRaw (Err e) pn fn) locs e
| rf_names d0 d1 pn fn locs : Oriented sd d0 d1 -> ~ NamesOf d1 pn fn -> Refused sd t (SrcRaw (Ok d0) pn fn) locs InvalidArgumentValue
| rf_unnamed src d : DataOf sd src d -> ~ SameShape t d ->
    getNamesNoGeneration (ax sd t) = None \/ getNamesNoGeneration (ax sd d) = None -> Refused sd t src None InvalidArgumentValue
| rf_location src d ids id e : DataOf sd src d -> In id ids -> (forall z, ~ Denotes (ax sd t) false id z) ->
    (e = IndexErr \/ e = KeyErr \/ e = InvalidArgumentType) -> Refused sd t src (Some ids) e
| rf_name src d o e : DataOf sd src d -> ~ SameShape t d -> In o (getNames (ax sd d)) ->
    (forall s, o = Some s -> ~ In (Some s) (getNames (ax sd t))) ->
    (e = IndexErr \/ e = KeyErr \/ e = InvalidArgumentType) -> Refused sd t src None e
| rf_count src d locs idx : DataOf sd src d -> Places sd t d locs idx -> List.length idx <> alen (ax sd d) -> Refused sd t src locs InvalidArgumentValue
| rf_width src d locs idx : DataOf sd src d -> Places sd t d locs idx -> idx <> [] -> 0 < alen (offax sd t) ->
    alen (offax sd d) <> alen (offax sd t) -> Refused sd t src locs InvalidArgumentValue
| rf_empty src d locs idx : DataOf sd src d -> Places sd t d locs idx -> idx <> [] -> alen (offax sd t) = 0 -> Refused sd t src locs ImproperObjectAction.
End Spec.
