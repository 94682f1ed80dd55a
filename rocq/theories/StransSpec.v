(** Vocabulary of C81: transforming Sparse objects. *)
From Verif Require Import Base NamesModel TableModel TableSpec TableOps3Proofs SparseModel SparseSpec MatchModel MatchSpec GetSpec CopyModel CopySpec TypedModel TypedSpec ElementsModel ElementsSpec StransModel.
From Coq Require Import List String. Import ListNotations.
Open Scope nat_scope.

(** The object shows the table [t]: the stored entries are in range, of its type and at
    most one per position; what is not stored is 0. *)
Definition Shows (x : sobj) (t : table pval) : Prop :=
  wf t /\ xTp x = tp t /\ xTf x = tf t /\
  NoDup (map (@pos pval) (xEnts x)) /\
  (forall e, In e (xEnts x) -> er e < alen (tp t) /\ ec e < alen (tf t) /\ OfDt (xDt x) (ev e)) /\
  forall i j v, cell t i j = Some v -> In (mkE i j v) (xEnts x) \/ (v = PInt 0 /\ forall w, ~ In (mkE i j w) (xEnts x)).
(** no zero is stored *)
Definition NoZeros (x : sobj) : Prop := forall e, In e (xEnts x) -> ~ Same (ev e) (PInt 0).
(** element [j] of point (feature) [i] *)
Definition cellIn (sd : side) (t : table pval) (i j : nat) : option pval := match sd with Pts => cell t i j | Fts => cell t j i end.
Definition axisIn (sd : side) (t : table pval) : axis := match sd with Pts => tp t | Fts => tf t end.
Definition otherIn (sd : side) (t : table pval) : axis := match sd with Pts => tf t | Fts => tp t end.
(** [r] is point (feature) [i] *)
Definition VectorOf (sd : side) (t : table pval) (i : nat) (r : list pval) : Prop :=
  List.length r = alen (otherIn sd t) /\ forall j v, nth_error r j = Some v -> cellIn sd t i j = Some v.
(** the function gives None for no addressed element *)
Definition NeverNone (f : efun) (ps fs : option (list nat)) (t : table pval) : Prop :=
  forall i j v, cell t i j = Some v -> addressed ps fs i j -> callF f v i j <> Ok PNone.
(** what is at (i, j) afterwards, when [w] is what the function makes of it *)
Definition After (skip : bool) (f : efun) (ps fs : option (list nat)) (v : pval) (i j : nat) (w : pval) : Prop :=
  (addressed ps fs i j -> Becomes false skip f v i j w) /\ (~ addressed ps fs i j -> SameElement v w).
(** The first point will have only texts and the second something else: the texts may
    be taken for names. *)
Definition HeaderLike (skip : bool) (f : efun) (ps fs : option (list nat)) (t : table pval) : Prop :=
  (forall j v, cell t 0 j = Some v -> exists s, After skip f ps fs v 0 j (PStr s)) /\
  exists j v w, cell t 1 j = Some v /\ After skip f ps fs v 1 j w /\ forall s, w <> PStr s.
(** a number (NaN is one) and not a boolean, a text or None *)
Definition Numeral (v : pval) : Prop := match v with PInt _ | PFloat _ | PPosInf | PNegInf | PNaN => True | _ => False end.
(** the data has a type of numbers *)
Definition NumberType (d : dt) : Prop := d = DInt \/ d = DFloat.
