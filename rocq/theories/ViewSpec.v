(** Specification vocabulary for views, item assignment and replaceRectangle
    (C19-C21). *)
From Verif Require Import Base NamesModel NamesSpec TableModel TableSpec SparseModel SparseSpec ViewModel.
Open Scope nat_scope.

(** The documented window on one axis: from [start] (default: the beginning)
    to [stop] INCLUSIVE (default: the last one); [hi] is one past the last. *)
Definition Window (a : axis) (start stop : option ident) (lo hi : nat) : Prop :=
  match start with None => lo = 0 | Some i => Denotes a false i (Z.of_nat lo) end /\
  match stop with None => hi = alen a | Some i => exists e, Denotes a false i (Z.of_nat e) /\ lo <= e /\ hi = S e end.

(** positions lo .. hi-1 *)
Definition span (lo hi : nat) : list nat := seq lo (hi - lo).

(** the cells of a rectangle, both ends inclusive-exclusive *)
Definition inRectangle (p p' f f' i j : nat) : bool :=
  (p <=? i) && (i <? p') && (f <=? j) && (j <? f').

(** [t'] is [t] with new contents [f]: same axes, well formed, and every cell
    is given by [f] *)
Definition sameShape {V} (t t' : table V) : Prop :=
  tp t' = tp t /\ tf t' = tf t /\ wf t'.
Definition Becomes {V} (t t' : table V) (f : nat -> nat -> option V) : Prop :=
  sameShape t t' /\ forall i j, i < alen (tp t) -> j < alen (tf t) -> cell t' i j = f i j.

(** An in-view integer index, or nothing. *)
Definition Inside (n : nat) (o : option ident) : Prop :=
  match o with None => True | Some (IdInt z) => (0 <= z < Z.of_nat n)%Z | _ => False end.

(** a history of calls on a view *)
Fixpoint viewCalls {V} (k : vkind) (t : table V) (v : view) (h : list (method V)) : table V * list (result unit) :=
  match h with
  | [] => (t, [])
  | m :: rest => let '(t1, r) := viewCall k t v m in
                 let '(t2, rs) := viewCalls k t1 v rest in (t2, r :: rs)
  end.
Definition isSetItem {V} (m : method V) : bool := match m with MSetItem _ _ _ => true | _ => false end.
(** an actual method (an in-place operator is one of the eight) *)
Definition realMethod {V} (m : method V) : Prop :=
  match m with MInPlace op => In op ["__imatmul__"; "__imul__"; "__iadd__"; "__isub__"; "__itruediv__";
                                     "__ifloordiv__"; "__imod__"; "__ipow__"]%string
  | _ => True end.

(** The far end of a rectangle starting at [lo] and [n] long: either left to
    the default or an identifier of its last point (feature). *)
Definition RectEnd (a : axis) (lo n : nat) (o : option ident) : Prop :=
  match o with None => True | Some i => exists e, Denotes a false i (Z.of_nat e) /\ S e = lo + n end.

(** Nested views: the four arguments of one [view] call; a chain of such calls
    starting from a view [v] of [t]; and, independently, cutting the window of
    the window ... out of an object that is not a view. *)
Definition request : Type := option ident * option ident * option ident * option ident.
Fixpoint viewChain {V} (t : table V) (v : view) (l : list request) : result view :=
  match l with
  | [] => Ok v
  | (a, b, c, d) :: r => w <- viewOfView t v a b c d ;; viewChain t w r
  end.
Fixpoint windowChain {V} (u : table V) (l : list request) : result (table V) :=
  match l with
  | [] => Ok u
  | (a, b, c, d) :: r => w <- viewOf u a b c d ;; windowChain (viewObj u w) r
  end.
Fixpoint insideChain {V} (u : table V) (l : list request) : Prop :=
  match l with
  | [] => True
  | (a, b, c, d) :: r =>
      Inside (alen (tp u)) a /\ Inside (alen (tp u)) b /\ Inside (alen (tf u)) c /\ Inside (alen (tf u)) d /\
      forall w, viewOf u a b c d = Ok w -> insideChain (viewObj u w) r
  end.
