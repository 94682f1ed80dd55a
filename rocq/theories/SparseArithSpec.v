(** Specification vocabulary for arithmetic on Sparse objects (C59). *)
From Verif Require Import Base NamesModel TableModel BinOpModel SparseModel SparseSpec SparseArithModel.
Open Scope nat_scope.

Section Spec.
Variable V : Type.
Variable zero : V.
Implicit Types s b r : sparse V.

(** no element is zero *)
Definition NoZeros s : Prop := forall i j, i < snp s -> j < snf s -> val zero s i j <> zero.
Definition SameShape s r : Prop := snp r = snp s /\ snf r = snf s.
(** scipy computes what numpy computes when numpy does not raise *)
Definition ScipyAgrees (np : arith -> V -> V -> result V) (sc : arith -> V -> V -> V) : Prop :=
  forall o x y v, np o x y = Ok v -> sc o x y = v.
(** element (i, j) of [r] is [f] of the elements (i, j) of [s] and [b] *)
Definition ElementsAre s r (f : nat -> nat -> result V) : Prop :=
  SameShape s r /\ forall i j, i < snp s -> j < snf s -> f i j = Ok (val zero r i j).
(** [f] raises [e] at some position *)
Definition RaisesAt s (f : nat -> nat -> result V) (e : exc) : Prop :=
  exists i j, i < snp s /\ j < snf s /\ f i j = Err e.
(** position in an axis of [n] that is repeated when it has one element *)
Definition repeated (n i : nat) : nat := if n =? 1 then 0 else i.
End Spec.
Arguments NoZeros {V} _ _.
Arguments SameShape {V} _ _.
Arguments ScipyAgrees {V} _ _.
Arguments ElementsAre {V} _ _ _ _.
Arguments RaisesAt {V} _ _ _.

(** operators with a scalar that leave zeros alone: products, quotients and
    remainders (either side), powers with a positive exponent *)
Definition leavesZeros (refl positive : bool) (o : arith) : bool :=
  match o with Mul | Truediv | Floordiv | Mod => true | Pow => negb refl && positive | _ => false end.
(** operators for which the scalar 1 changes nothing *)
Definition neutralOne (refl : bool) (o : arith) : bool :=
  match o with Mul => true | Truediv | Pow => negb refl | _ => false end.
Definition isFloordiv (o : arith) : bool := match o with Floordiv => true | _ => false end.
