(** Specification vocabulary for matrix multiplication and powers (C58). *)
From Verif Require Import Base NamesModel NamesSpec TableModel TableSpec MatchModel MatchSpec BinOpSpec.
Open Scope nat_scope.

(** The total over k = 0 .. n-1 of x k times y k, multiplied and added one after
    the other starting from the int 0. *)
Section Total.
Variables pyMul pyAdd : pval -> pval -> result pval.
Inductive TotalIs (x y : nat -> option pval) : nat -> pval -> Prop :=
| total_0 : TotalIs x y 0 (PInt 0)
| total_S n t a b m t' : TotalIs x y n t -> x n = Some a -> y n = Some b -> pyMul a b = Ok m -> pyAdd t m = Ok t' -> TotalIs x y (S n) t'.
(** some multiplication or addition of such a total raises *)
Definition TotalFails (x y : nat -> option pval) (n : nat) (e : exc) : Prop :=
  exists k t a b, k < n /\ TotalIs x y k t /\ x k = Some a /\ y k = Some b /\
    (pyMul a b = Err e \/ exists m, pyMul a b = Ok m /\ pyAdd t m = Err e).
End Total.

(** An operand after the call: its strings are numbers, nothing else changed. *)
Definition StringsToNumbers (floatOf : string -> option pval) (t t' : table pval) : Prop :=
  tp t' = tp t /\ tf t' = tf t /\ wf t' /\
  forall i j v, cell t i j = Some v ->
    exists v', cell t' i j = Some v' /\ match v with PStr s => floatOf s = Some v' | _ => v' = v end.

(** ** integer matrices *)
Definition IntArith (pyMul pyAdd : pval -> pval -> result pval) : Prop :=
  (forall a b, pyMul (PInt a) (PInt b) = Ok (PInt (a * b))) /\ (forall a b, pyAdd (PInt a) (PInt b) = Ok (PInt (a + b))).
(** [t] is the [n] by [k] table of the integers A i j *)
Definition IsMatrix (t : table pval) (n k : nat) (A : nat -> nat -> Z) : Prop :=
  wf t /\ alen (tp t) = n /\ alen (tf t) = k /\ forall i j, i < n -> j < k -> cell t i j = Some (PInt (A i j)).
Fixpoint zsum (n : nat) (f : nat -> Z) : Z := match n with 0 => 0%Z | S k => (zsum k f + f k)%Z end.
(** matrix product over inner dimension [n] *)
Definition product (n : nat) (A B : nat -> nat -> Z) (i j : nat) : Z := zsum n (fun k => (A i k * B k j)%Z).
Definition unit (i j : nat) : Z := if i =? j then 1%Z else 0%Z.
(** matrix power: A^0 is the identity, A^(p+1) = A^p A *)
Fixpoint mpower (n : nat) (A : nat -> nat -> Z) (p : nat) : nat -> nat -> Z :=
  match p with 0 => unit | S q => product n (mpower n A q) A end.
