(** Specification vocabulary for linear regression and linear equations (C76). *)
From Verif Require Import Base NamesModel NamesSpec TableModel TableSpec MatchModel MatchSpec.
From Coq Require Import QArith.
Open Scope nat_scope.

Fixpoint sum (n : nat) (f : nat -> Q) : Q := match n with 0 => 0%Q | S k => (sum k f + f k)%Q end.
(** [t] is the [n] by [k] object of the numbers A i j *)
Definition IsReal (t : table pval) (n k : nat) (A : nat -> nat -> Q) : Prop :=
  wf t /\ alen (tp t) = n /\ alen (tf t) = k /\ forall i j, i < n -> j < k -> exists v q, cell t i j = Some v /\ IsNumber v q /\ (q == A i j)%Q.
(** the elements are not all booleans *)
Definition NotBooleans (t : table pval) : Prop :=
  alen (tp t) = 0 \/ alen (tf t) = 0 \/ exists i j v, cell t i j = Some v /\ forall b, v <> PBool b.

(** the prediction for the values x of [f] features with the weights w *)
Definition predicted (f : nat) (x w : nat -> Q) : Q := sum f (fun j => x j * w j)%Q.
(** squared errors on [n] points, and the penalty for large weights *)
Definition loss (n f : nat) (X : nat -> nat -> Q) (y : nat -> Q) (lamb : Q) (w : nat -> Q) : Q :=
  (sum n (fun i => (y i - predicted f (X i) w) * (y i - predicted f (X i) w)) + lamb * sum f (fun j => w j * w j))%Q.

(** ** What is required of an inversion routine *)
Definition element (m : list (list Q)) (i j : nat) : Q := nth j (nth i m []) 0%Q.
Definition Shape (m : list (list Q)) (n k : nat) : Prop := List.length m = n /\ forall r, In r m -> List.length r = k.
Definition unit (i j : nat) : Q := if i =? j then 1%Q else 0%Q.
Definition Inverse (n : nat) (M N : nat -> nat -> Q) : Prop :=
  forall i j, i < n -> j < n -> (sum n (fun k => M i k * N k j) == unit i j)%Q /\ (sum n (fun k => N i k * M k j) == unit i j)%Q.
(** a vector that is not zero and is mapped to zero *)
Definition Singular (n : nat) (M : nat -> nat -> Q) : Prop :=
  exists v : nat -> Q, (exists j, j < n /\ ~ (v j == 0)%Q) /\ forall i, i < n -> (sum n (fun j => M i j * v j) == 0)%Q.
(** it returns the inverse, or raises an exception for a singular matrix *)
Definition Inverts (inv : list (list Q) -> result (list (list Q))) : Prop :=
  forall n m, Shape m n n ->
  match inv m with Ok r => Shape r n n /\ Inverse n (element m) (element r) | Err _ => Singular n (element m) end.
(** what is required of a routine for linear equations: a solution, and if it is
    for least squares one that no other vector improves *)
Definition Solves (solver : list (list Q) -> list (list Q) -> result (list Q)) : Prop :=
  forall n k m b s, 0 < n -> Shape m n k -> Shape b n 1 -> solver m b = Ok s ->
    List.length s = k /\ forall i, i < n -> (sum k (fun j => element m i j * nth j s 0) == element b i 0)%Q.
Definition residual (n k : nat) (A : nat -> nat -> Q) (b x : nat -> Q) : Q :=
  sum n (fun i => (sum k (fun j => A i j * x j) - b i) * (sum k (fun j => A i j * x j) - b i))%Q.
Definition LeastSquares (solver : list (list Q) -> list (list Q) -> result (list Q)) : Prop :=
  forall n k m b s, 0 < n -> Shape m n k -> Shape b n 1 -> solver m b = Ok s ->
    List.length s = k /\ forall x, (residual n k (element m) (fun i => element b i 0%nat) (fun j => nth j s 0) <= residual n k (element m) (fun i => element b i 0%nat) x)%Q.
(** [b] is a single point or a single feature with the numbers y *)
Definition IsVector (b : table pval) (n : nat) (y : nat -> Q) : Prop :=
  IsReal b 1 n (fun _ i => y i) \/ IsReal b n 1 (fun i _ => y i).
