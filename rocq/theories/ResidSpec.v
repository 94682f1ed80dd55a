(** Vocabulary of C84: residuals of a linear regression. *)
From Verif Require Import Base NamesModel TableModel TableSpec MatchModel RidgeSpec.
From Coq Require Import QArith.
Open Scope nat_scope.

(** what the regression with the weights [w] and the constant [b] says for point [i] *)
Definition fitted (f : nat) (X : nat -> nat -> Q) (b : Q) (w : nat -> Q) (i : nat) : Q := (b + predicted f (X i) w)%Q.
(** the sum of its squared errors *)
Definition squaredErrors (n f : nat) (X : nat -> nat -> Q) (y : nat -> Q) (b : Q) (w : nat -> Q) : Q :=
  sum n (fun i => (y i - fitted f X b w i) * (y i - fitted f X b w i))%Q.
(** the object [r] has the points, features and names of [t] *)
Definition LabelledLike (t r : table pval) : Prop :=
  wf r /\ alen (tp r) = alen (tp t) /\ alen (tf r) = alen (tf t) /\ getNames (tp r) = getNames (tp t) /\ getNames (tf r) = getNames (tf t).
(** element (i, c) of the object is the number q *)
Definition NumberAt (r : table pval) (i c : nat) (q : Q) : Prop := exists q', cell r i c = Some (PFloat q') /\ (q' == q)%Q.
