(** Specification vocabulary for validation (C32, C33, C54). *)
From Verif Require Import Base NamesModel TableModel TableSpec PrepSpec.
Open Scope nat_scope.

(** Lists of point positions that put every one of the [n] points in exactly
    one fold. *)
Definition partitionOf (n : nat) (folds : list (list nat)) : Prop :=
  Permutation (List.concat folds) (seq 0 n).

(** The training and testing objects of one fold: for every data object the
    test part holds exactly the fold's points, the train part all others, in
    one order [perm] common to all objects; names and values intact. *)
Definition foldSets {V} (n : nat) (fold : list nat) (data : list (option (table V)))
  (sets : list (option (table V * table V))) : Prop :=
  exists perm, Permutation perm (without n fold) /\
    Forall2 (fun d s => match d, s with
                        | None, None => True
                        | Some t, Some (train, test) =>
                            subTable t perm (seq 0 (alen (tf t))) train /\
                            subTable t fold (seq 0 (alen (tf t))) test
                        | _, _ => False end) data sets.

(** [isBest] is a strict total order on performances ("better than"). *)
Definition betterOrder {P} (isBest : P -> P -> bool) : Prop :=
  (forall x, isBest x x = false) /\
  (forall x y z, isBest x y = true -> isBest y z = true -> isBest x z = true) /\
  (forall x y, isBest x y = false -> isBest y x = false -> forall z, isBest x z = isBest y z /\ isBest z x = isBest z y).

(** every data object has [n] points (labels may be absent) *)
Definition okData {V} (n : nat) (d : option (table V)) : Prop :=
  match d with None => True | Some t => wf t /\ alen (tp t) = n end.
(** the random order drawn for the training points of fold [i] is a
    permutation of their positions *)
Definition okShuffle (n : nat) (folds : list (list nat)) (shuf : nat -> list nat) : Prop :=
  forall i fold, nth_error folds i = Some fold -> Permutation (shuf i) (seq 0 (n - List.length fold)).

(** the (performance, arguments) pairs of the validations that were recorded *)
Definition recorded {P A} (cs : list (P * A * bool)) : list (P * A) := map fst (filter snd cs).
(** [b] is the first of the best entries of [l]: nothing is better, and it is
    strictly better than everything recorded before it *)
Definition firstBest {P A} (isBest : P -> P -> bool) (l : list (P * A)) (b : P * A) : Prop :=
  exists k, nth_error l k = Some b /\
    (forall i x, nth_error l i = Some x -> isBest (fst x) (fst b) = false) /\
    (forall i x, i < k -> nth_error l i = Some x -> isBest (fst b) (fst x) = true).
