(** Vocabulary of C83: features.normalize. *)
From Verif Require Import Base NamesModel NamesSpec TableModel TableSpec NormModel.
From Coq Require Import List. Import ListNotations.
Open Scope nat_scope.

Section N.
Variable V : Type.
Implicit Types t : table V.
(** feature [j] of the object is [w], from the first point to the last *)
Definition FeatureIs t (j : nat) (w : list V) : Prop :=
  j < alen (tf t) /\ List.length w = alen (tp t) /\ forall i, i < alen (tp t) -> cell t i j = nth_error w i.
(** still an object, with the same points and features and the same names *)
Definition SameAxes t t' : Prop := wf t' /\ tp t' = tp t /\ tf t' = tf t.
(** feature [j] is one of those asked for; no [only] asks for all *)
Definition Asked (only : option (list nat)) (j : nat) : Prop := match only with None => True | Some l => In j l end.
(** what the [features] parameter stands for: None for all, otherwise positions *)
Definition Stands (a : axis) (features : farg) (only : option (list nat)) : Prop :=
  match features, only with
  | FNone, None => True
  | FOne id, Some l => exists i, l = [i] /\ Denotes a false id (Z.of_nat i)
  | FMany ids, Some l => Forall2 (fun id i => Denotes a false id (Z.of_nat i)) ids l
  | _, _ => False
  end.
(** [t'] is [t] with the features asked for before feature [k] normalized *)
Definition Normalized1 (f : fun1 V) (only : option (list nat)) (k : nat) t t' : Prop :=
  SameAxes t t' /\
  forall j w, FeatureIs t j w ->
    (j < k -> Asked only j -> exists n, f w = Ok n /\ FeatureIs t' j n) /\
    (k <= j \/ ~ Asked only j -> FeatureIs t' j w).
(** the same for the two objects, each with its part of what the function gives *)
Definition Normalized2 (f : fun2 V) (only : option (list nat)) (k : nat) t1 t2 t1' t2' : Prop :=
  SameAxes t1 t1' /\ SameAxes t2 t2' /\
  forall j w1 w2, FeatureIs t1 j w1 -> FeatureIs t2 j w2 ->
    (j < k -> Asked only j -> exists n1 n2, f w1 w2 = Ok (n1, n2) /\ FeatureIs t1' j n1 /\ FeatureIs t2' j n2) /\
    (k <= j \/ ~ Asked only j -> FeatureIs t1' j w1 /\ FeatureIs t2' j w2).
(** How it can stop at feature [k]: the function raised for it, what it gave for the
    calling object does not fit (then neither object has feature [k] changed), or what it
    gave for the other object does not fit (then the calling object has it already).  The
    features before [k] are done in both objects, those after it in neither. *)
Definition Stopped2 (f : fun2 V) (only : option (list nat)) (k : nat) (e : exc) t1 t2 t1' t2' : Prop :=
  Asked only k /\
  exists w1 w2, FeatureIs t1 k w1 /\ FeatureIs t2 k w2 /\
    ((f w1 w2 = Err e /\ Normalized2 f only k t1 t2 t1' t2') \/
     (e = InvalidArgumentValue /\ exists n1 n2, f w1 w2 = Ok (n1, n2) /\
       ((List.length n1 <> alen (tp t1) /\ Normalized2 f only k t1 t2 t1' t2') \/
        (List.length n1 = alen (tp t1) /\ List.length n2 <> alen (tp t2) /\
         exists m, Normalized2 f only k t1 t2 m t2' /\ SameAxes t1 t1' /\
           FeatureIs t1' k n1 /\ forall j w, j <> k -> FeatureIs m j w -> FeatureIs t1' j w)))).
(** the feature names do not contradict each other *)
Definition NamesAgree (a b : axis) : Prop := namesCreated a = true -> namesCreated b = true -> getNames a = getNames b.
End N.
Arguments FeatureIs {V}. Arguments SameAxes {V}. Arguments Normalized1 {V}. Arguments Normalized2 {V}. Arguments Stopped2 {V}.
