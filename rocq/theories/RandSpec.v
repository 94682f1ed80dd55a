(** Specification vocabulary for nimble.random (C36, C37, C55). *)
From Verif Require Import Base NamesModel TableModel SparseModel SparseSpec RandModel.
From Coq Require Import QArith Qround.
Open Scope list_scope.
Open Scope nat_scope.
(** the same random stream from here on, and setSeed equally allowed *)
Definition sameRandom {PS NS} (a b : rstate PS NS) : Prop :=
  py a = py b /\ npy a = npy b /\ settable a = settable b.
(** a program that never asks the operating system for randomness *)
Fixpoint noEntropy {O} (p : prog O) : Prop :=
  match p with
  | Done | Fail => True
  | DrawPy k => forall o, noEntropy (k o)
  | DrawNp k => forall o, noEntropy (k o)
  | SetSeed s k => s <> None /\ noEntropy k
  | Try b k => noEntropy b /\ forall os r, noEntropy (k os r)
  | Alt s b k => s <> None /\ noEntropy b /\ forall os, noEntropy (k os)
  end.
(** seeding with an integer is a function of that integer *)
Definition seedsFixed {S} (seed : option Z -> nat -> result S) : Prop :=
  forall z w w', seed (Some z) w = seed (Some z) w'.
Definition outs {A B C} (x : A * B * C) : B := snd (fst x).
(** the table [rows] has [np] rows of [nf] cells *)
Definition hasShape {V} (np nf : nat) (rows : list (list V)) : Prop :=
  List.length rows = np /\ forall r, In r rows -> List.length r = nf.
Definition at_ {V} (zero : V) (rows : list (list V)) (i j : nat) : V := nth j (nth i rows []) zero.
Definition zerosIn {V} {EV : EqDec V} (zero : V) (rows : list (list V)) : nat :=
  List.length (filter (fun v => eqbd v zero) (List.concat rows)).
