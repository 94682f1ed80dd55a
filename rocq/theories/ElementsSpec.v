(** Specification vocabulary for the elementwise methods (C53, C56). *)
From Verif Require Import Base NamesModel NamesSpec TableModel TableSpec TableOps TableOps3Proofs MatchModel MatchSpec QueryModel ElementsModel.
From Coq Require Import QArith.
Open Scope nat_scope.

(** position (i, j) is among the chosen points and features *)
Definition addressed (ps fs : option (list nat)) (i j : nat) : Prop := chosen ps i /\ chosen fs j.
(** row by row *)
Definition before (p q : nat * nat) : Prop := fst p < fst q \/ (fst p = fst q /\ snd p < snd q).
(** What the element [v] at (i, j) becomes: 0 stays 0 when zeros are to be
    preserved; otherwise the function's result, or [v] when that is None and
    such results are skipped.  Numbers may change between int and float. *)
Definition orSkip (skip : bool) (v r : pval) : pval := match r with PNone => if skip then v else r | _ => r end.
Definition Becomes (pz skip : bool) (f : efun) (v : pval) (i j : nat) (w : pval) : Prop :=
  (pz = true /\ Same v (PInt 0) /\ Same w (PInt 0)) \/
  ((pz = false \/ ~ Same v (PInt 0)) /\ exists r, callF f v i j = Ok r /\ (w = orSkip skip v r \/ Same w (orSkip skip v r))).
(** a one-argument function that does not tell 0, 0.0 and False apart *)
Definition ZeroUniform (f : efun) : Prop :=
  match f with F1 g => forall v, Same v (PInt 0) -> g v = g (PInt 0) | F3 _ => True end.
(** the same kind of value, as far as numpy output types go *)
Inductive kind := KBool | KInt | KFloat | KStr | KNone.
Definition kindOf (v : pval) : kind :=
  match v with PBool _ => KBool | PInt _ => KInt | PStr _ => KStr | PNone => KNone | _ => KFloat end.
Definition isQueryFor (floatOf : string -> option pval) (accepted : string -> bool) (s : string) : Prop :=
  exists q, parse floatOf accepted s (Some true) = Ok q.
(** the positions meant by an optional selection *)
Definition positionsOf (n : nat) (o : option (list nat)) : list nat := match o with Some l => l | None => seq 0 n end.
(** the results the function itself gives are of one kind (and zeros that are
    kept are not mixed with strings) *)
Definition OneKind (pz skip : bool) (f : efun) (ps fs : option (list nat)) (t : table pval) : Prop :=
  exists k, (pz = true -> k <> KStr) /\
  forall i j v r, cell t i j = Some v -> addressed ps fs i j -> (pz = false \/ ~ Same v (PInt 0)) ->
  callF f v i j = Ok r -> kindOf (orSkip skip v r) = k.
(** a None result appears as NaN in the new object *)
Definition BecomesNew (pz skip : bool) (f : efun) (v : pval) (i j : nat) (w : pval) : Prop :=
  Becomes pz skip f v i j w \/ (w = PNaN /\ Becomes pz skip f v i j PNone).
(** how many of [l] satisfy [g] *)
Definition countTrue (g : pval -> result bool) (l : list pval) : nat := List.length (filter (fun v => match g v with Ok true => true | _ => false end) l).
(** The results for the first point are all texts and those for the second are not:
    nimble.data may take the first point for names. *)
Definition LikeHeader (pz skip : bool) (f : efun) (pl fl : list nat) (t : table pval) : Prop :=
  exists i0 i1 rest, pl = i0 :: i1 :: rest /\
    (forall j v, In j fl -> cell t i0 j = Some v -> exists s, Becomes pz skip f v i0 j (PStr s)) /\
    exists j v w, In j fl /\ cell t i1 j = Some v /\ Becomes pz skip f v i1 j w /\ forall s, w <> PStr s.
