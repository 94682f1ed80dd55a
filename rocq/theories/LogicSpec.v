(** Specification vocabulary for the logical operators (C60). *)
From Verif Require Import Base NamesModel NamesSpec TableModel TableSpec MatchModel MatchSpec BinOpModel BinOpSpec StretchModel StretchSpec.
Open Scope nat_scope.
(** two objects a user cannot tell apart: shape, names, elements *)
Definition SameObject (a b : table pval) : Prop :=
  alen (tp a) = alen (tp b) /\ alen (tf a) = alen (tf b) /\ getNames (tp a) = getNames (tp b) /\ getNames (tf a) = getNames (tf b) /\
  forall i j, cell a i j = cell b i j.
(** the elements of [r] are bools, each [g] of the truth value standing at the
    same position of [a] *)
Definition TruthsMapped (g : bool -> bool) (a r : table pval) : Prop :=
  forall i j v, cell a i j = Some v -> exists p, TruthOf v p /\ cell r i j = Some (PBool (g p)).
