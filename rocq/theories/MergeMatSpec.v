(** Specification of merge for Matrix objects (C74): the join of MergeSpec.v, in
    which the value of self is kept even if it is NaN. *)
From Verif Require Import Base NamesModel NamesSpec TableModel TableSpec MatchModel MatchSpec MergeModel MergeSpec.
Open Scope nat_scope.

(** the value of self if the row and the column are of self, else that of other,
    NaN if there is none *)
Definition keptCell (t o : table pval) (r c : option nat * option nat) : pval :=
  match valueAt t (fst r) (fst c) with
  | Some v => v
  | None => match valueAt o (snd r) (snd c) with Some w => w | None => PNaN end
  end.
(** [r] is the join with the values of self *)
Definition KeptJoin (t o : table pval) (point feature : how) (byName : bool) (m : nat -> nat -> bool) (r : table pval) : Prop :=
  let rs := joinRows point (alen (tp t)) (alen (tp o)) m in
  let cs := joinCols feature (getNames (tf t)) (getNames (tf o)) in
  wf r /\ rows r = map (fun rw => map (keptCell t o rw) cs) rs /\
  alen (tp r) = List.length rs /\ alen (tf r) = List.length cs /\
  getNames (tf r) = map (joinName (getNames (tf t)) (getNames (tf o))) cs /\
  getNames (tp r) = if byName then map (joinName (getNames (tp t)) (getNames (tp o))) rs else repeat None (List.length rs).
(** where matching points share a feature, self has no NaN to be filled *)
Definition NothingToFill (t o : table pval) (m : nat -> nat -> bool) : Prop :=
  forall i k j j', m i k = true -> partner (getNames (tf t)) (getNames (tf o)) j = Some j' ->
  cell t i j = Some PNaN -> forall w, cell o k j' = Some w -> w = PNaN.
(** every item of the axis has a name *)
Definition AllNamed (l : list (option string)) : Prop := ~ In None l.
