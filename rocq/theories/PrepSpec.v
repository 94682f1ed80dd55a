(** Specification vocabulary for splitting and encoding (C14, C15). *)
From Verif Require Import Base NamesModel NamesSpec TableModel TableSpec.
From Coq Require Import Qround Qabs.
Open Scope nat_scope.

Section Spec.
Variable V : Type.
Implicit Types t : table V.
(** [t'] consists of the points [pidx] and the features [fidx] of [t], in that
    order, with their names. *)
Definition subTable t (pidx fidx : list nat) t' : Prop :=
  wf t' /\ alen (tp t') = List.length pidx /\ alen (tf t') = List.length fidx /\
  getNames (tp t') = selected pidx (getNames (tp t)) /\
  getNames (tf t') = selected fidx (getNames (tf t)) /\
  forall i j, cell t' i j =
    match nth_error pidx i, nth_error fidx j with Some a, Some b => cell t a b | _, _ => None end.
(** all features except [drop], in order *)
Definition without (n : nat) (drop : list nat) : list nat :=
  filter (fun i => negb (mem i drop)) (seq 0 n).
End Spec.
Arguments subTable {V} _ _ _ _.

(** [k] is an integer nearest to [q] *)
Definition nearest (q : Q) (k : Z) : Prop := (Qabs (q - inject_Z k) <= 1 # 2)%Q.
