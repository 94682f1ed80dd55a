(** Specification vocabulary for axis names (properties C01-C04). *)
From Verif Require Import Base NamesModel.

(** What a user sees of an axis' names: [getName], [getNames], [getIndex]. *)
Definition Consistent (a : axis) : Prop :=
  List.length (getNames a) = alen a /\
  (forall i, i < alen a -> exists o, getName a (Z.of_nat i) = Ok o /\ nth_error (getNames a) i = Some o) /\
  (forall s i, getIndex a (IdStr s) false = Ok (Z.of_nat i)
               <-> i < alen a /\ getName a (Z.of_nat i) = Ok (Some s)) /\
  (forall i j s, nth_error (getNames a) i = Some (Some s) ->
                 nth_error (getNames a) j = Some (Some s) -> i = j).

(** The invariant the repository itself asserts in its tests,
    base.py:2447-2490 [checkInvariants]: the dict and the inverse list are
    mutually inverse and as long as the axis. *)
Definition Inv (a : axis) : Prop :=
  match astate a with
  | None => True
  | Some (d, inv) =>
      List.length inv = alen a /\ wfdict d /\
      forall s i, dget s d = Some i <-> nth_error inv i = Some (Some s)
  end.

(** Two axes no user can tell apart. *)
Definition SameNames (a b : axis) : Prop :=
  alen a = alen b /\ getNames a = getNames b /\
  (forall id fl, getIndex a id fl = getIndex b id fl) /\
  (forall z, getName a z = getName b z).

(** The elements of [l] whose position is not in [targets], in order. *)
Definition survivors {A} (targets : list nat) (l : list A) : list A :=
  map snd (filter (fun p => negb (mem (fst p) targets)) (combine (seq 0 (List.length l)) l)).

(** Axis histories: naming calls and the structural calls that rewrite names. *)
Inductive axis_op :=
| OSet (asg : assignments) (old : oldids)
| OPermute (order : list nat)
| ORemove (targets : list nat)
| OInsert (other : axis) (before : nat).

Definition step (a : axis) (o : axis_op) : axis :=
  match o with
  | OSet asg old => fst (setNames a asg old)
  | OPermute order => fst (permuteNames a order)
  | ORemove targets => removeNames a targets
  | OInsert b before => fst (insertNames a b before)
  end.
Definition run (a : axis) (ops : list axis_op) : axis := fold_left step ops a.
Definition fresh (n : nat) : axis := mkAxis n None.

(** The calls whose new names do not collide with each other.  For the
    all-names forms (list, string, None) there is no condition at all: the
    code checks them itself.  A name->index dict must not give two names to
    one index; when old identifiers are given, the new names must be distinct
    and the identifiers must denote distinct positions. *)
Definition NonColliding (a : axis) (asg : assignments) (old : oldids) : Prop :=
  match old, asg with
  | ONone, ADict d => wfdict d /\ NoDup (map snd (ddel NNone d))
  | ONone, _ => True
  | OBad, _ => True
  | OOne _, ADict d => wfdict d
  | OOne _, _ => True
  | OList ids, _ =>
      NoDup (assignments_iter asg) /\
      forall i j x y z, nth_error ids i = Some x -> nth_error ids j = Some y ->
        getIndex a x false = Ok z -> getIndex a y false = Ok z -> i = j
  end.

Definition op_ok (a : axis) (o : axis_op) : Prop :=
  match o with
  | OSet asg old => NonColliding a asg old
  | OPermute order => Permutation order (seq 0 (alen a))
  | ORemove targets => NoDup targets /\ forall i, In i targets -> i < alen a
  | OInsert b before => Inv b /\ before <= alen a
  end.
Fixpoint ops_ok (a : axis) (ops : list axis_op) : Prop :=
  match ops with
  | [] => True
  | o :: t => op_ok a o /\ ops_ok (step a o) t
  end.

(** What an identifier denotes on an axis. [fl]: are floats permitted. *)
Definition Denotes (a : axis) (fl : bool) (id : ident) (z : Z) : Prop :=
  let n := Z.of_nat (alen a) in
  match id with
  | IdInt i => (0 <= i < n /\ z = i)%Z \/ (- n <= i < 0 /\ z = n + i)%Z
  | IdStr s => exists i, z = Z.of_nat i /\ nth_error (getNames a) i = Some (Some s)
  | IdFloat q => fl = true /\ (q == inject_Z z)%Q /\ (0 <= z < n)%Z
  | IdOther => False
  end.
(** A float identifier, if any, lies inside the axis. *)
Definition FloatInRange (a : axis) (id : ident) : Prop :=
  match id with IdFloat q => (0 <= q)%Q /\ (q <= inject_Z (Z.of_nat (alen a) - 1))%Q | _ => True end.

(** The selection meant by a result of [processMultiple]. *)
Definition selection (a : axis) (r : option (list Z)) : list Z :=
  match r with None => allIndices (alen a) | Some l => l end.

(** The default ends and step of a slice. *)
Definition slice_default (o : option ident) (d : Z) : ident :=
  match o with Some i => i | None => IdInt d end.
Definition slice_step (o : option Z) : Z := match o with Some z => z | None => 1%Z end.
