(** Specification vocabulary for filling (C31). *)
From Verif Require Import Base NamesModel NamesSpec TableModel TableSpec TableOps TableOps3Proofs FillModel.
From Coq Require Import QArith Sorted.
Open Scope nat_scope.

(** [k] is the last position before [i] (the first after) that is not matched *)
Definition isPrev (toFill : list bool) (i k : nat) : Prop :=
  k < i /\ nth_error toFill k = Some false /\ forall j, k < j < i -> nth_error toFill j = Some true.
Definition isNext (toFill : list bool) (i k : nat) : Prop :=
  i < k /\ nth_error toFill k = Some false /\ forall j, i < j < k -> nth_error toFill j = Some true.

(** [out] is [vs] with every matched value replaced as described by [src] and
    nothing else changed *)
Definition FilledBy {V} (src : nat -> V -> Prop) (vs : list V) (toFill : list bool) (out : list V) : Prop :=
  List.length out = List.length vs /\
  forall i v, nth_error vs i = Some v ->
    match nth_error toFill i with
    | Some true => exists x, nth_error out i = Some x /\ src i x
    | _ => nth_error out i = Some v
    end.
(** the value on the straight line through the neighbouring unmatched values;
    beyond the first or last unmatched value, that value *)
Definition OnLine (vs : list Q) (toFill : list bool) (i : nat) (x : Q) : Prop :=
  (exists a b va vb, isPrev toFill i a /\ isNext toFill i b /\ nth_error vs a = Some va /\ nth_error vs b = Some vb /\
     (x == va + (vb - va) * (inject_Z (Z.of_nat i) - inject_Z (Z.of_nat a)) / (inject_Z (Z.of_nat b) - inject_Z (Z.of_nat a)))%Q) \/
  (exists b vb, isNext toFill i b /\ (forall a, ~ isPrev toFill i a) /\ nth_error vs b = Some vb /\ x = vb) \/
  (exists a va, isPrev toFill i a /\ (forall b, ~ isNext toFill i b) /\ nth_error vs a = Some va /\ x = va).

(** A fill function that returns a vector of the same length and leaves
    unmatched values alone. *)
Definition Conservative {V} (ff : list V -> list bool -> result (list V)) : Prop :=
  forall vs toFill out, List.length toFill = List.length vs -> ff vs toFill = Ok out ->
    FilledBy (fun _ _ => True) vs toFill out.
(** the boolean vector that belongs to vector [j] of [t] *)
Definition maskOf {V} (sd : side) (m : matching V) (j : nat) (v : list V) : option (list bool) :=
  match m with MFun f => Some (map f v) | MMatrix mt => nth_error (vectors sd mt) j end.
(** State after a (possibly interrupted) fillMatching: every chosen vector
    before position [k] is filled using its own match, everything else is
    untouched. *)
Definition FilledUpTo {V} (sd : side) (ff : list V -> list bool -> result (list V)) (m : matching V)
    (idx : option (list nat)) (k : nat) (t t' : table V) : Prop :=
  wf t' /\ tp t' = tp t /\ tf t' = tf t /\
  forall j v, nth_error (vectors sd t) j = Some v ->
    (j < k -> chosen idx j -> exists mk w, maskOf sd m j v = Some mk /\ ff v mk = Ok w /\ nth_error (vectors sd t') j = Some w) /\
    (k <= j \/ ~ chosen idx j -> nth_error (vectors sd t') j = Some v).
(** the outcome demanded of fillMatching *)
Definition FillOutcome {V} (sd : side) (ff : list V -> list bool -> result (list V)) (m : matching V)
    (idx : option (list nat)) (t : table V) (res : table V * result unit) : Prop :=
  match snd res with
  | Ok _ => FilledUpTo sd ff m idx (alen (ax sd t)) t (fst res)
  | Err e => exists k v mk, FilledUpTo sd ff m idx k t (fst res) /\ nth_error (vectors sd t) k = Some v /\ chosen idx k /\
      maskOf sd m k v = Some mk /\
      (ff v mk = Err e \/ (e = InvalidArgumentValue /\ exists w, ff v mk = Ok w /\ List.length w <> alen (offax sd t)))
  end.
(** Ways of giving [limitTo] beside a boolean object: nothing, one identifier,
    or identifiers in the order of the vectors meaning the same in both
    objects. *)
Definition aligned {V} (sd : side) (t : table V) (mt : table bool) (lim : limit) (idx : option (list nat)) : Prop :=
  limitDenotes (ax sd t) (limitIds lim) idx /\
  match lim with
  | LList _ => limitDenotes (ax sd mt) (limitIds lim) idx /\ match idx with Some l => StronglySorted lt l | None => False end
  | _ => True
  end.
(** the cell at (i, j) matches *)
Definition cellMatches {V} (m : matching V) (t : table V) (i j : nat) : Prop :=
  match m with
  | MFun f => exists v, cell t i j = Some v /\ f v = true
  | MMatrix mt => cell mt i j = Some true
  end.
Definition sameShape {V} (m : matching V) (t : table V) : Prop :=
  match m with MFun _ => True | MMatrix mt => wf mt /\ alen (tp mt) = alen (tp t) /\ alen (tf mt) = alen (tf t) end.
