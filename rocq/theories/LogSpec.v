(** Specification vocabulary for the log (C39). *)
From Verif Require Import Base LogModel.
From Coq Require Import Ascii Sorted.
Open Scope string_scope.
Open Scope list_scope.
Open Scope nat_scope.
Fixpoint lowerS (s : string) : string := match s with EmptyString => EmptyString | String c r => String (lower c) (lowerS r) end.
(** [t] occurs in [s], ignoring the case of letters *)
Definition contains (t s : string) : Prop := exists a m b, s = (a ++ m ++ b)%string /\ lowerS m = lowerS t.
(** no '%' and no '_' *)
Fixpoint noWildcard (s : string) : Prop :=
  match s with EmptyString => True | String c r => c <> "%"%char /\ c <> "_"%char /\ noWildcard r end.
(** the highest session number in the log *)
Definition latestSession (d : db) (z : Z) : Prop := (exists r, In r d /\ rSess r = z) /\ forall r, In r d -> (rSess r <= z)%Z.
(** entry [r] is from a session between [qLeast] and [qMost] sessions before the
    latest one in the log ([qMost] itself not included), within the dates, and
    has the text in its type or content *)
Definition wanted (q : query) (d : db) (r : row) : Prop :=
  (forall z, latestSession d z ->
     (forall l, qLeast q = Some l -> (l <= z - rSess r)%Z) /\ (forall m, qMost q = Some m -> (z - rSess r < m)%Z)) /\
  (forall t, qStart q = Some t -> t <= rTime r) /\ (forall t, qEnd q = Some t -> rTime r <= t) /\
  (forall t, qText q = Some t -> contains t (rType r) \/ contains t (rInfo r)).
(** [shown] are the last [n] elements of [l] (all of them without [n]) *)
Definition lastOf {A} (n : option Z) (l shown : list A) : Prop :=
  exists dropped, l = dropped ++ shown /\
  match n with
  | None => dropped = []
  | Some z => (0 <= z)%Z -> List.length shown = Nat.min (Z.to_nat z) (List.length l)
  end.
(** [l] lists, in order, exactly the elements of [d] that satisfy P *)
Inductive sublist {A} (P : A -> Prop) : list A -> list A -> Prop :=
| sub_nil : sublist P [] []
| sub_take x d l : P x -> sublist P d l -> sublist P (x :: d) (x :: l)
| sub_skip x d l : ~ P x -> sublist P d l -> sublist P (x :: d) l.
(** the entries of an output, and each with the session heading above it *)
Definition entriesOf (o : list line) : list row := flat_map (fun x => match x with LEntry r => [r] | LSession _ => [] end) o.
Fixpoint headed (cur : option Z) (o : list line) : list (option Z * row) :=
  match o with
  | [] => []
  | LSession n :: t => headed (Some n) t
  | LEntry r :: t => (cur, r) :: headed cur t
  end.
(** the log after a history: rows with the session that wrote them *)
Definition written (l : list lop) : list (nat * row) := combine (wlog (lrun l)) (wdb (lrun l)).
(** sessions one after the other: no session resumes after a later one began *)
Definition oneAtATime (l : list lop) : Prop := StronglySorted le (map who l).
