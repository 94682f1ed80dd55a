(** Specification vocabulary for stretched objects (C57). *)
From Coq Require Import DecimalString.
From Verif Require Import Base NamesModel NamesSpec TableModel TableSpec MatchModel MatchSpec BinOpModel BinOpSpec StretchModel.
Open Scope nat_scope.

(** the other operand: [b] as it is, or stretched as well *)
Definition wrapped (twoStretched : bool) (b : table pval) : stretchOther := if twoStretched then SStretch b else SBase b.
(** one point or one feature, not empty *)
Definition Stretchable (t : table pval) : Prop :=
  0 < alen (tp t) /\ 0 < alen (tf t) /\ (alen (tp t) = 1 \/ alen (tf t) = 1).
(** The shapes allow the operation: the source is a point as long as the
    object's points or a feature as long as its features; of two stretched
    objects one is a point and the other a feature. *)
Definition Fits (twoStretched : bool) (s o : table pval) : Prop :=
  if twoStretched then (alen (tp s) = 1 /\ alen (tf o) = 1) \/ (alen (tf s) = 1 /\ alen (tp o) = 1)
  else (alen (tp s) = 1 /\ alen (tf s) = alen (tf o)) \/ (alen (tf s) = 1 /\ alen (tp s) = alen (tp o)).
(** With an object, the names along the axis on which the two line up must be
    consistent. *)
Definition NamesFit (twoStretched : bool) (s o : table pval) : Prop :=
  twoStretched = false ->
  (alen (tp s) <> 1 -> NamesConsistent (getNames (tp s)) (getNames (tp o))) /\
  (alen (tp s) = 1 -> (alen (tf s) <> 1 \/ alen (tp o) = 1) -> NamesConsistent (getNames (tf s)) (getNames (tf o))).

(** ** names of the result along an axis of length [n] *)
Definition Named (l : list (option string)) : Prop := exists s, In (Some s) l.
Definition decimal (n : nat) : string := NilEmpty.string_of_uint (Nat.to_uint n).
(** the names of the operand that has them: as they are if there are enough;
    the single name of a stretched operand with a number *)
Definition spread (n : nat) (l : list (option string)) : list (option string) :=
  if List.length l =? n then l
  else match l with
       | [Some s] => map (fun i => Some (s ++ "_" ++ decimal (S i))%string) (seq 0 n)
       | _ => repeat None n
       end.
Definition StretchedNames (n : nat) (l r res : list (option string)) : Prop :=
  (~ Named l -> ~ Named r -> res = repeat None n) /\
  (Named l -> ~ Named r -> res = spread n l) /\
  (~ Named l -> Named r -> res = spread n r) /\
  (Named l -> Named r -> List.length l = List.length r -> res = combined l r) /\
  (Named l -> Named r -> List.length l <> List.length r -> res = repeat None n).

(** ** values *)
(** the position whose element stands at position [i] of the stretched axis *)
Definition from (len i : nat) : nat := if len =? 1 then 0 else i.
Definition longer (a b : axis) : nat := if alen a <? alen b then alen b else alen a.
Section Values.
Variable floatOf : string -> option pval.
Variable npArith : arith -> bool -> dtype -> option dtype -> pval -> pval -> result pval.
Definition StretchedValues (o : arith) (refl : bool) (s b r : table pval) : Prop :=
  exists ds db, ArrayType (raising o) s ds /\ ArrayType (raising o) b db /\
    forall i j, i < longer (tp s) (tp b) -> j < longer (tf s) (tf b) ->
    exists x y x' y' w, cell s (from (alen (tp s)) i) (from (alen (tf s)) j) = Some x /\
      cell b (from (alen (tp b)) i) (from (alen (tf b)) j) = Some y /\
      AsNumber floatOf x x' /\ AsNumber floatOf y y' /\ npArith o refl ds (Some db) x' y' = Ok w /\ cell r i j = Some w.
Definition StretchedFails (o : arith) (refl : bool) (s b : table pval) (e : exc) : Prop :=
  exists ds db i j x y x' y', ArrayType (raising o) s ds /\ ArrayType (raising o) b db /\
    i < longer (tp s) (tp b) /\ j < longer (tf s) (tf b) /\
    cell s (from (alen (tp s)) i) (from (alen (tf s)) j) = Some x /\ cell b (from (alen (tp b)) i) (from (alen (tf b)) j) = Some y /\
    AsNumber floatOf x x' /\ AsNumber floatOf y y' /\ npArith o refl ds (Some db) x' y' = Err e.
(** a zero among the divisors: the right operand, or the source of a reflected call *)
Definition DividesByZero (refl : bool) (s b : table pval) : Prop :=
  exists i j v v', cell (if refl then s else b) i j = Some v /\ AsNumber floatOf v v' /\ Same v' (PInt 0).
End Values.
(** An operand after the call: same axes, elements the same or turned into numbers. *)
Definition OnlyConverted (floatOf : string -> option pval) (t t' : table pval) : Prop :=
  tp t' = tp t /\ tf t' = tf t /\ wf t' /\
  forall i j v, cell t i j = Some v -> exists v', cell t' i j = Some v' /\ (v' = v \/ AsNumber floatOf v v').

(** ** what the theorem leaves out *)
(** names never asked for, or at least one position named *)
Definition NamedOrUntouched (a : axis) : Prop := namesCreated a = true -> Named (getNames a).
Definition NamesReady (twoStretched : bool) (a b : axis) : Prop :=
  (alen a = 1 -> alen b <> 1 -> NamedOrUntouched a) /\
  (twoStretched = true -> alen b = 1 -> alen a <> 1 -> NamedOrUntouched b).
(** a single element is lined up with an axis one of the two has no names on *)
Definition SingleElementReady (s b : table pval) : Prop :=
  alen (tp s) = 1 -> alen (tf s) = 1 ->
  (1 < alen (tp b) -> namesCreated (tp s) = false \/ namesCreated (tp b) = false) /\
  (alen (tp b) = 1 -> 1 < alen (tf b) -> namesCreated (tf s) = false \/ namesCreated (tf b) = false).

(** ** logical operators *)
Definition TruthOf (v : pval) (b : bool) : Prop := Same v (PInt (if b then 1 else 0)).
Definition AllTruths (t : table pval) : Prop := forall i j v, cell t i j = Some v -> exists b, TruthOf v b.
Definition connective (o : logic) (x y : bool) : bool :=
  match o with LAnd => if x then y else false | LOr => if x then true else y | LXor => negb (Bool.eqb x y) end.
