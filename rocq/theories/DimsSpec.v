(** What a program over data objects should do: every object is a value of its
    own, and a statement changes only the object it is called on. No memory is
    mentioned here. *)
From Coq Require Import QArith.
From Coq Require Import Ascii String.
From Verif Require Import Base HighModel HighSpec DimsModel.
From Coq Require Import List.
Import ListNotations.
Open Scope list_scope.
Open Scope nat_scope.

(** The object numbered [x]. *)
Definition objectAt (os : list hobj) (x : nat) : result hobj :=
  match nth_error os x with Some o => Ok o | None => Err UnboundErr end.
Fixpoint repeats (is : list nat) : bool :=
  match is with [] => false | i :: r => existsb (Nat.eqb i) r || repeats r end.
Definition distinctOnly {A} (is : list nat) (r : result A) : result A :=
  if repeats is then Err InvalidArgumentValue else r.

(** One statement over independent objects: the receiver's new value in its
    place, a returned object at the end. *)
Definition effect (os : list hobj) (s : stmt) : result (list hobj) :=
  match s with
  | SNew o => Ok (os ++ [o])
  | SCopy x => o <- objectAt os x ;; Ok (os ++ [o])
  | SOperator op x y => a <- objectAt os x ;; b <- objectAt os y ;; r <- binaryObj op a b ;; Ok (os ++ [r])
  | SInPlace op x y => a <- objectAt os x ;; b <- objectAt os y ;; r <- binaryObj op a b ;; Ok (upd os x r)
  | SPointsCopy x is => a <- objectAt os x ;; distinctOnly is (r <- pointsCopy a is ;; Ok (os ++ [r]))
  | SExtract x is => a <- objectAt os x ;;
      distinctOnly is (rr <- pointsExtract a is ;; Ok (upd os x (snd rr) ++ [fst rr]))
  | SRetain x is => a <- objectAt os x ;; distinctOnly is (r <- pointsCopy a is ;; Ok (upd os x r))
  | SInsert x before y => a <- objectAt os x ;; b <- objectAt os y ;; r <- pointsInsert a before b ;; Ok (upd os x r)
  | SFeaturesDelete x js => a <- objectAt os x ;; distinctOnly js (r <- featuresDelete a js ;; Ok (upd os x r))
  | SPermute x order => a <- objectAt os x ;;
      (if negb (length order =? fst (shapeOf a)) then Err InvalidArgumentValue
       else distinctOnly order (r <- pointsPermute a order ;; Ok (upd os x r)))
  | STranspose x => a <- objectAt os x ;; r <- transposeObj a ;; Ok (upd os x r)
  | SFlatten x byF => a <- objectAt os x ;; r <- flattenObj a byF ;; Ok (upd os x r)
  | SUnflatten x dims byF => a <- objectAt os x ;; r <- unflattenObj a dims byF ;; Ok (upd os x r)
  end.

Fixpoint effects (os : list hobj) (p : list stmt) : list hobj :=
  match p with
  | [] => os
  | s :: r => effects (match effect os s with Ok os' => os' | Err _ => os end) r
  end.

(** The object whose points or features a statement removes or adds in place. *)
Definition resizes (s : stmt) : option nat :=
  match s with
  | SExtract x _ => Some x
  | SInsert x _ _ => Some x
  | SFeaturesDelete x _ => Some x
  | _ => None
  end.
Definition isOperator (s : stmt) : Prop := match s with SOperator _ _ _ => True | _ => False end.

(** A program is safe when no object is resized in place that is the left
    operand or the result of an operator, unless it was replaced since (by
    retain, transpose, flatten, unflatten or an in-place operator). [marks] has
    the objects that are such an operand or result. *)
Definition marksAfter (marks : list bool) (s : stmt) : list bool :=
  match s with
  | SOperator _ x _ => upd marks x true ++ [true]
  | SNew _ | SCopy _ | SPointsCopy _ _ | SExtract _ _ => marks ++ [false]
  | SInPlace _ x _ | SRetain x _ | STranspose x | SFlatten x _ | SUnflatten x _ _ => upd marks x false
  | SInsert _ _ _ | SFeaturesDelete _ _ | SPermute _ _ => marks
  end.
Inductive SafeFrom : list hobj -> list bool -> list stmt -> Prop :=
| safe_end os marks : SafeFrom os marks []
| safe_raises os marks s r : is_ok (effect os s) = false -> SafeFrom os marks r -> SafeFrom os marks (s :: r)
| safe_works os marks s os' r :
    effect os s = Ok os' ->
    (forall x, resizes s = Some x -> nth_error marks x = Some false) ->
    SafeFrom os' (marksAfter marks s) r -> SafeFrom os marks (s :: r).

(** The dimensions an object reports are those of its data. *)
Definition Consistent (o : hobj) : Prop :=
  2 <= length (hdims o) /\ length (hrows o) = hd 0 (hdims o) /\
  Forall (fun r => length r = size (tl (hdims o))) (hrows o).

(** The object a statement is called on. *)
Definition receiver (s : stmt) : option nat :=
  match s with
  | SInPlace _ x _ | SExtract x _ | SRetain x _ | SInsert x _ _ | SFeaturesDelete x _
  | SPermute x _ | STranspose x | SFlatten x _ | SUnflatten x _ _ => Some x
  | _ => None
  end.
