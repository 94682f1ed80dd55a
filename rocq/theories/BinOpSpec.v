(** Specification vocabulary for binary operators and abs (C17, C18). *)
From Verif Require Import Base NamesModel NamesSpec TableModel TableSpec MatchModel MatchSpec BinOpModel.
From Coq Require Import QArith Qabs.
Open Scope nat_scope.
(** ** Kinds of operators and elements, stated independently of the code *)
(** division, integer division and remainder have a divisor *)
Definition dividing (o : arith) : bool := match o with Truediv | Floordiv | Mod => true | _ => false end.
Definition raising (o : arith) : bool := match o with Pow => true | _ => false end.
Definition reflectedCall (f : form) : bool := match f with Reflected => true | _ => false end.
Definition boolean (v : pval) : bool := match v with PBool _ => true | _ => false end.
Definition integer (v : pval) : bool := match v with PInt _ => true | _ => false end.
Definition floating (v : pval) : bool := match v with PFloat _ | PPosInf | PNegInf | PNaN => true | _ => false end.
Definition aNumber (v : pval) : bool := match v with PStr _ | PNone => false | _ => true end.


(** Names of two axes are consistent: where both name a position they agree,
    and a name used by both sits at the same position in both. *)
Definition NamesConsistent (l r : list (option string)) : Prop :=
  (forall i s s', nth_error l i = Some (Some s) -> nth_error r i = Some (Some s') -> s = s') /\
  (forall i j s, nth_error l i = Some (Some s) -> nth_error r j = Some (Some s) -> i = j).
Definition NamesDisjoint (l r : list (option string)) : Prop :=
  forall s, In (Some s) l -> In (Some s) r -> False.
(** the name of a position: the left one, or if it has none the right one *)
Definition combined (l r : list (option string)) : list (option string) :=
  map (fun p : option string * option string => match p with (Some s, _) => Some s | (None, o) => o end) (combine l r).
(** When an operator accepts the names of its operands. *)
Definition NamesAccepted (f : form) (a b : table pval) : Prop :=
  let P := NamesConsistent (getNames (tp a)) (getNames (tp b)) in
  let F := NamesConsistent (getNames (tf a)) (getNames (tf b)) in
  match f with
  | InPlace => P /\ F
  | _ => (P /\ F) \/ (P /\ NamesDisjoint (getNames (tf a)) (getNames (tf b))) \/ (F /\ NamesDisjoint (getNames (tp a)) (getNames (tp b)))
  end.
(** The names of the result along one axis: the combined names if they are
    consistent, otherwise none. *)
Definition ResultNames (l r res : list (option string)) : Prop :=
  (NamesConsistent l r -> res = combined l r) /\ (~ NamesConsistent l r -> res = repeat None (List.length l)).

(** [v'] is the number that stands for [v] in arithmetic: itself, the same
    number as a float, or the float a string spells. *)
Inductive AsNumber (floatOf : string -> option pval) : pval -> pval -> Prop :=
| asn_same v : aNumber v = true -> AsNumber floatOf v v
| asn_float v q q' : IsNumber v q -> (q == q')%Q -> AsNumber floatOf v (PFloat q')
| asn_str s v : floatOf s = Some v -> AsNumber floatOf (PStr s) v.
Definition Numeric (floatOf : string -> option pval) (v : pval) : Prop := exists v', AsNumber floatOf v v'.
Definition AllNumeric (floatOf : string -> option pval) (t : table pval) : Prop := forall i j v, cell t i j = Some v -> Numeric floatOf v.
(** [float(s)] gives a float *)
Definition FloatOracle (floatOf : string -> option pval) : Prop := forall s v, floatOf s = Some v -> floating v = true.

(** The element type of the array for an object: bool or int when all elements
    are, float when they are ints, floats and numeric strings; powers use
    floats; bools mixed with other numbers stay Python objects. *)
Definition ArrayType (pow : bool) (t : table pval) (d : dtype) : Prop :=
  let allOf (p : pval -> Prop) := forall i j v, cell t i j = Some v -> p v in
  match d with
  | DBool => pow = false /\ allOf (fun v => boolean v = true)
  | DInt => pow = false /\ allOf (fun v => integer v = true)
  | DFloat => allOf (fun v => pow = true \/ boolean v = false) /\ (pow = true \/ exists i j v, cell t i j = Some v /\ integer v = false)
  | DObj => pow = false /\ (exists i j v, cell t i j = Some v /\ boolean v = true) /\ exists i j v, cell t i j = Some v /\ boolean v = false
  end.
Definition hasZero (t : table pval) : Prop := exists i j v, cell t i j = Some v /\ Same v (PInt 0).

(** absolute value of an element *)
Inductive AbsOf : pval -> pval -> Prop :=
| abs_num v q w q' : IsNumber v q -> IsNumber w q' -> (q' == Qabs q)%Q -> AbsOf v w
| abs_pinf : AbsOf PPosInf PPosInf
| abs_ninf : AbsOf PNegInf PPosInf
| abs_nan : AbsOf PNaN PNaN.
(** the divisor: the right operand, or the left one of a reflected call *)
Definition ZeroDivisor (floatOf : string -> option pval) (f : form) (a b : table pval) : Prop :=
  match f with
  | Reflected => exists i j v v', cell a i j = Some v /\ AsNumber floatOf v v' /\ Same v' (PInt 0)
  | _ => hasZero b
  end.
(** self after a call that raised: as before, except that an in-place call may
    have turned its elements into numbers *)
Definition AfterFailure (floatOf : string -> option pval) (f : form) (a a' : table pval) : Prop :=
  (f <> InPlace -> a' = a) /\ tp a' = tp a /\ tf a' = tf a /\
  forall i j v, cell a i j = Some v -> exists v', cell a' i j = Some v' /\ (v' = v \/ AsNumber floatOf v v').

(** What numpy computes for one pair of elements: operator, whether reflected,
    element types of the arrays (None for a scalar), left and right element. *)
Section Values.
Variable floatOf : string -> option pval.
Variable npArith : arith -> bool -> dtype -> option dtype -> pval -> pval -> result pval.
(** every element of the result is computed from the two elements at the same
    position *)
Definition ValuesCombined (o : arith) (f : form) (a b r : table pval) : Prop :=
  exists da db, ArrayType (raising o) a da /\ ArrayType (raising o) b db /\
    forall i j x y, cell a i j = Some x -> cell b i j = Some y ->
    exists x' y' w, AsNumber floatOf x x' /\ AsNumber floatOf y y' /\ npArith o (reflectedCall f) da (Some db) x' y' = Ok w /\ cell r i j = Some w.
Definition ValueFails (o : arith) (f : form) (a b : table pval) (e : exc) : Prop :=
  exists da db i j x y x' y', ArrayType (raising o) a da /\ ArrayType (raising o) b db /\ cell a i j = Some x /\ cell b i j = Some y /\
    AsNumber floatOf x x' /\ AsNumber floatOf y y' /\ npArith o (reflectedCall f) da (Some db) x' y' = Err e.
Definition ValuesWithScalar (o : arith) (f : form) (a : table pval) (v : pval) (r : table pval) : Prop :=
  exists da, ArrayType (raising o) a da /\
    forall i j x, cell a i j = Some x -> exists x' w, AsNumber floatOf x x' /\ npArith o (reflectedCall f) da None x' v = Ok w /\ cell r i j = Some w.
End Values.
Definition ZeroDivisorScalar (floatOf : string -> option pval) (f : form) (a : table pval) (v : pval) : Prop :=
  match f with
  | Reflected => exists i j x x', cell a i j = Some x /\ AsNumber floatOf x x' /\ Same x' (PInt 0)
  | _ => Same v (PInt 0)
  end.
Definition NumbersOnly (t : table pval) : Prop := forall i j v, cell t i j = Some v -> aNumber v = true.
Definition BoolsAndFloats (t : table pval) : Prop :=
  (exists i j v, cell t i j = Some v /\ boolean v = true) /\ exists i j v, cell t i j = Some v /\ floating v = true.
