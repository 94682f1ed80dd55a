(** What data with more than two dimensions should mean, stated on nested lists
    alone. Only the data types of HighModel are used, none of its functions. *)
From Coq Require Import QArith.
From Coq Require Import Ascii String.
From Verif Require Import Base HighModel.
From Coq Require Import List.
Import ListNotations.
Open Scope list_scope.
Open Scope nat_scope.

(** A regular nested list of the given dimensions: every list at the same depth
    has the same length. *)
Inductive HasShape : nest -> list nat -> Prop :=
| hs_leaf v : HasShape (Leaf v) []
| hs_node l ds : Forall (fun c => HasShape c ds) l -> HasShape (Node l) (length l :: ds).

(** The elements from left to right. *)
Fixpoint leaves (n : nest) : list leaf :=
  match n with
  | Leaf v => [v]
  | Node l => flat_map leaves l
  end.

(** Object [o] holds the nested list [t]: the dimensions [o] reports are those
    of [t], and the values of each point are the elements of the matching
    sublist of [t]. *)
Definition Holds (o : hobj) (t : nest) : Prop :=
  2 <= length (hdims o) /\ HasShape t (hdims o) /\
  exists l, t = Node l /\ hrows o = map leaves l.

(** No empty list except at the innermost level. *)
Definition NoGaps (dims : list nat) : Prop := Forall (fun d => 0 < d) (removelast dims).

(** Values that one numpy array can hold unchanged: all of one sort, or with a
    None among them (then the array keeps Python objects). *)
Definition SameSort (v w : leaf) : Prop :=
  match v, w with
  | LInt _, LInt _ | LBool _, LBool _ | LText _, LText _ => True
  | LFloat _, LFloat _ | LFloat _, LNan | LNan, LFloat _ | LNan, LNan => True
  | _, _ => False
  end.
Definition Uniform (l : list leaf) : Prop :=
  In LNone l \/ (forall v w, In v l -> In w l -> SameSort v w).

(** [u] is [s] and [t] combined element by element. *)
Inductive Pointwise (op : leaf -> leaf -> leaf) : nest -> nest -> nest -> Prop :=
| pw_leaf a b : Pointwise op (Leaf a) (Leaf b) (Leaf (op a b))
| pw_node ls lt lu : length ls = length lt -> length lu = length lt ->
    (forall i a b c, nth_error ls i = Some a -> nth_error lt i = Some b ->
       nth_error lu i = Some c -> Pointwise op a b c) ->
    Pointwise op (Node ls) (Node lt) (Node lu).

(** Acceptance of irregular data. A list with at least one sublist is entered
    element by element, which spells every string in it. *)
Definition spelled (s : string) : nest :=
  Node (map (fun c => Leaf (LText (String c EmptyString))) (list_ascii_of_string s)).
Definition Single (n : nest) : Prop := exists v, n = Leaf v.
Inductive Opened : nest -> nest -> Prop :=
| op_text s : Opened (Leaf (LText s)) (spelled s)
| op_flat l : Forall Single l -> Opened (Node l) (Node l)
| op_nested l l' : ~ Forall Single l -> Forall2 Opened l l' -> Opened (Node l) (Node l').

(** The lengths met going down the first elements. *)
Fixpoint firstPath (n : nest) : list nat :=
  match n with
  | Leaf _ => []
  | Node [] => [0]
  | Node (c :: cs) => length (c :: cs) :: firstPath c
  end.

(** The value of an entry list at a position (0 where nothing is stored). *)
Inductive ValueAt (es : entries) (r c : nat) : leaf -> Prop :=
| va_stored v : In (r, c, v) es -> ValueAt es r c v
| va_zero : (forall v, ~ In (r, c, v) es) -> ValueAt es r c (LInt 0).

(** What is left of a list numbered from [k] when the positions [is] go. *)
Inductive Without {A} (is : list nat) : nat -> list A -> list A -> Prop :=
| wo_nil k : Without is k [] []
| wo_drop k x xs ys : In k is -> Without is (S k) xs ys -> Without is k (x :: xs) ys
| wo_keep k x xs ys : ~ In k is -> Without is (S k) xs ys -> Without is k (x :: xs) (x :: ys).

(** The elements at the given positions, in that order. *)
Definition ElementsAt {A} (l : list A) (is : list nat) (out : list A) : Prop :=
  Forall2 (fun i x => nth_error l i = Some x) is out.

(** The number of elements a regular nested list of these dimensions has. *)
Definition size (dims : list nat) : nat := fold_right Nat.mul 1 dims.
