(** Model of [isIdentical] and of the type conversions of copy.
    Sources: /repo/nimble/core/data/base.py:1794-1820, 5938-5944,
    _dataHelpers.py:380-396, 868-917, list.py:188-200, matrix.py:126-129,
    dataframe.py:148-152, sparse.py:262-300. *)
From Verif Require Import Base NamesModel TableModel TableOps SparseModel.

(** the four concrete types *)
Inductive kind := KList | KMatrix | KDataFrame | KSparse.
#[export] Instance EqDec_kind : EqDec kind.
Proof. unfold EqDec. decide equality. Defined.

(** _dataHelpers.py:880-888: one direction of [unequalNames]; only the
    emptiness of the resulting dict is used. *)
Fixpoint unequalFromLeft (i : nat) (left right : list (option string)) : list nat :=
  match left, right with
  | Some l :: left', r :: right' =>
      (if eqbd r (Some l) then [] else [i]) ++ unequalFromLeft (S i) left' right'
  | None :: left', _ :: right' => unequalFromLeft (S i) left' right'
  | _, _ => []
  end.
(** _dataHelpers.py:868-893 [unequalNames] *)
Definition unequalNames (l r : list (option string)) : list nat :=
  unequalFromLeft 0 l r ++ unequalFromLeft 0 r l.
Definition allNone (l : list (option string)) : bool :=
  forallb (fun o => match o with None => true | Some _ => false end) l.
(** _dataHelpers.py:895-917 [equalNames] *)
Definition equalNames (s o : option (list (option string))) : bool :=
  match s, o with
  | None, None => true
  | None, Some o => allNone o
  | Some s, None => allNone s
  | Some s, Some o =>
      (List.length s =? List.length o) &&
      match unequalNames s o with [] => true | _ => false end
  end.

Section Ident.
Variable V : Type.
(** equal, or both NaN (list.py:196, _dataHelpers.py:390-394) *)
Variable same : V -> V -> bool.

(** list.py:188-200: rows compared elementwise with [zip] (the shortcut
    [sPoint != oPoint] only skips rows that are equal). *)
Fixpoint sameRow (a b : list V) : bool :=
  match a, b with
  | x :: a', y :: b' => same x y && sameRow a' b'
  | _, _ => true
  end.
(** matrix.py:126-129 / _dataHelpers.py:380-396 [allDataIdentical] has the
    same effect on arrays of equal shape. *)
Fixpoint sameRows (a b : list (list V)) : bool :=
  match a, b with
  | x :: a', y :: b' => sameRow x y && sameRows a' b'
  | _, _ => true
  end.
(** base.py:1794-1820 [isIdentical] for the dense types, with the type test
    each [_isIdentical_implementation] starts with.  The Sparse comparison of
    the data is [isIdenticalSparse]. *)
Definition isIdentical (ka kb : kind) (a b : table V) : bool :=
  (alen (tp a) =? alen (tp b)) && (alen (tf a) =? alen (tf b)) &&
  equalNames (getNamesNoGeneration (tf a)) (getNamesNoGeneration (tf b)) &&
  equalNames (getNamesNoGeneration (tp a)) (getNamesNoGeneration (tp b)) &&
  eqbd ka kb && sameRows (rows a) (rows b).

(** base.py:3772-3837 [copy], list.py/matrix.py/dataframe.py/sparse.py:357-367 (to a nimble type): same names; the data handed
    to the constructor of the target type, element by element.  For Sparse
    the conversion itself is [ofDense]/[toDense]. *)
Definition copyTable (t : table V) : result (table V) :=
  pa <- initAxis (alen (tp t)) (getNamesNoGeneration (tp t)) ;;
  fa <- initAxis (alen (tf t)) (getNamesNoGeneration (tf t)) ;;
  Ok (mkTable pa fa (rows t)).
End Ident.
Arguments sameRow {V} _ _ _.
Arguments sameRows {V} _ _ _.
Arguments isIdentical {V} _ _ _ _ _.
Arguments copyTable {V} _.
