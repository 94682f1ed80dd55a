(** features.normalize (features.py:1859-2018). *)
From Verif Require Import Base NamesModel TableModel TableOps.
From Coq Require Import String Ascii. From Coq Require Import List. Import ListNotations.
Open Scope nat_scope.

(** The [features] parameter: None, one identifier, or a list of them. *)
Inductive farg := FNone | FOne (id : ident) | FMany (ids : list ident).

Section N.
Variable V : Type.
(** What the callable is given: one feature, or a feature of each object
    (features.py:1989, 2013).  An exception of the function, and unpacking something
    that is not a pair, is an [Err].  Simplified: the function reads the elements of
    the features only, is a function of them, and does not itself change either object. *)
Definition fun1 := list V -> result (list V).
Definition fun2 := list V -> list V -> result (list V * list V).

(** [features] as [transform] takes it: a single identifier is put in a list
    (_dataHelpers.py constructIndicesList, called in axis.py:_transform). *)
Definition limitOf (features : farg) : option (list ident) :=
  match features with FNone => None | FOne id => Some [id] | FMany ids => Some ids end.
(** features.py:1988-1989: without [applyResultTo]. *)
Definition normalizeOne (f : fun1) (features : farg) (t : table V) : table V * result unit :=
  transform Fts f (limitOf features) t.

(** The characters of a string, each a string (Python's iteration over a str). *)
Fixpoint characters (s : string) : list ident :=
  match s with EmptyString => [] | String c s' => IdStr (String c EmptyString) :: characters s' end.
(** features.py:2005-2006 [list(map(self._getIndex, features))]: an identifier that is
    no list is iterated over all the same. *)
Definition pairFeatures (a : axis) (features : farg) : result (option (list nat)) :=
  match features with
  | FNone => Ok None
  | FMany ids => rmap (@Some _) (constructIndices a ids)
  | FOne (IdStr s) => rmap (@Some _) (constructIndices a (characters s))
  | FOne _ => Err TypeErr
  end.

(** features.py:2007-2015: the loop over the features of both objects; each feature is
    written by [transform] with the constant function, first in the calling object, then
    in the other one.  Simplified: the two objects are different ones. *)
Fixpoint pairLoop (f : fun2) (limit : option (list nat)) (js : list nat) (t1 t2 : table V)
  : table V * table V * result unit :=
  match js with
  | [] => (t1, t2, Ok tt)
  | j :: js' =>
      if match limit with None => true | Some l => mem j l end
      then
        match f (vec Fts t1 j) (vec Fts t2 j) with
        | Err e => (t1, t2, Err e)
        | Ok (n1, n2) =>
            match transform Fts (fun _ => Ok n1) (Some [IdInt (Z.of_nat j)]) t1 with
            | (t1', Err e) => (t1', t2, Err e)
            | (t1', Ok _) =>
                match transform Fts (fun _ => Ok n2) (Some [IdInt (Z.of_nat j)]) t2 with
                | (t2', Err e) => (t1', t2', Err e)
                | (t2', Ok _) => pairLoop f limit js' t1' t2'
                end
            end
        end
      else pairLoop f limit js' t1 t2
  end.
(** features.py:1996-2002: the names differ, where both objects have names. *)
Definition namesDiffer (a b : axis) : bool :=
  match getNamesNoGeneration a, getNamesNoGeneration b with
  | Some x, Some y => negb (eqbd x y)
  | _, _ => false
  end.
(** features.py:1990-2015: with [applyResultTo] (the checks of the callable and of the
    type of [applyResultTo], 1984-1985 and 2016-2018, are left out). *)
Definition normalizeBoth (f : fun2) (features : farg) (t1 t2 : table V) : table V * table V * result unit :=
  if negb (alen (tf t1) =? alen (tf t2)) then (t1, t2, Err InvalidArgumentValue)
  else if namesDiffer (tf t1) (tf t2) then (t1, t2, Err InvalidArgumentValue)
  else
    match pairFeatures (tf t1) features with
    | Err e => (t1, t2, Err e)
    | Ok limit => pairLoop f limit (seq 0 (alen (tf t1))) t1 t2
    end.
End N.
Arguments normalizeOne {V}. Arguments normalizeBoth {V}. Arguments pairLoop {V}.
