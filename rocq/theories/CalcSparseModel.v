(** Model of calculateOnElements of Sparse objects (C82).  Sources:
    /repo/nimble/core/data/base.py:955-962, 1079-1146, sparse.py:201-239,
    /repo/nimble/core/_createHelpers.py (FromSparseModel.v).  The result is given as
    the table that the new Sparse object shows.  Simplifications: scipy takes elements
    of any type; views are left out (they always use the dense path); the first
    element of a selection of mixed types is not turned into text before the type of
    the results is found (the function sees the element itself). *)
From Verif Require Import Base NamesModel TableModel TableOps SparseModel MatchModel QueryModel ElementsModel CsvModel RawModel ReshapeModel SparseReshapeModel FromSparseModel StransModel.
From Coq Require Import List String. Import ListNotations.
Open Scope nat_scope.

Section CalcSparse.
Variables intOf floatOf : string -> option pval.
Variable strOf : pval -> string.
(** base.py:1119-1120: nimble.data of a coo_matrix; names are looked for, None counts
    as missing *)
Definition newSparse (n k : nat) (l : list (entry pval)) : result (table pval) :=
  rmap seen (fromCoo strOf floatOf n k l NmAuto NmAuto (Some [PNone]) PNaN).
(** sparse.py:213-223: the function is given what is stored *)
Definition calcStored (g : pval -> result pval) (x : StransModel.sobj) : result (table pval) :=
  vals <- vectorized intOf floatOf strOf g [map (@ev pval) (xEnts x)] ;;
  newSparse (alen (xTp x)) (alen (xTf x)) (withData (xEnts x) (List.concat vals)).
(** sparse.py:226-233: [row[idx] in points and col[idx] in features] *)
Definition inSelection (o : option (list nat)) (i : nat) : result bool :=
  match o with None => Err TypeErr | Some l => Ok (mem i l) end.
Fixpoint selectStored (ps fs : option (list nat)) (l : list (entry pval)) : result (list (entry pval)) :=
  match l with
  | [] => Ok []
  | e :: t =>
      p <- inSelection ps (er e) ;;
      b <- (if p then inSelection fs (ec e) else Ok false) ;;
      rest <- selectStored ps fs t ;; Ok (if b then e :: rest else rest)
  end.
(** numpy.vectorize without a second attempt: nothing to compute with is an error *)
Definition vectorizedOnce (g : pval -> result pval) (l : list pval) : result (list pval) :=
  vals <- rmapM g l ;;
  match vals with [] => Err ValueErr | first :: _ => rmapM (castLike intOf floatOf strOf first) vals end.
(** sparse.py:234-239: coo_matrix without a shape, the largest coordinates give it *)
Definition calcSelected (g : pval -> result pval) (ps fs : option (list nat)) (x : StransModel.sobj) : result (table pval) :=
  l <- selectStored ps fs (xEnts x) ;;
  vals <- vectorizedOnce g (map (@ev pval) l) ;;
  newSparse (S (list_max (map (@er pval) l))) (S (list_max (map (@ec pval) l))) (withData l vals).
(** base.py:1079-1120, sparse.py:201-241 *)
Definition calculateSparse (f : efun) (points features : option (list ident)) (pz skip : bool) (x : StransModel.sobj) : result (table pval) :=
  if isOneArg f && pz then
    ps <- ElementsModel.resolve (xTp x) points ;;
    fs <- ElementsModel.resolve (xTf x) features ;;
    let g := fun v => validated pz skip f v 0 0 in
    match ps, fs with None, None => calcStored g x | _, _ => calcSelected g ps fs x end
  else calculateOnElements intOf floatOf strOf (denseOf x) f points features pz skip.
End CalcSparse.
