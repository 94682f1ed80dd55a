(** Model of points.replace and features.replace.
    Sources: /repo/nimble/core/data/axis.py:641-698 [_replace] (the part after the
    locations are known is TableOps.replace), points.py:1534-1615, features.py:1595-1676,
    matrixAxis.py:179-192, 252-267.
    Simplifications: objects of two dimensions; the names given with the data are
    lists or None; paths, the log and the type of the object built are left out. *)
From Verif Require Import Base NamesModel TableModel TableOps MatchModel ReshapeModel CopyModel TypedModel.
From Verif Require WorkModel.
From Coq Require Import List Arith ZArith. Import ListNotations.
Open Scope nat_scope.

Section Replace.
Context {V : Type}.

(** The data argument. [SrcObj d kwds]: a nimble object, [kwds]: whether there are
    other keyword arguments. [SrcRaw built pn fn]: anything else; [built]: what
    nimble.data makes of it without the names, [pn], [fn]: the keyword arguments
    pointNames and featureNames, if given. *)
Inductive source :=
| SrcObj (d : table V) (kwds : bool)
| SrcRaw (built : result (table V)) (pn fn : option (option (list (option string)))).

(** axis.py:661-665: a vector along the other axis is transposed *)
Definition orient (sd : side) (d : table V) : table V :=
  if (alen (offax sd d) =? 1) && (1 <? alen (ax sd d)) then transpose d else d.
(** axis.py:666-669 *)
Definition nameAxis (a : axis) (o : option (option (list (option string)))) : result axis :=
  match o with None => Ok a | Some names => WorkModel.setAll a names end.
(** axis.py:642-669 *)
Definition replacement (sd : side) (src : source) : result (table V) :=
  match src with
  | SrcObj d kwds => if kwds then Err InvalidArgumentValue else Ok d
  | SrcRaw built pn fn =>
      d0 <- built ;;
      let d := orient sd d0 in
      p <- nameAxis (tp d) pn ;;
      f <- nameAxis (tf d) fn ;;
      Ok (mkTable p f (rows d))
  end.
(** axis.py:674-682; the names of the data as identifiers (None is none) *)
Definition nameIdents (a : axis) : list ident :=
  map (fun o => match o with Some s => IdStr s | None => IdOther end) (getNames a).
Definition locations (sd : side) (t d : table V) (locs : option (list ident)) : result (list ident) :=
  match locs with
  | Some ids => Ok ids
  | None =>
      if (alen (tp t) =? alen (tp d)) && (alen (tf t) =? alen (tf d))
      then Ok (map (fun i => IdInt (Z.of_nat i)) (seq 0 (alen (ax sd t))))
      else if negb (namesCreated (ax sd t)) then Err InvalidArgumentValue
      else if negb (namesCreated (ax sd d)) then Err InvalidArgumentValue
      else Ok (nameIdents (ax sd d))
  end.
(** axis.py:641-698: the object afterwards and the outcome *)
Definition replaceCall (sd : side) (t : table V) (src : source) (locs : option (list ident)) : table V * result unit :=
  match (d <- replacement sd src ;; ids <- locations sd t d locs ;; Ok (d, ids)) with
  | Err e => (t, Err e)
  | Ok (d, ids) => replace sd t ids d
  end.
End Replace.
Arguments source V : clear implicits.

(** The loop of axis.py:690-698 over the array of a Matrix object; each vector is
    assigned through transform with a function that returns it (_dataHelpers.py:647-650:
    its length is checked) *)
Section Typed.
Variable floatOf : string -> option pval.
Variable intOf : string -> option Z.
Fixpoint matReplace (points : bool) (np nf : nat) (locs : list nat) (data : list (list pval)) (x : dt * list (list pval))
  : (dt * list (list pval)) * result unit :=
  match locs, data with
  | i :: is, r :: rs =>
      match matTransform floatOf intOf points np nf
              (fun v => if List.length r =? List.length v then Ok r else Err InvalidArgumentValue) (Some [i]) x with
      | (x', Ok _) => matReplace points np nf is rs x'
      | (x', Err e) => (x', Err e)
      end
  | _, _ => (x, Ok tt)
  end.
End Typed.
