(** Model of merge with point='strict' or feature='strict' for List objects (C16).
    Source: /repo/nimble/core/data/base.py:4560-4678 (merge,
    _genericStrictMerge_implementation); _dataHelpers.py:84-104 (mergeNames);
    axis.py:376-380.  [other] is copied first, so that other may be self.
    Simplifications: [sorted(a) != sorted(b)] on elements is modelled as "not a
    rearrangement of equal elements" (the same for elements with a total order;
    unorderable elements raise TypeError in the code, NaN never matches). *)
From Verif Require Import Base NamesModel TableModel MatchModel MergeModel BinOpModel.
From Coq Require Import String.
From Coq Require DecimalString.
Open Scope string_scope.
Open Scope list_scope.
Open Scope nat_scope.

(** [sorted(a) == sorted(b)] *)
Fixpoint removeEq (x : pval) (l : list pval) : option (list pval) :=
  match l with [] => None | y :: t => if pyEq x y then Some t else option_map (cons y) (removeEq x t) end.
Fixpoint rearranged (a b : list pval) : bool :=
  match a with
  | [] => match b with [] => true | _ => false end
  | x :: t => match removeEq x b with Some b' => rearranged t b' | None => false end
  end.
(** the same for names, all given *)
Definition countName (x : option string) (l : list (option string)) : nat := List.length (filter (fun y => if eq_dec x y then true else false) l).
Definition sameNames (l r : list (option string)) : bool := forallb (fun x => countName x l =? countName x r) (l ++ r).

Definition putAxis (sd : side) (t : table pval) (a : axis) : table pval :=
  match sd with Pts => mkTable a (tf t) (rows t) | Fts => mkTable (tp t) a (rows t) end.
(** 4650-4651 *)
Definition strictNames (l : list (option string)) : list (option string) :=
  mapi (fun i n => match n with None => Some ("_STRICT" ++ DecimalString.NilEmpty.string_of_uint (Nat.to_uint i))%string | Some s => Some s end) l.
(** not [_anyDefaultNames] *)
Definition allNamed (a : axis) : bool := namesCreated a && negb (List.length (names_dict a) <? alen a).
Definition give (a : axis) (l : list (option string)) : result axis :=
  match setNames a (AList (map to_newname l)) ONone with (a', Ok _) => Ok a' | (_, Err e) => Err e end.
(** 4633-4668: the axes merged and the names in the end (None: no names) *)
Definition strictAxes (force : bool) (l r : axis) : result (axis * axis * option (list (option string))) :=
  let lNames := getNamesNoGeneration l in
  let rNames := getNamesNoGeneration r in
  if allNamed l && allNamed r then
    if sameNames (getNames l) (getNames r) then Ok (l, r, Some (getNames l)) else Err InvalidArgumentValue
  else if force && allNamed l && negb (namesCreated r) then r' <- give r (getNames l) ;; Ok (l, r', Some (getNames l))
  else if force && negb (namesCreated l) && allNamed r then l' <- give l (getNames r) ;; Ok (l', r, Some (getNames r))
  else if force then
    match mergeNames (Some (getNames l)) (Some (getNames r)) with
    | Some e =>
        l' <- give l (strictNames e) ;; r' <- give r (strictNames e) ;;
        Ok (l', r', if negb (namesCreated l) && negb (namesCreated r) then None else Some e)
    | None => Err InvalidArgumentValue
    end
  else Err InvalidArgumentValue.
(** 4615-4630 *)
Definition keyColumn (t : table pval) (on : onArg) : result (list pval) :=
  match getIndex (tf t) (onIdent on) false with
  | Ok z => Ok (column t (Z.to_nat z))
  | Err KeyErr => Err InvalidArgumentValue
  | Err e => Err e
  end.
Definition uniqueMatch (self other : table pval) (on : onArg) : result unit :=
  l <- keyColumn self on ;;
  if negb (distinct l =? alen (tp self)) then Err InvalidArgumentValueCombination
  else
    r <- keyColumn other on ;;
    if rearranged l r then Ok tt else Err InvalidArgumentValueCombination.
(** 4585-4678: [sd] is the strict axis, [h] the join of the other axis *)
Definition strictMerge (sd : side) (h : how) (on : option onArg) (force : bool) (self other : table pval) : table pval * result unit :=
  let front t o := match sd with Pts => mergeFrontend false t o Intersection h on | Fts => mergeFrontend false t o h Intersection on end in
  if negb (alen (ax sd self) =? alen (ax sd other)) then (self, Err InvalidArgumentValue)
  else
    match sd, on with
    | Pts, Some o => match uniqueMatch self other o with Err e => (self, Err e) | Ok _ => front self other end
    | _, _ =>
        match strictAxes force (ax sd self) (ax sd other) with
        | Err e => (self, Err e)
        | Ok (l, r, endNames) =>
            match front (putAxis sd self l) (putAxis sd other r) with
            | (t, Err e) => (t, Err e)
            | (t, Ok _) =>
                let (a, res) := setNames (ax sd t) (match endNames with None => ANone | Some e => AList (map to_newname e) end) ONone in
                (putAxis sd t a, res)
            end
        end
    end.
(** 4560-4583 [merge] with one strict axis *)
Definition mergeStrict (leb : pval -> pval -> bool) (sd : side) (h : how) (on : option onArg) (force : bool) (self other : table pval) : table pval * result unit :=
  match strictMerge sd h on force self other with
  | (t, Err e) => (t, Err e)
  | (t, Ok _) =>
      match sd, h, on with
      | Fts, Union, Some o =>
          if truthy o then
            match getIndex (tf t) (onIdent o) false with
            | Err e => (t, Err e)
            | Ok z => match sortByKeys leb Pts t [Z.to_nat z] false with Ok t' => (t', Ok tt) | Err e => (t, Err e) end
            end
          else (t, Ok tt)
      | _, _, _ => (t, Ok tt)
      end
  end.
