(** Model of merge for List objects (C16).
    Sources: /repo/nimble/core/data/base.py:4560-4583 (merge), 4670-4785
    (_genericMergeFrontend); axis.py:1517-1527 (_getMatchingNames);
    list.py:375-530 (List._merge_implementation).  Elements are [pval]
    (MatchModel.v).  Reads [row[i]] at positions that come from the names of an
    axis are modelled by [nth i row PNaN]: they are in range for a consistent
    object. *)
From Verif Require Import Base NamesModel TableModel MatchModel.
Open Scope nat_scope.

Inductive how := Intersection | Union | LeftOnly.
Definition isUnion (h : how) : bool := match h with Union => true | _ => false end.
(** onFeature: a name or an index *)
Inductive onArg := OnName (s : string) | OnIndex (z : Z).

(** axis.py:1517-1527 [_getMatchingNames] (names exist on both sides): in the
    order of the dict *)
Definition matchingNames (a b : axis) : list string :=
  let allNames := getNames a ++ getNames b in
  if nodupb allNames then [] else filter (fun s => dmem s (names_dict b)) (dkeys (names_dict a)).
(** base.py:4713-4719 *)
Definition matchingIdx (a b : axis) : result (list nat * list nat) :=
  let names := matchingNames a b in
  l <- rmapM (getIndexByName a) names ;; r <- rmapM (getIndexByName b) names ;; Ok (l, r).

(** reading positions of a row *)
Definition at_ (row : list pval) (i : nat) : pval := nth i row PNaN.
Definition pick (idx : list nat) (row : list pval) : list pval := map (at_ row) idx.
Definition isNaN (v : pval) : bool := pyNe v v.
(** list.index *)
Fixpoint indexOf (x : nat) (l : list nat) : option nat :=
  match l with [] => None | y :: t => if x =? y then Some 0 else option_map S (indexOf x t) end.
(** len(rows[0]) *)
Definition width (rs : list (list pval)) : result nat := match rs with [] => Err IndexErr | r :: _ => Ok (List.length r) end.
(** list(range(len(rows[0]))) if len(rows) > 0 else [] *)
Definition rangeOf (rs : list (list pval)) : list nat := match rs with [] => [] | r :: _ => seq 0 (List.length r) end.
(** list.py:407-412 [ptNameGetter] *)
Definition ptKey (a : axis) (add idx : nat) : pval :=
  match nth idx (getNames a) None with Some s => PStr s | None => PInt (Z.of_nat (idx + add)) end.
(** for i, pt in enumerate(rows) *)
Definition mapi {A B} (f : nat -> A -> B) (l : list A) : list B := map (fun p => f (fst p) (snd p)) (combine (seq 0 (List.length l)) l).

(** list.py:377-467: the rows compared, the matching positions in them and the
    positions of the key.  [same]: other is self, so that the rows of other are
    the ones just rewritten. *)
Record prepared := mkPrep { pLeft : list (list pval); pRight : list (list pval); pL : list nat; pR : list nat; onL : nat; onR : nat }.
Definition prepareOn (self other : table pval) (feature : how) (on : string) (mL mR : list nat) : result prepared :=
  match feature with
  | Union =>
      l <- getIndexByName (tf self) on ;; r <- getIndexByName (tf other) on ;;
      Ok (mkPrep (rows self) (rows other) mL mR l r)
  | _ =>
      k <- getIndexByName (tf self) on ;;
      match indexOf k mL with
      | None => Err ValueErr
      | Some loc =>
          let right := map (pick mR) (rows other) in
          match feature with
          | Intersection =>
              let left := map (pick mL) (rows self) in
              Ok (mkPrep left right (rangeOf left) (rangeOf right) loc loc)
          | _ => Ok (mkPrep (rows self) right mL (rangeOf right) loc loc)
          end
      end
  end.
Definition prepareNames (same : bool) (self other : table pval) (feature : how) (mL mR : list nat) : result prepared :=
  let n := alen (tp self) in
  let key a add i (row : list pval) := ptKey a add i :: row in
  match feature with
  | Intersection =>
      let left := mapi (fun i pt => key (tp self) 0 i (map snd (filter (fun p => mem (fst p) mL) (combine (seq 0 (List.length pt)) pt)))) (rows self) in
      let right := mapi (fun i pt => key (tp other) n i (pick mR pt)) (if same then left else rows other) in
      Ok (mkPrep left right (rangeOf left) (rangeOf left) 0 0)
  | LeftOnly =>
      let left := mapi (key (tp self) 0) (rows self) in
      let right := mapi (fun i pt => key (tp other) n i (pick mR pt)) (if same then left else rows other) in
      w <- width right ;; Ok (mkPrep left right (0 :: map S mL) (seq 0 w) 0 0)
  | Union =>
      let left := mapi (key (tp self) 0) (rows self) in
      let right := mapi (key (tp other) n) (if same then left else rows other) in
      Ok (mkPrep left right (0 :: map S mL) (0 :: map S mR) 0 0)
  end.

Section Loop.
Variables (pL pR : list nat) (onL onR : nat) (right : list (list pval)).
(** list.py:472-478 matchMapper: a dict keyed by the values of the key *)
Fixpoint mapperSet (k : pval) (v : list (list pval)) (d : list (pval * list (list pval))) : list (pval * list (list pval)) :=
  match d with
  | [] => [(k, v)]
  | (k', v') :: t => if pyEq k' k then (k', v) :: t else (k', v') :: mapperSet k v t
  end.
Definition mapperGet (k : pval) (d : list (pval * list (list pval))) : option (list (list pval)) :=
  option_map snd (find (fun kv => pyEq (fst kv) k) d).
Definition matchesOf (pt : list pval) : list (list pval) := filter (fun r => pyEq (at_ r onR) (at_ pt onL)) right.
Definition buildMapper (left : list (list pval)) : list (pval * list (list pval)) :=
  fold_left (fun d pt => match matchesOf pt with [] => d | m => mapperSet (at_ pt onL) m d end) left [].

(** list.py:485-496 *)
Definition acceptable (ptL ptR : list pval) : bool :=
  forallb (fun p : nat * nat => pyEq (at_ ptL (fst p)) (at_ ptR (snd p)) || isNaN (at_ ptL (fst p)) || isNaN (at_ ptR (snd p))) (combine pL pR).
(** list.py:497-504 *)
Definition fillNaN (ptL ptR : list pval) : list pval :=
  mapi (fun i v => if isNaN v then match indexOf i pL with Some k => at_ ptR (nth k pR 0) | None => v end else v) ptL.
(** list.py:505-506 *)
Definition unmatched (ptR : list pval) : list pval := pick (filter (fun i => negb (mem i pR)) (seq 0 (List.length ptR))) ptR.
(** list.py:483-508: the matches of one left point; the left point is filled in
    place from match to match *)
Fixpoint mergeMatches (ptL : list pval) (ms : list (list pval)) : list pval * result (list (list pval)) :=
  match ms with
  | [] => (ptL, Ok [])
  | ptR :: t =>
      if acceptable ptL ptR then
        let ptL' := fillNaN ptL ptR in
        let (fin, r) := mergeMatches ptL' t in
        (fin, rmap (cons (ptL' ++ unmatched ptR)) r)
      else (ptL, Err InvalidArgumentValue)
  end.
(** list.py:480-513: the left rows afterwards; the merged rows and [matched] *)
Fixpoint leftLoop (point : how) (unmatchedR : nat) (mapper : list (pval * list (list pval))) (left : list (list pval))
  : list (list pval) * result (list (list pval) * list pval) :=
  match left with
  | [] => ([], Ok ([], []))
  | ptL :: t =>
      match mapperGet (at_ ptL onL) mapper with
      | Some ms =>
          match mergeMatches ptL ms with
          | (ptL', Err e) => (ptL' :: t, Err e)
          | (ptL', Ok here) =>
              let (t', r) := leftLoop point unmatchedR mapper t in
              (ptL' :: t', rmap (fun q => (here ++ fst q, at_ ptL onL :: snd q)) r)
          end
      | None =>
          let (t', r) := leftLoop point unmatchedR mapper t in
          let here := match point with Intersection => [] | _ => [ptL ++ repeat PNaN unmatchedR] end in
          (ptL :: t', rmap (fun q => (here ++ fst q, snd q)) r)
      end
  end.
(** list.py:515-524 *)
Definition rightRow (wl : nat) (row : list pval) : list pval :=
  fold_left (fun acc p => upd acc (fst p) (at_ row (snd p))) (combine pL pR) (repeat PNaN wl) ++ unmatched row.
Definition rightLoop (point : how) (wl : nat) (matched : list pval) : list (list pval) :=
  match point with
  | Union => map (rightRow wl) (filter (fun row => negb (inList (at_ row onR) matched)) right)
  | _ => []
  end.
End Loop.

(** list.py:468-536: the rows of self afterwards (also when it raises) and the
    number of features *)
Definition mergeRows (point : how) (names : bool) (p : prepared) : list (list pval) * result nat :=
  match width (pRight p) with
  | Err e => (pLeft p, Err e)
  | Ok wr =>
      let un := wr - List.length (pR p) in
      let mapper := buildMapper (onL p) (onR p) (pRight p) (pLeft p) in
      match leftLoop (pL p) (pR p) (onL p) point un mapper (pLeft p) with
      | (l', Err e) => (l', Err e)
      | (l', Ok (merged, matched)) =>
          match width l' with
          | Err e => (l', Err e)
          | Ok wl =>
              let all := merged ++ rightLoop (pL p) (pR p) (onR p) (pRight p) point wl matched in
              if names then (map (skipn 1) all, Ok (wl + un - 1)) else (all, Ok (wl + un))
          end
      end
  end.

(** number of different elements of a set.  Simplification: every NaN counts as
    a different element (true of different NaN objects, not of one object that
    occurs twice); the theorems assume at most one NaN in a key, or state the
    refusal for equal elements, which does not depend on this. *)
Fixpoint distinct (l : list pval) : nat :=
  match l with [] => 0 | x :: t => if inList x t then distinct t else S (distinct t) end.

Definition setList (a : axis) (n : nat) (l : list (option string)) : axis * result unit :=
  setNames (mkAxis n (astate a)) (AList (map to_newname l)) ONone.
(** base.py:4726-4785: the names afterwards *)
Definition mergedNames (self other : table pval) (point feature : how) (names : bool) (matching : list string) (n k : nat) : result (axis * axis) :=
  let isMatch o := match o with Some s => mem s matching | None => false end in
  let fl := getNames (tf self) in
  let fr := getNames (tf other) in
  let done (r : axis * result unit) := match r with (a, Ok _) => Ok a | (_, Err e) => Err e end in
  fa <- match feature with
        | Intersection => done (setList (tf self) k (filter isMatch fl))
        | Union => done (setList (tf self) k (fl ++ filter (fun o => negb (isMatch o)) fr))
        | LeftOnly => Ok (mkAxis k (astate (tf self)))
        end ;;
  let ptl := getNames (tp self) in
  let ptr := getNames (tp other) in
  pa <- (if names then
           match point with
           | LeftOnly => done (setList (tp self) n ptl)
           | Intersection => done (setList (tp self) n (filter (fun o => match o with None => false | _ => mem o ptr end) ptl))
           | Union => done (setList (tp self) n (ptl ++ filter (fun o => match o with None => true | _ => negb (mem o ptl) end) ptr))
           end
         else Ok (mkAxis n None)) ;;
  Ok (pa, fa).

(** base.py:4693-4711: the name of the key *)
Definition keyName (self other : table pval) (on : onArg) : result string :=
  name <- match on with
          | OnName s => Ok s
          | OnIndex z =>
              l <- getName (tf self) z ;; r <- getName (tf other) z ;;
              match l with
              | Some s => if eqbd l r then Ok s else Err InvalidArgumentValue
              | None => Err InvalidArgumentValue
              end
          end ;;
  match getIndexByName (tf self) name, getIndexByName (tf other) name with
  | Ok i, Ok j =>
      if (distinct (column self i) =? alen (tp self)) || (distinct (column other j) =? alen (tp other)) then Ok name
      else Err InvalidArgumentValue
  | _, _ => Err InvalidArgumentValue
  end.
(** base.py:4670-4785 [_genericMergeFrontend]: the object afterwards *)
Definition mergeFrontend (same : bool) (self other : table pval) (point feature : how) (on : option onArg) : table pval * result unit :=
  let fail e := (self, Err e) in
  if match on with None => negb (namesCreated (tp self) && namesCreated (tp other)) | _ => false end then fail InvalidArgumentValueCombination
  else if negb (namesCreated (tf self) && namesCreated (tf other)) then fail InvalidArgumentValueCombination
  else
    match (match on with None => Ok None | Some o => rmap Some (keyName self other o) end) with
    | Err e => fail e
    | Ok key =>
        match matchingIdx (tf self) (tf other) with
        | Err e => fail e
        | Ok (mL, mR) =>
            match (match key with Some k => prepareOn self other feature k mL mR | None => prepareNames same self other feature mL mR end) with
            | Err e => fail e
            | Ok p =>
                let names := match key with None => true | _ => false end in
                match mergeRows point names p with
                | (l', Err e) => (mkTable (tp self) (tf self) l', Err e)
                | (all, Ok k) =>
                    match mergedNames self other point feature names (matchingNames (tf self) (tf other)) (List.length all) k with
                    | Ok (pa, fa) => (mkTable pa fa all, Ok tt)
                    | Err e => (mkTable (tp self) (tf self) all, Err e)
                    end
                end
            end
        end
    end.

(** base.py:4560-4583 [merge] for the joins other than strict; [if onFeature:]
    is false for index 0 and for the empty name.  [leb] is the order of the
    elements used by sort. *)
Definition truthy (o : onArg) : bool := match o with OnName s => negb (String.eqb s "") | OnIndex z => negb (Z.eqb z 0) end.
Definition onIdent (o : onArg) : ident := match o with OnName s => IdStr s | OnIndex z => IdInt z end.
Definition merge (leb : pval -> pval -> bool) (same : bool) (self other : table pval) (point feature : how) (on : option onArg) : table pval * result unit :=
  match mergeFrontend same self other point feature on with
  | (t, Err e) => (t, Err e)
  | (t, Ok _) =>
      match point, on with
      | Union, Some o =>
          if truthy o then
            match getIndex (tf t) (onIdent o) false with
            | Err e => (t, Err e)
            | Ok z => match sortByKeys leb Pts t [Z.to_nat z] false with Ok t' => (t', Ok tt) | Err e => (t, Err e) end
            end
          else (t, Ok tt)
      | _, _ => (t, Ok tt)
      end
  end.
