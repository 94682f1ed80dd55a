(** Model of merge for Matrix objects (C74).
    Sources: /repo/nimble/core/data/matrix.py:247-373
    (Matrix._merge_implementation); the frontend base.py:4670-4785 and the dict
    of matches are those of MergeModel.v.  The array is rewritten as an array of
    objects first, so elements keep their value; arrays know the number of their
    columns, so the widths come from the axes (List objects read rows[0]). *)
From Verif Require Import Base NamesModel TableModel MatchModel MergeModel.
Open Scope nat_scope.

(** the rows compared, and the number of columns of left and right *)
Record matPrep := mkMat { mp : prepared; mwl : nat; mwr : nat }.
(** matrix.py:251-269, onFeature given *)
Definition matOn (self other : table pval) (feature : how) (on : string) (mL mR : list nat) : result matPrep :=
  match feature with
  | Union =>
      l <- getIndexByName (tf self) on ;; r <- getIndexByName (tf other) on ;;
      Ok (mkMat (mkPrep (rows self) (rows other) mL mR l r) (alen (tf self)) (alen (tf other)))
  | _ =>
      k <- getIndexByName (tf self) on ;;
      match indexOf k mL with
      | None => Err ValueErr
      | Some loc =>
          let right := map (pick mR) (rows other) in
          let wr := List.length mR in
          match feature with
          | Intersection =>
              let left := map (pick mL) (rows self) in
              let wl := List.length mL in
              Ok (mkMat (mkPrep left right (seq 0 wl) (seq 0 wr) loc loc) wl wr)
          | _ => Ok (mkMat (mkPrep (rows self) right mL (seq 0 wr) loc loc) (alen (tf self)) wr)
          end
      end
  end.
(** matrix.py:270-319: by point names, which become the first column *)
Definition matNames (self other : table pval) (feature : how) (mL mR : list nat) : matPrep :=
  let n := alen (tp self) in
  let ptsL i (row : list pval) := ptKey (tp self) 0 i :: row in
  let ptsR i (row : list pval) := ptKey (tp other) n i :: row in
  match feature with
  | Intersection =>
      let left := mapi (fun i pt => ptsL i (pick mL pt)) (rows self) in
      let right := mapi (fun i pt => ptsR i (pick mR pt)) (rows other) in
      let wl := S (List.length mL) in
      mkMat (mkPrep left right (seq 0 wl) (seq 0 wl) 0 0) wl (S (List.length mR))
  | LeftOnly =>
      let left := mapi ptsL (rows self) in
      let right := mapi (fun i pt => ptsR i (pick mR pt)) (rows other) in
      let wr := S (List.length mR) in
      mkMat (mkPrep left right (0 :: map S mL) (seq 0 wr) 0 0) (S (alen (tf self))) wr
  | Union =>
      let left := mapi ptsL (rows self) in
      let right := mapi ptsR (rows other) in
      mkMat (mkPrep left right (0 :: map S mL) (0 :: map S mR) 0 0) (S (alen (tf self))) (S (alen (tf other)))
  end.

Section Loop.
Variables (pL pR : list nat) (onL : nat).
(** matrix.py:334-355: the matches of one left point.  [fill] is assigned to
    [ptL[matchingFtIdx[0]]], which is a new array: the left point stays. *)
Fixpoint matMatches (ptL : list pval) (ms : list (list pval)) : result (list (list pval)) :=
  match ms with
  | [] => Ok []
  | ptR :: t =>
      if acceptable pL pR ptL ptR then rmap (cons (ptL ++ unmatched pR ptR)) (matMatches ptL t)
      else Err InvalidArgumentValue
  end.
(** matrix.py:330-361: the merged points and [matched] *)
Fixpoint matLoop (point : how) (unmatchedR : nat) (mapper : list (pval * list (list pval))) (left : list (list pval))
  : result (list (list pval) * list pval) :=
  match left with
  | [] => Ok ([], [])
  | ptL :: t =>
      match mapperGet (at_ ptL onL) mapper with
      | Some ms =>
          here <- matMatches ptL ms ;;
          rest <- matLoop point unmatchedR mapper t ;;
          Ok (here ++ fst rest, at_ ptL onL :: snd rest)
      | None =>
          rest <- matLoop point unmatchedR mapper t ;;
          Ok (match point with Intersection => [] | _ => [ptL ++ repeat PNaN unmatchedR] end ++ fst rest, snd rest)
      end
  end.
End Loop.
(** matrix.py:320-390: the rows of self afterwards (also when it raises) and the
    number of features *)
Definition matRows (point : how) (names : bool) (q : matPrep) : list (list pval) * result nat :=
  let p := mp q in
  let un := mwr q - List.length (pR p) in
  let mapper := buildMapper (onL p) (onR p) (pRight p) (pLeft p) in
  match matLoop (pL p) (pR p) (onL p) point un mapper (pLeft p) with
  | Err e => (pLeft p, Err e)
  | Ok (merged, matched) =>
      let all := merged ++ rightLoop (pL p) (pR p) (onR p) (pRight p) point (mwl q) matched in
      if names then (map (skipn 1) all, Ok (mwl q + un - 1)) else (all, Ok (mwl q + un))
  end.
(** base.py:4670-4785 [_genericMergeFrontend] with the Matrix implementation *)
Definition matMerge (self other : table pval) (point feature : how) (on : option onArg) : table pval * result unit :=
  let fail e := (self, Err e) in
  if match on with None => negb (namesCreated (tp self) && namesCreated (tp other)) | _ => false end then fail InvalidArgumentValueCombination
  else if negb (namesCreated (tf self) && namesCreated (tf other)) then fail InvalidArgumentValueCombination
  else
    match (match on with None => Ok None | Some o => rmap Some (keyName self other o) end) with
    | Err e => fail e
    | Ok key =>
        match matchingIdx (tf self) (tf other) with
        | Err e => fail e
        | Ok (mL, mR) =>
            match (match key with Some k => matOn self other feature k mL mR | None => Ok (matNames self other feature mL mR) end) with
            | Err e => fail e
            | Ok p =>
                let names := match key with None => true | _ => false end in
                match matRows point names p with
                | (l', Err e) => (mkTable (tp self) (tf self) l', Err e)
                | (all, Ok k) =>
                    match mergedNames self other point feature names (matchingNames (tf self) (tf other)) (List.length all) k with
                    | Ok (pa, fa) => (mkTable pa fa all, Ok tt)
                    | Err e => (mkTable (tp self) (tf self) all, Err e)
                    end
                end
            end
        end
    end.
(** base.py:4560-4583 [merge], joins other than strict *)
Definition matMergeSorted (leb : pval -> pval -> bool) (self other : table pval) (point feature : how) (on : option onArg) : table pval * result unit :=
  match matMerge self other point feature on with
  | (t, Err e) => (t, Err e)
  | (t, Ok _) =>
      match point, on with
      | Union, Some o =>
          if truthy o then
            match getIndex (tf t) (onIdent o) false with
            | Err e => (t, Err e)
            | Ok z => match sortByKeys leb Pts t [Z.to_nat z] false with Ok t' => (t', Ok tt) | Err e => (t, Err e) end
            end
          else (t, Ok tt)
      | _, _ => (t, Ok tt)
      end
  end.
