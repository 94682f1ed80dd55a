(** Model of merge for Sparse objects (C75).
    Sources: /repo/nimble/core/data/sparse.py:612-780
    (Sparse._merge_implementation); the frontend base.py:4670-4785 is that of
    MergeModel.v, reading the elements as [seen] (SparseReshapeModel.v).  Not
    modelled: that the entries of other are sorted as well. *)
From Verif Require Import Base NamesModel TableModel TableOps MatchModel MergeModel SparseModel SparseReshapeModel ReshapeModel CopyModel.
From Coq Require Import List. Import ListNotations.
Open Scope nat_scope.

(** sparse.py:614-677: the entries, the number of features, the matching features
    and the feature compared, of both sides *)
Record sprep := mkSPrep { sL : list (entry pval); sR : list (entry pval); nL : nat; nR : nat; spL : list nat; spR : list nat; sOnL : nat; sOnR : nat }.
(** sparse.py:621-629 *)
Definition sparseOn (self other : sobj) (l r : list (entry pval)) (on : string) (mL mR : list nat) : result sprep :=
  i <- getIndexByName (oFts self) on ;; j <- getIndexByName (oFts other) on ;;
  Ok (mkSPrep l r (alen (oFts self)) (alen (oFts other)) mL mR i j).
(** np.append([names], data): if there is a text among the names, numpy writes
    the integers as text *)
Definition sparseKeys (a : axis) (add : nat) : list pval :=
  let ns := getNames a in
  let text := existsb (fun o => match o with Some _ => true | None => false end) ns in
  mapi (fun i o => match o with
                   | Some s => PStr s
                   | None => if text then PStr (decStr (i + add)) else PInt (Z.of_nat (i + add))
                   end) ns.
(** sparse.py:631-672: the keys become feature 0 *)
Definition keyed (keys : list pval) (es : list (entry pval)) : list (entry pval) :=
  mapi (fun i k => mkE i 0 k) keys ++ map (fun e => mkE (er e) (S (ec e)) (ev e)) es.
Definition sparseNames (self other : sobj) (l r : list (entry pval)) (mL mR : list nat) : sprep :=
  mkSPrep (keyed (sparseKeys (oPts self) 0) l) (keyed (sparseKeys (oPts other) (alen (oPts self))) r)
          (S (alen (oFts self))) (S (alen (oFts other))) (0 :: map S mL) (0 :: map S mR) 0 0.

(** leftData[leftCol == onIdxL] *)
Definition keysOf (on : nat) (es : list (entry pval)) : list pval := map ev (filter (fun e => ec e =? on) es).
(** sparse.py:690-695: zeros, then the entries of the row.  Simplification: no
    position is stored twice. *)
Definition rowAt (n : nat) (es : list (entry pval)) (i : nat) : list pval :=
  map (fun j => match find (fun e => (er e =? i) && (ec e =? j)) es with Some e => ev e | None => pzero end) (seq 0 n).

Section Loop.
Variables (p : sprep) (point feature : how) (names : bool).
(** sparse.py:713-722, 734-741, 759-766; the first [tempFtsL] elements are self's *)
Definition trim (pt : list pval) : list pval :=
  let kept := match feature with Intersection => pick (spL p) pt | LeftOnly => firstn (nL p) pt | Union => pt end in
  if names then skipn 1 kept else kept.
(** sparse.py:689-728: the points of right at [ks] that have the same key.  As in
    matrix.py the fill goes to a new array. *)
Fixpoint sparseMatches (ptL : list pval) (ks : list nat) : result (list (list pval)) :=
  match ks with
  | [] => Ok []
  | k :: t =>
      let ptR := rowAt (nR p) (sR p) k in
      if acceptable (spL p) (spR p) ptL ptR then rmap (cons (trim (ptL ++ unmatched (spR p) ptR))) (sparseMatches ptL t)
      else Err InvalidArgumentValue
  end.
(** sparse.py:686-745: [i] counts the entries of the key *)
Fixpoint sparseLoop (i : nat) (keys : list pval) : result (list (list pval) * list pval) :=
  match keys with
  | [] => Ok ([], [])
  | target :: t =>
      let keysR := keysOf (sOnR p) (sR p) in
      let ptL := rowAt (nL p) (sL p) i in
      match filter (fun k => pyEq (nth k keysR PNaN) target) (seq 0 (List.length keysR)) with
      | [] =>
          rest <- sparseLoop (S i) t ;;
          Ok (match point with Intersection => [] | _ => [trim (ptL ++ repeat PNaN (nR p - List.length (spR p)))] end ++ fst rest, snd rest)
      | ks =>
          here <- sparseMatches ptL ks ;;
          rest <- sparseLoop (S i) t ;;
          Ok (here ++ fst rest, map (fun _ => target) ks ++ snd rest)
      end
  end.
(** sparse.py:750-770: a point of right without a match; of its other features
    only what is stored *)
Definition sparseRight (k : nat) : list pval :=
  let ptR := rowAt (nR p) (sR p) k in
  let ptL := fold_left (fun acc q => upd acc (fst q) (at_ ptR (snd q))) (combine (spL p) (spR p)) (repeat PNaN (nL p)) in
  trim (ptL ++ map ev (filter (fun e => (er e =? k) && negb (mem (ec e) (spR p))) (sR p))).
(** sparse.py:747-773 *)
Definition sparseRest (matched : list pval) : list (list pval) :=
  match point with
  | Union => let keysR := keysOf (sOnR p) (sR p) in
             map sparseRight (filter (fun k => negb (inList (nth k keysR PNaN) matched)) (seq 0 (List.length keysR)))
  | _ => []
  end.
End Loop.

Section Merge.
(** float(s) (None: not the text of a number) *)
Variable floatOf : string -> option pval.
(** sparse.py:775-797: the new matrix.  An empty list has no astype. *)
Definition sparseBuild (nf : nat) (pts : list (list pval)) : result (sparse pval) :=
  match List.concat pts with
  | [] => Err AttributeErr
  | _ =>
      fl <- rmapM (rmapM (asFloat floatOf)) pts ;;
      let es := List.concat (mapi (fun i pt => mapi (fun c v => mkE i c v) pt) fl) in
      if existsb (fun e => nf <=? ec e) es then Err ValueErr
      else Ok (mkSp (List.length pts) nf (filter (fun e => negb (pyEq (ev e) pzero)) es) None None)
  end.
(** sparse.py:680-797: the new matrix *)
Definition sparseRows (self other : sobj) (point feature : how) (names : bool) (p : sprep) (mL : list nat) : result (sparse pval) :=
  r <- sparseLoop p point feature names 0 (keysOf (sOnL p) (sL p)) ;;
  let pts := fst r ++ sparseRest p point feature names (snd r) in
  let nf := match feature with
            | Intersection => List.length mL
            | LeftOnly => alen (oFts self)
            | Union => alen (oFts self) + (alen (oFts other) - List.length mL)
            end in
  sparseBuild nf pts.
(** base.py:4670-4785 [_genericMergeFrontend] with the Sparse implementation *)
Definition sparseMerge (self other : sobj) (point feature : how) (on : option onArg) : sobj * result unit :=
  let fail e := (self, Err e) in
  if match on with None => negb (namesCreated (oPts self) && namesCreated (oPts other)) | _ => false end then fail InvalidArgumentValueCombination
  else if negb (namesCreated (oFts self) && namesCreated (oFts other)) then fail InvalidArgumentValueCombination
  else
    match (match on with None => Ok None | Some o => rmap Some (keyName (seen self) (seen other) o) end) with
    | Err e => fail e
    | Ok key =>
        match matchingIdx (oFts self) (oFts other) with
        | Err e => fail e
        | Ok (mL, mR) =>
            let s1 := sortInternal (oMat self) Fts false false in
            let s2 := sortInternal (oMat other) Fts false false in
            let self1 := mkSO (oPts self) (oFts self) s1 (oKind self) in
            let names := match key with None => true | _ => false end in
            match (match key with Some k => sparseOn self other (ents s1) (ents s2) k mL mR | None => Ok (sparseNames self other (ents s1) (ents s2) mL mR) end) with
            | Err e => (self1, Err e)
            | Ok p =>
                match sparseRows self other point feature names p mL with
                | Err e => (self1, Err e)
                | Ok s' =>
                    match mergedNames (seen self) (seen other) point feature names (matchingNames (oFts self) (oFts other)) (snp s') (snf s') with
                    | Ok (pa, fa) => (mkSO pa fa s' 2, Ok tt)
                    | Err e => (mkSO (oPts self) (oFts self) s' 2, Err e)
                    end
                end
            end
        end
    end.
End Merge.
