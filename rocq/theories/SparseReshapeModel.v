(** Model of splitByParsing, splitByCollapsingFeatures and
    combineByExpandingFeatures on Sparse objects (C71).
    Sources: /repo/nimble/core/data/sparseAxis.py:391-447, 487-513 with the front
    ends features.py:2143-2199, points.py:1975-2008, 2126-2214 (the same code as
    for the other types, C49).  A missing entry reads as the integer 0. *)
From Verif Require Import Base NamesModel TableModel TableOps MatchModel MergeModel SparseModel ReshapeModel.
From Coq Require Import List. Import ListNotations.
Open Scope string_scope. Open Scope list_scope. Open Scope nat_scope.

Definition pzero : pval := PInt 0.
(** a Sparse object: the axes, the coo matrix, and the type of its data array
    (numbered as npKind in ReshapeModel.v: 2 float, 4 Python objects, ...) *)
Record sobj := mkSO { oPts : axis; oFts : axis; oMat : sparse pval; oKind : nat }.
(** what iterating over the object sees (sparse.py:799-824; _utility.py:286-311) *)
Definition seen (o : sobj) : table pval := mkTable (oPts o) (oFts o) (toDense pzero (oMat o)).

Section SparseReshape.
Variable strOf : pval -> string.

(** ** splitByParsing *)
(** sparseAxis.py:500-509: one pass of the loop.  [newFeat] becomes an array of
    one type, then np.concatenate finds a type for it and the data so far. *)
Definition splitColumn (i : nat) (parts : list (list pval)) (st : nat * list (entry pval)) (j : nat) : nat * list (entry pval) :=
  let newFeat := map (fun lst => nth j lst PNaN) parts in
  let own := list_max (map npKind newFeat) in
  let both := Nat.max (fst st) own in
  (both, map (fun e => mkE (er e) (ec e) (npCast strOf both (ev e))) (snd st) ++
         map (fun q : nat * pval => mkE (fst q) (i + j) (npCast strOf both (npCast strOf own (snd q)))) (combine (seq 0 (List.length newFeat)) newFeat)).
(** sparseAxis.py:487-515: the entries of the feature are dropped, later features
    move, the pieces are appended column by column *)
Definition sSplit (s : sparse pval) (kind i k : nat) (parts : list (list pval)) : sparse pval :=
  let kept := map (fun e => if i <? ec e then mkE (er e) (ec e + k - 1) (ev e) else e)
                  (filter (fun e => negb (ec e =? i)) (ents s)) in
  mkSp (snp s) (snf s - 1 + k) (snd (fold_left (splitColumn i parts) (seq 0 k) (kind, kept))) None None.
(** features.py:2143-2199 *)
Definition splitByParsingS (o : sobj) (feature : ident) (r : rule) (names : list (option string)) : sobj * result unit :=
  match r with
  | ROther => (o, Err InvalidArgumentType)
  | _ =>
    match getIndex (oFts o) feature false with
    | Err e => (o, Err e)
    | Ok z =>
      let i := Z.to_nat z in
      match splitLoop r (List.length names) (column (seen o) i) with
      | Err e => (o, Err e)
      | Ok parts =>
          let s' := sSplit (oMat o) (oKind o) i (List.length names) parts in
          let (a, res) := setList (oFts o) (alen (oFts o) - 1 + List.length names)
                                  (firstn i (getNames (oFts o)) ++ names ++ skipn (S i) (getNames (oFts o))) in
          (mkSO (oPts o) a s' 4, res)
      end
    end
  end.

(** ** splitByCollapsingFeatures *)
(** np.argsort: the positions in the order of the values there *)
Definition argsort (l : list nat) : list nat :=
  stableSort (fun a b => nth a l 0 <=? nth b l 0) (seq 0 (List.length l)).
(** sparseAxis.py:402-420: the entries made from the point [p].  The retained
    values are numbered from 0; the collapsed values stored, in the order of the
    features, are rearranged by argsort. *)
Definition collapsePoint (l : list (entry pval)) (idx retain : list nat) (names : list pval) (nf p : nat) : result (list (entry pval)) :=
  let here := filter (fun e => er e =? p) l in
  let retainData := map ev (filter (fun e => mem (ec e) retain) here) in
  let collapseData := map ev (filter (fun e => mem (ec e) idx) here) in
  sorted <- gather collapseData (argsort idx) ;;
  Ok (flat_map (fun x : nat * (pval * pval) =>
        let row := p * List.length idx + fst x in
        map (fun c : nat * pval => mkE row (fst c) (snd c)) (combine (seq 0 (List.length retainData)) retainData) ++
        [mkE row (nf - 2) (fst (snd x)); mkE row (nf - 1) (snd (snd x))])
      (combine (seq 0 (List.length sorted)) (combine names sorted))).
(** sparseAxis.py:391-424.  Without any entry the masks [inRetain] are empty lists,
    float arrays for numpy, which [&] refuses. *)
Definition sCollapse (s : sparse pval) (idx : list nat) (names : list pval) : sparse pval * result (sparse pval) :=
  let s1 := sortInternal s Pts false false in
  let retain := filter (fun i => negb (mem i idx)) (seq 0 (snf s)) in
  let nf := snf s - List.length idx + 2 in
  (s1, if (List.length (ents s1) =? 0) && negb (snp s =? 0) then Err TypeErr
       else rmap (fun l => mkSp (snp s * List.length idx) nf (List.concat l) None None)
                 (rmapM (collapsePoint (ents s1) idx retain names nf) (seq 0 (snp s)))).
(** points.py:1975-2008.  A repeated feature (simplified as in ReshapeModel.v): an
    exception before any change. *)
Definition collapseFeaturesS (o : sobj) (ids : list ident) (nameFt valueFt : option string) : sobj * result unit :=
  match constructIndices (oFts o) ids with
  | Err e => (o, Err e)
  | Ok idx =>
      let retain := filter (fun i => negb (mem i idx)) (seq 0 (alen (oFts o))) in
      let k := List.length idx in
      if negb (nodupb idx) then (o, Err ValueErr)
      else
        match sCollapse (oMat o) idx (map (nameOrIndex (oFts o)) idx) with
        | (s1, Err e) => (mkSO (oPts o) (oFts o) s1 (oKind o), Err e)
        | (_, Ok s') =>
            let np := alen (oPts o) * k in
            let nf := alen (oFts o) - k + 2 in
            let (a, res) := setList (oFts o) nf (map (fun i => nth i (getNames (oFts o)) None) retain ++ [nameFt; valueFt]) in
            match res with
            | Err e => (mkSO (mkAxis np (astate (oPts o))) a s' 4, Err e)
            | Ok _ =>
                if namesCreated (oPts o) then
                  let (b, res) := setList (oPts o) np (flat_map (fun n => map (fun i => Some (pointName n i)) (seq 0 k)) (getNames (oPts o))) in
                  (mkSO b a s' 4, res)
                else (mkSO (mkAxis np None) a s' 4, Ok tt)
            end
        end
  end.

(** ** combineByExpandingFeatures *)
(** sparseAxis.py:432-438: the values of one new point *)
Definition expandPoint (ni ne : nat) (names : list pval) (g : group) : list pval :=
  firstn ni (fst g) ++
  flat_map (fun n => match find (fun p => pyEq n (fst p)) (snd g) with Some p => snd p | None => repeat PNaN ne end) names ++
  skipn ni (fst g).
(** sparseAxis.py:426-447: all values are stored, zeros too.  (The rows, columns
    and values have the same number in every call from the front end.) *)
Definition sExpand (ni ne nf : nat) (names : list pval) (gs : list group) : sparse pval :=
  mkSp (List.length gs) nf
    (flat_map (fun x : nat * group =>
       map (fun c : nat * pval => mkE (fst x) (fst c) (snd c)) (combine (seq 0 nf) (expandPoint ni ne names (snd x))))
      (combine (seq 0 (List.length gs)) gs)) None None.
(** points.py:2126-2214, simplified as in ReshapeModel.v *)
Definition expandFeaturesS (o : sobj) (nameId : ident) (vids : list ident) (modify : bool) : sobj * result unit :=
  let fa := getIndex_state (oFts o) nameId in
  match getIndex (oFts o) nameId false, constructIndices (oFts o) vids with
  | Err e, _ | _, Err e => (o, Err e)
  | Ok z, Ok vi =>
      let ni := Z.to_nat z in
      let fa := fold_left getIndex_state vids fa in
      let ui := filter (fun i => negb (mem i (ni :: vi))) (seq 0 (alen (oFts o))) in
      if negb (nodupb (ni :: vi)) then (o, Err ValueErr)
      else
      match groupLoop ni ui vi (rows (seen o)) (if namesCreated (oPts o) then getNames (oPts o) else []) [] [] [] with
      | Err e => (o, Err e)
      | Ok (gs, names, kept) =>
          let ne := List.length vids in
          let nf := alen (oFts o) + List.length names * ne - (1 + ne) in
          match prefixesOf strOf modify names with
          | Err e => (o, Err e)
          | Ok ps =>
              let out pa a res := (mkSO pa a (sExpand ni ne nf names gs) 4, res) in
              let pa := mkAxis (List.length gs) (astate (oPts o)) in
              match newNames strOf fa vids ps with
              | Err e => out pa (mkAxis nf (astate fa)) (Err e)
              | Ok nn =>
                  let keptFts := map (fun i => nth i (getNames fa) None) ui in
                  let (a, res) :=
                    if namesCreated fa then setList fa nf (firstn ni keptFts ++ map Some nn ++ skipn ni keptFts)
                    else nameOneByOne (mkAxis nf (astate fa)) ni nn in
                  match res with
                  | Err e => out pa a (Err e)
                  | Ok _ => if namesCreated (oPts o) then let (b, res) := setList (oPts o) (List.length gs) kept in out b a res
                            else out pa a (Ok tt)
                  end
              end
          end
      end
  end.
End SparseReshape.
