(** Model of nimble.data(source, ..., returnType="Sparse") for a scipy sparse
    source (C77).
    Sources: /repo/nimble/_utility.py: 370-436 (removeDuplicatesNative);
    /repo/nimble/core/_createHelpers.py: 352-459 (extractNamesFromScipySparse),
    718-780 (extractNames), 894-971 (elementTypeConvert, scipy sparse), 1020-1026
    (_replaceMissingData, scipy sparse), 1448-1726 (initDataObject);
    data/axis.py:79-106.
    Every source is made a coo_matrix first (initDataObject, 1502-1505).
    Simplified: an array keeps each value as it is when some of them are replaced
    (numpy may change the type of the array); rowsArePoints is True, keepPoints
    and keepFeatures are 'all'. *)
From Verif Require Import Base NamesModel TableModel TableOps MatchModel CsvModel RawModel SparseModel ReshapeModel SparseReshapeModel.
From Verif Require CopyModel.
From Coq Require Import List QArith. Import ListNotations.
Open Scope string_scope. Open Scope list_scope. Open Scope nat_scope.

Section FromSparse.
Variable strOf : pval -> string.
(** float(s); None: not the text of a number *)
Variable floatOf : string -> option pval.
Variable T : Type.
Variable ET : EqDec T.
Variable conv : T -> pval -> result pval.

(** *** _utility.py:370-436: entries for one position *)
(** [v == 0] *)
Definition zeroV (v : pval) : bool := pyEq v (PInt 0).
(** [float(v)] *)
Definition pyFloat (v : pval) : result pval :=
  match v with
  | PNone => Err TypeErr
  | PStr s => match floatOf s with Some w => Ok w | None => Err ValueErr end
  | _ => Ok (CopyModel.toFloat v)
  end.
(** the sum of two numbers, the second a float *)
Definition addFloats (a b : pval) : pval :=
  match CopyModel.toFloat a, b with
  | PFloat p, PFloat q => PFloat (p + q)%Q
  | PFloat _, PPosInf => PPosInf | PFloat _, PNegInf => PNegInf
  | PPosInf, PFloat _ => PPosInf | PPosInf, PPosInf => PPosInf
  | PNegInf, PFloat _ => PNegInf | PNegInf, PNegInf => PNegInf
  | _, _ => PNaN
  end.
(** 407-411: [seen[(i, j)] += float(v)] *)
Definition addTo (a v : pval) : result pval :=
  w <- pyFloat v ;;
  match a with PStr _ | PNone => Err TypeErr | _ => Ok (addFloats a w) end.
(** 402-411: [seen], in insertion order, and whether a position came twice *)
Fixpoint addSeen (e : entry pval) (seen : list (entry pval)) : result (list (entry pval) * bool) :=
  match seen with
  | [] => Ok ([e], false)
  | x :: t =>
      if (er x =? er e) && (ec x =? ec e) then w <- addTo (ev x) (ev e) ;; Ok (mkE (er x) (ec x) w :: t, true)
      else q <- addSeen e t ;; Ok (x :: fst q, snd q)
  end.
Fixpoint addAll (l : list (entry pval)) (seen : list (entry pval)) (dup : bool) : result (list (entry pval) * bool) :=
  match l with
  | [] => Ok (seen, dup)
  | e :: t => q <- addSeen e seen ;; addAll t (fst q) (dup || snd q)
  end.
(** 430-434: [np.array(data)]: one type for all numbers; values stay as they are
    with text (or None) among them *)
Definition arrayCast (l : list (entry pval)) : list (entry pval) :=
  let k := list_max (map (fun e => npKind (ev e)) l) in
  map (fun e => mkE (er e) (ec e) (npCast strOf (if k =? 3 then 4 else k) (ev e))) l.
Definition removeDup (l : list (entry pval)) : result (list (entry pval)) :=
  q <- addAll l [] false ;;
  if negb (snd q) && negb (existsb (fun e => zeroV (ev e)) l) then Ok l
  else Ok (arrayCast (filter (fun e => negb (zeroV (ev e))) (fst q))).

(** *** _createHelpers.py:352-459: names embedded in the data *)
(** 379-386: [firstRow], [secondRow] *)
Definition rowValues (s : sparse pval) (i : nat) : list pval :=
  fold_left (fun acc e => if er e =? i then upd acc (ec e) (ev e) else acc) (ents s) (repeat pzero (snf s)).
(** [{v: k for k, v in items}] *)
Definition swapDict (d : list (nat * string)) (shift : Z) : list (string * Z) :=
  fold_left (fun acc (p : nat * string) => dset (snd p) (Z.of_nat (fst p) - shift)%Z acc) d [].
(** 401-427: [retPNames] *)
Definition pointDict (s : sparse pval) (both : bool) : result (list (string * Z)) :=
  let idx := fold_left (fun acc e => dset (er e) (strOf (ev e)) acc) (filter (fun e => ec e =? 0) (ents s)) [] in
  if negb both then
    if List.length idx <? snp s then
      match filter (fun i => negb (mem i (map fst idx))) (seq 0 (snp s)) with
      | i :: [] => Ok (dset "0" (Z.of_nat i) (swapDict idx 0))
      | [] => Err KeyErr
      | _ => Err InvalidArgumentValue
      end
    else Ok (swapDict idx 0)
  else Ok (swapDict (ddel 0 idx) 1).
(** 434-448: [retFNames], for [l] the entries left and [k] the number of columns *)
Definition featureDict (l : list (entry pval)) (k : Z) : result (list (string * Z)) :=
  let d := fold_left (fun acc e => dset (strOf (ev e)) (Z.of_nat (ec e)) acc) (filter (fun e => er e =? 0) l) [] in
  if (Z.of_nat (List.length d) <? k)%Z then
    match filter (fun j => negb (mem (Z.of_nat j) (map snd d))) (seq 0 (Z.to_nat k)) with
    | j :: [] => Ok (dset "0" (Z.of_nat j) d)
    | [] => Err KeyErr
    | _ => Err InvalidArgumentValue
    end
  else Ok d.
Definition extractSparse (pn fn : nmArg) (s : sparse pval)
  : result (sparse pval * option (list (string * Z)) * option (list (string * Z))) :=
  let '(p, f) := if isAuto fn || isAuto pn
                 then autoDetect pn fn (Some (map kindOfValue (rowValues s 0))) (Some (map kindOfValue (rowValues s 1)))
                 else (pn, fn) in
  if negb (isTrue p) && negb (isTrue f) then Ok (s, None, None)
  else
    pd <- (if isTrue p then rmap Some (pointDict s (isTrue f)) else Ok None) ;;
    let l1 := if isTrue p then map (fun e => mkE (er e) (ec e - 1) (ev e)) (filter (fun e => negb (ec e =? 0)) (ents s)) else ents s in
    let k := (Z.of_nat (snf s) - (if isTrue p then 1 else 0))%Z in
    fd <- (if isTrue f then rmap Some (featureDict l1 k) else Ok None) ;;
    let l2 := if isTrue f then map (fun e => mkE (er e - 1) (ec e) (ev e)) (filter (fun e => negb (er e =? 0)) l1) else l1 in
    let n := (Z.of_nat (snp s) - (if isTrue f then 1 else 0))%Z in
    if (n <? 0)%Z || (k <? 0)%Z then Err ValueErr
    else Ok (mkSp (Z.to_nat n) (Z.to_nat k) l2 None None, pd, fd).
(** 741-778 *)
Definition settleDict (a : nmArg) (found : option (list (string * Z))) : given :=
  match a with
  | NmNone | NmBool false => GNone
  | NmBool true | NmAuto => match found with Some d => GDict d | None => GNone end
  | NmList l => GList l
  | NmDict d => GDict d
  end.

(** 1020-1026: only what is stored is looked at *)
Definition replaceStored (treat : option (list pval)) (repl : pval) (l : list (entry pval)) : list (entry pval) :=
  map (fun e => mkE (er e) (ec e) (replaced treat repl (ev e))) l.
(** 1448-1726 without conversions *)
Definition dataSparse (pn fn : nmArg) (treat : option (list pval)) (repl : pval) (s : sparse pval) : result sobj :=
  q <- extractSparse pn fn s ;;
  let '(s1, p, f) := q in
  pa <- newAxis (snp s1) (settleDict pn p) ;;
  fa <- newAxis (snf s1) (settleDict fn f) ;;
  Ok (mkSO pa fa (mkSp (snp s1) (snf s1) (replaceStored treat repl (ents s1)) None None) 4).
(** 894-971, 1676-1721: the stored values are converted, column by column *)
Definition convertStored (cs : list (option T)) (l : list (entry pval)) : result (list (entry pval)) :=
  rmapM (fun e => rmap (mkE (er e) (ec e)) (convertOne T conv (nth (ec e) cs None) (ev e))) l.
Definition convertSparse (c : convArg T) (f : given) (o : sobj) : result sobj :=
  let go cs := rmap (fun l => mkSO (oPts o) (oFts o) (mkSp (snp (oMat o)) (snf (oMat o)) l None None) 4) (convertStored cs (ents (oMat o))) in
  match c with
  | CNone => Ok o
  | COne x => go (repeat (Some x) (snf (oMat o)))
  | CList l => if negb (List.length l =? alen (oFts o)) then Err InvalidArgumentValue else go l
  | CDict d => q <- typesFor T ET f (oFts o) d ;; go (fst q)
  end.
(** the whole creation; [n] rows, [k] columns and the entries of the coo_matrix *)
Definition fromCoo (n k : nat) (l : list (entry pval)) (pn fn : nmArg) (treat : option (list pval)) (repl : pval) : result sobj :=
  l' <- removeDup l ;; dataSparse pn fn treat repl (mkSp n k l' None None).
End FromSparse.
