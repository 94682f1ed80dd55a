(** Model of nimble.data(source, ..., returnType="List") for in-memory Python
    data: lists, lists of lists, dicts and lists of dicts (C61).
    Source: /repo/nimble/core/_createHelpers.py: 173-215
    (autoDetectNamesFromRaw), 218-281 (extractNamesFromRawList), 499-574
    (dicts), 643-670 (_dictNames), 673-780 (extractNames), 783-827
    (convertData), 894-971 (elementTypeConvert, lists), 974-1046
    (_replaceMissingData, lists), 1306-1372 (getKeepIndexValues,
    convertToTypeDictToList), 1374-1446 (analyzeValues), 1448-1726
    (initDataObject), 2556-2618; data/list.py:66-123 (List.__init__);
    data/axis.py:79-106.
    copyData=True (the default) copies the source first, so nothing here
    changes it; numpy, scipy and pandas sources, more than two dimensions and
    the other return types are not modelled. *)
From Verif Require Import Base NamesModel TableModel TableOps MatchModel CsvModel.
From Coq Require Import QArith.
Open Scope nat_scope.

(** the source; dicts are lists of items in insertion order, keys are strings *)
Inductive raw :=
| RFlat (l : list pval)                        (* [1, 2, 3] *)
| RRows (m : list (list pval))                 (* [[1, 2], [3, 4]] *)
| RDictRows (d : list (string * list pval))    (* {'a': [1, 2]} *)
| RDictVals (d : list (string * pval))         (* {'a': 1} *)
| RDicts (l : list (list (string * pval))).    (* [{'a': 1, 'b': 2}] *)
(** the data once names are out: a list of values, a list of lists, an empty
    numpy array *)
Inductive shaped := SFlat (l : list pval) | SRows (m : list (list pval)) | SEmpty.
(** names settled: none, a list, a dict *)
Inductive given := GNone | GList (l : list (option string)) | GDict (d : list (string * Z)).
Definition givenLen (g : given) : nat := match g with GNone => 0 | GList l => List.length l | GDict d => List.length d end.
(** 163-171 [isNum], isinstance(x, str) *)
Definition kindOfValue (v : pval) : pv := match v with PStr s => PvText s | PNone => PvNone | _ => PvNum end.

(** the conversions of convertToType: nothing, one type, a type or None for each
    feature, a dict by feature name or index *)
Inductive convArg {T : Type} := CNone | COne (c : T) | CList (l : list (option T)) | CDict (d : list (kid * T)).
Arguments convArg : clear implicits.

Section Raw.
(** [str(v)] *)
Variable strOf : pval -> string.
(** the types of convertToType and the call [type(value)]; [object] changes
    nothing *)
Variable T : Type.
Variable ET : EqDec T.
Variable conv : T -> pval -> result pval.
(** the uninitialised elements of [np.empty] *)
Variable junk : nat -> nat -> pval.

(** *** names embedded in lists *)
(** [ft.pop(0)] *)
Definition popFirst (r : list pval) : result (pval * list pval) := match r with [] => Err IndexErr | x :: t => Ok (x, t) end.
(** 246-276, on a list of lists *)
Definition extractRows (pn fn : nmArg) (m : list (list pval)) : result (list (list pval) * option (list string) * option (list string)) :=
  let row k := option_map (map kindOfValue) (nth_error m k) in
  let '(p, f) := autoDetect pn fn (row 0) (row 1) in
  pm <- (if isTrue p then
           q <- rmapM popFirst m ;;
           let firsts := map (fun x : pval * list pval => strOf (fst x)) q in
           Ok (Some (if isTrue f then tl firsts else firsts), map snd q)
         else Ok (None, m)) ;;
  let '(pns, m1) := pm in
  fm <- (if isTrue f then match m1 with [] => Err IndexErr | r :: t => Ok (Some (map strOf r), t) end else Ok (None, m1)) ;;
  let '(fns, m2) := fm in Ok (m2, pns, fns).
(** 218-281: a flat list is one row; [rawData = rawData[0]] at the end *)
Definition extractFlat (pn fn : nmArg) (l : list pval) : result (list pval * option (list string) * option (list string)) :=
  q <- extractRows pn fn [l] ;;
  let '(m, pns, fns) := q in
  match m with [] => Err IndexErr | r :: _ => Ok (r, pns, fns) end.
(** 741-778 *)
Definition settle (a : nmArg) (found : option (list string)) : given :=
  match a with
  | NmNone | NmBool false => GNone
  | NmBool true | NmAuto => match found with Some l => GList (map Some l) | None => GNone end
  | NmList l => GList l
  | NmDict d => GDict d
  end.
Definition settleAll (pn fn : nmArg) (s : shaped) : result (shaped * given * given) :=
  match s with
  | SRows (r :: m) => q <- extractRows pn fn (r :: m) ;; let '(m', p, f) := q in Ok (SRows m', settle pn p, settle fn f)
  | SRows [] => q <- extractFlat pn fn [] ;; let '(l', p, f) := q in Ok (SFlat l', settle pn p, settle fn f)
  | SFlat l => q <- extractFlat pn fn l ;; let '(l', p, f) := q in Ok (SFlat l', settle pn p, settle fn f)
  | SEmpty => Ok (SEmpty, settle pn None, settle fn None)
  end.

(** *** dicts *)
Definition countIn {A} {E : EqDec A} (x : A) (l : list A) : nat := List.length (filter (fun y => if eq_dec x y then true else false) l).
(** [sorted(a) == sorted(b)] *)
Definition sameItems {A} {E : EqDec A} (a b : list A) : bool := forallb (fun x => countIn x a =? countIn x b) (a ++ b).
(** [sorted(names, key=names.get)] *)
Fixpoint insertByIndex (p : string * Z) (l : list (string * Z)) : list (string * Z) :=
  match l with [] => [p] | q :: t => if (snd p <? snd q)%Z then p :: q :: t else q :: insertByIndex p t end.
Definition byIndex (d : list (string * Z)) : list string := map fst (fold_left (fun acc p => insertByIndex p acc) d []).
(** 643-670 [_dictNames]: the names and the data in their order; comparing None
    with a string raises *)
Definition dictNames {A} (names : nmArg) (found : list string) (data : list A) : result (given * list A) :=
  let go (l : list (option string)) :=
    if eq_dec l (map Some found) then Ok (GList l, data)
    else if (2 <=? List.length l) && mem None l then Err TypeErr
    else if negb (sameItems l (map Some found)) then Err InvalidArgumentValue
    else
      idx <- rmapM (fun s => match indexIn s (map Some found) with Some i => Ok i | None => Err ValueErr end) l ;;
      ds <- gather data idx ;; Ok (GList l, ds) in
  match names with
  | NmList l => go l
  | NmDict d => go (map Some (byIndex d))
  | NmBool false | NmNone => Ok (GNone, data)
  | NmBool true | NmAuto => Ok (GList (map Some found), data)
  end.
Definition asArg (g : given) : nmArg := match g with GNone => NmNone | GList l => NmList l | GDict d => NmDict d end.
(** 499-536 [_extractNamesFromDict] *)
Definition extractDictRows (pn fn : nmArg) (d : list (string * list pval)) : result (shaped * given * given) :=
  match d with
  | [] => if isTrue pn then Err InvalidArgumentValue else Ok (SEmpty, GNone, GNone)
  | _ =>
      q <- dictNames pn (map fst d) (map snd d) ;;
      let '(p, m) := q in
      if isTrue fn then Err InvalidArgumentValue else settleAll (asArg p) fn (SRows m)
  end.
Definition extractDictVals (pn fn : nmArg) (d : list (string * pval)) : result (shaped * given * given) :=
  match d with
  | [] => if isTrue pn then Err InvalidArgumentValue else Ok (SEmpty, GNone, GNone)
  | _ =>
      q <- dictNames pn (map fst d) (map snd d) ;;
      let '(p, l) := q in Ok (SRows (map (fun v => [v]) l), p, GNone)
  end.
(** 538-574 [_extractNamesFromListOfDict]; keys compare as sets *)
Definition sameKeys (a b : list string) : bool := forallb (fun s => mem s b) a && forallb (fun s => mem s a) b.
Definition extractDicts (pn fn : nmArg) (first : list (string * pval)) (rest : list (list (string * pval))) : result (shaped * given * given) :=
  if isTrue pn then Err InvalidArgumentValue
  else
    let keys := map fst first in
    let noKeys := match keys with [] => true | _ => false end in
    if noKeys && isTrue fn then Err InvalidArgumentValue
    else
      let fn1 := if noKeys && isAuto fn then NmNone else fn in
      q <- dictNames fn1 keys (map snd first) ;;
      let '(f, firstPt) := q in
      let ftNames := match f with GList l => l | _ => map Some keys end in
      others <- rmapM (fun row : list (string * pval) =>
                  if negb (sameKeys (map fst row) keys) then Err InvalidArgumentValue
                  else rmapM (fun n : option string => match n with
                                | Some s => match dget s row with Some v => Ok v | None => Err KeyErr end
                                | None => Err KeyErr end) ftNames) rest ;;
      Ok (SRows (firstPt :: others), (match pn with NmList l => GList l | NmDict d => GDict d | _ => GNone end), f).
(** 673-780 [extractNames] *)
Definition extractNames (pn fn : nmArg) (r : raw) : result (shaped * given * given) :=
  match r with
  | RFlat l => settleAll pn fn (SFlat l)
  | RRows m => settleAll pn fn (SRows m)
  | RDictRows d => extractDictRows pn fn d
  | RDictVals d => extractDictVals pn fn d
  | RDicts [] => settleAll pn fn (SFlat [])
  | RDicts (first :: rest) => extractDicts pn fn first rest
  end.

(** *** missing values (974-1046) *)
Definition isNaN (v : pval) : bool := pyNe v v.
Definition missingIn (treat : list pval) (v : pval) : bool := existsb (pyEq v) treat || (existsb isNaN treat && isNaN v).
Definition replaced (treat : option (list pval)) (repl v : pval) : pval :=
  match treat with Some l => if missingIn l v then repl else v | None => v end.
Definition rectangular {A} (m : list (list A)) : bool :=
  match m with [] => true | r :: t => forallb (fun x => List.length x =? List.length r) t end.
(** rows of different lengths make a numpy array of lists, in which nothing is
    replaced *)
Definition replaceMissing (treat : option (list pval)) (repl : pval) (s : shaped) : shaped :=
  match s with
  | SFlat l => SFlat (map (replaced treat repl) l)
  | SRows m => if rectangular m then SRows (map (map (replaced treat repl)) m) else SRows m
  | SEmpty => SEmpty
  end.
(** 1374-1446 [analyzeValues]: the rows must have one length *)
Definition analyze (s : shaped) : result unit :=
  match s with SRows m => if rectangular m then Ok tt else Err InvalidArgumentValue | _ => Ok tt end.

(** *** the object (783-827; list.py:66-123) *)
Definition junkRows (n k : nat) : list (list pval) := map (fun i => map (junk i) (seq 0 k)) (seq 0 n).
(** number of points, of features, the rows *)
Definition layout (p f : given) (s : shaped) : nat * nat * list (list pval) :=
  match s with
  | SFlat [] | SRows [] => (givenLen p, givenLen f, junkRows (givenLen p) (givenLen f))
  | SFlat l => (1, List.length l, [l])
  | SRows ([] :: m) => (S (List.length m), givenLen f, junkRows (S (List.length m)) (givenLen f))
  | SRows (r :: m) => (S (List.length m), List.length r, r :: m)
  | SEmpty => (0, 0, [])
  end.
(** axis.py:79-106 *)
Definition namesOf (g : given) : assignments :=
  match g with GNone => ANone | GList l => AList (map to_newname l) | GDict d => ADict (map (fun p : string * Z => (NStr (fst p), DInt (snd p))) d) end.
Definition giveNames (a : axis) (g : given) : result axis :=
  match setNames a (namesOf g) ONone with (a', Ok _) => Ok a' | (_, Err e) => Err e end.
Definition newAxis (n : nat) (g : given) : result axis :=
  match g with
  | GNone => Ok (mkAxis n None)
  | _ => if negb (givenLen g =? n) then Err InvalidArgumentValue else giveNames (mkAxis n None) g
  end.

(** *** keepPoints and keepFeatures (1306-1327, 1640-1694) *)
Definition asIdent (k : kid) : ident := match k with KStr s => IdStr s | KInt z => IdInt z end.
Fixpoint keepIndexes (a : axis) (keep : list kid) (cleaned : list nat) : result (list nat) :=
  match keep with
  | [] => Ok cleaned
  | k :: t =>
      z <- getIndex a (asIdent k) false ;;
      let i := Z.to_nat z in
      if mem i cleaned then Err InvalidArgumentValue else keepIndexes a t (cleaned ++ [i])
  end.
Definition withAxis (sd : side) (t : table pval) (a : axis) : table pval :=
  match sd with Pts => mkTable a (tf t) (rows t) | Fts => mkTable (tp t) a (rows t) end.
(** sorting with [makeCmp] asks every point (feature) for its name *)
Definition reorder (sd : side) (t : table pval) (order : list nat) : result (table pval) :=
  if alen (ax sd t) <=? 1 then Ok t
  else if mem None (getNames (ax sd t)) then Err InvalidArgumentType
  else permute sd t order.
Definition limit (sd : side) (t : table pval) (keep : list kid) (g : given) (extracted : bool) : result (table pval * list nat) :=
  let n := alen (ax sd t) in
  if negb extracted && (List.length keep =? n) then Err InvalidArgumentValue
  else
    let full := match g with GNone => false | _ => givenLen g =? n end in
    t1 <- (if full then a <- giveNames (ax sd t) g ;; Ok (withAxis sd t a) else _ <- keepIndexValidation keep ;; Ok t) ;;
    cleaned <- keepIndexes (ax sd t1) keep [] ;;
    t2 <- (if List.length cleaned =? n then reorder sd t1 cleaned else taken sd t1 cleaned) ;;
    if full then Ok (t2, cleaned)
    else a <- giveNames (ax sd t2) g ;; Ok (withAxis sd t2 a, cleaned).

(** *** convertToType (894-971, 1329-1372, 1676-1721) *)
Definition convertOne (c : option T) (v : pval) : result pval :=
  match c with
  | None => Ok v
  | Some c => match conv c v with Err ValueErr | Err TypeErr => Err InvalidArgumentValue | r => r end
  end.
Definition convertRows (cs : list (option T)) (m : list (list pval)) : result (list (list pval)) :=
  rmapM (fun r => rmapM (fun p : pval * option T => convertOne (snd p) (fst p)) (combine r cs)) m.
(** 1329-1372: the loop over the features of the object, which takes the used
    items out of the caller's dict *)
Fixpoint dropKey (k : kid) (d : list (kid * T)) : list (kid * T) :=
  match d with [] => [] | p :: t => if eq_dec (fst p) k then dropKey k t else p :: dropKey k t end.
Fixpoint typeLoop (i : nat) (names : list (option string)) (d : list (kid * T)) (acc : list (option T)) : result (list (option T) * list (kid * T)) :=
  match names with
  | [] => Ok (acc, d)
  | n :: ns =>
      let ki := KInt (Z.of_nat i) in
      let byI := dget ki d in
      let byN := match n with Some s => dget (KStr s) d | None => None end in
      let kn := match n with Some s => KStr s | None => ki end in
      match byI, byN with
      | Some a, Some b => if eq_dec a b then typeLoop (S i) ns (dropKey kn (dropKey ki d)) (acc ++ [Some a]) else Err InvalidArgumentValue
      | Some a, None => typeLoop (S i) ns (dropKey ki d) (acc ++ [Some a])
      | None, Some b => typeLoop (S i) ns (dropKey kn d) (acc ++ [Some b])
      | None, None => typeLoop (S i) ns d (acc ++ [None])
      end
  end.
(** what is left must name something in the full data *)
Definition leftoverFine (f : given) (d : list (kid * T)) : bool :=
  match f, d with
  | _, [] => true
  | GNone, _ => false
  | _, _ => forallb (fun p : kid * T => match fst p with
                       | KInt z => (z <? Z.of_nat (givenLen f))%Z
                       | KStr s => match f with GList l => mem (Some s) l | GDict e => mem s (map fst e) | GNone => false end
                       end) d
  end.
Definition typesFor (f : given) (a : axis) (d : list (kid * T)) : result (list (option T) * list (kid * T)) :=
  q <- typeLoop 0 (getNames a) d [] ;;
  if leftoverFine f (snd q) then Ok q else Err InvalidArgumentValue.
(** the conversion step; the second result is the caller's dict afterwards *)
Definition convert (c : convArg T) (f : given) (t : table pval) : result (table pval * list (kid * T)) :=
  match c with
  | CNone => Ok (t, [])
  | COne x => m <- convertRows (repeat (Some x) (alen (tf t))) (rows t) ;; Ok (mkTable (tp t) (tf t) m, [])
  | CList l =>
      if negb (List.length l =? alen (tf t)) then Err InvalidArgumentValue
      else m <- convertRows l (rows t) ;; Ok (mkTable (tp t) (tf t) m, [])
  | CDict d => q <- typesFor f (tf t) d ;; m <- convertRows (fst q) (rows t) ;; Ok (mkTable (tp t) (tf t) m, snd q)
  end.

(** *** initDataObject (1448-1726) *)
Definition isStrKey (k : kid) : bool := match k with KStr _ => true | KInt _ => false end.
Definition initData (src : raw) (pn fn : nmArg) (c : convArg T) (keepP keepF : option (list kid)) (treat : option (list pval)) (repl : pval) (rowsArePoints : bool)
  : result (table pval * list (kid * T)) :=
  _ <- match keepP with Some k => checkDuplicates k | None => Ok tt end ;;
  _ <- match keepF with Some k => checkDuplicates k | None => Ok tt end ;;
  _ <- match keepF, c with Some _, CDict d => if forallb (fun p : kid * T => isStrKey (fst p)) d then Ok tt else Err InvalidArgumentTypeCombination | _, _ => Ok tt end ;;
  (* recorded before the arguments are swapped *)
  let ptsExtracted := isTrue pn in
  let ftsExtracted := isTrue fn in
  q <- extractNames (if rowsArePoints then pn else fn) (if rowsArePoints then fn else pn) src ;;
  let '(s0, p, f) := q in
  let s := replaceMissing treat repl s0 in
  _ <- analyze s ;;
  let '(n, k, m) := layout p f s in
  pa <- newAxis n (match keepP with None => p | Some _ => GNone end) ;;
  fa <- newAxis k (match keepF with None => f | Some _ => GNone end) ;;
  let t0 := mkTable pa fa m in
  t1 <- match keepP with Some kp => rmap fst (limit Pts t0 kp p ptsExtracted) | None => Ok t0 end ;;
  tc <- match keepF with
        | Some kf =>
            r <- limit Fts t1 kf f ftsExtracted ;;
            let '(t2, cleaned) := r in
            c' <- match c with
                  | CList l => if List.length l =? k then cs <- gather l cleaned ;; Ok (CList cs)
                               else if List.length l =? List.length cleaned then Ok c else Err InvalidArgumentValue
                  | _ => Ok c
                  end ;;
            Ok (t2, c')
        | None => Ok (t1, c)
        end ;;
  r <- convert (snd tc) f (fst tc) ;;
  Ok (if rowsArePoints then fst r else transpose (fst r), snd r).
End Raw.
