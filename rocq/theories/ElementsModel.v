(** Model of the elementwise methods transformElements, calculateOnElements,
    matchingElements, countElements (C53, C56) for List and Matrix objects.
    Sources: /repo/nimble/core/data/base.py:808-818, 955-962, 1051-1080,
    1082-1145, 1191-1196; _createHelpers.py:163-215, 331-347; list.py:139-156; _dataHelpers.py:305-333, 515-605,
    699-704.  Elements are [pval] (MatchModel.v). *)
From Verif Require Import Base NamesModel TableModel TableOps MatchModel QueryModel SparseModel.
From Coq Require Import QArith.
Open Scope nat_scope.

(** A user function takes the element, or the element and its position
    (_dataHelpers.py:577-603); it may raise. *)
Inductive efun := F1 (f : pval -> result pval) | F3 (f : pval -> nat -> nat -> result pval).
Definition callF (f : efun) (v : pval) (i j : nat) : result pval :=
  match f with F1 g => g v | F3 g => g v i j end.
(** _dataHelpers.py:699-704: a dictionary is a one-argument function *)
Definition dictFun (d : list (pval * pval)) : efun :=
  F1 (fun v => Ok (match find (fun p => pyEq v (fst p)) d with Some p => snd p | None => v end)).
(** _dataHelpers.py:591-598: zeros are preserved as well when the function maps
    the integer 0 to something equal to 0 *)
Definition zeroPreserving (pz : bool) (f : efun) : bool :=
  pz || match f with F1 g => match g (PInt 0) with Ok r => pyEq r (PInt 0) | Err _ => false end | F3 _ => false end.
(** _dataHelpers.py:561-573 [elementValidated] (every [pval] is allowed) *)
Definition validated (pz skip : bool) (f : efun) (v : pval) (i j : nat) : result pval :=
  if zeroPreserving pz f && pyEq v (PInt 0) then Ok (PFloat 0)
  else r <- callF f v i j ;; Ok (match r with PNone => if skip then v else r | _ => r end).

(** *** transformElements (base.py:808-818, list.py:139-156) *)
Definition outside (lim : option (list nat)) (i : nat) : bool :=
  match lim with None => false | Some l => negb (mem i l) end.
Definition setCell {V} (t : table V) (i j : nat) (v : V) : table V :=
  mkTable (tp t) (tf t) (upd (rows t) i (upd (nth i (rows t) []) j v)).
(** the loop over all positions; an exception leaves the earlier writes *)
Fixpoint elementLoop (g : pval -> nat -> nat -> result pval) (ps fs : option (list nat)) (ids : list (nat * nat)) (t : table pval)
  : table pval * result unit :=
  match ids with
  | [] => (t, Ok tt)
  | (i, j) :: rest =>
      match nth_error (nth i (rows t) []) j with
      | None => (t, Err IndexErr)
      | Some v =>
          if outside ps i then elementLoop g ps fs rest t
          else if outside fs j then elementLoop g ps fs rest t
          else match g v i j with
               | Err e => (t, Err e)
               | Ok w => elementLoop g ps fs rest (setCell t i j w)
               end
      end
  end.
Definition resolve (a : axis) (o : option (list ident)) : result (option (list nat)) :=
  match o with None => Ok None | Some l => rmap Some (constructIndices a l) end.
Definition transformElements (t : table pval) (f : efun) (points features : option (list ident)) (pz skip : bool)
  : table pval * result unit :=
  match resolve (tp t) points with
  | Err e => (t, Err e)
  | Ok ps =>
      match resolve (tf t) features with
      | Err e => (t, Err e)
      | Ok fs => elementLoop (validated pz skip f) ps fs (list_prod (seq 0 (alen (tp t))) (seq 0 (alen (tf t)))) t
      end
  end.

(** *** calculateOnElements (base.py:955-962, 1082-1145) *)
(** [if points: ... else: range(...)]: an empty list means all *)
Definition orAll (n : nat) (o : option (list nat)) : list nat :=
  match o with Some (i :: l) => i :: l | _ => seq 0 n end.
Definition submatrix (t : table pval) (ps fs : list nat) : result (list (list pval)) :=
  rs <- gather (rows t) ps ;; rmapM (fun r => gather r fs) rs.
Section Cast.
(** [int(s)], [float(s)] and [str(v)] *)
Variables intOf floatOf : string -> option pval.
Variable strOf : pval -> string.
(** integer part towards zero *)
Definition truncQ (q : Q) : Z := (Z.quot (Qnum q) (Zpos (Qden q))).
(** numpy.vectorize takes the output type from the result for the first element
    and casts every result to it *)
Definition castLike (first v : pval) : result pval :=
  match first with
  | PNone => Ok v
  | PBool _ => Ok (PBool (match v with PBool b => b | PInt z => negb (z =? 0)%Z | PFloat q => negb (Qeq_bool q 0)
                          | PStr s => negb (String.eqb s "") | PNone => false | _ => true end))
  | PInt _ => match v with
              | PInt z => Ok (PInt z)
              | PBool b => Ok (PInt (if b then 1 else 0))
              | PFloat q => Ok (PInt (truncQ q))
              | PStr s => match intOf s with Some x => Ok x | None => Err ValueErr end
              | PNone => Err TypeErr
              | _ => Err ValueErr
              end
  | PStr _ => Ok (PStr (match v with PStr s => s | _ => strOf v end))
  | _ => match v with
         | PInt z => Ok (PFloat (inject_Z z))
         | PBool b => Ok (PFloat (if b then 1 else 0))
         | PStr s => match floatOf s with Some x => Ok x | None => Err ValueErr end
         | PNone => Ok PNaN
         | _ => Ok v
         end
  end.
(** base.py:1139-1145: when the cast (or the function) raises, once more with
    output type object *)
Definition vectorized (g : pval -> result pval) (m : list (list pval)) : result (list (list pval)) :=
  vals <- rmapM (rmapM g) m ;;
  match List.concat vals with
  | [] => Ok vals
  | first :: _ => match rmapM (rmapM (castLike first)) vals with Ok c => Ok c | Err _ => Ok vals end
  end.
(** base.py:1096-1120: a float array that becomes an object array at the first
    result that is not a number *)
Definition storeFloat (v : pval) : pval :=
  match v with PInt z => PFloat (inject_Z z) | PNone => PNaN | _ => v end.
Fixpoint storeRow (isObj : bool) (l : list pval) : list pval * bool :=
  match l with
  | [] => ([], isObj)
  | v :: r =>
      let isObj' := isObj || match v with PNone => false | _ => nonNumeric v end in
      let '(r', o) := storeRow isObj' r in
      ((if isObj' then v else storeFloat v) :: r', o)
  end.
Fixpoint storeRows (isObj : bool) (m : list (list pval)) : list (list pval) :=
  match m with [] => [] | r :: m' => let '(r', o) := storeRow isObj r in r' :: storeRows o m' end.
Definition positioned (g : pval -> nat -> nat -> result pval) (ps fs : list nat) (m : list (list pval)) : result (list (list pval)) :=
  rmap (storeRows false)
    (rmapM (fun pr : nat * list pval => rmapM (fun fv : nat * pval => g (snd fv) (fst pr) (fst fv)) (combine fs (snd pr))) (combine ps m)).
(** base.py:1122-1123: [treatAsMissing=[None]] *)
Definition noneToNan (v : pval) : pval := match v with PNone => PNaN | _ => v end.
(** the values [_calculate_backend] computes, with the number of points and of
    features; [oneArg] and [g] are the wrapped function *)
Definition calculateValues (t : table pval) (oneArg : bool) (g : pval -> nat -> nat -> result pval)
    (points features : option (list ident)) : result (nat * nat * list (list pval)) :=
  ps <- resolve (tp t) points ;;
  fs <- resolve (tf t) features ;;
  let pl := orAll (alen (tp t)) ps in
  let fl := orAll (alen (tf t)) fs in
  m <- submatrix t pl fl ;;
  vals <- (if oneArg then vectorized (fun v => g v 0 0) m else positioned g pl fl m) ;;
  Ok (List.length pl, List.length fl, vals).
(** _createHelpers.py:163-215 [isNum, autoDetectNamesFromRaw], 331-347, both names
    arguments 'automatic': when the first row has only texts, distinct after the
    first, and the second has a number, the first row is taken for feature names,
    and the first column for point names if it is headed by [pointNames]. *)
Definition textOf (v : pval) : option string := match v with PStr s => Some s | _ => None end.
Definition isNumber (v : pval) : bool := match v with PStr _ | PNone => false | _ => true end.
Fixpoint allTexts (l : list pval) : option (list string) :=
  match l with
  | [] => Some []
  | v :: r => match textOf v, allTexts r with Some s, Some t => Some (s :: t) | _, _ => None end
  end.
Definition headerOf (m : list (list pval)) : option (bool * list string) :=
  match m with
  | first :: second :: _ =>
      match allTexts first with
      | Some (a :: names) =>
          let pn := String.eqb a "pointNames" in
          if nodupb names && existsb isNumber (if pn then tl second else second) then Some (pn, a :: names) else None
      | _ => None
      end
  | _ => None
  end.
Definition withNames (a : axis) (names : option (list (option string))) : result axis :=
  match names with
  | None => Ok a
  | Some l => match setNames a (AList (map to_newname l)) ONone with (a', Ok _) => Ok a' | (_, Err e) => Err e end
  end.
(** base.py:1119-1120: the call of nimble.data, whose names are left 'automatic' *)
Definition newObject (p f : nat) (m : list (list pval)) : result (table pval) :=
  match headerOf m with
  | None => Ok (mkTable (mkAxis p None) (mkAxis f None) (map (map noneToNan) m))
  | Some (pn, names) =>
      let body := tl m in
      pa <- withNames (mkAxis (p - 1) None)
              (if pn then Some (map (fun r => Some (match hd PNone r with PStr s => s | v => strOf v end)) body) else None) ;;
      fa <- withNames (mkAxis (if pn then f - 1 else f) None) (Some (map Some (if pn then tl names else names))) ;;
      Ok (mkTable pa fa (map (map noneToNan) (if pn then map (@tl pval) body else body)))
  end.
(** base.py:1082-1126 [_calculate_backend] *)
Definition calculateBackend (t : table pval) (oneArg : bool) (g : pval -> nat -> nat -> result pval)
    (points features : option (list ident)) : result (table pval) :=
  x <- calculateValues t oneArg g points features ;; newObject (fst (fst x)) (snd (fst x)) (snd x).
Definition isOneArg (f : efun) : bool := match f with F1 _ => true | F3 _ => false end.
Definition calculateOnElements (t : table pval) (f : efun) (points features : option (list ident)) (pz skip : bool)
  : result (table pval) := calculateBackend t (isOneArg f) (validated pz skip f) points features.

(** *** matchingElements (base.py:1051-1080) *)
(** _dataHelpers.py:515-551: the result must be one of True, False, 0, 1 *)
Definition boolResult (v : pval) : result pval :=
  if pyEq v (PInt 1) then Ok (PBool true) else if pyEq v (PInt 0) then Ok (PBool false) else Err InvalidArgumentValue.
Definition wrapMatch (f : efun) (v : pval) (i j : nat) : result pval := r <- callF f v i j ;; boolResult r.
Definition axisNamesFor (a : axis) (o : option (list ident)) : result (option (list (option string))) :=
  match getNamesNoGeneration a, o with
  | Some l, Some ids => idx <- constructIndices a ids ;; rmap Some (gather l idx)
  | n, _ => Ok n
  end.
Definition matchingElements (t : table pval) (f : efun) (points features : option (list ident)) : result (table pval) :=
  r <- calculateBackend t (isOneArg f) (wrapMatch f) points features ;;
  pn <- axisNamesFor (tp t) points ;;
  fn <- axisNamesFor (tf t) features ;;
  pa <- withNames (tp r) pn ;;
  fa <- withNames (tf r) fn ;;
  Ok (mkTable pa fa (rows r)).
(** [toMatch] a string: a query, or if it is none a value (base.py:1052-1060) *)
Definition matchFunOf (floatOf : string -> option pval) (accepted : string -> bool) (otherFn : string -> pval -> result bool)
    (s : string) : efun := F1 (fun v => rmap PBool (elementMatcher floatOf accepted otherFn s v)).

(** *** countElements (base.py:1191-1196) *)
(** [np.sum] of a matrix of numbers and booleans *)
Definition numValue (v : pval) : Q :=
  match v with PBool b => if b then 1 else 0 | PInt z => inject_Z z | PFloat q => q | _ => 0 end%Q.
Definition sumQ (l : list pval) : Q := fold_right (fun v s => (numValue v + s)%Q) 0%Q l.
Definition countElements (t : table pval) (f : efun) : result Z :=
  r <- calculateOnElements t f None None false false ;; Ok (truncQ (sumQ (List.concat (rows r)))).
Definition countQuery (floatOf' : string -> option pval) (accepted : string -> bool) (otherFn : string -> pval -> result bool)
    (t : table pval) (s : string) : result Z :=
  q <- parse floatOf' accepted s (Some true) ;;
  countElements t (F1 (fun v => rmap PBool (applyFun otherFn (qFun q) v))).
End Cast.

(** *** Sparse, zeros preserved, on a subset (sparse.py:222-236): positions are
    not renumbered, and [row in None] is a TypeError; the shape is inferred from
    the largest positions left *)
Section SparseCalc.
Variable V : Type.
Definition sparseCalcSubset (s : sparse V) (f : V -> V) (ps fs : option (list nat)) : result (sparse V) :=
  match ps, fs with
  | None, None => Ok (withEnts s (map (fun e => mkE (er e) (ec e) (f (ev e))) (ents s)))
  | Some p, Some q =>
      let l := filter (fun e => mem (er e) p && mem (ec e) q) (ents s) in
      let l' := map (fun e => mkE (er e) (ec e) (f (ev e))) l in
      match l' with
      | [] => Err ValueErr
      | _ => Ok (mkSp (S (list_max (map er l'))) (S (list_max (map ec l'))) l' None None)
      end
  | Some p, None => if existsb (fun e => mem (er e) p) (ents s) then Err TypeErr else Err ValueErr
  | None, Some _ => match ents s with [] => Err ValueErr | _ => Err TypeErr end
  end.
End SparseCalc.
Arguments sparseCalcSubset {V} _ _ _ _.
