(** Model of a two-dimensional nimble object of type List and of the axis
    operations that move whole points or features.
    Sources: /repo/nimble/core/data/axis.py, listAxis.py, list.py, base.py.
    The element type is abstract. *)
From Verif Require Import Base NamesModel.

Section Table.
Variable V : Type.

(** list.py: [_data] is a list of rows; the axes carry lengths and names
    ([_dims] is their pair of lengths). *)
Record table := mkTable { tp : axis; tf : axis; rows : list (list V) }.

Inductive side := Pts | Fts.
Definition ax (sd : side) (t : table) : axis := match sd with Pts => tp t | Fts => tf t end.
Definition offax (sd : side) (t : table) : axis := match sd with Pts => tf t | Fts => tp t end.

(** Axis.__init__ (axis.py:79-106): a fresh axis of length n given a names
    list or None; a duplicate or wrong-length list is an exception. *)
Definition initAxis (n : nat) (names : option (list (option string))) : result axis :=
  match names with
  | None => Ok (mkAxis n None)
  | Some l =>
      if negb (List.length l =? n) then Err InvalidArgumentValue
      else match setNames (mkAxis n None) (AList (map to_newname l)) ONone with
           | (a, Ok _) => Ok a
           | (_, Err e) => Err e
           end
  end.

(** ** Targets of copy / extract / delete / retain (axis.py:1133-1210) *)
Inductive target :=
| TNone
| TIds (l : list ident)              (* a single name/index or an iterable *)
| TFun (f : list V -> bool).         (* predicate on a point / feature view *)

(** axis.py:1671-1700 [_validateStructuralArguments] without [limitTo];
    axis.py:1702-1718 [_validateStartEndRange].  [sampled] is the list
    nimble.random would draw when randomize=True. *)
Definition constructIndices (a : axis) (l : list ident) : result (list nat) :=
  rmapM (fun i => rmap Z.to_nat (getIndex a i false)) l.

Definition column (t : table) (j : nat) : list V :=
  flat_map (fun r => match nth_error r j with Some v => [v] | None => [] end) (rows t).
Definition vectors (sd : side) (t : table) : list (list V) :=
  match sd with Pts => rows t | Fts => map (column t) (seq 0 (alen (tf t))) end.

Definition positionsWhere {A} (f : A -> bool) (l : list A) : list nat :=
  map fst (filter (fun p => f (snd p)) (combine (seq 0 (List.length l)) l)).

Definition baseTargets (sd : side) (t : table) (tg : target) (start stop : option ident)
  : result (list nat) :=
  let a := ax sd t in
  match tg with
  | TIds l =>
      idx <- constructIndices a l ;;
      if nodupb idx then Ok idx else Err InvalidArgumentValue
  | TFun f => Ok (positionsWhere f (vectors sd t))
  | TNone =>
      match start, stop with
      | None, None => Ok (seq 0 (alen a))
      | _, _ =>
          s <- match start with None => Ok 0%Z | Some i => getIndex a i false end ;;
          e <- match stop with None => Ok (Z.of_nat (alen a) - 1)%Z | Some i => getIndex a i false end ;;
          if (s <? 0)%Z || (Z.of_nat (alen a) <? s)%Z then Err InvalidArgumentValue
          else if (e <? 0)%Z || (Z.of_nat (alen a) <? e)%Z then Err InvalidArgumentValue
          else if (e <? s)%Z then Err InvalidArgumentValueCombination
          else Ok (seq (Z.to_nat s) (Z.to_nat e + 1 - Z.to_nat s))
      end
  end.

Definition getTargets (sd : side) (t : table) (tg : target) (start stop : option ident)
    (number : option nat) (randomize : bool) (sampled : list nat) : result (list nat) :=
  match tg, start, stop, number with
  | TNone, None, None, None => Err InvalidArgumentTypeCombination
  | _, _, _, _ =>
    if match number with Some 0 => true | _ => false end then Err InvalidArgumentValue
    else if match number with None => randomize | _ => false end then Err InvalidArgumentValueCombination
    else if match tg with TNone => false | _ =>
              match start, stop with None, None => false | _, _ => true end end
         then Err InvalidArgumentTypeCombination
    else
      tl <- baseTargets sd t tg start stop ;;
      match number with
      | None => Ok tl
      | Some n =>
          if List.length tl <? n then Err InvalidArgumentValue
          else if randomize then Ok sampled else Ok (firstn n tl)
      end
  end.

(** ** Backend, listAxis.py:55-95 and the name bookkeeping axis.py:1221-1253 *)
Inductive structure := SCopy | SExtract | SDelete | SRetain.

(** axis.py:1246-1253 [_getStructuralNames] *)
Definition structuralNames (a : axis) (targets : list nat) : result (option (list (option string))) :=
  if namesCreated a then rmap Some (gather (getNames a) targets) else Ok None.

Definition keepIdx (n : nat) (targets : list nat) : list nat :=
  filter (fun i => negb (mem i targets)) (seq 0 n).

(** The returned object. *)
Definition taken (sd : side) (t : table) (targets : list nat) : result table :=
  nl <- structuralNames (ax sd t) targets ;;
  newAx <- initAxis (List.length targets) nl ;;
  offAx <- initAxis (alen (offax sd t)) (getNamesNoGeneration (offax sd t)) ;;
  match sd with
  | Pts => rs <- gather (rows t) targets ;; Ok (mkTable newAx offAx rs)
  | Fts => rs <- rmapM (fun r => gather r targets) (rows t) ;; Ok (mkTable offAx newAx rs)
  end.

(** The object left behind by extract / delete. *)
Definition remaining (sd : side) (t : table) (targets : list nat) : result table :=
  let keep := keepIdx (alen (ax sd t)) targets in
  match sd with
  | Pts => rs <- gather (rows t) keep ;; Ok (mkTable (removeNames (tp t) targets) (tf t) rs)
  | Fts => rs <- rmapM (fun r => gather r keep) (rows t) ;;
           Ok (mkTable (tp t) (removeNames (tf t) targets) rs)
  end.

(** axis.py:385-421 [_copy/_extract/_delete/_retain]: new self and the
    returned object (None for delete and retain).  [_retain] replaces self by
    the returned reference (axis.py:415-421). *)
Definition structural (s : structure) (sd : side) (t : table) (targets : list nat)
  : result (table * option table) :=
  ret <- taken sd t targets ;;
  match s with
  | SCopy => Ok (t, Some ret)
  | SExtract => rest <- remaining sd t targets ;; Ok (rest, Some ret)
  | SDelete => rest <- remaining sd t targets ;; Ok (rest, None)
  | SRetain => Ok (ret, None)
  end.

(** ** permute (axis.py:461-487, listAxis.py:97-109) *)
Definition permuteRows (sd : side) (t : table) (order : list nat) : result (list (list V)) :=
  match sd with
  | Pts => gather (rows t) order
  | Fts => rmapM (fun r => gather r order) (rows t)
  end.
Definition setAx (sd : side) (t : table) (a : axis) (rs : list (list V)) : table :=
  match sd with Pts => mkTable a (tf t) rs | Fts => mkTable (tp t) a rs end.

Definition permute (sd : side) (t : table) (order : list nat) : result table :=
  let a := ax sd t in
  if negb (List.length order =? alen a) then Err InvalidArgumentValue
  else if negb (nodupb order) then Err InvalidArgumentValue
  else if alen a <=? 1 then Ok t
  else
    rs <- permuteRows sd t order ;;
    match permuteNames a order with
    | (a', Ok _) => Ok (setAx sd t a' rs)
    | (_, Err e) => Err e
    end.
(** with identifiers: axis.py:467-468 *)
Definition permuteIds (sd : side) (t : table) (ids : list ident) : result table :=
  order <- constructIndices (ax sd t) ids ;; permute sd t order.

(** ** sort (axis.py:1255-1281).  Python's [sorted] is a stable sort; with
    reverse=True it is stable with respect to the flipped order. *)
Section Sort.
Variable leb : V -> V -> bool.
Fixpoint insertBy {A} (le : A -> A -> bool) (x : A) (l : list A) : list A :=
  match l with
  | [] => [x]
  | y :: t => if le x y then x :: y :: t else y :: insertBy le x t
  end.
Definition stableSort {A} (le : A -> A -> bool) (l : list A) : list A :=
  fold_right (insertBy le) [] l.
Definition dirLe (reverse : bool) (x y : V) : bool := if reverse then leb y x else leb x y.
(** axis.py:1263-1274, one key: [enumerate(data)] sorted by value *)
Definition sortOneOrder (sd : side) (t : table) (k : nat) (reverse : bool) : list nat :=
  let data := match sd with Pts => column t k | Fts => nth k (rows t) [] end in
  map fst (stableSort (fun p q => dirLe reverse (snd p) (snd q))
             (combine (seq 0 (List.length data)) data)).
Definition sortOne (sd : side) (t : table) (k : nat) (reverse : bool) : result table :=
  permute sd t (sortOneOrder sd t k reverse).
(** a list of keys is applied from last to first (axis.py:1264-1266) *)
Fixpoint sortKeys (sd : side) (t : table) (keysReversed : list nat) (reverse : bool) : result table :=
  match keysReversed with
  | [] => Ok t
  | k :: ks => t' <- sortOne sd t k reverse ;; sortKeys sd t' ks reverse
  end.
Definition sortByKeys (sd : side) (t : table) (keys : list nat) (reverse : bool) : result table :=
  sortKeys sd t (rev keys) reverse.
End Sort.

(** ** transpose (base.py:3634-3641, list.py:165-183) *)
Fixpoint appendEach (cols : list (list V)) (row : list V) : list (list V) :=
  match cols, row with
  | c :: cs, v :: vs => (c ++ [v]) :: appendEach cs vs
  | _, _ => cols
  end.
Definition transposeRows (nf : nat) (rs : list (list V)) : list (list V) :=
  fold_left appendEach rs (repeat [] nf).
Definition namesArg (o : option (list (option string))) : assignments :=
  match o with None => ANone | Some l => AList (map to_newname l) end.
Definition transpose (t : table) : table :=
  let pt := getNamesNoGeneration (tf t) in
  let ft := getNamesNoGeneration (tp t) in
  mkTable (fst (setNames (mkAxis (alen (tf t)) (astate (tp t))) (namesArg pt) ONone))
          (fst (setNames (mkAxis (alen (tp t)) (astate (tf t))) (namesArg ft) ONone))
          (transposeRows (alen (tf t)) (rows t)).

(** ** repeat (axis.py:805-848, listAxis.py:132-153) *)
Section Repeat.
(** decimal rendering of a number, [str(i + 1)] *)
Variable dec : nat -> string.
Definition repName (nm : string) (i : nat) : string := (nm ++ "_" ++ dec (S i))%string.
Definition repNames (total : nat) (vv : bool) (names : list (option string)) : result (list (option string)) :=
  (* None + "_" is a TypeError *)
  if existsb (fun o => match o with None => true | _ => false end) names then Err TypeErr
  else
    let f o i := match o with Some s => Some (repName s i) | None => None end in
    Ok (if vv then flat_map (fun o => map (f o) (seq 0 total)) names
        else flat_map (fun i => map (fun o => f o i) names) (seq 0 total)).
Definition repeatVec {A} (total : nat) (vv : bool) (l : list A) : list A :=
  if vv then flat_map (fun x => repeat x total) l
  else flat_map (fun _ => l) (seq 0 total).
Definition tableRepeat (sd : side) (t : table) (total : nat) (vv : bool) : result table :=
  if total =? 0 then Err InvalidArgumentType
  else if total =? 1 then Ok t
  else
    let a := ax sd t in
    nl <- match getNamesNoGeneration a with
          | None => Ok None | Some l => rmap Some (repNames total vv l) end ;;
    newAx <- initAxis (total * alen a) nl ;;
    Ok (match sd with
        | Pts => mkTable newAx (tf t) (repeatVec total vv (rows t))
        | Fts => mkTable (tp t) newAx (map (repeatVec total vv) (rows t))
        end).
End Repeat.
End Table.

Arguments mkTable {V} _ _ _.
Arguments tp {V} _.
Arguments tf {V} _.
Arguments rows {V} _.
Arguments ax {V} _ _.
Arguments offax {V} _ _.
Arguments TNone {V}.
Arguments TIds {V} _.
Arguments TFun {V} _.
Arguments getTargets {V} _ _ _ _ _ _ _ _.
Arguments baseTargets {V} _ _ _ _ _.
Arguments vectors {V} _ _.
Arguments column {V} _ _.
Arguments taken {V} _ _ _.
Arguments remaining {V} _ _ _.
Arguments structural {V} _ _ _ _.
Arguments permute {V} _ _ _.
Arguments permuteIds {V} _ _ _.
Arguments permuteRows {V} _ _ _.
Arguments setAx {V} _ _ _ _.
Arguments dirLe {V} _ _ _ _.
Arguments sortOneOrder {V} _ _ _ _ _.
Arguments sortOne {V} _ _ _ _ _.
Arguments sortKeys {V} _ _ _ _ _.
Arguments sortByKeys {V} _ _ _ _ _.
Arguments transpose {V} _.
Arguments transposeRows {V} _ _.
Arguments appendEach {V} _ _.
Arguments tableRepeat {V} _ _ _ _ _.
