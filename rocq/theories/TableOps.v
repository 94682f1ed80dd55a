(** Further table operations: insert, unique, sort variants, transform,
    calculate, groupByFeature, mapReduce.
    Sources: /repo/nimble/core/data/axis.py, listAxis.py, base.py,
    _dataHelpers.py. *)
From Verif Require Import Base NamesModel TableModel.

(** ** Names of the other axis when inserting *)

(** _dataHelpers.py:846-859, one direction of [inconsistentNames]: the
    positions reported (only emptiness is used by the callers). *)
Fixpoint checkFromLeft (i : nat) (left : list (option string)) (right allRight : list (option string))
  : list nat :=
  match left, right with
  | Some l :: left', r :: right' =>
      (match r with
       | Some s => if eqbd l s then [] else [i]
       | None => if mem (Some l) allRight then [i] else []
       end) ++ checkFromLeft (S i) left' right' allRight
  | None :: left', _ :: right' => checkFromLeft (S i) left' right' allRight
  | _, _ => []
  end.
(** _dataHelpers.py:831-866 [inconsistentNames] *)
Definition inconsistentNames (l r : list (option string)) : list nat :=
  checkFromLeft 0 l r r ++ checkFromLeft 0 r l l.

(** axis.py:376-380 [_anyDefaultNames], [_allDefaultNames] *)
Definition anyDefaultNames (a : axis) : bool :=
  negb (namesCreated a) || (List.length (names_dict a) <? alen a).
Definition allDefaultNames (a : axis) : bool :=
  match names_dict a with [] => true | _ => false end.

(** axis.py:1408-1454 [_validateReorderedNames] *)
Definition validateReorderedNames (l r : axis) : result unit :=
  match inconsistentNames (getNames l) (getNames r) with
  | [] => Ok tt
  | _ =>
      if anyDefaultNames l || anyDefaultNames r then Err ImproperObjectAction
      else if existsb (fun n => negb (mem n (getNames r))) (getNames l) then Err InvalidArgumentValue
      else Ok tt
  end.

Section Ops.
Variable V : Type.

Definition flip (sd : side) : side := match sd with Pts => Fts | Fts => Pts end.
Definition nameId (o : option string) : ident := match o with Some s => IdStr s | None => IdOther end.

(** axis.py:1456-1478 [_alignNames] *)
Definition alignNames (sd : side) (t o : table V) : result (table V) :=
  let mine := offax sd t in
  let other := offax sd o in
  if namesCreated mine && namesCreated other then
    if negb (allDefaultNames mine || allDefaultNames other)
       && negb (eqbd (getNames mine) (getNames other))
    then permuteIds (flip sd) o (map nameId (getNames mine))
    else Ok o
  else Ok o.

(** axis.py:620-629: the position; a name, an index, [len(self)] or None
    (append).  Note the special case: on an empty axis an index goes through
    [_getIndex], which rejects every identifier. *)
Definition insertPosition (a : axis) (before : option ident) : result nat :=
  match before with
  | None => Ok (alen a)
  | Some (IdInt z) =>
      if (z =? Z.of_nat (alen a))%Z && negb (alen a =? 0) then Ok (alen a)
      else rmap Z.to_nat (getIndex a (IdInt z) false)
  | Some id => rmap Z.to_nat (getIndex a id false)
  end.

(** listAxis.py:184-204 and 269-294 [_insert_implementation] *)
Fixpoint zip3 (f : list V -> list V -> list V -> list V) (a b c : list (list V)) : list (list V) :=
  match a, b, c with
  | x :: a', y :: b', z :: c' => f x y z :: zip3 f a' b' c'
  | _, _, _ => []
  end.
Definition insertRows (sd : side) (t o : table V) (b : nat) : list (list V) :=
  match sd with
  | Pts =>
      if negb (b =? 0) && negb (b =? alen (tp t))
      then firstn b (rows t) ++ rows o ++ skipn b (rows t)
      else if b =? 0 then rows o ++ rows t else rows t ++ rows o
  | Fts =>
      if negb (b =? 0) && negb (b =? alen (tf t))
      then zip3 (fun x y z => x ++ y ++ z) (map (firstn b) (rows t)) (rows o) (map (skipn b) (rows t))
      else if b =? 0 then zip3 (fun x y _ => x ++ y) (rows o) (rows t) (rows o)
      else zip3 (fun x y _ => x ++ y) (rows t) (rows o) (rows o)
  end.

(** axis.py:619-638 [_insert], 1285-1336 [_validateInsertableData] *)
Definition insertTable (sd : side) (t : table V) (before : option ident) (o : table V)
  : result (table V) :=
  let a := ax sd t in
  b <- insertPosition a before ;;
  if negb (alen (offax sd t) =? alen (offax sd o)) then Err InvalidArgumentValue
  else if namesCreated a && namesCreated (ax sd o) &&
     existsb (fun s => mem s (dkeys (names_dict (ax sd o)))) (dkeys (names_dict a))
  then Err InvalidArgumentValue
  else
    _ <- (if namesCreated (offax sd t) && namesCreated (offax sd o)
          then validateReorderedNames (offax sd t) (offax sd o) else Ok tt) ;;
    o' <- alignNames sd t o ;;
    match insertNames a (ax sd o') b with
    | (a', Ok _) => Ok (setAx sd t a' (insertRows sd t o' b))
    | (_, Err e) => Err e
    end.

(** ** unique (axis.py:850-858, listAxis.py:114-130, _dataHelpers.py:257-283) *)
Section Unique.
Context {E : EqDec V}.
(** [norm] is what nimble.data does to every value it is given: values listed
    in DEFAULT_MISSING (create.py:40, _createHelpers.py:60, 974-1046) become
    nan. *)
Variable norm : V -> V.
Fixpoint uniqueIndices (i : nat) (seen : list (list V)) (l : list (list V)) : list nat :=
  match l with
  | [] => []
  | v :: t => if mem v seen then uniqueIndices (S i) seen t
              else i :: uniqueIndices (S i) (v :: seen) t
  end.
Definition tableUnique (sd : side) (t : table V) : result (table V) :=
  let idx := uniqueIndices 0 [] (vectors sd t) in
  rs <- permuteRows sd t idx ;;
  if eqbd (rows t) rs then Ok t
  else
    nl <- structuralNames (ax sd t) idx ;;
    newAx <- initAxis (List.length idx) nl ;;
    offAx <- initAxis (alen (offax sd t)) (getNamesNoGeneration (offax sd t)) ;;
    Ok (match sd with
        | Pts => mkTable newAx offAx (map (map norm) rs)
        | Fts => mkTable offAx newAx (map (map norm) rs)
        end).
End Unique.

(** ** sort by names and by a key function (axis.py:1255-1281) *)
Section SortMore.
Variable K : Type.
Variable kleb : K -> K -> bool.
(** [sorted(enumerate(self), key=..., reverse=reverse)] *)
Definition sortOrder {A} (key : A -> K) (reverse : bool) (l : list A) : list nat :=
  map fst (stableSort (fun p q => if reverse then kleb (key (snd q)) (key (snd p))
                                  else kleb (key (snd p)) (key (snd q)))
             (combine (seq 0 (List.length l)) l)).
Definition sortByFunction (sd : side) (t : table V) (key : list V -> K) (reverse : bool) : result (table V) :=
  permute sd t (sortOrder key reverse (vectors sd t)).
End SortMore.
Section SortNames.
Variable sleb : string -> string -> bool.
Definition sortByNames (sd : side) (t : table V) (reverse : bool) : result (table V) :=
  let a := ax sd t in
  if negb (namesCreated a) || anyDefaultNames a then Err InvalidArgumentValue
  else
    let strs := flat_map (fun o => match o with Some s => [s] | None => [] end) (getNames a) in
    permuteIds sd t (map IdStr (stableSort (fun x y => if reverse then sleb y x else sleb x y) strs)).
End SortNames.

(** ** transform (axis.py:490-507, listAxis.py:206-212, 296-304).  The loop
    runs over the whole axis in order, skips what is not in [limitTo] and
    writes each result before calling the function again; an exception of the
    function (or of the length check, _dataHelpers.py:647-650) leaves the
    earlier writes in place, hence the pair. *)
Definition setVec (sd : side) (t : table V) (j : nat) (v : list V) : table V :=
  mkTable (tp t) (tf t)
    (match sd with
     | Pts => upd (rows t) j v
     | Fts => map (fun p => upd (fst p) j (snd p)) (combine (rows t) v)
     end).
Definition vec (sd : side) (t : table V) (j : nat) : list V :=
  match sd with Pts => nth j (rows t) [] | Fts => column t j end.
Fixpoint transformLoop (sd : side) (f : list V -> result (list V)) (limit : option (list nat))
    (js : list nat) (t : table V) : table V * result unit :=
  match js with
  | [] => (t, Ok tt)
  | j :: js' =>
      if match limit with None => false | Some l => negb (mem j l) end
      then transformLoop sd f limit js' t
      else
        match f (vec sd t j) with
        | Err e => (t, Err e)
        | Ok c =>
            if List.length c =? alen (offax sd t)
            then transformLoop sd f limit js' (setVec sd t j c)
            else (t, Err InvalidArgumentValue)
        end
  end.
Definition transform (sd : side) (f : list V -> result (list V)) (limit : option (list ident))
    (t : table V) : table V * result unit :=
  if (alen (tp t) =? 0) || (alen (tf t) =? 0) then (t, Err ImproperObjectAction)
  else
    match limit with
    | None => transformLoop sd f None (seq 0 (alen (ax sd t))) t
    | Some ids =>
        match constructIndices (ax sd t) ids with
        | Err e => (t, Err e)
        | Ok l => transformLoop sd f (Some l) (seq 0 (alen (ax sd t))) t
        end
    end.

(** ** replace (axis.py:641-698), locations given or positional: location k
    receives vector k of the data object, in order. *)
Fixpoint replaceLoop (sd : side) (locs : list nat) (data : list (list V)) (t : table V)
  : table V * result unit :=
  match locs, data with
  | i :: is, r :: rs =>
      match transform sd (fun _ => Ok r) (Some [IdInt (Z.of_nat i)]) t with
      | (t', Ok _) => replaceLoop sd is rs t'
      | (t', Err e) => (t', Err e)
      end
  | _, _ => (t, Ok tt)
  end.
Definition replace (sd : side) (t : table V) (locations : list ident) (data : table V)
  : table V * result unit :=
  match constructIndices (ax sd t) locations with
  | Err e => (t, Err e)
  | Ok locs =>
      if negb (List.length locs =? alen (ax sd data)) then (t, Err InvalidArgumentValue)
      else replaceLoop sd locs (vectors sd data) t
  end.

(** ** calculate (axis.py:532-572, 575-616): one result row per entry of
    [limitTo], then names.  Note axis.py:560-566: the names of the selected
    points are used only when fewer points were selected than exist. *)
Definition calculateRows (sd : side) (t : table V) (f : list V -> list V) (limit : list nat)
  : result (list (list V)) := rmap (map f) (gather (vectors sd t) limit).
Definition calculateNames (a : axis) (limit : list nat) : result (option (list (option string))) :=
  if namesCreated a then
    if List.length limit <? alen a then rmap Some (gather (getNames a) limit)
    else Ok (Some (getNames a))
  else Ok None.
Definition calculate (sd : side) (t : table V) (f : list V -> list V) (limit : option (list ident))
  : result (axis * list (list V)) :=
  if (alen (tp t) =? 0) || (alen (tf t) =? 0) then Err ImproperObjectAction
  else
    lim <- match limit with None => Ok (seq 0 (alen (ax sd t))) | Some ids => constructIndices (ax sd t) ids end ;;
    vs <- calculateRows sd t f lim ;;
    nl <- calculateNames (ax sd t) lim ;;
    a <- initAxis (List.length lim) nl ;;
    Ok (a, vs).

(** ** groupByFeature (base.py:1380-1440), data part.  The key of a point is
    [prettyKey] of its value(s) in [by]: an arbitrary function of the point. *)
Section Group.
Context {K : Type} {EK : EqDec K}.
Variable key : list V -> K.
Fixpoint groupLoop (t : table V) (is : list nat) (res : dict K (table V)) : result (dict K (table V)) :=
  match is with
  | [] => Ok res
  | i :: is' =>
      pt <- taken Pts t [i] ;;
      let k := key (nth i (rows t) []) in
      match dget k res with
      | None => groupLoop t is' (dset k pt res)
      | Some g => g' <- insertTable Pts g None pt ;; groupLoop t is' (dset k g' res)
      end
  end.
Definition groupByFeature (t : table V) (by_ : list nat) : result (dict K (table V)) :=
  res <- groupLoop t (seq 0 (alen (tp t))) [] ;;
  rmapM (fun kg => rmap (fun g => (fst kg, g)) (remaining Fts (snd kg) by_)) res.
Definition groupCounts (t : table V) : dict K nat :=
  fold_left (fun res r => match dget (key r) res with
                          | None => dset (key r) 1 res
                          | Some c => dset (key r) (S c) res end) (rows t) [].
End Group.

(** ** mapReduce (axis.py:722-744) *)
Section MapReduce.
Context {K : Type} {EK : EqDec K}.
Variables W R : Type.
Variable mapper : list V -> list (K * W).
Variable reducer : K -> list W -> option R.
Definition emitAll (res : dict K (list W)) (kvs : list (K * W)) : dict K (list W) :=
  fold_left (fun d kv =>
    let d' := if dmem (fst kv) d then d else dset (fst kv) [] d in
    match dget (fst kv) d' with
    | Some vs => dset (fst kv) (vs ++ [snd kv]) d'
    | None => d' end) kvs res.
Definition mapResults (vs : list (list V)) : dict K (list W) :=
  fold_left (fun d v => emitAll d (mapper v)) vs [].
Definition mapReduce (sd : side) (t : table V) : result (list R) :=
  if alen (offax sd t) =? 0 then Err ImproperObjectAction
  else Ok (flat_map (fun kv => match reducer (fst kv) (snd kv) with Some r => [r] | None => [] end)
             (mapResults (vectors sd t))).
End MapReduce.
End Ops.

Arguments insertTable {V} _ _ _ _.
Arguments insertRows {V} _ _ _ _.
Arguments alignNames {V} _ _ _.
Arguments zip3 {V} _ _ _ _.
Arguments tableUnique {V E} _ _ _.
Arguments uniqueIndices {V E} _ _ _.
Arguments sortOrder {K} _ {A} _ _ _.
Arguments sortByFunction {V K} _ _ _ _ _.
Arguments sortByNames {V} _ _ _ _.
Arguments setVec {V} _ _ _ _.
Arguments vec {V} _ _ _.
Arguments transformLoop {V} _ _ _ _ _.
Arguments transform {V} _ _ _ _.
Arguments replaceLoop {V} _ _ _ _.
Arguments replace {V} _ _ _ _.
Arguments calculate {V} _ _ _ _.
Arguments calculateRows {V} _ _ _ _.
Arguments groupLoop {V K EK} _ _ _ _.
Arguments groupByFeature {V K EK} _ _ _.
Arguments groupCounts {V K EK} _ _.
Arguments emitAll {K EK W} _ _.
Arguments mapResults {V K EK W} _ _.
Arguments mapReduce {V K EK W R} _ _ _ _.
