(** Model of trainAndTestSets and of the two category encodings.
    Sources: /repo/nimble/core/data/base.py:520-680, 1518-1722, 5946-5985,
    list.py:528-533 (matrix.py and dataframe.py do the same on arrays),
    sparse.py:241-256, 784-797, _dataHelpers.py:463-505. *)
From Verif Require Import Base NamesModel TableModel TableOps SparseModel.
From Coq Require Import Qround.
Open Scope string_scope.
Open Scope list_scope.
Open Scope nat_scope.

(** Python [round] of a number to an integer: half to even.  The product
    [testFraction * n] is taken exactly (float rounding is not modelled). *)
Definition pyround (q : Q) : Z :=
  let f := Qfloor q in
  match Qcompare (q - inject_Z f) (1 # 2) with
  | Lt => f
  | Gt => (f + 1)%Z
  | Eq => if Z.even f then f else (f + 1)%Z
  end.

Section Split.
Variable V : Type.
(** [obj.points.copy(ids)], [obj.features.extract(ids)]: frontend then backend *)
Definition copyIds (sd : side) (t : table V) (ids : list ident) : result (table V) :=
  tg <- getTargets sd t (TIds ids) None None None false [] ;; taken sd t tg.
Definition extractIds (sd : side) (t : table V) (ids : list ident) : result (table V * table V) :=
  tg <- getTargets sd t (TIds ids) None None None false [] ;;
  ret <- taken sd t tg ;; rest <- remaining sd t tg ;; Ok (rest, ret).
Definition deleteIds (sd : side) (t : table V) (ids : list ident) : result (table V) :=
  rmap fst (extractIds sd t ids).
Definition intIds (l : list nat) : list ident := map (fun i => IdInt (Z.of_nat i)) l.

Inductive labelsArg := LNone | LObj (o : table V) | LIds (l : list ident).
Inductive splitResult :=
| Two (trainX testX : table V) | Four (trainX trainY testX testY : table V).

(** base.py:1667 *)
Definition testSize (fraction : Q) (n : nat) : nat := Z.to_nat (pyround (fraction * inject_Z (Z.of_nat n))).

(** base.py:5946-5985 [_validateEqualNames('point','point')] *)
Definition validateEqualPointNames (t o : table V) : result unit :=
  match getNamesNoGeneration (tp t), getNamesNoGeneration (tp o) with
  | Some l, Some r => match inconsistentNames l r with [] => Ok tt | _ => Err InvalidArgumentValue end
  | _, _ => Ok tt
  end.

(** base.py:1658-1722.  [order] is [list(range(n))], or the shuffled list the
    random source produced. *)
Definition trainAndTestSets (t : table V) (fraction : Q) (labels : labelsArg) (order : list nat)
  : result splitResult :=
  if negb (Qle_bool 0 fraction && Qle_bool fraction 1) then Err InvalidArgumentValue
  else
    let testXSize := testSize fraction (alen (tp t)) in
    let splitIndex := alen (tp t) - testXSize in
    trainX <- copyIds Pts t (intIds (firstn splitIndex order)) ;;
    testX <- copyIds Pts t (intIds (skipn splitIndex order)) ;;
    match labels with
    | LNone => Ok (Two trainX testX)
    | LObj o =>
        if negb (alen (tp o) =? alen (tp t)) then Err InvalidArgumentValue
        else
          _ <- validateEqualPointNames t o ;;
          trainY <- copyIds Pts o (intIds (firstn splitIndex order)) ;;
          testY <- copyIds Pts o (intIds (skipn splitIndex order)) ;;
          let namesInBoth :=
            if namesCreated (tf t) && namesCreated (tf o)
            then flat_map (fun n => match n with
                                    | Some s => if dmem s (names_dict (tf t)) then [s] else []
                                    | None => [] end) (getNames (tf o))
            else [] in
          match namesInBoth with
          | [] => Ok (Four trainX trainY testX testY)
          | _ =>
              trainX' <- deleteIds Fts trainX (map IdStr namesInBoth) ;;
              testX' <- deleteIds Fts testX (map IdStr namesInBoth) ;;
              Ok (Four trainX' trainY testX' testY)
          end
    | LIds ids =>
        let toExtract := if testXSize =? 0 then [] else ids in
        train <- extractIds Fts trainX toExtract ;;
        test <- extractIds Fts testX toExtract ;;
        Ok (Four (fst train) (snd train) (fst test) (snd test))
    end.
End Split.
Arguments LNone {V}.
Arguments LObj {V} _.
Arguments LIds {V} _.
Arguments Two {V} _ _.
Arguments Four {V} _ _ _ _.
Arguments copyIds {V} _ _ _.
Arguments extractIds {V} _ _ _.
Arguments deleteIds {V} _ _ _.
Arguments trainAndTestSets {V} _ _ _ _.

Section Encode.
Variable V : Type.
Context {EV : EqDec V}.
Variables zero one : V.
Variable ofNat : nat -> V.
(** base.py:648-672 [applyMap]: state (mapping, mapped, integerValue) *)
Definition mapState := (dict V nat * list nat * nat)%type.
Definition mapStep (st : mapState) (val : V) : mapState :=
  let '(mapping, mapped, integerValue) := st in
  match dget val mapping with
  | Some k => (mapping, mapped ++ [k], integerValue)
  | None =>
      if eqbd val zero then
        (dset zero 0 (map (fun kv => (fst kv, S (snd kv))) mapping), map S mapped ++ [0], S integerValue)
      else (dset val integerValue mapping, mapped ++ [integerValue], S integerValue)
  end.
Definition applyMap (ft : list V) : list nat * dict V nat :=
  let '(mapping, mapped, _) := fold_left mapStep ft ([], [], 0) in (mapped, mapping).
(** base.py:605-680 [transformFeatureToIntegers] *)
Definition featureToIntegers (t : table V) (feature : ident) : table V * result (dict nat V) :=
  if alen (tp t) =? 0 then (t, Err ImproperObjectAction)
  else match getIndex (tf t) feature false with
  | Err e => (t, Err e)
  | Ok ix =>
      match transform Fts (fun ft => Ok (map ofNat (fst (applyMap ft)))) (Some [IdInt ix]) t with
      | (t', Err e) => (t', Err e)
      | (t', Ok _) =>
          (t', Ok (dict_of (map (fun kv => (snd kv, fst kv)) (snd (applyMap (column t (Z.to_nat ix)))))))
      end
  end.

(** the keys of [countUniqueElements] on a single feature
    (_dataHelpers.py:463-505): first occurrences, brought into the order
    [arrange] (np.unique sorts numeric data). *)
Fixpoint dedup (seen : list V) (l : list V) : list V :=
  match l with
  | [] => []
  | v :: t => if mem v seen then dedup seen t else v :: dedup (v :: seen) t
  end.
Variable arrange : list V -> list V.
Definition uniqueVals (col : list V) : list V := arrange (dedup [] col).
(** list.py:528-533 *)
Definition binaryRows (uniq col : list V) : result (list (list V)) :=
  let uniqueIdx := dict_of (combine uniq (seq 0 (List.length uniq))) in
  rmapM (fun v => match dget v uniqueIdx with
                  | Some k => Ok (upd (repeat zero (List.length uniq)) k one)
                  | None => Err KeyErr end) col.
Variable str : V -> string.
Variable dec : nat -> string.
(** base.py:567-602 [replaceFeatureWithBinaryFeatures]; the feature is
    extracted before anything else can fail. *)
Definition replaceWithBinary (t : table V) (feature : ident) : table V * result (list string) :=
  if alen (tp t) =? 0 then (t, Err ImproperObjectAction)
  else match getIndex (tf t) feature false with
  | Err e => (t, Err e)
  | Ok ix =>
      match extractIds Fts t [IdInt ix] with
      | Err e => (t, Err e)
      | Ok (rest, replaced) =>
          let col := column replaced 0 in
          let uniq := uniqueVals col in
          let r :=
            rs <- binaryRows uniq col ;;
            pa <- initAxis (alen (tp rest)) (getNamesNoGeneration (tp rest)) ;;
            prefix <- (if namesCreated (tf replaced) then
                         match nth 0 (getNames (tf replaced)) None with
                         | Some s => Ok s | None => Err TypeErr end
                       else Ok (dec (Z.to_nat ix))) ;;
            let ftNames := map (fun v => (prefix ++ "=" ++ str v)%string) uniq in
            fa <- initAxis (List.length uniq) (Some (map Some ftNames)) ;;
            t' <- insertTable Fts rest (if alen (tf rest) =? 0 then None else Some (IdInt ix))
                    (mkTable pa fa rs) ;;
            Ok (t', ftNames) in
          match r with
          | Ok (t', names) => (t', Ok names)
          | Err e => (rest, Err e)
          end
      end
  end.
End Encode.
Arguments applyMap {V EV} _ _.
Arguments mapStep {V EV} _ _ _.
Arguments featureToIntegers {V EV} _ _ _ _.
Arguments dedup {V EV} _ _.
Arguments uniqueVals {V EV} _ _.
Arguments binaryRows {V EV} _ _ _ _.
Arguments replaceWithBinary {V EV} _ _ _ _ _ _ _.

Section SparseBinary.
Variable V : Type.
Context {EV : EqDec V}.
Variable zero : V.
Variable arrange : list V -> list V.
(** sparse.py:241-256 on a one-feature object: the stored values, then 0 if
    some element is not stored. *)
Definition sparseUnique (s : sparse V) : list V :=
  uniqueVals arrange (map ev (ents s)) ++
  (if List.length (ents s) <? snp s * snf s then [zero] else []).
(** sparse.py:784-797; the result is a Sparse of numbers *)
Definition sparseBinary (s : sparse V) : result (sparse nat) :=
  let uniq := sparseUnique s in
  let uniqueIdx := dict_of (combine uniq (seq 0 (List.length uniq))) in
  es <- rmapM (fun e => match dget (ev e) uniqueIdx with
                        | Some k => Ok (mkE (er e) k 1) | None => Err KeyErr end) (ents s) ;;
  Ok (mkSp (snp s) (List.length uniq) es None None).
End SparseBinary.
Arguments sparseUnique {V EV} _ _ _.
Arguments sparseBinary {V EV} _ _ _.
