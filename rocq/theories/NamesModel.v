(** Model of the naming half of an axis (points or features).
    Source: /repo/nimble/core/data/axis.py *)
From Verif Require Import Base.
From Coq Require Export QArith.
Open Scope nat_scope.

(** An identifier as accepted by [_getIndex] (axis.py:321-351).  Numpy
    integers are [IdInt]; floats are rationals (nan and inf fail the
    [identifier % 1] test like any non-integral float); everything else is
    [IdOther]. *)
Inductive ident := IdInt (z : Z) | IdStr (s : string) | IdFloat (q : Q) | IdOther.

(** An axis: its length (axis.py:110-113, read from the base's shape) and the
    pair of attributes [self.names] (dict name -> index, in insertion order)
    and [self.namesInverse] (list of name-or-None); both are None until names
    are created (axis.py:98-104). *)
Record axis := mkAxis {
  alen : nat;
  astate : option (dict string nat * list (option string)) }.

(** axis.py:1014-1015 [_namesCreated] *)
Definition namesCreated (a : axis) : bool :=
  match astate a with Some _ => true | None => false end.

(** axis.py:1017-1019 [_setAllDefault] *)
Definition setAllDefault (a : axis) : axis :=
  mkAxis (alen a) (Some ([], repeat None (alen a))).

(** the [if not self._namesCreated(): self._setAllDefault()] prologue of
    axis.py:186-187, 192-193, 1027-1028 *)
Definition ensure (a : axis) : axis :=
  if namesCreated a then a else setAllDefault a.

Definition names_dict (a : axis) : dict string nat :=
  match astate a with Some (d, _) => d | None => [] end.
Definition names_inv (a : axis) : list (option string) :=
  match astate a with Some (_, l) => l | None => repeat None (alen a) end.

(** axis.py:185-189 [_getName]; Python list indexing wraps negative indices
    and raises IndexError out of range. *)
Definition getName (a : axis) (index : Z) : result (option string) :=
  let l := names_inv (ensure a) in
  let i := if (index <? 0)%Z then (index + Z.of_nat (List.length l))%Z else index in
  if (i <? 0)%Z then Err IndexErr
  else match nth_error l (Z.to_nat i) with Some x => Ok x | None => Err IndexErr end.

(** axis.py:191-195 [_getNames] *)
Definition getNames (a : axis) : list (option string) := names_inv (ensure a).

(** axis.py:1021-1024 [_getNamesNoGeneration] *)
Definition getNamesNoGeneration (a : axis) : option (list (option string)) :=
  if namesCreated a then Some (getNames a) else None.

(** axis.py:1026-1045 [_getIndexByName]; the closest-match suggestion only
    changes the message of the KeyError. *)
Definition getIndexByName (a : axis) (s : string) : result nat :=
  match dget s (names_dict (ensure a)) with Some i => Ok i | None => Err KeyErr end.

(** [identifier % 1] is truthy; [int(identifier)] (axis.py:337-344). *)
Definition q_integral (q : Q) : bool := Z.eqb (Z.modulo (Qnum q) (QDen q)) 0.
Definition q_to_int (q : Q) : Z := Z.quot (Qnum q) (QDen q).

(** axis.py:321-351 [_getIndex].  Note that the float branch returns
    [int(identifier)] without the wrap or the range check of the int branch. *)
Definition getIndex (a : axis) (identifier : ident) (allowFloats : bool) : result Z :=
  let num := Z.of_nat (alen a) in
  if (num =? 0)%Z then Err IndexErr
  else match identifier with
  | IdInt z =>
      let i := if (z <? 0)%Z then (num + z)%Z else z in
      if (i <? 0)%Z || (num <=? i)%Z then Err IndexErr else Ok i
  | IdStr s => rmap Z.of_nat (getIndexByName a s)
  | IdFloat q =>
      if allowFloats then
        if q_integral q then Ok (q_to_int q) else Err KeyErr
      else Err InvalidArgumentType
  | IdOther => Err InvalidArgumentType
  end.

(** The state left behind by a call that goes through [_getIndexByName]
    (it may create default names): axis.py:1027-1028. *)
Definition getIndex_state (a : axis) (identifier : ident) : axis :=
  match identifier with
  | IdStr _ => if alen a =? 0 then a else ensure a
  | _ => a
  end.

(** One entry of an [assignments] container: a string, None, or some other
    object (tagged, so that equal objects compare equal). *)
Inductive newname := NStr (s : string) | NNone | NOther (tag : nat).
#[export] Instance EqDec_newname : EqDec newname.
Proof. unfold EqDec; decide equality; apply eq_dec. Defined.

(** A value of an [assignments] dict: an int or something else. *)
Inductive dval := DInt (z : Z) | DOther.

(** The accepted shapes of [assignments] (axis.py:205-216); tuples, iterators
    and numpy arrays become lists there. *)
Inductive assignments :=
| ANone | AStr (s : string) | ANumber
| AList (l : list newname)
| ADict (d : dict newname dval).

(** The accepted shapes of [oldIdentifiers] (axis.py:264-271); a dict is
    iterated by key, i.e. as the list of its keys. *)
Inductive oldids := ONone | OOne (i : ident) | OList (l : list ident) | OBad.

(** axis.py:229-236: the loop turning a list into a name -> index dict,
    rejecting duplicates; None is not recorded. *)
Fixpoint listToDict (i : nat) (l : list newname) (names : dict newname dval)
  : result (dict newname dval) :=
  match l with
  | [] => Ok names
  | name :: t =>
      if dmem name names then Err InvalidArgumentValue
      else match name with
           | NNone => listToDict (S i) t names
           | _ => listToDict (S i) t (dset name (DInt (Z.of_nat i)) names)
           end
  end.

(** axis.py:244-256: validation of every dict entry while building the
    reverse map. *)
Fixpoint buildReverse (count : nat) (items : dict newname dval)
    (rev : list (option string)) (out : dict string nat)
  : result (dict string nat * list (option string)) :=
  match items with
  | [] => Ok (out, rev)
  | (name, value) :: t =>
      match name with
      | NStr s =>
          match value with
          | DInt z =>
              if (z <? 0)%Z || (Z.of_nat count <=? z)%Z then Err InvalidArgumentValue
              else buildReverse count t (upd rev (Z.to_nat z) (Some s))
                     (out ++ [(s, Z.to_nat z)])
          | DOther => Err InvalidArgumentValue
          end
      | _ => Err InvalidArgumentValue
      end
  end.

Definition newname_opt (n : newname) : option string :=
  match n with NStr s => Some s | _ => None end.

Definition assignments_len (asg : assignments) : nat :=
  match asg with
  | ANone | AStr _ => 1 | ANumber => 0
  | AList l => List.length l | ADict d => List.length d
  end.
(** iterating the container: for a dict, its keys *)
Definition assignments_iter (asg : assignments) : list newname :=
  match asg with
  | ANone => [NNone] | AStr s => [NStr s] | ANumber => []
  | AList l => l | ADict d => dkeys d
  end.

(** axis.py:219-259: all names replaced. *)
Definition setNames_all (a : axis) (asg : assignments) : axis * result unit :=
  let count := alen a in
  if negb (assignments_len asg =? count) then (a, Err InvalidArgumentValue)
  else if count =? 0 then (mkAxis count (Some ([], [])), Ok tt)
  else
    let names := match asg with
                 | ADict d => Ok (ddel NNone d)
                 | _ => listToDict 0 (assignments_iter asg) []
                 end in
    match rbind names (fun items => buildReverse count items (repeat None count) []) with
    | Ok st => (mkAxis count (Some st), Ok tt)
    | Err e => (a, Err e)
    end.

(** axis.py:284-291: resolving the old identifiers. *)
Fixpoint resolveOld (a : axis) (ids : list ident) : result (list (option string * nat)) :=
  match ids with
  | [] => Ok []
  | id :: t =>
      index <- getIndex a id false ;;
      (let oldName :=
         match id with
         | IdStr s => if dmem s (names_dict a) then Some s
                      else nth (Z.to_nat index) (names_inv a) None
         | _ => nth (Z.to_nat index) (names_inv a) None
         end in
       rest <- resolveOld a t ;; Ok ((oldName, Z.to_nat index) :: rest))
  end.

(** axis.py:296-306: none of the new names may already be in use (except by
    the very index it is assigned to) and all must be strings or None. *)
Fixpoint checkNew (a : axis) (items : dict newname nat) : result unit :=
  match items with
  | [] => Ok tt
  | (name, index) :: t =>
      match name with
      | NStr s =>
          if dmem s (names_dict a) then
            if eqbd (nth index (names_inv a) None) (Some s) then checkNew a t
            else Err InvalidArgumentValue
          else checkNew a t
      | NNone => checkNew a t
      | NOther _ => Err InvalidArgumentValue
      end
  end.

(** axis.py:308-310: [del self.names[name]] for the old names; a missing key
    would be a KeyError in the middle of the update. *)
Fixpoint deleteOld (names : dict string nat) (old : dict (option string) nat)
  : dict string nat * result unit :=
  match old with
  | [] => (names, Ok tt)
  | (None, _) :: t => deleteOld names t
  | (Some s, _) :: t =>
      if dmem s names then deleteOld (ddel s names) t else (names, Err KeyErr)
  end.

(** axis.py:311-314 *)
Fixpoint writeNew (names : dict string nat) (inv : list (option string))
    (items : dict newname nat) : dict string nat * list (option string) :=
  match items with
  | [] => (names, inv)
  | (name, index) :: t =>
      let inv' := upd inv index (newname_opt name) in
      match name with
      | NStr s => writeNew (dset s index names) inv' t
      | _ => writeNew names inv' t
      end
  end.

(** axis.py:261-319: replacing the names of the given identifiers. *)
Definition setNames_some (a0 : axis) (asg : assignments) (old : oldids) : axis * result unit :=
  match old with
  | OBad => (a0, Err InvalidArgumentType)
  | _ =>
    let ids := match old with OOne i => [i] | OList l => l | _ => [] end in
    if alen a0 =? 0 then (a0, Err ImproperObjectAction)
    else if (assignments_len asg <=? alen a0) && (assignments_len asg =? List.length ids) then
      let a := ensure a0 in
      match resolveOld a ids with
      | Err e => (a, Err e)
      | Ok olds =>
          let old_dict := dict_of olds in
          let assignments_dict := dict_of (combine (assignments_iter asg) (map snd olds)) in
          match checkNew a assignments_dict with
          | Err e => (a, Err e)
          | Ok _ =>
              let (names1, r) := deleteOld (names_dict a) old_dict in
              match r with
              | Err e => (mkAxis (alen a) (Some (names1, names_inv a)), Err e)
              | Ok _ => (mkAxis (alen a) (Some (writeNew names1 (names_inv a) assignments_dict)),
                         Ok tt)
              end
          end
      end
    else (a0, Err InvalidArgumentValue)
  end.

(** axis.py:198-319 [_setNames]; the public setNames of points.py / features.py
    forwards its arguments to it. *)
Definition setNames (a : axis) (asg : assignments) (old : oldids) : axis * result unit :=
  match asg, old with
  | ANone, ONone => (mkAxis (alen a) None, Ok tt)
  | ANumber, _ => (a, Err InvalidArgumentType)
  | _, ONone => setNames_all a asg
  | _, _ => setNames_some a asg old
  end.

(** ** Other operations that rewrite the names of an axis *)

(** axis.py:461-487 [_permute], the names part: for n <= 1 nothing happens;
    otherwise the names are reordered and set again. [order] has been checked
    to be a rearrangement of the indices (see TableModel). *)
Definition permuteNames (a : axis) (order : list nat) : axis * result unit :=
  if alen a <=? 1 then (a, Ok tt)
  else if namesCreated a then
    match gather (getNames a) order with
    | Ok l => setNames a (AList (map (fun o => match o with Some s => NStr s | None => NNone end) l)) ONone
    | Err e => (a, Err e)
    end
  else (a, Ok tt).

(** axis.py:1229-1240: names left after an extract/delete of [targets]
    (names dict rebuilt in index order). *)
Fixpoint reindex (idx : nat) (targets : list nat) (inv : list (option string))
    (names : dict string nat) (out : list (option string))
  : dict string nat * list (option string) :=
  match inv with
  | [] => (names, out)
  | v :: t =>
      if mem idx targets then reindex (S idx) targets t names out
      else
        let names' := match v with Some s => dset s (List.length out) names | None => names end in
        reindex (S idx) targets t names' (out ++ [v])
  end.
Definition removeNames (a : axis) (targets : list nat) : axis :=
  let n' := alen a - List.length targets in
  match astate a with
  | None => mkAxis n' None
  | Some (d, inv) => mkAxis n' (Some (reindex 0 targets inv [] []))
  end.

Definition to_newname (o : option string) : newname :=
  match o with Some s => NStr s | None => NNone end.

(** axis.py:1338-1360 [_validateEmptyNamesIntersection] and 1480-1501
    [_setInsertedCountAndNames]. *)
Definition insertNames (a b : axis) (before : nat) : axis * result unit :=
  if namesCreated a && namesCreated b &&
     existsb (fun s => mem s (dkeys (names_dict b))) (dkeys (names_dict a))
  then (a, Err InvalidArgumentValue)
  else
    let n' := alen a + alen b in
    if negb (namesCreated a || namesCreated b) then (mkAxis n' None, Ok tt)
    else
      let objNames := getNames a in
      let insNames := getNames b in
      let newNames := firstn before objNames ++ insNames ++ skipn before objNames in
      setNames (mkAxis n' (Some (names_dict (ensure a), names_inv (ensure a))))
               (AList (map to_newname newNames)) ONone.

(** ** Multiple identifiers *)

(** Python [range(start, stop, step)] (None: ValueError for step 0). *)
Definition pyrange (start stop step : Z) : result (list Z) :=
  if (step =? 0)%Z then Err ValueErr
  else
    let n := if (0 <? step)%Z then ((stop - start + step - 1) / step)%Z
             else ((start - stop - step - 1) / (- step))%Z in
    Ok (map (fun k => (start + Z.of_nat k * step)%Z) (seq 0 (Z.to_nat n))).

(** An element of a key list: a bool or an identifier. *)
Inductive keyelt := KBool (b : bool) | KId (i : ident).
Inductive key := KSlice (start stop : option ident) (step : option Z) | KList (l : list keyelt).

(** Python truthiness of a key element. *)
Definition truthy (k : keyelt) : bool :=
  match k with
  | KBool b => b
  | KId (IdInt z) => negb (z =? 0)%Z
  | KId (IdStr s) => negb (String.eqb s "")
  | KId (IdFloat q) => negb (Z.eqb (Qnum q) 0)
  | KId IdOther => true
  end.

Definition isBool (k : keyelt) : bool := match k with KBool _ => true | _ => false end.

Fixpoint truePositions (i : nat) (l : list keyelt) : list Z :=
  match l with
  | [] => []
  | k :: t => if truthy k then Z.of_nat i :: truePositions (S i) t else truePositions (S i) t
  end.

(** A bool is an int for [_getIndex]: True = 1, False = 0. *)
Definition keyIdent (k : keyelt) : ident :=
  match k with KBool true => IdInt 1 | KBool false => IdInt 0 | KId i => i end.

Definition allIndices (n : nat) : list Z := map Z.of_nat (seq 0 n).

(** axis.py:1047-1098 [_processMultiple].  [Ok None] is "full selection". *)
Definition processMultiple (a : axis) (k : key) : result (option (list Z)) :=
  let length := alen a in
  match k with
  | KSlice None None None => Ok None
  | KSlice st sp se =>
      let start := match st with Some i => i | None => IdInt 0 end in
      let stop := match sp with Some i => i | None => IdInt (Z.of_nat length - 1) end in
      let step := match se with Some z => z | None => 1%Z end in
      start <- getIndex a start true ;;
      stop <- getIndex a stop true ;;
      if (start =? 0)%Z && (stop =? Z.of_nat length - 1)%Z && (step =? 1)%Z then Ok None
      else
        let stop' := if (0 <? step)%Z then (stop + 1)%Z else (stop - 1)%Z in
        rmap Some (pyrange start stop' step)
  | KList l =>
      let numBool := List.length (filter isBool l) in
      if numBool =? length then Ok (Some (truePositions 0 l))
      else if 0 <? numBool then Err KeyErr
      else
        idx <- rmapM (fun e => getIndex a (keyIdent e) true) l ;;
        if eqbd idx (allIndices length) then Ok None
        else if nodupb idx then Ok (Some idx) else Err KeyErr
  end.
