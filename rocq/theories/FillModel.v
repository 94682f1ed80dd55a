(** Model of nimble.fill and points/features.fillMatching.
    Sources: /repo/nimble/fill/fill.py:29-33 (_booleanElementMatch), 35-92
    (constant), 274-353 (forwardFill), 355-437 (backwardFill), 439-515
    (interpolate), 521-547 (statsBackend); core/data/axis.py:757-803
    (_fillMatching).  A vector is the list of its values, a match is the list of
    booleans [toFill] (the match function applied to every value, or the given
    boolean vector).  The intermediate Nimble objects (points.calculate of one
    vector) are the lists themselves. *)
From Verif Require Import Base NamesModel TableModel TableOps.
From Coq Require Import QArith.
Open Scope nat_scope.

Section Fill.
Variable V : Type.
Implicit Types vs : list V.

(** fill.py:83-91 [constant] *)
Definition fillConstant (c : V) vs (toFill : list bool) : result (list V) :=
  Ok (map (fun p : V * bool => if snd p then c else fst p) (combine vs toFill)).

(** fill.py:334-352 [forwardFill]; [prev] is [ret[-1]] *)
Fixpoint forwardLoop (prev : option V) (l : list (V * bool)) : result (list V) :=
  match l with
  | [] => Ok []
  | (v, true) :: r =>
      match prev with
      | None => Err IndexErr
      | Some p => rest <- forwardLoop prev r ;; Ok (p :: rest)
      end
  | (v, false) :: r => rest <- forwardLoop (Some v) r ;; Ok (v :: rest)
  end.
Definition forwardFill vs (toFill : list bool) : result (list V) :=
  match toFill with
  | [] => Err IndexErr
  | true :: _ => Err InvalidArgumentValue
  | _ => forwardLoop None (combine vs toFill)
  end.

(** fill.py:415-436 [backwardFill]: the same from the end; [ret[idx + 1]] *)
Fixpoint backwardLoop (l : list (V * bool)) : result (list V) :=
  match l with
  | [] => Ok []
  | (v, f) :: r =>
      rest <- backwardLoop r ;;
      if f then match rest with [] => Err IndexErr | x :: _ => Ok (x :: rest) end
      else Ok (v :: rest)
  end.
Definition backwardFill vs (toFill : list bool) : result (list V) :=
  match rev toFill with
  | [] => Err IndexErr
  | true :: _ => Err InvalidArgumentValue
  | _ => backwardLoop (combine vs toFill)
  end.

(** fill.py:521-547 [statsBackend]; the statistic is a parameter, [None] when
    it is not a number *)
Definition fillStat (stat : list V -> option V) vs (toFill : list bool) : result (list V) :=
  let unmatched := map fst (filter (fun p : V * bool => negb (snd p)) (combine vs toFill)) in
  if List.length unmatched =? List.length vs then Ok vs
  else match unmatched with
       | [] => Err InvalidArgumentValue
       | _ => match stat unmatched with
              | None => Err InvalidArgumentValue
              | Some s => fillConstant s vs toFill
              end
       end.

(** *** fillMatching (axis.py:757-803) *)
(** how [matchingElements] is given: a function of one value or an object of
    booleans *)
Inductive matching := MFun (m : V -> bool) | MMatrix (m : table bool).
(** [limitTo]: nothing, one identifier that is not a string, or an iterable of
    identifiers (a string is an iterable of its characters, 773) *)
Inductive limit := LAll | LSingle (i : ident) | LList (l : list ident).
Definition limitIds (l : limit) : option (list ident) :=
  match l with LAll => None | LSingle i => Some [i] | LList l => Some l end.

(** the boolean vectors [idxOrder] will produce (772-797), each looked up when
    it is needed *)
Definition maskAt (sd : side) (m : table bool) (id : ident) : result (list bool) :=
  z <- getIndex (ax sd m) id true ;;
  match nth_error (vectors sd m) (Z.to_nat z) with Some r => Ok r | None => Err IndexErr end.
(** as [transformLoop] (TableOps.v), the function taking the next mask *)
Fixpoint fillLoop (sd : side) (ff : list V -> list bool -> result (list V)) (lim : option (list nat))
    (js : list nat) (masks : list (result (list bool))) (t : table V) : table V * result unit :=
  match js with
  | [] => (t, Ok tt)
  | j :: js' =>
      if match lim with None => false | Some l => negb (mem j l) end
      then fillLoop sd ff lim js' masks t
      else
        match masks with
        | [] => (t, Err StopIter)
        | Err e :: _ => (t, Err e)
        | Ok m :: masks' =>
            match ff (vec sd t j) m with
            | Err e => (t, Err e)
            | Ok c =>
                if List.length c =? alen (offax sd t)
                then fillLoop sd ff lim js' masks' (setVec sd t j c)
                else (t, Err InvalidArgumentValue)
            end
        end
  end.
Definition fillMatching (sd : side) (ff : list V -> list bool -> result (list V)) (m : matching) (lim : limit)
    (t : table V) : table V * result unit :=
  match m with
  | MFun f => transform sd (fun v => ff v (map f v)) (limitIds lim) t
  | MMatrix mt =>
      match (match lim with LSingle i => rmap Some (getIndex (ax sd t) i false) | _ => Ok None end) with
      | Err e => (t, Err e)
      | Ok single =>
          let masks := match lim, single with
                       | LAll, _ => map (fun j => maskAt sd mt (IdInt (Z.of_nat j))) (seq 0 (alen (ax sd t)))
                       | LSingle _, Some z => [maskAt sd mt (IdInt z)]
                       | LSingle _, None => []
                       | LList l, _ => map (maskAt sd mt) l
                       end in
          if (alen (tp t) =? 0) || (alen (tf t) =? 0) then (t, Err ImproperObjectAction)
          else match limitIds lim with
               | None => fillLoop sd ff None (seq 0 (alen (ax sd t))) masks t
               | Some ids =>
                   match constructIndices (ax sd t) ids with
                   | Err e => (t, Err e)
                   | Ok l => fillLoop sd ff (Some l) (seq 0 (alen (ax sd t))) masks t
                   end
               end
      end
  end.
(** [limitTo] given as one string: [iter] splits it into characters (773), but
    [_transform] (801) takes the whole name *)
Fixpoint chars (s : string) : list ident :=
  match s with EmptyString => [] | String c r => IdStr (String c EmptyString) :: chars r end.
Definition fillMatchingNamed (sd : side) (ff : list V -> list bool -> result (list V)) (mt : table bool) (name : string)
    (t : table V) : table V * result unit :=
  if (alen (tp t) =? 0) || (alen (tf t) =? 0) then (t, Err ImproperObjectAction)
  else match constructIndices (ax sd t) [IdStr name] with
       | Err e => (t, Err e)
       | Ok l => fillLoop sd ff (Some l) (seq 0 (alen (ax sd t))) (map (maskAt sd mt) (chars name)) t
       end.
End Fill.
Arguments fillConstant {V} _ _ _.
Arguments forwardLoop {V} _ _.
Arguments forwardFill {V} _ _.
Arguments backwardLoop {V} _.
Arguments backwardFill {V} _ _.
Arguments fillStat {V} _ _ _.
Arguments MFun {V} _.
Arguments MMatrix {V} _.
Arguments fillLoop {V} _ _ _ _ _ _.
Arguments fillMatching {V} _ _ _ _ _.
Arguments fillMatchingNamed {V} _ _ _ _ _.

(** fill.py:478-515 [interpolate] with the default data points.  Values are
    exact rationals (floating-point rounding is not modelled). *)
Fixpoint locations (i : nat) (l : list (Q * bool)) : list nat * list (nat * Q) :=
  match l with
  | [] => ([], [])
  | (v, f) :: r =>
      let '(ms, us) := locations (S i) r in
      if f then (i :: ms, us) else (ms, (i, v) :: us)
  end.
(** numpy.interp at one place, for increasing [xp] *)
Fixpoint npInterp (pts : list (nat * Q)) (x : nat) : option Q :=
  match pts with
  | [] => None
  | (a, va) :: r =>
      match r with
      | [] => Some va
      | (b, vb) :: _ =>
          if x <? b then
            Some (if x <=? a then va
                  else ((vb - va) / (inject_Z (Z.of_nat b) - inject_Z (Z.of_nat a)) * (inject_Z (Z.of_nat x) - inject_Z (Z.of_nat a)) + va)%Q)
          else npInterp r x
      end
  end.
Fixpoint interpFill (i : nat) (matchedLoc : list nat) (tmpV : list Q) (vs : list Q) : result (list Q) :=
  match vs with
  | [] => Ok []
  | v :: r =>
      if mem i matchedLoc then
        match tmpV with
        | [] => Err IndexErr
        | x :: tmp => rest <- interpFill (S i) matchedLoc tmp r ;; Ok (x :: rest)
        end
      else rest <- interpFill (S i) matchedLoc tmpV r ;; Ok (v :: rest)
  end.
(** numpy.interp of a non-empty [x] with no data points is a ValueError *)
Fixpoint allSome {A} (l : list (option A)) : option (list A) :=
  match l with
  | [] => Some []
  | Some x :: r => option_map (cons x) (allSome r)
  | None :: _ => None
  end.
Definition interpolate (vs : list Q) (toFill : list bool) : result (list Q) :=
  let '(ms, us) := locations 0 (combine vs toFill) in
  match us with
  | [] => Err ValueErr
  | _ => match allSome (map (npInterp us) ms) with
         | None => Err ValueErr
         | Some tmp => interpFill 0 ms tmp vs
         end
  end.
