(** Model of the records behind the dimensions of data objects. [self._dims] is
    a Python list, so two objects can hold the same list; some operations change
    that list in place and others replace it
    (/repo/nimble/core/data/base.py, axis.py). *)
From Coq Require Import QArith.
From Coq Require Import Ascii String.
From Verif Require Import Base HighModel.
From Coq Require Import List.
Import ListNotations.
Open Scope list_scope.
Open Scope nat_scope.

(** An object: the list its _dims attribute points to, and its own data. *)
Record dobj := { dref : nat; drows : list (list leaf) }.

(** The memory: the lists of dimensions, and the objects of the program in the
    order they were made. *)
Record world := { recs : list (list nat); objs : list dobj }.

(** The object as it presents itself: its data and the dimensions it reports. *)
Definition look (w : world) (d : dobj) : hobj :=
  {| hrows := drows d; hdims := nth (dref d) (recs w) [] |}.
Definition get (w : world) (x : nat) : result dobj :=
  match nth_error (objs w) x with Some d => Ok d | None => Err UnboundErr end.

(** A new object with a list of its own: self._dims = list(shape) (base.py 197),
    also _dims.copy() (base.py 3828, 5197). *)
Definition make (w : world) (o : hobj) : world :=
  {| recs := recs w ++ [hdims o];
     objs := objs w ++ [{| dref := length (recs w); drows := hrows o |}] |}.

(** Replacing the data and the list of an object: self._dims = [...]
    (base.py 3636, 4126, 4342), or _referenceFrom, which runs __init__ again
    (base.py 5672-5680, 197). *)
Definition replace (w : world) (x : nat) (o : hobj) : world :=
  {| recs := recs w ++ [hdims o];
     objs := upd (objs w) x {| dref := length (recs w); drows := hrows o |} |}.

(** Changing the data of an object and, in place, the list it points to
    (axis.py 1232, 1490, 1495: self._base._dims[shapeIdx] = ...). *)
Definition mutate (w : world) (x : nat) (d : dobj) (o : hobj) : world :=
  {| recs := upd (recs w) (dref d) (hdims o);
     objs := upd (objs w) x {| dref := dref d; drows := hrows o |} |}.

(** A new object that points to the list of an existing one:
    ret._dims = self._dims (base.py 5436). *)
Definition makeShared (w : world) (d : dobj) (o : hobj) : world :=
  {| recs := recs w; objs := objs w ++ [{| dref := dref d; drows := hrows o |}] |}.

(** Removing features (axis.py 1219-1232 with the feature axis, which
    limitedTo2D guards): the columns go and _dims[1] shrinks. *)
Definition dropAt {A} (l : list A) (is : list nat) : list A :=
  map snd (filter (fun p => negb (mem (fst p) is)) (combine (seq 0 (length l)) l)).
Definition featuresDelete (o : hobj) (js : list nat) : result hobj :=
  limitedTo2D o
    (match hdims o with
     | [d; f] => if forallb (fun j => j <? f) js
                 then Ok {| hrows := map (fun r => dropAt r js) (hrows o); hdims := [d; f - length js] |}
                 else Err IndexErr
     | _ => Err IndexErr
     end).

(** transpose (base.py 3597-3641, limitedTo2D). *)
Definition transposeObj (o : hobj) : result hobj :=
  limitedTo2D o
    (match hdims o with
     | [d; f] => Ok {| hrows := map (column (hrows o)) (seq 0 f); hdims := [f; d] |}
     | _ => Err IndexErr
     end).

(** The statements of a user's program, objects named by their number. *)
Inductive stmt :=
| SNew (o : hobj)                                   (* nimble.data *)
| SCopy (x : nat)                                   (* x.copy() *)
| SOperator (op : leaf -> leaf -> leaf) (x y : nat) (* x + y, x * y ... *)
| SInPlace (op : leaf -> leaf -> leaf) (x y : nat)  (* x += y ... *)
| SPointsCopy (x : nat) (is : list nat)             (* x.points.copy(is) *)
| SExtract (x : nat) (is : list nat)                (* x.points.extract(is) *)
| SRetain (x : nat) (is : list nat)                 (* x.points.retain(is) *)
| SInsert (x before y : nat)                        (* x.points.insert / append *)
| SFeaturesDelete (x : nat) (js : list nat)         (* x.features.delete(js) *)
| SPermute (x : nat) (order : list nat)             (* x.points.permute(order) *)
| STranspose (x : nat)
| SFlatten (x : nat) (byFeature : bool)
| SUnflatten (x : nat) (dims : list nat) (byFeature : bool).

(** "cannot contain duplicate values" (axis.py 1158-1166). *)
Definition distinct {A} (is : list nat) (r : result A) : result A :=
  if nodupb is then r else Err InvalidArgumentValue.

(** One statement. *)
Definition step (w : world) (s : stmt) : result world :=
  match s with
  | SNew o => Ok (make w o)
  | SCopy x => d <- get w x ;; Ok (make w (look w d))
  | SOperator op x y =>
      d <- get w x ;; e <- get w y ;;
      o <- binaryObj op (look w d) (look w e) ;; Ok (makeShared w d o)
  | SInPlace op x y =>
      d <- get w x ;; e <- get w y ;;
      o <- binaryObj op (look w d) (look w e) ;; Ok (replace w x o)
  | SPointsCopy x is =>
      d <- get w x ;; distinct is (o <- pointsCopy (look w d) is ;; Ok (make w o))
  | SExtract x is =>
      d <- get w x ;;
      distinct is (rr <- pointsExtract (look w d) is ;; Ok (make (mutate w x d (snd rr)) (fst rr)))
  | SRetain x is =>
      d <- get w x ;; distinct is (o <- pointsCopy (look w d) is ;; Ok (replace w x o))
  | SInsert x before y =>
      d <- get w x ;; e <- get w y ;;
      o <- pointsInsert (look w d) before (look w e) ;; Ok (mutate w x d o)
  | SFeaturesDelete x js =>
      d <- get w x ;; distinct js (o <- featuresDelete (look w d) js ;; Ok (mutate w x d o))
  | SPermute x order =>
      d <- get w x ;;
      (if negb (length order =? fst (shapeOf (look w d))) then Err InvalidArgumentValue
       else distinct order
         (o <- pointsPermute (look w d) order ;;
          Ok {| recs := recs w; objs := upd (objs w) x {| dref := dref d; drows := hrows o |} |}))
  | STranspose x => d <- get w x ;; o <- transposeObj (look w d) ;; Ok (replace w x o)
  | SFlatten x byF => d <- get w x ;; o <- flattenObj (look w d) byF ;; Ok (replace w x o)
  | SUnflatten x dims byF => d <- get w x ;; o <- unflattenObj (look w d) dims byF ;; Ok (replace w x o)
  end.

(** A program: a statement that raises leaves the objects as they were and the
    program goes on. *)
Fixpoint runAll (w : world) (p : list stmt) : world :=
  match p with
  | [] => w
  | s :: r => runAll (match step w s with Ok w' => w' | Err _ => w end) r
  end.

(** No object has been made yet. *)
Definition empty : world := {| recs := []; objs := [] |}.

(** What a user can see of all the objects. *)
Definition seen (w : world) : list hobj := map (look w) (objs w).

(** _treatAs2D (base.py 412-430): the block sees a two-dimensional list of its
    own; the original list is put back when the block ends, also when it
    raises. [block] is what happens inside. *)
Definition treatAs2D {A} (w : world) (x : nat) (block : world -> world * result A) : result (world * result A) :=
  d <- get w x ;;
  (if isHigh (look w d) then
     let (p, f) := shapeOf (look w d) in
     let w1 := {| recs := recs w ++ [[p; f]];
                  objs := upd (objs w) x {| dref := length (recs w); drows := drows d |} |} in
     let (w2, r) := block w1 in
     Ok ({| recs := recs w2;
            objs := match nth_error (objs w2) x with
                    | Some d2 => upd (objs w2) x {| dref := dref d; drows := drows d2 |}
                    | None => objs w2 end |}, r)
   else Ok (block w)).
