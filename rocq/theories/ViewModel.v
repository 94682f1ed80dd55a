(** Model of views, item assignment and replaceRectangle.
    Sources: /repo/nimble/core/data/base.py:2181-2426 (item assignment, view,
    pointView), 3879-4000 (replaceRectangle), views.py, list.py:535-567 and
    670-790 (ListView, ListPassThrough, FeatureViewer), matrix.py:400-428,
    sparse.py:408-561, 573-610, 872-972, 1300-1329. *)
From Verif Require Import Base NamesModel TableModel TableOps SparseModel.
Open Scope nat_scope.

(** ** Windows (base.py:2383-2426 [_view_backend], two dimensional data) *)

(** base.py:2388-2402: one axis; the result is (start, exclusive end).
    _dataHelpers.py:927-939 [validateRangeOrder]. *)
Definition viewRange (a : axis) (start stop : option ident) : result (nat * nat) :=
  s <- match start with None => Ok 0%Z | Some i => getIndex a i false end ;;
  match stop with
  | None => Ok (Z.to_nat s, alen a)
  | Some i =>
      e <- getIndex a i false ;;
      if (e <? s)%Z then Err InvalidArgumentValueCombination
      else Ok (Z.to_nat s, S (Z.to_nat e))
  end.

(** views.py:72-92: a view holds its source (passed separately below), its
    window and its own copy of the names in the window. *)
Record view := mkView { vps : nat; vpe : nat; vfs : nat; vfe : nat; vpa : axis; vfa : axis }.

(** views.py:83-88 and Axis.__init__: the names of the window, if the source
    has names ([namesInverse[start:end]]). *)
Definition windowAxis (a : axis) (lo hi : nat) : result axis :=
  initAxis (hi - lo)
    (match astate a with None => None | Some (_, inv) => Some (slice inv lo hi) end).

Section View.
Variable V : Type.
Implicit Types t : table V.

(** base.py:2383-2426 [_view_backend] on an object that is not a view. *)
Definition viewOf t (ps pe fs fe : option ident) : result view :=
  p <- viewRange (tp t) ps pe ;;
  f <- viewRange (tf t) fs fe ;;
  pa <- windowAxis (tp t) (fst p) (snd p) ;;
  fa <- windowAxis (tf t) (fst f) (snd f) ;;
  Ok (mkView (fst p) (snd p) (fst f) (snd f) pa fa).

(** views.py:113-147 [BaseView._view_backend], one axis: the adjusted
    arguments handed to the source.  Identifiers are looked up on the axis of
    the SOURCE and shifted by the start of the view. *)
Definition adjStart (a : axis) (lo : nat) (o : option ident) : result (option ident) :=
  match o with
  | None => Ok (if alen a =? 0 then None else Some (IdInt (Z.of_nat lo)))
  | Some i => z <- getIndex a i false ;; Ok (Some (IdInt (z + Z.of_nat lo)))
  end.
Definition adjStop (a : axis) (lo hi : nat) (o : option ident) : result (option ident) :=
  match o with
  | None => Ok (if alen a =? 0 then None else Some (IdInt (Z.of_nat hi - 1)))
  | Some i => z <- getIndex a i false ;; Ok (Some (IdInt (z + Z.of_nat lo)))
  end.
(** [v.view(...)] where [v] is a view of [t]: again a view of [t]. *)
Definition viewOfView t (v : view) (ps pe fs fe : option ident) : result view :=
  ps' <- adjStart (tp t) (vps v) ps ;;
  pe' <- adjStop (tp t) (vps v) (vpe v) pe ;;
  fs' <- adjStart (tf t) (vfs v) fs ;;
  fe' <- adjStop (tf t) (vfs v) (vfe v) fe ;;
  viewOf t ps' pe' fs' fe'.

(** base.py:2263-2294 [pointView] (and 2297-2326 [featureView]) called on a
    view: the identifier is resolved on the view's own axis. *)
Definition pointViewOfView t (v : view) (id : ident) : result view :=
  if alen (vpa v) =? 0 then Err ImproperObjectAction
  else z <- getIndex (vpa v) id false ;; viewOfView t v (Some (IdInt z)) (Some (IdInt z)) None None.
Definition featureViewOfView t (v : view) (id : ident) : result view :=
  if alen (vfa v) =? 0 then Err ImproperObjectAction
  else z <- getIndex (vfa v) id false ;; viewOfView t v None None (Some (IdInt z)) (Some (IdInt z)).

(** list.py:705-790: [ListPassThrough.__getitem__] then
    [FeatureViewer.__getitem__] (list.py:535-536 [_data[x][y]]). *)
Definition viewGet t (v : view) (x y : Z) : result V :=
  if (x <? 0)%Z || (Z.of_nat (vpe v - vps v) <=? x)%Z then Err IndexErr
  else if (y <? 0)%Z || (Z.of_nat (vfe v - vfs v) <=? y)%Z then Err IndexErr
  else match nth_error (rows t) (Z.to_nat x + vps v) with
       | None => Err IndexErr
       | Some r => match nth_error r (Z.to_nat y + vfs v) with
                   | None => Err IndexErr | Some c => Ok c end
       end.

(** The object a view presents (list.py:676-700 [_copy_implementation] and
    the numpy slices of matrix.py:409, dataframe.py:425): the rows of the
    source cut to the window. *)
Definition viewObj t (v : view) : table V :=
  mkTable (vpa v) (vfa v) (map (fun r => slice r (vfs v) (vfe v)) (slice (rows t) (vps v) (vpe v))).

(** ** Item assignment *)

(** a Python sequence index *)
Definition pyIndex (n : nat) (z : Z) : option nat :=
  let i := if (z <? 0)%Z then (z + Z.of_nat n)%Z else z in
  if (i <? 0)%Z || (Z.of_nat n <=? i)%Z then None else Some (Z.to_nat i).

(** list.py:538-539, matrix.py:403-404 *)
Definition setOne t (x y : Z) (c : V) : table V * result unit :=
  match pyIndex (List.length (rows t)) x with
  | None => (t, Err IndexErr)
  | Some i =>
      let r := nth i (rows t) [] in
      match pyIndex (List.length r) y with
      | None => (t, Err IndexErr)
      | Some j => (mkTable (tp t) (tf t) (upd (rows t) i (upd r j c)), Ok tt)
      end
  end.
Fixpoint setAll t (ps : list (Z * Z)) (c : V) : table V * result unit :=
  match ps with
  | [] => (t, Ok tt)
  | (x, y) :: rest =>
      match setOne t x y c with
      | (t', Ok _) => setAll t' rest c
      | (t', Err e) => (t', Err e)
      end
  end.

(** One component of the key: a number or string, or anything else. *)
Inductive skey := SOne (i : ident) | SMany (k : key).
Inductive sres := ROne (z : Z) | RMany (o : option (list Z)).
(** base.py:2238-2252 *)
Definition resolveKey (a : axis) (k : skey) : result sres :=
  match k with
  | SOne i => rmap ROne (getIndex a i true)
  | SMany k => rmap RMany (processMultiple a k)
  end.
(** base.py:2181-2260 [__setitem__] with a tuple key and one value.  Iterating
    an int or None is a TypeError.  (Default names that looking up a name may
    create are not recorded: they do not change [getNames].) *)
Definition setItem t (kx ky : skey) (c : V) : table V * result unit :=
  match resolveKey (tp t) kx with
  | Err e => (t, Err e)
  | Ok rx =>
    match resolveKey (tf t) ky with
    | Err e => (t, Err e)
    | Ok ry =>
      match rx, ry with
      | ROne x, ROne y => setOne t x y c
      | ROne _, RMany _ => (t, Err TypeErr)
      | RMany None, _ => (t, Err TypeErr)
      | RMany (Some xs), RMany (Some ys) => setAll t (list_prod xs ys) c
      | RMany (Some []), _ => (t, Ok tt)
      | RMany (Some (_ :: _)), _ => (t, Err TypeErr)
      end
    end
  end.
(** base.py:2231-2232: a key that is not a tuple. *)
Definition setItem1 t (kx : skey) (c : V) : table V * result unit :=
  setItem t kx (SMany (KSlice None None None)) c.

(** Item assignment through a view.  views.py does not override
    [__setitem__]: base.py:2181-2260 resolves the key on the view's axes and
    calls [_setitem_implementation] of the concrete type.  For a List view
    [self._data[x]] is a FeatureViewer, which does not support item assignment
    (a TypeError; list.py:703-742); for a Matrix view [self._data] is a numpy
    slice, which shares memory with the source (matrix.py:403-409). *)
Inductive vkind := VList | VMatrix.
Definition viewSetOne (k : vkind) t (v : view) (x y : Z) (c : V) : table V * result unit :=
  match k with
  | VList => if (x <? 0)%Z || (Z.of_nat (vpe v - vps v) <=? x)%Z then (t, Err IndexErr) else (t, Err TypeErr)
  | VMatrix =>
      match pyIndex (vpe v - vps v) x, pyIndex (vfe v - vfs v) y with
      | Some i, Some j => setOne t (Z.of_nat (i + vps v)) (Z.of_nat (j + vfs v)) c
      | _, _ => (t, Err IndexErr)
      end
  end.
Fixpoint viewSetAll (k : vkind) t (v : view) (ps : list (Z * Z)) (c : V) : table V * result unit :=
  match ps with
  | [] => (t, Ok tt)
  | (x, y) :: rest =>
      match viewSetOne k t v x y c with
      | (t', Ok _) => viewSetAll k t' v rest c
      | (t', Err e) => (t', Err e)
      end
  end.
Definition viewSetItem (k : vkind) t (v : view) (kx ky : skey) (c : V) : table V * result unit :=
  match resolveKey (vpa v) kx with
  | Err e => (t, Err e)
  | Ok rx =>
    match resolveKey (vfa v) ky with
    | Err e => (t, Err e)
    | Ok ry =>
      match rx, ry with
      | ROne x, ROne y => viewSetOne k t v x y c
      | ROne _, RMany _ => (t, Err TypeErr)
      | RMany None, _ => (t, Err TypeErr)
      | RMany (Some xs), RMany (Some ys) => viewSetAll k t v (list_prod xs ys) c
      | RMany (Some []), _ => (t, Ok tt)
      | RMany (Some (_ :: _)), _ => (t, Err TypeErr)
      end
    end
  end.

(** The public methods of Base, Points and Features that modify the object
    they are called on. *)
Inductive axisMethod :=
| AMsetNames | AMextract | AMdelete | AMretain | AMinsert | AMappend | AMpermute | AMsort
| AMtransform | AMfillMatching | AMreplace.
Inductive method :=
| MBinaryFeatures | MToIntegers | MTransformElements | MTranspose | MReplaceRectangle
| MFlatten | MUnflatten | MMerge
| MInPlace (op : string)   (* one of the eight in-place operators *)
| MAxis (sd : side) (m : axisMethod)
| MSplitByCollapsing | MCombineByExpanding | MNormalize | MSplitByParsing
| MSetItem (kx ky : skey) (c : V).
Definition inPlaceOps : list string :=
  ["__imatmul__"; "__imul__"; "__iadd__"; "__isub__"; "__itruediv__"; "__ifloordiv__"; "__imod__"; "__ipow__"]%string.
(** views.py: which methods BaseView (167-270), PointsView (273-352) and
    FeaturesView (354-430) override by [readOnlyException]
    (_dataHelpers.py:226-233, an ImproperObjectAction). *)
Definition overridden (m : method) : bool :=
  match m with
  | MInPlace op => mem op inPlaceOps
  | MSetItem _ _ _ => false
  | _ => true
  end.
Definition viewCall (k : vkind) t (v : view) (m : method) : table V * result unit :=
  if overridden m then (t, Err ImproperObjectAction)
  else match m with
       | MSetItem kx ky c => viewSetItem k t v kx ky c
       | _ => (t, Err AttributeErr)   (* unknown operator *)
       end.

(** ** replaceRectangle (base.py:3879-4000) *)

(** base.py:3947-3996 when the replacement is an object of [n] points and [m]
    features; both ends exclusive.  The default of featureEnd uses the number
    of POINTS of the replacement (base.py:3966). *)
Definition rectObj (ap af : axis) (n m : nat) (ps fs : ident) (pe fe : option ident)
  : result (nat * nat * nat * nat) :=
  p <- getIndex ap ps false ;;
  f <- getIndex af fs false ;;
  p' <- match pe with
        | None => Ok (p + Z.of_nat n)%Z
        | Some i => e <- getIndex ap i false ;;
                    if (Z.of_nat n =? e - p + 1)%Z then Ok (e + 1)%Z else Err InvalidArgumentValueCombination
        end ;;
  f' <- match fe with
        | None => Ok (f + Z.of_nat n)%Z
        | Some i => e <- getIndex af i false ;;
                    if (Z.of_nat m =? e - f + 1)%Z then Ok (e + 1)%Z else Err InvalidArgumentValueCombination
        end ;;
  Ok (Z.to_nat p, Z.to_nat p', Z.to_nat f, Z.to_nat f').
(** base.py:3976-3990 when it is a number *)
Definition rectConst (ap af : axis) (ps fs : ident) (pe fe : option ident)
  : result (nat * nat * nat * nat) :=
  p <- getIndex ap ps false ;;
  f <- getIndex af fs false ;;
  match pe, fe with
  | None, _ | _, None => Err InvalidArgumentValue
  | Some pe, Some fe =>
      p' <- getIndex ap pe false ;;
      f' <- getIndex af fe false ;;
      if (p' <? p)%Z then Err InvalidArgumentValueCombination
      else if (f' <? f)%Z then Err InvalidArgumentValueCombination
      else Ok (Z.to_nat p, S (Z.to_nat p'), Z.to_nat f, S (Z.to_nat f'))
  end.

(** Python [row[a:b] = fill] on a list *)
Definition sliceAssign {A} (row : list A) (a b : nat) (fill : list A) : list A :=
  firstn a row ++ fill ++ skipn (Nat.max a b) row.
(** list.py:333-342: rows are overwritten one after the other; [fill p] is the
    replacement for row [p] ([None]: IndexError). *)
Fixpoint rectRows (rs : list (list V)) (fill : nat -> option (list V)) (a b : nat) (ps : list nat)
  : list (list V) * result unit :=
  match ps with
  | [] => (rs, Ok tt)
  | p :: rest =>
      match fill p, nth_error rs p with
      | Some w, Some row => rectRows (upd rs p (sliceAssign row a b w)) fill a b rest
      | _, _ => (rs, Err IndexErr)
      end
  end.
Definition rectList t (fill : nat -> option (list V)) (w : nat * nat * nat * nat) : table V * result unit :=
  let '(p, p', f, f') := w in
  match rectRows (rows t) fill f f' (seq p (p' - p)) with
  | (rs, r) => (mkTable (tp t) (tf t) rs, r)
  end.
Definition replaceRectangleObj t (o : table V) (ps fs : ident) (pe fe : option ident) : table V * result unit :=
  match rectObj (tp t) (tf t) (alen (tp o)) (alen (tf o)) ps fs pe fe with
  | Err e => (t, Err e)
  | Ok (p, p', f, f') => rectList t (fun i => nth_error (rows o) (i - p)) (p, p', f, f')
  end.
Definition replaceRectangleConst t (c : V) (ps fs : ident) (pe fe : option ident) : table V * result unit :=
  match rectConst (tp t) (tf t) ps fs pe fe with
  | Err e => (t, Err e)
  | Ok (p, p', f, f') => rectList t (fun _ => Some (repeat c (f' - f))) (p, p', f, f')
  end.
End View.
Arguments viewOf {V} _ _ _ _ _.
Arguments viewOfView {V} _ _ _ _ _ _.
Arguments pointViewOfView {V} _ _ _.
Arguments featureViewOfView {V} _ _ _.
Arguments viewGet {V} _ _ _ _.
Arguments viewObj {V} _ _.
Arguments setOne {V} _ _ _ _.
Arguments setAll {V} _ _ _.
Arguments setItem {V} _ _ _ _.
Arguments setItem1 {V} _ _ _.
Arguments viewSetOne {V} _ _ _ _ _ _.
Arguments viewSetAll {V} _ _ _ _ _.
Arguments viewSetItem {V} _ _ _ _ _ _.
Arguments MBinaryFeatures {V}.
Arguments MToIntegers {V}.
Arguments MTransformElements {V}.
Arguments MTranspose {V}.
Arguments MReplaceRectangle {V}.
Arguments MFlatten {V}.
Arguments MUnflatten {V}.
Arguments MMerge {V}.
Arguments MInPlace {V} _.
Arguments MAxis {V} _ _.
Arguments MSplitByCollapsing {V}.
Arguments MCombineByExpanding {V}.
Arguments MNormalize {V}.
Arguments MSplitByParsing {V}.
Arguments MSetItem {V} _ _ _.
Arguments overridden {V} _.
Arguments viewCall {V} _ _ _ _.
Arguments rectRows {V} _ _ _ _ _.
Arguments rectList {V} _ _ _.
Arguments replaceRectangleObj {V} _ _ _ _ _ _.
Arguments replaceRectangleConst {V} _ _ _ _ _ _.

(** ** Sparse *)
Section SparseView.
Variable V : Type.
Variable zero : V.
Implicit Types s : sparse V.

(** sparse.py:872-958: a view of a single point or feature is a Sparse object
    of its own (SparseVectorView) made from the slice of the sorted arrays; the
    source is re-sorted.  Returns the source and the view. *)
Definition vectorView s (ps pe fs fe : nat) : sparse V * result (sparse V) :=
  let singlePoint := pe - ps =? 1 in
  let sd := if singlePoint then Pts else Fts in
  let s' := sortInternal s sd true false in
  let primaryStart := if singlePoint then ps else fs in
  let secStart := if singlePoint then fs else ps in
  let secEnd := if singlePoint then fe else pe in
  let allOther := if singlePoint then (fs =? 0) && (fe =? snf s) else (ps =? 0) && (pe =? snp s) in
  let sec := map (offp sd) (ents s') in
  (s',
   match sIdx s' with
   | None => Err TypeErr
   | Some idx =>
       match nth_error idx primaryStart, nth_error idx (S primaryStart) with
       | Some start, Some stop =>
           let '(a, b) := if allOther then (start, stop)
                          else (start + searchsorted (slice sec start stop) secStart,
                                start + searchsorted (slice sec start stop) secEnd) in
           Ok (mkSp (pe - ps) (fe - fs)
                 (map (fun e => mkOn sd 0 (offp sd e - secStart) (ev e)) (slice (ents s') a b)) None None)
       | _, _ => Err ValueErr
       end
   end).
(** sparse.py:1326-1329 [SparseView._getitem_implementation] (window views
    larger than one vector hold no data) *)
Definition windowGet s (ps fs x y : nat) : sparse V * result V := getitem zero s (x + ps) (y + fs).

(** *** replaceRectangle with nonzero values (sparse.py:408-561) *)
(** state: the arrays (modified in place), selfIdx, valsIdx, copyIndex and the
    entries set aside *)
Record rstate := mkR { rarr : list (entry V); rself : nat; rvals : nat; rcopy : nat; radd : list (entry V) }.
(** sparse.py:441-456: where to start.  The two reads are of positions
    [selfIdx] of the arrays: an IndexError when it is past the end. *)
Fixpoint rectSeek (fuel : nat) (l : list (entry V)) (fs fe pe selfEnd i : nat) : result nat :=
  match fuel with
  | 0 => Err OutOfFuel
  | S fuel' =>
      match nth_error l i with
      | None => Err IndexErr
      | Some e =>
          if (ec e <? fs) || (fe <? ec e) then
            if (pe <? er e) || (i =? List.length l - 1) then Ok selfEnd
            else rectSeek fuel' l fs fe pe selfEnd (S i)
          else Ok i
      end
  end.
(** One value of the replacement, in the scale of the calling object.  For a
    constant (sparse.py:483-487) the point location is
    [pointStart + valsIdx / width] with true division: it is given here by its
    numerator over [width]; storing it in an integer array truncates. *)
Record rval := mkRV { rvnum : nat; rvden : nat; rvcol : nat; rvdat : V }.
Definition rvrow (v : rval) : nat := rvnum v / rvden v.
(** sign of [trueCmp] (sparse.py:496-498) for an entry position against the
    current value; [None] for a value past the end (489-491), whose location
    is beyond everything *)
Definition rectCmp (sp sf : nat) (v : option rval) : comparison :=
  match v with
  | None => Lt
  | Some v => match (sp * rvden v) ?= rvnum v with Eq => sf ?= rvcol v | c => c end
  end.
(** sparse.py:466-531, the main loop *)
Fixpoint rectLoop (fuel : nat) (vals : list rval) (fs fe pe selfEnd : nat) (st : rstate) : result rstate :=
  match fuel with
  | 0 => Err OutOfFuel
  | S fuel' =>
      let '(mkR arr si vi ci add) := st in
      if negb ((si <? selfEnd) || (vi <? List.length vals)) then Ok st
      else
        let v := nth_error vals vi in
        match (if si <? selfEnd then option_map (fun e => (er e, ec e, e)) (nth_error arr si)
               else Some (S pe, S fe, mkE 0 0 zero)) with
        | None => Err IndexErr
        | Some (sp, sf, e) =>
            match rectCmp sp sf v, v with
            | Gt, Some v =>
                let new := mkE (rvrow v) (rvcol v) (rvdat v) in
                if ci <? si then rectLoop fuel' vals fs fe pe selfEnd (mkR (upd arr ci new) si (S vi) (S ci) add)
                else rectLoop fuel' vals fs fe pe selfEnd (mkR arr si (S vi) ci (add ++ [new]))
            | Eq, Some v =>
                let new := mkE (rvrow v) (rvcol v) (rvdat v) in
                rectLoop fuel' vals fs fe pe selfEnd (mkR (upd arr ci new) (S si) (S vi) (S ci) add)
            | _, _ =>
                if (sf <? fs) || (fe <? sf)
                then rectLoop fuel' vals fs fe pe selfEnd (mkR (upd arr ci e) (S si) vi (S ci) add)
                else rectLoop fuel' vals fs fe pe selfEnd (mkR arr (S si) vi ci add)
            end
        end
  end.
(** sparse.py:533-559: close the gap, then append what was set aside. *)
Definition rectFinish s (st : rstate) : sparse V :=
  let l := if rcopy st =? rself st then rarr st
           else firstn (rcopy st) (rarr st) ++ skipn (rself st) (rarr st) in
  mkSp (snp s) (snf s) (l ++ radd st) None None.
(** sparse.py:408-561 after the zero test; bounds inclusive. *)
Definition rectSparse s (vals : list rval) (ps fs pe fe : nat) : sparse V * result unit :=
  let s' := sortInternal s Pts true false in
  match sIdx s' with
  | None => (s', Err TypeErr)
  | Some idx =>
      match nth_error idx (S pe), nth_error idx ps with
      | Some selfEnd, Some start =>
          let l := ents s' in
          match (if List.length l =? 0 then Ok 0 else rectSeek (S (List.length l)) l fs fe pe selfEnd start) with
          | Err e => (s', Err e)
          | Ok i =>
              match rectLoop (S (List.length l + List.length vals)) vals fs fe pe selfEnd (mkR l i 0 i []) with
              | Err e => (s', Err e)
              | Ok st => (rectFinish s' st, Ok tt)
              end
          end
      | _, _ => (s', Err IndexErr)
      end
  end.
(** the values to place: of an object (sorted by point, sparse.py:418, 488-493) *)
Definition objVals (o : sparse V) (ps fs : nat) : list rval :=
  map (fun e => mkRV (ps + er e) 1 (fs + ec e) (ev e)) (ents (sortInternal o Pts false false)).
(** and of a constant (sparse.py:432-434, 483-487) *)
Definition constVals (c : V) (ps fs pe fe : nat) : list rval :=
  let w := fe - fs + 1 in
  map (fun k => mkRV (ps * w + k) w (fs + k mod w) c) (seq 0 ((pe - ps + 1) * w)).
Definition sReplaceObj s (o : sparse V) (ps fs pe fe : nat) : sparse V * result unit :=
  rectSparse s (objVals o ps fs) ps fs pe fe.
Definition sReplaceConst {EV : EqDec V} s (c : V) (ps fs pe fe : nat) : sparse V * result unit :=
  if eqbd c zero then (zeroRectangle s ps fs pe fe, Ok tt)
  else rectSparse s (constVals c ps fs pe fe) ps fs pe fe.
End SparseView.
Arguments vectorView {V} _ _ _ _ _.
Arguments windowGet {V} _ _ _ _ _ _.
Arguments mkR {V} _ _ _ _ _.
Arguments rarr {V} _.
Arguments rself {V} _.
Arguments rvals {V} _.
Arguments rcopy {V} _.
Arguments radd {V} _.
Arguments rectSeek {V} _ _ _ _ _ _ _.
Arguments mkRV {V} _ _ _ _.
Arguments rvnum {V} _.
Arguments rvden {V} _.
Arguments rvcol {V} _.
Arguments rvdat {V} _.
Arguments rvrow {V} _.
Arguments rectCmp {V} _ _ _.
Arguments rectLoop {V} _ _ _ _ _ _ _ _.
Arguments rectFinish {V} _ _.
Arguments rectSparse {V} _ _ _ _ _ _ _.
Arguments objVals {V} _ _ _.
Arguments constVals {V} _ _ _ _ _.
Arguments sReplaceObj {V} _ _ _ _ _ _ _.
Arguments sReplaceConst {V} _ {EV} _ _ _ _ _ _.
