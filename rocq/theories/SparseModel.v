(** Model of the Sparse data type: a scipy coo_matrix plus the cache of the
    last internal sort.  Sources: /repo/nimble/core/data/sparse.py and
    sparseAxis.py.  Names are handled by the axes (TableModel/TableOps) and are
    not repeated here.  Values are an abstract type with a distinguished zero;
    Python's [== 0] is equality with it. *)
From Verif Require Import Base NamesModel TableModel TableOps.

#[export] Instance EqDec_side : EqDec side.
Proof. intros [] []; ((left; reflexivity) || (right; discriminate)). Defined.

Section Sparse.
Variable V : Type.
Context {EV : EqDec V}.
Variable zero : V.

(** one stored entry: [row[k]], [col[k]], [data[k]] *)
Record entry := mkE { er : nat; ec : nat; ev : V }.
(** sparse.py:115-120: [_data] (shape, row, col, data) and
    [_sorted = {'axis', 'indices'}] *)
Record sparse := mkSp {
  snp : nat; snf : nat; ents : list entry;
  sAxis : option side; sIdx : option (list nat) }.

Definition prim (sd : side) (e : entry) : nat := match sd with Pts => er e | Fts => ec e end.
Definition offp (sd : side) (e : entry) : nat := match sd with Pts => ec e | Fts => er e end.
Definition axLen (sd : side) (s : sparse) : nat := match sd with Pts => snp s | Fts => snf s end.
Definition offLen (sd : side) (s : sparse) : nat := match sd with Pts => snf s | Fts => snp s end.

(** [np.lexsort((sortOff, sortPrime))] (sparse.py:1240): a stable sort by the
    primary and then the secondary position. *)
Definition lexle (sd : side) (a b : entry) : bool :=
  (prim sd a <? prim sd b) || ((prim sd a =? prim sd b) && (offp sd a <=? offp sd b)).
Definition lexsort (sd : side) (l : list entry) : list entry := stableSort (lexle sd) l.

(** [np.searchsorted(l, key)] (side='left'): numpy's binary search, also on
    unsorted arrays. *)
Fixpoint bsearch (fuel : nat) (l : list nat) (key lo hi : nat) : nat :=
  match fuel with
  | 0 => lo
  | S f => if lo <? hi then
             let mid := lo + (hi - lo) / 2 in
             if nth mid l 0 <? key then bsearch f l key (mid + 1) hi
             else bsearch f l key lo mid
           else lo
  end.
Definition searchsorted (l : list nat) (key : nat) : nat :=
  bsearch (S (List.length l)) l key 0 (List.length l).

(** sparse.py:1283-1286 [_resetSorted] *)
Definition withEnts (s : sparse) (l : list entry) : sparse :=
  mkSp (snp s) (snf s) l (sAxis s) (sIdx s).
Definition resetSorted (s : sparse) : sparse := mkSp (snp s) (snf s) (ents s) None None.

Definition calcIndices (sd : side) (s : sparse) (l : list entry) : list nat :=
  map (searchsorted (map (prim sd) l)) (seq 0 (S (axLen sd s))).

(** sparse.py:1225-1259 [_sortInternal] *)
Definition sortInternal (s : sparse) (sd : side) (setIndices forceSort : bool) : sparse :=
  if eqbd (sAxis s) (Some sd) && negb forceSort then
    if negb setIndices || match sIdx s with Some _ => true | None => false end then s
    else mkSp (snp s) (snf s) (ents s) (sAxis s) (Some (calcIndices sd s (ents s)))
  else
    let l := lexsort sd (ents s) in
    mkSp (snp s) (snf s) l (Some sd) (if setIndices then Some (calcIndices sd s l) else None).

Definition sortSide (s : sparse) : side := match sAxis s with Some sd => sd | None => Pts end.

(** [l[start:end]] *)
Definition slice {A} (l : list A) (a b : nat) : list A := firstn (b - a) (skipn a l).

(** Locate an element (shared prologue of sparse.py:799-824 and 826-850): the
    pair [(start, end)] from the index cache, then a binary search.  [None]
    means "no entry"; an index out of the array is an IndexError, a short
    index slice a ValueError. *)
Definition locate (s : sparse) (x y : nat) : result (option nat) :=
  let sd := sortSide s in
  let axisVal := match sd with Pts => x | Fts => y end in
  let offVal := match sd with Pts => y | Fts => x end in
  match sIdx s with
  | None => Err TypeErr
  | Some idx =>
      match nth_error idx axisVal, nth_error idx (S axisVal) with
      | Some start, Some stop =>
          if start =? stop then Ok None
          else
            let offs := map (offp sd) (ents s) in
            let k := searchsorted (slice offs start stop) offVal + start in
            if k <? stop then
              match nth_error offs k with
              | None => Err IndexErr
              | Some o => if o =? offVal then Ok (Some k) else Ok None
              end
            else Ok None
      | _, _ => Err ValueErr
      end
  end.

(** sparse.py:799-824 [_getitem_implementation]; the object is re-sorted. *)
Definition getitem (s : sparse) (x y : nat) : sparse * result V :=
  let s' := sortInternal s (sortSide s) true false in
  (s', k <- locate s' x y ;;
       match k with
       | None => Ok zero
       | Some k => match nth_error (ents s') k with Some e => Ok (ev e) | None => Err IndexErr end
       end).

(** [np.delete] *)
Definition deleteAt {A} (l : list A) (k : nat) : list A := firstn k l ++ skipn (S k) l.

(** sparse.py:826-871 [_setitem_implementation] *)
Definition setitem (s : sparse) (x y : nat) (v : V) : sparse * result unit :=
  let s' := sortInternal s (sortSide s) true false in
  match locate s' x y with
  | Err e => (s', Err e)
  | Ok (Some k) =>
      if eqbd v zero
      then (sortInternal (withEnts s' (deleteAt (ents s') k)) (sortSide s') true true, Ok tt)
      else match nth_error (ents s') k with
           | Some e => (withEnts s' (upd (ents s') k (mkE (er e) (ec e) v)), Ok tt)
           | None => (s', Err IndexErr)
           end
  | Ok None =>
      if eqbd v zero then (s', Ok tt)
      else (sortInternal (withEnts s' (ents s' ++ [mkE x y v])) (sortSide s') true true, Ok tt)
  end.

(** sparse.py:274-276 [_transpose_implementation] *)
Definition sTranspose (s : sparse) : sparse :=
  mkSp (snf s) (snp s) (map (fun e => mkE (ec e) (er e) (ev e)) (ents s)) None None.

Definition moveTo (sd : side) (e : entry) (p : nat) : entry :=
  match sd with Pts => mkE p (ec e) (ev e) | Fts => mkE (er e) p (ev e) end.
Definition mkOn (sd : side) (p o : nat) (v : V) : entry :=
  match sd with Pts => mkE p o v | Fts => mkE o p v end.
Definition reshape (sd : side) (s : sparse) (n : nat) (l : list entry) : sparse :=
  match sd with Pts => mkSp n (snf s) l None None | Fts => mkSp (snp s) n l None None end.

(** sparseAxis.py:70-82 [_permute_implementation]: the reverse map is built
    first, then applied to every stored position. *)
Fixpoint reverseMap (i : nat) (order : list nat) (acc : list nat) : list nat :=
  match order with
  | [] => acc
  | p :: t => reverseMap (S i) t (upd acc p i)
  end.
Definition sPermute (sd : side) (s : sparse) (order : list nat) : sparse :=
  let rev := reverseMap 0 order (repeat 0 (List.length order)) in
  mkSp (snp s) (snf s) (map (fun e => moveTo sd e (nth (prim sd e) rev 0)) (ents s)) None None.

(** sparseAxis.py:126-165 [_insert_implementation] *)
Definition sInsert (sd : side) (s o : sparse) (before : nat) : sparse :=
  let n := axLen sd o in
  reshape sd s (axLen sd s + n)
    (map (fun e => if before <=? prim sd e then moveTo sd e (prim sd e + n) else e) (ents s) ++
     map (fun e => moveTo sd e (prim sd e + before)) (ents o)).

(** sparseAxis.py:167-207 [_repeat_implementation] *)
Definition sRepeat (sd : side) (s : sparse) (total : nat) (vv : bool) : sparse :=
  reshape sd s (axLen sd s * total)
    (if vv
     then flat_map (fun e => map (fun i => moveTo sd e (i + total * prim sd e)) (seq 0 total)) (ents s)
     else flat_map (fun i => map (fun e => moveTo sd e (prim sd e + axLen sd s * i)) (ents s)) (seq 0 total)).

(** sparseAxis.py:213-246 (vectorised, through csr/csc: within one vector the
    entries come back sorted) and 248-315 (iterative): the selected vectors, in
    the order of the target list; the others in order. *)
Definition vecEntries (sortOff : bool) (sd : side) (s : sparse) (i : nat) : list entry :=
  let l := filter (fun e => prim sd e =? i) (ents s) in
  if sortOff then lexsort sd l else l.
Fixpoint gatherVecs (sortOff : bool) (sd : side) (s : sparse) (k : nat) (targets : list nat) : list entry :=
  match targets with
  | [] => []
  | i :: t => map (fun e => moveTo sd e k) (vecEntries sortOff sd s i) ++ gatherVecs sortOff sd s (S k) t
  end.
Definition sTaken (sortOff : bool) (sd : side) (s : sparse) (targets : list nat) : sparse :=
  reshape sd s (List.length targets) (gatherVecs sortOff sd s 0 targets).
Definition sRemaining (sortOff : bool) (sd : side) (s : sparse) (targets : list nat) : sparse :=
  let keep := keepIdx (axLen sd s) targets in
  reshape sd s (List.length keep) (gatherVecs sortOff sd s 0 keep).

(** sparseAxis.py:317-381 [_unique_implementation], positions kept.  The key
    of a vector is the tuple of its (value, secondary position) pairs after
    sorting. *)
Definition uniqueKey (sd : side) (s : sparse) (i : nat) : list (V * nat) :=
  map (fun e => (ev e, offp sd e)) (filter (fun e => prim sd e =? i) (ents s)).
Fixpoint sUniqueIdx (sd : side) (s : sparse) (seen : list (list (V * nat))) (is : list nat) : list nat :=
  match is with
  | [] => []
  | i :: t =>
      if mem (uniqueKey sd s i) seen then sUniqueIdx sd s seen t
      else i :: sUniqueIdx sd s (uniqueKey sd s i :: seen) t
  end.
Definition sUnique (sd : side) (s : sparse) : sparse * sparse :=
  let s' := sortInternal s sd false false in
  let idx := sUniqueIdx sd s' [] (seq 0 (axLen sd s')) in
  (s', reshape sd s' (List.length idx) (gatherVecs false sd s' 0 idx)).

(** In-place operations that keep the zeros and do NOT reset the sort cache:
    sparse.py:159-179 (transform with a zero preserving function),
    sparse.py:1186-1206 (obj *= c, obj /= c, ...): values mapped, then
    [eliminate_zeros]. *)
Definition mapNonzero (s : sparse) (f : nat -> nat -> V -> V) : sparse :=
  withEnts s (filter (fun e => negb (eqbd (ev e) zero))
                     (map (fun e => mkE (er e) (ec e) (f (er e) (ec e) (ev e))) (ents s))).
(** sparse.py:573-605 [_replaceRectangle_zeros_implementation] *)
Definition zeroRectangle (s : sparse) (ps fs pe fe : nat) : sparse :=
  withEnts s (filter (fun e => negb ((ps <=? er e) && (er e <=? pe) && (fs <=? ec e) && (ec e <=? fe))) (ents s)).

(** _utility.py:286-311 [sparseMatrixToArray]: dense form. *)
Definition denseSet (m : list (list V)) (e : entry) : list (list V) :=
  upd m (er e) (upd (nth (er e) m []) (ec e) (ev e)).
Definition toDense (s : sparse) : list (list V) :=
  fold_left denseSet (ents s) (repeat (repeat zero (snf s)) (snp s)).
(** sparse.py:84-99: [coo_matrix(dense)]: stored entries are the nonzeros in
    row-major order. *)
Definition ofDense (np nf : nat) (m : list (list V)) : sparse :=
  mkSp np nf
    (flat_map (fun p => flat_map (fun q => if eqbd (snd q) zero then [] else [mkE (fst p) (fst q) (snd q)])
                          (combine (seq 0 (List.length (snd p))) (snd p)))
       (combine (seq 0 (List.length m)) m)) None None.

(** sparse.py:278-304 [_isIdentical_implementation] for two non-view Sparse
    objects: both are brought to one internal order and compared entry by
    entry.  (NaN elements compare equal: [veq] below is an arbitrary
    elementwise test.) *)
Definition isIdenticalSparse (a b : sparse) : sparse * sparse * bool :=
  if negb ((snp a =? snp b) && (snf a =? snf b)) then (a, b, false)
  else if negb (List.length (ents a) =? List.length (ents b)) then (a, b, false)
  else
    let '(a', b') :=
      match sAxis a with
      | None => (sortInternal a Fts false false,
                 if eqbd (sAxis b) (Some Fts) then b else sortInternal b Fts false false)
      | Some sd => (a, if eqbd (sAxis b) (Some sd) then b else sortInternal b sd false false)
      end in
    (a', b', eqbd (map ev (ents a')) (map ev (ents b')) && eqbd (map er (ents a')) (map er (ents b'))
             && eqbd (map ec (ents a')) (map ec (ents b'))).
End Sparse.
Arguments mkE {V} _ _ _.
Arguments er {V} _.
Arguments ec {V} _.
Arguments ev {V} _.
Arguments mkSp {V} _ _ _ _ _.
Arguments snp {V} _.
Arguments snf {V} _.
Arguments ents {V} _.
Arguments sAxis {V} _.
Arguments sIdx {V} _.
Arguments prim {V} _ _.
Arguments offp {V} _ _.
Arguments axLen {V} _ _.
Arguments offLen {V} _ _.
Arguments lexle {V} _ _ _.
Arguments lexsort {V} _ _.
Arguments withEnts {V} _ _.
Arguments resetSorted {V} _.
Arguments calcIndices {V} _ _ _.
Arguments sortInternal {V} _ _ _ _.
Arguments sortSide {V} _.
Arguments locate {V} _ _ _.
Arguments getitem {V} _ _ _ _.
Arguments setitem {V EV} _ _ _ _ _.
Arguments sTranspose {V} _.
Arguments moveTo {V} _ _ _.
Arguments mkOn {V} _ _ _ _.
Arguments reshape {V} _ _ _ _.
Arguments sPermute {V} _ _ _.
Arguments sInsert {V} _ _ _ _.
Arguments sRepeat {V} _ _ _ _.
Arguments vecEntries {V} _ _ _ _.
Arguments gatherVecs {V} _ _ _ _ _.
Arguments sTaken {V} _ _ _ _.
Arguments sRemaining {V} _ _ _ _.
Arguments uniqueKey {V} _ _ _.
Arguments sUniqueIdx {V EV} _ _ _ _.
Arguments sUnique {V EV} _ _.
Arguments mapNonzero {V EV} _ _ _.
Arguments zeroRectangle {V} _ _ _ _ _.
Arguments denseSet {V} _ _.
Arguments toDense {V} _ _.
Arguments ofDense {V EV} _ _ _ _.
Arguments isIdenticalSparse {V EV} _ _.
