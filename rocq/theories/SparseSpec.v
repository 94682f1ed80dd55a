(** Specification vocabulary for Sparse objects (C22-C24). *)
From Verif Require Import Base NamesModel TableModel TableOps SparseModel.
From Coq Require Import Sorted.

Section Spec.
Variable V : Type.
Variable zero : V.
Implicit Types s : sparse V.

(** The matrix a Sparse object stands for. *)
Definition val s (i j : nat) : V :=
  match find (fun e => (er e =? i) && (ec e =? j)) (ents s) with
  | Some e => ev e | None => zero end.

Definition pos (e : entry V) : nat * nat := (er e, ec e).

(** strict lexicographic order of positions *)
Definition lexlt (sd : side) (a b : entry V) : Prop :=
  prim sd a < prim sd b \/ (prim sd a = prim sd b /\ offp sd a < offp sd b).

(** [c] splits [l] at [key]: exactly the elements before [c] are smaller. *)
Definition isSplit (l : list nat) (key c : nat) : Prop :=
  c <= List.length l /\ forall k x, nth_error l k = Some x -> (k < c <-> x < key).

(** The object's own invariant (checkInvariants, sparse.py:966-1010): entries
    in range, no duplicate positions, no stored zeros, sort cache accurate. *)
Definition entsOK s : Prop :=
  NoDup (map pos (ents s)) /\
  forall e, In e (ents s) -> er e < snp s /\ ec e < snf s /\ ev e <> zero.
Definition cacheOK s : Prop :=
  match sAxis s with
  | None => sIdx s = None
  | Some sd => StronglySorted (lexlt sd) (ents s) /\
      match sIdx s with
      | None => True
      | Some idx => List.length idx = S (axLen sd s) /\
          forall i c, nth_error idx i = Some c -> isSplit (map (prim sd) (ents s)) i c
      end
  end.
Definition sinv s : Prop := entsOK s /\ cacheOK s.

Definition sameMatrix s s' : Prop :=
  snp s' = snp s /\ snf s' = snf s /\ forall i j, val s' i j = val s i j.
End Spec.
Arguments val {V} _ _ _ _.
Arguments pos {V} _.
Arguments lexlt {V} _ _ _.
Arguments entsOK {V} _ _.
Arguments cacheOK {V} _.
Arguments sinv {V} _ _.
Arguments sameMatrix {V} _ _ _.

(** The element of vector [p] (a point or a feature) at position [o]. *)
Definition valS {V} (zero : V) (sd : side) (s : sparse V) (p o : nat) : V :=
  match sd with Pts => val zero s p o | Fts => val zero s o p end.

(** ** The mathematical matrix and the operations of a history on it *)
Record amat (V : Type) := mkM { mn : nat; mf : nat; mv : nat -> nat -> V }.
Arguments mkM {V} _ _ _.
Arguments mn {V} _.
Arguments mf {V} _.
Arguments mv {V} _ _ _.

(** One user operation on a Sparse object. *)
Inductive sop (V : Type) :=
| OGet (x y : nat)
| OSet (x y : nat) (v : V)
| OTranspose
| OPermute (sd : side) (order : list nat)
| OInsert (sd : side) (other : sparse V) (before : nat)
| ORepeat (sd : side) (total : nat) (vectorByVector : bool)
| OTake (fast : bool) (sd : side) (targets : list nat)
| ODrop (fast : bool) (sd : side) (targets : list nat)
| OMap (f : nat -> nat -> V -> V).
Arguments OGet {V} _ _.
Arguments OSet {V} _ _ _.
Arguments OTranspose {V}.
Arguments OPermute {V} _ _.
Arguments OInsert {V} _ _ _.
Arguments ORepeat {V} _ _ _.
Arguments OTake {V} _ _ _.
Arguments ODrop {V} _ _ _.
Arguments OMap {V} _.

Definition mlen {V} (sd : side) (m : amat V) : nat := match sd with Pts => mn m | Fts => mf m end.
Definition moff {V} (sd : side) (m : amat V) : nat := match sd with Pts => mf m | Fts => mn m end.
Definition mvec {V} (sd : side) (m : amat V) (p o : nat) : V := match sd with Pts => mv m p o | Fts => mv m o p end.
Definition mbuild {V} (sd : side) (n off : nat) (f : nat -> nat -> V) : amat V :=
  match sd with Pts => mkM n off f | Fts => mkM off n (fun i j => f j i) end.

Section History.
Variable V : Type.
Context {EV : EqDec V}.
Variable zero : V.

(** What each operation means for the matrix. *)
Definition mstep (m : amat V) (o : sop V) : amat V :=
  match o with
  | OGet _ _ => m
  | OSet x y v => mkM (mn m) (mf m) (fun i j => if (i =? x) && (j =? y) then v else mv m i j)
  | OTranspose => mkM (mf m) (mn m) (fun i j => mv m j i)
  | OPermute sd order => mbuild sd (mlen sd m) (moff sd m) (fun p q => mvec sd m (nth p order 0) q)
  | OInsert sd t b =>
      let n := axLen sd t in
      mbuild sd (mlen sd m + n) (moff sd m)
        (fun p q => if p <? b then mvec sd m p q else if p <? b + n then valS zero sd t (p - b) q else mvec sd m (p - n) q)
  | ORepeat sd k vv =>
      mbuild sd (mlen sd m * k) (moff sd m) (fun p q => mvec sd m (if vv then p / k else p mod mlen sd m) q)
  | OTake _ sd ts => mbuild sd (List.length ts) (moff sd m) (fun p q => mvec sd m (nth p ts 0) q)
  | ODrop _ sd ts =>
      let keep := filter (fun i => negb (mem i ts)) (seq 0 (mlen sd m)) in
      mbuild sd (List.length keep) (moff sd m) (fun p q => mvec sd m (nth p keep 0) q)
  | OMap f => mkM (mn m) (mf m) (fun i j => if eqbd (mv m i j) zero then zero else f i j (mv m i j))
  end.
(** When the front end accepts the operation ([f] in OMap must not create
    zeros: see the refuted theorem for what happens otherwise). *)
Definition mvalid (m : amat V) (o : sop V) : Prop :=
  match o with
  | OGet x y | OSet x y _ => x < mn m /\ y < mf m
  | OTranspose => True
  | OPermute sd order => Permutation order (seq 0 (mlen sd m))
  | OInsert sd t b => sinv zero t /\ offLen sd t = moff sd m /\ b <= mlen sd m
  | ORepeat _ k _ => 0 < k
  | OTake _ sd ts | ODrop _ sd ts => forall i, In i ts -> i < mlen sd m
  | OMap f => forall i j v, v <> zero -> f i j v <> zero
  end.
(** The program's step. *)
Definition sstep (s : sparse V) (o : sop V) : sparse V :=
  match o with
  | OGet x y => fst (getitem zero s x y)
  | OSet x y v => fst (setitem zero s x y v)
  | OTranspose => sTranspose s
  | OPermute sd order => sPermute sd s order
  | OInsert sd t b => sInsert sd s t b
  | ORepeat sd k vv => sRepeat sd s k vv
  | OTake fast sd ts => sTaken fast sd s ts
  | ODrop fast sd ts => sRemaining fast sd s ts
  | OMap f => mapNonzero zero s f
  end.
Fixpoint validHistory (m : amat V) (h : list (sop V)) : Prop :=
  match h with [] => True | o :: t => mvalid m o /\ validHistory (mstep m o) t end.
Definition matrixOf (s : sparse V) : amat V := mkM (snp s) (snf s) (val zero s).
End History.
Arguments mstep {V EV} _ _ _.
Arguments mvalid {V} _ _ _.
Arguments sstep {V EV} _ _ _.
Arguments validHistory {V EV} _ _ _.
Arguments matrixOf {V} _ _.

(** A Sparse object and a dense table hold the same matrix. *)
Definition represents {V} (zero : V) (s : sparse V) (t : table V) : Prop :=
  snp s = alen (tp t) /\ snf s = alen (tf t) /\
  forall i j, i < alen (tp t) -> j < alen (tf t) ->
    match nth_error (rows t) i with Some r => nth_error r j | None => None end = Some (val zero s i j).
