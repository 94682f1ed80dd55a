(** Vocabulary of C73: data with element types. *)
From Verif Require Import Base MatchModel MatchSpec GetSpec CopyModel CopySpec.
From Coq Require Import List String Sorted. Import ListNotations.
Open Scope nat_scope.

(** The data of a Matrix object: one type for all elements. *)
Definition MatOK (x : dt * list (list pval)) (p f : nat) : Prop :=
  Rectangle (snd x) p f /\ forall i j v, at_ (snd x) i j v -> OfDt (fst x) v.
(** The data of a DataFrame object: one type for each feature. *)
Definition FrameOK (x : list dt * list (list pval)) (p f : nat) : Prop :=
  Rectangle (snd x) p f /\ List.length (fst x) = f /\
  forall i j v d, at_ (snd x) i j v -> nth_error (fst x) j = Some d -> OfDt d v.
(** the number of points (features), and of elements of each *)
Definition across (points : bool) (p f : nat) : nat := if points then p else f.
Definition along (points : bool) (p f : nat) : nat := if points then f else p.
(** element [j] of point [i], or of feature [i] *)
Definition inVector (points : bool) (m : list (list pval)) (i j : nat) (v : pval) : Prop :=
  if points then at_ m i j v else at_ m j i v.
(** a rectangle of [n] points (features) with [k] elements each *)
Definition Vectors (points : bool) (m : list (list pval)) (n k : nat) : Prop :=
  if points then Rectangle m n k else Rectangle m k n.
(** the points (features) of [m'] are those of [m] with the indices [idx], in that order *)
Definition Picks (points : bool) (idx : list nat) (k : nat) (m m' : list (list pval)) : Prop :=
  Vectors points m' (List.length idx) k /\
  forall a i j v, nth_error idx a = Some i -> inVector points m i j v -> inVector points m' a j v.
(** the indices below [n] that are not in [idx], in increasing order *)
Definition Others (idx : list nat) (n : nat) (rest : list nat) : Prop :=
  StronglySorted lt rest /\ forall i, In i rest <-> i < n /\ ~ In i idx.
(** the same elements, up to Python equality (NaN stays NaN) *)
Definition SameAt (m m' : list (list pval)) (g : nat -> nat -> nat * nat) : Prop :=
  forall i j v, at_ m i j v -> exists w, at_ m' (fst (g i j)) (snd (g i j)) w /\ SameElement v w.
Definition SameData (m m' : list (list pval)) : Prop :=
  forall i j v, at_ m i j v -> exists w, at_ m' i j w /\ SameElement v w.
(** some value of the type is the same *)
Definition Fits (d : dt) (v : pval) : Prop := exists w, OfDt d w /\ SameElement v w.
(** the types in the order in which they include one another *)
Definition Below (a b : dt) : Prop :=
  match a, b with
  | DBool, _ => True
  | DInt, DBool => False | DInt, _ => True
  | DFloat, (DBool | DInt) => False | DFloat, _ => True
  | DObj, DObj => True | DObj, _ => False
  end.
(** [m'] is [m] with the points (features) of [new] put before index [k]; [q]: how many
    there are *)
Definition Inserted (points : bool) (k q : nat) (new m m' : list (list pval)) : Prop :=
  (forall i j v, inVector points m i j v -> exists w, inVector points m' (if i <? k then i else i + q) j w /\ SameElement v w) /\
  (forall i j v, inVector points new i j v -> exists w, inVector points m' (k + i) j w /\ SameElement v w).
(** [m'] is [m] with the rectangle that starts at (ps, fs) replaced *)
Definition Replaced (ps fs : nat) (values : list (list pval)) (np nf : nat) (m m' : list (list pval)) : Prop :=
  (forall i j v, at_ values i j v -> exists w, at_ m' (ps + i) (fs + j) w /\ SameElement v w) /\
  (forall i j v, at_ m i j v -> ~ (ps <= i < ps + np /\ fs <= j < fs + nf) -> exists w, at_ m' i j w /\ SameElement v w).
(** what a function returned, as numbers: None is NaN *)
Definition Returned (v w : pval) : Prop := SameElement v w \/ (v = PNone /\ w = PNaN).
(** where the element of point [i] and feature [j] stands among all elements, in point
    order or in feature order *)
Definition place (pointOrder : bool) (p f i j : nat) : nat := if pointOrder then i * f + j else j * p + i.
(** one point, or one feature, with [n] elements, and its elements in order *)
Definition IsVector (m : list (list pval)) (n : nat) : Prop := Rectangle m 1 n \/ Rectangle m n 1.
Definition VectorAt (m : list (list pval)) (k : nat) (v : pval) : Prop := at_ m 0 k v \/ at_ m k 0 v.
(** lists with the same elements *)
Definition SameList (a b : list pval) : Prop := Forall2 SameElement a b.
(** Vector [i] of [m]: what a function is given, and what it returned. *)
Definition vectorAt (points : bool) (m : list (list pval)) (i k : nat) (r : list pval) : Prop :=
  List.length r = k /\ forall j v, nth_error r j = Some v <-> inVector points m i j v.
(** [m'] is [m] with the vectors before [stop] that are selected replaced by what [F]
    returned for them *)
Definition Transformed (points : bool) (F : list pval -> result (list pval)) (only : option (list nat)) (stop n k : nat) (m m' : list (list pval)) : Prop :=
  forall i, i < n ->
    if match only with Some l => if in_dec Nat.eq_dec i l then true else false | None => true end then
      if i <? stop then
        exists r ret, vectorAt points m i k r /\
          exists r', SameList r r' /\ F r' = Ok ret /\
            forall j v, nth_error ret j = Some v -> exists w, inVector points m' i j w /\ Returned v w
      else forall j v, inVector points m i j v -> exists w, inVector points m' i j w /\ SameElement v w
    else forall j v, inVector points m i j v -> exists w, inVector points m' i j w /\ SameElement v w.
(** the types that go with the points (features) picked *)
Definition PicksTypes (points : bool) (idx : list nat) (ds ds' : list dt) : Prop :=
  if points then ds' = ds else forall a i d, nth_error idx a = Some i -> nth_error ds i = Some d -> nth_error ds' a = Some d.
