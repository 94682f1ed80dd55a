(** C68: data with more than two dimensions. *)
From Coq Require Import QArith.
From Coq Require Import Ascii String.
From Verif Require Import Base HighModel HighSpec HighProofs HighOpsProofs.
From Coq Require Import List.
Import ListNotations.
Open Scope string_scope.
Open Scope list_scope.
Open Scope nat_scope.

(** nimble.data on a regular nested list of three or more dimensions succeeds
    and the object holds exactly that nested list. *)
Theorem C68_create : forall raw dims,
  HasShape (Node raw) dims -> 3 <= length dims -> NoGaps dims ->
  exists o, createHigh raw = Ok (Some o) /\ hdims o = dims /\ Holds o (Node raw).
Proof. exact create_regular. Qed.
Print Assumptions C68_create.

(** Regular points of different dimensions are refused. *)
Theorem C68_create_unequal : forall raw,
  (exists c cs more, raw = Node (Node c :: cs) :: more) ->
  Forall (fun p => exists ds, 1 <= length ds /\ HasShape p ds /\ NoGaps ds) raw ->
  (forall ds, ~ Forall (fun p => HasShape p ds) raw) ->
  createHigh raw = Err InvalidArgumentValue.
Proof. exact create_unequal. Qed.
Print Assumptions C68_create_unequal.

(** Exactly which nested lists are accepted, regular or not, and what is stored. *)
Theorem C68_create_exact : forall raw o,
  createHigh raw = Ok (Some o) <->
  (exists c cs more, raw = Node (Node c :: cs) :: more) /\
  exists p ps, Forall2 Opened raw (p :: ps) /\
    Forall (fun q => firstPath q = firstPath p) ps /\
    hdims o = length raw :: firstPath p /\
    Forall2 (fun q row => length row = length (leaves p) /\
               (row = leaves q \/ exists v, leaves q = [v] /\ row = repeat v (length (leaves p))))
            (p :: ps) (hrows o).
Proof. exact createHigh_exact. Qed.
Print Assumptions C68_create_exact.

(** copy('numpy array') gives the nested list back; so does copy('python list')
    when one numpy array can hold the values unchanged. *)
Theorem C68_copy_array : forall o t, Holds o t -> copyArray o = Ok t.
Proof. exact copyArray_spec. Qed.
Print Assumptions C68_copy_array.
Theorem C68_copy_list_partial : forall pyStr o t,
  Holds o t -> length (hdims o) = 2 \/ Uniform (leaves t) -> copyList pyStr o = Ok t.
Proof. exact copyList_spec. Qed.
Print Assumptions C68_copy_list_partial.

(** shape: the number of points, and the product of the inner dimensions, which
    is the number of values of every point. *)
Theorem C68_shape : forall o l, Holds o (Node l) ->
  shapeOf o = (length l, size (tl (hdims o))) /\ length (hrows o) = length l /\
  Forall (fun r => length r = size (tl (hdims o))) (hrows o).
Proof. exact shapeOf_holds. Qed.
Print Assumptions C68_shape.

(** points[i] of an object with more than two dimensions holds the i-th
    sublist; the Matrix, List and Sparse representations agree. *)
Theorem C68_point : forall o l i c,
  Holds o (Node l) -> 3 <= length (hdims o) -> nth_error l i = Some c ->
  exists p, pointsGet o (KOne i) = Ok p /\ nestedList o i = Ok p /\ Holds p c /\ hdims p = tl (hdims o).
Proof.
  intros o l i c H H3 Hi. destruct (nested_holds o l i c H H3 Hi) as (p & E1 & E2 & E3 & E4).
  exists p. unfold pointsGet, isHigh. rewrite (proj2 (Nat.ltb_lt _ _)) by exact H3. auto.
Qed.
Print Assumptions C68_point.
Theorem C68_point_range : forall o l i,
  Holds o (Node l) -> 3 <= length (hdims o) -> length l <= i -> pointsGet o (KOne i) = Err IndexErr.
Proof.
  intros o l i H H3 Hi. unfold pointsGet, isHigh. rewrite (proj2 (Nat.ltb_lt _ _)) by exact H3.
  exact (nested_range o l i H Hi).
Qed.
Print Assumptions C68_point_range.
Theorem C68_sparse_point : forall d d1 rest es i a b v,
  0 < size rest -> b < size rest ->
  (ValueAt (fst (nestedSparse (d :: d1 :: rest) es i)) a b v <-> ValueAt es i (a * size rest + b) v).
Proof. exact nestedSparse_at. Qed.
Print Assumptions C68_sparse_point.

(** points.copy and points.extract (delete and retain are their two results)
    keep whole sublists and the inner dimensions. *)
Theorem C68_points_copy : forall o l is l', Holds o (Node l) -> ElementsAt l is l' ->
  exists r, pointsCopy o is = Ok r /\ Holds r (Node l') /\ tl (hdims r) = tl (hdims o).
Proof. exact pointsCopy_spec. Qed.
Print Assumptions C68_points_copy.
Theorem C68_points_extract : forall o l is,
  Holds o (Node l) -> NoDup is -> (forall i, In i is -> i < length l) ->
  exists ret rest l1 l2, pointsExtract o is = Ok (ret, rest) /\
    ElementsAt l is l1 /\ Without is 0 l l2 /\ Holds ret (Node l1) /\ Holds rest (Node l2) /\
    tl (hdims ret) = tl (hdims o) /\ tl (hdims rest) = tl (hdims o).
Proof. exact pointsExtract_spec. Qed.
Print Assumptions C68_points_extract.

(** points.insert / append of an object with the same inner dimensions; with
    another number of features it is refused. *)
Theorem C68_insert_partial : forall o l before other m,
  Holds o (Node l) -> Holds other (Node m) -> tl (hdims o) = tl (hdims other) ->
  exists r, pointsInsert o before other = Ok r /\ tl (hdims r) = tl (hdims o) /\
    Holds r (Node (firstn before l ++ m ++ skipn before l)).
Proof. exact pointsInsert_spec. Qed.
Print Assumptions C68_insert_partial.
Theorem C68_insert_reject : forall o l before other m, Holds o (Node l) -> Holds other (Node m) ->
  size (tl (hdims o)) <> size (tl (hdims other)) ->
  pointsInsert o before other = Err (if length (hdims o) =? 2 then InvalidArgumentValue else ImproperObjectAction).
Proof. exact pointsInsert_reject. Qed.
Print Assumptions C68_insert_reject.

Theorem C68_permute : forall o l order l',
  Holds o (Node l) -> length order = length l -> ElementsAt l order l' ->
  exists r, pointsPermute o order = Ok r /\ Holds r (Node l') /\ hdims r = hdims o.
Proof. exact pointsPermute_spec. Qed.
Print Assumptions C68_permute.

(** flatten gives one point with every element from left to right, unflatten
    puts them into the asked dimensions, and one undoes the other. *)
Theorem C68_flatten : forall o t, Holds o t -> 0 < size (hdims o) ->
  exists r, flattenObj o false = Ok r /\ hdims r = [1; size (hdims o)] /\
    Holds r (Node [Node (map Leaf (leaves t))]).
Proof. exact flatten_spec. Qed.
Print Assumptions C68_flatten.
Theorem C68_flatten_reject : forall o l byF, Holds o (Node l) ->
  size (hdims o) = 0 \/ (byF = true /\ 3 <= length (hdims o)) -> flattenObj o byF = Err ImproperObjectAction.
Proof. exact flatten_reject. Qed.
Print Assumptions C68_flatten_reject.
Theorem C68_unflatten : forall o t dims,
  Holds o t -> hd 0 (hdims o) = 1 \/ size (tl (hdims o)) = 1 ->
  2 <= length dims -> size dims = size (hdims o) -> 0 < size dims ->
  exists r u, unflattenObj o dims false = Ok r /\ hdims r = dims /\ HasShape u dims /\ leaves u = leaves t /\ Holds r u.
Proof. exact unflatten_spec. Qed.
Print Assumptions C68_unflatten.
Theorem C68_unflatten_reject : forall o l dims byF, Holds o (Node l) ->
  (size (hdims o) = 0 -> unflattenObj o dims byF = Err ImproperObjectAction) /\
  (0 < size (hdims o) -> length l <> 1 -> size (tl (hdims o)) <> 1 -> unflattenObj o dims byF = Err ImproperObjectAction) /\
  (0 < size (hdims o) -> length l = 1 \/ size (tl (hdims o)) = 1 -> length dims < 2 \/ size dims <> size (hdims o) ->
     unflattenObj o dims byF = Err InvalidArgumentValue) /\
  (0 < size (hdims o) -> length l = 1 \/ size (tl (hdims o)) = 1 -> 2 < length dims -> size dims = size (hdims o) ->
     unflattenObj o dims true = Err ImproperObjectAction).
Proof. exact unflatten_reject. Qed.
Print Assumptions C68_unflatten_reject.
Theorem C68_flatten_unflatten : forall o t, Holds o t -> 0 < size (hdims o) ->
  exists f r, flattenObj o false = Ok f /\ unflattenObj f (hdims o) false = Ok r /\
    hdims r = hdims o /\ hrows r = hrows o.
Proof. exact flatten_unflatten. Qed.
Print Assumptions C68_flatten_unflatten.
Theorem C68_by_feature : forall o l p f, Holds o (Node l) -> hdims o = [p; f] -> 0 < p -> 0 < f ->
  exists r, flattenObj o true = Ok r /\ hdims r = [1; p * f] /\
    (exists flat, hrows r = [flat] /\ length flat = p * f /\
      forall i j row, nth_error (hrows o) i = Some row -> j < f -> nth_error flat (j * p + i) = nth_error row j) /\
    unflattenObj r [p; f] true = Ok o.
Proof. exact by_feature. Qed.
Print Assumptions C68_by_feature.

(** Operations between two objects work element by element and demand equal
    dimensions. *)
Theorem C68_binary : forall op a s b t,
  Holds a s -> Holds b t -> hdims a = hdims b -> 0 < size (hdims a) ->
  exists r u, binaryObj op a b = Ok r /\ hdims r = hdims a /\ Pointwise op s t u /\ Holds r u.
Proof. exact binary_spec. Qed.
Print Assumptions C68_binary.
Theorem C68_binary_reject : forall op a b, hdims a <> hdims b -> binaryObj op a b = Err InvalidArgumentValue.
Proof. exact binary_reject. Qed.
Print Assumptions C68_binary_reject.

(** ** Concrete cases *)
Definition n68 (l : list Z) : nest := Node (map (fun z => Leaf (LInt z)) l).
Definition cube68 : list nest :=
  [Node [n68 [1; 2; 3]%Z; n68 [4; 5; 6]%Z]; Node [n68 [7; 8; 9]%Z; n68 [10; 11; 12]%Z]].
Example cube68_shape : HasShape (Node cube68) [2; 2; 3].
Proof.
  unfold cube68, n68. repeat (match goal with
    | |- HasShape (Leaf _) _ => constructor
    | |- HasShape (Node ?l) _ => apply (hs_node l); repeat constructor end).
Qed.
Example cube68_nogaps : NoGaps [2; 2; 3].
Proof. repeat constructor. Qed.
Definition obj68 : hobj :=
  {| hrows := [[LInt 1; LInt 2; LInt 3; LInt 4; LInt 5; LInt 6];
               [LInt 7; LInt 8; LInt 9; LInt 10; LInt 11; LInt 12]]%Z; hdims := [2; 2; 3] |}.
Example cube68_create : createHigh cube68 = Ok (Some obj68).
Proof. reflexivity. Qed.
Example cube68_holds : Holds obj68 (Node cube68).
Proof. split; [cbn; lia|]. split; [exact cube68_shape|]. exists cube68. split; reflexivity. Qed.
Example cube68_uniform : Uniform (leaves (Node cube68)).
Proof.
  right. intros v w Hv Hw. cbn in Hv, Hw.
  repeat (destruct Hv as [<-|Hv]; [repeat (destruct Hw as [<-|Hw]; [exact Logic.I|]); contradiction|]). contradiction.
Qed.
Example cube68_point : rmap hdims (pointsGet obj68 (KOne 1)) = Ok [2; 3].
Proof. reflexivity. Qed.
Example cube68_unflatten : (f <- flattenObj obj68 false ;; unflattenObj f [3; 2; 2] false) =
  Ok {| hrows := [[LInt 1; LInt 2; LInt 3; LInt 4]; [LInt 5; LInt 6; LInt 7; LInt 8];
                  [LInt 9; LInt 10; LInt 11; LInt 12]]%Z; hdims := [3; 2; 2] |}.
Proof. reflexivity. Qed.
Example cube68_unequal : createHigh [Node [n68 [1; 2]%Z]; Node [n68 [1; 2]%Z; n68 [3; 4]%Z]] = Err InvalidArgumentValue.
Proof. reflexivity. Qed.

(** ** What does not hold *)
(** Every accepted nested list should be regular. Only the lengths along the
    first elements are compared, so a list whose later sublists are shorter is
    accepted; the object then reports dimensions its data does not have, and
    copying it to an array fails. *)
Theorem C68_ragged_refuted : exists raw o,
  createHigh raw = Ok (Some o) /\ (forall dims, ~ HasShape (Node raw) dims) /\
  (exists row, In row (hrows o) /\ length row <> snd (shapeOf o)) /\ copyArray o = Err ValueErr.
Proof.
  exists [Node [n68 [1; 2]%Z; n68 [3]%Z]; Node [n68 [4; 5]%Z; n68 [6]%Z]].
  eexists. split; [reflexivity|]. split; [|split; [|reflexivity]].
  - intros dims H. inversion H as [|? ds HF]; subst. inversion HF as [|? ? H1 _]; subst.
    inversion H1 as [|? ds' HF1]; subst. inversion HF1 as [|? ? A1 HF2]; subst. inversion HF2 as [|? ? A2 _]; subst.
    inversion A1; subst. inversion A2.
  - eexists. split; [left; reflexivity|]. cbn. lia.
Qed.
Print Assumptions C68_ragged_refuted.

(** The values stored should be the values given. A later point with a single
    value is spread over all its elements. *)
Theorem C68_spread_refuted : exists raw o,
  createHigh raw = Ok (Some o) /\ leaves (Node raw) = [LInt 1; LInt 2; LInt 5]%Z /\
  concat (hrows o) = [LInt 1; LInt 2; LInt 5; LInt 5]%Z.
Proof.
  exists [Node [n68 [1]%Z; n68 [2]%Z]; Node [n68 [5]%Z; n68 []]]. eexists.
  split; [reflexivity|]. split; reflexivity.
Qed.
Print Assumptions C68_spread_refuted.

(** A string beside a list is taken apart into its letters instead of being
    refused. *)
Theorem C68_letters_refuted : exists raw o,
  createHigh raw = Ok (Some o) /\ In (LText "ab") (leaves (Node raw)) /\
  concat (hrows o) = [LInt 1; LInt 2; LText "a"; LText "b"]%Z.
Proof.
  exists [Node [n68 [1; 2]%Z; Leaf (LText "ab")]]. eexists.
  split; [reflexivity|]. split; [cbn; auto|reflexivity].
Qed.
Print Assumptions C68_letters_refuted.

(** copy('python list') should return the nested list the object holds. With
    numbers beside strings the numbers come back as strings; with integers
    beside floats or booleans they change their type. *)
Theorem C68_copy_list_refuted : forall pyStr, exists raw o t,
  createHigh raw = Ok (Some o) /\ Holds o (Node raw) /\ copyArray o = Ok (Node raw) /\
  copyList pyStr o = Ok t /\ In (LInt 1) (leaves (Node raw)) /\ ~ In (LInt 1) (leaves t) /\
  In (LText (pyStr (LInt 1))) (leaves t).
Proof.
  intros pyStr. exists [Node [Node [Leaf (LInt 1); Leaf (LText "x")]]].
  eexists. eexists. split; [reflexivity|]. split; [|split; [reflexivity|split; [reflexivity|]]].
  - split; [cbn; lia|]. split; [|eexists; split; reflexivity].
    cbn. repeat (match goal with
    | |- HasShape (Leaf _) _ => constructor
    | |- HasShape (Node ?l) _ => apply (hs_node l); repeat constructor end).
  - cbn. split; [auto|]. split; [|auto]. intros [H|[H|[]]]; discriminate.
Qed.
Print Assumptions C68_copy_list_refuted.

(** points[[i, ...]] should select the same sublists as points.copy([i, ...]).
    It returns a two-dimensional object. *)
Theorem C68_many_keys_refuted : exists o l is a b,
  Holds o (Node l) /\ pointsGet o (KMany is) = Ok a /\ pointsCopy o is = Ok b /\
  hdims a = [2; 6] /\ hdims b = [2; 2; 3] /\ copyArray b = Ok (Node l) /\ copyArray a <> Ok (Node l).
Proof.
  exists obj68, cube68, [0; 1]. eexists. eexists. split; [exact cube68_holds|].
  do 5 (split; [reflexivity|]). vm_compute. discriminate.
Qed.
Print Assumptions C68_many_keys_refuted.

(** Appending should be refused when the dimensions differ ("Cannot perform
    points.append operation when data has different dimensions"). Only the
    numbers of features are compared: 2 x 3 sublists are appended to 3 x 2 ones
    and read back regrouped. *)
Theorem C68_insert_refuted : exists o l other m r t,
  Holds o (Node l) /\ Holds other (Node m) /\ hdims o = [1; 3; 2] /\ hdims other = [2; 2; 3] /\
  pointsInsert o 1 other = Ok r /\ hdims r = [3; 3; 2] /\ copyArray r = Ok t /\
  t <> Node (l ++ m) /\
  nth_error m 0 = Some (Node [n68 [1; 2; 3]%Z; n68 [4; 5; 6]%Z]) /\
  (exists ts, t = Node ts /\ nth_error ts 1 = Some (Node [n68 [1; 2]%Z; n68 [3; 4]%Z; n68 [5; 6]%Z])).
Proof.
  exists {| hrows := [[LInt 0; LInt 0; LInt 0; LInt 0; LInt 0; LInt 0]]%Z; hdims := [1; 3; 2] |},
         [Node [n68 [0; 0]%Z; n68 [0; 0]%Z; n68 [0; 0]%Z]], obj68, cube68.
  eexists. eexists. split.
  { split; [cbn; lia|]. split; [|eexists; split; reflexivity].
    unfold n68. repeat (match goal with
    | |- HasShape (Leaf _) _ => constructor
    | |- HasShape (Node ?l) _ => apply (hs_node l); repeat constructor end). }
  split; [exact cube68_holds|]. do 5 (split; [reflexivity|]). split; [vm_compute; discriminate|].
  split; [reflexivity|]. eexists. split; [reflexivity|reflexivity].
Qed.
Print Assumptions C68_insert_refuted.
