(** C73: Matrix and DataFrame objects hold the values given. *)
From Verif Require Import Base TableModel MatchModel MatchSpec GetSpec ReshapeModel CopyModel CopySpec CopyProofs TypedModel TypedSpec TypedProofs TypedTakeProofs TypedWriteProofs
  TypedFlatProofs TypedTransformProofs TypedReshapeProofs.
From Coq Require Import Ascii String QArith Lia.
From Coq Require Import List. Import ListNotations.
Open Scope string_scope. Open Scope list_scope. Open Scope nat_scope.

(** ** Selecting vectors *)
(** Copying or extracting points (features) of a Matrix gives exactly those elements, and
    deleting them leaves exactly the others, with the same type. *)
Theorem C73_take_matrix : forall points idx x p f,
  MatOK x p f -> (forall i, In i idx -> i < across points p f) ->
  Picks points idx (along points p f) (snd x) (snd (matTake points idx x)) /\ fst (matTake points idx x) = fst x /\
  MatOK (matTake points idx x) (if points then length idx else p) (if points then f else length idx).
Proof. intros points idx x p f M H. destruct (mat_take points idx x p f M H) as [A B]. split; [exact A|]. split; [reflexivity|exact B]. Qed.
Print Assumptions C73_take_matrix.
Theorem C73_drop_matrix : forall points idx x p f keep,
  MatOK x p f -> Others idx (across points p f) keep ->
  Picks points keep (along points p f) (snd x) (snd (matDrop points idx x)) /\
  MatOK (matDrop points idx x) (if points then length keep else p) (if points then f else length keep).
Proof. exact mat_drop. Qed.
Print Assumptions C73_drop_matrix.
Theorem C73_permute_matrix : forall points idx x p f,
  MatOK x p f -> (forall i, In i idx -> i < across points p f) ->
  Picks points idx (along points p f) (snd x) (snd (matPermute points idx x)) /\
  MatOK (matPermute points idx x) (if points then length idx else p) (if points then f else length idx).
Proof. exact mat_take. Qed.
Print Assumptions C73_permute_matrix.
Lemma picked_types points idx ds ds' p f : List.length ds = f -> (forall i, In i idx -> i < across points p f) -> ds' = pickDt points idx ds -> PicksTypes points idx ds ds'.
Proof. intros L H ->. destruct points; cbn [PicksTypes pickDt]; [reflexivity|]. intros a i d. apply takeL_nth. Qed.
(** The same for a DataFrame: the elements that come out are exactly those that were in,
    each feature with its type (although the extraction goes through one array). *)
Theorem C73_take_frame : forall floatOf intOf points idx x p f,
  FrameOK x p f -> (forall i, In i idx -> i < across points p f) ->
  exists r, frameTake floatOf intOf points idx x = Ok r /\ Picks points idx (along points p f) (snd x) (snd r) /\ PicksTypes points idx (fst x) (fst r) /\
    FrameOK r (if points then length idx else p) (if points then f else length idx).
Proof.
  intros floatOf intOf points idx x p f F H. rewrite (frame_take floatOf intOf points idx x p f F H). destruct (frame_permute points idx x p f F H) as (A & B & C).
  eexists. split; [reflexivity|]. split; [exact A|]. split; [eapply picked_types; [apply F|exact H|exact C]|exact B].
Qed.
Print Assumptions C73_take_frame.
Theorem C73_permute_frame : forall points idx x p f,
  FrameOK x p f -> (forall i, In i idx -> i < across points p f) ->
  Picks points idx (along points p f) (snd x) (snd (framePermute points idx x)) /\ PicksTypes points idx (fst x) (fst (framePermute points idx x)) /\
  FrameOK (framePermute points idx x) (if points then length idx else p) (if points then f else length idx).
Proof.
  intros points idx x p f F H. destruct (frame_permute points idx x p f F H) as (A & B & C). split; [exact A|]. split; [eapply picked_types; [apply F|exact H|exact C]|exact B].
Qed.
Print Assumptions C73_permute_frame.
Theorem C73_drop_frame : forall points idx x p f keep,
  FrameOK x p f -> Others idx (across points p f) keep ->
  Picks points keep (along points p f) (snd x) (snd (frameDrop points idx x)) /\ PicksTypes points keep (fst x) (fst (frameDrop points idx x)) /\
  FrameOK (frameDrop points idx x) (if points then length keep else p) (if points then f else length keep).
Proof.
  intros points idx x p f keep F K. rewrite (frame_drop points idx x p f keep F K). apply C73_permute_frame; auto. intros i I. apply (proj2 K) in I. tauto.
Qed.
Print Assumptions C73_drop_frame.
Lemma source_spec n c each : List.length (source n c each) = c * n /\ forall a, a < c * n -> nth_error (source n c each) a = Some (if each then a / n else a mod c).
Proof.
  unfold source. rewrite map_length, seq_length. split; auto. intros a H. rewrite nth_error_map, nth_error_seq, (proj2 (Nat.ltb_lt _ _) H). reflexivity.
Qed.
(** Repeating [n] times: one vector after another ([each]) or the whole object. *)
Theorem C73_repeat_matrix : forall points n (each : bool) x p f,
  MatOK x p f -> 0 < n -> exists src,
  length src = across points p f * n /\ (forall a, a < across points p f * n -> nth_error src a = Some (if each then a / n else a mod across points p f)) /\
  Picks points src (along points p f) (snd x) (snd (matRepeat points n each x)) /\
  MatOK (matRepeat points n each x) (if points then p * n else p) (if points then f else f * n).
Proof.
  intros points n each x p f M Hn. exists (source n (across points p f) each). destruct (source_spec n (across points p f) each) as [A B]. split; [exact A|]. split; [exact B|].
  exact (mat_repeat points n each x p f M Hn).
Qed.
Print Assumptions C73_repeat_matrix.
Theorem C73_repeat_frame : forall points n (each : bool) x p f,
  FrameOK x p f -> 0 < n -> exists src,
  length src = across points p f * n /\ (forall a, a < across points p f * n -> nth_error src a = Some (if each then a / n else a mod across points p f)) /\
  Picks points src (along points p f) (snd x) (snd (frameRepeat points n each x)) /\ PicksTypes points src (fst x) (fst (frameRepeat points n each x)) /\
  FrameOK (frameRepeat points n each x) (if points then p * n else p) (if points then f else f * n).
Proof.
  intros points n each x p f F Hn. exists (source n (across points p f) each). destruct (source_spec n (across points p f) each) as [A B]. split; [exact A|]. split; [exact B|].
  rewrite (frame_repeat points n each x p f F Hn). destruct (C73_permute_frame points (source n (across points p f) each) x p f F) as (C & D & E); [intros i I; eapply source_lt; eauto|].
  split; [exact C|]. split; [exact D|]. rewrite A in E. destruct points; exact E.
Qed.
Print Assumptions C73_repeat_frame.

(** ** Inserting vectors *)
(** Whatever the types of the two objects, insertion never fails, changes no value, and
    keeps the old and the new vectors in order. *)
Theorem C73_insert_matrix : forall floatOf intOf (points : bool) k q new x p f,
  MatOK x p f -> MatOK new (if points then q else p) (if points then f else q) -> k <= across points p f ->
  exists r, matInsert floatOf intOf points k new x = Ok r /\ MatOK r (if points then p + q else p) (if points then f else f + q) /\
    Inserted points k q (snd new) (snd x) (snd r).
Proof. exact mat_insert. Qed.
Print Assumptions C73_insert_matrix.
Theorem C73_insert_frame : forall floatOf intOf (points : bool) k q new x p f,
  FrameOK x p f -> FrameOK new (if points then q else p) (if points then f else q) -> k <= across points p f ->
  exists r, frameInsert floatOf intOf points k new x = Ok r /\ FrameOK r (if points then p + q else p) (if points then f else f + q) /\
    Inserted points k q (snd new) (snd x) (snd r).
Proof. exact frame_insert. Qed.
Print Assumptions C73_insert_frame.

(** ** Assigning elements of a Matrix *)
(** Item assignment changes this element only, the type stays, and the element then is
    the value given exactly when the type has such a value. *)
Theorem C73_assign_matrix : forall floatOf intOf x p f i j v x',
  FloatOf floatOf -> MatOK x p f -> i < p -> j < f -> matSet floatOf intOf x i j v = Ok x' ->
  MatOK x' p f /\ fst x' = fst x /\ (forall a b w, (a, b) <> (i, j) -> at_ (snd x) a b w -> at_ (snd x') a b w) /\
  ((exists w, at_ (snd x') i j w /\ SameElement v w) <-> Fits (fst x) v).
Proof. exact mat_set. Qed.
Print Assumptions C73_assign_matrix.
(** Assignment to several points and features: the value is everywhere in that
    rectangle, and nothing else changed. *)
Theorem C73_assign_many_partial : forall floatOf intOf x p f is js v,
  MatOK x p f -> Fits (fst x) v -> (forall i, In i is -> i < p) -> (forall j, In j js -> j < f) ->
  exists x', matSetMany floatOf intOf x is js v = (x', Ok tt) /\ MatOK x' p f /\
    (forall a b, In a is -> In b js -> exists w, at_ (snd x') a b w /\ SameElement v w) /\
    (forall a b w, ~ (In a is /\ In b js) -> at_ (snd x) a b w -> at_ (snd x') a b w).
Proof. exact mat_set_many. Qed.
Print Assumptions C73_assign_many_partial.
(** A value that the type has not is changed without a word: 1.5 in a Matrix of
    integers becomes 1, 5 in a Matrix of booleans True. *)
Theorem C73_assign_any_value_refuted :
  ~ (forall floatOf intOf x p f i j v x', FloatOf floatOf -> MatOK x p f -> i < p -> j < f -> matSet floatOf intOf x i j v = Ok x' ->
       exists w, at_ (snd x') i j w /\ SameElement v w).
Proof.
  intros H. specialize (H (fun _ => None) (fun _ => None) (DInt, [[PInt 7]]) 1 1 0 0 (PFloat (3 # 2)) (DInt, [[PInt 1]])).
  destruct H as (w & (r & A & B) & S); try lia; try reflexivity.
  - intros s w. discriminate.
  - split; [split; [reflexivity|intros r [<-|[]]; reflexivity]|]. intros i j v (r & A & B). destruct i as [|[|i]]; try discriminate. injection A as <-. destruct j as [|[|j]]; try discriminate. injection B as <-. eexists. reflexivity.
  - injection A as <-. injection B as <-. destruct S as [S|[S _]]; [|discriminate]. inversion S as [a b p q X Y E| | | |]; subst. inversion X; subst. inversion Y; subst. vm_compute in E. discriminate.
Qed.
Print Assumptions C73_assign_any_value_refuted.
Example C73_assign_ex : matSet (fun _ => None) (fun _ => None) (DInt, [[PInt 7; PInt 8]; [PInt 9; PInt 10]]) 1 0 (PFloat 3) = Ok (DInt, [[PInt 7; PInt 8]; [PInt 3; PInt 10]]).
Proof. reflexivity. Qed.
Example C73_assign_bool : matSet (fun _ => None) (fun _ => None) (DBool, [[PBool false]]) 0 0 (PInt 5) = Ok (DBool, [[PBool true]]).
Proof. reflexivity. Qed.
Example C73_many_ex : matSetMany (fun _ => None) (fun _ => None) (DInt, [[PInt 7; PInt 8]; [PInt 9; PInt 10]]) [0; 1] [1] (PBool true) = ((DInt, [[PInt 7; PInt 1]; [PInt 9; PInt 1]]), Ok tt).
Proof. reflexivity. Qed.

(** ** replaceRectangle *)
Theorem C73_replace_matrix_partial : forall floatOf intOf junk x ps fs values p f np nf,
  MatOK x p f -> Rectangle (snd values) np nf -> ps + np <= p -> fs + nf <= f -> (forall i j v, at_ (snd values) i j v -> Fits (fst x) v) ->
  exists x', matReplace floatOf intOf junk x ps fs values = Ok x' /\ MatOK x' p f /\ fst x' = fst x /\ Replaced ps fs (snd values) np nf (snd x) (snd x').
Proof. exact mat_replace. Qed.
Print Assumptions C73_replace_matrix_partial.
Theorem C73_replace_matrix_constant_partial : forall floatOf intOf junk x ps fs v p f np nf,
  MatOK x p f -> ps + np <= p -> fs + nf <= f -> Fits (fst x) v ->
  exists x', matReplaceConstant floatOf intOf junk x ps fs np nf v = Ok x' /\ MatOK x' p f /\ fst x' = fst x /\ Replaced ps fs (repeat (repeat v nf) np) np nf (snd x) (snd x').
Proof. exact mat_replace_constant. Qed.
Print Assumptions C73_replace_matrix_constant_partial.
(** In a DataFrame the types of the features grow as needed: every value is stored. *)
Theorem C73_replace_frame : forall floatOf intOf x ps fs new p f np nf,
  FrameOK x p f -> FrameOK new np nf -> ps + np <= p -> fs + nf <= f ->
  exists x', frameReplaceObject floatOf intOf x ps fs new = Ok x' /\ FrameOK x' p f /\ Replaced ps fs (snd new) np nf (snd x) (snd x').
Proof. exact frame_replace_object. Qed.
Print Assumptions C73_replace_frame.
Theorem C73_replace_frame_constant : forall floatOf intOf x ps fs v p f np nf,
  FrameOK x p f -> isNumberV v = true -> ps + np <= p -> fs + nf <= f ->
  exists x', frameReplaceConstant floatOf intOf x ps fs np nf v = Ok x' /\ FrameOK x' p f /\ Replaced ps fs (repeat (repeat v nf) np) np nf (snd x) (snd x').
Proof. exact frame_replace_constant. Qed.
Print Assumptions C73_replace_frame_constant.
(** Not so in a Matrix of integers: replaceRectangle(2.5, ...) stores 2, and NaN an
    arbitrary integer. *)
Theorem C73_replace_matrix_refuted :
  ~ (forall floatOf intOf junk x ps fs v p f np nf, FloatOf floatOf -> MatOK x p f -> isNumberV v = true -> ps + np <= p -> fs + nf <= f ->
       exists x', matReplaceConstant floatOf intOf junk x ps fs np nf v = Ok x' /\ Replaced ps fs (repeat (repeat v nf) np) np nf (snd x) (snd x')).
Proof.
  intros H. specialize (H (fun _ => None) (fun _ => None) 0%Z (DInt, [[PInt 7]]) 0 0 (PFloat (5 # 2)) 1 1 1 1).
  destruct H as (x' & E & R & _); try lia; try reflexivity.
  - intros s w. discriminate.
  - split; [split; [reflexivity|intros r [<-|[]]; reflexivity]|]. intros i j v (r & A & B). destruct i as [|[|i]]; try discriminate. injection A as <-. destruct j as [|[|j]]; try discriminate. injection B as <-. eexists. reflexivity.
  - injection E as <-. destruct (R 0 0 (PFloat (5 # 2))) as (w & (r & A & B) & S); [eexists; split; reflexivity|]. injection A as <-. injection B as <-.
    destruct S as [S|[S _]]; [|discriminate]. inversion S as [a b p q X Y E| | | |]; subst. inversion X; subst. inversion Y; subst. vm_compute in E. discriminate.
Qed.
Print Assumptions C73_replace_matrix_refuted.
Example C73_replace_ex : frameReplaceObject (fun _ => None) (fun _ => None) ([DInt; DObj], [[PInt 1; PStr "a"]; [PInt 2; PStr "b"]]) 1 0 ([DFloat], [[PFloat (1 # 2)]])
  = Ok ([DFloat; DObj], [[PFloat 1; PStr "a"]; [PFloat (1 # 2); PStr "b"]]).
Proof. reflexivity. Qed.

(** ** One dimension and back *)
Theorem C73_flatten_matrix : forall pointOrder x p f, MatOK x p f ->
  MatOK (matFlatten f pointOrder x) 1 (p * f) /\ fst (matFlatten f pointOrder x) = fst x /\
  forall i j v, at_ (snd x) i j v -> at_ (snd (matFlatten f pointOrder x)) 0 (place pointOrder p f i j) v.
Proof. exact mat_flatten. Qed.
Print Assumptions C73_flatten_matrix.
Theorem C73_unflatten_matrix : forall pointOrder x np nf,
  IsVector (snd x) (np * nf) -> (forall i j v, at_ (snd x) i j v -> OfDt (fst x) v) ->
  MatOK (matUnflatten np nf pointOrder x) np nf /\ fst (matUnflatten np nf pointOrder x) = fst x /\
  forall i j v, i < np -> j < nf -> VectorAt (snd x) (place pointOrder np nf i j) v -> at_ (snd (matUnflatten np nf pointOrder x)) i j v.
Proof. exact mat_unflatten. Qed.
Print Assumptions C73_unflatten_matrix.
Theorem C73_flatten_round_trip : forall pointOrder x p f, MatOK x p f -> matUnflatten p f pointOrder (matFlatten f pointOrder x) = x.
Proof. exact mat_round_trip. Qed.
Print Assumptions C73_flatten_round_trip.
Theorem C73_flatten_frame : forall floatOf intOf pointOrder x p f, FrameOK x p f -> 0 < p ->
  exists r, frameFlatten floatOf intOf p f pointOrder x = Ok r /\ FrameOK r 1 (p * f) /\
  forall i j v d, at_ (snd x) i j v -> nth_error (fst x) j = Some d ->
    at_ (snd r) 0 (place pointOrder p f i j) v /\ nth_error (fst r) (place pointOrder p f i j) = Some d.
Proof. exact frame_flatten. Qed.
Print Assumptions C73_flatten_frame.
(** Missing: feature order when there are fewer features than points and the types
    differ; there the statement is false (below). *)
Theorem C73_unflatten_frame_partial : forall floatOf intOf (pointOrder : bool) x p f np nf,
  FrameOK x p f -> IsVector (snd x) (np * nf) -> (p = 1 /\ f = np * nf \/ p = np * nf /\ f = 1) -> 0 < np -> 0 < nf ->
  pointOrder = true \/ np <= nf \/ (forall d e, In d (fst x) -> In e (fst x) -> d = e) ->
  exists r, frameUnflatten floatOf intOf np nf pointOrder x = Ok r /\ FrameOK r np nf /\
  forall i j v, i < np -> j < nf -> VectorAt (snd x) (place pointOrder np nf i j) v -> exists w, at_ (snd r) i j w /\ SameElement v w.
Proof. exact frame_unflatten. Qed.
Print Assumptions C73_unflatten_frame_partial.
Definition flat73 : list dt * list (list pval) := ([DInt; DInt; DFloat; DInt; DInt; DInt], [[PInt 1; PInt 2; PFloat (5 # 2); PInt 4; PInt 5; PInt 6]]).
Lemma flat73_ok : FrameOK flat73 1 6.
Proof.
  split; [split; [reflexivity|intros r [<-|[]]; reflexivity]|]. split; [reflexivity|]. intros i j v d (r & A & B) D. destruct i as [|[|i]]; try discriminate. injection A as <-.
  do 6 (destruct j as [|j]; [injection B as <-; injection D as <-; cbn; eauto|]). destruct j; discriminate.
Qed.
(** unflatten((3, 2), order='feature') on a DataFrame: the type of the first feature is
    taken from its first two elements, 2.5 becomes 2. *)
Theorem C73_unflatten_frame_refuted :
  ~ (forall floatOf intOf x np nf, FrameOK x 1 (np * nf) -> 0 < np -> 0 < nf ->
     exists r, frameUnflatten floatOf intOf np nf false x = Ok r /\
       forall i j v, i < np -> j < nf -> VectorAt (snd x) (place false np nf i j) v -> exists w, at_ (snd r) i j w /\ SameElement v w).
Proof.
  intros H. destruct (H (fun _ => None) (fun _ => None) flat73 3 2 flat73_ok ltac:(lia) ltac:(lia)) as (r & E & P).
  assert (X : r = ([DInt; DInt], [[PInt 1; PInt 4]; [PInt 2; PInt 5]; [PInt 2; PInt 6]])) by (vm_compute in E; injection E as <-; reflexivity). subst r.
  destruct (P 2 0 (PFloat (5 # 2))) as (w & (r & A & B) & S); [lia|lia|left; eexists; split; reflexivity|]. injection A as <-. injection B as <-.
  destruct S as [S|[S _]]; [|discriminate]. inversion S as [a b p q X Y Z| | | |]; subst. inversion X; subst. inversion Y; subst. vm_compute in Z. discriminate.
Qed.
Print Assumptions C73_unflatten_frame_refuted.
Example C73_flatten_ex : frameFlatten (fun _ => None) (fun _ => None) 2 2 false ([DInt; DFloat], [[PInt 1; PFloat (1 # 2)]; [PInt 2; PFloat (3 # 2)]])
  = Ok ([DInt; DInt; DFloat; DFloat], [[PInt 1; PInt 2; PFloat (1 # 2); PFloat (3 # 2)]]).
Proof. reflexivity. Qed.

(** ** transform *)
(** points.transform and features.transform of a Matrix: the vectors selected hold what
    the function returned for them (None may be NaN), the others the values they had;
    when the function raises, the vectors before that one have been transformed and
    the others have not. *)
Theorem C73_transform_matrix : forall floatOf intOf points F only x p f,
  MatOK x p f -> 0 < along points p f -> (forall r ret, F r = Ok ret -> length ret = length r) ->
  exists x' res stop, matTransform floatOf intOf points p f F only x = (x', res) /\ MatOK x' p f /\ stop <= across points p f /\
    Transformed points F only stop (across points p f) (along points p f) (snd x) (snd x') /\
    match res with
    | Ok _ => stop = across points p f
    | Err e => stop < across points p f /\ exists r r', vectorAt points (snd x) stop (along points p f) r /\ SameList r r' /\ F r' = Err e
    end.
Proof. exact mat_transform. Qed.
Print Assumptions C73_transform_matrix.
(** the first point becomes text, the second is a list with None *)
Definition fun73 (r : list pval) : result (list pval) :=
  match r with PInt 1 :: _ => Ok [PStr "a"; PNone] | _ => Ok [PNone; PFloat (1 # 2)] end.
Example C73_transform_ex : matTransform (fun _ => None) (fun _ => None) true 2 2 fun73 None (DInt, [[PInt 1; PInt 2]; [PInt 3; PInt 4]])
  = ((DObj, [[PStr "a"; PNone]; [PNone; PFloat (1 # 2)]]), Ok tt).
Proof. reflexivity. Qed.
(** What None becomes depends on what was returned before: with the points in the
    other order, the same point holds NaN. *)
Theorem C73_transform_none_refuted :
  ~ (forall floatOf intOf F x p f x' i r ret, MatOK x p f -> 0 < f -> (forall r ret, F r = Ok ret -> length ret = length r) ->
       matTransform floatOf intOf true p f F None x = (x', Ok tt) -> nth_error (snd x) i = Some r -> F r = Ok ret -> In PNone ret ->
       fst x' = DObj -> exists r', nth_error (snd x') i = Some r' /\ In PNone r').
Proof.
  intros H. assert (FL : forall r ret, (match r with [PInt 3; _] => Ok [PNone; PFloat (1 # 2)] | [_; _] => Ok [PStr "a"; PNone] | _ => Err ValueErr end) = Ok ret -> List.length ret = List.length r).
  { intros r ret. destruct r as [|[b|[|[[z|z|]|z|]|z]|q| | | |s|] [|u [|? ?]]]; intros [= <-]; reflexivity. }
  assert (M : MatOK (DInt, [[PInt 3; PInt 4]; [PInt 1; PInt 2]]) 2 2).
  { split; [split; [reflexivity|intros r [<-|[<-|[]]]; reflexivity]|]. intros i j v (r & A & B). destruct i as [|[|[|i]]]; try discriminate; injection A as <-;
    destruct j as [|[|[|j]]]; try discriminate; injection B as <-; eexists; reflexivity. }
  specialize (H (fun _ => None) (fun _ => None) _ _ 2 2 (DObj, [[PNaN; PFloat (1 # 2)]; [PStr "a"; PNone]]) 0 [PInt 3; PInt 4] [PNone; PFloat (1 # 2)] M ltac:(lia) FL eq_refl eq_refl eq_refl (or_introl eq_refl) eq_refl).
  destruct H as (r' & A & B). injection A as <-. destruct B as [B|[B|[]]]; discriminate.
Qed.
Print Assumptions C73_transform_none_refuted.

(** ** collapse and expand of a DataFrame *)
(** Missing: collapsed features before retained ones (below). *)
Theorem C73_collapse_frame_partial : forall floatOf intOf names x p f nr collapse,
  FrameOK x p f -> length names = length collapse -> hd 0 collapse = nr -> 0 < length collapse -> f = nr + length collapse ->
  (forall i, In i collapse -> nr <= i < f) ->
  exists data r, frameCollapse floatOf intOf names collapse (seq 0 nr) x = (data, Ok r) /\ FrameOK r (p * length collapse) (S (S nr)) /\
  forall i q a n, i < p -> nth_error collapse q = Some a -> nth_error names q = Some n ->
    (forall j v, j < nr -> at_ (snd x) i j v -> exists w, at_ (snd r) (i * length collapse + q) j w /\ SameElement v w) /\
    (exists w, at_ (snd r) (i * length collapse + q) nr w /\ SameElement n w) /\
    (forall v, at_ (snd x) i a v -> exists w, at_ (snd r) (i * length collapse + q) (S nr) w /\ SameElement v w).
Proof. exact frame_collapse. Qed.
Print Assumptions C73_collapse_frame_partial.
Example C73_collapse_ex : snd (frameCollapse (fun _ => None) (fun _ => None) [PStr "x"; PStr "y"] [1; 2] (seq 0 1) ([DInt; DInt; DFloat], [[PInt 7; PInt 1; PFloat (1 # 2)]]))
  = Ok ([DInt; DObj; DFloat], [[PInt 7; PStr "x"; PFloat 1]; [PInt 7; PStr "y"; PFloat (1 # 2)]]).
Proof. reflexivity. Qed.
(** Collapsing the first features of a DataFrame of integers raises a ValueError, when
    the data have been replaced already; in a DataFrame of booleans every feature name
    becomes True. *)
Theorem C73_collapse_first_refuted :
  frameCollapse (fun _ => None) (fun _ => None) [PStr "x"; PStr "y"] [0; 1] [2] ([DInt; DInt; DInt], [[PInt 1; PInt 2; PInt 3]])
    = ([[PInt 3; PStr "x"; PInt 1]; [PInt 3; PStr "y"; PInt 2]], Err ValueErr) /\
  frameCollapse (fun _ => None) (fun _ => None) [PStr "x"; PStr "y"] [0; 1] [2] ([DBool; DBool; DBool], [[PBool true; PBool false; PBool false]])
    = ([[PBool false; PStr "x"; PBool true]; [PBool false; PStr "y"; PBool false]], Ok ([DObj; DBool; DBool], [[PBool false; PBool true; PBool true]; [PBool false; PBool true; PBool false]])).
Proof. split; reflexivity. Qed.
Print Assumptions C73_collapse_first_refuted.
(** Points with the same uncombined features become one point; [unc] and [values] are the
    types.  Missing: a combination that no point has is NaN, which the type of the
    feature need not have (below). *)
Theorem C73_expand_frame_partial : forall floatOf intOf ni names groups unc values,
  ni <= length unc ->
  (forall key d, In (key, d) groups -> length key = length unc /\ (forall p, In p d -> length (snd p) = length values) /\
     (forall j v e, nth_error key j = Some v -> nth_error unc j = Some e -> Fits e v) /\
     (forall p k v e, In p d -> nth_error (snd p) k = Some v -> nth_error values k = Some e -> Fits e v) /\
     (forall n e, In n names -> In e values -> (exists p, In p d /\ pyEq n (fst p) = true) \/ Fits e PNaN)) ->
  exists r, frameExpand floatOf intOf ni (length values) (length unc + length names * length values) names groups unc values = Ok r /\
    FrameOK r (length groups) (length unc + length names * length values) /\
    forall i key d, nth_error groups i = Some (key, d) ->
      (forall j v, nth_error key j = Some v -> exists w, at_ (snd r) i (if j <? ni then j else j + length names * length values) w /\ SameElement v w) /\
      (forall q n k, nth_error names q = Some n -> k < length values -> exists v w,
         match find (fun p => pyEq n (fst p)) d with Some p => nth_error (snd p) k = Some v | None => v = PNaN end /\
         at_ (snd r) i (ni + q * length values + k) w /\ SameElement v w).
Proof. exact frame_expand. Qed.
Print Assumptions C73_expand_frame_partial.
Definition groups73 (v w : pval) : list group := [([PStr "a"], [(PStr "x", [v]); (PStr "y", [w])]); ([PStr "b"], [(PStr "x", [w])])].
Example C73_expand_ex : frameExpand (fun _ => None) (fun _ => None) 1 1 3 [PStr "x"; PStr "y"] (groups73 (PFloat 1) (PFloat 2)) [DObj] [DFloat]
  = Ok ([DObj; DFloat; DFloat], [[PStr "a"; PFloat 1; PFloat 2]; [PStr "b"; PFloat 2; PNaN]]).
Proof. reflexivity. Qed.
(** With integers the missing combination is a ValueError, with booleans True. *)
Theorem C73_expand_missing_refuted :
  frameExpand (fun _ => None) (fun _ => None) 1 1 3 [PStr "x"; PStr "y"] (groups73 (PInt 1) (PInt 2)) [DObj] [DInt] = Err ValueErr /\
  frameExpand (fun _ => None) (fun _ => None) 1 1 3 [PStr "x"; PStr "y"] (groups73 (PBool false) (PBool false)) [DObj] [DBool]
    = Ok ([DObj; DBool; DBool], [[PStr "a"; PBool false; PBool false]; [PStr "b"; PBool false; PBool true]]).
Proof. split; reflexivity. Qed.
Print Assumptions C73_expand_missing_refuted.
(** ** Cases that meet the hypotheses *)
Definition frame73 : list dt * list (list pval) := ([DInt; DFloat], [[PInt 1; PFloat (1 # 2)]; [PInt 2; PNaN]]).
Lemma frame73_ok : FrameOK frame73 2 2.
Proof.
  split; [split; [reflexivity|intros r [<-|[<-|[]]]; reflexivity]|]. split; [reflexivity|]. intros i j v d (r & A & B) D. destruct i as [|[|[|i]]]; try discriminate; injection A as <-;
    destruct j as [|[|[|j]]]; try discriminate; injection B as <-; injection D as <-; cbn; eauto.
Qed.
Example C73_take_ex : frameTake (fun _ => None) (fun _ => None) true [1] frame73 = Ok ([DInt; DFloat], [[PInt 2; PNaN]]) /\ FrameOK frame73 2 2.
Proof. split; [reflexivity|exact frame73_ok]. Qed.
Example C73_drop_ex : frameDrop false [0] frame73 = ([DFloat], [[PFloat (1 # 2)]; [PNaN]]) /\ Others [0] 2 [1].
Proof.
  split; [reflexivity|]. split; [repeat constructor|]. intros i. cbn. split; [intros [<-|[]]; split; [lia|intros [H|[]]; discriminate]|]. intros [A B]. left. destruct i as [|[|i]]; [exfalso; apply B; auto|reflexivity|lia].
Qed.
Example C73_insert_ex : frameInsert (fun _ => None) (fun _ => None) true 1 ([DFloat; DBool], [[PFloat (1 # 2); PBool true]]) frame73
  = Ok ([DFloat; DObj], [[PFloat 1; PFloat (1 # 2)]; [PFloat (1 # 2); PBool true]; [PFloat 2; PNaN]]).
Proof. reflexivity. Qed.
Example C73_insert_matrix_ex : matInsert (fun _ => None) (fun _ => None) false 0 (DFloat, [[PFloat (1 # 2)]; [PNaN]]) (DInt, [[PInt 1]; [PInt 2]])
  = Ok (DFloat, [[PFloat (1 # 2); PFloat 1]; [PNaN; PFloat 2]]).
Proof. reflexivity. Qed.
Example C73_repeat_ex : frameRepeat true 2 true frame73 = ([DInt; DFloat], [[PInt 1; PFloat (1 # 2)]; [PInt 1; PFloat (1 # 2)]; [PInt 2; PNaN]; [PInt 2; PNaN]]).
Proof. reflexivity. Qed.
