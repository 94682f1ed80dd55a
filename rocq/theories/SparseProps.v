(** Properties C22, C23, C24: the Sparse representation. *)
From Verif Require Import Base NamesModel NamesSpec TableModel TableSpec TableProofs TablePermProofs TableOps TableInsertProofs TableOpsProofs TableOps2Proofs
  SparseModel SparseSpec SparseProofs SparseOpsProofs SparseHistProofs SparseEqProofs SparseRefine IdentModel IdentProofs.
From Coq Require Import Sorted.
Open Scope string_scope.
Open Scope list_scope.
Open Scope nat_scope.

(** ** C22 *)
(** A Sparse object with entries in a scrambled order, cache empty. *)
Definition sx : sparse nat := mkSp 3 3 [mkE 2 1 7; mkE 0 2 5; mkE 2 0 6; mkE 1 1 4] None None.
Lemma sx_ok : sinv 0 sx.
Proof.
  split; [split|reflexivity].
  - repeat constructor; simpl; intuition discriminate.
  - simpl. intuition (subst; simpl; auto with arith); discriminate.
Qed.

Theorem C22_read_is_stored_value :
  forall V (zero : V) (s : sparse V) x y, sinv zero s -> x < snp s -> y < snf s ->
    let r := getitem zero s x y in
    snd r = Ok (val zero s x y) /\ sinv zero (fst r) /\ sameMatrix zero s (fst r).
Proof. exact getitem_spec. Qed.
Print Assumptions C22_read_is_stored_value.
Theorem C22_write_changes_one_element :
  forall V (zero : V) (s : sparse V) (EV : EqDec V) x y v, sinv zero s -> x < snp s -> y < snf s ->
    let r := setitem zero s x y v in
    snd r = Ok tt /\ sinv zero (fst r) /\ snp (fst r) = snp s /\ snf (fst r) = snf s /\
    forall i j, val zero (fst r) i j = if (i =? x) && (j =? y) then v else val zero s i j.
Proof. intros V zero s EV. exact (@setitem_spec V zero EV s). Qed.
Print Assumptions C22_write_changes_one_element.

(** After any history of reads, writes, structural operations and in-place
    maps that create no zeros, every read returns the element of the matrix
    computed by the mathematical history.  Missing for the full claim: in-place
    changes that turn a stored value into zero while the index cache is live
    (refuted below). *)
Theorem C22_reads_after_any_history_partial :
  forall V (EV : EqDec V) (zero : V) (s : sparse V) (h : list (sop V)) x y,
    sinv zero s -> validHistory zero (matrixOf zero s) h ->
    let m := fold_left (mstep zero) h (matrixOf zero s) in
    x < mn m -> y < mf m ->
    snd (getitem zero (fold_left (sstep zero) h s) x y) = Ok (mv m x y).
Proof. exact history_get. Qed.
Print Assumptions C22_reads_after_any_history_partial.
(** The invariant (checkInvariants) itself holds after any such history. *)
Theorem C22_invariant_after_any_history_partial :
  forall V (EV : EqDec V) (zero : V) (h : list (sop V)) (s : sparse V),
    sinv zero s -> validHistory zero (matrixOf zero s) h -> sinv zero (fold_left (sstep zero) h s).
Proof.
  intros V EV zero h s HI Hv. apply (history_ok V zero h s (matrixOf zero s)); auto. repeat split; auto.
Qed.
Print Assumptions C22_invariant_after_any_history_partial.
(** Maps that may create zeros, and zeroing a rectangle, are right when no
    index cache is live. *)
Theorem C22_inplace_without_cache :
  forall V (EV : EqDec V) (zero : V) (s : sparse V) f ps fs pe fe, sinv zero s -> sIdx s = None ->
    sinv zero (mapNonzero zero s f) /\
    (forall i j, val zero (mapNonzero zero s f) i j = if eqbd (val zero s i j) zero then zero else f i j (val zero s i j)) /\
    sinv zero (zeroRectangle s ps fs pe fe) /\
    (forall i j, val zero (zeroRectangle s ps fs pe fe) i j =
       if (ps <=? i) && (i <=? pe) && (fs <=? j) && (j <=? fe) then zero else val zero s i j).
Proof.
  intros V EV zero s f ps fs pe fe HI Hc. split; [apply mapNonzero_nocache; auto|].
  split; [apply mapNonzero_ents; apply HI|]. split; [apply zeroRectangle_nocache; auto|].
  apply zeroRectangle_ents; auto. apply HI.
Qed.
Print Assumptions C22_inplace_without_cache.
(** The full claim is false: reading an element fills the index cache; a zero
    preserving in-place operation (sparse.py:179, 1186-1206) or a rectangle of
    zeros (sparse.py:604-611) then removes entries without resetting it, and
    the next read returns another element's value. *)
Theorem C22_stale_cache_refuted :
  exists (s : sparse nat) (f : nat -> nat -> nat -> nat), sinv 0 s /\
    let s1 := fst (getitem 0 s 0 0) in
    (let s2 := mapNonzero 0 s1 f in
     val 0 s2 2 0 = 6 /\ snd (getitem 0 s2 2 0) = Ok 0) /\
    (let s2 := zeroRectangle s1 0 2 0 2 in
     val 0 s2 2 0 = 6 /\ snd (getitem 0 s2 2 0) = Ok 0).
Proof.
  exists sx, (fun i j v => if v =? 5 then 0 else v). split; [exact sx_ok|]. vm_compute. repeat split; auto.
Qed.
Print Assumptions C22_stale_cache_refuted.

Definition hx : list (sop nat) :=
  [OGet 0 0; OSet 1 2 9; OTranspose; OSet 2 1 0; SparseSpec.OPermute Pts [2; 0; 1]; OMap (fun _ _ v => S v);
   OGet 1 1; ORepeat Fts 2 true; ODrop true Pts [0]; SparseSpec.OInsert Pts (mkSp 1 6 [mkE 0 3 8] None None) 1; OTake false Fts [5; 0; 3]].
Example C22_history_nonvacuous :
  validHistory 0 (matrixOf 0 sx) hx /\
  let m := fold_left (mstep 0) hx (matrixOf 0 sx) in
  mn m = 3 /\ mf m = 3 /\
  map (fun i => map (fun j => snd (getitem 0 (fold_left (sstep 0) hx sx) i j)) [0; 1; 2]) [0; 1; 2] =
  map (fun i => map (fun j => Ok (mv m i j)) [0; 1; 2]) [0; 1; 2] /\
  map (fun i => map (fun j => mv m i j) [0; 1; 2]) [0; 1; 2] = [[7; 0; 0]; [0; 0; 8]; [8; 0; 5]].
Proof.
  split; [|vm_compute; auto].
  cbn [validHistory hx mvalid].
  split; [cbn; lia|]. split; [cbn; lia|]. split; [exact I|]. split; [cbn; lia|].
  split; [apply nodup_range_perm; [repeat constructor; simpl; intuition discriminate|reflexivity|simpl; intros; lia]|].
  split; [intros; lia|]. split; [cbn; lia|]. split; [lia|].
  split; [simpl; intros; lia|].
  split; [split; [|cbn; lia]|].
  { split; [split|reflexivity]; [repeat constructor; simpl; tauto|]. simpl. intros e [<-|[]]. simpl. lia. }
  split; [simpl; intros; lia|exact I].
Qed.

(** ** C23: each structural operation on a Sparse object holding the matrix of
    a dense table gives the matrix of the dense operation. *)
Theorem C23_copy_extract_points_features :
  forall V (zero : V) fast sd (s : sparse V) (t : table V) targets,
    wf t -> sinv zero s -> represents zero s t -> NoDup targets ->
    (forall i, In i targets -> i < alen (ax sd t)) ->
    exists t', taken sd t targets = Ok t' /\ represents zero (sTaken fast sd s targets) t'.
Proof. exact refine_taken. Qed.
Print Assumptions C23_copy_extract_points_features.
Theorem C23_delete_leaves :
  forall V (zero : V) fast sd (s : sparse V) (t : table V) targets,
    wf t -> sinv zero s -> represents zero s t -> NoDup targets ->
    (forall i, In i targets -> i < alen (ax sd t)) ->
    exists t', remaining sd t targets = Ok t' /\ represents zero (sRemaining fast sd s targets) t'.
Proof. exact refine_remaining. Qed.
Print Assumptions C23_delete_leaves.
Theorem C23_permute :
  forall V (zero : V) sd (s : sparse V) (t : table V) order,
    wf t -> sinv zero s -> represents zero s t -> Permutation order (seq 0 (alen (ax sd t))) ->
    exists t', permute sd t order = Ok t' /\ represents zero (sPermute sd s order) t'.
Proof. exact refine_permute. Qed.
Print Assumptions C23_permute.
Theorem C23_transpose :
  forall V (zero : V) (s : sparse V) (t : table V),
    wf t -> sinv zero s -> represents zero s t -> represents zero (sTranspose s) (transpose t).
Proof. exact refine_transpose. Qed.
Print Assumptions C23_transpose.
(** [o'] is the inserted object after its off-axis was aligned by name. *)
Theorem C23_insert :
  forall V (zero : V) sd (s : sparse V) (t : table V) (so : sparse V) (o : table V) before t',
    wf t -> wf o -> sinv zero s -> sinv zero so -> represents zero s t ->
    alen (offax sd o) = alen (offax sd t) -> insertTable sd t before o = Ok t' ->
    exists b o', InsertPos (ax sd t) before b /\ Aligned V sd t o o' /\
      (represents zero so o' -> represents zero (sInsert sd s so b) t').
Proof. exact refine_insert. Qed.
Print Assumptions C23_insert.
Theorem C23_repeat :
  forall V (zero : V) sd (s : sparse V) (t : table V) total byVector,
    wf t -> sinv zero s -> represents zero s t -> 0 < total ->
    (namesCreated (ax sd t) = true -> fullyNamed (ax sd t)) ->
    exists t', tableRepeat dec10 sd t total byVector = Ok t' /\ represents zero (sRepeat sd s total byVector) t'.
Proof. exact refine_repeat. Qed.
Print Assumptions C23_repeat.
Theorem C23_unique :
  forall V (EV : EqDec V) (zero : V) sd (s : sparse V) (t : table V),
    wf t -> sinv zero s -> represents zero s t -> 0 < alen (offax sd t) ->
    exists t', tableUnique (fun v => v) sd t = Ok t' /\ represents zero (snd (sUnique sd s)) t'.
Proof. exact refine_unique. Qed.
Print Assumptions C23_unique.
(** Every one of them also leaves a consistent Sparse object. *)
Theorem C23_results_consistent :
  forall V (EV : EqDec V) (zero : V) sd (s : sparse V), sinv zero s ->
    sinv zero (sTranspose s) /\
    (forall order, Permutation order (seq 0 (axLen sd s)) -> sinv zero (sPermute sd s order)) /\
    (forall so b, sinv zero so -> offLen sd so = offLen sd s -> b <= axLen sd s -> sinv zero (sInsert sd s so b)) /\
    (forall total vv, 0 < total -> sinv zero (sRepeat sd s total vv)) /\
    (forall fast targets, sinv zero (sTaken fast sd s targets) /\ sinv zero (sRemaining fast sd s targets)) /\
    sinv zero (fst (sUnique sd s)) /\ sinv zero (snd (sUnique sd s)).
Proof.
  intros V EV zero sd s HI. split; [apply sTranspose_spec; auto|].
  split; [intros; apply sPermute_spec; auto|]. split; [intros; apply sInsert_spec; auto|].
  split; [intros; apply sRepeat_spec; auto|]. split; [split; [apply sTaken_spec|apply sRemaining_spec]; auto|].
  destruct (sUnique_spec V zero sd s HI) as [A [_ [B _]]]. auto.
Qed.
Print Assumptions C23_results_consistent.

Definition tx : table nat := mkTable (fresh 3) (fresh 3) [[0; 0; 5]; [0; 4; 0]; [6; 7; 0]].
Lemma tx_wf : wf tx.
Proof. repeat split; simpl; auto. intros r [<-|[<-|[<-|[]]]]; auto. Qed.
Example C23_nonvacuous : wf tx /\ sinv 0 sx /\ represents 0 sx tx /\
  taken Fts tx [2; 0] = Ok (mkTable (fresh 3) (fresh 2) [[5; 0]; [0; 0]; [0; 6]]) /\
  toDense 0 (sTaken true Fts sx [2; 0]) = [[5; 0]; [0; 0]; [0; 6]] /\
  toDense 0 (snd (sUnique Pts (sRepeat Pts sx 2 false))) = [[0; 0; 5]; [0; 4; 0]; [6; 7; 0]].
Proof.
  split; [apply tx_wf|]. split; [apply sx_ok|]. split; [|vm_compute; auto].
  split; [reflexivity|]. split; [reflexivity|]. intros i j Hi Hj. simpl in Hi, Hj.
  destruct i as [|[|[|i]]]; [| | |lia]; destruct j as [|[|[|j]]]; try lia; reflexivity.
Qed.

(** ** C24 *)
Theorem C24_sparse_to_dense_and_back :
  forall V (EV : EqDec V) (zero : V),
    (* dense -> Sparse -> dense *)
    (forall np nf m, List.length m = np -> (forall r, In r m -> List.length r = nf) ->
       sinv zero (ofDense zero np nf m) /\ toDense zero (ofDense zero np nf m) = m /\
       forall i j r v, nth_error m i = Some r -> nth_error r j = Some v -> val zero (ofDense zero np nf m) i j = v) /\
    (* Sparse -> dense *)
    (forall s : sparse V, sinv zero s ->
       List.length (toDense zero s) = snp s /\ (forall r, In r (toDense zero s) -> List.length r = snf s) /\
       forall i j, i < snp s -> j < snf s -> exists r, nth_error (toDense zero s) i = Some r /\ nth_error r j = Some (val zero s i j)).
Proof.
  intros V EV zero. split.
  - intros np nf m HL HR. destruct (ofDense_spec V zero np nf m) as [A [B [C D]]]; [split; auto|].
    split; auto. split; [apply dense_roundtrip; split; auto|]. intros i j r v Hi Hj. apply D. unfold cellOf. rewrite Hi. auto.
  - intros s HI. destruct (toDense_spec V zero s) as [[A B] C]; [apply HI|]. split; auto. split; auto.
    intros i j Hi Hj. specialize (C i j Hi Hj). unfold cellOf in C. destruct (nth_error (toDense zero s) i); [eauto|discriminate].
Qed.
Print Assumptions C24_sparse_to_dense_and_back.
(** copy to a type: names and elements are the same. *)
Theorem C24_copy_preserves :
  forall V (t : table V), wf t -> exists c, copyTable t = Ok c /\ wf c /\ rows c = rows t /\
    alen (tp c) = alen (tp t) /\ alen (tf c) = alen (tf t) /\
    getNames (tp c) = getNames (tp t) /\ getNames (tf c) = getNames (tf t).
Proof. intros V. exact (copyTable_spec V). Qed.
Print Assumptions C24_copy_preserves.
(** Two Sparse objects compare equal exactly when they hold the same matrix;
    the comparison changes neither. *)
Theorem C24_isIdentical_sparse :
  forall V (EV : EqDec V) (zero : V) (a b : sparse V), sinv zero a -> sinv zero b ->
    let r := isIdenticalSparse a b in
    (snd r = true <-> snp a = snp b /\ snf a = snf b /\ forall i j, val zero a i j = val zero b i j) /\
    sinv zero (fst (fst r)) /\ sinv zero (snd (fst r)) /\
    sameMatrix zero a (fst (fst r)) /\ sameMatrix zero b (snd (fst r)).
Proof. exact SparseEqProofs.isIdentical_spec. Qed.
Print Assumptions C24_isIdentical_sparse.
(** Two objects of one dense type ([same x y]: equal, or both NaN). *)
Theorem C24_isIdentical_same_type_partial :
  forall V (same : V -> V -> bool) k (a b : table V), wf a -> wf b ->
    (isIdentical same k k a b = true <->
     alen (tp a) = alen (tp b) /\ alen (tf a) = alen (tf b) /\
     getNames (tp a) = getNames (tp b) /\ getNames (tf a) = getNames (tf b) /\
     forall i j x y, cell a i j = Some x -> cell b i j = Some y -> same x y = true).
Proof. intros V same k a b Ha Hb. rewrite (IdentProofs.isIdentical_spec V same k k a b Ha Hb). tauto. Qed.
Print Assumptions C24_isIdentical_same_type_partial.
Theorem C24_isIdentical_symmetric :
  forall V (same : V -> V -> bool) ka kb (a b : table V), wf a -> wf b ->
    (forall x y, same x y = same y x) ->
    isIdentical same ka kb a b = isIdentical same kb ka b a.
Proof.
  intros V same ka kb a b Ha Hb Hs.
  destruct (isIdentical same ka kb a b) eqn:E1; destruct (isIdentical same kb ka b a) eqn:E2; auto.
  - apply (IdentProofs.isIdentical_spec V same) in E1; auto.
    assert (isIdentical same kb ka b a = true); [|congruence]. apply IdentProofs.isIdentical_spec; auto.
    destruct E1 as (A & B & C & D & E & F). repeat (split; auto). intros i j x y Hx Hy. rewrite Hs. eauto.
  - apply (IdentProofs.isIdentical_spec V same) in E2; auto.
    assert (isIdentical same ka kb a b = true); [|congruence]. apply IdentProofs.isIdentical_spec; auto.
    destruct E2 as (A & B & C & D & E & F). repeat (split; auto). intros i j x y Hx Hy. rewrite Hs. eauto.
Qed.
Print Assumptions C24_isIdentical_symmetric.
(** A copy of the same type is identical to its source... *)
Theorem C24_copy_is_identical :
  forall V (same : V -> V -> bool) k (t : table V), wf t -> (forall x, same x x = true) ->
    exists c, copyTable t = Ok c /\ isIdentical same k k t c = true.
Proof.
  intros V same k t Hwf Hr. destruct (copyTable_spec V t Hwf) as [c [E [Hw [R [L1 [L2 [N1 N2]]]]]]].
  exists c. split; auto. apply IdentProofs.isIdentical_spec; auto. repeat (split; auto).
  intros i j x y. unfold cell. rewrite R. intros H1 H2. rewrite H1 in H2. injection H2 as <-. auto.
Qed.
Print Assumptions C24_copy_is_identical.
(** ...but a copy to another type never is, although the documentation says
    "Return True if all values and names ... match". *)
Theorem C24_isIdentical_across_types_refuted :
  forall V (same : V -> V -> bool) ka kb (t c : table V), ka <> kb -> copyTable t = Ok c ->
    isIdentical same ka kb t c = false.
Proof.
  intros V same ka kb t c Hne _. unfold isIdentical. destruct (eqbd ka kb) eqn:E.
  - apply eqbd_true in E. tauto.
  - rewrite !andb_false_r. auto.
Qed.
Print Assumptions C24_isIdentical_across_types_refuted.

Definition ty : table nat :=
  mkTable (fst (setNames (fresh 2) (AList [NStr "a"; NStr "b"]) ONone)) (fresh 2) [[1; 2]; [3; 4]].
Example C24_nonvacuous :
  is_ok (copyTable ty) = true /\ isIdentical Nat.eqb KList KList ty ty = true /\
  isIdentical Nat.eqb KList KSparse ty ty = false /\
  isIdentical Nat.eqb KList KList ty (mkTable (fresh 2) (fresh 2) [[1; 2]; [3; 4]]) = false /\
  snd (isIdenticalSparse sx (fst (getitem 0 sx 1 1))) = true /\
  snd (isIdenticalSparse sx (fst (setitem 0 sx 1 1 0))) = false.
Proof. vm_compute. auto 10. Qed.
