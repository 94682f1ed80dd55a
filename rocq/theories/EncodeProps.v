(** Property C15: transformFeatureToIntegers and replaceFeatureWithBinaryFeatures. *)
From Verif Require Import Base NamesModel NamesSpec NamesProofs TableModel TableSpec TableProofs TableOps
  TableOpsProofs FlatModel SparseModel SparseSpec PrepModel PrepSpec PrepProofs EncodeProofs.
Open Scope string_scope.
Open Scope list_scope.
Open Scope nat_scope.

(** C15: transformFeatureToIntegers always succeeds on a non-empty object and
    an existing feature [i].  Some coding of the values is applied to column
    [i] (and to nothing else); equal codes mean equal values; the codes used
    are exactly 0..k-1 (k = the number of keys of the returned dict); 0 is
    coded 0; the returned dict is the decoding. *)
Theorem C15_integers :
  forall (V : Type) (EV : EqDec V) (zero : V) (ofNat : nat -> V) (t : table V) feature i,
  wf t -> 0 < alen (tp t) -> Denotes (tf t) false feature (Z.of_nat i) -> i < alen (tf t) ->
  exists t' d (code : V -> nat),
    featureToIntegers zero ofNat t feature = (t', Ok d) /\
    wf t' /\ tp t' = tp t /\ tf t' = tf t /\
    (forall p j, j <> i -> cell t' p j = cell t p j) /\
    (forall p, cell t' p i = option_map (fun v => ofNat (code v)) (cell t p i)) /\
    (forall p q v w, cell t p i = Some v -> cell t q i = Some w -> (code v = code w <-> v = w)) /\
    (forall c, c < List.length d <-> exists p v, cell t p i = Some v /\ code v = c) /\
    (forall p, cell t p i = Some zero -> code zero = 0) /\
    (forall c v, dget c d = Some v <-> exists p, cell t p i = Some v /\ code v = c).
Proof. exact featureToIntegers_spec. Qed.
Print Assumptions C15_integers.

(** C15: whenever replaceFeatureWithBinaryFeatures succeeds (dense types), the
    feature is replaced in place by one indicator column per distinct value,
    named "<feature>=<value>", all other features and the point names
    unchanged, and the names of the new features are returned. *)
Theorem C15_binary_columns :
  forall (V : Type) (EV : EqDec V) (zero one : V) (arrange : list V -> list V),
  (forall l, Permutation (arrange l) l) ->
  forall (str : V -> string) (dec : nat -> string) (t : table V) feature i t' names, wf t ->
  Denotes (tf t) false feature (Z.of_nat i) -> i < alen (tf t) ->
  replaceWithBinary zero one arrange str dec t feature = (t', Ok names) ->
  exists uniq prefix,
    NoDup uniq /\ (forall v, In v uniq <-> exists p, cell t p i = Some v) /\
    prefix = match nth_error (getNames (tf t)) i with Some (Some s) => s | _ => dec i end /\
    names = map (fun v => (prefix ++ "=" ++ str v)%string) uniq /\
    wf t' /\ alen (tp t') = alen (tp t) /\ getNames (tp t') = getNames (tp t) /\
    items Fts t' = firstn i (items Fts t) ++
      combine (map Some names) (map (fun u => map (fun v => if eqbd v u then one else zero) (column t i)) uniq) ++
      skipn (S i) (items Fts t).
Proof. exact replaceWithBinary_spec. Qed.
Print Assumptions C15_binary_columns.

(** C15: in the result every point has exactly one 1 among the new columns, in
    the column shared by exactly the points with the same original value. *)
Theorem C15_binary_one_hot :
  forall (V : Type) (EV : EqDec V) (zero one : V), zero <> one ->
  forall (arrange : list V -> list V), (forall l, Permutation (arrange l) l) ->
  forall (str : V -> string) (dec : nat -> string) (t : table V) feature i t' names, wf t ->
  Denotes (tf t) false feature (Z.of_nat i) -> i < alen (tf t) ->
  replaceWithBinary zero one arrange str dec t feature = (t', Ok names) ->
  alen (tf t') + 1 = alen (tf t) + List.length names /\
  (forall p v, cell t p i = Some v -> exists q, q < List.length names /\
     (forall q', q' < List.length names -> cell t' p (i + q') = Some (if q' =? q then one else zero)) /\
     (forall p' w, cell t p' i = Some w -> (cell t' p' (i + q) = Some one <-> w = v))) /\
  (forall p j, j < i -> cell t' p j = cell t p j) /\
  (forall p j, i < j -> cell t' p (j + List.length names - 1) = cell t p j).
Proof. exact oneHot_spec. Qed.
Print Assumptions C15_binary_one_hot.

(** C15, Sparse objects: the indicator columns of the nonzero values are right,
    the column of the value 0 is left empty (partial). *)
Theorem C15_sparse_binary_partial :
  forall (V : Type) (EV : EqDec V) (zero : V) (arrange : list V -> list V),
  (forall l, Permutation (arrange l) l) ->
  forall s : sparse V, entsOK zero s -> snf s = 1 ->
  exists s', sparseBinary zero arrange s = Ok s' /\ snp s' = snp s /\ snf s' = List.length (sparseUnique zero arrange s) /\
  forall p q u, p < snp s -> nth_error (sparseUnique zero arrange s) q = Some u ->
    val 0 s' p q = if eqbd u zero then 0 else if eqbd (val zero s p 0) u then 1 else 0.
Proof. exact sparseBinary_spec. Qed.
Print Assumptions C15_sparse_binary_partial.

Theorem C15_sparse_unique_values :
  forall (V : Type) (EV : EqDec V) (zero : V) (arrange : list V -> list V),
  (forall l, Permutation (arrange l) l) ->
  forall s : sparse V, entsOK zero s -> snf s = 1 ->
  NoDup (sparseUnique zero arrange s) /\
  forall v, In v (sparseUnique zero arrange s) <-> exists p, p < snp s /\ val zero s p 0 = v.
Proof. exact sparseUnique_spec. Qed.
Print Assumptions C15_sparse_unique_values.

(** C15 is false of Sparse: in the column [0; 5; 0] the point 0 (value 0) gets
    no 1 in any of the new columns (sparse.py:784-797). *)
Theorem C15_sparse_zero_category_refuted :
  exists (s : sparse nat) s', entsOK 0 s /\ snf s = 1 /\ sparseBinary 0 (fun l => l) s = Ok s' /\
    val 0 s 0 0 = 0 /\ In 0 (sparseUnique 0 (fun l => l) s) /\ snf s' = 2 /\ val 0 s' 0 0 = 0 /\ val 0 s' 0 1 = 0.
Proof.
  exists (mkSp 3 1 [mkE 1 0 5] None None). eexists. split.
  { split; [constructor; [simpl; tauto|constructor]|]. intros e [<-|[]]. cbn. lia. }
  split; [reflexivity|]. split; [vm_compute; reflexivity|]. vm_compute. auto 10.
Qed.
Print Assumptions C15_sparse_zero_category_refuted.

(** C15 is not atomic: when the feature has no name but another one has, the
    call raises after the feature has been removed from the object
    (base.py:572 runs before 585). *)
Theorem C15_binary_failure_not_atomic_refuted :
  exists (t t' : table nat) e, wf t /\
    replaceWithBinary 0 1 (fun l => l) (fun _ => "") dec10 t (IdInt 0) = (t', Err e) /\
    alen (tf t) = 2 /\ alen (tf t') = 1.
Proof.
  exists (mkTable (fresh 2) (fst (setNames (fresh 2) (AList [NNone; NStr "y"]) ONone)) [[1; 2]; [3; 4]]).
  do 2 eexists. split.
  { split; [reflexivity|]. split; [intros r [<-|[<-|[]]]; reflexivity|].
    split; [exact (fresh_Inv _)|apply setNames_list_Inv; exact I]. }
  split; [vm_compute; reflexivity|]. split; vm_compute; reflexivity.
Qed.
Print Assumptions C15_binary_failure_not_atomic_refuted.

Definition ex_enc := mkTable (fresh 4)
  (fst (setNames (fresh 3) (AList [NStr "x"; NStr "y"; NStr "z"]) ONone))
  [[1; 5; 0]; [2; 7; 7]; [3; 5; 7]; [4; 0; 2]].
Example ex_integers : featureToIntegers 0 (fun n => n) ex_enc (IdStr "y") =
  (mkTable (tp ex_enc) (tf ex_enc) [[1; 1; 0]; [2; 2; 7]; [3; 1; 7]; [4; 0; 2]], Ok [(1, 5); (2, 7); (0, 0)]).
Proof. vm_compute. reflexivity. Qed.
Example ex_binary : exists t', replaceWithBinary 0 1 (fun l => l) dec10 dec10 ex_enc (IdInt (-2)) =
  (t', Ok ["y=5"; "y=7"; "y=0"]) /\
  rows t' = [[1; 1; 0; 0; 0]; [2; 0; 1; 0; 7]; [3; 1; 0; 0; 7]; [4; 0; 0; 1; 2]] /\
  getNames (tf t') = [Some "x"; Some "y=5"; Some "y=7"; Some "y=0"; Some "z"].
Proof. eexists. split; [vm_compute; reflexivity|]. split; vm_compute; reflexivity. Qed.
