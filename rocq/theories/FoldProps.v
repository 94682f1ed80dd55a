(** Properties C32 (folds), C33 (best result), C54 (every validation uses every
    fold).  Definitions used in the statements: FoldSpec.v, PrepSpec.v. *)
From Verif Require Import Base NamesModel NamesSpec NamesProofs TableModel TableSpec TableProofs TableOps TableOpsProofs
  PrepModel PrepSpec FoldModel FoldSpec FoldProofs FoldGroupProofs.
From Coq Require Import Sorted.
Open Scope string_scope.
Open Scope list_scope.
Open Scope nat_scope.

(** C32: for every shuffle of the [n] points and 1 <= k <= n there are [k]
    folds that partition the points, with sizes n/k or n/k+1. *)
Theorem C32_kfold_partition :
  forall n k indices, Permutation indices (seq 0 n) -> 0 < k -> k <= n ->
  exists folds, kFolds n (Z.of_nat k) indices = Ok folds /\ List.length folds = k /\
    partitionOf n folds /\
    forall f, In f folds -> List.length f = n / k \/ List.length f = n / k + 1.
Proof.
  intros n k ind P H1 H2. destruct (kFolds_spec n k ind P H1 H2) as (folds & E & L & C & S).
  exists folds. unfold partitionOf. rewrite C. auto.
Qed.
Print Assumptions C32_kfold_partition.
Theorem C32_kfold_rejects :
  forall n z indices, (z <= 0)%Z \/ (Z.of_nat n < z)%Z -> exists e, kFolds n z indices = Err e.
Proof. exact kFolds_reject. Qed.
Print Assumptions C32_kfold_rejects.
(** C32: leave-one-out: [n] folds of one point each *)
Theorem C32_leaveOneOut :
  forall n indices, Permutation indices (seq 0 n) -> 0 < n ->
  exists folds, leaveOneOut n indices = Ok folds /\ List.length folds = n /\ partitionOf n folds /\
    forall f, In f folds -> List.length f = 1.
Proof.
  intros n ind P H1. destruct (leaveOneOut_spec n ind P H1) as (folds & E & L & C & S).
  exists folds. unfold partitionOf. rewrite C. auto.
Qed.
Print Assumptions C32_leaveOneOut.
(** C32: group folds partition the points; each is non-empty and holds exactly
    the points with one group value *)
Theorem C32_group_folds :
  forall (V : Type) (EV : EqDec V) (vals : list V),
  partitionOf (List.length vals) (groupFolds vals) /\
  forall fold, In fold (groupFolds vals) -> fold <> [] /\ exists v, forall i, In i fold <-> nth_error vals i = Some v.
Proof. exact @groupFolds_spec. Qed.
Print Assumptions C32_group_folds.
(** C32: group folds of data with missing group values: exactly the points whose
    value is not missing are kept, in order, in every data object, and the folds
    partition them by value *)
Theorem C32_group_missing_dropped :
  forall (L : Type) (EL : EqDec L) (missing : L -> bool) (V : Type) (vals : list L) (data : list (option (table V))),
  Forall (okData (List.length vals)) data -> (exists t0 rest, data = Some t0 :: rest) ->
  (exists i v, nth_error vals i = Some v /\ missing v = false) ->
  exists data' folds keep, groupInit missing vals data = Ok (data', folds) /\
    StronglySorted lt keep /\
    (forall i, In i keep <-> exists v, nth_error vals i = Some v /\ missing v = false) /\
    Forall2 (fun d d' => match d, d' with
                         | None, None => True
                         | Some t, Some t' => subTable t keep (seq 0 (alen (tf t))) t'
                         | _, _ => False end) data data' /\
    partitionOf (List.length keep) folds /\
    forall fold, In fold folds -> fold <> [] /\ exists v, missing v = false /\
      forall j, In j fold <-> exists i, nth_error keep j = Some i /\ nth_error vals i = Some v.
Proof. exact @groupInit_spec. Qed.
Print Assumptions C32_group_missing_dropped.
Example C32_group_missing_example :
  rmap (fun p => (map (option_map (@rows nat)) (fst p), snd p))
    (groupInit (fun v => v =? 0) [7; 0; 8; 7]
      [Some (mkTable (fresh 4) (fresh 1) [[1]; [2]; [3]; [4]]); None]) =
  Ok ([Some [[1]; [3]; [4]]; None], [[0; 2]; [1]]).
Proof. reflexivity. Qed.
(** C32: one validation over any list of data objects (features, labels) calls
    the learner once per fold, in order, with the test set holding exactly the
    fold's points and the train set all the others (X and Y in the same order,
    names kept), and leaves the iterator ready for the next validation. *)
Theorem C32_validation_uses_folds :
  forall (V R : Type) n (data : list (option (table V))) folds shuf learn,
  Forall (okData n) data -> partitionOf n folds -> okShuffle n folds shuf ->
  (forall sets, exists r : R, learn sets = Ok r) ->
  exists rs, crossValidate data folds shuf learn 0 = (0, Ok rs) /\
    Forall2 (fun fold r => exists sets, foldSets n fold data sets /\ learn sets = Ok r) folds rs.
Proof. exact crossValidate_ok. Qed.
Print Assumptions C32_validation_uses_folds.
(** C32: the known labels gathered over the folds are all the labels, each
    once, in fold order (so they line up with the gathered predictions) *)
Theorem C32_collected_labels :
  forall (V : Type) (Y : table V) folds tests, wf Y -> partitionOf (alen (tp Y)) folds -> folds <> [] ->
  Forall2 (fun f y => subTable Y f (seq 0 (alen (tf Y))) y) folds tests ->
  exists c, collectY None tests = Ok (Some c) /\ subTable Y (List.concat folds) (seq 0 (alen (tf Y))) c.
Proof. exact collectY_ok. Qed.
Print Assumptions C32_collected_labels.

Example C32_kfold_example : kFolds 7 3 [3; 1; 4; 0; 5; 2; 6] = Ok [[3; 1; 4]; [0; 5]; [2; 6]].
Proof. reflexivity. Qed.
Example C32_group_example : groupFolds [7; 8; 7; 9; 8] = [[0; 2]; [1; 4]; [3]].
Proof. reflexivity. Qed.
Definition exX : table nat := mkTable (fst (setNames (fresh 3) (AList [NStr "a"; NStr "b"; NStr "c"]) ONone)) (fresh 2) [[1; 2]; [3; 4]; [5; 6]].
Definition exY : table nat := mkTable (fresh 3) (fresh 1) [[0]; [1]; [0]].
Example exX_wf : wf exX.
Proof. split; [reflexivity|]. split; [intros r [<-|[<-|[<-|[]]]]; reflexivity|]. split; [apply setNames_list_Inv; exact I|exact (fresh_Inv _)]. Qed.
Example exY_wf : wf exY.
Proof. split; [reflexivity|]. split; [intros r [<-|[<-|[<-|[]]]]; reflexivity|]. split; exact (fresh_Inv _). Qed.
(** two objects, two folds, three points: the hypotheses of
    C32_validation_uses_folds hold and the learner sees these sets *)
Example C32_validation_example :
  Forall (okData 3) [Some exX; Some exY] /\ partitionOf 3 [[1]; [2; 0]] /\
  okShuffle 3 [[1]; [2; 0]] (fun i => if i =? 0 then [1; 0] else [0]) /\
  crossValidate [Some exX; Some exY] [[1]; [2; 0]] (fun i => if i =? 0 then [1; 0] else [0])
    (fun sets => Ok (map (fun s => match s with Some (tr, te) => (rows tr, rows te) | None => ([], []) end) sets)) 0 =
  (0, Ok [[([[5; 6]; [1; 2]], [[3; 4]]); ([[0]; [0]], [[1]])];
          [([[3; 4]], [[5; 6]; [1; 2]]); ([[1]], [[0]; [0]])]]).
Proof.
  split. { constructor; [split; [exact exX_wf|reflexivity]|constructor; [split; [exact exY_wf|reflexivity]|constructor]]. }
  split. { unfold partitionOf. cbn. apply NoDup_Permutation.
    - repeat constructor; simpl; intuition lia.
    - repeat constructor; simpl; intuition lia.
    - intros x. simpl. intuition. }
  split. { intros [|[|i]] f H; [injection H as <-; cbn; constructor|injection H as <-; reflexivity|destruct i; discriminate]. }
  reflexivity.
Qed.

(** ** C33 *)
(** after any list of validations (each recorded or not) on a fresh validator,
    all recorded performances and argument sets are stored in order, and the
    best one is the first of the best *)
Theorem C33_best_is_first_best :
  forall (P A : Type) (isBest : P -> P -> bool) (cs : list (P * A * bool)), betterOrder isBest ->
  let s := fold_left (validate isBest) cs vinit in
  vResults s = map fst (recorded cs) /\ vArguments s = map snd (recorded cs) /\
  match vBest s with None => recorded cs = [] | Some b => firstBest isBest (recorded cs) b end.
Proof. intros P A isBest cs BO. exact (validate_all P A isBest BO cs). Qed.
Print Assumptions C33_best_is_first_best.
(** the reported results are those recorded, best first, and the first
    reported one is the best *)
Theorem C33_sorted_results :
  forall (P A : Type) (isBest : P -> P -> bool) (cs : list (P * A * bool)), betterOrder isBest ->
  let s := fold_left (validate isBest) cs vinit in
  Permutation (sortedResults isBest s) (recorded cs) /\
  (forall i j x y, i < j -> nth_error (sortedResults isBest s) i = Some x ->
     nth_error (sortedResults isBest s) j = Some y -> isBest (fst y) (fst x) = false) /\
  hd_error (sortedResults isBest s) = vBest s.
Proof. intros P A isBest cs BO. exact (sorted_spec P A isBest BO _ _ (validate_all P A isBest BO cs)). Qed.
Print Assumptions C33_sorted_results.
(** both directions of comparison are such orders *)
Example C33_orders : betterOrder (fun x y : Z => (x <? y)%Z) /\ betterOrder (fun x y : Z => (y <? x)%Z).
Proof.
  split; (split; [intros; apply Z.ltb_irrefl|]); (split; [intros x y z H1 H2; apply Z.ltb_lt in H1, H2; apply Z.ltb_lt; lia|]);
  intros x y H1 H2 z; apply Z.ltb_ge in H1, H2; assert (x = y) by lia; subst; auto.
Qed.
Example C33_example :
  let cs := [((5, "a"), true); ((3, "b"), true); ((1, "z"), false); ((3, "c"), true)] in
  let s := fold_left (validate Nat.ltb) cs vinit in
  vBest s = Some (3, "b") /\ sortedResults Nat.ltb s = [(3, "b"); (3, "c"); (5, "a")].
Proof. split; reflexivity. Qed.
(** Refuted when a performance can be NaN (None): a NaN recorded first stays
    the best, although later validations have real performances. *)
Definition nanLt (x y : option Z) : bool := match x, y with Some a, Some b => (a <? b)%Z | _, _ => false end.
Theorem C33_nan_first_refuted :
  exists (cs : list (option Z * string * bool)),
    In (Some 1%Z, "good") (recorded cs) /\
    vBest (fold_left (validate nanLt) cs vinit) = Some (None, "broken").
Proof. exists [((None, "broken"), true); ((Some 1%Z, "good"), true)]. split; [right; left; reflexivity|reflexivity]. Qed.
Print Assumptions C33_nan_first_refuted.

(** ** C54: every validation uses every fold.  It holds while no validation is
    interrupted: (C32_validation_uses_folds gives index 0 back). *)
Theorem C54_repeated_validations_partial :
  forall (V R : Type) n (data : list (option (table V))) folds (learns : list (list (option (table V * table V)) -> result R)) shufs,
  Forall (okData n) data -> partitionOf n folds -> (forall j, okShuffle n folds (shufs j)) ->
  (forall learn, In learn learns -> forall sets, exists r, learn sets = Ok r) ->
  forall j learn, nth_error learns j = Some learn ->
  let index := fold_left (fun i p => fst (crossValidate data folds (shufs (fst p)) (snd p) i))
                         (combine (seq 0 j) learns) 0 in
  exists rs, crossValidate data folds (shufs j) learn index = (0, Ok rs) /\
    Forall2 (fun fold r => exists sets, foldSets n fold data sets /\ learn sets = Ok r) folds rs.
Proof.
  intros V R n data folds learns shufs Hd P Hs HL j learn Hj index.
  assert (E : index = 0).
  { subst index. assert (G : forall ps i, i = 0 -> (forall p, In p ps -> In (snd p) learns) ->
      fold_left (fun i p => fst (crossValidate data folds (shufs (fst p)) (snd p) i)) ps i = 0).
    { induction ps as [|p ps IH]; intros i -> Hp; [reflexivity|]. cbn [fold_left].
      destruct (crossValidate_ok V R n data folds (shufs (fst p)) (snd p) Hd P (Hs _)) as (rs & E & _).
      { apply HL, Hp; left; auto. }
      rewrite E. cbn [fst]. apply IH; auto. intros; apply Hp; right; auto. }
    apply G; auto. intros [a b] Hp. apply in_combine_r in Hp. auto. }
  rewrite E. apply crossValidate_ok; auto. apply HL. eapply nth_error_In; eauto.
Qed.
Print Assumptions C54_repeated_validations_partial.
(** Refuted in general: when the learner fails in fold 0, the next validation
    with the same validator silently skips that fold. *)
Theorem C54_after_failure_refuted :
  exists (V R : Type) n (data : list (option (table V))) folds shuf
         (bad good : list (option (table V * table V)) -> result R) i rs,
    Forall (okData n) data /\ partitionOf n folds /\ okShuffle n folds shuf /\
    (forall sets, exists r, good sets = Ok r) /\
    crossValidate data folds shuf bad 0 = (i, Err InvalidArgumentValue) /\
    crossValidate data folds shuf good i = (0, Ok rs) /\
    List.length rs < List.length folds.
Proof.
  destruct C32_validation_example as (H1 & H2 & H3 & _).
  exists nat, nat, 3, [Some exX; Some exY], [[1]; [2; 0]], (fun i => if i =? 0 then [1; 0] else [0]),
    (fun _ => Err InvalidArgumentValue), (fun _ => Ok 7), 1, [7].
  do 3 (split; auto). split; [eauto|]. split; [reflexivity|]. split; [reflexivity|]. cbn. lia.
Qed.
Print Assumptions C54_after_failure_refuted.
