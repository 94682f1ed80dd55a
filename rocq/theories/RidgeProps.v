(** Property C76: regression learners and linear equations.  Definitions used in the
    statements: RidgeSpec.v (IsReal, NotBooleans, loss, predicted, Inverts,
    Inverse, Singular, Solves, LeastSquares, residual, IsVector, element). *)
From Coq Require Import QArith Permutation Lqa.
From Verif Require Import Base NamesModel NamesSpec NamesProofs TableModel TableSpec MatchModel MatchSpec RidgeModel RidgeSpec RidgeAlgebra RidgeProofs RidgeGauss RidgeMore.
From Coq Require Import List. Import ListNotations.
Open Scope string_scope.
Open Scope list_scope.
Open Scope nat_scope.

(** the routines required below exist *)
Theorem C76_inversion_exists : exists inv, Inverts inv.
Proof. exists gauss. exact gauss_Inverts. Qed.
Print Assumptions C76_inversion_exists.

(** ** nimble.RidgeRegression *)
(** For every output the weights minimise the squared errors plus the penalty, and
    no other weights do.  Missing from the full claim: features that are all
    booleans (shown to fail below). *)
Theorem C76_ridge_minimises_partial :
  forall floatOf inv, Inverts inv -> forall tX tY n f k X Y lamb w,
  IsReal tX n f X -> IsReal tY n k Y -> NotBooleans tX -> (0 <= lamb)%Q -> ridgeTrain floatOf inv lamb tX tY = Ok w ->
  forall c, c < k -> forall v,
    (loss n f X (fun i => Y i c) lamb (fun j => element (av w) j c) <= loss n f X (fun i => Y i c) lamb v)%Q /\
    ((loss n f X (fun i => Y i c) lamb v <= loss n f X (fun i => Y i c) lamb (fun j => element (av w) j c))%Q -> forall j, j < f -> (v j == element (av w) j c)%Q).
Proof. exact ridge_minimises. Qed.
Print Assumptions C76_ridge_minimises_partial.
(** with a positive penalty training succeeds on all numbers *)
Theorem C76_ridge_trains_partial :
  forall floatOf inv, Inverts inv -> forall tX tY n f k X Y lamb,
  IsReal tX n f X -> IsReal tY n k Y -> NotBooleans tX -> (0 < lamb)%Q -> exists w, ridgeTrain floatOf inv lamb tX tY = Ok w.
Proof. exact ridge_trains. Qed.
Print Assumptions C76_ridge_trains_partial.
(** data that is linear in the features is learned exactly *)
Theorem C76_ridge_exact_partial :
  forall floatOf inv, Inverts inv -> forall tX tY n f k X Y w w0,
  IsReal tX n f X -> IsReal tY n k Y -> NotBooleans tX -> ridgeTrain floatOf inv 0%Q tX tY = Ok w ->
  (forall i c, i < n -> c < k -> (Y i c == predicted f (X i) (fun j => w0 j c))%Q) -> forall j c, j < f -> c < k -> (element (av w) j c == w0 j c)%Q.
Proof. exact ridge_exact. Qed.
Print Assumptions C76_ridge_exact_partial.
(** the training points in another order give the same weights *)
Theorem C76_ridge_order_partial :
  forall floatOf inv, Inverts inv -> forall tX tY tX' tY' n f k X Y p lamb,
  IsReal tX n f X -> IsReal tY n k Y -> NotBooleans tX -> NotBooleans tX' -> (0 <= lamb)%Q ->
  Permutation (map p (seq 0 n)) (seq 0 n) -> IsReal tX' n f (fun i => X (p i)) -> IsReal tY' n k (fun i => Y (p i)) ->
  forall w, ridgeTrain floatOf inv lamb tX tY = Ok w ->
  exists w', ridgeTrain floatOf inv lamb tX' tY' = Ok w' /\ forall j c, j < f -> c < k -> (element (av w) j c == element (av w') j c)%Q.
Proof.
  intros fo inv GI tX tY tX' tY' n f k X Y p lamb HX HY NB NB' L0 P HX' HY' w E.
  destruct (ridge_order_total fo inv GI tX tY tX' tY' n f k X Y p lamb HX HY NB NB' P HX' HY' (ex_intro _ w E)) as [w' E'].
  exists w'. split; [exact E'|]. exact (ridge_order fo inv GI tX tY tX' tY' n f k X Y p lamb w w' HX HY NB NB' L0 P HX' HY' E E').
Qed.
Print Assumptions C76_ridge_order_partial.
(** the prediction for a point is the sum of its values times the weights *)
Theorem C76_ridge_predicts_partial :
  forall floatOf inv, Inverts inv -> forall tX tY T n f k m X Y Z lamb w,
  IsReal tX n f X -> IsReal tY n k Y -> NotBooleans tX -> IsReal T m f Z -> ridgeTrain floatOf inv lamb tX tY = Ok w ->
  exists r, ridgeApply floatOf w T = Ok r /\ wf r /\ alen (tp r) = m /\ alen (tf r) = k /\
    (forall i c, i < m -> c < k -> exists q, cell r i c = Some (PFloat q) /\ (q == predicted f (Z i) (fun j => element (av w) j c))%Q).
Proof.
  intros fo inv GI tX tY T n f k m X Y Z lamb w HX HY NB HT E. destruct (ridge_Normal fo inv GI _ _ _ _ _ _ _ _ _ HX HY NB E) as (Aw & Bw & _).
  exact (ridgeApply_spec fo w T m f k _ Z Aw Bw HT).
Qed.
Print Assumptions C76_ridge_predicts_partial.
(** ** nimble.MultiOutputRidgeRegression *)
(** every output is predicted with the weights that are best for it *)
Theorem C76_multi_predicts_partial :
  forall floatOf inv, Inverts inv -> forall tX tY T n f k m X Y Z lamb ws,
  IsReal tX n f X -> IsReal tY n k Y -> NotBooleans tX -> IsReal T m f Z -> (0 <= lamb)%Q -> 0 < k ->
  multiTrain floatOf inv lamb tX tY = Ok ws ->
  exists r, multiApply floatOf ws T = Ok r /\ wf r /\ alen (tp r) = m /\ alen (tf r) = k /\
    forall c, c < k -> exists w : nat -> Q, (forall v, (loss n f X (fun i => Y i c) lamb w <= loss n f X (fun i => Y i c) lamb v)%Q) /\
      forall i, i < m -> exists q, cell r i c = Some (PFloat q) /\ (q == predicted f (Z i) w)%Q.
Proof. exact multi_predicts. Qed.
Print Assumptions C76_multi_predicts_partial.
(** and the same as nimble.RidgeRegression on all outputs *)
Theorem C76_multi_same_partial :
  forall floatOf inv, Inverts inv -> forall tX tY T n f k m X Y Z lamb w,
  IsReal tX n f X -> IsReal tY n k Y -> NotBooleans tX -> IsReal T m f Z -> (0 <= lamb)%Q -> 0 < k ->
  ridgeTrain floatOf inv lamb tX tY = Ok w ->
  exists ws r r', multiTrain floatOf inv lamb tX tY = Ok ws /\ multiApply floatOf ws T = Ok r /\ ridgeApply floatOf w T = Ok r' /\
    alen (tp r) = m /\ alen (tp r') = m /\ alen (tf r) = k /\ alen (tf r') = k /\
    forall i c, i < m -> c < k -> exists q q', cell r i c = Some (PFloat q) /\ cell r' i c = Some (PFloat q') /\ (q == q')%Q.
Proof. exact multi_same. Qed.
Print Assumptions C76_multi_same_partial.

(** ** nimble.calculate.solve, leastSquaresSolution, inverse *)
(** the solution is one point whose features are those of A *)
Theorem C76_solve :
  forall floatOf solver a b n A y, Solves solver -> IsReal a n n A -> IsVector b n y -> 0 < n -> forall r, solve floatOf solver true a b = Ok r ->
  alen (tp r) = 1 /\ getNames (tf r) = getNames (tf a) /\ exists x : nat -> Q, IsReal r 1 n (fun _ j => x j) /\ forall i, i < n -> (sum n (fun j => A i j * x j) == y i)%Q.
Proof. exact solve_solves. Qed.
Print Assumptions C76_solve.
Theorem C76_least_squares :
  forall floatOf solver a b n k A y, LeastSquares solver -> IsReal a n k A -> IsVector b n y -> 0 < n -> forall r, solve floatOf solver false a b = Ok r ->
  alen (tp r) = 1 /\ getNames (tf r) = getNames (tf a) /\ exists x : nat -> Q, IsReal r 1 k (fun _ j => x j) /\ forall v, (residual n k A y x <= residual n k A y v)%Q.
Proof. exact solve_least. Qed.
Print Assumptions C76_least_squares.
(** what the routine is given, and that its answer or exception is passed on *)
Theorem C76_solve_passes_on :
  forall floatOf solver square a b n k A y, (forall n k m b s, 0 < n -> Shape m n k -> Shape b n 1 -> solver m b = Ok s -> List.length s = k) ->
  IsReal a n k A -> IsVector b n y -> 0 < n -> (square = true -> n = k) ->
  exists m m', Shape m n k /\ Shape m' n 1 /\ (forall i j, i < n -> j < k -> (element m i j == A i j)%Q) /\ (forall i, i < n -> (element m' i 0%nat == y i)%Q) /\
  match solver m m' with
  | Err e => solve floatOf solver square a b = Err e
  | Ok s => exists r, solve floatOf solver square a b = Ok r /\ wf r /\ alen (tp r) = 1 /\ alen (tf r) = k /\ getNames (tf r) = getNames (tf a) /\ forall j, j < k -> cell r 0 j = Some (PFloat (nth j s 0%Q))
  end.
Proof. exact solve_spec. Qed.
Print Assumptions C76_solve_passes_on.
Theorem C76_solve_not_square :
  forall floatOf solver a b, alen (tp a) <> alen (tf a) -> solve floatOf solver true a b = Err InvalidArgumentValue.
Proof. exact solve_not_square. Qed.
Print Assumptions C76_solve_not_square.
Theorem C76_solve_not_vector :
  forall floatOf solver square a b, alen (tp b) <> 1 -> alen (tf b) <> 1 -> solve floatOf solver square a b = Err InvalidArgumentValue.
Proof. exact solve_not_vector. Qed.
Print Assumptions C76_solve_not_vector.
(** Missing from the full claim: a single element b (shown to fail below). *)
Theorem C76_solve_incompatible_partial :
  forall floatOf solver square a b, (square = true -> alen (tp a) = alen (tf a)) ->
  (alen (tp b) = 1 /\ 1 < alen (tf b) /\ alen (tp a) <> alen (tf b)) \/ (alen (tf b) = 1 /\ 1 < alen (tp b) /\ alen (tp a) <> alen (tp b)) ->
  solve floatOf solver square a b = Err InvalidArgumentValueCombination.
Proof. exact solve_incompatible. Qed.
Print Assumptions C76_solve_incompatible_partial.
Theorem C76_inverse :
  forall floatOf inv a n A, Inverts inv -> IsReal a n n A -> 0 < n ->
  match inverse floatOf inv a with
  | Ok r => exists B, IsReal r n n B /\ Inverse n A B
  | Err _ => Singular n A
  end.
Proof. exact inverse_inverts. Qed.
Print Assumptions C76_inverse.
Theorem C76_inverse_not_square :
  forall floatOf inv a, alen (tp a) <> alen (tf a) -> inverse floatOf inv a = Err InvalidArgumentValue.
Proof. exact inverse_not_square. Qed.
Print Assumptions C76_inverse_not_square.

(** ** Examples and what fails *)
Definition noFloat (s : string) : option pval := None.
Definition tab (m : list (list pval)) : table pval := mkTable (mkAxis (List.length m) None) (mkAxis (List.length (hd [] m)) None) m.
Ltac real := split; [split; [reflexivity|split; [cbn; intros ? H; repeat (destruct H as [<-|H]; [reflexivity|]); destruct H|split; apply fresh_Inv]]|
  split; [reflexivity|split; [reflexivity|]]; intros [|[|[|[|[|i]]]]] [|[|[|[|[|j]]]]] I J; try (exfalso; cbn in I, J; lia); do 2 eexists; (split; [reflexivity|split; [constructor|reflexivity]])].
Definition of_ (m : list (list Q)) (i j : nat) : Q := element m i j.
(** the points (1,0), (1,1), (1,2) with the values 1, 3, 5 *)
Definition exX : table pval := tab [[PInt 1; PInt 0]; [PInt 1; PInt 1]; [PInt 1; PFloat 2]].
Definition exY : table pval := tab [[PInt 1]; [PInt 3]; [PInt 5]].
Definition weightsOf (r : result arr) : result (list (list Q)) := rmap (fun a => map (map Qred) (av a)) r.
Example C76_example_hypotheses :
  IsReal exX 3 2 (of_ [[1; 0]; [1; 1]; [1; 2]]%Q) /\ IsReal exY 3 1 (of_ [[1]; [3]; [5]]%Q) /\ NotBooleans exX.
Proof. split; [unfold exX; real|]. split; [unfold exY; real|]. right. right. exists 0, 0, (PInt 1). split; [reflexivity|discriminate]. Qed.
Example C76_example_train :
  weightsOf (ridgeTrain noFloat gauss 0 exX exY) = Ok [[1]; [2]]%Q /\ weightsOf (ridgeTrain noFloat gauss 1 exX exY) = Ok [[1]; [5 # 3]]%Q.
Proof. split; vm_compute; reflexivity. Qed.
Example C76_example_multi :
  exists ws, multiTrain noFloat gauss 0 exX (tab [[PInt 1; PInt 7]; [PInt 3; PInt 6]; [PInt 5; PInt 5]]) = Ok ws /\ List.length ws = 2 /\
    rmap (fun t => map (map (fun v => match v with PFloat q => Qred q | _ => 0%Q end)) (rows t)) (multiApply noFloat ws (tab [[PInt 1; PInt 10]])) = Ok [[21%Q; inject_Z (-3)]].
Proof. eexists. split; [vm_compute; reflexivity|]. split; vm_compute; reflexivity. Qed.
Definition solveGauss (m b : list (list Q)) : result (list Q) :=
  if forallb (fun r => List.length r =? List.length m) m then rmap (fun i => map (fun r => qdot r (qcol b 0)) i) (gauss m) else Err ValueErr.
(** solvers as required exist *)
Example C76_example_solver : Solves solveGauss /\ LeastSquares solveGauss.
Proof.
  assert (S0 : Solves solveGauss).
  { intros n k m b s N0 Sm Sb E. unfold solveGauss in E. destruct (forallb (fun r => List.length r =? List.length m) m) eqn:F; [|discriminate]. rewrite forallb_forall in F.
    assert (NK : n = k).
    { destruct m as [|r m']; [destruct Sm; cbn in *; lia|]. pose proof (F r (or_introl eq_refl)) as Fr. apply Nat.eqb_eq in Fr. destruct Sm as [Lm Rm]. rewrite (Rm r (or_introl eq_refl)) in Fr. congruence. }
    subst k. pose proof (gauss_Inverts n m Sm) as G. destruct (gauss m) as [i|e]; [|discriminate]. cbn [rmap rbind] in E. injection E as <-. destruct G as [Si Ii].
    split; [rewrite map_length; apply Si|]. intros l L. transitivity (sum n (fun j => element m l j * sum n (fun t => element i j t * element b t 0%nat)))%Q.
    - apply sum_ext. intros j J. apply Qmult_comp; [reflexivity|]. rewrite (nth_map_lt _ i j 0%Q []) by (destruct Si; lia).
      rewrite (qdot_sum _ _ n) by (try apply (Shape_row _ n); try assumption; rewrite qcol_length; apply Sb). apply sum_ext. intros t T. rewrite (qcol_nth _ _ _ _ _ Sb T). reflexivity.
    - rewrite <- (mv_assoc n n (element m) (element i)). rewrite <- (sum_unit_l n (fun t => element b t 0%nat) l L). apply sum_ext. intros t T. unfold mm. rewrite (proj1 (Ii l t L T)). reflexivity. }
  split; [exact S0|]. intros n k m b s N0 Sm Sb E. destruct (S0 n k m b s N0 Sm Sb E) as [Ls Hs]. split; [exact Ls|]. intros x. unfold residual.
  rewrite (sum_zero n (fun i => (sum k (fun j => element m i j * nth j s 0) - element b i 0%nat) * (sum k (fun j => element m i j * nth j s 0) - element b i 0%nat))%Q).
  - apply sum_nonneg. intros; apply square_nonneg.
  - intros i I. rewrite (Hs i I). ring.
Qed.
Example C76_example_solve :
  rmap (fun t => map (map (fun v => match v with PFloat q => Qred q | _ => 0%Q end)) (rows t)) (solve noFloat solveGauss true (tab [[PInt 3; PInt 2; PInt 0]; [PInt 1; PInt (-1); PInt 0]; [PInt 0; PInt 5; PInt 1]]) (tab [[PInt 2; PInt 4; PInt (-1)]]))
  = Ok [[2; inject_Z (-2); 9]]%Q.
Proof. vm_compute. reflexivity. Qed.

(** Features that are all booleans: numpy multiplies arrays of booleans with "and"
    and "or", so two points that are True count as one, and the weight is twice
    the best one.  As numbers 1 the same data is learned correctly. *)
Theorem C76_booleans_refuted :
  exists tX tY w, IsReal tX 2 1 (fun _ _ => 1%Q) /\ IsReal tY 2 1 (fun _ _ => 3%Q) /\ ridgeTrain noFloat gauss 0 tX tY = Ok w /\
    (loss 2 1 (fun _ _ => 1%Q) (fun _ => 3%Q) 0 (fun _ => 3%Q) < loss 2 1 (fun _ _ => 1%Q) (fun _ => 3%Q) 0 (fun j => element (av w) j 0%nat))%Q.
Proof.
  exists (tab [[PBool true]; [PBool true]]), (tab [[PInt 3]; [PInt 3]]). eexists. split; [real|]. split; [real|]. split; [vm_compute; reflexivity|]. vm_compute. reflexivity.
Qed.
Print Assumptions C76_booleans_refuted.
(** "Shape of xObj matches bObj": the solution is a point although b is a feature *)
Theorem C76_solution_shape_refuted :
  exists a b r, alen (tp b) = 2 /\ alen (tf b) = 1 /\ solve noFloat solveGauss true a b = Ok r /\ alen (tp r) = 1 /\ alen (tf r) = 2.
Proof.
  exists (tab [[PInt 1; PInt 0]; [PInt 0; PInt 1]]), (tab [[PInt 3]; [PInt 4]]). eexists. split; [reflexivity|]. split; [reflexivity|]. split; [vm_compute; reflexivity|]. split; reflexivity.
Qed.
Print Assumptions C76_solution_shape_refuted.
(** a single element b that does not fit is not recognised: scipy raises a
    ValueError *)
Theorem C76_single_element_refuted :
  exists a b, alen (tp a) = 2 /\ alen (tf a) = 2 /\ alen (tp b) = 1 /\ alen (tf b) = 1 /\ solve noFloat solveGauss true a b = Err ValueErr.
Proof.
  exists (tab [[PInt 1; PInt 0]; [PInt 0; PInt 1]]), (tab [[PInt 3]]). do 4 (split; [reflexivity|]). vm_compute. reflexivity.
Qed.
Print Assumptions C76_single_element_refuted.
