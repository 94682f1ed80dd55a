(** nimble.calculate.residuals (C84). *)
From Coq Require Import QArith Lqa.
From Verif Require Import Base NamesModel NamesSpec NamesProofs TableModel TableSpec TableProofs MatchModel MatchSpec RidgeModel RidgeSpec RidgeAlgebra RidgeProofs RidgeMore ResidModel ResidSpec.
From Verif Require ElementsCalcProofs.
From Coq Require Import List. Import ListNotations.
Open Scope nat_scope.

(** ** the control variables with ones *)
Definition one (f : nat) (X : nat -> nat -> Q) (i j : nat) : Q := if j <? f then X i j else 1%Q.
Lemma withOnes_real t n f X : IsReal t n f X -> IsReal (withOnes t) n (S f) (one f X).
Proof.
  intros (W & N & F & C). pose proof W as (L & R & IP & IF).
  set (ones := mkTable (mkAxis (alen (tp t)) None) (mkAxis 1 None) (repeat [PFloat 1] (alen (tp t)))).
  assert (OA : okT n t f). { split; [congruence|]. split; [intros r H; rewrite <- F; auto|]. auto. }
  assert (OB : okT n ones 1).
  { split; [unfold ones; cbn [rows]; rewrite repeat_length; exact N|]. split; [intros r H; apply repeat_spec in H; subst r; reflexivity|]. split; [exact N|]. split; [apply fresh_Inv|]. split; [reflexivity|apply fresh_Inv]. }
  destruct (appendFts_ok n t ones f 1 OA OB) as [(L' & R' & P' & IP' & F' & IF') CC]. unfold withOnes. fold ones. rewrite Nat.add_1_r in *.
  split; [split; [congruence|split; [intros r H; rewrite F'; auto|auto]]|]. split; [exact P'|]. split; [exact F'|].
  intros i j I J. rewrite (CC i j I). unfold one. destruct (j <? f) eqn:E.
  - apply Nat.ltb_lt in E. exact (C i j I E).
  - apply Nat.ltb_ge in E. assert (J0 : j - f = 0) by lia. rewrite J0. exists (PFloat 1), 1%Q. split; [|split; [constructor|reflexivity]].
    unfold cell, ones. cbn [rows]. rewrite N. assert (E0 : nth_error (repeat [PFloat 1] n) i = Some [PFloat 1]); [|rewrite E0; reflexivity].
    clear - I. revert n I. induction i as [|i IH]; intros [|n] I; try lia; [reflexivity|]. cbn. apply IH. lia.
Qed.
Lemma sum_one f X (x : nat -> Q) i : (sum (S f) (fun j => one f X i j * x j) == fitted f X (x f) x i)%Q.
Proof.
  cbn [sum]. unfold fitted, predicted. unfold one at 2. rewrite Nat.ltb_irrefl.
  rewrite (sum_ext f (fun k => one f X i k * x k)%Q (fun j => X i j * x j)%Q). { ring. }
  intros k K. unfold one. apply Nat.ltb_lt in K. rewrite K. reflexivity.
Qed.
Lemma residual_errors n f X y (x : nat -> Q) : (residual n (S f) (one f X) y x == squaredErrors n f X y (x f) x)%Q.
Proof. unfold residual, squaredErrors. apply sum_ext. intros i I. rewrite (sum_one f X x i). ring. Qed.
Lemma fitted_ext f X b b' w w' i : (b == b')%Q -> (forall j, j < f -> (w j == w' j)%Q) -> (fitted f X b w i == fitted f X b' w' i)%Q.
Proof. intros B W. unfold fitted, predicted. rewrite B. rewrite (sum_ext f _ (fun j => X i j * w' j)%Q); [reflexivity|]. intros j J. rewrite (W j J). reflexivity. Qed.
Lemma squaredErrors_ext n f X y b b' w w' : (b == b')%Q -> (forall j, j < f -> (w j == w' j)%Q) -> (squaredErrors n f X y b w == squaredErrors n f X y b' w')%Q.
Proof. intros B W. unfold squaredErrors. apply sum_ext. intros i I. rewrite (fitted_ext f X b b' w w' i B W). reflexivity. Qed.

(** ** the residuals *)
Section R.
Variable floatOf : string -> option pval.
Variable solver : list (list Q) -> list (list Q) -> result (list Q).
Hypothesis LS : LeastSquares solver.
Lemma columnOf_shape m n k c : Shape m n k -> Shape (columnOf m c) n 1 /\ forall i, i < n -> (element (columnOf m c) i 0 == qat m i c)%Q.
Proof.
  intros [L R]. split.
  - split; [unfold columnOf; rewrite map_length; exact L|]. intros r H. apply in_map_iff in H. destruct H as (r0 & <- & _). reflexivity.
  - intros i I. unfold element, columnOf, qat. rewrite (nth_map_lt _ m i [] []) by (rewrite L; exact I). reflexivity.
Qed.
Lemma residuals_spec tP cV n k f Y X : IsReal tP n k Y -> IsReal cV n f X -> 0 < n -> 0 < k -> 0 < f ->
  match residuals floatOf solver tP cV with
  | Ok r => LabelledLike tP r /\ forall c, c < k -> exists b w,
      (forall i, i < n -> NumberAt r i c (Y i c - fitted f X b w i)%Q) /\
      forall b' w', (squaredErrors n f X (fun i => Y i c) b w <= squaredErrors n f X (fun i => Y i c) b' w')%Q
  | Err e => exists m m', Shape m n (S f) /\ Shape m' n 1 /\ solver m m' = Err e
  end.
Proof.
  intros HP HC N0 K0 F0. pose proof HP as (WP & NP & KP & _). pose proof HC as (WC & NC & FC & _).
  destruct (raw_spec floatOf (withOnes cV) n (S f) _ (withOnes_real cV n f X HC)) as (a & Ea & Aa & _).
  destruct (raw_spec floatOf tP n k Y HP) as (y & Ey & Ay & _). destruct Aa as (Ha & Wa & Sa & Ca). destruct Ay as (Hy & Wy & Sy & Cy).
  unfold residuals. rewrite NP, NC, KP, FC, Nat.eqb_refl. cbn [negb].
  replace (n =? 0) with false by (symmetry; apply Nat.eqb_neq; lia). replace (k =? 0) with false by (symmetry; apply Nat.eqb_neq; lia).
  replace (f =? 0) with false by (symmetry; apply Nat.eqb_neq; lia). cbn [orb]. rewrite Ea, Ey. cbn [rbind]. rewrite Wy, Hy.
  destruct (rmapM (fun c => solver (av a) (columnOf (av y) c)) (seq 0 k)) as [xs|e] eqn:EX; cbn [rbind].
  2:{ apply ElementsCalcProofs.rmapM_fail in EX. destruct EX as (c & IC & Ec). exists (av a), (columnOf (av y) c). split; [exact Sa|]. split; [apply (columnOf_shape _ n k c Sy)|exact Ec]. }
  pose proof (rmapM_ok_length _ _ EX) as LX. rewrite seq_length in LX.
  destruct WP as (LP & RP & IP & IF). destruct (copyAxis_ok (tp tP) IP) as (pa & Epa & Lpa & Ipa & Gpa). destruct (copyAxis_ok (tf tP) IF) as (fa & Efa & Lfa & Ifa & Gfa).
  rewrite NP in Epa, Lpa. rewrite KP in Efa, Lfa. rewrite Epa. cbn [rbind]. rewrite Efa. cbn [rbind].
  set (pred := map (fun r => map (qdot r) xs) (av a)). split.
  - split; [|cbn [tp tf]; rewrite NP, KP; auto]. split; [cbn [rows tp]; rewrite map_length, seq_length; congruence|]. split; [|split; [exact Ipa|exact Ifa]].
    cbn [rows tf]. intros r H. apply in_map_iff in H. destruct H as (i & <- & _). rewrite map_length, seq_length. congruence.
  - intros c C. destruct (nth_error xs c) as [x|] eqn:Ex; [|apply nth_error_None in Ex; lia].
    assert (Es : solver (av a) (columnOf (av y) c) = Ok x).
    { assert (E0 : nth_error (seq 0 k) c = Some c) by (rewrite (nth_error_nth' _ 0) by (rewrite seq_length; exact C); rewrite seq_nth by exact C; reflexivity).
      edestruct @rmapM_ok_nth as (x' & X1 & X2); [exact EX|exact E0|]. congruence. }
    destruct (columnOf_shape _ n k c Sy) as [Sc Cc]. destruct (LS n (S f) (av a) (columnOf (av y) c) x N0 Sa Sc Es) as [Lx Min].
    exists (nth f x 0%Q), (fun j => nth j x 0%Q). split.
    + intros i I. unfold NumberAt, cell. cbn [rows].
      assert (E1 : nth_error (map (fun i => map (fun j => PFloat (qat (av y) i j - qat pred i j)) (seq 0 k)) (seq 0 n)) i = Some (map (fun j => PFloat (qat (av y) i j - qat pred i j)) (seq 0 k))).
      { rewrite nth_error_map. rewrite (nth_error_nth' (seq 0 n) 0) by (rewrite seq_length; exact I). rewrite seq_nth by exact I. reflexivity. }
      rewrite E1. rewrite nth_error_map. rewrite (nth_error_nth' (seq 0 k) 0) by (rewrite seq_length; exact C). rewrite seq_nth by exact C. cbn [option_map Nat.add].
      eexists. split; [reflexivity|]. rewrite (Cy i c I C). apply Qplus_comp; [reflexivity|]. apply Qopp_comp.
      unfold qat at 1, pred. rewrite (nth_map_lt _ (av a) i [] []) by (destruct Sa; lia). rewrite (nth_map_lt _ xs c 0%Q []) by lia.
      rewrite (nth_error_nth _ _ [] Ex). rewrite (qdot_sum _ _ (S f)) by (try exact Lx; apply (Shape_row _ n); assumption).
      rewrite <- (sum_one f X (fun j => nth j x 0%Q) i). apply sum_ext. intros j J. apply Qmult_comp; [exact (Ca i j I J)|reflexivity].
    + intros b' w'. set (x' := fun j => if j =? f then b' else w' j).
      assert (XF : x' f = b') by (unfold x'; rewrite Nat.eqb_refl; reflexivity).
      assert (XW : forall j, j < f -> (x' j == w' j)%Q) by (intros j J; unfold x'; replace (j =? f) with false by (symmetry; apply Nat.eqb_neq; lia); reflexivity).
      rewrite <- (residual_errors n f X (fun i => Y i c) (fun j => nth j x 0%Q)).
      rewrite <- (squaredErrors_ext n f X (fun i => Y i c) (x' f) b' x' w') by (rewrite ?XF; try reflexivity; exact XW).
      rewrite <- (residual_errors n f X (fun i => Y i c) x').
      assert (CB : forall i, i < n -> (element (columnOf (av y) c) i 0 == Y i c)%Q) by (intros i I; rewrite (Cc i I); exact (Cy i c I C)).
      rewrite <- (residual_ext n (S f) (element (av a)) (one f X) (fun i => element (columnOf (av y) c) i 0%nat) (fun i => Y i c) (fun j => nth j x 0%Q) _ Ca CB (fun _ _ => Qeq_refl _)).
      rewrite <- (residual_ext n (S f) (element (av a)) (one f X) (fun i => element (columnOf (av y) c) i 0%nat) (fun i => Y i c) x' _ Ca CB (fun _ _ => Qeq_refl _)). apply Min.
Qed.
End R.

(** ** what the least squared errors mean for the residuals *)
Lemma no_descent D S : (0 <= S)%Q -> (forall t, 0 <= 2 * t * D + t * t * S)%Q -> (D == 0)%Q.
Proof.
  intros SP H. destruct (Qeq_dec D 0) as [E|E]; [exact E|]. exfalso.
  assert (S1 : (0 < S + 1)%Q) by lra. pose proof (Qinv_lt_0_compat _ S1) as UP. remember (/ (S + 1))%Q as u eqn:EU.
  assert (U : (u * (S + 1) == 1)%Q) by (rewrite EU; field; lra).
  specialize (H (- D * u)%Q).
  assert (DD : (0 < D * D)%Q). { destruct (Qlt_le_dec 0 D) as [P|P]; [apply Qmult_lt_0_compat; assumption|]. assert (NP : (0 < - D)%Q) by (assert (~ D == 0)%Q by exact E; destruct (Qlt_le_dec D 0); [lra|exfalso; apply E; lra]).
    setoid_replace (D * D)%Q with (- D * - D)%Q by ring. apply Qmult_lt_0_compat; assumption. }
  assert (US : (u * S == 1 - u)%Q). { transitivity (u * (S + 1) - u)%Q; [ring|]. rewrite U. reflexivity. }
  assert (X : (2 * (- D * u) * D + - D * u * (- D * u) * S == - (D * D * u) - D * D * (u * u))%Q).
  { transitivity (- (2 * (D * D * u)) + D * D * u * (u * S))%Q; [ring|]. rewrite US. ring. }
  rewrite X in H. pose proof (Qmult_lt_0_compat _ _ DD UP). pose proof (Qmult_lt_0_compat _ _ UP UP) as UU. pose proof (Qmult_lt_0_compat _ _ DD UU). lra.
Qed.
(** moving the fitted values along [v] *)
Lemma along n f X y b w b1 w1 (v : nat -> Q) :
  (forall b' w', (squaredErrors n f X y b w <= squaredErrors n f X y b' w')%Q) ->
  (forall t i, i < n -> (fitted f X (b + t * b1) (fun j => w j + t * w1 j) i == fitted f X b w i + t * v i)%Q) ->
  (sum n (fun i => (y i - fitted f X b w i) * v i) == 0)%Q.
Proof.
  intros Min Mv. set (d := fun i => (y i - fitted f X b w i)%Q). change (sum n (fun i => d i * v i) == 0)%Q.
  assert (Z : (- sum n (fun i => d i * v i) == 0)%Q); [|lra].
  apply (no_descent _ (sum n (fun i => v i * v i)%Q)). { apply sum_nonneg. intros; apply square_nonneg. }
  intros t. specialize (Min (b + t * b1)%Q (fun j => w j + t * w1 j)%Q).
  assert (E : (squaredErrors n f X y (b + t * b1) (fun j => w j + t * w1 j) == squaredErrors n f X y b w + (2 * t * - sum n (fun i => d i * v i) + t * t * sum n (fun i => v i * v i)))%Q); [|lra].
  unfold squaredErrors. rewrite (sum_ext n _ (fun i => (d i * d i) + ((- (2 * t)) * (d i * v i) + (t * t) * (v i * v i)))%Q).
  2:{ intros i I. rewrite (Mv t i I). unfold d. ring. }
  rewrite sum_add, sum_add, !sum_mul_l. unfold d. ring.
Qed.
Lemma orthogonal n f X y b w :
  (forall b' w', (squaredErrors n f X y b w <= squaredErrors n f X y b' w')%Q) ->
  (sum n (fun i => y i - fitted f X b w i) == 0)%Q /\ forall j, j < f -> (sum n (fun i => (y i - fitted f X b w i) * X i j) == 0)%Q.
Proof.
  intros Min. split.
  - rewrite (sum_ext n _ (fun i => (y i - fitted f X b w i) * 1)%Q) by (intros; ring).
    apply (along n f X y b w 1%Q (fun _ => 0%Q) (fun _ => 1%Q) Min). intros t i I. unfold fitted, predicted.
    rewrite (sum_ext f (fun j => X i j * (w j + t * 0))%Q (fun j => X i j * w j)%Q) by (intros; ring). ring.
  - intros j J. apply (along n f X y b w 0%Q (fun l => unit l j) (fun i => X i j) Min). intros t i I. unfold fitted, predicted.
    rewrite (sum_ext f (fun l => X i l * (w l + t * unit l j))%Q (fun l => X i l * w l + t * (X i l * unit l j))%Q) by (intros; ring).
    rewrite sum_add, sum_mul_l, (sum_unit f (fun l => X i l) j J). ring.
Qed.
Lemma exact_fit n f X y b w b0 w0 :
  (forall b' w', (squaredErrors n f X y b w <= squaredErrors n f X y b' w')%Q) ->
  (forall i, i < n -> (y i == fitted f X b0 w0 i)%Q) -> forall i, i < n -> (y i - fitted f X b w i == 0)%Q.
Proof.
  intros Min E i I. apply square_zero. set (g := fun i => ((y i - fitted f X b w i) * (y i - fitted f X b w i))%Q). change (g i == 0)%Q.
  apply (sum_nonneg_zero n g); [intros; apply square_nonneg| |exact I].
  assert (NN : (0 <= sum n g)%Q) by (apply sum_nonneg; intros; apply square_nonneg).
  assert (Z : (squaredErrors n f X y b0 w0 == 0)%Q). { apply sum_zero. intros l L. rewrite <- (E l L). ring. }
  specialize (Min b0 w0). rewrite Z in Min. unfold squaredErrors in Min. fold g in Min. change (sum n (fun i => (y i - fitted f X b w i) * (y i - fitted f X b w i)) <= 0)%Q with (sum n g <= 0)%Q in Min. lra.
Qed.
(** the residuals do not depend on the routine, nor on what the control variables explain *)
Lemma determined n f X y y' b w b' w' b0 w0 :
  (forall c v, (squaredErrors n f X y b w <= squaredErrors n f X y c v)%Q) ->
  (forall c v, (squaredErrors n f X y' b' w' <= squaredErrors n f X y' c v)%Q) ->
  (forall i, i < n -> (y' i == y i + fitted f X b0 w0 i)%Q) ->
  forall i, i < n -> (y i - fitted f X b w i == y' i - fitted f X b' w' i)%Q.
Proof.
  intros M M' E. destruct (orthogonal n f X y b w M) as [O1 O2]. destruct (orthogonal n f X y' b' w' M') as [P1 P2].
  set (r := fun i => (y i - fitted f X b w i)%Q) in *. set (r' := fun i => (y' i - fitted f X b' w' i)%Q) in *.
  change (sum n r == 0)%Q in O1. change (sum n r' == 0)%Q in P1.
  set (d := fun i => (r i - r' i)%Q). set (be := (b' - b - b0)%Q). set (de := fun j => (w' j - w j - w0 j)%Q).
  assert (DF : forall i, i < n -> (d i == be + sum f (fun j => X i j * de j))%Q).
  { intros i I. unfold d, r, r'. rewrite (E i I). unfold fitted, predicted, be, de.
    rewrite (sum_ext f (fun j => X i j * (w' j - w j - w0 j))%Q (fun j => (X i j * w' j - X i j * w j) - X i j * w0 j)%Q) by (intros; ring).
    rewrite !sum_sub. ring. }
  assert (DX : forall j, j < f -> (sum n (fun i => d i * X i j) == 0)%Q).
  { intros j J. rewrite (sum_ext n _ (fun i => (y i - fitted f X b w i) * X i j - (y' i - fitted f X b' w' i) * X i j)%Q) by (intros; unfold d, r, r'; ring).
    rewrite sum_sub. rewrite (O2 j J), (P2 j J). ring. }
  assert (D1 : (sum n d == 0)%Q).
  { unfold d. rewrite (sum_sub n r r'). rewrite O1, P1. ring. }
  assert (DD : (sum n (fun i => d i * d i) == 0)%Q).
  { rewrite (sum_ext n _ (fun i => be * d i + sum f (fun j => de j * (d i * X i j)))%Q).
    2:{ intros i I. transitivity (d i * (be + sum f (fun j => X i j * de j)))%Q; [apply Qmult_comp; [reflexivity|exact (DF i I)]|].
        rewrite Qmult_plus_distr_r, <- sum_mul_l. apply Qplus_comp; [ring|]. apply sum_ext. intros; ring. }
    rewrite sum_add, sum_mul_l, D1, sum_swap. rewrite (sum_zero f); [ring|]. intros j J. rewrite sum_mul_l, (DX j J). ring. }
  intros i I. assert (Z : (d i == 0)%Q). { apply square_zero. exact (sum_nonneg_zero n (fun i => d i * d i)%Q (fun k _ => square_nonneg (d k)) DD i I). }
  unfold d, r, r' in Z. lra.
Qed.
Lemma numberAt_fun r i c p q : NumberAt r i c p -> NumberAt r i c q -> (p == q)%Q.
Proof. intros (p' & A & P) (q' & B & Q). rewrite A in B. injection B as <-. rewrite <- P, <- Q. reflexivity. Qed.
