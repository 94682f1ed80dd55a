(** Sums, quadratic losses and inverses over the rationals (C76). *)
From Verif Require Import Base NamesModel TableModel MatchModel MatchSpec RidgeSpec.
From Coq Require Import QArith Lqa Qround.
From Coq Require Import List. Import ListNotations.
Open Scope nat_scope.

Lemma sum_ext n f g : (forall k, k < n -> (f k == g k)%Q) -> (sum n f == sum n g)%Q.
Proof. induction n as [|n IH]; intros H; [reflexivity|]. cbn [sum]. rewrite IH, (H n) by (try intros; try apply H; lia). reflexivity. Qed.
Lemma sum_add n f g : (sum n (fun k => f k + g k) == sum n f + sum n g)%Q.
Proof. induction n as [|n IH]; cbn [sum]; [reflexivity|]. rewrite IH. ring. Qed.
Lemma sum_sub n f g : (sum n (fun k => f k - g k) == sum n f - sum n g)%Q.
Proof. induction n as [|n IH]; cbn [sum]; [reflexivity|]. rewrite IH. ring. Qed.
Lemma sum_mul_l n c f : (sum n (fun k => c * f k) == c * sum n f)%Q.
Proof. induction n as [|n IH]; cbn [sum]; [ring|]. rewrite IH. ring. Qed.
Lemma sum_mul_r n c f : (sum n (fun k => f k * c) == sum n f * c)%Q.
Proof. induction n as [|n IH]; cbn [sum]; [ring|]. rewrite IH. ring. Qed.
Lemma sum_zero n f : (forall k, k < n -> (f k == 0)%Q) -> (sum n f == 0)%Q.
Proof. induction n as [|n IH]; intros H; [reflexivity|]. cbn [sum]. rewrite IH, (H n) by (try intros; try apply H; lia). reflexivity. Qed.
Lemma sum_swap n m (f : nat -> nat -> Q) : (sum n (fun i => sum m (f i)) == sum m (fun j => sum n (fun i => f i j)))%Q.
Proof.
  induction n as [|n IH]; cbn [sum]; [symmetry; apply sum_zero; reflexivity|].
  rewrite IH. symmetry. apply (sum_add m (fun j => sum n (fun i => f i j)) (f n)).
Qed.
Lemma sum_unit n f j : j < n -> (sum n (fun k => f k * unit k j) == f j)%Q.
Proof.
  induction n as [|n IH]; intros H; [lia|]. cbn [sum]. unfold unit at 2. destruct (n =? j) eqn:E.
  - apply Nat.eqb_eq in E. subst. rewrite sum_zero; [ring|]. intros k K. unfold unit. destruct (k =? j) eqn:E; [apply Nat.eqb_eq in E; lia|ring].
  - apply Nat.eqb_neq in E. rewrite IH by lia. ring.
Qed.
Lemma unit_sym i j : unit i j = unit j i.
Proof. unfold unit. rewrite Nat.eqb_sym. reflexivity. Qed.
Lemma sum_unit_l n f j : j < n -> (sum n (fun k => unit j k * f k) == f j)%Q.
Proof. intros H. rewrite <- (sum_unit n f j H). apply sum_ext. intros k K. rewrite (unit_sym j k). ring. Qed.
Lemma square_nonneg q : (0 <= q * q)%Q.
Proof. nra. Qed.
Lemma sum_nonneg n f : (forall k, k < n -> (0 <= f k)%Q) -> (0 <= sum n f)%Q.
Proof. induction n as [|n IH]; intros H; cbn [sum]; [lra|]. assert (A := H n ltac:(lia)). assert (0 <= sum n f)%Q by (apply IH; intros; apply H; lia). lra. Qed.
Lemma sum_nonneg_zero n f : (forall k, k < n -> (0 <= f k)%Q) -> (sum n f == 0)%Q -> forall k, k < n -> (f k == 0)%Q.
Proof.
  induction n as [|n IH]; intros H Z k K; [lia|]. cbn [sum] in Z.
  assert (A := H n ltac:(lia)). assert (B : (0 <= sum n f)%Q) by (apply sum_nonneg; intros; apply H; lia).
  destruct (Nat.eq_dec k n) as [->|N]; [lra|]. apply IH; try lia; [intros; apply H; lia|lra].
Qed.
Lemma square_zero q : (q * q == 0)%Q -> (q == 0)%Q.
Proof. intros H. apply Qmult_integral in H. tauto. Qed.

(** ** matrices *)
Definition mm (n : nat) (A B : nat -> nat -> Q) (i j : nat) : Q := sum n (fun k => A i k * B k j)%Q.
Lemma mm_assoc n m A B C i j : (sum m (fun l => mm n A B i l * C l j) == sum n (fun k => A i k * mm m B C k j))%Q.
Proof.
  unfold mm. transitivity (sum m (fun l => sum n (fun k => A i k * B k l * C l j)))%Q.
  - apply sum_ext. intros l L. symmetry. apply sum_mul_r.
  - rewrite (sum_swap m n (fun l k => A i k * B k l * C l j)%Q). apply sum_ext. intros k K. rewrite <- sum_mul_l. apply sum_ext. intros l L. ring.
Qed.
Lemma mv_assoc n m A B (v : nat -> Q) i : (sum m (fun l => mm n A B i l * v l) == sum n (fun k => A i k * sum m (fun l => B k l * v l)))%Q.
Proof. exact (mm_assoc n m A B (fun l _ => v l) i 0). Qed.

(** ** the loss *)
Section Loss.
Variables (n f : nat) (X : nat -> nat -> Q) (y : nat -> Q) (lamb : Q).
Definition gram (j l : nat) : Q := (sum n (fun i => X i j * X i l) + lamb * unit j l)%Q.
Definition Normal (w : nat -> Q) : Prop := forall j, j < f -> (sum f (fun l => gram j l * w l) == sum n (fun i => X i j * y i))%Q.
Lemma gram_mul (w : nat -> Q) j : j < f -> (sum f (fun l => gram j l * w l) == sum n (fun i => X i j * predicted f (X i) w) + lamb * w j)%Q.
Proof.
  intros J. unfold gram. transitivity (sum f (fun l => sum n (fun i => X i j * X i l) * w l) + sum f (fun l => lamb * (unit j l * w l)))%Q.
  - rewrite <- sum_add. apply sum_ext. intros. ring.
  - rewrite sum_mul_l, (sum_unit_l f w j J). apply Qplus_comp; [|reflexivity].
    transitivity (sum f (fun l => sum n (fun i => X i j * X i l * w l)))%Q; [apply sum_ext; intros; symmetry; apply sum_mul_r|].
    rewrite (sum_swap f n (fun l i => X i j * X i l * w l)%Q). apply sum_ext. intros i I. unfold predicted. rewrite <- sum_mul_l. apply sum_ext. intros. ring.
Qed.
Lemma loss_split (w v : nat -> Q) : Normal w ->
  let d j := (v j - w j)%Q in
  (loss n f X y lamb v == loss n f X y lamb w + (sum n (fun i => predicted f (X i) d * predicted f (X i) d) + lamb * sum f (fun j => d j * d j)))%Q.
Proof.
  intros NE d. pose (e i := (y i - predicted f (X i) w)%Q).
  assert (Pd : forall i, (predicted f (X i) v == predicted f (X i) w + predicted f (X i) d)%Q).
  { intros i. unfold predicted. rewrite <- sum_add. apply sum_ext. intros. unfold d. ring. }
  assert (CR : (sum n (fun i => e i * predicted f (X i) d) == lamb * sum f (fun j => w j * d j))%Q).
  { transitivity (sum n (fun i => sum f (fun j => e i * (X i j * d j))))%Q; [apply sum_ext; intros; symmetry; apply sum_mul_l|].
    rewrite (sum_swap n f (fun i j => e i * (X i j * d j))%Q). rewrite <- sum_mul_l. apply sum_ext. intros j J.
    transitivity (d j * sum n (fun i => X i j * e i))%Q; [rewrite <- sum_mul_l; apply sum_ext; intros; ring|].
    assert (H : (sum n (fun i => X i j * e i) == lamb * w j)%Q).
    { transitivity (sum n (fun i => X i j * y i) - sum n (fun i => X i j * predicted f (X i) w))%Q.
      - rewrite <- sum_sub. apply sum_ext. intros. unfold e. ring.
      - rewrite <- (NE j J), (gram_mul w j J). ring. }
    rewrite H. ring. }
  unfold loss.
  assert (A : (sum n (fun i => (y i - predicted f (X i) v) * (y i - predicted f (X i) v)) ==
    sum n (fun i => e i * e i) + sum n (fun i => predicted f (X i) d * predicted f (X i) d) - 2 * sum n (fun i => e i * predicted f (X i) d))%Q).
  { rewrite <- sum_mul_l, <- sum_add, <- sum_sub. apply sum_ext. intros i I. rewrite (Pd i). unfold e. ring. }
  assert (B : (sum f (fun j => v j * v j) == sum f (fun j => w j * w j) + sum f (fun j => d j * d j) + 2 * sum f (fun j => w j * d j))%Q).
  { rewrite <- sum_mul_l, <- !sum_add. apply sum_ext. intros j J. unfold d. ring. }
  rewrite A, B, CR. unfold e. ring.
Qed.
Hypothesis L0 : (0 <= lamb)%Q.
Lemma quad_nonneg (d : nat -> Q) : (0 <= sum n (fun i => predicted f (X i) d * predicted f (X i) d) + lamb * sum f (fun j => d j * d j))%Q.
Proof.
  assert (A : (0 <= sum n (fun i => predicted f (X i) d * predicted f (X i) d))%Q) by (apply sum_nonneg; intros; apply square_nonneg).
  assert (B : (0 <= sum f (fun j => d j * d j))%Q) by (apply sum_nonneg; intros; apply square_nonneg).
  assert (0 <= lamb * sum f (fun j => d j * d j))%Q by (apply Qmult_le_0_compat; assumption). lra.
Qed.
Lemma minimal w : Normal w -> forall v, (loss n f X y lamb w <= loss n f X y lamb v)%Q.
Proof. intros N v. rewrite (loss_split w v N). pose proof (quad_nonneg (fun j => v j - w j)%Q). cbn beta zeta in *. lra. Qed.
Lemma quad_kernel (d : nat -> Q) : (sum n (fun i => predicted f (X i) d * predicted f (X i) d) + lamb * sum f (fun j => d j * d j) == 0)%Q ->
  forall j, j < f -> (sum f (fun l => gram j l * d l) == 0)%Q.
Proof.
  intros Z j J. rewrite (gram_mul d j J).
  assert (A : (0 <= sum n (fun i => predicted f (X i) d * predicted f (X i) d))%Q) by (apply sum_nonneg; intros; apply square_nonneg).
  assert (B : (0 <= sum f (fun j => d j * d j))%Q) by (apply sum_nonneg; intros; apply square_nonneg).
  assert (C : (0 <= lamb * sum f (fun j => d j * d j))%Q) by (apply Qmult_le_0_compat; assumption).
  assert (Z1 : (sum n (fun i => predicted f (X i) d * predicted f (X i) d) == 0)%Q) by lra.
  assert (Z2 : (lamb * sum f (fun j => d j * d j) == 0)%Q) by lra.
  assert (P0 : forall i, i < n -> (predicted f (X i) d == 0)%Q).
  { intros i I. apply square_zero. apply (sum_nonneg_zero n (fun i => predicted f (X i) d * predicted f (X i) d)%Q); [intros; apply square_nonneg|exact Z1|exact I]. }
  assert (D0 : (lamb * d j == 0)%Q).
  { apply Qmult_integral in Z2. destruct Z2 as [Z2|Z2]; [rewrite Z2; ring|].
    assert (d j == 0)%Q by (apply square_zero; apply (sum_nonneg_zero f (fun j => d j * d j)%Q); [intros; apply square_nonneg|exact Z2|exact J]).
    rewrite H. ring. }
  rewrite D0, sum_zero; [ring|]. intros i I. rewrite (P0 i I). ring.
Qed.
(** with an inverse the minimum is unique *)
Lemma unique N w : Inverse f gram N -> Normal w -> forall v, (loss n f X y lamb v <= loss n f X y lamb w)%Q -> forall j, j < f -> (v j == w j)%Q.
Proof.
  intros NV NE v LE j J. rewrite (loss_split w v NE) in LE. pose (d j := (v j - w j)%Q).
  pose proof (quad_nonneg d) as G. cbn zeta in LE. fold d in LE.
  assert (Z : (sum n (fun i => predicted f (X i) d * predicted f (X i) d) + lamb * sum f (fun j => d j * d j) == 0)%Q) by (unfold d in *; lra).
  pose proof (quad_kernel d Z) as KK.
  assert (D : (d j == 0)%Q).
  { rewrite <- (sum_unit_l f d j J).
    transitivity (sum f (fun k => mm f N gram j k * d k))%Q; [apply sum_ext; intros k K; destruct (NV j k J K) as [_ R]; unfold mm; rewrite R; reflexivity|].
    rewrite mv_assoc. apply sum_zero. intros k K. rewrite (KK k K). ring. }
  unfold d in D. lra.
Qed.
(** a positive penalty makes the matrix regular *)
Lemma regular : (0 < lamb)%Q -> ~ Singular f gram.
Proof.
  intros LP (v & (j & J & NZ) & K). apply NZ. apply square_zero.
  assert (Z : (sum n (fun i => predicted f (X i) v * predicted f (X i) v) + lamb * sum f (fun j => v j * v j) == 0)%Q).
  { transitivity (sum f (fun j => v j * sum f (fun l => gram j l * v l)))%Q; [|apply sum_zero; intros i I; rewrite (K i I); ring].
    transitivity (sum f (fun j => v j * sum n (fun i => X i j * predicted f (X i) v)) + sum f (fun j => lamb * (v j * v j)))%Q.
    - apply Qplus_comp; [|symmetry; apply sum_mul_l].
      transitivity (sum n (fun i => sum f (fun j => v j * (X i j * predicted f (X i) v))))%Q.
      + apply sum_ext. intros i I. unfold predicted at 1. rewrite <- sum_mul_r. apply sum_ext. intros. ring.
      + rewrite (sum_swap n f (fun i j => v j * (X i j * predicted f (X i) v))%Q). apply sum_ext. intros. apply sum_mul_l.
    - rewrite <- sum_add. apply sum_ext. intros l L. rewrite (gram_mul v l L). ring. }
  assert (A : (0 <= sum n (fun i => predicted f (X i) v * predicted f (X i) v))%Q) by (apply sum_nonneg; intros; apply square_nonneg).
  assert (B : (0 <= sum f (fun j => v j * v j))%Q) by (apply sum_nonneg; intros; apply square_nonneg).
  assert (S0 : (sum f (fun j => v j * v j) == 0)%Q) by nra.
  apply (sum_nonneg_zero f (fun j => v j * v j)%Q); [intros; apply square_nonneg|exact S0|exact J].
Qed.
End Loss.
