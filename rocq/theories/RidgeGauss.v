(** Gaussian elimination: an inversion routine as required by [Inverts] exists
    (C76).  It is also used to run the examples. *)
From Coq Require Import QArith Lqa.
From Verif Require Import Base RidgeModel RidgeSpec RidgeAlgebra.
From Verif Require RidgeProofs.
From Coq Require Import List. Import ListNotations.
Open Scope nat_scope.

Definition Solver (n : nat) (M : nat -> nat -> Q) (s : (nat -> Q) -> nat -> Q) : Prop :=
  forall b i, i < n -> (sum n (fun j => M i j * s b j) == b i)%Q.
(** a row of the last column that is not zero *)
Definition findRow (g : nat -> Q) : forall n, {i | i < n /\ ~ (g i == 0)%Q} + {forall i, i < n -> (g i == 0)%Q}.
Proof.
  induction n as [|n [(i & I & N)|Z]].
  - right. intros i I. lia.
  - left. exists i. split; [lia|exact N].
  - destruct (Qeq_dec (g n) 0) as [E|E].
    + right. intros i I. destruct (Nat.eq_dec i n) as [->|D]; [exact E|apply Z; lia].
    + left. exists n. split; [lia|exact E].
Defined.
Definition ext (n : nat) (x : nat -> Q) (last : Q) (j : nat) : Q := if j <? n then x j else last.
Lemma ext_lt n x l j : j < n -> ext n x l j = x j.
Proof. intros H. unfold ext. apply Nat.ltb_lt in H. rewrite H. reflexivity. Qed.
Lemma ext_last n x l : ext n x l n = l.
Proof. unfold ext. rewrite Nat.ltb_irrefl. reflexivity. Qed.
Lemma ext_sum n (g : nat -> Q) x l : (sum (S n) (fun j => g j * ext n x l j) == sum n (fun j => g j * x j) + g n * l)%Q.
Proof.
  cbn [sum]. rewrite ext_last. apply Qplus_comp; [|reflexivity]. apply sum_ext. intros j J. rewrite ext_lt by exact J. reflexivity.
Qed.
Definition schur (n : nat) (M : nat -> nat -> Q) (i j : nat) : Q := (M i j - M i n * M n j / M n n)%Q.
Lemma schur_sum n M x i : (sum n (fun j => schur n M i j * x j) == sum n (fun j => M i j * x j) - M i n / M n n * sum n (fun j => M n j * x j))%Q.
Proof.
  rewrite <- sum_mul_l, <- sum_sub. apply sum_ext. intros j J. unfold schur, Qdiv. ring.
Qed.
Definition backSolve (n : nat) (M : nat -> nat -> Q) (s : (nat -> Q) -> nat -> Q) (b : nat -> Q) : nat -> Q :=
  let x := s (fun i => (b i - M i n * b n / M n n)%Q) in
  ext n x ((b n - sum n (fun k => M n k * x k)) / M n n)%Q.
Lemma backSolve_spec n M s : ~ (M n n == 0)%Q -> Solver n (schur n M) s -> Solver (S n) M (backSolve n M s).
Proof.
  intros NZ SS b i I. unfold backSolve. pose (b' := fun i => (b i - M i n * b n / M n n)%Q). fold b'. pose (x := s b'). fold x.
  rewrite ext_sum. destruct (Nat.eq_dec i n) as [->|D].
  - field. exact NZ.
  - pose proof (SS b' i ltac:(lia)) as H. fold x in H. rewrite schur_sum in H. unfold b' in H.
    transitivity (sum n (fun j => M i j * x j) - M i n / M n n * sum n (fun j => M n j * x j) + M i n * b n / M n n)%Q; [field; exact NZ|]. rewrite H. ring.
Qed.
Lemma schur_singular n M : ~ (M n n == 0)%Q -> Singular n (schur n M) -> Singular (S n) M.
Proof.
  intros NZ (v & (j & J & V) & K). exists (ext n v (- sum n (fun k => M n k * v k) / M n n)%Q). split.
  - exists j. split; [lia|]. rewrite ext_lt by exact J. exact V.
  - intros i I. rewrite ext_sum. destruct (Nat.eq_dec i n) as [->|D]; [field; exact NZ|].
    pose proof (K i ltac:(lia)) as H. rewrite schur_sum in H. rewrite <- H. field. exact NZ.
Qed.
(** add row i to the last one *)
Definition addRow (n r : nat) (M : nat -> nat -> Q) (i j : nat) : Q := if i =? n then (M n j + M r j)%Q else M i j.
Lemma addRow_last n r M x : (sum (S n) (fun j => addRow n r M n j * x j) == sum (S n) (fun j => M n j * x j) + sum (S n) (fun j => M r j * x j))%Q.
Proof. rewrite <- sum_add. apply sum_ext. intros j J. unfold addRow. rewrite Nat.eqb_refl. ring. Qed.
Lemma addRow_other n r M x i : i < n -> (sum (S n) (fun j => addRow n r M i j * x j) == sum (S n) (fun j => M i j * x j))%Q.
Proof. intros I. apply sum_ext. intros j J. unfold addRow. destruct (i =? n) eqn:E; [apply Nat.eqb_eq in E; lia|]. reflexivity. Qed.
Definition addSolve (n r : nat) (s : (nat -> Q) -> nat -> Q) (b : nat -> Q) : nat -> Q := s (fun i => if i =? n then (b n + b r)%Q else b i).
Lemma addSolve_spec n r M s : r < n -> Solver (S n) (addRow n r M) s -> Solver (S n) M (addSolve n r s).
Proof.
  intros R SS b i I. unfold addSolve. pose (b' := fun i => if i =? n then (b n + b r)%Q else b i). fold b'.
  assert (O : forall i, i < n -> (sum (S n) (fun j => M i j * s b' j) == b i)%Q).
  { intros k K. rewrite <- (addRow_other n r M (s b') k K). rewrite (SS b' k ltac:(lia)). unfold b'. destruct (k =? n) eqn:E; [apply Nat.eqb_eq in E; lia|reflexivity]. }
  destruct (Nat.eq_dec i n) as [->|D]; [|apply O; lia].
  pose proof (SS b' n ltac:(lia)) as H. rewrite addRow_last, (O r R) in H. unfold b' at 2 in H. rewrite Nat.eqb_refl in H. lra.
Qed.
Lemma addRow_singular n r M : r < n -> Singular (S n) (addRow n r M) -> Singular (S n) M.
Proof.
  intros R (v & NZ & K). exists v. split; [exact NZ|].
  assert (O : forall i, i < n -> (sum (S n) (fun j => M i j * v j) == 0)%Q) by (intros k Kk; rewrite <- (addRow_other n r M v k Kk); apply K; lia).
  intros i I. destruct (Nat.eq_dec i n) as [->|D]; [|apply O; lia]. pose proof (K n ltac:(lia)) as H. rewrite addRow_last, (O r R) in H. lra.
Qed.
Lemma addRow_pivot n r M : (M n n == 0)%Q -> ~ (M r n == 0)%Q -> ~ (addRow n r M n n == 0)%Q.
Proof. intros Z N H. apply N. unfold addRow in H. rewrite Nat.eqb_refl in H. lra. Qed.
Lemma zero_column n M : (M n n == 0)%Q -> (forall i, i < n -> (M i n == 0)%Q) -> Singular (S n) M.
Proof.
  intros Z A. exists (fun j => unit n j). split.
  - exists n. split; [lia|]. unfold unit. rewrite Nat.eqb_refl. discriminate.
  - intros i I. transitivity (sum (S n) (fun k => M i k * unit k n))%Q; [apply sum_ext; intros; rewrite unit_sym; reflexivity|].
    rewrite (sum_unit (S n) (M i) n) by lia. destruct (Nat.eq_dec i n) as [->|D]; [exact Z|apply A; lia].
Qed.
Definition eliminate : forall n M, {s | Solver n M s} + {Singular n M}.
Proof.
  induction n as [|n IH]; intros M.
  - left. exists (fun b => b). intros b i I. lia.
  - assert (P : forall M', ~ (M' n n == 0)%Q -> {s | Solver (S n) M' s} + {Singular (S n) M'}).
    { intros M' NZ. destruct (IH (schur n M')) as [(s & H)|H].
      - left. exists (backSolve n M' s). apply backSolve_spec; assumption.
      - right. apply schur_singular; assumption. }
    destruct (Qeq_dec (M n n) 0) as [Z|NZ]; [|exact (P M NZ)].
    destruct (findRow (fun i => M i n) n) as [(r & R & N)|A].
    + destruct (P (addRow n r M) (addRow_pivot n r M Z N)) as [(s & H)|H].
      * left. exists (addSolve n r s). apply addSolve_spec; assumption.
      * right. apply (addRow_singular n r); assumption.
    + right. apply zero_column; assumption.
Defined.
(** the inverse, column by column *)
Definition gauss (m : list (list Q)) : result (list (list Q)) :=
  let n := List.length m in
  match eliminate n (element m) with
  | inleft (exist _ s _) => Ok (map (fun i => map (fun j => Qred (s (fun k => unit k j) i)) (seq 0 n)) (seq 0 n))
  | inright _ => Err ValueErr
  end.
(** a right inverse is an inverse *)
Lemma right_regular n M N : (forall i j, i < n -> j < n -> (mm n M N i j == unit i j)%Q) -> ~ Singular n N.
Proof.
  intros R (v & (j & J & NZ) & K). apply NZ. rewrite <- (sum_unit_l n v j J).
  transitivity (sum n (fun k => mm n M N j k * v k))%Q; [apply sum_ext; intros k Kk; rewrite (R j k J Kk); reflexivity|].
  rewrite mv_assoc. apply sum_zero. intros k Kk. rewrite (K k Kk). ring.
Qed.
Lemma right_inverse n M N : (forall i j, i < n -> j < n -> (mm n M N i j == unit i j)%Q) -> Inverse n M N.
Proof.
  intros R. destruct (eliminate n N) as [(s & H)|H]; [|exfalso; exact (right_regular n M N R H)].
  pose (M' := fun i j => s (fun k => unit k j) i).
  assert (R' : forall i j, i < n -> j < n -> (mm n N M' i j == unit i j)%Q) by (intros i j I J; exact (H (fun k => unit k j) i I)).
  assert (E : forall i j, i < n -> j < n -> (M i j == M' i j)%Q).
  { intros i j I J. rewrite <- (sum_unit n (M i) j J).
    transitivity (sum n (fun k => M i k * mm n N M' k j))%Q; [apply sum_ext; intros k K; rewrite (R' k j K J); reflexivity|].
    rewrite <- mm_assoc. rewrite <- (sum_unit_l n (fun l => M' l j) i I). apply sum_ext. intros l L. rewrite (R i l I L). reflexivity. }
  intros i j I J. split; [exact (R i j I J)|]. rewrite <- (R' i j I J). apply sum_ext. intros k K. rewrite (E k j K J). reflexivity.
Qed.
Lemma gauss_Inverts : Inverts gauss.
Proof.
  intros n m S. unfold gauss. assert (L : List.length m = n) by apply S. rewrite L. destruct (eliminate n (element m)) as [(s & H)|H]; [|exact H].
  pose (g i j := Qred (s (fun k => unit k j) i)).
  assert (SH : Shape (map (fun i => map (g i) (seq 0 n)) (seq 0 n)) n n) by apply RidgeProofs.Shape_build.
  split; [exact SH|]. apply right_inverse. intros i j I J. unfold mm. rewrite <- (H (fun k => unit k j) i I). apply sum_ext. intros k K.
  change (element (map (fun i => map (g i) (seq 0 n)) (seq 0 n)) k j) with (qat (map (fun i => map (g i) (seq 0 n)) (seq 0 n)) k j).
  rewrite RidgeProofs.qat_build by assumption. unfold g. rewrite Qred_correct. reflexivity.
Qed.
