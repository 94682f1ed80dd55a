(** Property C59: arithmetic on Sparse objects.  Definitions used in the
    statements: SparseArithSpec.v (NoZeros, SameShape, ScipyAgrees, ElementsAre,
    RaisesAt, repeated, leavesZeros, neutralOne), SparseSpec.v ([val], the element
    at a position, and [sinv], the object's own invariant).  In each theorem [np]
    is numpy's operation on two numbers, which may raise, [sc] the operation of
    scipy's compiled code, which does not, [floorV] is [np.floor] and
    [isPos c] is [c > 0]. *)
From Verif Require Import Base NamesModel TableModel TableOps MatchModel BinOpModel BinOpSpec SparseModel SparseSpec SparseProofs SparseArithModel SparseArithSpec SparseArithProofs.
From Coq Require Import QArith Floats.SpecFloat.
Open Scope string_scope.
Open Scope list_scope.
Open Scope nat_scope.

Section Theorems.
Variable V : Type.
Variable EV : EqDec V.
Variables zero one nan : V.
Variable isPos : V -> bool.
Variable np : arith -> V -> V -> result V.
Variable sc : arith -> V -> V -> V.
Variable floorV : V -> V.
Local Notation op := (sparseOp V zero one nan isPos np sc floorV).
Local Notation sinv := (sinv zero).

(** Sparse objects and dense objects agree: whenever numpy computes every element
    for the dense objects, the operator between the Sparse objects succeeds with
    the same elements - except that the remainder also needs a left object
    without zeros (see below), and floor division is the floor of the quotient. *)
Theorem C59_same_as_dense_partial :
  forall o s b m, sinv s -> sinv b -> snp s = snp b -> snf s = snf b -> 0 < snp s -> 0 < snf s ->
  ScipyAgrees np sc -> (o = Floordiv -> floorV zero = zero /\ forall x y v, np Floordiv x y = Ok v -> floorV (sc Truediv x y) = v) ->
  (dividing o = true -> NoZeros zero b) -> (dividing o = false -> o <> Pow -> np o zero zero = Ok zero) -> (o = Mod -> NoZeros zero s) ->
  (forall i j, i < snp s -> j < snf s -> np o (val zero s i j) (val zero b i j) = Ok (m i j)) ->
  exists r, op false o s (SpSparse b) = Ok r /\ sinv r /\ SameShape s r /\ forall i j, i < snp s -> j < snf s -> val zero r i j = m i j.
Proof. exact (same_as_dense V zero one nan isPos np sc floorV). Qed.
(** The same with a scalar on either side, provided that zeros stay zeros under
    the operators that leave them alone. *)
Theorem C59_same_as_dense_scalar_partial :
  forall (refl : bool) o s c m, let turn (x y : V) := if refl then np o y x else np o x y in
  sinv s -> (dividing o = true -> refl = false -> c <> zero) -> (dividing o = true -> refl = true -> NoZeros zero s) ->
  (neutralOne refl o = true -> forall x v, turn x one = Ok v -> v = x) -> (leavesZeros refl (isPos c) o = true -> forall v, turn zero c = Ok v -> v = zero) ->
  (forall i j, i < snp s -> j < snf s -> turn (val zero s i j) c = Ok (m i j)) ->
  exists r, op refl o s (SpScalar c) = Ok r /\ sinv r /\ SameShape s r /\ forall i j, i < snp s -> j < snf s -> val zero r i j = m i j.
Proof. intros refl o s c m turn. exact (same_as_dense_scalar V zero one nan isPos np sc floorV refl o s c m). Qed.

(** ** The exact outcomes *)
(** sums, differences, products: never an error *)
Theorem C59_sum_difference_product :
  forall o s b, o = Add \/ o = Sub \/ o = Mul -> sinv s -> sinv b -> snp s = snp b -> snf s = snf b -> 0 < snp s -> 0 < snf s -> sc o zero zero = zero ->
  exists r, op false o s (SpSparse b) = Ok r /\ sinv r /\ SameShape s r /\ forall i j, i < snp s -> j < snf s -> val zero r i j = sc o (val zero s i j) (val zero b i j).
Proof.
  intros o s b Ho Is Ib H1 H2 P1 P2 Z. rewrite validation_ok; [|apply Ib|exact H1|exact H2|exact P1|exact P2|destruct Ho as [->|[->| ->]]; discriminate].
  destruct (binary_total V zero one nan isPos np sc floorV o s b Is Ib H1 H2) as (r & E & A & B & C); try (destruct Ho as [->|[->| ->]]; discriminate); auto.
  exists r. split; [exact E|]. split; [exact A|]. split; [exact B|]. intros i j Hi Hj. rewrite C by assumption. destruct Ho as [->|[->| ->]]; reflexivity.
Qed.
(** quotients and floor division: the divisor must not contain a zero *)
Theorem C59_quotient :
  forall o s b, o = Truediv \/ o = Floordiv -> sinv s -> sinv b -> snp s = snp b -> snf s = snf b -> 0 < snp s -> 0 < snf s -> floorV zero = zero ->
  (NoZeros zero b -> exists r, op false o s (SpSparse b) = Ok r /\ sinv r /\ SameShape s r /\
     forall i j, i < snp s -> j < snf s -> let q := sc Truediv (val zero s i j) (val zero b i j) in val zero r i j = if isFloordiv o then floorV q else q) /\
  (~ NoZeros zero b -> op false o s (SpSparse b) = Err ZeroDiv).
Proof.
  intros o s b Ho Is Ib H1 H2 P1 P2 Z. split; intros N.
  - rewrite validation_ok; [|apply Ib|exact H1|exact H2|exact P1|exact P2|auto].
    destruct (binary_total V zero one nan isPos np sc floorV o s b Is Ib H1 H2) as (r & E & A & B & C); try (destruct Ho as [->| ->]; discriminate); auto.
    exists r. split; [exact E|]. split; [exact A|]. split; [exact B|]. intros i j Hi Hj q. rewrite C by assumption. destruct Ho as [->| ->]; reflexivity.
  - apply validation_zero; auto; [apply Ib|]. destruct Ho as [->| ->]; reflexivity.
Qed.
(** powers *)
Theorem C59_power :
  forall s b, sinv s -> sinv b -> snp s = snp b -> snf s = snf b -> 0 < snp s -> 0 < snf s ->
  match op false Pow s (SpSparse b) with
  | Ok r => sinv r /\ ElementsAre zero s r (fun i j => np Pow (val zero s i j) (val zero b i j))
  | Err e => RaisesAt s (fun i j => np Pow (val zero s i j) (val zero b i j)) e
  end.
Proof.
  intros s b Is Ib H1 H2 P1 P2. rewrite validation_ok; [|apply Ib|exact H1|exact H2|exact P1|exact P2|discriminate]. apply genericPow_spec.
Qed.
(** remainders: a divisor without zeros, and then only a left object without
    zeros (or a single element) *)
Theorem C59_remainder :
  forall s b, sinv s -> sinv b -> snp s = snp b -> snf s = snf b -> 0 < snp s -> 0 < snf s ->
  (~ NoZeros zero b -> op false Mod s (SpSparse b) = Err ZeroDiv) /\
  (NoZeros zero b ->
    (NoZeros zero s -> match op false Mod s (SpSparse b) with
       | Ok r => sinv r /\ ElementsAre zero s r (fun i j => np Mod (val zero s i j) (val zero b i j))
       | Err e => RaisesAt s (fun i j => np Mod (val zero s i j) (val zero b i j)) e
       end) /\
    (~ NoZeros zero s -> 1 < snp s * snf s -> exists e, op false Mod s (SpSparse b) = Err e) /\
    (snp s = 1 -> snf s = 1 -> val zero s 0 0 = zero -> exists r, op false Mod s (SpSparse b) = Ok r /\ sinv r /\ SameShape s r /\ val zero r 0 0 = zero)).
Proof.
  intros s b Is Ib H1 H2 P1 P2. split; intros N.
  - apply validation_zero; auto. apply Ib.
  - rewrite validation_ok; [|apply Ib|exact H1|exact H2|exact P1|exact P2|auto]. apply (genericMod_spec V zero isPos np floorV); assumption.
Qed.
(** scalars: unchanged for a neutral 1; only the elements that are not zero for
    products, quotients, remainders and positive powers; otherwise every element *)
Theorem C59_scalar :
  forall (refl : bool) o s c, sinv s -> (dividing o = true -> if refl then NoZeros zero s else c <> zero) ->
  let turn (x y : V) := if refl then np o y x else np o x y in
  (neutralOne refl o = true -> c = one -> exists r, op refl o s (SpScalar c) = Ok r /\ sinv r /\ sameMatrix zero s r) /\
  (~ (neutralOne refl o = true /\ c = one) -> leavesZeros refl (isPos c) o = true ->
    match op refl o s (SpScalar c) with
    | Ok r => sinv r /\ SameShape s r /\ forall i j, i < snp s -> j < snf s -> (val zero s i j = zero -> val zero r i j = zero) /\ (val zero s i j <> zero -> turn (val zero s i j) c = Ok (val zero r i j))
    | Err e => exists i j, i < snp s /\ j < snf s /\ val zero s i j <> zero /\ turn (val zero s i j) c = Err e
    end) /\
  (leavesZeros refl (isPos c) o = false -> ~ (neutralOne refl o = true /\ c = one) ->
    match op refl o s (SpScalar c) with
    | Ok r => sinv r /\ ElementsAre zero s r (fun i j => turn (val zero s i j) c)
    | Err e => RaisesAt s (fun i j => turn (val zero s i j) c) e
    end).
Proof.
  intros refl o s c Is D turn. change (dividing o) with (isDivMod o) in D. unfold sparseOp, sparseValidation. cbn [rbind].
  assert ((if isDivMod o then if (if refl then sparseContainsZero V s else eqbd c zero) then Err ZeroDiv else Ok tt else Ok tt) = Ok tt) as ->.
  { destruct (isDivMod o); [|reflexivity]. specialize (D eq_refl). destruct refl; [rewrite (proj2 (containsZero_false V zero s (proj1 Is))) by exact D; reflexivity|].
    destruct (eqbd c zero) eqn:Q; [apply eqbd_true in Q; contradiction|reflexivity]. }
  cbn [rbind sparseBinary]. exact (scalarBinary_spec V zero one isPos np floorV refl o s c Is).
Qed.
Theorem C59_scalar_zero_divisor :
  forall (refl : bool) o s c, sinv s -> dividing o = true -> (if refl then ~ NoZeros zero s else c = zero) -> op refl o s (SpScalar c) = Err ZeroDiv.
Proof.
  intros refl o s c Is D H. change (dividing o) with (isDivMod o) in D. unfold sparseOp, sparseValidation. cbn [rbind]. rewrite D. destruct refl.
  - destruct (sparseContainsZero V s) eqn:Z; [reflexivity|]. apply (containsZero_false V zero s (proj1 Is)) in Z. contradiction.
  - subst c. rewrite eqbd_refl. reflexivity.
Qed.
(** refused shapes *)
Theorem C59_shapes :
  forall (refl : bool) o s b,
  (snp s <> snp b \/ snf s <> snf b -> op refl o s (SpSparse b) = Err InvalidArgumentValue) /\
  (snp s = snp b -> snf s = snf b -> snp s = 0 \/ snf s = 0 -> op refl o s (SpSparse b) = Err ImproperObjectAction).
Proof. intros refl o s b. split; [apply validation_size|apply validation_empty]. Qed.
(** A stretched Sparse object combines as if its single point or feature were
    repeated along the other operand: the call is the operator between two
    objects of the larger shape with those elements. *)
Theorem C59_stretched_partial :
  forall o (st : bool) s b, sinv s -> sinv b -> 0 < snp s -> 0 < snf s -> 0 < snp b -> 0 < snf b ->
  (if st then (snp s = 1 /\ snf b = 1) \/ (snf s = 1 /\ snp b = 1 /\ ~ (snp s = 1 /\ 1 < snf b))
   else (snp s = 1 /\ snf s = snf b) \/ (snf s = 1 /\ snp s = snp b) \/ (snp s = 1 /\ snf s = 1 /\ (snp b = 1 \/ snf b = 1))) ->
  exists s' b', stretchSparse V zero one nan isPos np sc floorV o st s b = sparseBinary V zero one nan isPos np sc floorV false o s' (SpSparse b') /\ sinv s' /\ sinv b' /\
    snp s' = Nat.max (snp s) (snp b) /\ snf s' = Nat.max (snf s) (snf b) /\ snp b' = snp s' /\ snf b' = snf s' /\
    forall i j, i < snp s' -> j < snf s' ->
      val zero s' i j = val zero s (repeated (snp s) i) (repeated (snf s) j) /\ val zero b' i j = val zero b (repeated (snp b) i) (repeated (snf b) j).
Proof. exact (stretch_operands V zero one nan isPos np sc floorV). Qed.
Theorem C59_stretched_sum_partial :
  forall o (st : bool) s b, o = Add \/ o = Sub \/ o = Mul -> sc o zero zero = zero -> sinv s -> sinv b -> 0 < snp s -> 0 < snf s -> 0 < snp b -> 0 < snf b ->
  (if st then (snp s = 1 /\ snf b = 1) \/ (snf s = 1 /\ snp b = 1 /\ ~ (snp s = 1 /\ 1 < snf b))
   else (snp s = 1 /\ snf s = snf b) \/ (snf s = 1 /\ snp s = snp b) \/ (snp s = 1 /\ snf s = 1 /\ (snp b = 1 \/ snf b = 1))) ->
  exists r, stretchSparse V zero one nan isPos np sc floorV o st s b = Ok r /\ sinv r /\ snp r = Nat.max (snp s) (snp b) /\ snf r = Nat.max (snf s) (snf b) /\
    forall i j, i < snp r -> j < snf r ->
      val zero r i j = sc o (val zero s (repeated (snp s) i) (repeated (snf s) j)) (val zero b (repeated (snp b) i) (repeated (snf b) j)).
Proof.
  intros o st s b Ho Z Is Ib P1 P2 P3 P4 F. destruct (stretch_operands V zero one nan isPos np sc floorV o st s b Is Ib P1 P2 P3 P4 F) as (s' & b' & E & I1 & I2 & H1 & H2 & H3 & H4 & G).
  destruct (binary_total V zero one nan isPos np sc floorV o s' b' I1 I2 (eq_sym H3) (eq_sym H4)) as (r & E' & A & [B1 B2] & C); try (destruct Ho as [->|[->| ->]]; discriminate); auto.
  exists r. split; [congruence|]. split; [exact A|]. split; [congruence|]. split; [congruence|]. intros i j Hi Hj. rewrite C by congruence.
  destruct (G i j) as [-> ->]; [congruence|congruence|]. destruct Ho as [->|[->| ->]]; reflexivity.
Qed.
End Theorems.
Print Assumptions C59_same_as_dense_partial.
Print Assumptions C59_same_as_dense_scalar_partial.
Print Assumptions C59_sum_difference_product.
Print Assumptions C59_quotient.
Print Assumptions C59_power.
Print Assumptions C59_remainder.
Print Assumptions C59_scalar.
Print Assumptions C59_scalar_zero_divisor.
Print Assumptions C59_shapes.
Print Assumptions C59_stretched_partial.
Print Assumptions C59_stretched_sum_partial.

(** ** Numbers for examples: integers, the infinities and not-a-number, with
    their IEEE sums, differences and products; numpy raises when the operation is
    invalid *)
Inductive num := NZ (z : Z) | NPosInf | NNegInf | NNan.
#[export] Instance EqDec_num : EqDec num.
Proof. intros x y. unfold EqDec in *. decide equality. apply Z.eq_dec. Defined.
Definition signOf (x : num) : Z := match x with NZ z => Z.sgn z | NPosInf => 1 | NNegInf => -1 | NNan => 0 end.
Definition infOf (s : Z) : num := if (s =? 0)%Z then NNan else if (0 <? s)%Z then NPosInf else NNegInf.
Definition neg59 (x : num) : num := match x with NZ z => NZ (- z) | NPosInf => NNegInf | NNegInf => NPosInf | NNan => NNan end.
Definition add59 (x y : num) : num :=
  match x, y with
  | NNan, _ | _, NNan => NNan
  | NZ a, NZ b => NZ (a + b)
  | NPosInf, NNegInf | NNegInf, NPosInf => NNan
  | NZ _, i => i
  | i, _ => i
  end.
Definition sc59 (o : arith) (x y : num) : num :=
  match o with
  | Add => add59 x y
  | Sub => add59 x (neg59 y)
  | Mul => match x, y with NZ a, NZ b => NZ (a * b) | NNan, _ | _, NNan => NNan | _, _ => infOf (signOf x * signOf y) end
  | Truediv | Floordiv => match x, y with NZ a, NZ b => NZ (a / b) | _, _ => NNan end
  | Mod => match x, y with NZ a, NZ b => NZ (a mod b) | _, _ => NNan end
  | Pow => match x, y with NZ a, NZ b => NZ (a ^ b) | _, _ => NNan end
  end.
Definition isNan (x : num) : bool := match x with NNan => true | _ => false end.
(** invalid: not-a-number out of numbers *)
Definition np59 (o : arith) (x y : num) : result num :=
  let r := sc59 o x y in if isNan r && negb (isNan x) && negb (isNan y) then Err ValueErr else Ok r.
Definition pos59 (x : num) : bool := match x with NZ z => (0 <? z)%Z | NPosInf => true | _ => false end.
Local Notation op59 := (sparseOp num (NZ 0) (NZ 1) NNan pos59 np59 sc59 (fun x => x)).
Definition s59 : sparse num := mkSp 1 2 [mkE 0 0 (NZ 6)] None None.
Definition b59 : sparse num := mkSp 1 2 [mkE 0 0 (NZ 4); mkE 0 1 (NZ 3)] None None.
Definition i59 : sparse num := mkSp 1 2 [mkE 0 1 NPosInf] None None.
Lemma inv59 s : In s [s59; b59; i59] -> sinv (NZ 0) s.
Proof.
  intros [<-|[<-|[<-|[]]]]; (split; [split; [repeat constructor; cbn; intuition discriminate|cbn; intros e He; intuition (subst; cbn; try discriminate; try lia)]|reflexivity]).
Qed.

(** ** What does not hold *)
(** The remainder of two Sparse objects raises as soon as the left one has a
    zero, although every element has a remainder. *)
Theorem C59_remainder_of_zero_refuted :
  exists s b e, sinv (NZ 0) s /\ sinv (NZ 0) b /\ NoZeros (NZ 0) b /\
    (forall i j, i < snp s -> j < snf s -> exists v, np59 Mod (val (NZ 0) s i j) (val (NZ 0) b i j) = Ok v) /\ op59 false Mod s (SpSparse b) = Err e.
Proof.
  exists s59, b59, ValueErr. split; [apply inv59; cbn; auto|]. split; [apply inv59; cbn; auto|].
  split; [intros [|[|i]] [|[|j]] Hi Hj; cbn in *; try lia; discriminate|]. split; [|reflexivity].
  intros [|[|i]] [|[|j]] Hi Hj; cbn in *; try lia; eexists; reflexivity.
Qed.
Print Assumptions C59_remainder_of_zero_refuted.
(** Multiplied by not-a-number, the zeros of a Sparse object stay zeros; in a
    dense object every element becomes not-a-number.  Multiplied by infinity,
    numpy refuses 0 * inf and Sparse does not. *)
Theorem C59_nan_scalar_refuted :
  (exists s r, sinv (NZ 0) s /\ op59 false Mul s (SpScalar NNan) = Ok r /\ val (NZ 0) r 0 1 = NZ 0 /\ np59 Mul (val (NZ 0) s 0 1) NNan = Ok NNan) /\
  (exists s r, sinv (NZ 0) s /\ op59 false Mul s (SpScalar NPosInf) = Ok r /\ np59 Mul (val (NZ 0) s 0 1) NPosInf = Err ValueErr).
Proof. split; exists s59; eexists; (split; [apply inv59; cbn; auto|]); repeat split; vm_compute; reflexivity. Qed.
Print Assumptions C59_nan_scalar_refuted.
(** numpy refuses inf - inf; between Sparse objects it is not-a-number. *)
Theorem C59_invalid_refuted :
  exists s r, sinv (NZ 0) s /\ op59 false Sub s (SpSparse s) = Ok r /\ val (NZ 0) r 0 1 = NNan /\ np59 Sub (val (NZ 0) s 0 1) (val (NZ 0) s 0 1) = Err ValueErr.
Proof. exists i59. eexists. split; [apply inv59; cbn; auto|]. repeat split; vm_compute; reflexivity. Qed.
Print Assumptions C59_invalid_refuted.
(** Floor division of Sparse objects rounds the quotient to a double before
    taking the floor.  For 1 // 0.1 in double precision the quotient rounds to 10,
    but the greatest integer not above 1 / 0.1 is 9 (and 1 // 0.1 is 9.0 in Python
    and numpy). *)
Definition double59 : spec_float := S754_finite false 7205759403792794 (-56). (* the double 0.1 *)
Definition one59 : spec_float := S754_finite false 4503599627370496 (-52).
Theorem C59_floor_of_rounded_refuted :
  SFdiv 53 1024 one59 double59 = S754_finite false 5629499534213120 (-49) /\ (inject_Z 5629499534213120 / inject_Z (2 ^ 49) == 10)%Q /\
  Qround.Qfloor (1 / (inject_Z 7205759403792794 / inject_Z (2 ^ 56)))%Q = 9%Z.
Proof. repeat split; vm_compute; reflexivity. Qed.
Print Assumptions C59_floor_of_rounded_refuted.
(** Two stretched Sparse objects, a single element and a point of two: refused,
    although the other order is not. *)
Theorem C59_stretched_single_refuted :
  let stretch59 := stretchSparse num (NZ 0) (NZ 1) NNan pos59 np59 sc59 (fun x => x) in
  let one := mkSp 1 1 [mkE 0 0 (NZ 5)] None None in
  stretch59 Add true one b59 = Err ValueErr /\ exists r, stretch59 Add true b59 one = Ok r /\ val (NZ 0) r 0 1 = NZ 8.
Proof. split; [reflexivity|]. eexists. split; vm_compute; reflexivity. Qed.
Print Assumptions C59_stretched_single_refuted.

(** ** Non-vacuity *)
Example C59_example_agrees : ScipyAgrees np59 sc59.
Proof. intros o x y v. unfold np59. destruct (_ && _ && _); [discriminate|]. intros E. injection E as E. exact E. Qed.
Example C59_example_sum : exists r, op59 false Add s59 (SpSparse b59) = Ok r /\ val (NZ 0) r 0 0 = NZ 10 /\ val (NZ 0) r 0 1 = NZ 3.
Proof. eexists. repeat split; vm_compute; reflexivity. Qed.
Example C59_example_difference : (* zeros are not stored *)
  exists r, op59 false Sub b59 (SpSparse b59) = Ok r /\ ents r = [].
Proof. eexists. repeat split; vm_compute; reflexivity. Qed.
Example C59_example_quotient : exists r, op59 false Floordiv s59 (SpSparse b59) = Ok r /\ val (NZ 0) r 0 0 = NZ 1 /\ val (NZ 0) r 0 1 = NZ 0.
Proof. eexists. repeat split; vm_compute; reflexivity. Qed.
Example C59_example_remainder : exists r, op59 false Mod b59 (SpSparse b59) = Ok r /\ ents r = [].
Proof. eexists. repeat split; vm_compute; reflexivity. Qed.
Example C59_example_scalar : exists r, op59 false Add s59 (SpScalar (NZ 2)) = Ok r /\ val (NZ 0) r 0 0 = NZ 8 /\ val (NZ 0) r 0 1 = NZ 2.
Proof. eexists. repeat split; vm_compute; reflexivity. Qed.
Example C59_example_stretch :
  exists r, stretchSparse num (NZ 0) (NZ 1) NNan pos59 np59 sc59 (fun x => x) Sub false b59 (mkSp 2 2 [mkE 1 0 (NZ 1)] None None) = Ok r /\ val (NZ 0) r 1 0 = NZ 3 /\ val (NZ 0) r 0 1 = NZ 3.
Proof. eexists. repeat split; vm_compute; reflexivity. Qed.
