(** Independent specification for C40-C43. *)
From Verif Require Import Base CalcModel.
From Coq Require Import QArith Qabs.
Open Scope list_scope.
Open Scope nat_scope.

(** number of points predicted right / wrong *)
Definition numCorrect {L} {EL : EqDec L} (known pred : list L) : nat :=
  List.length (filter (fun p => eqbd (fst p) (snd p)) (combine known pred)).
Definition numWrong {L} {EL : EqDec L} (known pred : list L) : nat :=
  List.length (filter (fun p => negb (eqbd (fst p) (snd p))) (combine known pred)).
(** cell (p, k) of [m] counts the points predicted labels[p] and known labels[k] *)
Definition isConfusion {L} {EL : EqDec L} (labels known pred : list L) (m : matrix) : Prop :=
  List.length m = List.length labels /\
  (forall r, In r m -> List.length r = List.length labels) /\
  forall p k lp lk, nth_error labels p = Some lp -> nth_error labels k = Some lk ->
    nth k (nth p m []) 0 = List.length (filter (fun q => eqbd (fst q) lk && eqbd (snd q) lp) (combine known pred)).
Definition total (m : matrix) : nat := list_sum (map (@list_sum) m).
Definition trace (m : matrix) : nat := list_sum (map (fun i => nth i (nth i m []) 0) (seq 0 (List.length m))).

(** sums of squared / absolute differences of (known, predicted) pairs *)
Definition sqs (l : list (Q * Q)) : Q := qsum (map (fun p => (snd p - fst p) * (snd p - fst p))%Q l).
Definition abss (l : list (Q * Q)) : Q := qsum (map (fun p => Qabs (snd p - fst p)) l).
(** the integers 0 .. n-1 *)
Definition indices (n : nat) : list Z := map Z.of_nat (seq 0 n).
(** number of points known [k] and predicted [p] *)
Definition countBoth (known pred : list Z) (k p : Z) : nat :=
  List.length (filter (fun q => eqbd (fst q) k && eqbd (snd q) p) (combine known pred)).

(** C43 *)
Definition nonincreasing (l : list Q) : Prop :=
  forall i j x y, i <= j -> nth_error l i = Some x -> nth_error l j = Some y -> (y <= x)%Q.
Definition nondecreasing (l : list Q) : Prop :=
  forall i j x y, i <= j -> nth_error l i = Some x -> nth_error l j = Some y -> (x <= y)%Q.

(** C41 *)
Definition numLess (v : Q) (arr : list (option Q)) : nat :=
  List.length (filter (fun x => match x with Some y => negb (Qle_bool v y) | None => false end) arr).
Definition numEq (v : Q) (arr : list (option Q)) : nat :=
  List.length (filter (fun x => match x with Some y => Qeq_bool y v | None => false end) arr).
Definition numPresent (arr : list (option Q)) : nat :=
  List.length (filter (fun x => match x with Some _ => true | None => false end) arr).
(** sorting order with missing values last *)
Definition leOpt (x y : option Q) : Prop :=
  match x, y with
  | Some a, Some b => (a <= b)%Q
  | _, None => True
  | None, Some _ => False
  end.
Definition isArgsort (arr : list (option Q)) (order : list nat) : Prop :=
  Permutation order (seq 0 (List.length arr)) /\
  forall a b i j x y, a < b -> nth_error order a = Some i -> nth_error order b = Some j ->
    nth_error arr i = Some x -> nth_error arr j = Some y -> leOpt x y.
(** the documented percentile *)
Definition percentileOf (arr : list (option Q)) (v : Q) : Q :=
  ((qnat (numLess v arr) + (qnat (numEq v arr) - 1) / 2) / (qnat (numPresent arr) - 1))%Q.

Definition numMissing (arr : list (option Q)) : nat := List.length (filter isNan arr).

(** C42: [l] is the dense form of [s]; storage holds exactly the nonzero values *)
Definition denseOf (s : spvec) (l : list (option Q)) : Prop :=
  List.length l = spLen s /\
  Permutation (spStored s) (filter (fun x => match x with Some q => negb (Qeq_bool q 0) | None => true end) l).
Definition optQeq (a b : option Q) : Prop :=
  match a, b with Some x, Some y => (x == y)%Q | None, None => True | _, _ => False end.
Definition denseOfV {V} {EV : EqDec V} (zero : V) (len : nat) (stored l : list (option V)) : Prop :=
  List.length l = len /\ Permutation stored (filter (fun x => negb (eqbd x (Some zero))) l).
(** [v] is the middle (left of middle) of the sorted most frequent values *)
Definition isMode {V} {EV : EqDec V} (leb : V -> V -> bool) (vals : list V) (v : V) : Prop :=
  exists modes, NoDup modes /\
    (forall x, In x modes <-> In x vals /\ forall y, count_occ eq_dec vals y <= count_occ eq_dec vals x) /\
    (forall a b x y, a < b -> nth_error modes a = Some x -> nth_error modes b = Some y -> leb x y = true) /\
    nth_error modes ((List.length modes - 1) / 2) = Some v.
