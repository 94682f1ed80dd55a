(** Specification vocabulary for multiclass strategies (C67). *)
From Verif Require Import Base NamesModel NamesSpec TableModel TableSpec MatchModel MatchSpec.
From Coq Require Import QArith Sorted.
Open Scope list_scope. Open Scope nat_scope.

(** [s] lists the distinct labels of [l] in some order. *)
Definition LabelSet (l s : list pval) : Prop :=
  (forall v, In v s -> In v l) /\
  (forall v, In v l -> exists w, In w s /\ Same w v) /\
  (forall i j v w, nth_error s i = Some v -> nth_error s j = Some w -> Same v w -> i = j).
(** [y'] is [y] with 1 where the label is [l] and 0 elsewhere. *)
Definition Relabelled (y : table pval) (l : pval) (y' : table pval) : Prop :=
  wf y' /\ alen (tp y') = alen (tp y) /\ alen (tf y') = alen (tf y) /\
  forall i j v, cell y i j = Some v -> exists w, cell y' i j = Some w /\
    (Same v l /\ Same w (PInt 1) \/ ~ Same v l /\ Same w (PInt 0)).
(** The first position of the highest number of a row. *)
Definition FirstBest (row : list pval) (i : nat) : Prop :=
  exists v q, nth_error row i = Some v /\ IsNumber v q /\
    (forall j w p, nth_error row j = Some w -> IsNumber w p -> (p <= q)%Q) /\
    (forall j w p, j < i -> nth_error row j = Some w -> IsNumber w p -> (p < q)%Q).
(** The results of the learners on a test set of [n] points: one column each,
    all with the same point names. *)
Definition OneColumn (n : nat) (pnames : list (option string)) (r : table pval) : Prop :=
  wf r /\ alen (tp r) = n /\ alen (tf r) = 1 /\ getNames (tp r) = pnames.
Definition NumberCells (r : table pval) : Prop := forall i j v, cell r i j = Some v -> exists q, IsNumber v q.
(** The row of the answers of all learners for point [i]. *)
Definition AnswersFor (rs : list (table pval)) (i : nat) (row : list pval) : Prop :=
  Forall2 (fun r v => cell r i 0 = Some v) rs row.
(** [r] has these features, [n] points without names, and [P i row] for the
    row of every point. *)
Definition NewTable (r : table pval) (n : nat) (names : list string) (P : nat -> list pval -> Prop) : Prop :=
  wf r /\ tp r = fresh n /\ getNames (tf r) = map Some names /\
  forall i row, nth_error (rows r) i = Some row -> P i row.
(** how often a label occurs *)
Inductive Votes (l : pval) : list pval -> nat -> Prop :=
| v_nil : Votes l [] 0
| v_yes x row n : Same l x -> Votes l row n -> Votes l (x :: row) (S n)
| v_no x row n : ~ Same l x -> Votes l row n -> Votes l (x :: row) n.
(** A label of the row that no label beats in votes and that, among such labels,
    occurs first. *)
Definition MostVoted (row : list pval) (l : pval) (n : nat) : Prop :=
  Votes l row n /\ (forall x m, In x row -> Votes x row m -> m <= n) /\
  exists i, nth_error row i = Some l /\ forall j x, j < i -> nth_error row j = Some x -> ~ Votes x row n.

(** Pairwise scores of one point for labels 0 .. n-1: [score a b] for a < b,
    positive when a wins, stored in the order (0,1), (0,2), ..., (1,2), ... *)
Definition PairScores (n : nat) (r : list Z) (score : nat -> nat -> Z) : Prop :=
  exists pairs, List.length pairs = List.length r /\
    (forall k a b, nth_error pairs k = Some (a, b) -> a < b < n /\ nth_error r k = Some (score a b)) /\
    (forall a b, a < b < n -> exists k, nth_error pairs k = Some (a, b)) /\
    StronglySorted (fun p q => fst p < fst q \/ fst p = fst q /\ snd p < snd q) pairs.
Definition Beats (score : nat -> nat -> Z) (k j : nat) : Prop :=
  (k < j /\ (0 < score k j)%Z) \/ (j < k /\ (score j k < 0)%Z).
