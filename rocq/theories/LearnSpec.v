(** Independent specification for C44-C48 and C52. *)
From Verif Require Import Base LearnModel.
Open Scope list_scope.
Open Scope nat_scope.

(** C45: the value of an argument after a sequence of settings is the most
    recent one that mentions it *)
Inductive latest {V} (k : string) : list (@dict string V) -> option V -> Prop :=
| latest_nil : latest k [] None
| latest_set : forall h m v, dget k m = Some v -> latest k (h ++ [m]) (Some v)
| latest_skip : forall h m o, dget k m = None -> latest k h o -> latest k (h ++ [m]) o.

(** C48: squared euclidean distance *)
Fixpoint sqdist (a b : list Z) : Z :=
  match a, b with x :: a', y :: b' => ((x - y) * (x - y) + sqdist a' b')%Z | _, _ => 0%Z end.
(** [near] are the indices of the k smallest of [ds], in increasing order of
    (value, index) *)
Definition before (ds : list Z) (i j : nat) : Prop :=
  (nth i ds 0 < nth j ds 0)%Z \/ (nth i ds 0 = nth j ds 0)%Z /\ i < j.
Definition kNearest (k : nat) (ds : list Z) (near : list nat) : Prop :=
  List.length near = Nat.min k (List.length ds) /\
  (forall a b i j, a < b -> nth_error near a = Some i -> nth_error near b = Some j -> before ds i j) /\
  (forall i, In i near -> i < List.length ds) /\
  (forall i j, In i near -> j < List.length ds -> ~ In j near -> before ds i j).
(** [l] has the largest number of occurrences, and everything before its first
    occurrence has fewer *)
Definition modalFirst {L} {EL : EqDec L} (ordered : list L) (l : L) : Prop :=
  (forall x, count_occ eq_dec ordered x <= count_occ eq_dec ordered l) /\
  exists pre post, ordered = pre ++ l :: post /\
    forall x, In x pre -> count_occ eq_dec ordered x < count_occ eq_dec ordered l.

(** C46: [i] is the first position of a maximal score *)
Definition firstMax (row : list Z) (i : nat) : Prop :=
  exists s, nth_error row i = Some s /\
    (forall j x, nth_error row j = Some x -> (x <= s)%Z) /\
    (forall j x, j < i -> nth_error row j = Some x -> (x < s)%Z).

(** C52: call trees in which no call makes more than one nested call *)
Inductive chain : call -> Prop :=
| chain_leaf : forall n r, chain (Call n [] r)
| chain_one : forall n c r, chain c -> chain (Call n [c] r).
Definition callName (c : call) : nat := match c with Call n _ _ => n end.

(** C47: a training row, its features and its label in column [c] *)
Definition trainingRow {V} (c : nat) (row : list V) (p : list V * V) : Prop :=
  nth_error row c = Some (snd p) /\
  forall j, nth_error (fst p) j = nth_error row (if j <? c then j else S j).

(** C45: histories of retrain calls *)
Section History.
Context {V : Type} {EV : EqDec V}.
Notation args := (@dict string V).
Variable valid : args -> bool.
Variable isTune : V -> bool.
Definition retrainAll (s : tlearner V) (h : list (args * args)) : tlearner V :=
  fold_left (fun s p => fst (retrain valid isTune s (fst p) (snd p))) h s.
Definition noTune (d : args) : Prop := forall k v, In (k, v) d -> isTune v = false.
(** the trainings in a history: those whose two argument sets agree and are
    accepted by the learner *)
Definition successes (h : list (args * args)) : list args :=
  flat_map (fun p => match mergeArguments (fst p) (snd p) with
                     | Ok m => if valid m then [m] else []
                     | Err _ => [] end) h.
Definition goodCall (p : args * args) : Prop :=
  wfdict (fst p) /\ wfdict (snd p) /\ noTune (fst p) /\ noTune (snd p).
End History.

(** a sequence of user calls *)
Definition runSession (cs : list call) : list (list nat) * flag :=
  fold_left (fun acc c => let '(f, _, vs) := runCall (snd acc) c in (fst acc ++ [vs], f)) cs ([], None).

Section PairTraining.
Context {V : Type} {EV : EqDec V}.
(** [tr] is the training set of the points of [rows] whose label is one of two *)
Definition pairTraining (c : nat) (rows : list (list V)) (pr : V * V) (tr : list (list V * V)) : Prop :=
  exists sel, Permutation tr sel /\
    Forall2 (trainingRow c) (filter (fun r => match nth_error r c with
       | Some l => eqbd l (fst pr) || eqbd l (snd pr) | None => false end) rows) sel.
End PairTraining.
