(** C83 with C41: normalizing two objects to a range. *)
From Verif Require Import Base NamesModel NamesSpec NamesProofs TableModel TableSpec TableOps TableOps3Proofs CalcModel CalcNormProofs NormModel NormSpec NormProofs NormRangeModel.
From Coq Require Import QArith Lqa. From Coq Require Import List. Import ListNotations.
Open Scope nat_scope.

Lemma featureIs_exists {V} (t : table V) j : wf t -> j < alen (tf t) -> exists w, FeatureIs t j w.
Proof. intros W J. exists (vec Fts t j). apply featureIs_vec_self; assumption. Qed.
Lemma featureIs_cell {V} (t : table V) j w i x : wf t -> FeatureIs t j w -> cell t i j = Some x <-> nth_error w i = Some x.
Proof.
  intros W F. apply (featureIs_vec V t j w W) in F. rewrite (vectors_cell V Fts t j w i W F). reflexivity.
Qed.

(** Both objects normalized to a range: for each feature asked for there is one rising
    map, from the smallest and the largest element of the calling object to the ends of
    the range, that was applied to every element of it in both objects; the calling
    object's elements are inside the range.  Everything else stays.  Missing: a single
    identifier that is not in a list. *)
Theorem C83_normalize_range_partial : forall start fin features only (t1 t2 : table Q),
  wf t1 -> wf t2 -> 0 < alen (tp t1) -> 0 < alen (tp t2) -> (start <= fin)%Q ->
  alen (tf t1) = alen (tf t2) -> NamesAgree (tf t1) (tf t2) ->
  (forall id, features <> FOne id) -> Stands (tf t1) features only ->
  exists t1' t2', normalizeBoth (rangeBoth start fin) features t1 t2 = (t1', t2', Ok tt) /\
    SameAxes t1 t1' /\ SameAxes t2 t2' /\
    (forall j, j < alen (tf t1) -> Asked only j ->
      exists lo hi f, (exists i, cell t1 i j = Some lo) /\ (exists i, cell t1 i j = Some hi) /\
        (f lo == start)%Q /\ ((lo < hi)%Q -> (f hi == fin)%Q) /\ (forall x y, (x <= y)%Q -> (f x <= f y)%Q) /\
        (forall i x, cell t1 i j = Some x -> (lo <= x <= hi)%Q /\ cell t1' i j = Some (f x) /\ (start <= f x <= fin)%Q) /\
        (forall i x, cell t2 i j = Some x -> cell t2' i j = Some (f x))) /\
    (forall j, ~ Asked only j -> forall i, cell t1' i j = cell t1 i j /\ cell t2' i j = cell t2 i j).
Proof.
  intros start fin features only t1 t2 W1 W2 P1 P2 SF EQ NA NO ST.
  assert (NE : forall j w, FeatureIs t1 j w -> w <> []) by (intros j w (_ & L & _) ->; cbn in L; lia).
  destruct (normalizeBoth_accepts Q (rangeBoth start fin) features only t1 t2 W1 W2 P1 P2 EQ NA NO ST) as (t1' & t2' & E & S1 & S2 & H).
  { intros j w1 w2 _ A B. destruct (rangeNormalize_spec w1 w2 start fin (NE j w1 A) SF) as (mn & mx & f & _ & _ & _ & R & _).
    exists (map f w1), (map f w2). unfold rangeBoth. rewrite R. rewrite !map_length. destruct A as (_ & LA & _), B as (_ & LB & _). auto. }
  exists t1', t2'. split; [exact E|]. split; [exact S1|]. split; [exact S2|].
  pose proof S1 as (W1' & EP1 & EF1). pose proof S2 as (W2' & EP2 & EF2). split.
  - intros j J AJ. destruct (featureIs_exists t1 j W1 J) as [w1 A]. destruct (featureIs_exists t2 j W2 ltac:(lia)) as [w2 B].
    destruct (H j w1 w2 A B) as [D _]. destruct (D J AJ) as (n1 & n2 & R & C1 & C2).
    destruct (rangeNormalize_spec w1 w2 start fin (NE j w1 A) SF) as (mn & mx & f & I1 & I2 & BD & R' & G1 & G2 & G3 & G4).
    unfold rangeBoth in R. rewrite R' in R. injection R as <- <-.
    exists mn, mx, f. split; [apply In_nth_error in I1; destruct I1 as [i I1]; exists i; apply (featureIs_cell t1 j w1 i mn W1 A); exact I1|].
    split; [apply In_nth_error in I2; destruct I2 as [i I2]; exists i; apply (featureIs_cell t1 j w1 i mx W1 A); exact I2|].
    split; [exact G1|]. split; [exact G2|]. split; [exact G4|]. split.
    + intros i x C. apply (featureIs_cell t1 j w1 i x W1 A) in C. pose proof (nth_error_In _ _ C) as I. split; [apply BD; exact I|].
      split; [|apply G3; exact I]. apply (featureIs_cell t1' j _ i (f x) W1' C1). apply map_nth_error. exact C.
    + intros i x C. apply (featureIs_cell t2 j w2 i x W2 B) in C. apply (featureIs_cell t2' j _ i (f x) W2' C2). apply map_nth_error. exact C.
  - intros j AJ i.
    assert (OUT : forall t : table Q, wf t -> alen (tf t) <= j -> cell t i j = None).
    { intros t W J. unfold cell. destruct (nth_error (rows t) i) as [r|] eqn:Er; [|reflexivity]. apply nth_error_None. destruct W as (_ & R & _). rewrite (R r (nth_error_In _ _ Er)). exact J. }
    destruct (Nat.lt_ge_cases j (alen (tf t1))) as [J|J].
    2:{ rewrite !OUT by (rewrite ?EF1, ?EF2; try assumption; lia). split; reflexivity. }
    destruct (featureIs_exists t1 j W1 J) as [w1 A]. destruct (featureIs_exists t2 j W2 ltac:(lia)) as [w2 B].
    destruct (H j w1 w2 A B) as [_ U]. destruct U as [C1 C2]; [right; exact AJ|].
    apply (featureIs_vec Q _ _ _ W1) in A. apply (featureIs_vec Q _ _ _ W1') in C1. apply (featureIs_vec Q _ _ _ W2) in B. apply (featureIs_vec Q _ _ _ W2') in C2.
    pose proof (vectors_cell Q Fts t1 j w1 i W1 A) as X1. pose proof (vectors_cell Q Fts t1' j w1 i W1' C1) as X2.
    pose proof (vectors_cell Q Fts t2 j w2 i W2 B) as X3. pose proof (vectors_cell Q Fts t2' j w2 i W2' C2) as X4. cbn beta iota in X1, X2, X3, X4. split; congruence.
Qed.
Print Assumptions C83_normalize_range_partial.

Definition grown : table Q := mkTable (fresh 3) (fresh 2) [[2; 5]; [4; 6]; [6; 7]]%Q.
Definition other : table Q := mkTable (fresh 1) (fresh 2) [[8; 9]]%Q.
Example range_met : wf grown /\ wf other /\ (0 <= 1)%Q /\ NamesAgree (tf grown) (tf other) /\ Stands (tf grown) (FMany [IdInt 0]) (Some [0]).
Proof.
  split; [split; [reflexivity|]; split; [intros r [<-|[<-|[<-|[]]]]; reflexivity|split; exact I]|].
  split; [split; [reflexivity|]; split; [intros r [<-|[]]; reflexivity|split; exact I]|]. split; [lra|]. split; [intros C; discriminate|].
  constructor; [|constructor]. left. vm_compute. intuition congruence.
Qed.
Example range_run : exists t1' t2', normalizeBoth (rangeBoth 0 1) (FMany [IdInt 0]) grown other = (t1', t2', Ok tt) /\
  map (map Qred) (rows t1') = [[0; 5]; [1 # 2; 6]; [1; 7]]%Q /\ map (map Qred) (rows t2') = [[3 # 2; 9]]%Q.
Proof. eexists; eexists. split; [vm_compute; reflexivity|]. split; vm_compute; reflexivity. Qed.
