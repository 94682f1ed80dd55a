(** features.normalize (C83). *)
From Verif Require Import Base NamesModel NamesSpec NamesProofs NamesIndexProofs TableModel TableSpec TableProofs TablePermProofs TableOps TableSortProofs TableInsertProofs TableOpsProofs TableOps3Proofs NormModel NormSpec.
From Coq Require Import String Ascii. From Coq Require Import List. Import ListNotations.
Open Scope nat_scope.

Section N.
Variable V : Type.
Implicit Types t : table V.

Lemma featureIs_vec t j w : wf t -> FeatureIs t j w <-> nth_error (vectors Fts t) j = Some w.
Proof.
  intros W. split.
  - intros (J & L & H). pose proof (vec_nth V Fts t j W J) as E. rewrite E. f_equal.
    pose proof (vector_len V Fts t j _ W E) as LV. apply list_ext_len; [cbn [offax] in LV; congruence|].
    intros i. rewrite (vectors_cell V Fts t j _ i W E). destruct (Nat.lt_ge_cases i (alen (tp t))) as [I|I]; [apply H; exact I|].
    transitivity (@None V); [|symmetry; apply nth_error_None; lia].
    rewrite <- (vectors_cell V Fts t j _ i W E). apply nth_error_None. cbn [offax] in LV. lia.
  - intros E. assert (J : j < alen (tf t)).
    { destruct (Nat.lt_ge_cases j (alen (tf t))) as [J|J]; [exact J|]. rewrite vectors_Fts_nth in E. apply Nat.ltb_ge in J. rewrite J in E. discriminate. }
    split; [exact J|]. split; [exact (vector_len V Fts t j _ W E)|]. intros i I. symmetry. exact (vectors_cell V Fts t j _ i W E).
Qed.
Lemma featureIs_vec_self t j : wf t -> j < alen (tf t) -> FeatureIs t j (vec Fts t j).
Proof. intros W J. apply featureIs_vec; [exact W|]. exact (vec_nth V Fts t j W J). Qed.
Lemma featureIs_fun t j w w' : wf t -> FeatureIs t j w -> FeatureIs t j w' -> w = w'.
Proof. intros W A B. apply (featureIs_vec t j w W) in A. apply (featureIs_vec t j w' W) in B. congruence. Qed.
Lemma featureIs_set t j n i w : wf t -> j < alen (tf t) -> List.length n = alen (tp t) ->
  FeatureIs (setVec Fts t j n) i w <-> (i = j /\ w = n) \/ (i <> j /\ FeatureIs t i w).
Proof.
  intros W J L. rewrite (featureIs_vec (setVec Fts t j n)) by (apply setVec_wf; auto). rewrite (featureIs_vec t) by exact W.
  rewrite setVec_vectors by auto. rewrite nth_error_upd.
  assert (LL : j <? List.length (vectors Fts t) = true) by (cbn [vectors]; rewrite map_length, seq_length; apply Nat.ltb_lt; exact J).
  rewrite LL. destruct (Nat.eq_dec j i) as [<-|N].
  - split; [intros [= <-]; left; auto|]. intros [[_ ->]|[C _]]; [reflexivity|congruence].
  - split; [intros H; right; split; [congruence|exact H]|]. intros [[C _]|[_ H]]; [congruence|exact H].
Qed.

Lemma loop_other (n : list V) j : forall m a t, (j < a \/ a + m <= j) -> transformLoop Fts (fun _ => Ok n) (Some [j]) (seq a m) t = (t, Ok tt).
Proof.
  induction m as [|m IH]; intros a t H; cbn [seq transformLoop]; [reflexivity|].
  assert (E : mem a [j] = false). { apply Bool.not_true_iff_false. intros C. apply mem_In in C. destruct C as [C|[]]. lia. }
  rewrite E. cbn [negb]. apply IH. lia.
Qed.
Lemma loop_at (n : list V) j : forall m a t, a <= j < a + m ->
  transformLoop Fts (fun _ => Ok n) (Some [j]) (seq a m) t = if List.length n =? alen (tp t) then (setVec Fts t j n, Ok tt) else (t, Err InvalidArgumentValue).
Proof.
  induction m as [|m IH]; intros a t H; [lia|]. cbn [seq transformLoop]. destruct (Nat.eq_dec a j) as [->|N].
  - assert (E : mem j [j] = true) by (apply mem_In; left; reflexivity). rewrite E. cbn [negb offax]. destruct (List.length n =? alen (tp t)); [|reflexivity].
    apply loop_other. lia.
  - assert (E : mem a [j] = false). { apply Bool.not_true_iff_false. intros C. apply mem_In in C. destruct C as [C|[]]. lia. }
    rewrite E. cbn [negb]. apply IH. lia.
Qed.
Lemma step_spec (n : list V) j t : wf t -> 0 < alen (tp t) -> j < alen (tf t) ->
  transform Fts (fun _ => Ok n) (Some [IdInt (Z.of_nat j)]) t = if List.length n =? alen (tp t) then (setVec Fts t j n, Ok tt) else (t, Err InvalidArgumentValue).
Proof.
  intros W P J. unfold transform. replace (alen (tp t) =? 0) with false by (symmetry; apply Nat.eqb_neq; lia).
  replace (alen (tf t) =? 0) with false by (symmetry; apply Nat.eqb_neq; lia). cbn [orb].
  assert (E : constructIndices (ax Fts t) [IdInt (Z.of_nat j)] = Ok [j]).
  { apply constructIndices_Denotes; [apply wf_Inv; exact W|]. constructor; [|constructor]. left. cbn [ax]. lia. }
  rewrite E. apply loop_at. cbn [ax]. lia.
Qed.

Lemma asked_dec only j : Asked only j \/ ~ Asked only j.
Proof. destruct only as [l|]; cbn; [|auto]. destruct (in_dec Nat.eq_dec j l); auto. Qed.
Lemma asked_mem only j : (if match only with None => true | Some l => mem j l end then Asked only j else ~ Asked only j).
Proof.
  destruct only as [l|]; cbn [Asked]; [|exact I]. destruct (mem j l) eqn:E; [apply mem_In; exact E|].
  intros C. apply mem_In in C. congruence.
Qed.

Lemma normalized2_0 f only t1 t2 : wf t1 -> wf t2 -> Normalized2 f only 0 t1 t2 t1 t2.
Proof.
  intros W1 W2. split; [repeat split; apply W1|]. split; [repeat split; apply W2|]. intros j w1 w2 A B. split; [lia|]. auto.
Qed.
Lemma normalized2_S f only k t10 t20 t1 t2 w1 w2 n1 n2 : k < alen (tf t10) -> alen (tf t10) = alen (tf t20) -> wf t10 -> wf t20 ->
  Normalized2 f only k t10 t20 t1 t2 -> FeatureIs t10 k w1 -> FeatureIs t20 k w2 -> Asked only k -> f w1 w2 = Ok (n1, n2) ->
  List.length n1 = alen (tp t10) -> List.length n2 = alen (tp t20) ->
  Normalized2 f only (S k) t10 t20 (setVec Fts t1 k n1) (setVec Fts t2 k n2).
Proof.
  intros K EQ W10 W20 ((W1 & P1 & F1) & (W2 & P2 & F2) & H) A1 A2 AK E L1 L2.
  assert (K1 : k < alen (tf t1)) by (rewrite F1; lia). assert (K2 : k < alen (tf t2)) by (rewrite F2; lia).
  assert (M1 : List.length n1 = alen (tp t1)) by (rewrite P1; exact L1). assert (M2 : List.length n2 = alen (tp t2)) by (rewrite P2; exact L2).
  split; [split; [apply setVec_wf; auto|split; [exact P1|exact F1]]|]. split; [split; [apply setVec_wf; auto|split; [exact P2|exact F2]]|].
  intros j v1 v2 B1 B2. destruct (H j v1 v2 B1 B2) as [D U]. split.
  - intros J AJ. destruct (Nat.eq_dec j k) as [->|N].
    + rewrite (featureIs_fun t10 k v1 w1 W10 B1 A1), (featureIs_fun t20 k v2 w2 W20 B2 A2). exists n1, n2. split; [exact E|].
      split; apply featureIs_set; auto.
    + destruct (D ltac:(lia) AJ) as (m1 & m2 & Em & C1 & C2). exists m1, m2. split; [exact Em|].
      split; apply featureIs_set; auto.
  - intros J. assert (N : j <> k) by (destruct J as [J|J]; [lia|intros ->; contradiction]).
    destruct U as [C1 C2]; [destruct J; [left; lia|right; assumption]|]. split; apply featureIs_set; auto.
Qed.
Lemma normalized2_skip f only k t10 t20 t1 t2 : Normalized2 f only k t10 t20 t1 t2 -> ~ Asked only k -> Normalized2 f only (S k) t10 t20 t1 t2.
Proof.
  intros (S1 & S2 & H) N. split; [exact S1|]. split; [exact S2|]. intros j w1 w2 A B. destruct (H j w1 w2 A B) as [D U]. split.
  - intros J AJ. apply D; [|exact AJ]. destruct (Nat.eq_dec j k) as [->|]; [contradiction|lia].
  - intros [J|J]; apply U; [left; lia|right; exact J].
Qed.

Lemma pairLoop_spec f only t10 t20 : wf t10 -> wf t20 -> 0 < alen (tp t10) -> 0 < alen (tp t20) -> alen (tf t10) = alen (tf t20) ->
  forall n a t1 t2, Normalized2 f only a t10 t20 t1 t2 -> a + n = alen (tf t10) ->
  match pairLoop f only (seq a n) t1 t2 with
  | (t1', t2', Ok _) => Normalized2 f only (a + n) t10 t20 t1' t2'
  | (t1', t2', Err e) => exists k, a <= k < a + n /\ Stopped2 f only k e t10 t20 t1' t2'
  end.
Proof.
  intros W10 W20 P10 P20 EQ. induction n as [|n IH]; intros a t1 t2 HN HA; cbn [seq pairLoop].
  - rewrite Nat.add_0_r. exact HN.
  - pose proof (asked_mem only a) as AM. destruct (match only with None => true | Some l => mem a l end).
    2:{ specialize (IH (S a) t1 t2 (normalized2_skip _ _ _ _ _ _ _ HN AM) ltac:(lia)). rewrite Nat.add_succ_r. cbn in IH.
        destruct (pairLoop f only (seq (S a) n) t1 t2) as [[t1' t2'] [u|e]]; [exact IH|]. destruct IH as (k & K & S). exists k. split; [lia|exact S]. }
    pose proof HN as ((W1 & P1 & F1) & (W2 & P2 & F2) & H).
    assert (A1 : a < alen (tf t1)) by (rewrite F1; lia). assert (A2 : a < alen (tf t2)) by (rewrite F2; lia).
    pose proof (featureIs_vec_self t10 a W10 ltac:(lia)) as B10. pose proof (featureIs_vec_self t20 a W20 ltac:(lia)) as B20.
    destruct (H a _ _ B10 B20) as [_ U]. destruct U as [C1 C2]; [left; lia|].
    assert (E1 : vec Fts t1 a = vec Fts t10 a) by (apply (featureIs_fun t1 a); auto using featureIs_vec_self).
    assert (E2 : vec Fts t2 a = vec Fts t20 a) by (apply (featureIs_fun t2 a); auto using featureIs_vec_self).
    rewrite E1, E2. destruct (f (vec Fts t10 a) (vec Fts t20 a)) as [[n1 n2]|e] eqn:EF.
    2:{ exists a. split; [lia|]. split; [exact AM|]. exists (vec Fts t10 a), (vec Fts t20 a). split; [exact B10|]. split; [exact B20|]. left. split; [exact EF|exact HN]. }
    rewrite (step_spec n1 a t1 W1) by (rewrite ?P1; lia || exact A1). rewrite P1. destruct (List.length n1 =? alen (tp t10)) eqn:L1.
    2:{ apply Nat.eqb_neq in L1. exists a. split; [lia|]. split; [exact AM|]. exists (vec Fts t10 a), (vec Fts t20 a). split; [exact B10|]. split; [exact B20|]. right.
        split; [reflexivity|]. exists n1, n2. split; [exact EF|]. left. split; [exact L1|exact HN]. }
    apply Nat.eqb_eq in L1.
    rewrite (step_spec n2 a t2 W2) by (rewrite ?P2; lia || exact A2). rewrite P2. destruct (List.length n2 =? alen (tp t20)) eqn:L2.
    2:{ apply Nat.eqb_neq in L2. exists a. split; [lia|]. split; [exact AM|]. exists (vec Fts t10 a), (vec Fts t20 a). split; [exact B10|]. split; [exact B20|]. right.
        split; [reflexivity|]. exists n1, n2. split; [exact EF|]. right. split; [exact L1|]. split; [exact L2|]. exists t1. split; [exact HN|].
        assert (M1 : List.length n1 = alen (tp t1)) by (rewrite P1; exact L1).
        split; [split; [apply setVec_wf; auto|split; [exact P1|exact F1]]|]. split; [apply featureIs_set; auto|]. intros j w NJ FJ. apply featureIs_set; auto. }
    apply Nat.eqb_eq in L2.
    specialize (IH (S a) _ _ (normalized2_S f only a t10 t20 t1 t2 _ _ n1 n2 ltac:(lia) EQ W10 W20 HN B10 B20 AM EF L1 L2) ltac:(lia)).
    rewrite Nat.add_succ_r. cbn in IH. destruct (pairLoop f only (seq (S a) n) (setVec Fts t1 a n1) (setVec Fts t2 a n2)) as [[t1' t2'] [u|e]]; [exact IH|].
    destruct IH as (k & K & S). exists k. split; [lia|exact S].
Qed.

Lemma namesDiffer_spec a b : namesDiffer a b = false <-> NamesAgree a b.
Proof.
  unfold namesDiffer, NamesAgree, getNamesNoGeneration. destruct (namesCreated a), (namesCreated b); try (split; [intros _ C D; discriminate|reflexivity]).
  destruct (eqbd (getNames a) (getNames b)) eqn:E; cbn [negb].
  - apply eqbd_true in E. split; auto.
  - apply eqbd_false in E. split; [discriminate|]. intros H. destruct E. auto.
Qed.
Lemma stands_pair a features only : Inv a -> (forall id, features <> FOne id) -> Stands a features only -> pairFeatures a features = Ok only.
Proof.
  intros I NO H. destruct features as [|id|ids]; cbn in H.
  - destruct only; [contradiction|reflexivity].
  - destruct (NO id eq_refl).
  - destruct only as [l|]; [|contradiction]. cbn [pairFeatures]. apply (constructIndices_Denotes _ _ _ I) in H. rewrite H. reflexivity.
Qed.

Lemma normalizeBoth_spec f features only t1 t2 : wf t1 -> wf t2 -> 0 < alen (tp t1) -> 0 < alen (tp t2) ->
  alen (tf t1) = alen (tf t2) -> NamesAgree (tf t1) (tf t2) -> (forall id, features <> FOne id) -> Stands (tf t1) features only ->
  match normalizeBoth f features t1 t2 with
  | (t1', t2', Ok _) => Normalized2 f only (alen (tf t1)) t1 t2 t1' t2'
  | (t1', t2', Err e) => exists k, k < alen (tf t1) /\ Stopped2 f only k e t1 t2 t1' t2'
  end.
Proof.
  intros W1 W2 P1 P2 EQ NA NO ST. unfold normalizeBoth. rewrite EQ, Nat.eqb_refl. cbn [negb]. rewrite <- EQ.
  apply namesDiffer_spec in NA. rewrite NA. rewrite (stands_pair (tf t1) _ _ (wf_Inv _ Fts t1 W1) NO ST).
  pose proof (pairLoop_spec f only t1 t2 W1 W2 P1 P2 EQ (alen (tf t1)) 0 t1 t2 (normalized2_0 f only t1 t2 W1 W2) eq_refl) as H.
  destruct (pairLoop f only (seq 0 (alen (tf t1))) t1 t2) as [[t1' t2'] [u|e]]; [exact H|]. destruct H as (k & K & S). exists k. split; [lia|exact S].
Qed.
Lemma normalizeBoth_accepts f features only t1 t2 : wf t1 -> wf t2 -> 0 < alen (tp t1) -> 0 < alen (tp t2) ->
  alen (tf t1) = alen (tf t2) -> NamesAgree (tf t1) (tf t2) -> (forall id, features <> FOne id) -> Stands (tf t1) features only ->
  (forall j w1 w2, Asked only j -> FeatureIs t1 j w1 -> FeatureIs t2 j w2 ->
     exists n1 n2, f w1 w2 = Ok (n1, n2) /\ List.length n1 = alen (tp t1) /\ List.length n2 = alen (tp t2)) ->
  exists t1' t2', normalizeBoth f features t1 t2 = (t1', t2', Ok tt) /\ Normalized2 f only (alen (tf t1)) t1 t2 t1' t2'.
Proof.
  intros W1 W2 P1 P2 EQ NA NO ST TOT. pose proof (normalizeBoth_spec f features only t1 t2 W1 W2 P1 P2 EQ NA NO ST) as H.
  destruct (normalizeBoth f features t1 t2) as [[t1' t2'] [[]|e]]; [exists t1', t2'; split; [reflexivity|exact H]|]. exfalso.
  destruct H as (k & K & AK & w1 & w2 & A & B & C). destruct (TOT k w1 w2 AK A B) as (n1 & n2 & E & L1 & L2).
  destruct C as [[C _]|(_ & m1 & m2 & C & D)]; [congruence|]. rewrite E in C. injection C as <- <-. destruct D as [[D _]|(_ & D & _)]; contradiction.
Qed.
Lemma normalizeBoth_refuses f features t1 t2 :
  alen (tf t1) <> alen (tf t2) \/ ~ NamesAgree (tf t1) (tf t2) ->
  normalizeBoth f features t1 t2 = (t1, t2, Err InvalidArgumentValue).
Proof.
  intros H. unfold normalizeBoth. destruct (alen (tf t1) =? alen (tf t2)) eqn:E; cbn [negb]; [|reflexivity].
  apply Nat.eqb_eq in E. destruct H as [H|H]; [contradiction|]. destruct (namesDiffer (tf t1) (tf t2)) eqn:D; [reflexivity|]. apply namesDiffer_spec in D. contradiction.
Qed.
Lemma normalizeBoth_unknown f ids t1 t2 : wf t1 -> alen (tf t1) = alen (tf t2) -> NamesAgree (tf t1) (tf t2) ->
  (exists id, In id ids /\ forall i, ~ Denotes (tf t1) false id (Z.of_nat i)) ->
  exists e, normalizeBoth f (FMany ids) t1 t2 = (t1, t2, Err e) .
Proof.
  intros W EQ NA (id & I & N). unfold normalizeBoth. rewrite EQ, Nat.eqb_refl. cbn [negb]. apply namesDiffer_spec in NA. rewrite NA. cbn [pairFeatures].
  destruct (constructIndices (tf t1) ids) as [l|e] eqn:E; cbn [rmap]; [|exists e; reflexivity]. exfalso.
  apply (constructIndices_Denotes _ _ _ (wf_Inv _ Fts t1 W)) in E. clear - I N E. induction E as [|x i ids l D E IH]; [contradiction|]. destruct I as [->|I]; [exact (N i D)|auto].
Qed.

(** ** without applyResultTo *)
Lemma normalizeOne_spec f features only t : wf t -> 0 < alen (tp t) -> 0 < alen (tf t) -> Stands (tf t) features only ->
  match normalizeOne f features t with
  | (t', Ok _) => Normalized1 f only (alen (tf t)) t t'
  | (t', Err e) => exists k w, k < alen (tf t) /\ Asked only k /\ FeatureIs t k w /\ Normalized1 f only k t t' /\
      (f w = Err e \/ (e = InvalidArgumentValue /\ exists n, f w = Ok n /\ List.length n <> alen (tp t)))
  end.
Proof.
  intros W P F ST. assert (LD : limitDenotes (tf t) (limitOf features) only).
  { destruct features as [|id|ids], only as [l|]; cbn in ST |- *; try contradiction; auto. destruct ST as (i & -> & D). constructor; [exact D|constructor]. }
  pose proof (transform_spec V Fts f (limitOf features) only t W P F LD) as H. cbv zeta in H. destruct H as [HO HE]. cbn [ax offax] in HO, HE.
  assert (TR : forall k t', transformedUpTo V Fts f only k t t' -> Normalized1 f only k t t').
  { intros k t' (W' & EP & EF & H). split; [split; [exact W'|split; [exact EP|exact EF]]|]. intros j w A. apply (featureIs_vec t j w W) in A.
    destruct (H j w A) as [D U]. split.
    - intros J AJ. destruct (D J AJ) as (n & E & _ & X). exists n. split; [exact E|]. apply featureIs_vec; assumption.
    - intros J. apply featureIs_vec; [exact W'|]. apply U. exact J. }
  unfold normalizeOne. destruct (transform Fts f (limitOf features) t) as [t' [u|e]]; cbn [fst snd] in HO, HE.
  - destruct u. apply TR. auto.
  - destruct (HE e eq_refl) as (k & v & K & T & E & C & G). exists k, v. split; [exact K|]. split; [exact C|]. split; [apply featureIs_vec; assumption|]. split; [apply TR; exact T|exact G].
Qed.
End N.
Lemma normalizeOne_accepts V (f : fun1 V) features only t : wf t -> 0 < alen (tp t) -> 0 < alen (tf t) -> Stands (tf t) features only ->
  (forall j w, Asked only j -> FeatureIs t j w -> exists n, f w = Ok n /\ List.length n = alen (tp t)) ->
  exists t', normalizeOne f features t = (t', Ok tt) /\ Normalized1 f only (alen (tf t)) t t'.
Proof.
  intros W P F ST TOT. pose proof (normalizeOne_spec V f features only t W P F ST) as H.
  destruct (normalizeOne f features t) as [t' [[]|e]]; [exists t'; split; [reflexivity|exact H]|]. exfalso.
  destruct H as (k & w & _ & AK & A & _ & C). destruct (TOT k w AK A) as (n & E & L).
  destruct C as [C|(_ & m & C & D)]; [congruence|]. rewrite E in C. injection C as <-. contradiction.
Qed.
