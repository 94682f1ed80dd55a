From Verif Require Import Base NamesModel NamesSpec TableModel TableSpec TableProofs TableOps SparseModel IdentModel.

Lemma unequalFromLeft_nil l : forall i r, List.length l = List.length r ->
  (unequalFromLeft i l r = [] <-> forall j s, nth_error l j = Some (Some s) -> nth_error r j = Some (Some s)).
Proof.
  induction l as [|a l IH]; intros i [|b r] HL; simpl in HL; try discriminate.
  - split; [intros _ [|j] s; discriminate|auto].
  - injection HL as HL. destruct a as [x|]; simpl.
    + destruct (eqbd b (Some x)) eqn:E; simpl.
      * apply eqbd_true in E. subst b. rewrite IH by auto. split.
        -- intros H [|j] s; simpl; auto.
        -- intros H j s Hj. apply (H (S j)); auto.
      * split; [discriminate|]. intros H. apply eqbd_false in E. specialize (H 0 x eq_refl). simpl in H. congruence.
    + rewrite IH by auto. split.
      * intros H [|j] s; simpl; [discriminate|auto].
      * intros H j s Hj. apply (H (S j)); auto.
Qed.
Lemma unequalNames_nil l r : List.length l = List.length r -> (unequalNames l r = [] <-> l = r).
Proof.
  intros HL. unfold unequalNames. split.
  - intros H. apply app_eq_nil in H. destruct H as [A B].
    rewrite unequalFromLeft_nil in A, B by auto.
    apply nth_error_ext_len; auto. intros i Hi.
    destruct (nth_error_is_some l (i:=i) Hi) as [a Ea]. destruct (nth_error_is_some r (i:=i)) as [b Eb]; [lia|].
    rewrite Ea, Eb. destruct a as [x|].
    + apply A in Ea. congruence.
    + destruct b as [y|]; auto. apply B in Eb. congruence.
  - intros ->. assert (forall i, unequalFromLeft i r r = []) as H by (intros; apply unequalFromLeft_nil; auto).
    rewrite !H. auto.
Qed.
Lemma allNone_spec l : allNone l = true <-> l = repeat None (List.length l).
Proof.
  induction l as [|[x|] l IH]; simpl; [tauto|split; discriminate|]. rewrite IH. split; [intros ->; rewrite repeat_length; auto|congruence].
Qed.

Lemma equalNames_spec a b : Inv a -> Inv b -> alen a = alen b ->
  (equalNames (getNamesNoGeneration a) (getNamesNoGeneration b) = true <-> getNames a = getNames b).
Proof.
  intros Ha Hb HL. pose proof (getNames_length a Ha) as La. pose proof (getNames_length b Hb) as Lb.
  unfold getNamesNoGeneration, getNames, ensure, namesCreated, names_inv, setAllDefault in *.
  destruct a as [n [[d inv]|]], b as [m [[d' inv']|]]; cbn [astate alen negb equalNames] in *.
  - rewrite andb_true_iff, Nat.eqb_eq. rewrite <- (unequalNames_nil inv inv') by congruence.
    destruct (unequalNames inv inv'); split; intros H; auto; try discriminate; [split; congruence|destruct H; discriminate].
  - rewrite allNone_spec. rewrite La, HL. tauto.
  - rewrite allNone_spec. rewrite Lb, HL. split; congruence.
  - rewrite HL. tauto.
Qed.

Section P.
Variable V : Type.
Variable same : V -> V -> bool.

Lemma sameRow_spec a : forall b, List.length a = List.length b ->
  (sameRow same a b = true <-> forall j x y, nth_error a j = Some x -> nth_error b j = Some y -> same x y = true).
Proof.
  induction a as [|x a IH]; intros [|y b] HL; simpl in HL; try discriminate.
  - simpl. split; [intros _ [|j]; discriminate|auto].
  - injection HL as HL. simpl. rewrite andb_true_iff, IH by auto. split.
    + intros [A B] [|j] u v; simpl; [intros [= <-] [= <-]; auto|eauto].
    + intros H. split; [apply (H 0); auto|]. intros j u v Hu Hv. apply (H (S j)); auto.
Qed.
Lemma sameRows_spec a : forall b f, List.length a = List.length b ->
  (forall r, In r a -> List.length r = f) -> (forall r, In r b -> List.length r = f) ->
  (sameRows same a b = true <-> forall i r r' j x y, nth_error a i = Some r -> nth_error b i = Some r' ->
      nth_error r j = Some x -> nth_error r' j = Some y -> same x y = true).
Proof.
  induction a as [|x a IH]; intros [|y b] f HL Ha Hb; simpl in HL; try discriminate.
  - simpl. split; [intros _ [|j]; discriminate|auto].
  - injection HL as HL. simpl. rewrite andb_true_iff.
    rewrite (IH b f); auto; [|intros; apply Ha; simpl; auto|intros; apply Hb; simpl; auto].
    rewrite sameRow_spec by (rewrite (Ha x), (Hb y); simpl; auto). split.
    + intros [A B] [|i] r r' j u v; simpl; [intros [= <-] [= <-]; eauto|eauto].
    + intros H. split; [intros j u v; apply (H 0 x y j u v); auto|]. intros i r r' j u v Hi Hj. apply (H (S i) r r'); auto.
Qed.

Lemma isIdentical_spec ka kb a b : wf a -> wf b ->
  (isIdentical same ka kb a b = true <->
   ka = kb /\ alen (tp a) = alen (tp b) /\ alen (tf a) = alen (tf b) /\
   getNames (tp a) = getNames (tp b) /\ getNames (tf a) = getNames (tf b) /\
   forall i j x y, cell a i j = Some x -> cell b i j = Some y -> same x y = true).
Proof.
  intros [A1 [A2 [A3 A4]]] [B1 [B2 [B3 B4]]]. unfold isIdentical.
  rewrite !andb_true_iff, !Nat.eqb_eq, eqbd_eq.
  assert (Hd : forall P Q : Prop, (alen (tp a) = alen (tp b) /\ alen (tf a) = alen (tf b) -> (P <-> Q)) ->
    ((alen (tp a) = alen (tp b) /\ alen (tf a) = alen (tf b)) /\ P <-> (alen (tp a) = alen (tp b) /\ alen (tf a) = alen (tf b)) /\ Q))
    by tauto.
  transitivity ((alen (tp a) = alen (tp b) /\ alen (tf a) = alen (tf b)) /\
    (equalNames (getNamesNoGeneration (tf a)) (getNamesNoGeneration (tf b)) = true /\
     equalNames (getNamesNoGeneration (tp a)) (getNamesNoGeneration (tp b)) = true /\ ka = kb /\ sameRows same (rows a) (rows b) = true)); [tauto|].
  transitivity ((alen (tp a) = alen (tp b) /\ alen (tf a) = alen (tf b)) /\
    (getNames (tf a) = getNames (tf b) /\ getNames (tp a) = getNames (tp b) /\ ka = kb /\
     forall i j x y, cell a i j = Some x -> cell b i j = Some y -> same x y = true)); [|tauto].
  apply Hd. intros [L1 L2]. rewrite !equalNames_spec by auto.
  rewrite (sameRows_spec (rows a) (rows b) (alen (tf a))); [|congruence|auto|intros r Hr; rewrite B2; auto].
  assert (Hc : (forall i r r' j x y, nth_error (rows a) i = Some r -> nth_error (rows b) i = Some r' ->
      nth_error r j = Some x -> nth_error r' j = Some y -> same x y = true) <->
     forall i j x y, cell a i j = Some x -> cell b i j = Some y -> same x y = true); [|tauto].
  unfold cell. split.
  - intros H i j x y. destruct (nth_error (rows a) i) eqn:E1; [|discriminate]. destruct (nth_error (rows b) i) eqn:E2; [|discriminate]. eauto.
  - intros H i r r' j x y E1 E2. specialize (H i j x y). rewrite E1, E2 in H. auto.
Qed.
Lemma copyTable_spec (t : table V) : wf t -> exists c, copyTable t = Ok c /\ wf c /\ rows c = rows t /\
  alen (tp c) = alen (tp t) /\ alen (tf c) = alen (tf t) /\
  getNames (tp c) = getNames (tp t) /\ getNames (tf c) = getNames (tf t).
Proof.
  intros [A1 [A2 [A3 A4]]]. unfold copyTable.
  destruct (copyAxis_ok (tp t) A3) as [p [E1 [P1 [P2 P3]]]]. destruct (copyAxis_ok (tf t) A4) as [f [E2 [F1 [F2 F3]]]].
  rewrite E1; cbn [rbind]. rewrite E2; cbn [rbind]. eexists. split; [reflexivity|]. cbn [tp tf rows].
  split; [|auto 10]. split; [simpl; congruence|]. split; [simpl; intros; rewrite F1; auto|auto].
Qed.
End P.
