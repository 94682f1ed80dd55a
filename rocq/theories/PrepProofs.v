From Verif Require Import Base NamesModel NamesSpec NamesProofs TableModel TableSpec TableProofs
  TableOps TableInsertProofs TableOpsProofs TableOps3Proofs PrepModel PrepSpec.
From Coq Require Import Qround Qabs.
Open Scope nat_scope.

Lemma selected_seq {A} (l : list A) n : List.length l = n -> selected (seq 0 n) l = l.
Proof.
  intros <-. apply nth_error_ext. intros k. rewrite selected_nth.
  - rewrite nth_error_seq. destruct (Nat.ltb_spec k (List.length l)) as [H|H]; auto.
    symmetry; apply nth_error_None; auto.
  - intros i Hi. apply in_seq in Hi; lia.
Qed.
Lemma selected_of_seq idx n : (forall i, In i idx -> i < n) -> selected idx (seq 0 n) = idx.
Proof.
  intros H. apply nth_error_ext. intros k. rewrite selected_nth by (rewrite seq_length; auto).
  destruct (nth_error idx k) eqn:E; auto. rewrite nth_error_seq.
  rewrite (proj2 (Nat.ltb_lt _ _)); auto. apply H. eapply nth_error_In; eauto.
Qed.
Lemma map_fst_combine_eq {A B} (l : list A) (l' : list B) : List.length l = List.length l' -> map fst (combine l l') = l.
Proof. revert l'. induction l; intros [|]; simpl; intros H; try discriminate; auto. f_equal; auto. Qed.
Lemma map_snd_combine_eq {A B} (l : list A) (l' : list B) : List.length l = List.length l' -> map snd (combine l l') = l'.
Proof. revert l'. induction l; intros [|]; simpl; intros H; try discriminate; auto. f_equal; auto. Qed.
Lemma selected_map {A B} (f : A -> B) idx l : selected idx (map f l) = map f (selected idx l).
Proof.
  unfold selected. induction idx as [|i idx IH]; simpl; auto. rewrite IH, map_app, nth_error_map_eq.
  destruct (nth_error l i); reflexivity.
Qed.
Lemma selected_bounds {A} idx (l : list A) x : In x (selected idx l) -> In x l.
Proof.
  intros H. apply in_flat_map in H. destruct H as (i & _ & H). destruct (nth_error l i) eqn:E; [|destruct H].
  destruct H as [<-|[]]. eapply nth_error_In; eauto.
Qed.

Section S.
Variable V : Type.
Implicit Types t : table V.
Lemma cell_F t i j : wf t -> cell t i j =
  match nth_error (vectors Fts t) j with Some v => nth_error v i | None => None end.
Proof.
  intros Hw. rewrite vectors_Fts_nth. destruct (Nat.ltb_spec j (alen (tf t))) as [H|H].
  - symmetry. apply column_nth_wf; auto.
  - unfold cell. destruct (nth_error (rows t) i) eqn:E; auto. apply nth_error_None.
    destruct Hw as (_ & Hr & _). rewrite Hr; auto. eapply nth_error_In; eauto.
Qed.
Lemma items_split sd t t' idx : wf t -> wf t' -> (forall i, In i idx -> i < alen (ax sd t)) ->
  items sd t' = selected idx (items sd t) ->
  getNames (ax sd t') = selected idx (getNames (ax sd t)) /\
  vectors sd t' = selected idx (vectors sd t) /\ alen (ax sd t') = List.length idx.
Proof.
  intros Hw Hw' Hi E.
  assert (L : List.length (getNames (ax sd t)) = List.length (vectors sd t))
    by (rewrite getNames_length, vectors_length; auto; apply wf_Inv; auto).
  assert (L' : List.length (getNames (ax sd t')) = List.length (vectors sd t'))
    by (rewrite getNames_length, vectors_length; auto; apply wf_Inv; auto).
  unfold items in E. split; [|split].
  - rewrite <- (map_fst_combine_eq _ _ L'), E, <- selected_map, map_fst_combine_eq by auto. reflexivity.
  - rewrite <- (map_snd_combine_eq _ _ L'), E, <- selected_map, map_snd_combine_eq by auto. reflexivity.
  - apply (f_equal (@List.length _)) in E. rewrite combine_length, <- L', Nat.min_id in E.
    rewrite getNames_length in E by (apply wf_Inv; auto). rewrite E. apply selected_length.
    intros i Hin. rewrite combine_length, <- L, Nat.min_id, getNames_length by (apply wf_Inv; auto). auto.
Qed.
Lemma items_subTable_P t t' idx : wf t -> wf t' -> (forall i, In i idx -> i < alen (tp t)) ->
  items Pts t' = selected idx (items Pts t) -> sameOff Pts t t' ->
  subTable t idx (seq 0 (alen (tf t))) t'.
Proof.
  intros Hw Hw' Hi E [Hl Hn]. destruct (items_split Pts t t' idx Hw Hw' Hi E) as (N & Vv & L).
  cbn [ax offax] in *. split; [auto|]. split; [auto|]. split; [rewrite seq_length; auto|].
  split; [auto|]. split.
  - rewrite selected_seq; auto. apply getNames_length. apply (wf_Inv V Fts t); auto.
  - intros i j. unfold cell at 1. simpl in Vv. rewrite Vv, selected_nth by (destruct Hw as [-> _]; auto).
    destruct (nth_error idx i) as [a|] eqn:Ea; auto. rewrite nth_error_seq.
    unfold cell. destruct (nth_error (rows t) a) eqn:Er.
    + destruct (Nat.ltb_spec j (alen (tf t))) as [H|H]; auto. apply nth_error_None.
      destruct Hw as (_ & Hr & _). rewrite Hr; auto. eapply nth_error_In; eauto.
    + destruct (j <? alen (tf t)); auto.
Qed.
Lemma items_subTable_F t t' idx : wf t -> wf t' -> (forall i, In i idx -> i < alen (tf t)) ->
  items Fts t' = selected idx (items Fts t) -> sameOff Fts t t' ->
  subTable t (seq 0 (alen (tp t))) idx t'.
Proof.
  intros Hw Hw' Hi E [Hl Hn]. destruct (items_split Fts t t' idx Hw Hw' Hi E) as (N & Vv & L).
  cbn [ax offax] in *. split; [auto|]. split; [rewrite seq_length; auto|]. split; [auto|].
  split; [|split; [auto|]].
  - rewrite selected_seq; auto. apply getNames_length. apply (wf_Inv V Pts t); auto.
  - intros i j. rewrite cell_F by auto. rewrite Vv, selected_nth
      by (intros; rewrite vectors_length; auto).
    rewrite nth_error_seq. destruct (nth_error idx j) as [b|] eqn:Eb.
    + destruct (Nat.ltb_spec i (alen (tp t))) as [H|H].
      * cbn [Nat.add]. rewrite (cell_F t) by auto. reflexivity.
      * destruct (nth_error (vectors Fts t) b) as [v|] eqn:Ev; auto. apply nth_error_None.
        apply (vector_len V Fts t b v Hw) in Ev. cbn in Ev. lia.
    + destruct (i <? alen (tp t)); auto.
Qed.
Lemma subTable_trans t t1 t2 p f p' f' :
  (forall i, In i p -> i < alen (tp t)) -> (forall i, In i f -> i < alen (tf t)) ->
  (forall i, In i p' -> i < List.length p) -> (forall i, In i f' -> i < List.length f) -> wf t ->
  subTable t p f t1 -> subTable t1 p' f' t2 -> subTable t (selected p' p) (selected f' f) t2.
Proof.
  intros Hp Hf Hp' Hf' Hw (W1 & A1 & B1 & C1 & D1 & E1) (W2 & A2 & B2 & C2 & D2 & E2).
  assert (S : forall (l : list (option string)) q q' n, List.length l = n -> (forall i, In i q -> i < n) ->
     (forall i, In i q' -> i < List.length q) -> selected q' (selected q l) = selected (selected q' q) l).
  { intros l q q' n Hl Hq Hq'. apply nth_error_ext; intros k.
    rewrite selected_nth by (intros; rewrite selected_length; [auto|intros; subst; auto]).
    rewrite (selected_nth (selected q' q)).
    - rewrite (selected_nth q') by auto. destruct (nth_error q' k); auto. rewrite selected_nth; auto. intros; subst; auto.
    - intros i Hi. subst n. apply Hq. eapply selected_bounds; eauto. }
  split; [auto|]. split; [rewrite selected_length; auto|]. split; [rewrite selected_length; auto|].
  split; [|split].
  - rewrite C2, C1. apply (S _ _ _ (alen (tp t))); auto. apply getNames_length. apply (wf_Inv V Pts t); auto.
  - rewrite D2, D1. apply (S _ _ _ (alen (tf t))); auto. apply getNames_length. apply (wf_Inv V Fts t); auto.
  - intros i j. rewrite E2, !selected_nth by auto.
    destruct (nth_error p' i) as [a|]; auto.
    destruct (nth_error f' j) as [b|]; [rewrite E1; auto|].
    destruct (nth_error p a); auto.
Qed.

Lemma getIndex_nat a i fl : i < alen a -> getIndex a (IdInt (Z.of_nat i)) fl = Ok (Z.of_nat i).
Proof.
  intros H. unfold getIndex. rewrite (proj2 (Z.eqb_neq _ _)) by lia.
  rewrite (proj2 (Z.ltb_ge (Z.of_nat i) 0)) by lia.
  rewrite ?(proj2 (Z.ltb_ge (Z.of_nat i) 0)), (proj2 (Z.leb_gt _ _)) by lia. reflexivity.
Qed.
Lemma constructIndices_int a idx : (forall i, In i idx -> i < alen a) -> constructIndices a (intIds idx) = Ok idx.
Proof.
  intros H. unfold constructIndices, intIds.
  induction idx as [|i idx IH]; [reflexivity|]. cbn [map rmapM].
  rewrite getIndex_nat by (apply H; left; auto). cbn [rmap rbind].
  rewrite IH by (intros; apply H; right; auto). cbn [rbind]. rewrite Nat2Z.id. reflexivity.
Qed.
Lemma getTargets_ids sd t ids idx : constructIndices (ax sd t) ids = Ok idx -> NoDup idx ->
  getTargets sd t (TIds ids) None None None false [] = Ok idx.
Proof.
  intros E Hd. unfold getTargets, baseTargets. rewrite E. simpl.
  rewrite (proj2 (nodupb_NoDup idx)) by auto. reflexivity.
Qed.
Lemma copyIds_P t idx : wf t -> NoDup idx -> (forall i, In i idx -> i < alen (tp t)) ->
  exists t', copyIds Pts t (intIds idx) = Ok t' /\ subTable t idx (seq 0 (alen (tf t))) t'.
Proof.
  intros Hw Hd Hi. unfold copyIds. rewrite (getTargets_ids Pts t _ idx); auto.
  2: { apply constructIndices_int; auto. }
  simpl. destruct (taken_spec V Pts t idx Hw Hd Hi) as (r & E & Wr & So & L & It).
  exists r. split; auto. apply items_subTable_P; auto.
Qed.
Lemma extractIds_F t ids idx : wf t -> constructIndices (tf t) ids = Ok idx -> NoDup idx ->
  exists rest ret, extractIds Fts t ids = Ok (rest, ret) /\
    subTable t (seq 0 (alen (tp t))) idx ret /\
    subTable t (seq 0 (alen (tp t))) (without (alen (tf t)) idx) rest.
Proof.
  intros Hw E Hd. pose proof (constructIndices_range (tf t) ids idx (wf_Inv V Fts t Hw) E) as Hi.
  unfold extractIds. rewrite (getTargets_ids Fts t _ idx); auto. cbn [rbind].
  destruct (taken_spec V Fts t idx Hw Hd Hi) as (r & Er & Wr & So & L & It).
  destruct (remaining_spec V Fts t idx Hw Hd Hi) as (q & Eq & Wq & Oq & Lq & Iq).
  rewrite Er. cbn [rbind]. rewrite Eq. cbn [rbind]. exists q, r. split; auto. split; apply items_subTable_F; auto.
  - intros i Hin. apply keepIdx_range in Hin; auto.
  - rewrite Iq, survivors_keep, items_length by auto. reflexivity.
  - split; rewrite Oq; auto.
Qed.

(** rounding *)
Lemma pyround_nearest q : nearest q (pyround q).
Proof.
  unfold nearest, pyround. set (f := Qfloor q).
  assert (H1 : (inject_Z f <= q)%Q) by apply Qfloor_le.
  assert (H2 : (q < inject_Z (f + 1))%Q) by apply Qlt_floor.
  rewrite inject_Z_plus in H2. change (inject_Z 1) with 1%Q in H2.
  destruct (Qcompare_spec (q - inject_Z f) (1 # 2)) as [E|E|E].
  - destruct (Z.even f).
    + rewrite Qabs_pos; [rewrite E; apply Qle_refl|]. rewrite E. discriminate.
    + rewrite inject_Z_plus. change (inject_Z 1) with 1%Q.
      setoid_replace (q - (inject_Z f + 1))%Q with (-(1#2))%Q; [discriminate|].
      setoid_replace (q - (inject_Z f + 1))%Q with ((q - inject_Z f) - 1)%Q by ring. rewrite E. reflexivity.
  - rewrite Qabs_pos. + apply Qlt_le_weak; auto.
    + apply (Qplus_le_r _ _ (inject_Z f)). setoid_replace (inject_Z f + (q - inject_Z f))%Q with q by ring.
      rewrite Qplus_0_r. auto.
  - rewrite inject_Z_plus. change (inject_Z 1) with 1%Q.
    rewrite Qabs_neg.
    + setoid_replace (- (q - (inject_Z f + 1)))%Q with (1 - (q - inject_Z f))%Q by ring.
      apply Qlt_le_weak. apply (Qplus_lt_r _ _ (q - inject_Z f - (1#2))%Q).
      setoid_replace (q - inject_Z f - (1#2) + (1 - (q - inject_Z f)))%Q with (1#2)%Q by ring.
      setoid_replace (q - inject_Z f - (1#2) + (1#2))%Q with (q - inject_Z f)%Q by ring. auto.
    + apply (Qplus_le_r _ _ (inject_Z f + 1)).
      setoid_replace (inject_Z f + 1 + (q - (inject_Z f + 1)))%Q with q by ring.
      rewrite Qplus_0_r. apply Qlt_le_weak; auto.
Qed.
Lemma nearest_bounds q k n : nearest q k -> (0 <= q)%Q -> (q <= inject_Z n)%Q -> (0 <= k <= n)%Z.
Proof.
  unfold nearest. intros H H0 Hn. apply Qabs_Qle_condition in H. destruct H as [Ha Hb].
  assert (A : (- (1#2) <= inject_Z k)%Q).
  { apply (Qle_trans _ (q - (1#2))).
    - setoid_replace (-(1#2))%Q with (0 - (1#2))%Q by ring. apply Qplus_le_compat; [auto|apply Qle_refl].
    - apply (Qplus_le_r _ _ ((1#2) - inject_Z k)%Q).
      setoid_replace ((1 # 2) - inject_Z k + (q - (1 # 2)))%Q with (q - inject_Z k)%Q by ring.
      setoid_replace ((1 # 2) - inject_Z k + inject_Z k)%Q with (1#2)%Q by ring. auto. }
  assert (B : (inject_Z k <= inject_Z n + (1#2))%Q).
  { apply (Qle_trans _ (q + (1#2))); [|apply Qplus_le_compat; [auto|apply Qle_refl]].
    apply (Qplus_le_r _ _ (-(1#2) - inject_Z k)%Q).
    setoid_replace (- (1 # 2) - inject_Z k + inject_Z k)%Q with (-(1#2))%Q by ring.
    setoid_replace (- (1 # 2) - inject_Z k + (q + (1 # 2)))%Q with (q - inject_Z k)%Q by ring. auto. }
  unfold Qle, inject_Z in A, B. simpl in A, B. lia.
Qed.
Lemma testSize_spec f n : (0 <= f)%Q -> (f <= 1)%Q ->
  testSize f n <= n /\ nearest (f * inject_Z (Z.of_nat n)) (Z.of_nat (testSize f n)).
Proof.
  intros H0 H1. unfold testSize.
  pose proof (pyround_nearest (f * inject_Z (Z.of_nat n))) as Hn.
  assert (Hz : (0 <= inject_Z (Z.of_nat n))%Q) by (unfold Qle; simpl; lia).
  destruct (nearest_bounds _ _ (Z.of_nat n) Hn) as [A B].
  - apply Qmult_le_0_compat; auto.
  - apply (Qle_trans _ (1 * inject_Z (Z.of_nat n))); [|rewrite Qmult_1_l; apply Qle_refl].
    apply Qmult_le_compat_r; auto.
  - rewrite Z2Nat.id by auto. split; auto. lia.
Qed.

Lemma firstn_NoDup {A} n (l : list A) : NoDup l -> NoDup (firstn n l).
Proof. apply NoDup_firstn. Qed.
Lemma skipn_NoDup {A} n (l : list A) : NoDup l -> NoDup (skipn n l).
Proof. revert l; induction n; intros [|x l] H; simpl; auto. inversion H; auto. Qed.
Lemma In_firstn {A} n (l : list A) x : In x (firstn n l) -> In x l.
Proof. intros H. rewrite <- (firstn_skipn n l). apply in_or_app; auto. Qed.
Lemma In_skipn {A} n (l : list A) x : In x (skipn n l) -> In x l.
Proof. intros H. rewrite <- (firstn_skipn n l). apply in_or_app; auto. Qed.

(** ** trainAndTestSets *)
Definition splitAt t (f : Q) : nat := alen (tp t) - testSize f (alen (tp t)).
Lemma split_idx t f order : (0 <= f)%Q -> (f <= 1)%Q -> Permutation order (seq 0 (alen (tp t))) ->
  let tr := firstn (splitAt t f) order in
  let te := skipn (splitAt t f) order in
  NoDup tr /\ NoDup te /\ (forall i, In i tr -> i < alen (tp t)) /\ (forall i, In i te -> i < alen (tp t)) /\
  tr ++ te = order /\ List.length te = testSize f (alen (tp t)).
Proof.
  intros H0 H1 Hp tr te.
  assert (Hd : NoDup order) by (eapply Permutation_NoDup; [apply Permutation_sym; eauto|apply seq_NoDup]).
  assert (Hr : forall i, In i order -> i < alen (tp t)).
  { intros i Hi. eapply Permutation_in in Hi; eauto. apply in_seq in Hi. lia. }
  split; [apply firstn_NoDup; auto|]. split; [apply skipn_NoDup; auto|].
  split; [intros i Hi; apply Hr; eapply In_firstn; eauto|].
  split; [intros i Hi; apply Hr; eapply In_skipn; eauto|].
  split; [apply firstn_skipn|]. unfold te. rewrite skipn_length.
  apply Permutation_length in Hp. rewrite Hp, seq_length. unfold splitAt.
  destruct (testSize_spec f (alen (tp t)) H0 H1). lia.
Qed.
Lemma fraction_check f : (0 <= f)%Q -> (f <= 1)%Q -> negb (Qle_bool 0 f && Qle_bool f 1) = false.
Proof. intros H0 H1. apply Qle_bool_iff in H0, H1. rewrite H0, H1. reflexivity. Qed.
Lemma split_none t f order : wf t -> (0 <= f)%Q -> (f <= 1)%Q -> Permutation order (seq 0 (alen (tp t))) ->
  exists trainX testX, trainAndTestSets t f LNone order = Ok (Two trainX testX) /\
    subTable t (firstn (splitAt t f) order) (seq 0 (alen (tf t))) trainX /\
    subTable t (skipn (splitAt t f) order) (seq 0 (alen (tf t))) testX.
Proof.
  intros Hw H0 H1 Hp. destruct (split_idx t f order H0 H1 Hp) as (D1 & D2 & R1 & R2 & _).
  destruct (copyIds_P t _ Hw D1 R1) as (tx & E1 & S1). destruct (copyIds_P t _ Hw D2 R2) as (sx & E2 & S2).
  exists tx, sx. split; auto. unfold trainAndTestSets. rewrite fraction_check by auto. cbn zeta.
  unfold splitAt in *. rewrite E1. cbn [rbind]. rewrite E2. reflexivity.
Qed.
Lemma axis_same_names a b ids : Inv a -> Inv b -> alen a = alen b -> getNames a = getNames b ->
  constructIndices a ids = constructIndices b ids.
Proof.
  intros Ha Hb Hl Hn. unfold constructIndices. apply rmapM_ext. intros id _. f_equal.
  unfold getIndex. rewrite Hl. destruct (_ =? 0)%Z; auto. destruct id; auto.
  f_equal. unfold getIndexByName.
  assert (D : forall c, Inv c -> dget s (names_dict (ensure c)) = dget s (names_dict c)).
  { intros c _. unfold ensure, namesCreated, names_dict, setAllDefault. destruct (astate c) as [[d l]|] eqn:E; [rewrite E|]; reflexivity. }
  rewrite !D by auto.
  destruct (dget s (names_dict a)) as [i|] eqn:Ea.
  - apply names_in_dict in Ea; auto. rewrite Hn in Ea. apply names_in_dict in Ea; auto. rewrite Ea. reflexivity.
  - destruct (dget s (names_dict b)) as [i|] eqn:Eb; auto.
    apply names_in_dict in Eb; auto. rewrite <- Hn in Eb. apply names_in_dict in Eb; auto. congruence.
Qed.
Lemma without_range n d i : In i (without n d) -> i < n.
Proof. intros H. apply filter_In in H. destruct H as [H _]. apply in_seq in H. lia. Qed.
(** one half of a split with label columns *)
Lemma extract_half t idx tx ids lab : wf t -> (forall i, In i idx -> i < alen (tp t)) ->
  subTable t idx (seq 0 (alen (tf t))) tx -> constructIndices (tf t) ids = Ok lab -> NoDup lab ->
  exists rest ret, extractIds Fts tx ids = Ok (rest, ret) /\
    subTable t idx (without (alen (tf t)) lab) rest /\ subTable t idx lab ret.
Proof.
  intros Hw Hi HS E Hd. pose proof HS as (W & Lp & Lf & Np & Nf & C). rewrite seq_length in Lf.
  rewrite selected_seq in Nf by (apply getNames_length; apply (wf_Inv V Fts t); auto).
  rewrite (axis_same_names (tf t) (tf tx)) in E; auto; [|apply (wf_Inv V Fts t); auto|apply (wf_Inv V Fts tx); auto].
  pose proof (constructIndices_range (tf tx) ids lab (wf_Inv V Fts tx W) E) as Hr.
  destruct (extractIds_F tx ids lab W E Hd) as (rest & ret & Ee & S1 & S2).
  exists rest, ret. split; auto.
  assert (T : forall g x, (forall i, In i g -> i < alen (tf t)) -> subTable tx (seq 0 (alen (tp tx))) g x ->
     subTable t idx g x).
  { intros g x Hg HT.
    pose proof (subTable_trans t tx x idx (seq 0 (alen (tf t))) (seq 0 (alen (tp tx))) g) as Q.
    rewrite selected_seq in Q by auto. rewrite selected_of_seq in Q by auto. apply Q; auto.
    - intros i H. apply in_seq in H; lia.
    - intros i H. apply in_seq in H; lia.
    - rewrite seq_length; auto. }
  split; apply T; auto.
  - apply without_range.
  - rewrite <- Lf. auto.
  - rewrite <- Lf. auto.
Qed.
Lemma split_ids t f order ids lab : wf t -> (0 <= f)%Q -> (f <= 1)%Q -> Permutation order (seq 0 (alen (tp t))) ->
  constructIndices (tf t) ids = Ok lab -> NoDup lab -> testSize f (alen (tp t)) <> 0 ->
  exists trainX trainY testX testY, trainAndTestSets t f (LIds ids) order = Ok (Four trainX trainY testX testY) /\
    subTable t (firstn (splitAt t f) order) (without (alen (tf t)) lab) trainX /\
    subTable t (firstn (splitAt t f) order) lab trainY /\
    subTable t (skipn (splitAt t f) order) (without (alen (tf t)) lab) testX /\
    subTable t (skipn (splitAt t f) order) lab testY.
Proof.
  intros Hw H0 H1 Hp El Hd Hs. destruct (split_idx t f order H0 H1 Hp) as (D1 & D2 & R1 & R2 & _).
  destruct (copyIds_P t _ Hw D1 R1) as (tx & E1 & S1). destruct (copyIds_P t _ Hw D2 R2) as (sx & E2 & S2).
  destruct (extract_half t _ tx ids lab Hw R1 S1 El Hd) as (a & b & E3 & A & B).
  destruct (extract_half t _ sx ids lab Hw R2 S2 El Hd) as (c & d & E4 & C & D).
  exists a, b, c, d. split; [|auto]. unfold trainAndTestSets. rewrite fraction_check by auto. cbn zeta.
  unfold splitAt in *. rewrite E1. cbn [rbind]. rewrite E2. cbn [rbind].
  rewrite (proj2 (Nat.eqb_neq _ _)) by auto. rewrite E3. cbn [rbind]. rewrite E4. reflexivity.
Qed.
(** labels as a second object *)
Lemma split_obj t f order (o : table V) : wf t -> wf o -> (0 <= f)%Q -> (f <= 1)%Q ->
  Permutation order (seq 0 (alen (tp t))) -> alen (tp o) = alen (tp t) ->
  getNames (tp o) = getNames (tp t) ->
  exists trainX trainY testX testY drop, trainAndTestSets t f (LObj o) order = Ok (Four trainX trainY testX testY) /\
    (forall j, In j drop <-> exists s k, nth_error (getNames (tf t)) j = Some (Some s) /\
                                    nth_error (getNames (tf o)) k = Some (Some s)) /\
    subTable t (firstn (splitAt t f) order) (without (alen (tf t)) drop) trainX /\
    subTable o (firstn (splitAt t f) order) (seq 0 (alen (tf o))) trainY /\
    subTable t (skipn (splitAt t f) order) (without (alen (tf t)) drop) testX /\
    subTable o (skipn (splitAt t f) order) (seq 0 (alen (tf o))) testY.
Proof.
  intros Hw Ho H0 H1 Hp Hl Hn. destruct (split_idx t f order H0 H1 Hp) as (D1 & D2 & R1 & R2 & _).
  destruct (copyIds_P t _ Hw D1 R1) as (tx & E1 & S1). destruct (copyIds_P t _ Hw D2 R2) as (sx & E2 & S2).
  rewrite <- Hl in R1, R2.
  destruct (copyIds_P o _ Ho D1 R1) as (ty & E3 & S3). destruct (copyIds_P o _ Ho D2 R2) as (sy & E4 & S4).
  rewrite Hl in R1, R2.
  assert (It := wf_Inv V Fts t Hw). assert (Io := wf_Inv V Fts o Ho). cbn [ax] in It, Io.
  set (both := flat_map (fun n => match n with
                     | Some s => if dmem s (names_dict (tf t)) then [s] else []
                     | None => [] end) (getNames (tf o))).
  assert (Hboth : forall s, In s both <-> (exists j, nth_error (getNames (tf t)) j = Some (Some s)) /\
                                       (exists k, nth_error (getNames (tf o)) k = Some (Some s))).
  { intros s. unfold both. rewrite in_flat_map. split.
    - intros (n & Hin & H). destruct n as [x|]; [|destruct H].
      destruct (dmem x (names_dict (tf t))) eqn:Ed; [|destruct H]. destruct H as [->|[]].
      apply dmem_dget in Ed. destruct Ed as [i Ei]. apply names_in_dict in Ei; auto.
      split; [eauto|]. apply In_nth_error in Hin. auto.
    - intros [[j Hj] [k Hk]]. exists (Some s). split; [eapply nth_error_In; eauto|].
      apply names_in_dict in Hj; auto. rewrite (proj2 (dmem_dget s _)); [left; auto|eauto]. }
  assert (NDb : NoDup both).
  { assert (G : forall l, (forall i j s, nth_error l i = Some (Some s) -> nth_error l j = Some (Some s) -> i = j) ->
       NoDup (flat_map (fun n : option string => match n with
                     | Some s => if dmem s (names_dict (tf t)) then [s] else []
                     | None => [] end) l)).
    { clear. induction l as [|x l IH]; intros H; [constructor|]. cbn [flat_map].
      assert (IH' : NoDup (flat_map (fun n : option string => match n with
                     | Some s => if dmem s (names_dict (tf t)) then [s] else []
                     | None => [] end) l)).
      { apply IH. intros i j s Hi Hj. specialize (H (S i) (S j) s Hi Hj). lia. }
      destruct x as [s|]; auto. destruct (dmem s _); auto. simpl. constructor; auto.
      intros Hc. apply in_flat_map in Hc. destruct Hc as (n & Hin & Hs). destruct n as [s'|]; [|destruct Hs].
      destruct (dmem s' _); [|destruct Hs]. destruct Hs as [->|[]].
      apply In_nth_error in Hin. destruct Hin as [k Hk].
      specialize (H 0 (S k) s eq_refl Hk). discriminate. }
    apply G. apply Inv_names_distinct; auto. }
  assert (V1 : validateEqualPointNames V t o = Ok tt).
  { unfold validateEqualPointNames, getNamesNoGeneration. rewrite Hn.
    destruct (namesCreated (tp t)); auto. destruct (namesCreated (tp o)); auto.
    rewrite inconsistentNames_same. reflexivity. }
  assert (Hnb : (if namesCreated (tf t) && namesCreated (tf o) then both else []) = both).
  { destruct (namesCreated (tf t) && namesCreated (tf o)) eqn:Ec; auto.
    destruct both as [|s l] eqn:Eb; auto. exfalso.
    destruct (proj1 (Hboth s) (or_introl eq_refl)) as [[j Hj] [k Hk]].
    assert (NN : forall a i x, Inv a -> nth_error (getNames a) i = Some (Some x) -> namesCreated a = true).
    { intros a i x Ia Hx. destruct (namesCreated a) eqn:En; auto. rewrite (names_all_default a Ia En) in Hx.
      apply nth_error_In in Hx. apply repeat_spec in Hx. discriminate. }
    rewrite (NN _ _ _ It Hj), (NN _ _ _ Io Hk) in Ec. discriminate. }
  assert (Hlen : alen (tp o) =? alen (tp t) = true) by (apply Nat.eqb_eq; auto).
  assert (CI : exists drop, constructIndices (tf t) (map IdStr both) = Ok drop /\ NoDup drop /\
     forall j, In j drop <-> exists s, In s both /\ nth_error (getNames (tf t)) j = Some (Some s)).
  { assert (G : forall l, (forall s, In s l -> exists j, nth_error (getNames (tf t)) j = Some (Some s)) -> NoDup l ->
       exists drop, constructIndices (tf t) (map IdStr l) = Ok drop /\ NoDup drop /\
        forall j, In j drop <-> exists s, In s l /\ nth_error (getNames (tf t)) j = Some (Some s)).
    { induction l as [|s l IH]; intros Hs Hnd.
      - exists []. split; [reflexivity|]. split; [constructor|]. intros j. split; [intros []|intros (s & [] & _)].
      - inversion Hnd as [|? ? Hni Hnd2]; subst. destruct (IH (fun x Hx => Hs x (or_intror Hx)) Hnd2) as (dr & Ed & Nd & Md).
        destruct (Hs s (or_introl eq_refl)) as [j Hj].
        exists (j :: dr). split; [|split].
        + unfold constructIndices in *. cbn [map rmapM].
          assert (Eg : getIndex (tf t) (IdStr s) false = Ok (Z.of_nat j)).
          { apply names_in_dict in Hj; auto.
            assert (j < alen (tf t)). { apply names_in_dict in Hj; auto. apply nth_error_lt in Hj. rewrite getNames_length in Hj; auto. }
            unfold getIndex. rewrite (proj2 (Z.eqb_neq _ _)) by lia. unfold getIndexByName.
            replace (names_dict (ensure (tf t))) with (names_dict (tf t)); [rewrite Hj; reflexivity|].
            unfold ensure, namesCreated, names_dict, setAllDefault. destruct (astate (tf t)) as [[d l0]|] eqn:E; [rewrite E|]; reflexivity. }
          rewrite Eg. cbn [rmap rbind]. rewrite Ed. cbn [rbind]. rewrite Nat2Z.id. reflexivity.
        + constructor; auto. intros Hc. apply Md in Hc. destruct Hc as (s' & Hs' & Hj'). rewrite Hj in Hj'.
          injection Hj' as <-. contradiction.
        + intros k. simpl. rewrite Md. split.
          * intros [<-|(s' & H & H')]; [exists s|exists s']; auto.
          * intros (s' & [<-|H] & H'); [left; exact (Inv_names_distinct (tf t) It j k s Hj H')|right; eauto]. }
    apply G; auto. intros s Hs. apply Hboth in Hs. tauto. }
  destruct CI as (drop & Ec & Nd & Md).
  assert (Mdrop : forall j, In j drop <-> exists s k, nth_error (getNames (tf t)) j = Some (Some s) /\
                                    nth_error (getNames (tf o)) k = Some (Some s)).
  { intros j. rewrite Md. split.
    - intros (s & Hs & Hj). apply Hboth in Hs. destruct Hs as [_ [k Hk]]. eauto.
    - intros (s & k & Hj & Hk). exists s. split; auto. apply Hboth. eauto. }
  destruct (extract_half t _ tx _ drop Hw R1 S1 Ec Nd) as (a & b & E5 & A & _).
  destruct (extract_half t _ sx _ drop Hw R2 S2 Ec Nd) as (c & d & E6 & C & _).
  unfold trainAndTestSets. rewrite fraction_check by auto. cbn zeta.
  unfold splitAt in *. rewrite E1. cbn [rbind]. rewrite E2. cbn [rbind].
  rewrite Hlen. cbn [negb]. rewrite V1. cbn [rbind]. rewrite E3. cbn [rbind]. rewrite E4. cbn [rbind].
  fold both. rewrite Hnb.
  destruct both as [|s0 l0] eqn:Eb.
  - (* nothing to delete *)
    exists tx, ty, sx, sy, []. split; auto. split.
    + intros j. split; [intros []|]. intros H. apply Mdrop in H. apply Md in H. destruct H as (s & [] & _).
    + replace (without (alen (tf t)) []) with (seq 0 (alen (tf t))); auto.
      unfold without. simpl. symmetry. clear. induction (seq 0 (alen (tf t))); simpl; congruence.
  - exists a, ty, c, sy, drop. split; auto. rewrite <- Eb in *. unfold deleteIds.
    rewrite E5. cbn [rmap rbind fst]. rewrite E6. reflexivity.
Qed.
End S.
