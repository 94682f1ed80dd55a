(** Proofs for C71: splitByCollapsingFeatures of a Sparse object. *)
From Verif Require Import Base NamesModel NamesSpec NamesProofs TableModel TableSpec TableProofs TableOpsProofs FlatProofs MatchModel MatchSpec MatchProofs
  TableSortProofs SparseModel SparseSpec SparseProofs SparseEqProofs SparseRefine MergeModel MergeNamesProofs ReshapeModel ReshapeSpec ReshapeTextProofs ReshapeSplitProofs ReshapeCollapseProofs
  SparseReshapeModel SparseReshapeSpec SparseReshapeProofs.
From Coq Require Import Sorted List Permutation. Import ListNotations.
Open Scope string_scope. Open Scope list_scope. Open Scope nat_scope.
Notation val := (SparseSpec.val (PInt 0)).

(** ** ranks *)
Lemma StronglySorted_filter (R : nat -> nat -> Prop) f l : StronglySorted R l -> StronglySorted R (filter f l).
Proof.
  induction 1 as [|x l S IH F]; [constructor|]. cbn [filter]. destruct (f x); [|exact IH]. constructor; [exact IH|].
  apply Forall_forall. intros y Y. apply filter_In in Y. rewrite Forall_forall in F. apply F. tauto.
Qed.
Lemma StronglySorted_seq a n : StronglySorted lt (seq a n).
Proof. revert a. induction n as [|n IH]; intros a; cbn; constructor; [apply IH|]. apply Forall_forall. intros x X. apply in_seq in X. lia. Qed.
Lemma sorted_rank l : StronglySorted lt l -> forall i, In i l -> nth_error l (rank l i) = Some i.
Proof.
  induction 1 as [|x l S IH F]; intros i I; [destruct I|]. rewrite Forall_forall in F. unfold rank. cbn [filter].
  destruct I as [->|I].
  - rewrite Nat.ltb_irrefl. rewrite (ReshapeExpandProofs.filter_none _ l); [reflexivity|]. intros y Y. apply F in Y. apply Nat.ltb_ge. lia.
  - specialize (F i I). destruct (Nat.ltb_spec x i); [|lia]. cbn [List.length nth_error]. exact (IH i I).
Qed.
Lemma rank_perm l l' i : Permutation l l' -> rank l i = rank l' i.
Proof.
  intros P. unfold rank. induction P as [|x a b P IH|x y a|a b c P IH Q IH']; cbn [filter].
  - reflexivity.
  - destruct (x <? i); cbn [List.length]; rewrite ?IH; reflexivity.
  - destruct (x <? i), (y <? i); reflexivity.
  - rewrite IH. exact IH'.
Qed.

Section Order.
Variables (idx : list nat) (n : nat).
Hypothesis ND : NoDup idx.
Hypothesis LT : forall i, In i idx -> i < n.
Definition inOrder := filter (fun i => mem i idx) (seq 0 n).
Lemma inOrder_In i : In i inOrder <-> In i idx.
Proof. unfold inOrder. rewrite filter_In, in_seq, mem_In. split; [tauto|]. intros I. specialize (LT i I). split; [lia|exact I]. Qed.
Lemma inOrder_sorted : StronglySorted lt inOrder.
Proof. apply StronglySorted_filter, StronglySorted_seq. Qed.
Lemma inOrder_perm : Permutation inOrder idx.
Proof. apply NoDup_Permutation; [apply NoDup_filter, seq_NoDup|exact ND|exact inOrder_In]. Qed.
Lemma inOrder_rank i : In i idx -> nth_error inOrder (rank idx i) = Some i.
Proof. intros I. rewrite <- (rank_perm _ _ i inOrder_perm). apply sorted_rank; [exact inOrder_sorted|]. apply inOrder_In. exact I. Qed.
Lemma argsort_perm : Permutation (argsort idx) (seq 0 (List.length idx)).
Proof. apply stableSort_perm. Qed.
Lemma argsort_inOrder : map (fun a => nth a idx 0) (argsort idx) = inOrder.
Proof.
  assert (P : Permutation (map (fun a => nth a idx 0) (argsort idx)) idx).
  { rewrite argsort_perm. replace (map (fun a => nth a idx 0) (seq 0 (List.length idx))) with idx; [reflexivity|].
    apply nth_error_ext. intros i. rewrite nth_error_map, nth_error_seq. destruct (Nat.ltb_spec i (List.length idx)); cbn; [apply nth_error_nth'; assumption|apply nth_error_None; assumption]. }
  apply sorted_lt_ext; [|exact inOrder_sorted|].
  - assert (N : NoDup (map (fun a => nth a idx 0) (argsort idx))) by (eapply Permutation_NoDup; [symmetry; exact P|exact ND]).
    unfold argsort in *. set (le := fun a b => nth a idx 0 <=? nth b idx 0) in *.
    assert (S : StronglySorted (fun a b => le a b = true) (stableSort le (seq 0 (List.length idx)))).
    { clear - le. assert (T : forall x y, le x y = true \/ le y x = true) by (intros x y; unfold le; rewrite !Nat.leb_le; lia).
      assert (TR : forall x y z, le x y = true -> le y z = true -> le x z = true) by (intros x y z; unfold le; rewrite !Nat.leb_le; lia).
      clearbody le. induction (seq 0 (List.length idx)) as [|x l IH]; cbn; [constructor|]. change (fold_right (insertBy le) [] l) with (stableSort le l). revert IH. generalize (stableSort le l). clear l.
      intros l. induction 1 as [|y l S IH F]; cbn; [constructor; constructor|]. destruct (le x y) eqn:E.
      - constructor; [constructor; assumption|]. constructor; [exact E|]. rewrite Forall_forall in *. intros z Z. apply (TR x y z); auto.
      - constructor; [exact IH|]. apply Forall_forall. intros z Z.
        assert (Z' : In z (x :: l)) by (eapply Permutation_in; [apply (insertBy_perm le)|exact Z]). destruct Z' as [<-|Z']; [destruct (T x y); congruence|]. rewrite Forall_forall in F. auto. }
    revert N. clear P. induction S as [|x l S IH F]; intros N; cbn; [constructor|]. cbn in N. inversion N; subst. constructor; [auto|].
    apply Forall_forall. intros y Y. apply in_map_iff in Y. destruct Y as [z [<- Z]]. rewrite Forall_forall in F. specialize (F z Z). unfold le in F. apply Nat.leb_le in F.
    destruct (Nat.eq_dec (nth x idx 0) (nth z idx 0)) as [E|E]; [|lia]. exfalso. apply H1. rewrite E. apply in_map_iff. exists z. auto.
  - intros i. rewrite inOrder_In. split; intros I; [eapply Permutation_in; [exact P|exact I]|eapply Permutation_in; [symmetry; exact P|exact I]].
Qed.
Lemma argsort_nth m j : nth_error idx m = Some j -> nth_error (argsort idx) (rank idx j) = Some m.
Proof.
  intros M. assert (I : In j idx) by (eapply nth_error_In; exact M). pose proof (inOrder_rank j I) as R. rewrite <- argsort_inOrder, nth_error_map in R.
  destruct (nth_error (argsort idx) (rank idx j)) as [a|] eqn:A; [|discriminate]. cbn in R. injection R as R. f_equal.
  assert (AL : a < List.length idx). { apply nth_error_In in A. eapply Permutation_in in A; [|apply argsort_perm]. apply in_seq in A. lia. }
  apply (proj1 (NoDup_nth_error idx) ND a m AL). rewrite M, (nth_error_nth' idx 0 AL). congruence.
Qed.
Lemma argsort_length : List.length (argsort idx) = List.length idx.
Proof. rewrite (Permutation_length argsort_perm). apply seq_length. Qed.
Lemma rank_onto m : m < List.length idx -> exists i, In i idx /\ rank idx i = m.
Proof.
  intros L. destruct (nth_error inOrder m) as [i|] eqn:E.
  - assert (I : In i idx) by (apply inOrder_In; eapply nth_error_In; exact E). exists i. split; [exact I|].
    pose proof (inOrder_rank i I) as R. apply (proj1 (NoDup_nth_error inOrder)); [apply NoDup_filter, seq_NoDup|apply (nlt _ _ _ R)|congruence].
  - apply nth_error_None in E. rewrite (Permutation_length inOrder_perm) in E. lia.
Qed.
End Order.

(** ** the entries of one point, in order *)
Section Point.
Variable s : sparse pval.
Hypothesis E : entsOK (PInt 0) s.
Hypothesis SO : StronglySorted (lexlt Pts) (ents s).
Lemma lexlt_filter f l : StronglySorted (@lexlt pval Pts) l -> StronglySorted (lexlt Pts) (filter f l).
Proof.
  induction 1 as [|x l S IH F]; [constructor|]. cbn [filter]. destruct (f x); [|exact IH]. constructor; [exact IH|].
  apply Forall_forall. intros y Y. apply filter_In in Y. rewrite Forall_forall in F. apply F. tauto.
Qed.
Lemma row_cols (f : nat -> bool) p : p < snp s ->
  map ec (filter (fun e => f (ec e)) (filter (fun e => er e =? p) (ents s))) = filter (fun c => f c && negb (isZero (val s p c))) (seq 0 (snf s)).
Proof.
  intros L. destruct E as [N R]. apply sorted_lt_ext.
  - assert (S : StronglySorted (lexlt Pts) (filter (fun e => f (ec e)) (filter (fun e => er e =? p) (ents s)))) by (apply lexlt_filter, lexlt_filter, SO).
    assert (Q : forall e, In e (filter (fun e => f (ec e)) (filter (fun e => er e =? p) (ents s))) -> er e = p).
    { intros e I. apply filter_In in I. destruct I as [I _]. apply filter_In in I. apply Nat.eqb_eq. tauto. }
    induction S as [|x l S IH F]; cbn; [constructor|]. constructor; [apply IH; intros e I; apply Q; right; exact I|].
    apply Forall_forall. intros c C. apply in_map_iff in C. destruct C as [y [<- Y]]. rewrite Forall_forall in F. specialize (F y Y).
    pose proof (Q x (or_introl eq_refl)). pose proof (Q y (or_intror Y)). unfold lexlt in F. cbn in F. lia.
  - apply StronglySorted_filter, StronglySorted_seq.
  - intros c. rewrite in_map_iff, filter_In, in_seq, andb_true_iff, negb_true_iff. split.
    + intros [e [<- I]]. apply filter_In in I. destruct I as [I F]. apply filter_In in I. destruct I as [I P]. apply Nat.eqb_eq in P. subst p.
      destruct (R e I) as [_ [B Z]]. split; [lia|]. split; [exact F|]. rewrite <- (ents_val s e N I). destruct (isZero (ev e)) eqn:X; [|reflexivity].
      apply isZero_spec in X. contradiction.
    + intros [B [F Z]]. exists (mkE p c (val s p c)). split; [reflexivity|]. apply filter_In. split; [|exact F]. apply filter_In. split; [|apply Nat.eqb_refl].
      apply val_stored. intros X. apply isZero_spec in X. congruence.
Qed.
Lemma row_vals (f : nat -> bool) p : p < snp s ->
  map ev (filter (fun e => f (ec e)) (filter (fun e => er e =? p) (ents s))) = nonzeros (map (val s p) (filter f (seq 0 (snf s)))).
Proof.
  intros L. transitivity (map (val s p) (map ec (filter (fun e => f (ec e)) (filter (fun e => er e =? p) (ents s))))).
  - rewrite map_map. apply map_ext_in. intros e I. apply filter_In in I. destruct I as [I _]. apply filter_In in I. destruct I as [I P]. apply Nat.eqb_eq in P. subst p.
    apply ents_val; [exact (proj1 E)|exact I].
  - rewrite row_cols by exact L. generalize (seq 0 (snf s)). intros l. unfold nonzeros. induction l as [|c l IH]; [reflexivity|]. cbn [filter].
    destruct (f c); cbn [andb]; [|exact IH]. cbn [map filter]. destruct (negb (isZero (val s p c))); cbn [map]; congruence.
Qed.
End Point.

Lemma filter_le {A} (f : A -> bool) l : List.length (filter f l) <= List.length l.
Proof. induction l as [|x l IH]; [reflexivity|]. cbn [filter]. destruct (f x); cbn [List.length]; lia. Qed.
Lemma nonzeros_all l : (forall v, In v l -> v <> PInt 0) -> nonzeros l = l.
Proof.
  intros H. unfold nonzeros. induction l as [|x l IH]; [reflexivity|]. cbn. destruct (isZero x) eqn:Z.
  - apply isZero_spec in Z. destruct (H x (or_introl eq_refl) Z).
  - cbn. rewrite IH; [reflexivity|]. intros v V. apply H. right. exact V.
Qed.
Lemma nonzeros_short l v : In v l -> v = PInt 0 -> List.length (nonzeros l) < List.length l.
Proof.
  intros I ->. unfold nonzeros. induction l as [|x l IH]; [destruct I|]. cbn. destruct I as [->|I].
  - cbn. pose proof (filter_le (fun v => negb (isZero v)) l). lia.
  - destruct (negb (isZero x)); cbn; specialize (IH I); lia.
Qed.
Lemma nonzeros_prefix l : ZerosLast l -> forall c, nth c (nonzeros l) (PInt 0) = nth c l (PInt 0).
Proof.
  induction l as [|x l IH]; intros Z c; [reflexivity|]. unfold nonzeros. cbn [filter]. destruct (isZero_dec x) as [->|N].
  - cbn [isZero negb]. assert (A : forall v, In v l -> v = PInt 0).
    { intros v V. apply In_nth with (d := PInt 0) in V. destruct V as [b [B <-]]. destruct (isZero_dec (nth b l (PInt 0))) as [Y|Y]; [exact Y|].
      exfalso. apply (Z 0 (S b)); cbn; auto; lia. }
    rewrite (ReshapeExpandProofs.filter_none _ l) by (intros v V; rewrite (A v V); reflexivity).
    destruct c as [|c]; [reflexivity|]. cbn. destruct (Nat.lt_ge_cases c (List.length l)) as [L|L]; [symmetry; apply A, nth_In; exact L|rewrite nth_overflow by exact L; reflexivity].
  - assert (ZZ : isZero x = false) by (destruct (isZero x) eqn:Q; [apply isZero_spec in Q; contradiction|reflexivity]). rewrite ZZ. cbn [negb].
    destruct c as [|c]; [reflexivity|]. cbn [nth]. apply IH. intros a b AB BL NB. apply (Z (S a) (S b)); cbn [nth List.length]; auto; lia.
Qed.

(** ** the matrix made *)
Section Matrix.
Variable s : sparse pval.
Hypothesis E : entsOK (PInt 0) s.
Hypothesis SO : StronglySorted (lexlt Pts) (ents s).
Variables (idx : list nat) (names : list pval).
Hypothesis ND : NoDup idx.
Hypothesis LT : forall i, In i idx -> i < snf s.
Hypothesis LN : List.length names = List.length idx.
Let k := List.length idx.
Let rest := others idx (snf s).
Let nf := snf s - k + 2.
Lemma rest_len : List.length rest = nf - 2.
Proof. unfold rest, nf, k. rewrite (others_length idx (snf s) ND LT). lia. Qed.
Lemma collapsed_vals p : p < snp s ->
  map ev (filter (fun e => mem (ec e) idx) (filter (fun e => er e =? p) (ents s))) = nonzeros (map (val s p) (inOrder idx (snf s))).
Proof. intros L. exact (row_vals s E SO (fun c => mem c idx) p L). Qed.
Lemma retained_vals p : p < snp s ->
  map ev (filter (fun e => mem (ec e) rest) (filter (fun e => er e =? p) (ents s))) = nonzeros (map (val s p) rest).
Proof.
  intros L. rewrite (row_vals s E SO (fun c => mem c rest) p L). do 2 f_equal. apply sorted_lt_ext.
  - apply StronglySorted_filter, StronglySorted_seq.
  - apply StronglySorted_filter, StronglySorted_seq.
  - intros c. rewrite filter_In, mem_In. split; [tauto|]. intros I. split; [|exact I]. unfold rest, others in I. apply filter_In in I. tauto.
Qed.
(** a stored zero among the collapsed values: no answer *)
Lemma collapsePoint_zero p i : p < snp s -> In i idx -> val s p i = PInt 0 ->
  exists e, collapsePoint (ents s) idx rest names nf p = Err e.
Proof.
  intros L I Z. unfold collapsePoint. rewrite collapsed_vals by exact L.
  destruct (gather (nonzeros (map (val s p) (inOrder idx (snf s)))) (argsort idx)) as [ys|e] eqn:G; [|exists e; reflexivity].
  exfalso. pose proof (gather_ok_inv _ _ _ G) as H.
  assert (SH : List.length (nonzeros (map (val s p) (inOrder idx (snf s)))) < k).
  { unfold k. rewrite <- (Permutation_length (inOrder_perm idx (snf s) ND LT)), <- (map_length (val s p)). apply (nonzeros_short _ (val s p i)); [|exact Z].
    apply in_map. apply inOrder_In; assumption. }
  assert (K : In (k - 1) (argsort idx)). { eapply Permutation_in; [symmetry; apply argsort_perm|]. apply in_seq. unfold k in *. lia. }
  specialize (H _ K). lia.
Qed.

Hypothesis NZ : forall p i, p < snp s -> In i idx -> val s p i <> PInt 0.
Definition sortedOf (p : nat) : list pval := map (fun a => val s p (nth a (inOrder idx (snf s)) 0)) (argsort idx).
Definition rowEntries (p q : nat) : list (entry pval) :=
  map (fun c : nat * pval => mkE (p * k + q) (fst c) (snd c)) (combine (seq 0 (List.length (nonzeros (map (val s p) rest)))) (nonzeros (map (val s p) rest))) ++
  [mkE (p * k + q) (nf - 2) (nth q names PNaN); mkE (p * k + q) (nf - 1) (nth q (sortedOf p) PNaN)].
Lemma inOrder_length : List.length (inOrder idx (snf s)) = k.
Proof. unfold k. apply Permutation_length, inOrder_perm; assumption. Qed.
Lemma gather_is p : p < snp s -> gather (nonzeros (map (val s p) (inOrder idx (snf s)))) (argsort idx) = Ok (sortedOf p).
Proof.
  intros L. rewrite nonzeros_all.
  - unfold gather, sortedOf. apply rmapM_map_ok. intros a A. eapply Permutation_in in A; [|apply argsort_perm]. apply in_seq in A.
    assert (B : a < List.length (inOrder idx (snf s))) by (rewrite inOrder_length; unfold k; lia).
    rewrite nth_error_map, (nth_error_nth' _ 0 B). reflexivity.
  - intros v V. apply in_map_iff in V. destruct V as [i [<- I]]. apply NZ; [exact L|]. apply inOrder_In in I; assumption.
Qed.
Lemma sortedOf_length p : List.length (sortedOf p) = k.
Proof. unfold sortedOf. rewrite map_length. apply argsort_length. Qed.
Lemma collapsePoint_ok p : p < snp s -> collapsePoint (ents s) idx rest names nf p = Ok (flat_map (rowEntries p) (seq 0 k)).
Proof.
  intros L. unfold collapsePoint. rewrite collapsed_vals, gather_is, retained_vals by exact L. cbn [rbind]. f_equal.
  assert (C : combine (seq 0 (List.length (sortedOf p))) (combine names (sortedOf p)) = map (fun q => (q, (nth q names PNaN, nth q (sortedOf p) PNaN))) (seq 0 k)).
  { rewrite sortedOf_length. apply nth_error_ext. intros q. rewrite nth_error_combine, nth_error_combine, nth_error_map, nth_error_seq.
    destruct (Nat.ltb_spec q k) as [Q|Q]; [|reflexivity]. cbn [option_map]. rewrite (nth_error_nth' names PNaN), (nth_error_nth' (sortedOf p) PNaN) by (rewrite ?sortedOf_length; unfold k in *; lia). reflexivity. }
  rewrite C, flat_map_map. reflexivity.
Qed.
Lemma sCollapse_ents : rmapM (collapsePoint (ents s) idx rest names nf) (seq 0 (snp s)) = Ok (map (fun p => flat_map (rowEntries p) (seq 0 k)) (seq 0 (snp s))).
Proof. apply rmapM_map_ok. intros p P. apply in_seq in P. apply collapsePoint_ok. lia. Qed.
Definition made : sparse pval := mkSp (snp s * k) nf (flat_map (fun p => flat_map (rowEntries p) (seq 0 k)) (seq 0 (snp s))) None None.
Lemma retained_short p : List.length (nonzeros (map (val s p) rest)) <= nf - 2.
Proof. rewrite <- rest_len, <- (map_length (val s p) rest). apply filter_le. Qed.
Lemma rowEntries_In p q e : In e (rowEntries p q) <-> er e = p * k + q /\
  (nth_error (nonzeros (map (val s p) rest)) (ec e) = Some (ev e) \/ ec e = nf - 2 /\ ev e = nth q names PNaN \/ ec e = nf - 1 /\ ev e = nth q (sortedOf p) PNaN).
Proof.
  unfold rowEntries. rewrite in_app_iff, in_map_iff. set (l := nonzeros _). split.
  - intros [[[c v] [<- I]]|[<-|[<-|[]]]]; cbn [er ec ev fst snd]; (split; [reflexivity|]); [left|right; left; auto|right; right; auto].
    apply In_nth_error in I. destruct I as [n I]. rewrite nth_error_combine, nth_error_seq in I. destruct (n <? List.length l); [|discriminate].
    destruct (nth_error l n) eqn:N; [|discriminate]. injection I as <- <-. exact N.
  - intros [R H]. destruct e as [r c v]. cbn [er ec ev] in *. subst r. destruct H as [H|[[-> ->]|[-> ->]]]; [left|right; left; reflexivity|right; right; left; reflexivity].
    exists (c, v). split; [reflexivity|]. apply nth_error_In with (n := c). rewrite nth_error_combine, nth_error_seq, H. pose proof (nlt _ _ _ H). destruct (Nat.ltb_spec c (List.length l)); [reflexivity|lia].
Qed.
Lemma nf_ge : nf - 1 = S (nf - 2). Proof. unfold nf. lia. Qed.
Lemma rowEntries_NoDup p q : NoDup (map pos (rowEntries p q)).
Proof.
  unfold rowEntries. rewrite map_app. apply NoDup_app_intro.
  - rewrite map_map. unfold pos. cbn [er ec]. rewrite <- (map_map fst (fun c => (p * k + q, c))).
    apply FinFun.Injective_map_NoDup; [intros a b H; congruence|]. apply combine_seq_NoDup.
  - cbn. rewrite nf_ge. constructor; [|constructor; [intros []|constructor]]. intros [H|[]]. unfold pos in H. cbn in H. injection H as H. lia.
  - intros x X Y. rewrite map_map in X. apply in_map_iff in X. destruct X as [[c v] [<- X]]. apply in_combine_l in X. apply in_seq in X. pose proof (retained_short p). pose proof nf_ge.
    cbn in Y. unfold pos in Y. cbn [er ec fst snd] in Y. destruct Y as [Y|[Y|[]]]; injection Y as Y; lia.
Qed.
Lemma row_inj p q p' q' : q < k -> q' < k -> p * k + q = p' * k + q' -> p = p' /\ q = q'.
Proof. intros A B H. destruct (divmod_at k p q A) as [X Y]. destruct (divmod_at k p' q' B) as [X' Y']. rewrite H in X, Y. split; congruence. Qed.
Lemma made_In e : In e (ents made) <-> exists p q, p < snp s /\ q < k /\ In e (rowEntries p q).
Proof.
  cbn [made ents]. rewrite in_flat_map. split.
  - intros [p [P H]]. apply in_flat_map in H. destruct H as [q [Q H]]. apply in_seq in P, Q. exists p, q. repeat split; auto; lia.
  - intros [p [q [P [Q H]]]]. exists p. split; [apply in_seq; lia|]. apply in_flat_map. exists q. split; [apply in_seq; lia|exact H].
Qed.
Lemma made_Placed : Placed made.
Proof.
  split.
  - cbn [made ents]. apply SparseOpsProofs.NoDup_flat_map; [apply seq_NoDup| |].
    + intros p _. apply SparseOpsProofs.NoDup_flat_map; [apply seq_NoDup|intros; apply rowEntries_NoDup|].
      intros q q' b b' Q Q' B B' X. apply in_seq in Q, Q'. apply rowEntries_In in B, B'. unfold pos in X. injection X as X _. lia.
    + intros p p' b b' _ _ B B' X. apply in_flat_map in B, B'. destruct B as [q [Q B]], B' as [q' [Q' B']]. apply in_seq in Q, Q'.
      apply rowEntries_In in B, B'. unfold pos in X. injection X as X _. destruct B as [B _], B' as [B' _].
      destruct (row_inj p q p' q'); try lia.
  - intros e I. apply made_In in I. destruct I as [p [q [P [Q I]]]]. apply rowEntries_In in I. cbn [made snp snf]. destruct I as [-> H]. split.
    + assert (S p * k <= snp s * k) by (apply Nat.mul_le_mono_r; lia). cbn in H0. lia.
    + destruct H as [H|[[-> _]|[-> _]]]; [|unfold nf; lia|unfold nf; lia]. apply nlt in H. pose proof (retained_short p). unfold nf in *. lia.
Qed.
Lemma made_ents p q e : p < snp s -> q < k -> er e = p * k + q -> (In e (ents made) <-> In e (rowEntries p q)).
Proof.
  intros P Q X. rewrite made_In. split; [|eauto]. intros [p' [q' [P' [Q' I]]]]. pose proof I as I'. apply rowEntries_In in I'. destruct I' as [Y _].
  destruct (row_inj p q p' q'); try lia. subst. exact I.
Qed.
Lemma made_retained p q c : p < snp s -> q < k -> c < List.length rest -> val made (p * k + q) c = nth c (nonzeros (map (val s p) rest)) (PInt 0).
Proof.
  intros P Q C. rewrite rest_len in C. apply val_is.
  - intros v I. apply (made_ents p q) in I; auto. apply rowEntries_In in I. cbn [er ec ev] in I. destruct I as [_ [H|[[H _]|[H _]]]]; [|lia|lia].
    symmetry. apply nth_error_nth. exact H.
  - destruct (nth_error (nonzeros (map (val s p) rest)) c) as [v|] eqn:N.
    + left. rewrite (nth_error_nth _ _ _ N). apply (made_ents p q); auto. apply rowEntries_In. cbn [er ec ev]. auto.
    + right. apply nth_overflow. apply nth_error_None. exact N.
Qed.
Lemma made_name p q : p < snp s -> q < k -> val made (p * k + q) (nf - 2) = nth q names PNaN.
Proof.
  intros P Q. apply val_is.
  - intros v I. apply (made_ents p q) in I; auto. apply rowEntries_In in I. cbn [er ec ev] in I. destruct I as [_ [H|[[_ H]|[H _]]]]; [|exact H|pose proof nf_ge; lia].
    apply nlt in H. pose proof (retained_short p). lia.
  - left. apply (made_ents p q); auto. apply rowEntries_In. cbn [er ec ev]. auto.
Qed.
Lemma made_value p q : p < snp s -> q < k -> val made (p * k + q) (nf - 1) = nth q (sortedOf p) PNaN.
Proof.
  intros P Q. apply val_is.
  - intros v I. apply (made_ents p q) in I; auto. apply rowEntries_In in I. cbn [er ec ev] in I. destruct I as [_ [H|[[H _]|[_ H]]]]; [|pose proof nf_ge; lia|exact H].
    apply nlt in H. pose proof (retained_short p). pose proof nf_ge. lia.
  - left. apply (made_ents p q); auto. apply rowEntries_In. cbn [er ec ev]. auto.
Qed.
Lemma sortedOf_at p q m j i : nth_error idx m = Some j -> rank idx j = q -> In i idx -> rank idx i = m -> nth q (sortedOf p) PNaN = val s p i.
Proof.
  intros M Q I R. apply nth_error_nth. unfold sortedOf. rewrite nth_error_map, <- Q. rewrite (argsort_nth idx (snf s) ND LT m j M). cbn [option_map]. do 2 f_equal.
  apply nth_error_nth. rewrite <- R. apply inOrder_rank; assumption.
Qed.
End Matrix.
