(** Proofs for C71: splitByCollapsingFeatures of a Sparse object, the front end. *)
From Verif Require Import Base NamesModel NamesSpec NamesProofs TableModel TableSpec TableProofs TableOpsProofs FlatProofs MatchModel MatchSpec MatchProofs
  TableSortProofs SparseModel SparseSpec SparseProofs SparseEqProofs SparseRefine ElementsCalcProofs MergeModel MergeNamesProofs ReshapeModel ReshapeSpec ReshapeTextProofs ReshapeSplitProofs ReshapeCollapseProofs
  SparseReshapeModel SparseReshapeSpec SparseReshapeProofs SparseReshapeCollapse.
From Verif Require StrictMainProofs.
From Coq Require Import Sorted List Permutation. Import ListNotations.
Open Scope string_scope. Open Scope list_scope. Open Scope nat_scope.
Notation val := (SparseSpec.val (PInt 0)).

Section Main.
Variables (o : sobj) (t : table pval).
Hypothesis W : wf t.
Hypothesis H : Holds o t.
Hypothesis SI : sinv (PInt 0) (oMat o).
Variables (ids : list ident) (idx : list nat) (nameFt valueFt : option string).
Hypothesis RF : Forall2 (Refers (tf t)) ids idx.
Hypothesis ND : NoDup idx.
Let k := List.length idx.
Let rest := others idx (alen (tf t)).
Let names' := map (fun i => nth i (getNames (tf t)) None) rest ++ [nameFt; valueFt].
Let s1 := sortInternal (oMat o) Pts false false.
Let nameCells := map (nameOrIndex (tf t)) idx.

Lemma s1_facts : sinv (PInt 0) s1 /\ sameMatrix (PInt 0) (oMat o) s1 /\ StronglySorted (lexlt Pts) (ents s1).
Proof.
  destruct (@sortInternal_spec pval (PInt 0) (oMat o) Pts false false (proj1 SI) (or_intror (proj2 SI))) as [A [B [C _]]]. fold s1 in A, B, C.
  split; [exact A|]. split; [exact B|]. destruct A as [_ A]. unfold cacheOK in A. rewrite C in A. tauto.
Qed.
Lemma s1_np : snp s1 = alen (tp t).
Proof. destruct s1_facts as [_ [[A _] _]]. destruct H as [_ [_ [B _]]]. congruence. Qed.
Lemma s1_nf : snf s1 = alen (tf t).
Proof. destruct s1_facts as [_ [[_ [A _]] _]]. destruct H as [_ [_ [_ [B _]]]]. congruence. Qed.
Lemma s_np : snp (oMat o) = alen (tp t). Proof. apply H. Qed.
Lemma s_nf : snf (oMat o) = alen (tf t). Proof. apply H. Qed.
Lemma s1_val p row i : nth_error (rows t) p = Some row -> i < alen (tf t) -> val s1 p i = nth i row PNaN.
Proof.
  intros P L. destruct s1_facts as [_ [[_ [_ A]] _]]. rewrite A. destruct H as [_ [_ [_ [_ R]]]].
  assert (LP : p < alen (tp t)) by (rewrite <- (proj1 W); apply (nlt _ _ _ P)).
  specialize (R p i LP L). rewrite P in R. symmetry. apply nth_error_nth. exact R.
Qed.
Lemma LTi : forall i, In i idx -> i < alen (tf t).
Proof. exact (Refers_lt _ _ _ RF). Qed.
Lemma s1_LT : forall i, In i idx -> i < snf s1.
Proof. rewrite s1_nf. exact LTi. Qed.
Lemma LNc : List.length nameCells = List.length idx. Proof. apply map_length. Qed.
Lemma rest_lt i : In i rest -> i < alen (tf t).
Proof. unfold rest, others. intros I. apply filter_In in I. destruct I as [I _]. apply in_seq in I. lia. Qed.
Lemma s1_rest p row : nth_error (rows t) p = Some row -> map (val s1 p) rest = pick row rest.
Proof. intros P. apply map_ext_in. intros i I. apply s1_val; [exact P|]. apply rest_lt. exact I. Qed.
Hypothesis NP : 0 < alen (tp t).

Lemma front : collapseFeaturesS o ids nameFt valueFt =
  match sCollapse (oMat o) idx nameCells with
  | (s1, Err e) => (mkSO (tp t) (tf t) s1 (oKind o), Err e)
  | (_, Ok s') =>
      let (a, res) := setList (tf t) (alen (tf t) - k + 2) names' in
      match res with
      | Err e => (mkSO (mkAxis (alen (tp t) * k) (astate (tp t))) a s' 4, Err e)
      | Ok _ =>
          if namesCreated (tp t) then
            let (b, res) := setList (tp t) (alen (tp t) * k) (pointNamesAfter t idx) in (mkSO b a s' 4, res)
          else (mkSO (mkAxis (alen (tp t) * k) None) a s' 4, Ok tt)
      end
  end.
Proof.
  destruct H as [HP [HF _]]. unfold collapseFeaturesS. rewrite HF, HP. rewrite (Refers_indices _ (proj2 (proj2 (proj2 W))) _ _ RF).
  rewrite (proj2 (nodupb_NoDup idx) ND). reflexivity.
Qed.
Lemma sCollapse_is : sCollapse (oMat o) idx nameCells =
  (s1, if (List.length (ents s1) =? 0) && negb (alen (tp t) =? 0) then Err TypeErr
       else rmap (fun l => mkSp (alen (tp t) * k) (alen (tf t) - k + 2) (List.concat l) None None)
              (rmapM (collapsePoint (ents s1) idx (others idx (snf s1)) nameCells (snf s1 - k + 2)) (seq 0 (snp s1)))).
Proof. unfold sCollapse. fold s1. rewrite s_np, s_nf, s1_np, s1_nf. reflexivity. Qed.

(** a collapsed value that is zero *)
Theorem collapse_zero : forall p i, cell t p i = Some (PInt 0) -> In i idx ->
  exists e s', collapseFeaturesS o ids nameFt valueFt = (mkSO (tp t) (tf t) s' (oKind o), Err e) /\ sinv (PInt 0) s' /\ sameMatrix (PInt 0) (oMat o) s'.
Proof.
  intros p i C I. destruct s1_facts as [SI1 [SM SO]]. unfold cell in C. destruct (nth_error (rows t) p) as [row|] eqn:P; [|discriminate].
  assert (LP : p < snp s1) by (rewrite s1_np, <- (proj1 W); apply (nlt _ _ _ P)).
  assert (Z : val s1 p i = PInt 0). { rewrite (s1_val p row i P (LTi i I)). apply nth_error_nth. exact C. }
  rewrite front, sCollapse_is. destruct (_ && _).
  - exists TypeErr, s1. auto.
  - destruct (rmapM _ _) as [l|e] eqn:R.
    + exfalso. assert (X : nth_error (seq 0 (snp s1)) p = Some p) by (rewrite nth_error_seq; destruct (Nat.ltb_spec p (snp s1)); [reflexivity|lia]).
      destruct (rmapM_ok_nth _ _ R _ X) as [y [_ X3]].
      destruct (collapsePoint_zero s1 (proj1 SI1) SO idx nameCells ND s1_LT LNc p i LP I Z) as [e X'].
      unfold k in X3. congruence.
    + exists e, s1. auto.
Qed.

Hypothesis K : 0 < k.
Hypothesis DN : DistinctNames names'.
Hypothesis PN : astate (tp t) = None \/ FullyNamed (tp t).
Hypothesis NZ : forall p i v, In i idx -> cell t p i = Some v -> v <> PInt 0.
Lemma s1_NZ : forall p i, p < snp s1 -> In i idx -> val s1 p i <> PInt 0.
Proof.
  intros p i P I. rewrite s1_np, <- (proj1 W) in P. pose proof (nth_error_nth' (rows t) [] P) as R. rewrite (s1_val p _ i R (LTi i I)).
  apply (NZ p i _ I). unfold cell. rewrite R. apply nth_error_nth'. rewrite (proj1 (proj2 W)); [apply LTi; exact I|]. eapply nth_error_In; exact R.
Qed.
Lemma sCollapse_ok : sCollapse (oMat o) idx nameCells = (s1, Ok (made s1 idx nameCells)).
Proof.
  destruct s1_facts as [SI1 [SM SO]]. rewrite sCollapse_is.
  assert (NE : List.length (ents s1) =? 0 = false).
  { apply Nat.eqb_neq. intros X. apply length_zero_iff_nil in X. destruct (nth_error idx 0) as [i|] eqn:EI; [|apply nth_error_None in EI; unfold k in K; lia].
    apply (s1_NZ 0 i); [rewrite s1_np; exact NP|eapply nth_error_In; exact EI|]. unfold SparseSpec.val. rewrite X. reflexivity. }
  rewrite NE. cbn [andb].
  pose proof (sCollapse_ents s1 (proj1 SI1) SO idx nameCells ND s1_LT LNc s1_NZ) as R. unfold k. rewrite R. cbn [rmap rbind]. unfold made. rewrite s1_np, s1_nf, flat_map_concat_map. reflexivity.
Qed.

Theorem collapse_general : exists o', collapseFeaturesS o ids nameFt valueFt = (o', Ok tt) /\
  Inv (oPts o') /\ Inv (oFts o') /\ Placed (oMat o') /\ oKind o' = 4 /\
  alen (oPts o') = alen (tp t) * k /\ snp (oMat o') = alen (tp t) * k /\ snf (oMat o') = alen (oFts o') /\
  getNames (oFts o') = names' /\
  (forall p q s, nth_error (getNames (tp t)) p = Some (Some s) -> q < k -> nth_error (getNames (oPts o')) (p * k + q) = Some (Some (pointName (Some s) q))) /\
  (astate (tp t) = None -> astate (oPts o') = None) /\
  forall p row q i, nth_error (rows t) p = Some row -> nth_error idx q = Some i ->
    (forall c, c < List.length rest -> val (oMat o') (p * k + q) c = nth c (nonzeros (pick row rest)) (PInt 0)) /\
    val (oMat o') (p * k + q) (List.length rest) = nameOrIndex (tf t) i /\
    (forall m j i', nth_error idx m = Some j -> rank idx j = q -> In i' idx -> rank idx i' = m ->
       val (oMat o') (p * k + q) (S (List.length rest)) = nth i' row PNaN).
Proof.
  rewrite front, sCollapse_ok.
  pose proof (others_length idx (alen (tf t)) ND LTi) as LO. fold rest in LO.
  assert (LN : List.length names' = alen (tf t) - k + 2) by (unfold names'; rewrite app_length, map_length, LO; reflexivity).
  destruct (setList_ok (tf t) (alen (tf t) - k + 2) names' LN DN) as [a [-> [Ia [La Na]]]].
  pose proof (made_Placed s1 idx nameCells ND s1_LT LNc) as PL.
  assert (VAL : forall p row q i, nth_error (rows t) p = Some row -> nth_error idx q = Some i ->
    (forall c, c < List.length rest -> val (made s1 idx nameCells) (p * k + q) c = nth c (nonzeros (pick row rest)) (PInt 0)) /\
    val (made s1 idx nameCells) (p * k + q) (List.length rest) = nameOrIndex (tf t) i /\
    (forall m j i', nth_error idx m = Some j -> rank idx j = q -> In i' idx -> rank idx i' = m ->
       val (made s1 idx nameCells) (p * k + q) (S (List.length rest)) = nth i' row PNaN)).
  { intros p row q i P Q. assert (LP : p < snp s1) by (rewrite s1_np, <- (proj1 W); apply (nlt _ _ _ P)). assert (LQ : q < k) by apply (nlt _ _ _ Q).
    assert (RE : others idx (snf s1) = rest) by (unfold rest; rewrite s1_nf; reflexivity).
    split; [|split].
    - intros c C. rewrite <- RE in C. pose proof (made_retained s1 idx nameCells ND s1_LT LNc p q c LP LQ C) as X. fold k in X. rewrite X, RE. rewrite (s1_rest p row P). reflexivity.
    - pose proof (made_name s1 idx nameCells ND s1_LT LNc p q LP LQ) as X. fold k in X. rewrite LO. rewrite s1_nf in X.
      replace (alen (tf t) - List.length idx) with (alen (tf t) - k + 2 - 2) by (unfold k; lia). rewrite X. apply nth_error_nth. unfold nameCells. rewrite nth_error_map, Q. reflexivity.
    - intros m j i' M R I' R'. pose proof (made_value s1 idx nameCells ND s1_LT LNc p q LP LQ) as X. fold k in X. rewrite s1_nf in X. rewrite LO.
      replace (S (alen (tf t) - List.length idx)) with (alen (tf t) - k + 2 - 1) by (unfold k; lia). rewrite X.
      rewrite (sortedOf_at s1 idx ND s1_LT p q m j i' M R I' R'). apply s1_val; [exact P|]. apply LTi. exact I'. }
  assert (NPm : snp (made s1 idx nameCells) = alen (tp t) * k) by (cbn [made snp]; rewrite s1_np; reflexivity).
  assert (NFm : snf (made s1 idx nameCells) = alen a) by (cbn [made snf]; rewrite s1_nf, La; reflexivity).
  destruct PN as [E|FN].
  - unfold namesCreated. rewrite E. eexists. split; [reflexivity|]. cbn [oPts oFts oMat oKind alen astate].
    split; [apply fresh_Inv|]. split; [exact Ia|]. split; [exact PL|]. split; [reflexivity|]. split; [reflexivity|]. split; [exact NPm|]. split; [exact NFm|]. split; [exact Na|].
    split; [|split; [auto|exact VAL]].
    intros p q s N. exfalso. unfold getNames in N. rewrite names_inv_ensure in N. unfold names_inv in N. rewrite E in N.
    apply nth_error_In in N. apply repeat_spec in N. discriminate.
  - assert (NC : namesCreated (tp t) = true).
    { unfold namesCreated. destruct (astate (tp t)) eqn:E; [reflexivity|]. exfalso. destruct (FN 0 NP) as [s N].
      unfold getNames in N. rewrite names_inv_ensure in N. unfold names_inv in N. rewrite E in N. apply nth_error_In in N. apply repeat_spec in N. discriminate. }
    rewrite NC.
    destruct (setList_ok (tp t) (alen (tp t) * k) (pointNamesAfter t idx) (pointNames_length t W idx) (pointNames_distinct t W idx NP FN)) as [b [-> [Ib [Lb Nb]]]].
    eexists. split; [reflexivity|]. cbn [oPts oFts oMat oKind].
    split; [exact Ib|]. split; [exact Ia|]. split; [exact PL|]. split; [reflexivity|]. split; [exact Lb|]. split; [exact NPm|]. split; [exact NFm|]. split; [exact Na|].
    split; [|split; [|exact VAL]].
    + intros p q s N L. rewrite Nb. apply pointNames_nth; auto.
    + intros E. unfold namesCreated in NC. rewrite E in NC. discriminate.
Qed.

Hypothesis ZL : forall row, In row (rows t) -> ZerosLast (pick row rest).
Hypothesis SE : SelfInverse idx.
Theorem collapse_right : exists o' t', collapseFeaturesS o ids nameFt valueFt = (o', Ok tt) /\ Holds o' t' /\ wf t' /\ Placed (oMat o') /\
  alen (tp t') = alen (tp t) * k /\ getNames (tf t') = names' /\
  (forall p row q i, nth_error (rows t) p = Some row -> nth_error idx q = Some i ->
     nth_error (rows t') (p * k + q) = Some (pick row rest ++ [nameOrIndex (tf t) i; nth i row PNaN])) /\
  (forall p q s, nth_error (getNames (tp t)) p = Some (Some s) -> q < k -> nth_error (getNames (tp t')) (p * k + q) = Some (Some (pointName (Some s) q))) /\
  (astate (tp t) = None -> astate (tp t') = None).
Proof.
  destruct collapse_general as [o' [E [Ip [If_ [PL [_ [A1 [A2 [A3 [A4 [A5 [A6 V]]]]]]]]]]]].
  set (t' := mkTable (oPts o') (oFts o') (map (fun p => map (val (oMat o') p) (seq 0 (alen (oFts o')))) (seq 0 (alen (oPts o'))))).
  exists o', t'. split; [exact E|].
  assert (LF : alen (oFts o') = S (S (List.length rest))).
  { rewrite <- (getNames_length _ If_), A4. unfold names'. rewrite app_length, map_length. cbn. lia. }
  split; [|split; [|split; [exact PL|split; [exact A1|split; [exact A4|split; [|split; [exact A5|exact A6]]]]]]].
  - split; [reflexivity|]. split; [reflexivity|]. split; [cbn; congruence|]. split; [exact A3|]. cbn [t' tp tf rows]. intros i j I J.
    rewrite nth_error_map, nth_error_seq. destruct (Nat.ltb_spec i (alen (oPts o'))); [|lia]. cbn [option_map]. rewrite nth_error_map, nth_error_seq.
    destruct (Nat.ltb_spec j (alen (oFts o'))); [reflexivity|lia].
  - split; [cbn; rewrite map_length, seq_length; reflexivity|]. split; [|split; assumption]. cbn. intros r R. apply in_map_iff in R. destruct R as [p [<- _]]. rewrite map_length, seq_length. reflexivity.
  - intros p row q i P Q. destruct (V p row q i P Q) as [V1 [V2 V3]]. cbn [t' rows].
    assert (LR : p * k + q < alen (oPts o')).
    { rewrite A1, <- (proj1 W). pose proof (nlt _ _ _ P). pose proof (nlt _ _ _ Q). assert (S p * k <= List.length (rows t) * k) by (apply Nat.mul_le_mono_r; lia). cbn in H2. unfold k in *. lia. }
    rewrite nth_error_map, nth_error_seq. destruct (Nat.ltb_spec (p * k + q) (alen (oPts o'))); [|lia]. cbn [option_map]. f_equal. rewrite LF.
    replace (S (S (List.length rest))) with (List.length rest + 2) by lia. rewrite seq_app, map_app. f_equal.
    + apply nth_error_ext. intros c. unfold pick at 1. rewrite !nth_error_map, nth_error_seq. destruct (Nat.ltb_spec c (List.length rest)) as [C|C].
      * rewrite (nth_error_nth' rest 0 C). cbn [option_map]. f_equal. cbn [plus]. rewrite (V1 c C).
        rewrite nonzeros_prefix by (apply ZL; eapply nth_error_In; exact P). apply nth_error_nth. unfold pick. rewrite nth_error_map, (nth_error_nth' rest 0 C). reflexivity.
      * rewrite (proj2 (nth_error_None rest c) C). reflexivity.
    + cbn [seq map plus]. rewrite V2. destruct (SE q i Q) as [j [J R]].
      rewrite (V3 (rank idx i) j i J R); [reflexivity|eapply nth_error_In; exact Q|reflexivity].
Qed.
End Main.

(** increasing and decreasing orders *)
Lemma rank_increasing l : StronglySorted lt l -> forall q i, nth_error l q = Some i -> rank l i = q.
Proof.
  intros S q i Q. pose proof (sorted_rank l S i (nth_error_In _ _ Q)) as R.
  assert (N : NoDup l). { clear - S. induction S as [|x l S IH F]; constructor; [|exact IH]. intros I. rewrite Forall_forall in F. specialize (F x I). lia. }
  apply (proj1 (NoDup_nth_error l) N); [apply (nlt _ _ _ R)|congruence].
Qed.
Lemma SelfInverse_increasing l : StronglySorted lt l -> SelfInverse l.
Proof. intros S q i Q. exists i. rewrite (rank_increasing l S q i Q). auto. Qed.
Lemma rank_decreasing l : StronglySorted gt l -> forall q i, nth_error l q = Some i -> rank l i = List.length l - 1 - q.
Proof.
  induction 1 as [|x l S IH F]; intros q i Q; [destruct q; discriminate|]. rewrite Forall_forall in F. unfold rank. cbn [filter List.length].
  destruct q as [|q].
  - cbn in Q. injection Q as <-. rewrite Nat.ltb_irrefl. rewrite (StrictMainProofs.filter_all _ l); [lia|]. intros y Y. specialize (F y Y). apply Nat.ltb_lt. lia.
  - cbn in Q. specialize (IH q i Q). unfold rank in IH. pose proof (F i (nth_error_In _ _ Q)). pose proof (nlt _ _ _ Q). destruct (Nat.ltb_spec x i); [lia|]. rewrite IH. lia.
Qed.
Lemma SelfInverse_decreasing l : StronglySorted gt l -> SelfInverse l.
Proof.
  intros S q i Q. rewrite (rank_decreasing l S q i Q). pose proof (nlt _ _ _ Q) as L. set (m := List.length l - 1 - q).
  destruct (nth_error l m) as [j|] eqn:J; [|apply nth_error_None in J; unfold m in J; lia].
  exists j. split; [reflexivity|]. rewrite (rank_decreasing l S m j J). unfold m. lia.
Qed.
