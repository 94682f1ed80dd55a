(** merge of Sparse objects is the join (C75). *)
From Verif Require Import Base NamesModel NamesSpec NamesProofs TableModel TableSpec TableProofs TableOps MatchModel MatchSpec MatchProofs ElementsProofs GetSpec
  BinOpModel BinOpSpec BinOpProofs MergeModel MergeSpec MergeLoopProofs MergeColsProofs MergeJoinProofs MergeProofs MergeNamesProofs MergeMainProofs MergeMatModel MergeMatSpec MergeMatMain
  SparseModel SparseSpec SparseProofs SparseEqProofs SparseReshapeModel SparseReshapeSpec SparseReshapeProofs
  CopyModel MergeSparseModel MergeSparseSpec MergeSparseProofs MergeSparseStore.
From Verif Require MergeMatProofs SparseReshapeCollapse.
From Coq Require Import Sorted Permutation.
From Coq Require Import List. Import ListNotations.
Open Scope nat_scope.

(** ** one object *)
Section Side.
Variables (so : sobj) (t : table pval).
Hypothesis WT : wf t.
Hypothesis H : Holds so t.
Hypothesis SI : sinv (PInt 0) (oMat so).
Let s1 := sortInternal (oMat so) Fts false false.
Lemma side_sorted : sinv (PInt 0) s1 /\ sameMatrix (PInt 0) (oMat so) s1 /\ StronglySorted (lexlt Fts) (ents s1).
Proof.
  destruct (sortInternal_spec _ (PInt 0) (oMat so) Fts false false (proj1 SI) (or_intror (proj2 SI))) as [A [B [C _]]]. split; [exact A|]. split; [exact B|].
  exact (cacheOK_sorted _ Fts _ (proj2 A) C).
Qed.
Lemma side_val i j : i < alen (tp t) -> j < alen (tf t) -> val s1 i j = cv t i j.
Proof.
  intros I J. destruct side_sorted as [_ [[_ [_ S]] _]]. rewrite S. destruct H as [_ [_ [_ [_ R]]]]. specialize (R i j I J). change (cell t i j = Some (val (oMat so) i j)) in R. rewrite (cell_cv t i j WT I J) in R. congruence.
Qed.
Lemma side_shape : snp s1 = alen (tp t) /\ snf s1 = alen (tf t).
Proof. destruct side_sorted as [_ [[A [B _]] _]]. destruct H as [_ [_ [C [D _]]]]. split; congruence. Qed.
Lemma side_row i l : nth_error (rows t) i = Some l -> l = map (cv t i) (seq 0 (alen (tf t))) /\ i < alen (tp t).
Proof.
  intros E. assert (L : i < alen (tp t)) by (rewrite <- (proj1 WT); exact (nth_error_lt _ _ E)). split; [|exact L]. rewrite <- (row_cv t i WT L). symmetry. apply nth_error_nth. exact E.
Qed.
Lemma side_rowAt i l : nth_error (rows t) i = Some l -> rowAt (alen (tf t)) (ents s1) i = l.
Proof.
  intros E. destruct (side_row i l E) as [-> L]. rewrite rowAt_val. apply map_ext_in. intros j J. apply in_seq in J. apply side_val; lia.
Qed.
Lemma side_keys j : j < alen (tf t) -> (forall i, cell t i j <> Some (PInt 0)) -> keysOf j (ents s1) = map (fun l => at_ l j) (rows t).
Proof.
  intros J NZ. destruct side_sorted as [[A _] [_ S]]. destruct side_shape as [SP SF]. rewrite (fcol_vals s1 A S).
  - rewrite SP, (rows_cv t WT), map_map. apply map_ext_in. intros i I. apply in_seq in I. rewrite (side_val i j) by lia. symmetry. apply at_cv. exact J.
  - intros i I Z. apply (NZ i). rewrite SP in I. rewrite (cell_cv t i j WT I J). f_equal. rewrite <- (side_val i j I J). exact Z.
Qed.
Lemma side_stored (mR : list nat) k r : nth_error (rows t) k = Some r ->
  map ev (filter (fun e => (er e =? k) && negb (mem (ec e) mR)) (ents s1)) = nonzeros (unmatched mR r).
Proof.
  intros E. destruct (side_row k r E) as [-> L]. destruct side_sorted as [[A _] [_ S]]. destruct side_shape as [SP SF]. rewrite (frow_vals s1 A S (fun c => negb (mem c mR)) k). f_equal.
  unfold unmatched. rewrite map_length, seq_length, SF. rewrite pick_cv by (intros j J; apply filter_In in J; destruct J as [J _]; apply in_seq in J; lia).
  apply map_ext_in. intros j J. apply filter_In in J. destruct J as [J _]. apply in_seq in J. apply side_val; lia.
Qed.
Lemma side_seen : t = seen so.
Proof.
  pose proof (Holds_rows so t WT H (proj1 SI)) as R. destruct H as [A [B _]]. destruct t as [a b c]. cbn in *. unfold seen. rewrite A, B. f_equal. exact R.
Qed.

(** with the names in front *)
Variable add : nat.
Hypothesis AN : AllNamed (getNames (tp t)).
Lemma sparseKeys_named : sparseKeys (tp t) add = map (ptKey (tp t) add) (seq 0 (alen (tp t))).
Proof.
  unfold sparseKeys. cbv zeta. rewrite (mapi_seq _ None). assert (L : List.length (getNames (tp t)) = alen (tp t)) by (apply getNames_length; apply WT). rewrite L. apply map_ext_in. intros i I. apply in_seq in I. unfold ptKey.
  destruct (nth i (getNames (tp t)) None) as [n|] eqn:N; [reflexivity|]. exfalso. apply AN. rewrite <- N. apply nth_In. lia.
Qed.
Notation keys := (sparseKeys (tp t) add).
Lemma keyed_find0 (ks : list pval) i a k : nth_error ks i = Some k -> find (fun e : entry pval => (er e =? a + i) && (ec e =? 0)) (map (fun q => mkE (fst q) 0 (snd q)) (combine (seq a (List.length ks)) ks)) = Some (mkE (a + i) 0 k).
Proof.
  revert i a. induction ks as [|x ks IH]; intros i a E; [destruct i; discriminate|]. cbn [List.length seq combine map find er ec fst snd]. destruct i as [|i].
  - injection E as ->. rewrite Nat.add_0_r, Nat.eqb_refl. reflexivity.
  - replace (a =? a + S i) with false by (symmetry; apply Nat.eqb_neq; lia). cbn [andb]. replace (a + S i) with (S a + i) by lia. apply IH. exact E.
Qed.
Lemma find_app {A} (f : A -> bool) l l' : find f (l ++ l') = match find f l with Some x => Some x | None => find f l' end.
Proof. induction l as [|x l IH]; [reflexivity|]. cbn. destruct (f x); [reflexivity|exact IH]. Qed.
Lemma keyed_rowAt (ks : list pval) es n i k : nth_error ks i = Some k -> rowAt (S n) (keyed ks es) i = k :: rowAt n es i.
Proof.
  intros E. unfold rowAt. cbn [seq map]. f_equal.
  - unfold keyed, mapi. rewrite find_app. pose proof (keyed_find0 ks i 0 k E) as F. cbn [Nat.add] in F. rewrite F. reflexivity.
  - rewrite <- seq_shift, map_map. apply map_ext. intros j. unfold keyed, mapi. rewrite find_app.
    assert (N : find (fun e : entry pval => (er e =? i) && (ec e =? S j)) (map (fun p => mkE (fst p) 0 (snd p)) (combine (seq 0 (List.length ks)) ks)) = None).
    { generalize (combine (seq 0 (List.length ks)) ks). induction l as [|x l IH]; [reflexivity|]. cbn [map find er ec]. rewrite Nat.eqb_sym. cbn [Nat.eqb]. rewrite Nat.eqb_sym. rewrite Bool.andb_false_r. exact IH. }
    rewrite N. induction es as [|x es IH]; [reflexivity|]. cbn [map find er ec ev]. cbn [Nat.eqb]. destruct ((er x =? i) && (ec x =? j)); [reflexivity|exact IH].
Qed.
Lemma keyed_keys (ks : list pval) es : keysOf 0 (keyed ks es) = ks.
Proof.
  unfold keysOf, keyed. rewrite filter_app, map_app. assert (N : filter (fun e : entry pval => ec e =? 0) (map (fun e => mkE (er e) (S (ec e)) (ev e)) es) = []) by (induction es; [reflexivity|cbn; assumption]).
  rewrite N, app_nil_r. unfold mapi. generalize (seq_length (List.length ks) 0). generalize (seq 0 (List.length ks)). intros sq. revert sq. induction ks as [|x ks IH]; intros [|a sq] L; try discriminate L; [reflexivity|]. cbn [combine map filter ec fst snd Nat.eqb ev]. f_equal. apply IH. injection L as L. exact L.
Qed.
Lemma keyed_stored (ks : list pval) es mR k :
  map ev (filter (fun e => (er e =? k) && negb (mem (ec e) (0 :: map S mR))) (keyed ks es)) = map ev (filter (fun e => (er e =? k) && negb (mem (ec e) mR)) es).
Proof.
  unfold keyed. rewrite filter_app, map_app.
  assert (N : filter (fun e : entry pval => (er e =? k) && negb (mem (ec e) (0 :: map S mR))) (mapi (fun i k => mkE i 0 k) ks) = []).
  { unfold mapi. generalize (combine (seq 0 (List.length ks)) ks). induction l as [|x l IH]; [reflexivity|]. cbn [map filter er ec]. replace (mem 0 (0 :: map S mR)) with true by (symmetry; apply mem_In; left; reflexivity). cbn [negb]. rewrite Bool.andb_false_r. exact IH. }
  rewrite N. cbn [map app]. induction es as [|x es IH]; [reflexivity|]. cbn [map filter er ec ev].
  assert (M : mem (S (ec x)) (0 :: map S mR) = mem (ec x) mR).
  { apply eq_true_iff_eq. rewrite !mem_In. cbn [In]. rewrite in_map_iff. split; [intros [X|[y [X Y]]]; [discriminate|injection X as <-; exact Y]|intros X; right; eauto]. }
  rewrite M. destruct ((er x =? k) && negb (mem (ec x) mR)); cbn [map ev]; rewrite IH; reflexivity.
Qed.
Lemma unmatched_keyed mR v r : unmatched (0 :: map S mR) (v :: r) = unmatched mR r.
Proof.
  unfold unmatched. cbn [List.length seq filter]. replace (mem 0 (0 :: map S mR)) with true by (symmetry; apply mem_In; left; reflexivity). cbn [negb]. rewrite <- seq_shift.
  unfold pick. generalize (seq 0 (List.length r)). induction l as [|j l IH]; [reflexivity|]. cbn [map filter].
  assert (M : mem (S j) (0 :: map S mR) = mem j mR).
  { apply eq_true_iff_eq. rewrite !mem_In. cbn [In]. rewrite in_map_iff. split; [intros [X|[y [X Y]]]; [discriminate|injection X as <-; exact Y]|intros X; right; eauto]. }
  rewrite M. destruct (negb (mem j mR)); cbn [map]; rewrite IH; reflexivity.
Qed.
End Side.

(** ** cutting the union to the features of the result *)
Section Cut.
Variables (t o : table pval) (point feature : how) (mL mR : list nat).
Hypothesis WT : wf t.
Hypothesis WO : wf o.
Hypothesis M : Matching (tf t) (tf o) mL mR.
Hypothesis HI : feature = Intersection -> InOrder (tf t).
Let ln := getNames (tf t).
Let rn := getNames (tf o).
Definition cut0 (row : list pval) : list pval :=
  match feature with Intersection => pick mL row | LeftOnly => firstn (alen (tf t)) row | Union => row end.
Lemma cut0_cols (f : option nat * option nat -> pval) : cut0 (map f (joinCols Union ln rn)) = map f (joinCols feature ln rn).
Proof.
  assert (L : List.length ln = alen (tf t)) by (apply getNames_length; apply WT). unfold cut0, joinCols. destruct feature.
  - rewrite (Matching_in_order _ _ _ _ (proj2 (proj2 (proj2 WT))) M (HI eq_refl)). fold ln rn. unfold pick. rewrite map_map. apply map_ext_in. intros j J. apply filter_In in J. destruct J as [J _]. apply in_seq in J.
    rewrite map_app, map_map. unfold at_. rewrite app_nth1 by (rewrite map_length, seq_length; lia). apply nth_error_nth. rewrite nth_error_map, nth_error_seq. destruct (j <? List.length ln) eqn:B; [reflexivity|apply Nat.ltb_ge in B; lia].
  - reflexivity.
  - rewrite map_app. apply firstn_left. rewrite !map_length, seq_length. exact L.
Qed.
Lemma cut_keyed p (names : bool) row : spL p = (if names then 0 :: map S mL else mL) -> nL p = (if names then S (alen (tf t)) else alen (tf t)) -> (names = true -> row <> []) ->
  trim p feature names row = cut0 (if names then skipn 1 row else row).
Proof.
  intros A B N. unfold trim, cut0. rewrite A, B. destruct names; [|reflexivity]. destruct row as [|v row]; [elim (N eq_refl); reflexivity|]. destruct feature; [|reflexivity|reflexivity].
  unfold pick. cbn [map skipn]. rewrite map_map. reflexivity.
Qed.
Section Rows.
Variables (p : sprep) (q : matPrep) (m : nat -> nat -> bool) (names : bool) (LR RR : list (list pval)).
Hypothesis EQ : q = mkMat (mkPrep LR RR (spL p) (spR p) (sOnL p) (sOnR p)) (nL p) (nR p).
Hypothesis EL : spL p = (if names then 0 :: map S mL else mL).
Hypothesis ER : spR p = (if names then 0 :: map S mR else mR).
Hypothesis NLp : nL p = (if names then S (alen (tf t)) else alen (tf t)).
Hypothesis NRp : nR p = (if names then S (alen (tf o)) else alen (tf o)).
Hypothesis HWL : forall l, In l LR -> List.length l = nL p.
Hypothesis HWR : forall r, In r RR -> List.length r = nR p.
Hypothesis RL : forall i l, nth_error LR i = Some l -> rowAt (nL p) (sL p) i = l.
Hypothesis RRr : forall k r, nth_error RR k = Some r -> rowAt (nR p) (sR p) k = r.
Hypothesis KL : keysOf (sOnL p) (sL p) = map (fun l => at_ l (sOnL p)) LR.
Hypothesis KR : keysOf (sOnR p) (sR p) = map (fun r => at_ r (sOnR p)) RR.
Hypothesis HS : forall k r, nth_error RR k = Some r ->
  map ev (filter (fun e => (er e =? k) && negb (mem (ec e) (spR p))) (sR p)) = nonzeros (unmatched (spR p) r).
Hypothesis HZ : point = Union -> feature = Union -> forall r, In r RR -> existsb (fun l => pyEq (at_ r (sOnR p)) (at_ l (sOnL p))) LR = false ->
  ZerosLast (unmatched (spR p) r).
Hypothesis NF : 0 < alen (tf t).
Hypothesis OC : MatOutcome t o point Union m names q.
Lemma sparse_outcome :
  (~ Conflict t o m /\ exists l mk, sparseLoop p point feature names 0 (keysOf (sOnL p) (sL p)) = Ok (l, mk) /\
     Forall2 shownAs (l ++ sparseRest p point feature names mk) (map (fun rw => map (keptCell t o rw) (joinCols feature ln rn)) (joinRows point (alen (tp t)) (alen (tp o)) m)) /\
     List.length (joinCols feature ln rn) = match feature with Intersection => List.length mL | LeftOnly => alen (tf t) | Union => alen (tf t) + (alen (tf o) - List.length mL) end) \/
  (Conflict t o m /\ sparseLoop p point feature names 0 (keysOf (sOnL p) (sL p)) = Err InvalidArgumentValue).
Proof.
  assert (HLen : List.length (spL p) = List.length (spR p)) by (rewrite EL, ER; destruct names; [cbn [List.length]; rewrite !map_length; f_equal|]; apply M).
  assert (NDL : NoDup (spL p)) by (rewrite EL; destruct names; [apply shift_NoDup|]; apply M).
  assert (NDR : NoDup (spR p)) by (rewrite ER; destruct names; [apply shift_NoDup|]; apply M).
  assert (BL : forall x, In x (spL p) -> x < nL p).
  { rewrite EL, NLp. intros x X. destruct names; [|exact (mt_bl _ _ _ _ M x X)]. destruct X as [<-|X]; [lia|]. apply in_map_iff in X. destruct X as [y [<- Y]]. apply (mt_bl _ _ _ _ M) in Y. lia. }
  assert (BR : forall x, In x (spR p) -> x < nR p).
  { rewrite ER, NRp. intros x X. destruct names; [|exact (mt_br _ _ _ _ M x X)]. destruct X as [<-|X]; [lia|]. apply in_map_iff in X. destruct X as [y [<- Y]]. apply (mt_br _ _ _ _ M) in Y. lia. }
  assert (NM : (if names then 1 else 0) < nL p) by (rewrite NLp; destruct names; lia).
  pose proof (points_spec p point feature names LR RR HLen NDL NDR BL BR HWL HWR RL RRr KL KR HS HZ NM) as PS. cbv zeta in PS.
  pose proof (MergeMatProofs.matRows_spec point names q) as MS. rewrite EQ in MS. cbn [mp mwl mwr pLeft pRight pL pR onL onR] in MS. specialize (MS HLen NDL NDR BL BR HWR HWL). rewrite <- EQ in MS.
  destruct (forallb _ LR) eqn:FB.
  - destruct OC as [[NC OE]|[_ [l' OE]]]; [|rewrite OE in MS; discriminate MS]. left. split; [exact NC|]. destruct PS as [l [mk [PE F2]]]. exists l, mk. split; [exact PE|]. rewrite OE in MS. pose proof (f_equal fst MS) as MS1. pose proof (f_equal snd MS) as MS2. clear MS. cbn [fst snd] in MS1, MS2. match type of MS2 with Ok ?a = Ok ?b => assert (MS3 : a = b) by congruence end. clear MS2. rename MS3 into MS2.
    set (out := map (fun rw => map (kval rw) (pcols (spL p) (spR p) (nL p) (nR p))) (rowJoin point (sOnL p) (sOnR p) LR RR)) in *.
    assert (LC : List.length (pcols (spL p) (spR p) (nL p) (nR p)) = nL p + (nR p - List.length (spR p))) by (unfold pcols; rewrite app_length, !map_length, seq_length, (restR_length (spL p)); auto).
    split.
    + assert (X : map (trim p feature names) out = map cut0 (if names then map (skipn 1) out else out)).
      { transitivity (map (fun row => cut0 (if names then skipn 1 row else row)) out); [|clear; destruct names; [rewrite map_map|]; reflexivity].
        apply map_ext_in. intros row RW. apply cut_keyed; [exact EL|exact NLp|]. intros _ E. unfold out in RW. apply in_map_iff in RW. destruct RW as [rw [RW _]]. apply (f_equal (@List.length pval)) in RW. rewrite map_length, E, LC in RW. cbn in RW. destruct names; lia. }
      rewrite X, <- MS1, map_map in F2. erewrite map_ext in F2; [exact F2|]. intros rw. apply cut0_cols.
    + assert (LM : List.length mL = List.length mR) by apply M.
      assert (LU : List.length (joinCols Union ln rn) = alen (tf t) + (alen (tf o) - List.length mL)).
      { fold ln rn in MS2. rewrite MS2, LC, ER, NLp, NRp. destruct names; cbn [List.length]; rewrite ?map_length; lia. }
      destruct feature; [|exact LU|].
      * rewrite (Matching_in_order _ _ _ _ (proj2 (proj2 (proj2 WT))) M (HI eq_refl)). unfold joinCols. rewrite map_length. reflexivity.
      * unfold joinCols. rewrite map_length, seq_length. apply getNames_length. apply WT.
  - destruct OC as [[_ OE]|[C _]]; [|right; split; [exact C|exact PS]]. destruct MS as [l' MS]. rewrite OE in MS. discriminate MS.
Qed.
End Rows.
End Cut.

Section Final.
Variable floatOf : string -> option pval.
Variables (so oo : sobj) (t o : table pval) (point feature : how).
Hypothesis WT : wf t.
Hypothesis WO : wf o.
Hypothesis HT : Holds so t.
Hypothesis HO : Holds oo o.
Hypothesis ST : sinv (PInt 0) (oMat so).
Hypothesis SO : sinv (PInt 0) (oMat oo).
Hypothesis NT : Numbers t.
Hypothesis NO : Numbers o.
Let ln := getNames (tf t).
Let rn := getNames (tf o).
Let self1 := mkSO (oPts so) (oFts so) (sortInternal (oMat so) Fts false false) (oKind so).
Definition SparseOutcome (m : nat -> nat -> bool) (names : bool) (res : sobj * result unit) : Prop :=
  (~ Conflict t o m /\ exists r, res = (r, Ok tt) /\ SparseJoin t o point feature names m r) \/
  (Conflict t o m /\ exists r, res = (r, Err InvalidArgumentValue) /\ Holds r t /\ sinv (PInt 0) (oMat r)).
Lemma kept_number rw c : numberV (keptCell t o rw c).
Proof.
  unfold keptCell. destruct (valueAt t (fst rw) (fst c)) as [v|] eqn:V.
  - destruct (fst rw) as [i|]; [|discriminate]. destruct (fst c) as [j|]; [|discriminate]. exact (NT i j v V).
  - destruct (valueAt o (snd rw) (snd c)) as [w|] eqn:W; [|exact Logic.I]. destruct (snd rw) as [i|]; [|discriminate]. destruct (snd c) as [j|]; [|discriminate]. exact (NO i j w W).
Qed.
Lemma self1_holds : Holds self1 t /\ sinv (PInt 0) (oMat self1).
Proof.
  destruct (side_sorted so ST) as [A [[B [C D]] _]]. split; [|exact A]. destruct HT as [E [F [G [H R]]]]. split; [exact E|]. split; [exact F|]. cbn [self1 oMat]. split; [congruence|]. split; [congruence|].
  intros i j I J. rewrite (R i j I J). f_equal. symmetry. apply D.
Qed.
Lemma sparse_finish m names p (mL mR : list nat) : (names = true -> m = sameName t o) -> Nonempty t o point feature m ->
  (~ Conflict t o m /\ exists l mk, sparseLoop p point feature names 0 (keysOf (sOnL p) (sL p)) = Ok (l, mk) /\
     Forall2 shownAs (l ++ sparseRest p point feature names mk) (map (fun rw => map (keptCell t o rw) (joinCols feature ln rn)) (joinRows point (alen (tp t)) (alen (tp o)) m)) /\
     List.length (joinCols feature ln rn) = match feature with Intersection => List.length mL | LeftOnly => alen (tf t) | Union => alen (tf t) + (alen (tf o) - List.length mL) end) \/
  (Conflict t o m /\ sparseLoop p point feature names 0 (keysOf (sOnL p) (sL p)) = Err InvalidArgumentValue) ->
  SparseOutcome m names
    (match sparseRows floatOf so oo point feature names p mL with
     | Err e => (self1, Err e)
     | Ok s' =>
         match mergedNames (seen so) (seen oo) point feature names (matchingNames (oFts so) (oFts oo)) (snp s') (snf s') with
         | Ok (pa, fa) => (mkSO pa fa s' 2, Ok tt)
         | Err e => (mkSO (oPts so) (oFts so) s' 2, Err e)
         end
     end).
Proof.
  intros HN [NF [NR NC]] [[NCf [l [mk [E [F2 LC]]]]]|[C E]]; unfold sparseRows; rewrite E; cbn [rbind fst snd].
  - left. split; [exact NCf|]. pose proof (proj1 (proj2 HT)) as FT. pose proof (proj1 (proj2 HO)) as FO. rewrite FT, FO, <- LC.
    set (full := map (fun rw => map (keptCell t o rw) (joinCols feature ln rn)) (joinRows point (alen (tp t)) (alen (tp o)) m)) in *.
    destruct (build_spec floatOf (List.length (joinCols feature ln rn)) (l ++ sparseRest p point feature names mk) full F2) as [s' [-> [SI [SP [SF SV]]]]].
    + intros r R. unfold full in R. apply in_map_iff in R. destruct R as [rw [<- _]]. apply map_length.
    + intros r v R V. unfold full in R. apply in_map_iff in R. destruct R as [rw [<- _]]. apply in_map_iff in V. destruct V as [c [<- _]]. apply kept_number.
    + intros X. unfold full in F2. destruct (joinRows point (alen (tp t)) (alen (tp o)) m) as [|rw rws]; [congruence|]. cbn [map] in F2. inversion F2 as [|pt row pts rest S _ E1 E2]. cbn [List.concat] in X. apply app_eq_nil in X. destruct X as [X _].
      destruct S as [z [Z [Z0|Z0]]]; [|contradiction]. subst z pt. cbn [repeat app] in Z. fold ln rn in NC. destruct (joinCols feature ln rn); [congruence|discriminate Z].
    + rewrite <- (side_seen so t WT HT ST), <- (side_seen oo o WO HO SO). rewrite SP, SF. unfold full. rewrite map_length. unfold ln, rn.
      destruct (mergedNames_ok t o WT WO point feature names (List.length (joinRows point (alen (tp t)) (alen (tp o)) m))) as [pa [fa [-> [A [B [C [D [Ef F]]]]]]]].
      { destruct names; [left; rewrite HN by reflexivity; reflexivity|right; reflexivity]. }
      eexists. split; [reflexivity|]. unfold SparseJoin. cbv zeta. cbn [oPts oFts oMat]. split; [exact A|]. split; [exact B|]. split; [exact SI|]. split; [rewrite SP; apply map_length|]. split; [exact SF|]. split; [exact C|]. split; [exact D|]. split; [exact Ef|]. split.
      * rewrite F. destruct names; [rewrite HN by reflexivity; reflexivity|reflexivity].
      * intros i j rw c I J. apply (SV i j (map (keptCell t o rw) (joinCols feature ln rn))).
        { unfold full. rewrite nth_error_map, I. reflexivity. }
        { rewrite nth_error_map. fold ln rn in J. rewrite J. reflexivity. }
  - right. split; [exact C|]. eexists. split; [reflexivity|]. exact self1_holds.
Qed.

(** by a feature *)
Lemma own_unmatched mL mR k r : Matching (tf t) (tf o) mL mR -> nth_error (rows o) k = Some r -> ownValues t o k = unmatched mR r.
Proof.
  intros M E. destruct (side_row o WO k r E) as [-> L]. unfold ownValues, unmatched. rewrite map_length, seq_length. rewrite pick_cv by (intros j J; apply filter_In in J; destruct J as [J _]; apply in_seq in J; lia).
  rewrite (filter_ext (fun j => negb (hasPartner (getNames (tf o)) (getNames (tf t)) j)) (fun i => negb (mem i mR))) by (intros j; rewrite (mR_partner (tf t) (tf o) mL mR (proj2 (proj2 (proj2 WT))) (proj2 (proj2 (proj2 WO))) M); reflexivity).
  assert (G : forall js, (forall j, In j js -> j < alen (tf o)) -> flat_map (fun j => match cell o k j with Some v => [v] | None => [] end) js = map (cv o k) js).
  { induction js as [|j js IH]; intros J; [reflexivity|]. cbn [flat_map map]. rewrite (cell_cv o k j WO L (J j (or_introl eq_refl))), IH by (intros x X; apply J; right; exact X). reflexivity. }
  apply G. intros j J. apply filter_In in J. destruct J as [J _]. apply in_seq in J. lia.
Qed.
Lemma sparse_on mL mR s j j' : Matching (tf t) (tf o) mL mR -> (feature = Intersection -> InOrder (tf t)) ->
  nth_error ln j = Some (Some s) -> nth_error rn j' = Some (Some s) ->
  (forall i, cell t i j <> Some (PInt 0)) -> (forall i, cell o i j' <> Some (PInt 0)) ->
  (point = Union -> feature = Union -> RestShown t o (sameValue t o j j')) -> Nonempty t o point feature (sameValue t o j j') ->
  exists p, sparseOn so oo (ents (sortInternal (oMat so) Fts false false)) (ents (sortInternal (oMat oo) Fts false false)) s mL mR = Ok p /\
  SparseOutcome (sameValue t o j j') false
    (match sparseRows floatOf so oo point feature false p mL with
     | Err e => (self1, Err e)
     | Ok s' =>
         match mergedNames (seen so) (seen oo) point feature false (matchingNames (oFts so) (oFts oo)) (snp s') (snf s') with
         | Ok (pa, fa) => (mkSO pa fa s' 2, Ok tt)
         | Err e => (mkSO (oPts so) (oFts so) s' 2, Err e)
         end
     end).
Proof.
  intros M HI HJ HJ' ZT ZO RS NE. unfold sparseOn. pose proof (proj1 (proj2 HT)) as FT. pose proof (proj1 (proj2 HO)) as FO. rewrite FT, FO.
  assert (IT : Inv (tf t)) by apply WT. assert (IO : Inv (tf o)) by apply WO.
  rewrite (getIndexByName_nth _ _ _ IT HJ), (getIndexByName_nth _ _ _ IO HJ'). cbn [rbind]. eexists. split; [reflexivity|].
  assert (Bj : j < alen (tf t)) by (rewrite <- (getNames_length _ IT); exact (nth_error_lt _ _ HJ)).
  assert (Bj' : j' < alen (tf o)) by (rewrite <- (getNames_length _ IO); exact (nth_error_lt _ _ HJ')).
  rewrite <- FT, <- FO. apply (sparse_finish _ _ _ mL mR); [discriminate|exact NE|]. rewrite FT, FO.
  destruct (matOn_ok t o point Union WT WO mL mR M s j j' HJ HJ') as [q [Q OC]]; [discriminate|discriminate|].
  unfold matOn in Q. rewrite (getIndexByName_nth _ _ _ IT HJ), (getIndexByName_nth _ _ _ IO HJ') in Q. cbn [rbind] in Q.
  apply (sparse_outcome t o point feature mL mR WT M HI _ q _ false (rows t) (rows o)); cbn [sL sR nL nR spL spR sOnL sOnR]; auto.
  - congruence.
  - apply WT.
  - apply WO.
  - exact (side_rowAt so t WT HT ST).
  - exact (side_rowAt oo o WO HO SO).
  - exact (side_keys so t WT HT ST j Bj ZT).
  - exact (side_keys oo o WO HO SO j' Bj' ZO).
  - exact (side_stored oo o WO HO SO mR).
  - intros P F r R X. apply In_nth_error in R. destruct R as [k K]. rewrite <- (own_unmatched mL mR k r M K). destruct (side_row o WO k r K) as [Er L]. apply (RS P F k L). intros i I.
    apply not_true_is_false. intros Y. apply not_true_iff_false in X. apply X. apply existsb_exists. exists (map (cv t i) (seq 0 (alen (tf t)))). split.
    + rewrite (rows_cv t WT). apply in_map_iff. exists i. split; [reflexivity|]. apply in_seq. lia.
    + rewrite Er, !at_cv by assumption. unfold sameValue in Y. rewrite (cell_cv t i j WT I Bj), (cell_cv o k j' WO L Bj') in Y. rewrite pyEq_sym. exact Y.
  - apply NE.
Qed.
(** by the names of the points *)
Lemma named_rows (tb : table pval) add i l : wf tb -> nth_error (mapi (fun i row => ptKey (tp tb) add i :: row) (rows tb)) i = Some l ->
  exists r, nth_error (rows tb) i = Some r /\ l = ptKey (tp tb) add i :: r.
Proof.
  intros W E. rewrite (mapi_seq _ []) in E. rewrite nth_error_map, nth_error_seq in E. destruct (i <? List.length (rows tb)) eqn:B; [|discriminate]. cbn [option_map Nat.add] in E. injection E as <-. apply Nat.ltb_lt in B.
  destruct (nth_error_is_some (rows tb) (i := i) B) as [r R]. exists r. split; [exact R|]. rewrite (nth_error_nth _ _ [] R). reflexivity.
Qed.
Lemma named_keys (tb : table pval) add : wf tb -> AllNamed (getNames (tp tb)) -> forall i r, nth_error (rows tb) i = Some r -> nth_error (sparseKeys (tp tb) add) i = Some (ptKey (tp tb) add i).
Proof.
  intros W AN i r R. rewrite (sparseKeys_named tb W add AN), nth_error_map, nth_error_seq. apply nth_error_lt in R. rewrite (proj1 W) in R. apply Nat.ltb_lt in R. rewrite R. reflexivity.
Qed.
Lemma named_keys_all (tb : table pval) add : wf tb -> AllNamed (getNames (tp tb)) -> sparseKeys (tp tb) add = map (fun l => at_ l 0) (mapi (fun i row => ptKey (tp tb) add i :: row) (rows tb)).
Proof.
  intros W AN. rewrite (sparseKeys_named tb W add AN), (mapi_seq _ []), map_map, (proj1 W). reflexivity.
Qed.
Lemma sparse_names mL mR : Matching (tf t) (tf o) mL mR -> (feature = Intersection -> InOrder (tf t)) ->
  AllNamed (getNames (tp t)) -> AllNamed (getNames (tp o)) ->
  (point = Union -> feature = Union -> RestShown t o (sameName t o)) -> Nonempty t o point feature (sameName t o) ->
  SparseOutcome (sameName t o) true
    (match sparseRows floatOf so oo point feature true (sparseNames so oo (ents (sortInternal (oMat so) Fts false false)) (ents (sortInternal (oMat oo) Fts false false)) mL mR) mL with
     | Err e => (self1, Err e)
     | Ok s' =>
         match mergedNames (seen so) (seen oo) point feature true (matchingNames (oFts so) (oFts oo)) (snp s') (snf s') with
         | Ok (pa, fa) => (mkSO pa fa s' 2, Ok tt)
         | Err e => (mkSO (oPts so) (oFts so) s' 2, Err e)
         end
     end).
Proof.
  intros M HI AT AO RS NE. pose proof (proj1 HT) as PT. pose proof (proj1 HO) as PO. pose proof (proj1 (proj2 HT)) as FT. pose proof (proj1 (proj2 HO)) as FO.
  apply (sparse_finish _ _ _ mL mR); [reflexivity|exact NE|]. unfold sparseNames. rewrite PT, PO, FT, FO.
  pose proof (matNames_ok t o point Union WT WO mL mR M) as OC. specialize (OC ltac:(discriminate)).
  eapply (sparse_outcome t o point feature mL mR WT M HI _ _ _ true (mapi (fun i row => ptKey (tp t) 0 i :: row) (rows t)) (mapi (fun i row => ptKey (tp o) (alen (tp t)) i :: row) (rows o))); cbn [sL sR nL nR spL spR sOnL sOnR].
  - reflexivity.
  - reflexivity.
  - reflexivity.
  - reflexivity.
  - reflexivity.
  - intros l L. apply mapi_In in L. destruct L as [i [r [R ->]]]. cbn [List.length]. f_equal. apply WT. exact (nth_error_In _ _ R).
  - intros l L. apply mapi_In in L. destruct L as [i [r [R ->]]]. cbn [List.length]. f_equal. apply WO. exact (nth_error_In _ _ R).
  - intros i l L. apply (named_rows t 0 i l WT) in L. destruct L as [r [R ->]]. rewrite (keyed_rowAt _ _ _ i (ptKey (tp t) 0 i)) by exact (named_keys t 0 WT AT i r R). f_equal. exact (side_rowAt so t WT HT ST i r R).
  - intros i l L. apply (named_rows o (alen (tp t)) i l WO) in L. destruct L as [r [R ->]]. rewrite (keyed_rowAt _ _ _ i (ptKey (tp o) (alen (tp t)) i)) by exact (named_keys o (alen (tp t)) WO AO i r R). f_equal. exact (side_rowAt oo o WO HO SO i r R).
  - rewrite keyed_keys. exact (named_keys_all t 0 WT AT).
  - rewrite keyed_keys. exact (named_keys_all o (alen (tp t)) WO AO).
  - intros k l L. apply (named_rows o (alen (tp t)) k l WO) in L. destruct L as [r [R ->]]. rewrite keyed_stored, unmatched_keyed. exact (side_stored oo o WO HO SO mR k r R).
  - intros P F l L X. apply In_nth_error in L. destruct L as [k L]. apply (named_rows o (alen (tp t)) k l WO) in L. destruct L as [r [R ->]]. rewrite unmatched_keyed, <- (own_unmatched mL mR k r M R).
    destruct (side_row o WO k r R) as [_ L]. apply (RS P F k L). intros i I. apply not_true_is_false. intros Y. apply not_true_iff_false in X. apply X. apply existsb_exists.
    exists (ptKey (tp t) 0 i :: nth i (rows t) []). split; [|cbn [at_ nth]; rewrite key_pyEq by lia; exact Y].
    apply mapi_In. exists i, (nth i (rows t) []). split; [|reflexivity]. apply nth_error_nth'. rewrite (proj1 WT). exact I.
  - apply NE.
  - unfold matNames in OC. exact OC.
Qed.
Lemma sparseMerge_spec on m : namesCreated (tf t) = true -> namesCreated (tf o) = true -> (on = None -> namesCreated (tp t) = true /\ namesCreated (tp o) = true) ->
  JoinKey t o on m -> UniqueKey t o on -> KeysStored t o on -> (point = Union -> feature = Union -> RestShown t o m) -> Nonempty t o point feature m ->
  (feature = Intersection -> InOrder (tf t)) ->
  (~ Conflict t o m /\ exists r, sparseMerge floatOf so oo point feature on = (r, Ok tt) /\ SparseJoin t o point feature (byNames on) m r) \/
  (Conflict t o m /\ exists r, sparseMerge floatOf so oo point feature on = (r, Err InvalidArgumentValue) /\ Holds r t /\ sinv (PInt 0) (oMat r)).
Proof.
  intros FT FO PN JK UK KS RS NE HI. pose proof (proj1 HT) as PT. pose proof (proj1 HO) as PO. pose proof (proj1 (proj2 HT)) as AT. pose proof (proj1 (proj2 HO)) as AO.
  pose proof (side_seen so t WT HT ST) as SET. pose proof (side_seen oo o WO HO SO) as SEO.
  unfold sparseMerge. destruct (matchingIdx_ok t o WT WO) as [mL [mR [MI M]]].
  assert (G1 : match on with None => negb (namesCreated (oPts so) && namesCreated (oPts oo)) | _ => false end = false).
  { rewrite PT, PO. destruct on; [reflexivity|]. destruct (PN eq_refl) as [-> ->]. reflexivity. }
  rewrite G1. assert (G2 : negb (namesCreated (oFts so) && namesCreated (oFts oo)) = false) by (rewrite AT, AO, FT, FO; reflexivity). rewrite G2.
  assert (MI' : matchingIdx (oFts so) (oFts oo) = Ok (mL, mR)) by (rewrite AT, AO; exact MI). rewrite MI'. fold self1.
  assert (KE : forall k, keyName (seen so) (seen oo) k = keyName t o k) by (intros k; rewrite <- SET, <- SEO; reflexivity).
  destruct JK as [|s j j' HJ HJ'|s j HJ HJ'].
  - destruct KS as [K1 K2]. exact (sparse_names mL mR M HI K1 K2 RS NE).
  - destruct UK as [k [k' [K [K' U]]]]. destruct KS as [K1 K2].
    assert (k = j) by exact (names_Distinct _ (proj2 (proj2 (proj2 WT))) _ _ _ K HJ). assert (k' = j') by exact (names_Distinct _ (proj2 (proj2 (proj2 WO))) _ _ _ K' HJ'). subst k k'.
    rewrite KE, (keyName_name t o s j j' WT WO HJ HJ' U). cbn [rmap].
    destruct (sparse_on mL mR s j j' M HI HJ HJ' (fun i => K1 i j HJ) (fun i => K2 i j' HJ') RS NE) as [p [-> OC]]. exact OC.
  - destruct UK as [k [s' [E [K [K' U]]]]]. apply Nat2Z.inj in E. subst k. assert (s' = s) by congruence. subst s'. cbn [KeysStored] in KS. rewrite Nat2Z.id in KS.
    rewrite KE, (keyName_index t o s j WT WO HJ HJ' U). cbn [rmap].
    destruct (sparse_on mL mR s j j M HI HJ HJ' (fun i => proj1 (KS i)) (fun i => proj2 (KS i)) RS NE) as [p [-> OC]]. exact OC.
Qed.
End Final.
