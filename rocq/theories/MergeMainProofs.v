(** merge computes the join (C16). *)
From Verif Require Import Base NamesModel NamesSpec NamesProofs TableModel TableSpec TableProofs TableOps MatchModel MatchSpec MatchProofs ElementsProofs ElementsCalcProofs
  FillMatchProofs FlatProofs BinOpModel BinOpSpec BinOpProofs MergeModel MergeSpec MergeLoopProofs MergeColsProofs MergeJoinProofs MergeProofs MergeNamesProofs.
From Coq Require Import Sorted QArith.
Open Scope nat_scope.

Lemma getIndexByName_nth a s j : Inv a -> nth_error (getNames a) j = Some (Some s) -> getIndexByName a s = Ok j.
Proof.
  intros I H. assert (D : dmem s (names_dict a) = true).
  { destruct (Inv_facts a I) as [_ [_ F]]. unfold getNames in H. rewrite names_inv_ensure in H. apply dmem_dget. exists j. apply F. exact H. }
  rewrite (getIndexByName_found _ _ D). f_equal. exact (names_Distinct _ I _ _ _ (found_spec _ _ I D) H).
Qed.
Lemma map_row n t l : (forall j, In j l -> j < alen (tf t)) -> forall i, pick l (map (cv t i) (seq 0 (alen (tf t)))) = map (reads n t i) (map SCol l).
Proof. intros H i. rewrite (pick_cv t i _ l H), map_map. reflexivity. Qed.
Lemma whole_rows n t : wf t -> rows t = map (fun i => map (reads n t i) (map SCol (seq 0 (alen (tf t))))) (seq 0 (alen (tp t))).
Proof. intros W. rewrite (rows_cv t W) at 1. apply map_ext. intros i. rewrite map_map. reflexivity. Qed.
Lemma picked_rows n t l : wf t -> (forall j, In j l -> j < alen (tf t)) -> map (pick l) (rows t) = map (fun i => map (reads n t i) (map SCol l)) (seq 0 (alen (tp t))).
Proof. intros W H. rewrite (rows_cv t W) at 1. rewrite map_map. apply map_ext. intros i. apply map_row. exact H. Qed.
Lemma rangeOf_rows {A} (f : nat -> A -> pval) (l : list A) n : 0 < n -> rangeOf (map (fun i => map (f i) l) (seq 0 n)) = seq 0 (List.length l).
Proof. destruct n; [lia|]. intros _. cbn [seq map rangeOf]. rewrite map_length. reflexivity. Qed.
Lemma filter_prefix (f : nat -> bool) n k : k < n -> (forall j, j <= k -> f j = true) -> nth_error (filter f (seq 0 n)) k = Some k.
Proof.
  intros Hk F. replace n with (S k + (n - S k)) by lia. rewrite seq_app, filter_app.
  assert (E : filter f (seq 0 (S k)) = seq 0 (S k)).
  { assert (G : forall a m, (forall x, a <= x < a + m -> f x = true) -> filter f (seq a m) = seq a m).
    { intros a m. revert a. induction m as [|m IH]; intros a H; cbn; [reflexivity|]. rewrite (H a) by lia. f_equal. apply IH. intros x X. apply H. lia. }
    apply G. intros x X. apply F. lia. }
  rewrite E, nth_error_app1 by (rewrite seq_length; lia). rewrite (nth_error_nth' _ 0) by (rewrite seq_length; lia). rewrite seq_nth by lia. reflexivity.
Qed.

Section Main.
Variables (t o : table pval) (point feature : how).
Hypothesis WT : wf t.
Hypothesis WO : wf o.
Hypothesis P0 : 0 < alen (tp t).
Hypothesis Q0 : 0 < alen (tp o).
Variables (mL mR : list nat).
Hypothesis M : Matching (tf t) (tf o) mL mR.
Let IT : Inv (tf t). Proof. apply WT. Qed.
Let IO : Inv (tf o). Proof. apply WO. Qed.
Let ln := getNames (tf t).
Let rn := getNames (tf o).

Lemma prepareOn_ok s j j' : nth_error ln j = Some (Some s) -> nth_error rn j' = Some (Some s) ->
  NoRefill t o (sameValue t o j j') -> (feature = Intersection -> InOrder (tf t)) ->
  (feature = LeftOnly -> InOrder (tf t) /\ forall x, x < j -> hasPartner ln rn x = true) ->
  exists p, prepareOn t o feature s mL mR = Ok p /\ Outcome t o point feature (sameValue t o j j') false p.
Proof.
  intros HJ HJ' NR HI HL. unfold prepareOn. rewrite (getIndexByName_nth _ _ _ IT HJ), (getIndexByName_nth _ _ _ IO HJ'). cbn [rbind].
  assert (Bj : j < alen (tf t)) by (rewrite <- (getNames_length _ IT); exact (nth_error_lt _ _ HJ)).
  assert (Bj' : j' < alen (tf o)) by (rewrite <- (getNames_length _ IO); exact (nth_error_lt _ _ HJ')).
  assert (PJ : partner ln rn j = Some j') by (apply (partner_iff ln rn j j' (names_Distinct _ IO)); eauto).
  pose proof PJ as PJ0. apply (mt_pairs _ _ _ _ M) in PJ. destruct PJ as [loc [K1 K2]].
  assert (IL : indexOf j mL = Some loc) by (apply (indexOf_nth _ _ _ (mt_ndl _ _ _ _ M) K1)).
  pose proof (nth_error_lt _ _ K1) as B1. pose proof (nth_error_lt _ _ K2) as B2.
  assert (SR : srcAt (map SCol mR) loc = SCol j') by (rewrite srcAt_map by exact B2; f_equal; apply nth_error_nth; exact K2).
  assert (SL : srcAt (map SCol mL) loc = SCol j) by (rewrite srcAt_map by exact B1; f_equal; apply nth_error_nth; exact K1).
  destruct feature; rewrite ?IL; eexists; (split; [reflexivity|]).
  - assert (IO' := HI eq_refl). rewrite (picked_rows 0 t mL WT (mt_bl _ _ _ _ M)), (picked_rows (alen (tp t)) o mR WO (mt_br _ _ _ _ M)), !rangeOf_rows by assumption.
    eapply (on_outcome t o point Intersection _ _ _ _ WT WO (base_inter t o mL mR WT M IO') P0 Q0 j j' loc loc); cbn [pLeft pRight pL pR onL onR]; rewrite ?map_length; auto.
    rewrite (mt_len _ _ _ _ M). reflexivity.
  - eapply (on_outcome t o point Union _ _ _ _ WT WO (base_union t o mL mR WT WO M) P0 Q0 j j' j j'); cbn [pLeft pRight pL pR onL onR]; rewrite ?map_length, ?seq_length; auto.
    + apply whole_rows. exact WT.
    + apply whole_rows. exact WO.
    + apply srcAt_seq. exact Bj.
    + apply srcAt_seq. exact Bj'.
  - destruct (HL eq_refl) as [IO' HK]. assert (EL : loc = j).
    { rewrite (Matching_in_order _ _ _ _ IT M IO') in K1. fold ln rn in K1. assert (X : nth_error (filter (hasPartner ln rn) (seq 0 (List.length ln))) j = Some j).
      { apply filter_prefix; [exact (nth_error_lt _ _ HJ)|]. intros x X. destruct (Nat.eq_dec x j) as [->|]; [|apply HK; lia]. apply hasPartner_iff. eauto. }
      assert (ND : NoDup (filter (hasPartner ln rn) (seq 0 (List.length ln)))) by (apply NoDup_filter, seq_NoDup).
      apply (proj1 (NoDup_nth_error _) ND); [exact (nth_error_lt _ _ K1)|]. congruence. }
    subst loc. rewrite (picked_rows (alen (tp t)) o mR WO (mt_br _ _ _ _ M)), !rangeOf_rows by assumption.
    eapply (on_outcome t o point LeftOnly _ _ _ _ WT WO (base_left t o mL mR WT M) P0 Q0 j j' j j); cbn [pLeft pRight pL pR onL onR]; rewrite ?map_length, ?seq_length; auto.
    + apply whole_rows. exact WT.
    + apply srcAt_seq. exact Bj.
Qed.
Lemma rangeOf_keyed {A} (f : nat -> pval) (g : nat -> A -> pval) (l : list A) n : 0 < n -> rangeOf (map (fun i => f i :: map (g i) l) (seq 0 n)) = 0 :: map S (seq 0 (List.length l)).
Proof. destruct n; [lia|]. intros _. cbn [seq map rangeOf]. cbn [List.length]. rewrite map_length, seq_shift. reflexivity. Qed.
Lemma width_keyed {A} (f : nat -> pval) (g : nat -> A -> pval) (l : list A) n : 0 < n -> width (map (fun i => f i :: map (g i) l) (seq 0 n)) = Ok (S (List.length l)).
Proof. destruct n; [lia|]. intros _. cbn [seq map width]. cbn [List.length]. rewrite map_length. reflexivity. Qed.
Lemma prepareNames_ok : NoRefill t o (sameName t o) -> (feature = Intersection -> InOrder (tf t)) ->
  exists p, prepareNames false t o feature mL mR = Ok p /\ Outcome t o point feature (sameName t o) true p.
Proof.
  intros NR HI. unfold prepareNames. cbv zeta.
  assert (KL : mapi (fun i row => ptKey (tp t) 0 i :: row) (rows t) = map (fun i => ptKey (tp t) 0 i :: map (reads 0 t i) (map SCol (seq 0 (alen (tf t))))) (seq 0 (alen (tp t)))).
  { rewrite (mapi_rows _ t WT). apply map_ext. intros i. rewrite map_map. reflexivity. }
  assert (KR : mapi (fun i row => ptKey (tp o) (alen (tp t)) i :: row) (rows o) = map (fun i => ptKey (tp o) (alen (tp t)) i :: map (reads (alen (tp t)) o i) (map SCol (seq 0 (alen (tf o))))) (seq 0 (alen (tp o)))).
  { rewrite (mapi_rows _ o WO). apply map_ext. intros i. rewrite map_map. reflexivity. }
  assert (KP : mapi (fun i pt => ptKey (tp o) (alen (tp t)) i :: pick mR pt) (rows o) = map (fun i => ptKey (tp o) (alen (tp t)) i :: map (reads (alen (tp t)) o i) (map SCol mR)) (seq 0 (alen (tp o)))).
  { rewrite (mapi_rows _ o WO). apply map_ext. intros i. f_equal. apply map_row. exact (mt_br _ _ _ _ M). }
  destruct feature.
  - assert (IO' := HI eq_refl).
    assert (KI : mapi (fun i pt => ptKey (tp t) 0 i :: map snd (filter (fun q => mem (fst q) mL) (combine (seq 0 (List.length pt)) pt))) (rows t) =
                 map (fun i => ptKey (tp t) 0 i :: map (reads 0 t i) (map SCol mL)) (seq 0 (alen (tp t)))).
    { rewrite (mapi_rows _ t WT). apply map_ext. intros i. f_equal. rewrite (filter_positions (fun x => mem x mL)), map_length, seq_length.
      assert (E : filter (fun x => mem x mL) (seq 0 (alen (tf t))) = mL).
      { assert (G : filter (fun x => mem x mL) (seq 0 (alen (tf t))) = filter (hasPartner (getNames (tf t)) (getNames (tf o))) (seq 0 (List.length (getNames (tf t))))).
        { rewrite (getNames_length _ IT). apply filter_ext_in. intros x X. apply eq_true_iff_eq. rewrite mem_In, hasPartner_iff. split.
          - intros I. apply In_nth_error in I. destruct I as [k K]. pose proof (nth_error_lt _ _ K) as B. rewrite (mt_len _ _ _ _ M) in B.
            destruct (nth_error mR k) as [y|] eqn:Y; [|apply nth_error_None in Y; lia]. exists y. apply (mt_pairs _ _ _ _ M). eauto.
          - intros [y Y]. apply (mt_pairs _ _ _ _ M) in Y. destruct Y as [k [K _]]. eapply nth_error_In. exact K. }
        rewrite G. symmetry. apply (Matching_in_order _ _ _ _ IT M IO'). }
      rewrite E. apply map_row. exact (mt_bl _ _ _ _ M). }
    rewrite KI, KP. eexists. split; [reflexivity|]. rewrite rangeOf_keyed by exact P0.
    eapply (names_outcome t o point Intersection _ _ _ _ WT WO (base_inter t o mL mR WT M IO') P0 Q0); cbn [pLeft pRight pL pR onL onR]; rewrite ?map_length; auto.
  - rewrite KL, KR. eexists. split; [reflexivity|].
    eapply (names_outcome t o point Union _ _ _ _ WT WO (base_union t o mL mR WT WO M) P0 Q0); cbn [pLeft pRight pL pR onL onR]; auto.
  - rewrite KL, KP, width_keyed by exact Q0. cbn [rbind]. eexists. split; [reflexivity|].
    eapply (names_outcome t o point LeftOnly _ _ _ _ WT WO (base_left t o mL mR WT M) P0 Q0); cbn [pLeft pRight pL pR onL onR]; auto.
    rewrite map_length. cbn [seq]. f_equal. symmetry. apply seq_shift.
Qed.
End Main.

(** ** The key *)
Lemma distinct_le l : distinct l <= List.length l.
Proof. induction l as [|x l IH]; cbn; [lia|]. destruct (inList x l); lia. Qed.
Lemma distinct_full l : distinct l = List.length l <-> forall i i' v w, i < i' -> nth_error l i = Some v -> nth_error l i' = Some w -> ~ Same v w.
Proof.
  induction l as [|x l IH]; cbn [distinct List.length].
  - split; [intros _ i i' v w _ H; destruct i; discriminate|reflexivity].
  - pose proof (distinct_le l) as LE. destruct (inList x l) eqn:E.
    + split; [lia|]. intros H. exfalso. apply inList_spec in E. destruct E as [y [Y E]]. apply In_nth_error in Y. destruct Y as [k K].
      exact (H 0 (S k) x y ltac:(lia) eq_refl K E).
    + split.
      * intros H [|i] [|i'] v w L A B; cbn in A, B; [lia| |lia|].
        -- injection A as <-. intros X. assert (inList x l = true) by (apply inList_spec; exists w; split; [eapply nth_error_In; exact B|exact X]). congruence.
        -- assert (Hd : distinct l = List.length l) by lia. exact (proj1 IH Hd i i' v w ltac:(lia) A B).
      * intros H. f_equal. apply IH. intros i i' v w L A B. exact (H (S i) (S i') v w ltac:(lia) A B).
Qed.
Lemma distinct_key t j : wf t -> j < alen (tf t) -> AllDifferent t j -> distinct (column t j) = alen (tp t).
Proof.
  intros W B A. rewrite <- (column_length_wf _ t j W B). apply distinct_full. intros i i' v w L X Y. rewrite column_nth_wf in X, Y by assumption.
  destruct (A i i' v w) as [N _]; auto; lia.
Qed.
Lemma keyName_name t o s j j' : wf t -> wf o -> nth_error (getNames (tf t)) j = Some (Some s) -> nth_error (getNames (tf o)) j' = Some (Some s) ->
  AllDifferent t j \/ AllDifferent o j' -> keyName t o (OnName s) = Ok s.
Proof.
  intros WT WO A B U. unfold keyName. cbn [rbind]. assert (IT : Inv (tf t)) by apply WT. assert (IO : Inv (tf o)) by apply WO.
  rewrite (getIndexByName_nth _ _ _ IT A), (getIndexByName_nth _ _ _ IO B).
  assert (Bj : j < alen (tf t)) by (rewrite <- (getNames_length _ IT); exact (nth_error_lt _ _ A)).
  assert (Bj' : j' < alen (tf o)) by (rewrite <- (getNames_length _ IO); exact (nth_error_lt _ _ B)).
  destruct U as [U|U]; [rewrite (distinct_key t j WT Bj U), Nat.eqb_refl; reflexivity|]. rewrite (distinct_key o j' WO Bj' U), Nat.eqb_refl. rewrite Bool.orb_true_r. reflexivity.
Qed.
Lemma keyName_index t o s j : wf t -> wf o -> nth_error (getNames (tf t)) j = Some (Some s) -> nth_error (getNames (tf o)) j = Some (Some s) ->
  AllDifferent t j \/ AllDifferent o j -> keyName t o (OnIndex (Z.of_nat j)) = Ok s.
Proof.
  intros WT WO A B U. rewrite <- (keyName_name t o s j j WT WO A B U). unfold keyName at 1. rewrite !getName_nat, A, B. cbn [rbind]. rewrite eqbd_refl. reflexivity.
Qed.

(** ** merge is the join *)
Lemma matchingIdx_ok (t o : table pval) : wf t -> wf o -> exists mL mR, matchingIdx (tf t) (tf o) = Ok (mL, mR) /\ Matching (tf t) (tf o) mL mR.
Proof. intros WT WO. apply matchingIdx_spec; [apply WT|apply WO]. Qed.
Lemma join_finish t o point feature m names p : wf t -> wf o -> Outcome t o point feature m names p ->
  (names = true -> m = sameName t o) ->
  let res := match mergeRows point names p with
             | (l', Err e) => (mkTable (tp t) (tf t) l', Err e)
             | (all, Ok k) =>
                 match mergedNames t o point feature names (matchingNames (tf t) (tf o)) (List.length all) k with
                 | Ok (pa, fa) => (mkTable pa fa all, Ok tt)
                 | Err e => (mkTable (tp t) (tf t) all, Err e)
                 end
             end in
  (~ Conflict t o m /\ exists r, res = (r, Ok tt) /\ JoinOf t o point feature names m r) \/
  (Conflict t o m /\ exists r, res = (r, Err InvalidArgumentValue)).
Proof.
  intros WT WO OC HN. cbv zeta. destruct OC as [[NC ->]|[C [l' ->]]]; [left|right; eauto]. split; [exact NC|].
  rewrite !map_length.
  destruct (mergedNames_ok t o WT WO point feature names (List.length (joinRows point (alen (tp t)) (alen (tp o)) m))) as [pa [fa [-> [A [B [C [D [E F]]]]]]]].
  { destruct names; [left; rewrite HN by reflexivity; reflexivity|right; reflexivity]. }
  eexists. split; [reflexivity|]. unfold JoinOf. cbv zeta. cbn [tp tf rows].
  split; [|split; [reflexivity|split; [exact C|split; [exact D|split; [exact E|]]]]].
  - unfold wf. cbn [tp tf rows]. split; [rewrite map_length; congruence|]. split; [|split; [exact A|exact B]]. intros r R. apply in_map_iff in R. destruct R as [x [<- _]]. rewrite map_length. congruence.
  - rewrite F. destruct names; [rewrite HN by reflexivity; reflexivity|reflexivity].
Qed.
Lemma mergeFrontend_spec t o point feature on m : wf t -> wf o -> 0 < alen (tp t) -> 0 < alen (tp o) ->
  namesCreated (tf t) = true -> namesCreated (tf o) = true -> (on = None -> namesCreated (tp t) = true /\ namesCreated (tp o) = true) ->
  JoinKey t o on m -> UniqueKey t o on -> NoRefill t o m ->
  (feature = Intersection -> InOrder (tf t)) -> (feature = LeftOnly -> on <> None -> InOrder (tf t) /\ KeyAfterShared t o on) ->
  (~ Conflict t o m /\ exists r, mergeFrontend false t o point feature on = (r, Ok tt) /\ JoinOf t o point feature (byNames on) m r) \/
  (Conflict t o m /\ exists r, mergeFrontend false t o point feature on = (r, Err InvalidArgumentValue)).
Proof.
  intros WT WO P0 Q0 FT FO PN JK UK NR HI HL. unfold mergeFrontend.
  destruct (matchingIdx_ok t o WT WO) as [mL [mR [MI M]]].
  assert (G1 : match on with None => negb (namesCreated (tp t) && namesCreated (tp o)) | _ => false end = false).
  { destruct on; [reflexivity|]. destruct (PN eq_refl) as [-> ->]. reflexivity. }
  rewrite G1, FT, FO. cbn [negb andb]. destruct JK as [|s j j' HJ HJ'|s j HJ HJ'].
  - rewrite MI. destruct (prepareNames_ok t o point feature WT WO P0 Q0 mL mR M NR HI) as [p [-> OC]]. apply join_finish; auto.
  - destruct UK as [k [k' [K [K' U]]]].
    assert (k = j) by exact (names_Distinct _ (proj2 (proj2 (proj2 WT))) _ _ _ K HJ). assert (k' = j') by exact (names_Distinct _ (proj2 (proj2 (proj2 WO))) _ _ _ K' HJ'). subst k k'.
    rewrite (keyName_name t o s j j' WT WO HJ HJ' U). cbn [rmap]. rewrite MI.
    destruct (prepareOn_ok t o point feature WT WO P0 Q0 mL mR M s j j' HJ HJ' NR HI) as [p [-> OC]].
    { intros E. destruct (HL E ltac:(discriminate)) as [A B]. split; [exact A|]. intros x X. exact (B j HJ x X). }
    apply join_finish; auto. discriminate.
  - destruct UK as [k [s' [E [K [K' U]]]]]. apply Nat2Z.inj in E. subst k. assert (s' = s) by congruence. subst s'.
    rewrite (keyName_index t o s j WT WO HJ HJ' U). cbn [rmap]. rewrite MI.
    destruct (prepareOn_ok t o point feature WT WO P0 Q0 mL mR M s j j HJ HJ' NR HI) as [p [-> OC]].
    { intros E. destruct (HL E ltac:(discriminate)) as [A B]. split; [exact A|]. intros x X. exact (B j eq_refl x X). }
    apply join_finish; auto. discriminate.
Qed.

(** ** Refusals *)
Lemma merge_names_required same t o point feature on :
  (on = None /\ (namesCreated (tp t) = false \/ namesCreated (tp o) = false)) \/ namesCreated (tf t) = false \/ namesCreated (tf o) = false ->
  mergeFrontend same t o point feature on = (t, Err InvalidArgumentValueCombination).
Proof.
  intros H. unfold mergeFrontend. destruct on as [k|].
  - destruct H as [[H _]|[->| ->]]; [discriminate|reflexivity|]. rewrite Bool.andb_false_r. reflexivity.
  - destruct (negb (namesCreated (tp t) && namesCreated (tp o))) eqn:E; [reflexivity|]. destruct H as [[_ [H|H]]|[->| ->]]; [..|reflexivity|rewrite Bool.andb_false_r; reflexivity].
    + rewrite H in E. discriminate.
    + rewrite H, Bool.andb_false_r in E. discriminate.
Qed.
Lemma getIndexByName_In a s i : Inv a -> getIndexByName a s = Ok i -> nth_error (getNames a) i = Some (Some s).
Proof.
  intros I H. unfold getIndexByName in H. assert (D : dmem s (names_dict a) = true).
  { apply dmem_dget. rewrite names_dict_ensure in H. destruct (dget s (names_dict a)) as [v|]; [eauto|discriminate]. }
  pose proof (getIndexByName_found _ _ D) as F. unfold getIndexByName in F. rewrite H in F. injection F as ->. apply found_spec; assumption.
Qed.
Lemma keyName_fail same t o point feature on e : namesCreated (tf t) = true -> namesCreated (tf o) = true -> keyName t o on = Err e ->
  mergeFrontend same t o point feature (Some on) = (t, Err e).
Proof. intros A B E. unfold mergeFrontend. rewrite A, B, E. reflexivity. Qed.
Lemma merge_key_unknown same t o point feature s : wf t -> wf o -> namesCreated (tf t) = true -> namesCreated (tf o) = true ->
  ~ (In (Some s) (getNames (tf t)) /\ In (Some s) (getNames (tf o))) ->
  mergeFrontend same t o point feature (Some (OnName s)) = (t, Err InvalidArgumentValue).
Proof.
  intros WT WO A B N. apply keyName_fail; auto. unfold keyName. cbn [rbind].
  destruct (getIndexByName (tf t) s) as [i|] eqn:E; [|reflexivity]. destruct (getIndexByName (tf o) s) as [j|] eqn:E'; [|reflexivity].
  exfalso. apply N. split; [eapply nth_error_In, getIndexByName_In; [apply WT|exact E]|eapply nth_error_In, getIndexByName_In; [apply WO|exact E']].
Qed.
Lemma not_distinct_key (t : table pval) j : wf t -> j < alen (tf t) -> (exists i i' v w, i <> i' /\ cell t i j = Some v /\ cell t i' j = Some w /\ Same v w) ->
  distinct (column t j) <> alen (tp t).
Proof.
  intros W B [i [i' [v [w [N [V [V' S']]]]]]] E. rewrite <- (column_length_wf _ t j W B) in E. rewrite distinct_full in E.
  rewrite <- column_nth_wf in V, V' by assumption. destruct (Nat.lt_total i i') as [L|[L|L]]; [exact (E _ _ _ _ L V V' S')|lia|]. exact (E _ _ _ _ L V' V (Same_sym _ _ S')).
Qed.
Lemma merge_key_not_unique same t o point feature s j j' : wf t -> wf o -> namesCreated (tf t) = true -> namesCreated (tf o) = true ->
  nth_error (getNames (tf t)) j = Some (Some s) -> nth_error (getNames (tf o)) j' = Some (Some s) ->
  (exists i i' v w, i <> i' /\ cell t i j = Some v /\ cell t i' j = Some w /\ Same v w) ->
  (exists i i' v w, i <> i' /\ cell o i j' = Some v /\ cell o i' j' = Some w /\ Same v w) ->
  mergeFrontend same t o point feature (Some (OnName s)) = (t, Err InvalidArgumentValue).
Proof.
  intros WT WO A B N N' D D'. apply keyName_fail; auto. unfold keyName. cbn [rbind]. assert (IT : Inv (tf t)) by apply WT. assert (IO : Inv (tf o)) by apply WO.
  rewrite (getIndexByName_nth _ _ _ IT N), (getIndexByName_nth _ _ _ IO N').
  apply not_distinct_key in D; [|exact WT|rewrite <- (getNames_length _ IT); exact (nth_error_lt _ _ N)].
  apply not_distinct_key in D'; [|exact WO|rewrite <- (getNames_length _ IO); exact (nth_error_lt _ _ N')].
  apply Nat.eqb_neq in D. apply Nat.eqb_neq in D'. rewrite D, D'. reflexivity.
Qed.
Lemma merge_key_index same (t o : table pval) point feature j : namesCreated (tf t) = true -> namesCreated (tf o) = true ->
  j < List.length (getNames (tf t)) -> j < List.length (getNames (tf o)) ->
  (nth j (getNames (tf t)) None <> nth j (getNames (tf o)) None \/ nth j (getNames (tf t)) None = None) ->
  mergeFrontend same t o point feature (Some (OnIndex (Z.of_nat j))) = (t, Err InvalidArgumentValue).
Proof.
  intros A B L L' H. apply keyName_fail; auto. unfold keyName. rewrite !getName_nat, !(nth_error_nth' _ None) by assumption. cbn [rbind].
  destruct (nth j (getNames (tf t)) None) as [s|]; [|reflexivity]. destruct H as [H|H]; [|discriminate].
  destruct (eqbd (Some s) (nth j (getNames (tf o)) None)) eqn:E; [|reflexivity]. apply eqbd_true in E. congruence.
Qed.
