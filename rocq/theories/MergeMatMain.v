(** merge of Matrix objects is the join (C74). *)
From Verif Require Import Base NamesModel NamesSpec NamesProofs TableModel TableSpec TableProofs TableOps MatchModel MatchSpec MatchProofs ElementsProofs ElementsCalcProofs
  FillMatchProofs FlatProofs BinOpModel BinOpSpec BinOpProofs MergeModel MergeSpec MergeLoopProofs MergeColsProofs MergeJoinProofs MergeProofs MergeNamesProofs MergeMainProofs MergeMatModel MergeMatSpec.
From Verif Require MergeMatProofs.
From Coq Require Import Sorted QArith.
Open Scope nat_scope.

Section Final.
Variables (t o : table pval) (point feature : how) (pL0 pR0 : list nat) (phiL phiR : list src).
Hypothesis WT : wf t.
Hypothesis WO : wf o.
Hypothesis CB : ColBase t o feature pL0 pR0 phiL phiR.
Let ln := getNames (tf t).
Let rn := getNames (tf o).
Definition MatOutcome (m : nat -> nat -> bool) (names : bool) (q : matPrep) : Prop :=
  (~ Conflict t o m /\ matRows point names q = (map (fun rw => map (keptCell t o rw) (joinCols feature ln rn)) (joinRows point (alen (tp t)) (alen (tp o)) m), Ok (List.length (joinCols feature ln rn)))) \/
  (Conflict t o m /\ exists l', matRows point names q = (l', Err InvalidArgumentValue)).
Lemma mat_on_outcome j j' oL oR q : let p := mp q in mwl q = List.length phiL -> mwr q = List.length phiR -> j < alen (tf t) -> j' < alen (tf o) ->
  pLeft p = map (fun i => map (reads 0 t i) phiL) (seq 0 (alen (tp t))) -> pRight p = map (fun k => map (reads (alen (tp t)) o k) phiR) (seq 0 (alen (tp o))) ->
  pL p = pL0 -> pR p = pR0 -> onL p = oL -> onR p = oR ->
  oL < List.length phiL -> oR < List.length phiR -> srcAt phiL oL = SCol j -> srcAt phiR oR = SCol j' -> MatOutcome (sameValue t o j j') false q.
Proof.
  intros p HWL HWR Hj Hj' EL ER E1 E2 E3 E4 OL OR SL SR. subst pL0 pR0 oL oR. subst p. apply (MergeMatProofs.prepared_join t o WT WO q phiL phiR); auto; try apply CB.
  - intros i k Hi Hk. rewrite SL, SR. cbn [reads]. unfold sameValue. rewrite (cell_cv t i j WT Hi Hj), (cell_cv o k j' WO Hk Hj'). apply pyEq_sym.
  - intros x y H. right. apply (cb_pairs1 _ _ _ _ _ _ _ CB). exact H.
Qed.
Lemma mat_names_outcome q : let p := mp q in mwl q = S (List.length phiL) -> mwr q = S (List.length phiR) ->
  pLeft p = map (fun i => ptKey (tp t) 0 i :: map (reads 0 t i) phiL) (seq 0 (alen (tp t))) ->
  pRight p = map (fun k => ptKey (tp o) (alen (tp t)) k :: map (reads (alen (tp t)) o k) phiR) (seq 0 (alen (tp o))) ->
  pL p = 0 :: map S pL0 -> pR p = 0 :: map S pR0 -> onL p = 0 -> onR p = 0 -> MatOutcome (sameName t o) true q.
Proof.
  intros p HWL HWR EL ER E1 E2 E3 E4. subst p. apply (MergeMatProofs.prepared_join t o WT WO q (SKey :: phiL) (SKey :: phiR)); rewrite ?E1, ?E2, ?E3, ?E4; auto.
  - cbn. rewrite !map_length. f_equal. apply CB.
  - apply shift_NoDup; apply CB.
  - apply shift_NoDup; apply CB.
  - intros x [<-|Hx]; cbn; [lia|]. apply in_map_iff in Hx. destruct Hx as [y [<- Hy]]. apply (cb_bl _ _ _ _ _ _ _ CB) in Hy. lia.
  - intros x [<-|Hx]; cbn; [lia|]. apply in_map_iff in Hx. destruct Hx as [y [<- Hy]]. apply (cb_br _ _ _ _ _ _ _ CB) in Hy. lia.
  - cbn. lia.
  - cbn. lia.
  - intros i k Hi Hk. cbn [srcAt nth reads]. apply key_pyEq; lia.
  - intros x y H. apply shift_pairs in H. destruct H as [[-> ->]|[x' [y' [-> [-> H]]]]].
    + left. split; [reflexivity|]. split; [reflexivity|]. intros i k Hi Hk HM. cbn [reads]. rewrite pyEq_sym, key_pyEq by lia. exact HM.
    + right. cbn [srcAt nth]. apply (cb_pairs1 _ _ _ _ _ _ _ CB). exact H.
  - intros j j' P. destruct (cb_pairs2 _ _ _ _ _ _ _ CB j j' P) as [x [y [H [X Y]]]]. exists (S x), (S y). split; [apply shift_pairs; right; eauto|]. cbn [srcAt nth]. auto.
  - cbn [List.length]. rewrite pcols_shift by apply CB. cbn [map]. f_equal. rewrite map_map. rewrite (map_ext _ (srcCol phiL phiR)) by (intros c; apply srcCol_shift). apply CB.
Qed.
End Final.

Section Main.
Variables (t o : table pval) (point feature : how).
Hypothesis WT : wf t.
Hypothesis WO : wf o.
Variables (mL mR : list nat).
Hypothesis M : Matching (tf t) (tf o) mL mR.
Let IT : Inv (tf t). Proof. apply WT. Qed.
Let IO : Inv (tf o). Proof. apply WO. Qed.
Let ln := getNames (tf t).
Let rn := getNames (tf o).

Lemma matOn_ok s j j' : nth_error ln j = Some (Some s) -> nth_error rn j' = Some (Some s) ->
  (feature = Intersection -> InOrder (tf t)) ->
  (feature = LeftOnly -> InOrder (tf t) /\ forall x, x < j -> hasPartner ln rn x = true) ->
  exists q, matOn t o feature s mL mR = Ok q /\ MatOutcome t o point feature (sameValue t o j j') false q.
Proof.
  intros HJ HJ' HI HL. unfold matOn. rewrite (getIndexByName_nth _ _ _ IT HJ), (getIndexByName_nth _ _ _ IO HJ'). cbn [rbind].
  assert (Bj : j < alen (tf t)) by (rewrite <- (getNames_length _ IT); exact (nth_error_lt _ _ HJ)).
  assert (Bj' : j' < alen (tf o)) by (rewrite <- (getNames_length _ IO); exact (nth_error_lt _ _ HJ')).
  assert (PJ : partner ln rn j = Some j') by (apply (partner_iff ln rn j j' (names_Distinct _ IO)); eauto).
  pose proof PJ as PJ0. apply (mt_pairs _ _ _ _ M) in PJ. destruct PJ as [loc [K1 K2]].
  assert (IL : indexOf j mL = Some loc) by (apply (indexOf_nth _ _ _ (mt_ndl _ _ _ _ M) K1)).
  pose proof (nth_error_lt _ _ K1) as B1. pose proof (nth_error_lt _ _ K2) as B2.
  assert (SR : srcAt (map SCol mR) loc = SCol j') by (rewrite srcAt_map by exact B2; f_equal; apply nth_error_nth; exact K2).
  assert (SL : srcAt (map SCol mL) loc = SCol j) by (rewrite srcAt_map by exact B1; f_equal; apply nth_error_nth; exact K1).
  destruct feature; rewrite ?IL; eexists; (split; [reflexivity|]).
  - assert (IO' := HI eq_refl). rewrite (picked_rows 0 t mL WT (mt_bl _ _ _ _ M)), (picked_rows (alen (tp t)) o mR WO (mt_br _ _ _ _ M)).
    eapply (mat_on_outcome t o point Intersection _ _ _ _ WT WO (base_inter t o mL mR WT M IO') j j' loc loc); cbn [mp mwl mwr pLeft pRight pL pR onL onR]; rewrite ?map_length; auto.
    rewrite (mt_len _ _ _ _ M). reflexivity.
  - eapply (mat_on_outcome t o point Union _ _ _ _ WT WO (base_union t o mL mR WT WO M) j j' j j'); cbn [mp mwl mwr pLeft pRight pL pR onL onR]; rewrite ?map_length, ?seq_length; auto.
    + apply whole_rows. exact WT.
    + apply whole_rows. exact WO.
    + apply srcAt_seq. exact Bj.
    + apply srcAt_seq. exact Bj'.
  - destruct (HL eq_refl) as [IO' HK]. assert (EL : loc = j).
    { rewrite (Matching_in_order _ _ _ _ IT M IO') in K1. fold ln rn in K1. assert (X : nth_error (filter (hasPartner ln rn) (seq 0 (List.length ln))) j = Some j).
      { apply filter_prefix; [exact (nth_error_lt _ _ HJ)|]. intros x X. destruct (Nat.eq_dec x j) as [->|]; [|apply HK; lia]. apply hasPartner_iff. eauto. }
      assert (ND : NoDup (filter (hasPartner ln rn) (seq 0 (List.length ln)))) by (apply NoDup_filter, seq_NoDup).
      apply (proj1 (NoDup_nth_error _) ND); [exact (nth_error_lt _ _ K1)|]. congruence. }
    subst loc. rewrite (picked_rows (alen (tp t)) o mR WO (mt_br _ _ _ _ M)).
    eapply (mat_on_outcome t o point LeftOnly _ _ _ _ WT WO (base_left t o mL mR WT M) j j' j j); cbn [mp mwl mwr pLeft pRight pL pR onL onR]; rewrite ?map_length, ?seq_length; auto.
    + apply whole_rows. exact WT.
    + apply srcAt_seq. exact Bj.
Qed.
Lemma matNames_ok : (feature = Intersection -> InOrder (tf t)) -> MatOutcome t o point feature (sameName t o) true (matNames t o feature mL mR).
Proof.
  intros HI. unfold matNames. cbv zeta.
  assert (KL : mapi (fun i row => ptKey (tp t) 0 i :: row) (rows t) = map (fun i => ptKey (tp t) 0 i :: map (reads 0 t i) (map SCol (seq 0 (alen (tf t))))) (seq 0 (alen (tp t)))).
  { rewrite (mapi_rows _ t WT). apply map_ext. intros i. rewrite map_map. reflexivity. }
  assert (KR : mapi (fun i row => ptKey (tp o) (alen (tp t)) i :: row) (rows o) = map (fun i => ptKey (tp o) (alen (tp t)) i :: map (reads (alen (tp t)) o i) (map SCol (seq 0 (alen (tf o))))) (seq 0 (alen (tp o)))).
  { rewrite (mapi_rows _ o WO). apply map_ext. intros i. rewrite map_map. reflexivity. }
  assert (KP : mapi (fun i pt => ptKey (tp o) (alen (tp t)) i :: pick mR pt) (rows o) = map (fun i => ptKey (tp o) (alen (tp t)) i :: map (reads (alen (tp t)) o i) (map SCol mR)) (seq 0 (alen (tp o)))).
  { rewrite (mapi_rows _ o WO). apply map_ext. intros i. f_equal. apply map_row. exact (mt_br _ _ _ _ M). }
  destruct feature.
  - assert (IO' := HI eq_refl).
    assert (KI : mapi (fun i pt => ptKey (tp t) 0 i :: pick mL pt) (rows t) = map (fun i => ptKey (tp t) 0 i :: map (reads 0 t i) (map SCol mL)) (seq 0 (alen (tp t)))).
    { rewrite (mapi_rows _ t WT). apply map_ext. intros i. f_equal. apply map_row. exact (mt_bl _ _ _ _ M). }
    rewrite KI, KP.
    eapply (mat_names_outcome t o point Intersection _ _ _ _ WT WO (base_inter t o mL mR WT M IO')); cbn [mp mwl mwr pLeft pRight pL pR onL onR]; rewrite ?map_length; try reflexivity; cbn [seq]; f_equal; symmetry; apply seq_shift.
  - rewrite KL, KR.
    eapply (mat_names_outcome t o point Union _ _ _ _ WT WO (base_union t o mL mR WT WO M)); cbn [mp mwl mwr pLeft pRight pL pR onL onR]; rewrite ?map_length, ?seq_length; try reflexivity.
  - rewrite KL, KP.
    eapply (mat_names_outcome t o point LeftOnly _ _ _ _ WT WO (base_left t o mL mR WT M)); cbn [mp mwl mwr pLeft pRight pL pR onL onR]; rewrite ?map_length, ?seq_length; try reflexivity.
    cbn [seq]. f_equal. symmetry. apply seq_shift.
Qed.
End Main.

Lemma mat_finish t o point feature m names q : wf t -> wf o -> MatOutcome t o point feature m names q ->
  (names = true -> m = sameName t o) ->
  let res := match matRows point names q with
             | (l', Err e) => (mkTable (tp t) (tf t) l', Err e)
             | (all, Ok k) =>
                 match mergedNames t o point feature names (matchingNames (tf t) (tf o)) (List.length all) k with
                 | Ok (pa, fa) => (mkTable pa fa all, Ok tt)
                 | Err e => (mkTable (tp t) (tf t) all, Err e)
                 end
             end in
  (~ Conflict t o m /\ exists r, res = (r, Ok tt) /\ KeptJoin t o point feature names m r) \/
  (Conflict t o m /\ exists r, res = (r, Err InvalidArgumentValue)).
Proof.
  intros WT WO OC HN. cbv zeta. destruct OC as [[NC ->]|[C [l' ->]]]; [left|right; eauto]. split; [exact NC|].
  rewrite !map_length.
  destruct (mergedNames_ok t o WT WO point feature names (List.length (joinRows point (alen (tp t)) (alen (tp o)) m))) as [pa [fa [-> [A [B [C [D [E F]]]]]]]].
  { destruct names; [left; rewrite HN by reflexivity; reflexivity|right; reflexivity]. }
  eexists. split; [reflexivity|]. unfold KeptJoin. cbv zeta. cbn [tp tf rows].
  split; [|split; [reflexivity|split; [exact C|split; [exact D|split; [exact E|]]]]].
  - unfold wf. cbn [tp tf rows]. split; [rewrite map_length; congruence|]. split; [|split; [exact A|exact B]]. intros r R. apply in_map_iff in R. destruct R as [x [<- _]]. rewrite map_length. congruence.
  - rewrite F. destruct names; [rewrite HN by reflexivity; reflexivity|reflexivity].
Qed.
Lemma matMerge_spec t o point feature on m : wf t -> wf o ->
  namesCreated (tf t) = true -> namesCreated (tf o) = true -> (on = None -> namesCreated (tp t) = true /\ namesCreated (tp o) = true) ->
  JoinKey t o on m -> UniqueKey t o on ->
  (feature = Intersection -> InOrder (tf t)) -> (feature = LeftOnly -> on <> None -> InOrder (tf t) /\ KeyAfterShared t o on) ->
  (~ Conflict t o m /\ exists r, matMerge t o point feature on = (r, Ok tt) /\ KeptJoin t o point feature (byNames on) m r) \/
  (Conflict t o m /\ exists r, matMerge t o point feature on = (r, Err InvalidArgumentValue)).
Proof.
  intros WT WO FT FO PN JK UK HI HL. unfold matMerge.
  destruct (matchingIdx_ok t o WT WO) as [mL [mR [MI M]]].
  assert (G1 : match on with None => negb (namesCreated (tp t) && namesCreated (tp o)) | _ => false end = false).
  { destruct on; [reflexivity|]. destruct (PN eq_refl) as [-> ->]. reflexivity. }
  rewrite G1, FT, FO. cbn [negb andb]. destruct JK as [|s j j' HJ HJ'|s j HJ HJ'].
  - rewrite MI. pose proof (matNames_ok t o point feature WT WO mL mR M HI) as OC. apply mat_finish; auto.
  - destruct UK as [k [k' [K [K' U]]]].
    assert (k = j) by exact (names_Distinct _ (proj2 (proj2 (proj2 WT))) _ _ _ K HJ). assert (k' = j') by exact (names_Distinct _ (proj2 (proj2 (proj2 WO))) _ _ _ K' HJ'). subst k k'.
    rewrite (keyName_name t o s j j' WT WO HJ HJ' U). cbn [rmap]. rewrite MI.
    destruct (matOn_ok t o point feature WT WO mL mR M s j j' HJ HJ' HI) as [p [-> OC]].
    { intros E. destruct (HL E ltac:(discriminate)) as [A B]. split; [exact A|]. intros x X. exact (B j HJ x X). }
    apply mat_finish; auto. discriminate.
  - destruct UK as [k [s' [E [K [K' U]]]]]. apply Nat2Z.inj in E. subst k. assert (s' = s) by congruence. subst s'.
    rewrite (keyName_index t o s j WT WO HJ HJ' U). cbn [rmap]. rewrite MI.
    destruct (matOn_ok t o point feature WT WO mL mR M s j j HJ HJ' HI) as [p [-> OC]].
    { intros E. destruct (HL E ltac:(discriminate)) as [A B]. split; [exact A|]. intros x X. exact (B j eq_refl x X). }
    apply mat_finish; auto. discriminate.
Qed.

