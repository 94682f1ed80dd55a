(** merge of Sparse objects: refusals, an object merged with itself (C75). *)
From Verif Require Import Base NamesModel NamesSpec NamesProofs TableModel TableSpec TableProofs TableOps MatchModel MatchSpec MatchProofs ElementsProofs GetSpec
  BinOpModel BinOpSpec BinOpProofs MergeModel MergeSpec MergeLoopProofs MergeColsProofs MergeJoinProofs MergeProofs MergeNamesProofs MergeMainProofs MergeSortProofs MergeMatModel MergeMatSpec MergeMatMain MergeMatRest
  SparseModel SparseSpec SparseReshapeModel SparseReshapeSpec SparseReshapeProofs
  CopyModel MergeSparseModel MergeSparseSpec MergeSparseProofs MergeSparseStore MergeSparseMain.
From Coq Require Import List. Import ListNotations.
Open Scope nat_scope.

Section Rest.
Variable floatOf : string -> option pval.
Lemma sparse_names_required so oo point feature on :
  (on = None /\ (namesCreated (oPts so) = false \/ namesCreated (oPts oo) = false)) \/ namesCreated (oFts so) = false \/ namesCreated (oFts oo) = false ->
  sparseMerge floatOf so oo point feature on = (so, Err InvalidArgumentValueCombination).
Proof.
  intros H. unfold sparseMerge. destruct on as [k|].
  - destruct H as [[H _]|[->| ->]]; [discriminate|reflexivity|]. rewrite Bool.andb_false_r. reflexivity.
  - destruct (negb (namesCreated (oPts so) && namesCreated (oPts oo))) eqn:E; [reflexivity|]. destruct H as [[_ [H|H]]|[->| ->]]; [..|reflexivity|rewrite Bool.andb_false_r; reflexivity].
    + rewrite H in E. discriminate.
    + rewrite H, Bool.andb_false_r in E. discriminate.
Qed.
Section Two.
Variables (so oo : sobj) (t o : table pval).
Hypothesis WT : wf t.
Hypothesis WO : wf o.
Hypothesis HT : Holds so t.
Hypothesis HO : Holds oo o.
Hypothesis ST : sinv (PInt 0) (oMat so).
Hypothesis SO : sinv (PInt 0) (oMat oo).
Hypothesis FT : namesCreated (tf t) = true.
Hypothesis FO : namesCreated (tf o) = true.
Lemma sparse_keyName_fail point feature on e : keyName t o on = Err e -> sparseMerge floatOf so oo point feature (Some on) = (so, Err e).
Proof.
  intros E. unfold sparseMerge. rewrite (proj1 (proj2 HT)), (proj1 (proj2 HO)), FT, FO. cbn [andb negb]. rewrite <- (side_seen so t WT HT ST), <- (side_seen oo o WO HO SO), E. reflexivity.
Qed.
Lemma sparse_key_unknown point feature s : ~ (In (Some s) (getNames (tf t)) /\ In (Some s) (getNames (tf o))) ->
  sparseMerge floatOf so oo point feature (Some (OnName s)) = (so, Err InvalidArgumentValue).
Proof.
  intros N. apply sparse_keyName_fail. unfold keyName. cbn [rbind].
  destruct (getIndexByName (tf t) s) as [i|] eqn:E; [|reflexivity]. destruct (getIndexByName (tf o) s) as [j|] eqn:E'; [|reflexivity].
  exfalso. apply N. split; [eapply nth_error_In, getIndexByName_In; [apply WT|exact E]|eapply nth_error_In, getIndexByName_In; [apply WO|exact E']].
Qed.
Lemma sparse_key_not_unique point feature s j j' :
  nth_error (getNames (tf t)) j = Some (Some s) -> nth_error (getNames (tf o)) j' = Some (Some s) ->
  (exists i i' v w, i <> i' /\ cell t i j = Some v /\ cell t i' j = Some w /\ Same v w) ->
  (exists i i' v w, i <> i' /\ cell o i j' = Some v /\ cell o i' j' = Some w /\ Same v w) ->
  sparseMerge floatOf so oo point feature (Some (OnName s)) = (so, Err InvalidArgumentValue).
Proof.
  intros N N' D D'. apply sparse_keyName_fail. unfold keyName. cbn [rbind]. assert (IT : Inv (tf t)) by apply WT. assert (IO : Inv (tf o)) by apply WO.
  rewrite (getIndexByName_nth _ _ _ IT N), (getIndexByName_nth _ _ _ IO N').
  apply not_distinct_key in D; [|exact WT|rewrite <- (getNames_length _ IT); exact (nth_error_lt _ _ N)].
  apply not_distinct_key in D'; [|exact WO|rewrite <- (getNames_length _ IO); exact (nth_error_lt _ _ N')].
  apply Nat.eqb_neq in D. apply Nat.eqb_neq in D'. rewrite D, D'. reflexivity.
Qed.
Lemma sparse_key_index point feature j :
  j < List.length (getNames (tf t)) -> j < List.length (getNames (tf o)) ->
  (nth j (getNames (tf t)) None <> nth j (getNames (tf o)) None \/ nth j (getNames (tf t)) None = None) ->
  sparseMerge floatOf so oo point feature (Some (OnIndex (Z.of_nat j))) = (so, Err InvalidArgumentValue).
Proof.
  intros L L' H. apply sparse_keyName_fail. unfold keyName. rewrite !getName_nat, !(nth_error_nth' _ None) by assumption. cbn [rbind].
  destruct (nth j (getNames (tf t)) None) as [s|]; [|reflexivity]. destruct H as [H|H]; [|discriminate].
  destruct (eqbd (Some s) (nth j (getNames (tf o)) None)) eqn:E; [|reflexivity]. apply eqbd_true in E. congruence.
Qed.
End Two.
(** an object merged with itself by the point names *)
Lemma sparse_self so t point feature : wf t -> Holds so t -> sinv (PInt 0) (oMat so) -> Numbers t ->
  namesCreated (tf t) = true -> namesCreated (tp t) = true -> (feature = Intersection -> InOrder (tf t)) ->
  AllNamed (getNames (tp t)) -> AllNamed (getNames (tf t)) -> 0 < alen (tp t) -> 0 < alen (tf t) ->
  exists r, sparseMerge floatOf so so point feature None = (r, Ok tt) /\ getNames (oPts r) = getNames (tp t) /\ getNames (oFts r) = getNames (tf t) /\
    forall i j v, cell t i j = Some v -> SameElement v (val (oMat r) i j).
Proof.
  intros W H SI NT FT PT HI NP NF P0 F0. assert (IF : Inv (tf t)) by apply W. assert (IP : Inv (tp t)) by apply W.
  assert (LF := getNames_length _ IF). assert (LP := getNames_length _ IP).
  assert (NE : Nonempty t t point feature (sameName t t)).
  { split; [exact F0|]. rewrite (joinRows_self t point W NP), (joinCols_self feature _ (names_Distinct _ IF) NF), LF. split; intros X; apply map_eq_nil in X; [destruct (alen (tp t))|destruct (alen (tf t))]; try lia; discriminate X. }
  assert (RS : point = Union -> feature = Union -> RestShown t t (sameName t t)).
  { intros _ _ k K X. exfalso. specialize (X k K). apply not_true_iff_false in X. apply X. apply (sameName_partner t t W). apply partner_self; [exact (names_Distinct _ IP)|exact NP|lia]. }
  destruct (sparseMerge_spec floatOf so so t t point feature W W H H SI SI NT NT None (sameName t t) FT FT (fun _ => conj PT PT) (jk_names t t) Logic.I (conj NP NP) RS NE HI) as [[_ [r [E J]]]|[C _]].
  - exists r. split; [exact E|]. destruct J as (_ & _ & _ & _ & _ & _ & _ & FN & PN & VS). cbv zeta in *. cbn [byNames] in PN.
    rewrite (joinRows_self t point W NP) in PN, VS. rewrite (joinCols_self feature _ (names_Distinct _ IF) NF) in FN, VS.
    split; [|split].
    + rewrite PN, map_map. cbn [joinName]. rewrite <- LP. apply map_nth_seq.
    + rewrite FN, map_map. cbn [joinName]. apply map_nth_seq.
    + intros i j v V. destruct (cell_range t i j v W V) as [Hi Hj].
      specialize (VS i j (Some i, Some i) (Some j, Some j)). unfold keptCell, valueAt in VS. cbn [fst snd] in VS. rewrite V in VS. apply VS.
      * rewrite nth_error_map, nth_error_seq. apply Nat.ltb_lt in Hi. rewrite Hi. reflexivity.
      * rewrite nth_error_map, nth_error_seq, LF. apply Nat.ltb_lt in Hj. rewrite Hj. reflexivity.
  - exfalso. destruct C as (i & k & j & j' & v & w & M & P & A & B & V & X & NS).
    destruct (cell_range t i j v W A) as [Hi Hj]. rewrite <- LP in Hi. rewrite <- LF in Hj.
    rewrite (partner_self _ _ (names_Distinct _ IF) NF Hj) in P. injection P as <-. apply (sameName_partner t t W) in M. rewrite (partner_self _ _ (names_Distinct _ IP) NP Hi) in M. injection M as <-.
    apply NS. rewrite A in B. injection B as <-. apply pyEq_spec. apply pyEq_self. exact V.
Qed.
End Rest.
