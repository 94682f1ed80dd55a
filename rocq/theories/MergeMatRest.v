(** merge of Matrix objects: refusals, the order of the points, an object merged
    with itself (C74). *)
From Verif Require Import Base NamesModel NamesSpec NamesProofs PrepProofs TableModel TableSpec TableProofs TableSortProofs TableOps MatchModel MatchSpec MatchProofs ElementsProofs ElementsCalcProofs
  FillMatchProofs FlatProofs BinOpModel BinOpSpec BinOpProofs MergeModel MergeSpec MergeLoopProofs MergeColsProofs MergeJoinProofs MergeProofs MergeNamesProofs MergeMainProofs MergeSortProofs MergeMatModel MergeMatSpec MergeMatMain.
From Coq Require Import Sorted Permutation QArith.
Open Scope nat_scope.

Lemma mat_names_required t o point feature on :
  (on = None /\ (namesCreated (tp t) = false \/ namesCreated (tp o) = false)) \/ namesCreated (tf t) = false \/ namesCreated (tf o) = false ->
  matMerge t o point feature on = (t, Err InvalidArgumentValueCombination).
Proof.
  intros H. unfold matMerge. destruct on as [k|].
  - destruct H as [[H _]|[->| ->]]; [discriminate|reflexivity|]. rewrite Bool.andb_false_r. reflexivity.
  - destruct (negb (namesCreated (tp t) && namesCreated (tp o))) eqn:E; [reflexivity|]. destruct H as [[_ [H|H]]|[->| ->]]; [..|reflexivity|rewrite Bool.andb_false_r; reflexivity].
    + rewrite H in E. discriminate.
    + rewrite H, Bool.andb_false_r in E. discriminate.
Qed.
Lemma mat_keyName_fail t o point feature on e : namesCreated (tf t) = true -> namesCreated (tf o) = true -> keyName t o on = Err e ->
  matMerge t o point feature (Some on) = (t, Err e).
Proof. intros A B E. unfold matMerge. rewrite A, B, E. reflexivity. Qed.
Lemma mat_key_unknown t o point feature s : wf t -> wf o -> namesCreated (tf t) = true -> namesCreated (tf o) = true ->
  ~ (In (Some s) (getNames (tf t)) /\ In (Some s) (getNames (tf o))) ->
  matMerge t o point feature (Some (OnName s)) = (t, Err InvalidArgumentValue).
Proof.
  intros WT WO A B N. apply mat_keyName_fail; auto. unfold keyName. cbn [rbind].
  destruct (getIndexByName (tf t) s) as [i|] eqn:E; [|reflexivity]. destruct (getIndexByName (tf o) s) as [j|] eqn:E'; [|reflexivity].
  exfalso. apply N. split; [eapply nth_error_In, getIndexByName_In; [apply WT|exact E]|eapply nth_error_In, getIndexByName_In; [apply WO|exact E']].
Qed.
Lemma mat_key_not_unique t o point feature s j j' : wf t -> wf o -> namesCreated (tf t) = true -> namesCreated (tf o) = true ->
  nth_error (getNames (tf t)) j = Some (Some s) -> nth_error (getNames (tf o)) j' = Some (Some s) ->
  (exists i i' v w, i <> i' /\ cell t i j = Some v /\ cell t i' j = Some w /\ Same v w) ->
  (exists i i' v w, i <> i' /\ cell o i j' = Some v /\ cell o i' j' = Some w /\ Same v w) ->
  matMerge t o point feature (Some (OnName s)) = (t, Err InvalidArgumentValue).
Proof.
  intros WT WO A B N N' D D'. apply mat_keyName_fail; auto. unfold keyName. cbn [rbind]. assert (IT : Inv (tf t)) by apply WT. assert (IO : Inv (tf o)) by apply WO.
  rewrite (getIndexByName_nth _ _ _ IT N), (getIndexByName_nth _ _ _ IO N').
  apply not_distinct_key in D; [|exact WT|rewrite <- (getNames_length _ IT); exact (nth_error_lt _ _ N)].
  apply not_distinct_key in D'; [|exact WO|rewrite <- (getNames_length _ IO); exact (nth_error_lt _ _ N')].
  apply Nat.eqb_neq in D. apply Nat.eqb_neq in D'. rewrite D, D'. reflexivity.
Qed.
Lemma mat_key_index (t o : table pval) point feature j : namesCreated (tf t) = true -> namesCreated (tf o) = true ->
  j < List.length (getNames (tf t)) -> j < List.length (getNames (tf o)) ->
  (nth j (getNames (tf t)) None <> nth j (getNames (tf o)) None \/ nth j (getNames (tf t)) None = None) ->
  matMerge t o point feature (Some (OnIndex (Z.of_nat j))) = (t, Err InvalidArgumentValue).
Proof.
  intros A B L L' H. apply mat_keyName_fail; auto. unfold keyName. rewrite !getName_nat, !(nth_error_nth' _ None) by assumption. cbn [rbind].
  destruct (nth j (getNames (tf t)) None) as [s|]; [|reflexivity]. destruct H as [H|H]; [|discriminate].
  destruct (eqbd (Some s) (nth j (getNames (tf o)) None)) eqn:E; [|reflexivity]. apply eqbd_true in E. congruence.
Qed.

Lemma mat_plain leb t o point feature on : (point = Union -> on = None \/ on = Some (OnName "") \/ on = Some (OnIndex 0)) ->
  matMergeSorted leb t o point feature on = matMerge t o point feature on.
Proof.
  intros H. unfold matMergeSorted. destruct (matMerge t o point feature on) as [x [[]|e]]; [|reflexivity].
  destruct point; try reflexivity. destruct (H eq_refl) as [->|[->| ->]]; reflexivity.
Qed.
Lemma mat_union_sorted leb t o feature on m s : TotalOrder leb -> wf t -> wf o -> JoinKey t o (Some on) m -> keyIs t on s ->
  match on with OnName n => n <> ""%string | OnIndex z => z <> 0%Z /\ feature <> Intersection end ->
  forall r, matMerge t o Union feature (Some on) = (r, Ok tt) -> KeptJoin t o Union feature false m r ->
  exists r', matMergeSorted leb t o Union feature (Some on) = (r', Ok tt) /\ SortedBy leb s r r'.
Proof.
  intros TO WT WO JK KI C r E J. unfold matMergeSorted. rewrite E. destruct J as [W [_ [_ [_ [FN _]]]]]. cbv zeta in FN. assert (IR : Inv (tf r)) by apply W.
  inversion JK as [|s0 j j' A B|s0 j A B]; subst on m.
  - cbn in KI. subst s0. destruct (join_key_pos t o feature j j' s WT WO A B) as [k [K _]]. rewrite <- FN in K. cbn [truthy onIdent].
    destruct (String.eqb_spec s ""); [congruence|]. cbn [negb]. rewrite (getIndex_name _ _ _ IR K), Nat2Z.id. destruct (sorted_by leb s r k TO W K) as [r' [-> S]]. eauto.
  - destruct KI as [j0 [E0 K0]]. apply Nat2Z.inj in E0. subst j0. assert (s0 = s) by congruence. subst s0. destruct C as [C1 C2].
    destruct (join_key_pos t o feature j j s WT WO A B) as [k [K KJ]]. rewrite (KJ C2) in K. rewrite <- FN in K. cbn [truthy onIdent].
    destruct (Z.eqb_spec (Z.of_nat j) 0); [congruence|]. cbn [negb]. rewrite (getIndex_pos _ _ _ IR K), Nat2Z.id. destruct (sorted_by leb s r j TO W K) as [r' [-> S]]. eauto.
Qed.

(** ** the join of MergeSpec when there is nothing to fill *)
Lemma joinRows_match point nl nr m i k : In (Some i, Some k) (joinRows point nl nr m) -> m i k = true.
Proof.
  unfold joinRows. intros H. apply in_app_or in H. destruct H as [H|H].
  - apply in_flat_map in H. destruct H as [i' [Hi H]]. destruct (filter (m i') (seq 0 nr)) as [|k0 ks] eqn:E.
    + destruct point; cbn in H; try contradiction; destruct H as [H|[]]; discriminate.
    + assert (H' : In (Some i, Some k) (map (fun k => (Some i', Some k)) (k0 :: ks))) by (destruct point; exact H). apply in_map_iff in H'. destruct H' as [k' [X Hk]]. injection X as <- <-. rewrite <- E in Hk. apply filter_In in Hk. apply Hk.
  - destruct point; try contradiction. apply in_map_iff in H. destruct H as [k' [X _]]. discriminate.
Qed.
Lemma joinCols_partner feature ln rn j j' : In (Some j, Some j') (joinCols feature ln rn) -> partner ln rn j = Some j'.
Proof.
  intros H. assert (G : forall l, In (Some j, Some j') (map (fun j => (Some j, partner ln rn j)) l) -> partner ln rn j = Some j').
  { intros l X. apply in_map_iff in X. destruct X as [x [X _]]. injection X as -> ->. reflexivity. }
  destruct feature; cbn [joinCols] in H; [eapply G; exact H| |eapply G; exact H]. apply in_app_or in H. destruct H as [H|H]; [eapply G; exact H|]. apply in_map_iff in H. destruct H as [x [X _]]. discriminate.
Qed.
Lemma kept_filled t o point feature byName m r : NothingToFill t o m -> KeptJoin t o point feature byName m r -> JoinOf t o point feature byName m r.
Proof.
  intros NF (W & R & A). unfold JoinOf. cbv zeta in *. split; [exact W|]. split; [|exact A]. rewrite R. apply map_ext_in. intros rw Hr. apply map_ext_in. intros c Hc.
  destruct rw as [a b]. destruct c as [x y]. unfold keptCell, joinCell. cbn [fst snd].
  destruct (valueAt t a x) as [v|] eqn:V; [|reflexivity]. destruct v; try reflexivity. destruct (valueAt o b y) as [w|] eqn:W'; [|reflexivity].
  destruct a as [i|]; [|discriminate]. destruct x as [j|]; [|discriminate]. destruct b as [k|]; [|discriminate]. destruct y as [j'|]; [|discriminate]. cbn in V, W'.
  symmetry. exact (NF i k j j' (joinRows_match _ _ _ _ _ _ Hr) (joinCols_partner _ _ _ _ _ Hc) V w W').
Qed.
Lemma matMerge_filled t o point feature on m : wf t -> wf o ->
  namesCreated (tf t) = true -> namesCreated (tf o) = true -> (on = None -> namesCreated (tp t) = true /\ namesCreated (tp o) = true) ->
  JoinKey t o on m -> UniqueKey t o on -> NothingToFill t o m -> ~ Conflict t o m ->
  (feature = Intersection -> InOrder (tf t)) -> (feature = LeftOnly -> on <> None -> InOrder (tf t) /\ KeyAfterShared t o on) ->
  exists r, matMerge t o point feature on = (r, Ok tt) /\ JoinOf t o point feature (byNames on) m r.
Proof.
  intros WT WO FT FO PN JK UK NF NC HI HL. destruct (matMerge_spec t o point feature on m WT WO FT FO PN JK UK HI HL) as [[_ [r [E J]]]|[C _]]; [|contradiction].
  exists r. split; [exact E|]. apply kept_filled; assumption.
Qed.

(** ** an object merged with itself *)
Lemma partner_self l j : Distinct l -> AllNamed l -> j < List.length l -> partner l l j = Some j.
Proof.
  intros D N L. destruct (nth_error l j) as [[s|]|] eqn:E; [| |apply nth_error_None in E; lia].
  - apply partner_iff; [exact D|]. eauto.
  - exfalso. apply N. eapply nth_error_In. exact E.
Qed.
Lemma hasPartner_self l j : Distinct l -> AllNamed l -> j < List.length l -> hasPartner l l j = true.
Proof. intros D N L. apply hasPartner_iff. exists j. apply partner_self; assumption. Qed.
Lemma filter_true {A} (f : A -> bool) l : (forall x, In x l -> f x = true) -> filter f l = l.
Proof. induction l as [|x l IH]; intros H; cbn; [reflexivity|]. rewrite (H x (or_introl eq_refl)), IH by (intros; apply H; right; assumption). reflexivity. Qed.
Lemma filter_false {A} (f : A -> bool) l : (forall x, In x l -> f x = false) -> filter f l = [].
Proof. induction l as [|x l IH]; intros H; cbn; [reflexivity|]. rewrite (H x (or_introl eq_refl)). apply IH. intros; apply H; right; assumption. Qed.
Lemma joinCols_self feature l : Distinct l -> AllNamed l -> joinCols feature l l = map (fun j => (Some j, Some j)) (seq 0 (List.length l)).
Proof.
  intros D N. assert (P : forall x, In x (seq 0 (List.length l)) -> hasPartner l l x = true) by (intros x X; apply in_seq in X; apply hasPartner_self; auto; lia).
  assert (E : map (fun j => (Some j, partner l l j)) (seq 0 (List.length l)) = map (fun j => (Some j, Some j)) (seq 0 (List.length l))).
  { apply map_ext_in. intros x X. apply in_seq in X. rewrite partner_self; auto. lia. }
  destruct feature; cbn [joinCols].
  - rewrite (filter_true _ _ P). exact E.
  - rewrite (filter_false _ (seq 0 (List.length l))), app_nil_r; [exact E|]. intros x X. rewrite (P x X). reflexivity.
  - exact E.
Qed.
Lemma joinRows_self (t : table pval) point : wf t -> AllNamed (getNames (tp t)) ->
  joinRows point (alen (tp t)) (alen (tp t)) (sameName t t) = map (fun i => (Some i, Some i)) (seq 0 (alen (tp t))).
Proof.
  intros W N. assert (IP : Inv (tp t)) by apply W. pose proof (names_Distinct _ IP) as D. pose proof (getNames_length _ IP) as L.
  assert (SN : forall i k, i < alen (tp t) -> k < alen (tp t) -> sameName t t i k = (i =? k)).
  { intros i k Hi Hk. rewrite <- L in Hi, Hk. apply eq_true_iff_eq. rewrite (sameName_partner t t W i k), Nat.eqb_eq. rewrite (partner_self _ _ D N Hi). split; [intros X; injection X as ->; reflexivity|intros ->; reflexivity]. }
  unfold joinRows. replace (match point with Union => _ | _ => _ end) with (@nil (option nat * option nat)).
  - rewrite app_nil_r. rewrite <- flat_map_one. apply flat_map_ext_in. intros i Hi. apply in_seq in Hi.
    rewrite (filter_ext_in _ (fun k => i =? k)) by (intros k Hk; apply in_seq in Hk; apply SN; lia). rewrite (filter_one (fun k => i =? k) (alen (tp t)) i); [destruct point; reflexivity|lia|apply Nat.eqb_refl|]. intros x X. apply Nat.eqb_eq in X. congruence.
  - destruct point; try reflexivity. rewrite filter_false; [reflexivity|]. intros k Hk. apply negb_false_iff. apply existsb_exists. exists k. split; [exact Hk|]. apply in_seq in Hk. rewrite SN by lia. apply Nat.eqb_refl.
Qed.
Lemma map_nth_seq {A} (d : A) l : map (fun i => nth i l d) (seq 0 (List.length l)) = l.
Proof. symmetry. apply list_nth_seq. Qed.
Lemma matMerge_self t point feature : wf t -> namesCreated (tf t) = true -> namesCreated (tp t) = true -> (feature = Intersection -> InOrder (tf t)) ->
  AllNamed (getNames (tp t)) -> AllNamed (getNames (tf t)) ->
  exists r, matMerge t t point feature None = (r, Ok tt) /\ wf r /\ rows r = rows t /\ getNames (tp r) = getNames (tp t) /\ getNames (tf r) = getNames (tf t).
Proof.
  intros W FT PT HI NP NF. assert (IF : Inv (tf t)) by apply W. assert (IP : Inv (tp t)) by apply W.
  destruct (matMerge_spec t t point feature None (sameName t t) W W FT FT (fun _ => conj PT PT) (jk_names t t) I HI (fun _ X => match X eq_refl with end)) as [[_ [r [E J]]]|[C _]].
  - exists r. split; [exact E|]. destruct J as (WR & R & _ & _ & FN & PN). cbv zeta in *. cbn [byNames] in PN. rewrite (joinRows_self t point W NP) in R, PN. rewrite (joinCols_self feature _ (names_Distinct _ IF) NF) in R, FN.
    split; [exact WR|]. split; [|split].
    + rewrite R. rewrite (rows_cv t W) at 1. rewrite map_map. apply map_ext_in. intros i Hi. apply in_seq in Hi. rewrite map_map, (getNames_length _ IF). apply map_ext_in. intros j Hj. apply in_seq in Hj. unfold keptCell, valueAt. cbn [fst snd]. rewrite (cell_cv t i j W); [reflexivity|lia|lia].
    + rewrite PN, map_map. cbn [joinName]. rewrite <- (getNames_length _ IP). apply map_nth_seq.
    + rewrite FN, map_map. cbn [joinName]. apply map_nth_seq.
  - exfalso. destruct C as (i & k & j & j' & v & w & M & P & A & B & V & X & NS).
    destruct (cell_range t i j v W A) as [Hi Hj]. destruct (cell_range t k j' w W B) as [Hk Hj']. rewrite <- (getNames_length _ IP) in Hi. rewrite <- (getNames_length _ IF) in Hj.
    rewrite (partner_self _ _ (names_Distinct _ IF) NF Hj) in P. injection P as <-. apply (sameName_partner t t W) in M. rewrite (partner_self _ _ (names_Distinct _ IP) NP Hi) in M. injection M as <-.
    apply NS. rewrite A in B. injection B as <-. apply pyEq_spec. apply pyEq_self. exact V.
Qed.
