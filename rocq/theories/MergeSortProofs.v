(** merge: the order of the points and of the names (C16). *)
From Verif Require Import Base NamesModel NamesSpec NamesProofs PrepProofs TableModel TableSpec TableProofs TableSortProofs TableOps MatchModel MatchSpec MatchProofs ElementsProofs ElementsCalcProofs
  FillMatchProofs FlatProofs BinOpModel BinOpSpec BinOpProofs MergeModel MergeSpec MergeLoopProofs MergeColsProofs MergeJoinProofs MergeProofs MergeNamesProofs MergeMainProofs.
From Coq Require Import Sorted Permutation QArith.
Open Scope nat_scope.

(** ** InOrder after setting a list of names *)
Definition asVals (zs : list nat) : list dval := map (fun k => NamesModel.DInt (Z.of_nat k)) zs.
Lemma sorted_snoc zs i : StronglySorted lt zs -> Forall (fun k => k < i) zs -> StronglySorted lt (zs ++ [i]).
Proof.
  induction 1 as [|z zs S IH F]; intros B; cbn; [repeat constructor|]. inversion B; subst. constructor; [apply IH; assumption|]. apply Forall_app. split; [exact F|]. constructor; [assumption|constructor].
Qed.
Lemma listToDict_order l : forall i names names', listToDict i l names = Ok names' ->
  (exists zs, map snd names = asVals zs /\ StronglySorted lt zs /\ Forall (fun k => k < i) zs) -> exists zs, map snd names' = asVals zs /\ StronglySorted lt zs.
Proof.
  induction l as [|x l IH]; intros i names names'; cbn [listToDict].
  - intros [= ->] [zs [A [B _]]]. eauto.
  - destruct (dmem x names) eqn:D; [discriminate|]. intros H [zs [A [B C]]].
    assert (C' : Forall (fun k => k < S i) zs) by (eapply Forall_impl; [|exact C]; cbn; lia).
    assert (W : exists zs', map snd (dset x (NamesModel.DInt (Z.of_nat i)) names) = asVals zs' /\ StronglySorted lt zs' /\ Forall (fun k => k < S i) zs').
    { exists (zs ++ [i]). split; [|split; [apply sorted_snoc; assumption|apply Forall_app; split; [exact C'|constructor; [lia|constructor]]]].
      rewrite dset_new by (unfold dmem in D; apply mem_not_In; exact D). rewrite map_app, A. unfold asVals. rewrite map_app. reflexivity. }
    destruct x; try (exact (IH _ _ _ H W)). exact (IH _ _ _ H (ex_intro _ zs (conj A (conj B C')))).
Qed.
Lemma buildReverse_order count items : forall zs rev out st, buildReverse count items rev out = Ok st -> map snd items = asVals zs -> map snd (fst st) = map snd out ++ zs.
Proof.
  induction items as [|[x v] items IH]; intros zs rev out st; cbn [buildReverse].
  - intros [= <-] E. destruct zs; [|discriminate]. cbn. symmetry. apply app_nil_r.
  - destruct x; try discriminate. destruct v as [z|]; [|discriminate]. destruct (_ || _); [discriminate|]. intros H E. destruct zs as [|k zs]; [discriminate|]. cbn in E. injection E as Ez E. subst z.
    rewrite (IH _ _ _ _ H E), map_app. cbn. rewrite Nat2Z.id, <- app_assoc. reflexivity.
Qed.
Lemma setNames_list_InOrder a l x : setNames a (AList l) ONone = (x, Ok tt) -> InOrder x.
Proof.
  unfold setNames, setNames_all. destruct (negb _); [discriminate|]. destruct (alen a =? 0); [intros [= <-]; unfold InOrder; cbn; constructor|].
  cbn [assignments_iter]. destruct (listToDict 0 l []) as [items|] eqn:E; cbn [rbind]; [|discriminate]. destruct (buildReverse _ _ _ _) as [st|] eqn:B; [|discriminate].
  intros [= <-]. destruct (listToDict_order _ _ _ _ E) as [zs [Z1 Z2]]; [exists []; repeat constructor|]. unfold InOrder. pose proof (buildReverse_order _ _ _ _ _ _ B Z1) as R.
  destruct st as [d rv]. unfold names_dict. cbn [astate] in *. cbn in R. rewrite R. exact Z2.
Qed.

(** ** sorting after a union *)
Lemma sorted_by leb s r k : TotalOrder leb -> wf r -> nth_error (getNames (tf r)) k = Some (Some s) -> exists r', sortByKeys leb Pts r [k] false = Ok r' /\ SortedBy leb s r r'.
Proof.
  intros TO W K. assert (B : k < alen (tf r)) by (rewrite <- (getNames_length _ (proj2 (proj2 (proj2 W)))); exact (nth_error_lt _ _ K)).
  destruct (sortByKeys_spec pval leb TO false Pts r [k] W) as [r' [order [E [W' [P [I [SO H]]]]]]].
  { intros x [<-|[]]. exact B. }
  exists r'. split; [exact E|]. exists k, order. split; [exact K|]. split; [exact W'|]. split; [exact P|]. split; [exact I|]. split; [apply SO|].
  intros p q i j v w L X Y V V'. specialize (H p q i j L X Y). cbn in H. unfold keyOf in H. rewrite V, V' in H. destruct H as [x [y [X' [Y' H]]]]. injection X' as <-. injection Y' as <-. destruct H as [[H H']|[H [_ H']]]; split; auto; congruence.
Qed.
Lemma join_key_pos (t o : table pval) feature j j' s : wf t -> wf o -> nth_error (getNames (tf t)) j = Some (Some s) -> nth_error (getNames (tf o)) j' = Some (Some s) ->
  exists k, nth_error (map (joinName (getNames (tf t)) (getNames (tf o))) (joinCols feature (getNames (tf t)) (getNames (tf o)))) k = Some (Some s) /\ (feature <> Intersection -> k = j).
Proof.
  intros WT WO A B. set (ln := getNames (tf t)) in *. set (rn := getNames (tf o)) in *. pose proof (nth_error_lt _ _ A) as L. pose proof (nth_error_nth _ _ None A) as N.
  assert (G : forall (f : _ -> option string) l, feature <> Intersection -> nth_error (map f (map (fun x => (Some x, partner ln rn x)) (seq 0 (List.length ln)) ++ l)) j = Some (f (Some j, partner ln rn j))).
  { intros f l _. apply map_nth_error. rewrite nth_error_app1 by (rewrite map_length, seq_length; exact L). rewrite (map_nth_error _ j (seq 0 (List.length ln)) (d := j)); [reflexivity|]. rewrite (nth_error_nth' _ 0) by (rewrite seq_length; exact L). rewrite seq_nth by exact L. reflexivity. }
  destruct feature; unfold joinCols.
  - assert (P : hasPartner ln rn j = true) by (apply hasPartner_iff; exists j'; apply partner_iff; [apply names_Distinct; apply WO|eauto]).
    assert (I : In (joinName ln rn (Some j, partner ln rn j)) (map (joinName ln rn) (map (fun x => (Some x, partner ln rn x)) (filter (hasPartner ln rn) (seq 0 (List.length ln)))))).
    { apply in_map, (in_map (fun x => (Some x, partner ln rn x))), filter_In. split; [apply in_seq; lia|exact P]. }
    apply In_nth_error in I. destruct I as [k K]. exists k. split; [|congruence]. rewrite K. cbn. congruence.
  - exists j. split; [|reflexivity]. rewrite (G _ _ ltac:(discriminate)). cbn. congruence.
  - exists j. split; [|reflexivity]. specialize (G (joinName ln rn) [] ltac:(discriminate)). rewrite app_nil_r in G. rewrite G. cbn. congruence.
Qed.
Lemma getIndex_name a s k : Inv a -> nth_error (getNames a) k = Some (Some s) -> getIndex a (IdStr s) false = Ok (Z.of_nat k).
Proof. intros I K. unfold getIndex. pose proof (nth_error_lt _ _ K) as L. rewrite (getNames_length _ I) in L. rewrite (proj2 (Z.eqb_neq _ _)) by lia. rewrite (getIndexByName_nth _ _ _ I K). reflexivity. Qed.
Lemma getIndex_pos a (j : nat) s : Inv a -> nth_error (getNames a) j = Some (Some s) -> getIndex a (IdInt (Z.of_nat j)) false = Ok (Z.of_nat j).
Proof. intros I H. apply PrepProofs.getIndex_nat. rewrite <- (getNames_length _ I). exact (nth_error_lt _ _ H). Qed.

Lemma merge_plain leb t o point feature on : (point = Union -> on = None \/ on = Some (OnName "") \/ on = Some (OnIndex 0)) ->
  merge leb false t o point feature on = mergeFrontend false t o point feature on.
Proof.
  intros H. unfold merge. destruct (mergeFrontend false t o point feature on) as [x [[]|e]]; [|reflexivity].
  destruct point; try reflexivity. destruct (H eq_refl) as [->|[->| ->]]; reflexivity.
Qed.
Lemma merge_union_sorted leb t o feature on m s : TotalOrder leb -> wf t -> wf o -> JoinKey t o (Some on) m -> keyIs t on s ->
  match on with OnName n => n <> ""%string | OnIndex z => z <> 0%Z /\ feature <> Intersection end ->
  forall r, mergeFrontend false t o Union feature (Some on) = (r, Ok tt) -> JoinOf t o Union feature false m r ->
  exists r', merge leb false t o Union feature (Some on) = (r', Ok tt) /\ SortedBy leb s r r'.
Proof.
  intros TO WT WO JK KI C r E J. unfold merge. rewrite E. destruct J as [W [_ [_ [_ [FN _]]]]]. cbv zeta in FN. assert (IR : Inv (tf r)) by apply W.
  inversion JK as [|s0 j j' A B|s0 j A B]; subst on m.
  - cbn in KI. subst s0. destruct (join_key_pos t o feature j j' s WT WO A B) as [k [K _]]. rewrite <- FN in K. cbn [truthy onIdent].
    destruct (String.eqb_spec s ""); [congruence|]. cbn [negb]. rewrite (getIndex_name _ _ _ IR K), Nat2Z.id. destruct (sorted_by leb s r k TO W K) as [r' [-> S]]. eauto.
  - destruct KI as [j0 [E0 K0]]. apply Nat2Z.inj in E0. subst j0. assert (s0 = s) by congruence. subst s0. destruct C as [C1 C2].
    destruct (join_key_pos t o feature j j s WT WO A B) as [k [K KJ]]. rewrite (KJ C2) in K. rewrite <- FN in K. cbn [truthy onIdent].
    destruct (Z.eqb_spec (Z.of_nat j) 0); [congruence|]. cbn [negb]. rewrite (getIndex_pos _ _ _ IR K), Nat2Z.id. destruct (sorted_by leb s r j TO W K) as [r' [-> S]]. eauto.
Qed.
