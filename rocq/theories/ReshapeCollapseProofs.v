(** Proofs for C49: splitByCollapsingFeatures. *)
From Coq Require Import DecimalString.
From Verif Require Import Base NamesModel NamesSpec NamesProofs NamesIndexProofs TableModel TableSpec TableProofs TableOpsProofs FlatProofs MatchModel MatchSpec
  MergeModel BinOpProofs MergeNamesProofs ReshapeModel ReshapeSpec ReshapeTextProofs ReshapeSplitProofs.
Open Scope string_scope. Open Scope list_scope. Open Scope nat_scope.

Lemma list_max_all l k : (forall x, In x l -> x = k) -> list_max l = k \/ l = [].
Proof.
  induction l as [|x l IH]; intros H; [auto|left]. cbn [list_max fold_right]. fold (list_max l).
  rewrite (H x (or_introl eq_refl)). destruct IH as [E|E]; [intros y I; apply H; right; exact I|rewrite E; lia|subst l; cbn; lia].
Qed.
Lemma list_max_top l k : (forall x, In x l -> x <= k) -> In k l -> list_max l = k.
Proof.
  intros H I. apply Nat.le_antisymm.
  - apply list_max_le. apply Forall_forall. exact H.
  - destruct (in_split _ _ I) as [a [b ->]]. rewrite list_max_app. cbn [list_max fold_right]. lia.
Qed.
Lemma npArray_same strOf m : OneType (List.concat m) -> npArray strOf m = m.
Proof.
  intros O. unfold npArray. set (k := list_max _). 
  assert (C : forall v, In v (List.concat m) -> npCast strOf k v = v).
  { intros v I. assert (I' : In (npKind v) (map npKind (List.concat m))) by (apply in_map; exact I).
    destruct O as [O|[O|[O|[O|O]]]].
    - assert (E : k = 4). { apply list_max_top; [|change 4 with (npKind PNone); apply in_map; exact O]. intros x X. apply in_map_iff in X. destruct X as [u [<- _]]. destruct u; cbn; lia. }
      rewrite E. reflexivity.
    - destruct (list_max_all (map npKind (List.concat m)) 0) as [E|E]; [intros x X; apply in_map_iff in X; destruct X as [u [<- U]]; destruct (O u U) as [b ->]; reflexivity| |rewrite E in I'; destruct I'].
      subst k. rewrite E. reflexivity.
    - destruct (list_max_all (map npKind (List.concat m)) 1) as [E|E]; [intros x X; apply in_map_iff in X; destruct X as [u [<- U]]; destruct (O u U) as [b ->]; reflexivity| |rewrite E in I'; destruct I'].
      subst k. rewrite E. destruct (O v I) as [z ->]. reflexivity.
    - destruct (list_max_all (map npKind (List.concat m)) 2) as [E|E]; [intros x X; apply in_map_iff in X; destruct X as [u [<- U]]; specialize (O u U); destruct u; try reflexivity; destruct O| |rewrite E in I'; destruct I'].
      subst k. rewrite E. specialize (O v I). destruct v; try reflexivity; destruct O.
    - destruct (list_max_all (map npKind (List.concat m)) 3) as [E|E]; [intros x X; apply in_map_iff in X; destruct X as [u [<- U]]; destruct (O u U) as [b ->]; reflexivity| |rewrite E in I'; destruct I'].
      subst k. rewrite E. destruct (O v I) as [z ->]. reflexivity. }
  clearbody k. clear O. induction m as [|r m IH]; [reflexivity|]. cbn [map]. f_equal.
  - transitivity (map (fun x => x) r); [|apply map_id]. apply map_ext_in. intros v I. apply C. cbn. apply in_or_app. auto.
  - apply IH. intros v I. apply C. cbn. apply in_or_app. auto.
Qed.
Lemma combine_map2 {A B C} (f : A -> B) (g : A -> C) l : combine (map f l) (map g l) = map (fun x => (f x, g x)) l.
Proof. induction l as [|x l IH]; [reflexivity|]. cbn. rewrite IH. reflexivity. Qed.
Lemma flat_map_map {A B C} (f : B -> list C) (g : A -> B) l : flat_map f (map g l) = flat_map (fun x => f (g x)) l.
Proof. induction l as [|x l IH]; [reflexivity|]. cbn. rewrite IH. reflexivity. Qed.
Lemma pointName_inj a b i j : pointName (Some a) i = pointName (Some b) j -> a = b /\ i = j.
Proof.
  unfold pointName, decStr. intros H. apply split_underscore in H; [|apply dec10_noUnderscore|apply dec10_noUnderscore].
  destruct H as [-> H]. apply dec10_inj in H. auto.
Qed.
Lemma others_length idx n : NoDup idx -> (forall i, In i idx -> i < n) -> List.length (others idx n) = n - List.length idx.
Proof. intros ND H. unfold others. apply filter_count_targets; [exact ND|]. intros i I. specialize (H i I). lia. Qed.
Lemma Refers_lt a ids idx : Forall2 (Refers a) ids idx -> forall i, In i idx -> i < alen a.
Proof. induction 1 as [|id i ids idx [L _] F IH]; intros j J; [destruct J|]. destruct J as [<-|I]; auto. Qed.
Lemma flat_map_const_length {A B} (f : A -> list B) l k : (forall x, In x l -> List.length (f x) = k) -> List.length (flat_map f l) = List.length l * k.
Proof.
  induction l as [|x l IH]; intros H; [reflexivity|]. cbn [flat_map]. rewrite app_length, (H x) by (left; reflexivity).
  rewrite IH by (intros y I; apply H; right; exact I). cbn. lia.
Qed.
Lemma divmod_at k p q : q < k -> (p * k + q) / k = p /\ (p * k + q) mod k = q.
Proof.
  intros L. split; [rewrite Nat.add_comm, Nat.div_add, Nat.div_small by lia; reflexivity|].
  rewrite Nat.add_comm, Nat.mod_add, Nat.mod_small by lia. reflexivity.
Qed.
Lemma nameOrIndex_cell a i : nameOrIndex a i = nameCell (getNames a) i.
Proof.
  unfold nameOrIndex, nameCell. destruct (nth_error (getNames a) i) as [o|] eqn:E.
  - rewrite (nth_error_nth _ _ None E). destruct o; reflexivity.
  - rewrite nth_overflow by (apply nth_error_None; exact E). reflexivity.
Qed.
Section Collapse.
Variable strOf : pval -> string.
Variable t : table pval.
Hypothesis W : wf t.
Variables (ids : list ident) (idx : list nat) (nameFt valueFt : option string).
Hypothesis RF : Forall2 (Refers (tf t)) ids idx.
Hypothesis ND : NoDup idx.
Let W1 := proj1 W.
Let W2 := proj1 (proj2 W).
Let Ip := proj1 (proj2 (proj2 W)).
Let If_ := proj2 (proj2 (proj2 W)).
Let k := List.length idx.
Let names' := map (fun i => nth i (getNames (tf t)) None) (others idx (alen (tf t))) ++ [nameFt; valueFt].
Let nameCells := map (nameOrIndex (tf t)) idx.
Hypothesis NP : 0 < alen (tp t).
Hypothesis DN : DistinctNames names'.
Hypothesis PN : astate (tp t) = None \/ FullyNamed (tp t).
Hypothesis O1 : OneType (List.concat (map (fun r => pick r (others idx (alen (tf t)))) (rows t))).
Hypothesis O2 : OneType (List.concat (map (fun r => pick r idx) (rows t))).
Hypothesis O3 : OneType nameCells.
Let rowOf (r : list pval) (q : pval * pval) : list pval := pick r (others idx (alen (tf t))) ++ [fst q; snd q].
Let data := flat_map (fun r => map (rowOf r) (combine nameCells (pick r idx))) (rows t).

Lemma data_is : fillCollapsed strOf nameCells (map (fun r => pick r (others idx (alen (tf t)))) (rows t)) (map (fun r => pick r idx) (rows t)) = data.
Proof.
  unfold fillCollapsed. rewrite !npArray_same by (auto; cbn; rewrite app_nil_r; exact O3). rewrite combine_map2, flat_map_map.
  cbn [List.concat]. rewrite app_nil_r. reflexivity.
Qed.
Lemma comb_len r : List.length (combine nameCells (pick r idx)) = k.
Proof. unfold nameCells, pick. rewrite combine_length, !map_length. unfold k. lia. Qed.
Lemma data_nth p row q i : nth_error (rows t) p = Some row -> nth_error idx q = Some i ->
  nth_error data (p * k + q) = Some (pick row (others idx (alen (tf t))) ++ [nameOrIndex (tf t) i; nth i row PNaN]).
Proof.
  intros R Q. assert (L : q < k) by (apply nth_error_Some; congruence).
  unfold data. rewrite (flat_map_const_nth _ _ k); [|intros x _; rewrite map_length; apply comb_len|lia].
  destruct (divmod_at k p q L) as [-> ->]. rewrite R, nth_error_map, nth_error_combine. unfold nameCells, pick. rewrite !nth_error_map, Q. reflexivity.
Qed.
Definition pointNamesAfter : list (option string) := flat_map (fun n => map (fun i => Some (pointName n i)) (seq 0 k)) (getNames (tp t)).
Lemma pointNames_nth p q s : nth_error (getNames (tp t)) p = Some s -> q < k -> nth_error pointNamesAfter (p * k + q) = Some (Some (pointName s q)).
Proof.
  intros E L. unfold pointNamesAfter. rewrite (flat_map_const_nth _ _ k); [|intros x _; rewrite map_length, seq_length; reflexivity|lia].
  destruct (divmod_at k p q L) as [-> ->]. rewrite E, nth_error_map, (nth_error_nth' _ 0), seq_nth by (rewrite ?seq_length; lia). reflexivity.
Qed.
Lemma pointNames_inv m x : nth_error pointNamesAfter m = Some x -> exists s, nth_error (getNames (tp t)) (m / k) = Some s /\ x = Some (pointName s (m mod k)) /\ 0 < k.
Proof.
  intros E. assert (K : 0 < k).
  { destruct k as [|k'] eqn:Ek; [|lia]. exfalso. unfold pointNamesAfter in E. rewrite Ek in E. cbn in E.
    assert (X : flat_map (fun _ : option string => []) (getNames (tp t)) = @nil (option string)) by (clear; induction (getNames (tp t)); auto).
    rewrite X in E. destruct m; discriminate. }
  unfold pointNamesAfter in E. rewrite (flat_map_const_nth _ _ k) in E; [|intros y _; rewrite map_length, seq_length; reflexivity|exact K].
  destruct (nth_error (getNames (tp t)) (m / k)) as [s|]; [|discriminate]. exists s. split; [reflexivity|].
  assert (LM : m mod k < k) by (apply Nat.mod_upper_bound; lia).
  rewrite nth_error_map, (nth_error_nth' _ 0), seq_nth in E by (rewrite ?seq_length; lia). injection E as <-. auto.
Qed.
Lemma pointNames_distinct : FullyNamed (tp t) -> DistinctNames pointNamesAfter.
Proof.
  intros FN a b s A B. destruct (pointNames_inv _ _ A) as [x [X [E K]]]. destruct (pointNames_inv _ _ B) as [y [Y [F _]]].
  assert (LA : a / k < alen (tp t)) by (rewrite <- (getNames_length _ Ip); apply nth_error_Some; congruence).
  assert (LB : b / k < alen (tp t)) by (rewrite <- (getNames_length _ Ip); apply nth_error_Some; congruence).
  destruct (FN _ LA) as [u U]. destruct (FN _ LB) as [w V]. rewrite X in U. rewrite Y in V. injection U as ->. injection V as ->.
  rewrite E in F. injection F as F. apply pointName_inj in F. destruct F as [-> M].
  assert (D : a / k = b / k) by (eapply (Inv_names_distinct _ Ip); [exact X|exact Y]).
  rewrite (Nat.div_mod a k), (Nat.div_mod b k) by lia. congruence.
Qed.
Lemma pointNames_length : List.length pointNamesAfter = alen (tp t) * k.
Proof. unfold pointNamesAfter. rewrite (flat_map_const_length _ _ k), (getNames_length _ Ip); [reflexivity|]. intros x _. rewrite map_length, seq_length. reflexivity. Qed.

Theorem collapse_ok : exists t', collapseFeatures strOf t ids nameFt valueFt = (t', Ok tt) /\ wf t' /\
  alen (tp t') = alen (tp t) * k /\ getNames (tf t') = names' /\
  (forall p row q i, nth_error (rows t) p = Some row -> nth_error idx q = Some i ->
     nth_error (rows t') (p * k + q) = Some (pick row (others idx (alen (tf t))) ++ [nameOrIndex (tf t) i; nth i row PNaN])) /\
  (forall p q s, nth_error (getNames (tp t)) p = Some (Some s) -> q < k -> nth_error (getNames (tp t')) (p * k + q) = Some (Some (pointName (Some s) q))) /\
  (astate (tp t) = None -> astate (tp t') = None).
Proof.
  pose proof (Refers_lt _ _ _ RF) as LT. pose proof (others_length idx (alen (tf t)) ND LT) as LO.
  assert (LK : k <= alen (tf t)).
  { unfold k. rewrite <- (seq_length (alen (tf t)) 0). apply NoDup_incl_length; [exact ND|]. intros i I. apply in_seq. specialize (LT i I). lia. }
  unfold collapseFeatures. rewrite (Refers_indices _ If_ _ _ RF). rewrite (proj2 (nodupb_NoDup idx) ND). cbn [negb].
  replace (alen (tp t) =? 0) with false by (symmetry; apply Nat.eqb_neq; lia). cbn [andb].
  fold (others idx (alen (tf t))). fold k. fold nameCells. fold names'.
  assert (D : fillCollapsed strOf nameCells (map (fun r => map (fun i => nth i r PNaN) (others idx (alen (tf t)))) (rows t)) (map (fun r => map (fun i => nth i r PNaN) idx) (rows t)) = data) by exact data_is.
  rewrite D. 
  assert (LN : List.length names' = alen (tf t) - k + 2) by (unfold names'; rewrite app_length, map_length, LO; reflexivity).
  destruct (setList_ok (tf t) (alen (tf t) - k + 2) names' LN DN) as [a [-> [Ia [La Na]]]].
  assert (LD : List.length data = alen (tp t) * k).
  { unfold data. rewrite (flat_map_const_length _ _ k), W1; [reflexivity|]. intros x _. rewrite map_length. apply comb_len. }
  assert (LR : forall r, In r data -> List.length r = alen a).
  { intros r I. unfold data in I. apply in_flat_map in I. destruct I as [row [_ I]]. apply in_map_iff in I. destruct I as [q [<- _]].
    unfold rowOf, pick. rewrite app_length, map_length, LO, La. reflexivity. }
  destruct PN as [E|FN].
  - unfold namesCreated. rewrite E. eexists. split; [reflexivity|]. cbn [tp tf rows alen astate].
    split; [split; [exact LD|split; [exact LR|split; [apply fresh_Inv|exact Ia]]]|].
    split; [reflexivity|]. split; [exact Na|]. split; [exact data_nth|]. split; [|auto].
    intros p q s N. exfalso. unfold getNames in N. rewrite names_inv_ensure in N. unfold names_inv in N. rewrite E in N.
    apply nth_error_In in N. apply repeat_spec in N. discriminate.
  - assert (NC : namesCreated (tp t) = true).
    { unfold namesCreated. destruct (astate (tp t)) eqn:E; [reflexivity|]. exfalso. destruct (FN 0 NP) as [s N].
      unfold getNames in N. rewrite names_inv_ensure in N. unfold names_inv in N. rewrite E in N. apply nth_error_In in N. apply repeat_spec in N. discriminate. }
    rewrite NC. fold pointNamesAfter.
    destruct (setList_ok (tp t) (alen (tp t) * k) pointNamesAfter pointNames_length (pointNames_distinct FN)) as [b [-> [Ib [Lb Nb]]]].
    eexists. split; [reflexivity|]. cbn [tp tf rows].
    split; [split; [cbn [rows tp]; rewrite LD, Lb; reflexivity|split; [exact LR|split; [exact Ib|exact Ia]]]|].
    split; [exact Lb|]. split; [exact Na|]. split; [exact data_nth|]. split.
    + intros p q s N L. rewrite Nb. apply pointNames_nth; auto.
    + intros E. unfold namesCreated in NC. rewrite E in NC. discriminate.
Qed.
End Collapse.
