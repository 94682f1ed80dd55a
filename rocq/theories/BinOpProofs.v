(** Proofs for binary operators: names (C17). *)
From Verif Require Import Base NamesModel NamesSpec NamesProofs TableModel TableSpec TableProofs TableOps MatchModel MatchSpec MatchProofs
  ElementsModel ElementsProofs ElementsCalcProofs BinOpModel BinOpSpec.
From Coq Require Import QArith Qabs.
Open Scope nat_scope.

(** ** inconsistentNames *)
Lemma checkLeft_ok : forall l i r, i + List.length l <= List.length r ->
  exists b, checkLeft i l r = Ok b /\
  (b = true <-> exists k s, nth_error l k = Some (Some s) /\
     match nth_error r (i + k) with Some (Some s') => s <> s' | Some None => In (Some s) r | None => False end).
Proof.
  induction l as [|o l IH]; intros i r H.
  - exists false. split; [reflexivity|]. split; [discriminate|]. intros [[|k] [s [E _]]]; discriminate E.
  - cbn in H. cbn [checkLeft]. destruct (nth_error_is_some r (i := i)) as [rn E]; [lia|]. rewrite E.
    destruct (IH (S i) r) as [b [EB HB]]; [cbn; lia|]. rewrite EB. cbn [rbind]. eexists. split; [reflexivity|].
    rewrite orb_true_iff, HB. split.
    + intros [F|[k [s [K1 K2]]]].
      * exists 0. destruct o as [s|]; [|discriminate F]. exists s. split; [reflexivity|]. rewrite Nat.add_0_r, E.
        destruct rn as [s'|]; [apply negb_true_iff, String.eqb_neq in F; exact F|apply mem_In; exact F].
      * exists (S k), s. split; [exact K1|]. replace (i + S k) with (S i + k) by lia. exact K2.
    + intros [[|k] [s [K1 K2]]].
      * cbn in K1. injection K1 as ->. rewrite Nat.add_0_r, E in K2. left. destruct rn as [s'|].
        -- apply negb_true_iff, String.eqb_neq. exact K2.
        -- apply mem_In. exact K2.
      * right. exists k, s. split; [exact K1|]. replace (S i + k) with (i + S k) by lia. exact K2.
Qed.
Definition Distinct (l : list (option string)) : Prop := forall i j s, nth_error l i = Some (Some s) -> nth_error l j = Some (Some s) -> i = j.
Lemma NamesConsistent_sym l r : NamesConsistent l r -> NamesConsistent r l.
Proof.
  intros [A B]. split.
  - intros i s s' H1 H2. symmetry. exact (A i s' s H2 H1).
  - intros i j s H1 H2. symmetry. exact (B j i s H2 H1).
Qed.
Lemma consistent_check l r : NamesConsistent l r -> ~ exists k s, nth_error l k = Some (Some s) /\
     match nth_error r (0 + k) with Some (Some s') => s <> s' | Some None => In (Some s) r | None => False end.
Proof.
  intros [A B] [k [s [K1 K2]]]. cbn in K2. destruct (nth_error r k) as [[s'|]|] eqn:E; [|apply In_nth_error in K2; destruct K2 as [j K2]|exact K2].
  - exact (K2 (A k s s' K1 E)).
  - pose proof (B k j s K1 K2). subst j. congruence.
Qed.
Lemma inconsistentNames_spec l r : List.length l = List.length r -> Distinct l -> Distinct r ->
  exists b, inconsistentNames l r = Ok b /\ (b = false <-> NamesConsistent l r).
Proof.
  intros L DL DR. unfold inconsistentNames. destruct (checkLeft_ok l 0 r) as [x [EX HX]]; [cbn; lia|]. destruct (checkLeft_ok r 0 l) as [y [EY HY]]; [cbn; lia|].
  rewrite EX. cbn [rbind]. rewrite EY. cbn [rbind]. eexists. split; [reflexivity|]. rewrite orb_false_iff. split.
  - intros [-> ->]. assert (NX : ~ (exists k s, nth_error l k = Some (Some s) /\ match nth_error r (0 + k) with Some (Some s') => s <> s' | Some None => In (Some s) r | None => False end)) by (intros C; apply HX in C; discriminate C).
    assert (P1 : forall i s s', nth_error l i = Some (Some s) -> nth_error r i = Some (Some s') -> s = s').
    { intros i s s' H1 H2. destruct (string_dec s s') as [|N]; [assumption|]. exfalso. apply NX. exists i, s. cbn. rewrite H2. auto. }
    split; [exact P1|]. intros i j s H1 H2. destruct (nth_error_is_some r (i := i)) as [o E]; [rewrite <- L; apply (nth_error_lt _ _ H1)|].
    destruct o as [s'|].
    + pose proof (P1 i s s' H1 E). subst s'. exact (DR i j s E H2).
    + exfalso. apply NX. exists i, s. cbn. rewrite E. split; [exact H1|]. eapply nth_error_In; eauto.
  - intros C. split.
    + destruct x; [|reflexivity]. exfalso. apply (consistent_check l r C). apply HX. reflexivity.
    + destruct y; [|reflexivity]. exfalso. apply (consistent_check r l (NamesConsistent_sym _ _ C)). apply HY. reflexivity.
Qed.
Lemma unnamed_names a : getNamesNoGeneration a = None -> getNames a = repeat None (alen a).
Proof.
  unfold getNamesNoGeneration, getNames. rewrite names_inv_ensure. unfold namesCreated, names_inv. destruct (astate a) as [[d l]|]; [discriminate|reflexivity].
Qed.
Lemma named_names a l : getNamesNoGeneration a = Some l -> getNames a = l.
Proof. unfold getNamesNoGeneration. destruct (namesCreated a); congruence. Qed.
Lemma repeat_None_consistent n r : NamesConsistent (repeat None n) r /\ NamesConsistent r (repeat None n).
Proof.
  assert (H : NamesConsistent (repeat None n) r).
  { split; intros i; intros; exfalso.
    - match goal with H : nth_error (repeat _ _) _ = _ |- _ => apply nth_error_In, repeat_spec in H; discriminate H end.
    - match goal with H : nth_error (repeat _ _) _ = _ |- _ => apply nth_error_In, repeat_spec in H; discriminate H end. }
  split; [exact H|apply NamesConsistent_sym; exact H].
Qed.
Lemma names_Distinct a : Inv a -> Distinct (getNames a).
Proof. intros H i j s. apply Inv_names_distinct; assumption. Qed.
Lemma validateEqualNames_spec a b : Inv a -> Inv b -> alen a = alen b ->
  (validateEqualNames a b = Ok tt /\ NamesConsistent (getNames a) (getNames b)) \/
  (validateEqualNames a b = Err InvalidArgumentValue /\ ~ NamesConsistent (getNames a) (getNames b)).
Proof.
  intros IA IB L. unfold validateEqualNames. destruct (getNamesNoGeneration a) as [l|] eqn:EA.
  - destruct (getNamesNoGeneration b) as [r|] eqn:EB.
    + apply named_names in EA. apply named_names in EB. pose proof (getNames_length _ IA) as LA. pose proof (getNames_length _ IB) as LB.
      pose proof (names_Distinct a IA) as DA. pose proof (names_Distinct b IB) as DB. rewrite EA in *. rewrite EB in *.
      destruct (inconsistentNames_spec l r) as [x [E H]]; [congruence|exact DA|exact DB|]. rewrite E. cbn [rbind]. destruct x; [right|left].
      * split; [reflexivity|]. intros C. apply H in C. discriminate C.
      * split; [reflexivity|]. apply H. reflexivity.
    + left. split; [reflexivity|]. rewrite (unnamed_names b EB). apply repeat_None_consistent.
  - left. split; [reflexivity|]. rewrite (unnamed_names a EA). apply repeat_None_consistent.
Qed.
Lemma nonDefault_In l s : In s (nonDefault l) <-> In (Some s) l.
Proof.
  unfold nonDefault. rewrite in_flat_map. split.
  - intros [[x|] [H1 H2]]; [destruct H2 as [->|[]]; exact H1|destruct H2].
  - intros H. exists (Some s). split; [exact H|left; reflexivity].
Qed.
Lemma axisNamesDisjoint_spec a b :
  (axisNamesDisjoint a b = Ok tt /\ NamesDisjoint (getNames a) (getNames b)) \/
  (axisNamesDisjoint a b = Err InvalidArgumentValue /\ ~ NamesDisjoint (getNames a) (getNames b)).
Proof.
  unfold axisNamesDisjoint. destruct (existsb _ _) eqn:E; [right|left]; (split; [reflexivity|]).
  - apply existsb_exists in E. destruct E as [s [H1 H2]]. apply mem_In in H2. intros D. apply (D s); apply nonDefault_In; assumption.
  - intros s H1 H2. assert (T : existsb (fun s => mem s (nonDefault (getNames b))) (nonDefault (getNames a)) = true).
    { apply existsb_exists. exists s. split; [apply nonDefault_In; exact H1|apply mem_In, nonDefault_In; exact H2]. }
    congruence.
Qed.

(** ** names of the result *)
Lemma combined_length l r : List.length l = List.length r -> List.length (combined l r) = List.length l.
Proof. intros H. unfold combined. rewrite map_length, combine_length. lia. Qed.
Lemma combined_nth l r i : List.length l = List.length r -> nth_error (combined l r) i =
  match nth_error l i with Some (Some s) => Some (Some s) | Some None => nth_error r i | None => None end.
Proof.
  intros L. unfold combined. rewrite nth_error_map, nth_error_combine. destruct (nth_error l i) as [[s|]|] eqn:E; [| |reflexivity].
  - destruct (nth_error_is_some r (i := i)) as [o EO]; [rewrite <- L; apply (nth_error_lt _ _ E)|]. rewrite EO. reflexivity.
  - destruct (nth_error r i); reflexivity.
Qed.
Lemma combined_distinct l r : List.length l = List.length r -> Distinct l -> Distinct r -> NamesConsistent l r -> Distinct (combined l r).
Proof.
  intros L DL DR [A B] i j s. rewrite (combined_nth l r i L), (combined_nth l r j L).
  destruct (nth_error l i) as [[s1|]|] eqn:Ei; destruct (nth_error l j) as [[s2|]|] eqn:Ej; intros H1 H2; try discriminate.
  - injection H1 as ->. injection H2 as ->. exact (DL i j s Ei Ej).
  - injection H1 as ->. exact (B i j s Ei H2).
  - injection H2 as ->. symmetry. exact (B j i s Ej H1).
  - exact (DR i j s H1 H2).
Qed.
Lemma combined_None_l n r : List.length r = n -> combined (repeat None n) r = r.
Proof.
  revert n. induction r as [|o r IH]; intros n <-; [reflexivity|]. cbn. f_equal. apply IH. reflexivity.
Qed.
Lemma combined_None_r l n : List.length l = n -> combined l (repeat None n) = l.
Proof.
  revert n. induction l as [|o l IH]; intros n <-; [reflexivity|]. cbn. f_equal; [destruct o; reflexivity|]. apply IH. reflexivity.
Qed.
Lemma namedAxis_list n l : List.length l = n -> Distinct l -> exists a, namedAxis n (Some l) = Ok a /\ alen a = n /\ Inv a /\ getNames a = l.
Proof.
  intros L D. destruct (initAxis_ok n l L D) as [a [E H]]. exists a. split; [|exact H]. unfold initAxis in E. rewrite L, Nat.eqb_refl in E. exact E.
Qed.
Lemma namedAxis_None n : namedAxis n None = Ok (mkAxis n None).
Proof. reflexivity. Qed.
Lemma namedAxis_same a : Inv a -> exists a', namedAxis (alen a) (getNamesNoGeneration a) = Ok a' /\ alen a' = alen a /\ Inv a' /\ getNames a' = getNames a.
Proof.
  intros H. destruct (getNamesNoGeneration a) as [l|] eqn:E.
  - pose proof (getNames_length a H) as L. pose proof (names_Distinct a H) as D. rewrite (named_names _ _ E) in *. apply namedAxis_list; assumption.
  - exists (mkAxis (alen a) None). rewrite (unnamed_names a E). split; [reflexivity|]. split; [reflexivity|]. split; [exact I|apply getNames_fresh].
Qed.
Lemma mergeNames_combined l r : mergeNames (Some l) (Some r) = Some (combined l r).
Proof.
  unfold mergeNames, combined. f_equal. apply map_ext. intros [[s|] [s'|]]; reflexivity.
Qed.
Lemma mergedAxis a b : Inv a -> Inv b -> alen a = alen b -> NamesConsistent (getNames a) (getNames b) ->
  exists x, namedAxis (alen a) (mergeNames (getNamesNoGeneration a) (getNamesNoGeneration b)) = Ok x /\ alen x = alen a /\ Inv x /\
    getNames x = combined (getNames a) (getNames b).
Proof.
  intros IA IB L C. pose proof (getNames_length a IA) as LA. pose proof (getNames_length b IB) as LB.
  destruct (getNamesNoGeneration b) as [r|] eqn:EB.
  - destruct (getNamesNoGeneration a) as [l|] eqn:EA.
    + rewrite mergeNames_combined. pose proof (names_Distinct a IA) as DA. pose proof (names_Distinct b IB) as DB.
      rewrite (named_names _ _ EA) in *. rewrite (named_names _ _ EB) in *.
      apply namedAxis_list; [rewrite combined_length; congruence|]. apply combined_distinct; try assumption. congruence.
    + rewrite (unnamed_names a EA), combined_None_l by congruence. cbn [mergeNames]. rewrite L. rewrite <- EB. apply namedAxis_same. exact IB.
  - rewrite (unnamed_names b EB), combined_None_r by congruence. assert (E : mergeNames (getNamesNoGeneration a) None = getNamesNoGeneration a) by (destruct (getNamesNoGeneration a); reflexivity). rewrite E.
    apply namedAxis_same. exact IA.
Qed.

(** ** numbers *)
Section Nums.
Variable floatOf : string -> option pval.
Hypothesis FO : FloatOracle floatOf.
Lemma toNumeric_ok pow v v' : toNumeric floatOf pow v = Ok v' -> AsNumber floatOf v v'.
Proof.
  destruct v as [b|z|q| | | |s|]; cbn; intros H; try (injection H as <-; apply asn_same; reflexivity).
  - destruct pow; injection H as <-; [|apply asn_same; reflexivity]. eapply asn_float; [constructor|reflexivity].
  - destruct pow; injection H as <-; [|apply asn_same; reflexivity]. eapply asn_float; [constructor|reflexivity].
  - destruct (floatOf s) as [x|] eqn:E; [|discriminate]. injection H as <-. apply asn_str. exact E.
  - discriminate.
Qed.
Lemma toNumeric_some pow v : Numeric floatOf v -> exists v', toNumeric floatOf pow v = Ok v'.
Proof.
  intros [v' H]. inversion H as [x N|x q q' N E|s x E]; subst.
  - destruct v'; cbn; try (eexists; reflexivity); discriminate N.
  - inversion N; subst; cbn; eexists; reflexivity.
  - cbn. rewrite E. eexists; reflexivity.
Qed.
Lemma toNumeric_err pow v e : toNumeric floatOf pow v = Err e -> ~ Numeric floatOf v.
Proof. intros H N. destruct (toNumeric_some pow v N) as [v' E]. congruence. Qed.
Lemma nonNumeric_looks v : ~ Numeric floatOf v -> looksNumeric v = false.
Proof. intros N. destruct (looksNumeric v) eqn:E; [|reflexivity]. exfalso. apply N. exists v. apply asn_same. exact E. Qed.
Definition shapeOf (t : table pval) : wf t -> shape (rows t) (alen (tp t)) (alen (tf t)).
Proof. intros [A [B _]]. split; assumption. Defined.
Lemma wf_withRows t m : wf t -> shape m (alen (tp t)) (alen (tf t)) -> wf (withRows t m).
Proof. intros [A [B [C D]]] [E F]. split; [exact E|]. split; [exact F|]. split; assumption. Qed.
Lemma numericRows_spec pow e t : wf t ->
  (exists m, numericRows floatOf pow e (rows t) = Ok m /\ AllNumeric floatOf t /\ wf (withRows t m) /\
     forall i j v, cell t i j = Some v -> exists v', cell (withRows t m) i j = Some v' /\ toNumeric floatOf pow v = Ok v') \/
  (numericRows floatOf pow e (rows t) = Err e /\ ~ AllNumeric floatOf t).
Proof.
  intros W. unfold numericRows. pose proof (rmapM2_ok (toNumeric floatOf pow) (rows t) _ _ (shapeOf t W)) as H.
  destruct (rmapM (rmapM (toNumeric floatOf pow)) (rows t)) as [m|e'].
  - left. destruct H as [Sm Hm]. exists m. split; [reflexivity|].
    assert (C : forall i j v, cell t i j = Some v -> exists v', cell (withRows t m) i j = Some v' /\ toNumeric floatOf pow v = Ok v') by (intros i j v Hv; exact (Hm i j v Hv)).
    split; [|split; [apply wf_withRows; assumption|exact C]].
    intros i j v Hv. destruct (C i j v Hv) as [v' [_ E]]. exists v'. exact (toNumeric_ok _ _ _ E).
  - right. destruct H as [i [j [v [Hv E]]]]. pose proof (toNumeric_err _ _ _ E) as N. assert (forallb (forallb looksNumeric) (rows t) = false) as ->.
    { apply not_true_is_false. intros C. rewrite forallb_forall in C. unfold mcell in Hv. destruct (nth_error (rows t) i) as [r|] eqn:Er; [|discriminate].
      specialize (C r (nth_error_In _ _ Er)). rewrite forallb_forall in C. specialize (C v (nth_error_In _ _ Hv)). rewrite (nonNumeric_looks v N) in C. discriminate. }
    split; [reflexivity|]. intros A. exact (N (A i j v Hv)).
Qed.

(** ** element types *)
Lemma dtypeOf_all (t : table pval) (p : pval -> bool) : forallb p (List.concat (rows t)) = true <-> forall i j v, cell t i j = Some v -> p v = true.
Proof.
  rewrite forallb_forall. split.
  - intros H i j v Hv. apply H. apply concat_rows_cell. exists i, j. exact Hv.
  - intros H v Hv. apply concat_rows_cell in Hv. destruct Hv as [i [j Hv]]. exact (H i j v Hv).
Qed.
Lemma dtypeOf_some (t : table pval) (p : pval -> bool) : forallb p (List.concat (rows t)) = false -> exists i j v, cell t i j = Some v /\ p v = false.
Proof.
  intros H. assert (E : exists v, In v (List.concat (rows t)) /\ p v = false).
  { induction (List.concat (rows t)) as [|x l IH]; [discriminate H|]. cbn in H. destruct (p x) eqn:Ex.
    - destruct (IH H) as [v [A B]]. exists v. split; [right; exact A|exact B].
    - exists x. split; [left; reflexivity|exact Ex]. }
  destruct E as [v [A B]]. apply concat_rows_cell in A. destruct A as [i [j A]]. eauto.
Qed.
Lemma toNumeric_kinds pow v v' : toNumeric floatOf pow v = Ok v' ->
  looksNumeric v' = true /\ (pow = true -> isF v' = true) /\ (pow = false -> isB v' = isB v /\ isI v' = isI v).
Proof.
  destruct v as [b|z|q| | | |s|]; cbn; intros H; try (injection H as <-; repeat split; auto; fail); try discriminate.
  - destruct pow; injection H as <-; repeat split; intros; try discriminate; auto.
  - destruct pow; injection H as <-; repeat split; intros; try discriminate; auto.
  - destruct (floatOf s) as [x|] eqn:E; [|discriminate]. injection H as <-. pose proof (FO s x E) as F. destruct x; try discriminate F; repeat split; auto.
Qed.
Lemma ArrayType_ok pow t m : wf t -> 0 < alen (tp t) -> 0 < alen (tf t) -> wf (withRows t m) ->
  (forall i j v, cell t i j = Some v -> exists v', cell (withRows t m) i j = Some v' /\ toNumeric floatOf pow v = Ok v') ->
  ArrayType pow t (dtypeOf m).
Proof.
  unfold ArrayType. change boolean with isB. change integer with isI. change floating with isF.
  intros W P0 F0 W' C. set (u := withRows t m) in *.
  assert (K : forall i j v, cell t i j = Some v -> exists v', cell u i j = Some v' /\ looksNumeric v' = true /\ (pow = true -> isF v' = true) /\ (pow = false -> isB v' = isB v /\ isI v' = isI v)).
  { intros i j v Hv. destruct (C i j v Hv) as [v' [A B]]. exists v'. split; [exact A|]. apply toNumeric_kinds. exact B. }
  assert (K' : forall i j v', cell u i j = Some v' -> exists v, cell t i j = Some v /\ looksNumeric v' = true /\ (pow = true -> isF v' = true) /\ (pow = false -> isB v' = isB v /\ isI v' = isI v)).
  { intros i j v' Hv. destruct (cell_range u i j v' W' Hv) as [R1 R2]. destruct (cell_some t i j W R1 R2) as [v [A _]]. exists v. split; [exact A|]. destruct (K i j v A) as [v2 [B Q]]. congruence. }
  destruct (cell_some t 0 0 W P0 F0) as [v00 [H00 _]]. destruct (K 0 0 v00 H00) as [w00 [G00 [N00 [Q00 R00]]]].
  change m with (rows u). unfold dtypeOf. destruct (forallb isB (List.concat (rows u))) eqn:EB; [|destruct (forallb isI (List.concat (rows u))) eqn:EI; [|destruct (forallb (fun v => isI v || isF v) (List.concat (rows u))) eqn:EF]].
  - pose proof (proj1 (dtypeOf_all u isB) EB) as HB. assert (pow = false) as PF.
    { destruct pow; [|reflexivity]. specialize (Q00 eq_refl). specialize (HB 0 0 w00 G00). destruct w00; discriminate. }
    split; [exact PF|]. intros i j v Hv. destruct (K i j v Hv) as [v' [A [_ [_ B]]]]. destruct (B PF) as [B1 _]. rewrite <- B1. exact (HB i j v' A).
  - pose proof (proj1 (dtypeOf_all u isI) EI) as HB. assert (pow = false) as PF.
    { destruct pow; [|reflexivity]. specialize (Q00 eq_refl). specialize (HB 0 0 w00 G00). destruct w00; discriminate. }
    split; [exact PF|]. intros i j v Hv. destruct (K i j v Hv) as [v' [A [_ [_ B]]]]. destruct (B PF) as [_ B1]. rewrite <- B1. exact (HB i j v' A).
  - pose proof (proj1 (dtypeOf_all u (fun v => isI v || isF v)) EF) as HB. split.
    + intros i j v Hv. destruct pow; [left; reflexivity|]. right. destruct (K i j v Hv) as [v' [A [_ [_ B]]]]. destruct (B eq_refl) as [B1 _]. rewrite <- B1. specialize (HB i j v' A). destruct v'; try discriminate; reflexivity.
    + destruct pow; [left; reflexivity|]. right. destruct (dtypeOf_some u isI EI) as [i [j [v' [A B]]]]. destruct (K' i j v' A) as [v [Q1 [_ [_ Q2]]]]. exists i, j, v. split; [exact Q1|]. destruct (Q2 eq_refl) as [_ Q3]. congruence.
  - destruct (dtypeOf_some u _ EF) as [i [j [v' [A B]]]]. destruct (K' i j v' A) as [v [Q1 [Q2 [Q3 Q4]]]].
    assert (isB v' = true) as BV by (destruct v'; try discriminate B; try discriminate Q2; reflexivity).
    assert (pow = false) as PF by (destruct pow; [|reflexivity]; specialize (Q3 eq_refl); destruct v'; discriminate). split; [exact PF|].
    destruct (Q4 PF) as [Q5 _]. split; [exists i, j, v; split; congruence|].
    destruct (dtypeOf_some u _ EB) as [i2 [j2 [v2 [A2 B2]]]]. destruct (K' i2 j2 v2 A2) as [x [X1 [_ [_ X4]]]]. destruct (X4 PF) as [X5 _]. exists i2, j2, x. split; congruence.
Qed.
Lemma numpyRows_spec t : wf t -> wf (withRows t (numpyRows (rows t))) /\
  forall i j v, cell t i j = Some v -> exists v', cell (withRows t (numpyRows (rows t))) i j = Some v' /\
   (v' = v \/ (isI v = true /\ v' = storeFloat v)).
Proof.
  intros W. unfold numpyRows. destruct (dtypeOf (rows t)) eqn:ED.
  1,2,4: split; [destruct W as [A [B [C D]]]; split; [exact A|split; [exact B|split; assumption]]|]; intros i j v Hv; exists v; auto.
  assert (Q : forall i j v, cell t i j = Some v -> isI v || isF v = true).
  { apply dtypeOf_all. unfold dtypeOf in ED. destruct (forallb isB _); [discriminate|]. destruct (forallb isI _); [discriminate|]. destruct (forallb _ _); [reflexivity|discriminate]. }
  split; [apply wf_withRows; [exact W|apply shape_map, shapeOf; exact W]|].
  intros i j v Hv. exists (storeFloat v). split.
  - change (mcell (map (map storeFloat) (rows t)) i j = Some (storeFloat v)). rewrite mcell_map. unfold mcell. unfold cell in Hv. rewrite Hv. reflexivity.
  - specialize (Q i j v Hv). destruct v; try discriminate Q; auto.
Qed.
Lemma AsNumber_store v v' w : AsNumber floatOf v v' -> (w = v' \/ (isI v' = true /\ w = storeFloat v')) -> AsNumber floatOf v w.
Proof.
  intros H [->|[I ->]]; [exact H|]. destruct v'; try discriminate I. cbn. inversion H as [x N|x q q' N E|s x E]; subst.
  - eapply asn_float; [constructor|reflexivity].
  - specialize (FO _ _ E). discriminate FO.
Qed.
Lemma hasZero_spec t : containsZero (rows t) = true <-> hasZero t.
Proof.
  unfold containsZero, hasZero. rewrite existsb_exists. split.
  - intros [r [H1 H2]]. apply existsb_exists in H2. destruct H2 as [v [H2 H3]]. apply In_nth_error in H1. destruct H1 as [i H1]. apply In_nth_error in H2. destruct H2 as [j H2].
    exists i, j, v. unfold cell. rewrite H1. split; [exact H2|]. apply pyEq_spec. exact H3.
  - intros [i [j [v [H1 H2]]]]. unfold cell in H1. destruct (nth_error (rows t) i) as [r|] eqn:E; [|discriminate]. exists r. split; [eapply nth_error_In; eauto|].
    apply existsb_exists. exists v. split; [eapply nth_error_In; eauto|apply pyEq_spec; exact H2].
Qed.
End Nums.

(** ** position by position *)
Lemma zipRows_spec (g : pval -> pval -> result pval) a b n k : shape a n k -> shape b n k ->
  match zipRows g a b with
  | Ok c => shape c n k /\ forall i j x y, mcell a i j = Some x -> mcell b i j = Some y -> exists w, mcell c i j = Some w /\ g x y = Ok w
  | Err e => exists i j x y, mcell a i j = Some x /\ mcell b i j = Some y /\ g x y = Err e
  end.
Proof.
  intros [A1 A2] [B1 B2]. unfold zipRows. destruct (rmapM _ _) as [c|e] eqn:E.
  - pose proof (rmapM_ok_length _ _ E) as L. rewrite combine_length in L. split.
    + split; [lia|]. intros r Hr. apply In_nth_error in Hr. destruct Hr as [i Hr].
      assert (Hi : i < List.length (combine a b)) by (rewrite combine_length; apply nth_error_lt in Hr; lia).
      destruct (nth_error_is_some (combine a b) Hi) as [[ra rb] Ep]. destruct (rmapM_ok_nth _ _ E _ Ep) as [r' [R1 R2]]. rewrite Hr in R1. injection R1 as <-. cbn [fst snd] in R2.
      rewrite nth_error_combine in Ep. destruct (nth_error a i) as [ra'|] eqn:Ea; [|discriminate]. destruct (nth_error b i) as [rb'|] eqn:Eb; [|discriminate]. injection Ep as -> ->.
      apply rmapM_ok_length in R2. rewrite combine_length, (A2 ra (nth_error_In _ _ Ea)), (B2 rb (nth_error_In _ _ Eb)) in R2. lia.
    + intros i j x y Hx Hy. unfold mcell in *. destruct (nth_error a i) as [ra|] eqn:Ea; [|discriminate]. destruct (nth_error b i) as [rb|] eqn:Eb; [|discriminate].
      assert (Ep : nth_error (combine a b) i = Some (ra, rb)) by (rewrite nth_error_combine, Ea, Eb; reflexivity).
      destruct (rmapM_ok_nth _ _ E _ Ep) as [r [R1 R2]]. rewrite R1. cbn [fst snd] in R2.
      assert (Eq : nth_error (combine ra rb) j = Some (x, y)) by (rewrite nth_error_combine, Hx, Hy; reflexivity).
      destruct (rmapM_ok_nth _ _ R2 _ Eq) as [w [W1 W2]]. exists w. split; [exact W1|exact W2].
  - apply rmapM_fail in E. destruct E as [[ra rb] [H1 H2]]. apply In_nth_error in H1. destruct H1 as [i H1]. rewrite nth_error_combine in H1.
    destruct (nth_error a i) as [ra'|] eqn:Ea; [|discriminate]. destruct (nth_error b i) as [rb'|] eqn:Eb; [|discriminate]. injection H1 as -> ->.
    cbn [fst snd] in H2. apply rmapM_fail in H2. destruct H2 as [[x y] [H2 H3]]. apply In_nth_error in H2. destruct H2 as [j H2]. rewrite nth_error_combine in H2.
    destruct (nth_error ra j) as [x'|] eqn:Ex; [|discriminate]. destruct (nth_error rb j) as [y'|] eqn:Ey; [|discriminate]. injection H2 as -> ->.
    exists i, j, x, y. unfold mcell. rewrite Ea, Eb. auto.
Qed.
