(** The names after a merge (C16). *)
From Verif Require Import Base NamesModel NamesSpec NamesProofs TableModel TableSpec TableProofs TableOps MatchModel MatchSpec MatchProofs ElementsProofs ElementsCalcProofs
  FillMatchProofs BinOpModel BinOpSpec BinOpProofs MergeModel MergeSpec MergeLoopProofs MergeColsProofs MergeJoinProofs MergeProofs.
From Coq Require Import Sorted QArith.
Open Scope nat_scope.

Lemma setList_ok a n l : List.length l = n -> Distinct l -> exists x, setList a n l = (x, Ok tt) /\ Inv x /\ alen x = n /\ getNames x = l.
Proof.
  intros L D. destruct (namedAxis_list n l L D) as [x [E [A [B C]]]]. exists x. split; [|auto]. unfold namedAxis, namesArg in E. unfold setList, setNames in *. cbn [astate] in *.
  unfold setNames_all in *. cbn [alen] in *. destruct (negb _); [discriminate|]. destruct (n =? 0); [injection E as <-; reflexivity|]. destruct (rbind _ _); [injection E as <-; reflexivity|discriminate].
Qed.
Lemma Distinct_NoDup l : Distinct l <-> NoDup (nonDefault l).
Proof.
  unfold nonDefault. induction l as [|o l IH]; cbn [flat_map].
  - split; [constructor|]. intros _ i j s H. destruct i; discriminate.
  - assert (T : Distinct (o :: l) -> Distinct l) by (intros D i j s A B; specialize (D (S i) (S j) s A B); lia).
    assert (I : forall s, In s (flat_map (fun o : option string => match o with Some s => [s] | None => [] end) l) <-> exists j, nth_error l j = Some (Some s)).
    { intros s. rewrite in_flat_map. split.
      - intros [[x|] [X Y]]; [|contradiction]. destruct Y as [->|[]]. apply In_nth_error. exact X.
      - intros [j J]. exists (Some s). split; [eapply nth_error_In; exact J|left; reflexivity]. }
    destruct o as [s|]; cbn [app].
    + split.
      * intros D. constructor; [|apply IH, T, D]. intros X. apply I in X. destruct X as [j X]. specialize (D 0 (S j) s eq_refl X). discriminate.
      * intros N. inversion N; subst. apply IH in H2. intros [|i] [|j] x A B; cbn in A, B; auto.
        -- injection A as <-. exfalso. apply H1, I. eauto.
        -- injection B as <-. exfalso. apply H1, I. eauto.
        -- f_equal. exact (H2 i j x A B).
    + rewrite <- IH. split; [exact T|]. intros D [|i] [|j] x A B; cbn in A, B; try discriminate; auto. f_equal. exact (D i j x A B).
Qed.
Lemma nonDefault_filter f l : nonDefault (filter f l) = filter (fun s => f (Some s)) (nonDefault l).
Proof. unfold nonDefault. induction l as [|[s|] l IH]; cbn; [reflexivity| |]; destruct (f _) eqn:E; cbn; rewrite ?E, ?IH; reflexivity. Qed.
Lemma nonDefault_app l l' : nonDefault (l ++ l') = nonDefault l ++ nonDefault l'.
Proof. unfold nonDefault. apply flat_map_app. Qed.
Lemma nonDefault_In s l : In s (nonDefault l) <-> In (Some s) l.
Proof.
  unfold nonDefault. rewrite in_flat_map. split; [intros [[x|] [A B]]; [|contradiction]; destruct B as [->|[]]; exact A|]. intros H. exists (Some s). split; [exact H|left; reflexivity].
Qed.
Lemma Distinct_filter f l : Distinct l -> Distinct (filter f l).
Proof. rewrite !Distinct_NoDup, nonDefault_filter. apply NoDup_filter. Qed.
Lemma Distinct_app l l' : Distinct l -> Distinct l' -> (forall s, In (Some s) l -> In (Some s) l' -> False) -> Distinct (l ++ l').
Proof. rewrite !Distinct_NoDup, nonDefault_app. intros A B C. apply CalcModeProofs.NoDup_app_intro; auto. intros s X Y. apply nonDefault_In in X. apply nonDefault_In in Y. eauto. Qed.

Lemma list_nth_seq {A} (l : list A) d : l = map (fun j => nth j l d) (seq 0 (List.length l)).
Proof. apply (nth_map_seq _ _ _ d); auto. Qed.
Lemma filter_nth {A} (f : A -> bool) (l : list A) d : filter f l = map (fun j => nth j l d) (filter (fun j => f (nth j l d)) (seq 0 (List.length l))).
Proof. rewrite (list_nth_seq l d) at 1. apply filter_map_eq. Qed.
Lemma hasPartner_In ln rn j : hasPartner ln rn j = match nth j ln None with Some s => mem (Some s) rn | None => false end.
Proof.
  unfold hasPartner, partner. destruct (nth j ln None) as [s|]; [|reflexivity]. destruct (posName s rn) as [k|] eqn:E; symmetry.
  - apply mem_In. apply posName_some in E. eapply nth_error_In. exact E.
  - apply mem_not_In. apply posName_none. exact E.
Qed.
Lemma matching_In a b s : Inv a -> Inv b -> (mem s (matchingNames a b) = true <-> In (Some s) (getNames a) /\ In (Some s) (getNames b)).
Proof.
  intros IA IB. rewrite (matchingNames_eq a b IA IB), mem_In, filter_In, <- mem_In.
  assert (G : forall x, Inv x -> (mem s (dkeys (names_dict x)) = true <-> In (Some s) (getNames x))).
  { intros x IX. destruct (Inv_facts x IX) as [_ [_ F]]. fold (dmem s (names_dict x)). rewrite dmem_dget. unfold getNames. rewrite names_inv_ensure. split.
    - intros [v V]. apply F in V. eapply nth_error_In. exact V.
    - intros I. apply In_nth_error in I. destruct I as [k K]. exists k. apply F. exact K. }
  rewrite (G a IA). unfold dmem. rewrite (G b IB). tauto.
Qed.

Section Names.
Variables (t o : table pval).
Hypothesis WT : wf t.
Hypothesis WO : wf o.
Let IT : Inv (tf t). Proof. apply WT. Qed.
Let IO : Inv (tf o). Proof. apply WO. Qed.
Let PT : Inv (tp t). Proof. apply WT. Qed.
Let PO : Inv (tp o). Proof. apply WO. Qed.
Let ln := getNames (tf t).
Let rn := getNames (tf o).
Let pl := getNames (tp t).
Let pr := getNames (tp o).
Definition isMatch (s : option string) : bool := match s with Some s => mem s (matchingNames (tf t) (tf o)) | None => false end.
Lemma isMatch_left j : isMatch (nth j ln None) = hasPartner ln rn j.
Proof.
  rewrite hasPartner_In. unfold isMatch. destruct (nth j ln None) as [s|] eqn:E; [|reflexivity]. apply eq_true_iff_eq. rewrite (matching_In _ _ s IT IO), mem_In. fold ln rn. split; [tauto|]. intros H. split; [|exact H].
  rewrite <- E. apply nth_In. destruct (Nat.lt_ge_cases j (List.length ln)); [assumption|]. rewrite nth_overflow in E by assumption. discriminate.
Qed.
Lemma isMatch_right j : isMatch (nth j rn None) = hasPartner rn ln j.
Proof.
  rewrite hasPartner_In. unfold isMatch. destruct (nth j rn None) as [s|] eqn:E; [|reflexivity]. apply eq_true_iff_eq. rewrite (matching_In _ _ s IT IO), mem_In. fold ln rn. split; [tauto|]. intros H. split; [exact H|].
  rewrite <- E. apply nth_In. destruct (Nat.lt_ge_cases j (List.length rn)); [assumption|]. rewrite nth_overflow in E by assumption. discriminate.
Qed.
Lemma featureNames h : map (joinName ln rn) (joinCols h ln rn) =
  match h with Intersection => filter isMatch ln | Union => ln ++ filter (fun x => negb (isMatch x)) rn | LeftOnly => ln end.
Proof.
  destruct h; cbn [joinCols]; rewrite ?map_app, !map_map; cbn [joinName].
  - rewrite (filter_nth isMatch ln None). f_equal. apply filter_ext. intros j. symmetry. apply isMatch_left.
  - f_equal; [symmetry; apply list_nth_seq|]. rewrite (filter_nth _ rn None). f_equal. apply filter_ext. intros j. rewrite isMatch_right. reflexivity.
  - symmetry. apply list_nth_seq.
Qed.
Lemma featureNames_Distinct h : Distinct (map (joinName ln rn) (joinCols h ln rn)).
Proof.
  rewrite featureNames. pose proof (names_Distinct _ IT) as DT. pose proof (names_Distinct _ IO) as DO. destruct h; [apply Distinct_filter; exact DT| |exact DT].
  apply Distinct_app; [exact DT|apply Distinct_filter; exact DO|]. intros s A B. apply filter_In in B. destruct B as [B C]. unfold isMatch in C. assert (X : mem s (matchingNames (tf t) (tf o)) = true) by (apply matching_In; auto). rewrite X in C. discriminate.
Qed.
Lemma filter_one (f : nat -> bool) n k : k < n -> f k = true -> (forall x, f x = true -> x = k) -> filter f (seq 0 n) = [k].
Proof.
  intros Hk Fk U. assert (G : forall a b, filter f (seq a b) = if (a <=? k) && (k <? a + b) then [k] else []).
  { intros a b. revert a. induction b as [|b IH]; intros a; cbn [seq filter].
    - destruct (Nat.leb_spec a k), (Nat.ltb_spec k (a + 0)); cbn; try reflexivity; lia.
    - rewrite IH. destruct (f a) eqn:E.
      + apply U in E. subst a. destruct (Nat.leb_spec (S k) k), (Nat.leb_spec k k), (Nat.ltb_spec k (S k + b)), (Nat.ltb_spec k (k + S b)); cbn; try reflexivity; lia.
      + assert (a <> k) by congruence. destruct (Nat.leb_spec (S a) k), (Nat.leb_spec a k), (Nat.ltb_spec k (S a + b)), (Nat.ltb_spec k (a + S b)); cbn; try reflexivity; lia. }
  rewrite G. destruct (Nat.leb_spec 0 k), (Nat.ltb_spec k (0 + n)); cbn; try reflexivity; lia.
Qed.
Lemma sameName_partner i k : sameName t o i k = true <-> partner pl pr i = Some k.
Proof.
  rewrite (partner_iff pl pr i k (names_Distinct _ PO)). unfold sameName. fold pl pr. split.
  - destruct (nth i pl None) as [a|] eqn:A; [|discriminate]. destruct (nth k pr None) as [b|] eqn:B; [|discriminate]. intros E. apply String.eqb_eq in E. subst b. exists a.
    split; (destruct (nth_error _ _) as [x|] eqn:X; [first [rewrite (nth_error_nth _ _ _ X) in A|rewrite (nth_error_nth _ _ _ X) in B]; congruence|]; apply nth_error_None in X; first [rewrite nth_overflow in A by exact X; discriminate|rewrite nth_overflow in B by exact X; discriminate]).
  - intros [s [A B]]. rewrite (nth_error_nth _ _ _ A), (nth_error_nth _ _ _ B). apply String.eqb_refl.
Qed.
Lemma name_matches i : filter (sameName t o i) (seq 0 (alen (tp o))) = match partner pl pr i with Some k => [k] | None => [] end.
Proof.
  destruct (partner pl pr i) as [k|] eqn:E.
  - assert (B : k < alen (tp o)) by (apply (partner_iff pl pr i k (names_Distinct _ PO)) in E; destruct E as [s [_ E]]; apply nth_error_lt in E; unfold pr in E; rewrite (getNames_length _ PO) in E; exact E).
    apply filter_one; [exact B|apply sameName_partner; exact E|]. intros x X. apply sameName_partner in X. congruence.
  - destruct (filter _ _) as [|x l] eqn:F; [reflexivity|]. assert (I : In x (filter (sameName t o i) (seq 0 (alen (tp o))))) by (rewrite F; left; reflexivity). apply filter_In in I. destruct I as [_ I]. apply sameName_partner in I. congruence.
Qed.
Lemma flat_map_one {A B} (f : A -> B) l : flat_map (fun x => [f x]) l = map f l.
Proof. induction l; cbn; [reflexivity|]. congruence. Qed.
Lemma flat_map_if {A B} (c : A -> bool) (f : A -> B) l : flat_map (fun x => if c x then [f x] else []) l = map f (filter c l).
Proof. induction l as [|x l IH]; cbn; [reflexivity|]. destruct (c x); cbn; rewrite IH; reflexivity. Qed.
Lemma pointNames h : map (joinName pl pr) (joinRows h (alen (tp t)) (alen (tp o)) (sameName t o)) =
  match h with
  | LeftOnly => pl
  | Intersection => filter (fun x => match x with None => false | _ => mem x pr end) pl
  | Union => pl ++ filter (fun x => match x with None => true | _ => negb (mem x pl) end) pr
  end.
Proof.
  pose proof (getNames_length _ PT) as LT. pose proof (getNames_length _ PO) as LO. fold pl in LT. fold pr in LO.
  unfold joinRows. rewrite map_app, map_flat_map.
  assert (H1 : flat_map (fun i => map (joinName pl pr) (match filter (sameName t o i) (seq 0 (alen (tp o))), h with [], Intersection => [] | [], _ => [(Some i, None)] | ms, _ => map (fun k => (Some i, Some k)) ms end)) (seq 0 (alen (tp t))) =
    match h with Intersection => filter (fun x => match x with None => false | _ => mem x pr end) pl | _ => pl end).
  { rewrite (flat_map_ext_in _ (fun i => match h with Intersection => if hasPartner pl pr i then [nth i pl None] else [] | _ => [nth i pl None] end)).
    2:{ intros i _. rewrite name_matches. unfold hasPartner. destruct (partner pl pr i), h; reflexivity. }
    rewrite <- LT. destruct h.
    - rewrite flat_map_if, (filter_nth _ pl None). f_equal. apply filter_ext. intros j. rewrite hasPartner_In. destruct (nth j pl None); reflexivity.
    - rewrite flat_map_one. symmetry. apply list_nth_seq.
    - rewrite flat_map_one. symmetry. apply list_nth_seq. }
  rewrite H1. destruct h; [apply app_nil_r| |apply app_nil_r]. f_equal. rewrite map_map. cbn [joinName]. rewrite (filter_nth _ pr None), LO. f_equal. apply filter_ext_in. intros k _.
  assert (E : existsb (fun i => sameName t o i k) (seq 0 (alen (tp t))) = hasPartner pr pl k).
  { apply eq_true_iff_eq. rewrite existsb_exists, hasPartner_iff. pose proof (names_Distinct _ PT) as DT. pose proof (names_Distinct _ PO) as DO. split.
    - intros [i [_ X]]. apply sameName_partner in X. exists i. apply (partner_sym pl pr i k DT DO). exact X.
    - intros [i X]. apply (partner_sym pl pr i k DT DO) in X. exists i. split; [|apply sameName_partner; exact X]. apply in_seq. apply (partner_iff pl pr i k DO) in X. destruct X as [s [X _]]. apply nth_error_lt in X. lia. }
  rewrite E, hasPartner_In. destruct (nth k pr None); reflexivity.
Qed.
Lemma pointNames_Distinct h : Distinct (map (joinName pl pr) (joinRows h (alen (tp t)) (alen (tp o)) (sameName t o))).
Proof.
  rewrite pointNames. pose proof (names_Distinct _ PT) as DT. pose proof (names_Distinct _ PO) as DO. destruct h; [apply Distinct_filter; exact DT| |exact DT].
  apply Distinct_app; [exact DT|apply Distinct_filter; exact DO|]. intros s A B. apply filter_In in B. destruct B as [B C]. apply mem_In in A. fold pl in A. rewrite A in C. discriminate.
Qed.
Lemma mergedNames_ok point feature names n :
  n = List.length (joinRows point (alen (tp t)) (alen (tp o)) (sameName t o)) \/ names = false ->
  exists pa fa, mergedNames t o point feature names (matchingNames (tf t) (tf o)) n (List.length (joinCols feature ln rn)) = Ok (pa, fa) /\
    Inv pa /\ Inv fa /\ alen pa = n /\ alen fa = List.length (joinCols feature ln rn) /\
    getNames fa = map (joinName ln rn) (joinCols feature ln rn) /\
    getNames pa = if names then map (joinName pl pr) (joinRows point (alen (tp t)) (alen (tp o)) (sameName t o)) else repeat None n.
Proof.
  intros HN. unfold mergedNames. cbv zeta. fold ln rn pl pr.
  match goal with |- exists pa fa, rbind ?X _ = _ /\ _ => assert (F : exists fa, X = Ok fa /\ Inv fa /\ alen fa = List.length (joinCols feature ln rn) /\ getNames fa = map (joinName ln rn) (joinCols feature ln rn)) end.
  { pose proof (featureNames feature) as FN. pose proof (featureNames_Distinct feature) as FD. pose proof (map_length (joinName ln rn) (joinCols feature ln rn)) as FL. destruct feature.
    - rewrite FN in FD, FL. rewrite FN. destruct (setList_ok (tf t) _ _ FL FD) as [x [E X]]. unfold isMatch in *. rewrite E. exists x. tauto.
    - rewrite FN in FD, FL. rewrite FN. destruct (setList_ok (tf t) _ _ FL FD) as [x [E X]]. unfold isMatch in *. rewrite E. exists x. tauto.
    - assert (E : mkAxis (List.length (joinCols LeftOnly ln rn)) (astate (tf t)) = tf t). { rewrite <- FL, FN. unfold ln. rewrite (getNames_length _ IT). destruct (tf t); reflexivity. }
      exists (tf t). rewrite FN, E. split; [reflexivity|]. split; [exact IT|]. split; [|reflexivity]. rewrite <- FL, FN. symmetry. apply (getNames_length _ IT). }
  destruct F as [fa [-> [F1 [F2 F3]]]]. cbn [rbind]. destruct names.
  - destruct HN as [->|]; [|discriminate]. pose proof (pointNames point) as PN. pose proof (pointNames_Distinct point) as PD. pose proof (map_length (joinName pl pr) (joinRows point (alen (tp t)) (alen (tp o)) (sameName t o))) as PLn.
    rewrite PN in PD, PLn. rewrite PN. set (n := List.length (joinRows point (alen (tp t)) (alen (tp o)) (sameName t o))) in *. clearbody n.
    destruct point; destruct (setList_ok (tp t) _ _ PLn PD) as [x [-> [X1 [X2 X3]]]]; cbn [rbind]; exists x, fa; auto 10.
  - cbn [rbind]. exists (mkAxis n None), fa. split; [reflexivity|]. split; [exact I|]. split; [exact F1|]. split; [reflexivity|]. split; [exact F2|]. split; [exact F3|reflexivity].
Qed.
End Names.
