(** Proofs about merge with a strict axis: the names used (C16). *)
From Verif Require Import Base NamesModel NamesSpec NamesProofs TableModel TableSpec TableProofs TableOps TableOpsProofs MatchModel MatchSpec MatchProofs FlatModel FlatProofs
  BinOpModel BinOpSpec BinOpProofs MergeModel MergeSpec MergeLoopProofs MergeColsProofs MergeJoinProofs MergeProofs MergeNamesProofs MergeMainProofs MergeSortProofs RawProofs StrictModel StrictSpec.
From Coq Require Import Sorted Permutation String Lia.
Open Scope string_scope.
Open Scope list_scope.
Open Scope nat_scope.

(** ** all named *)
Lemma allNamed_spec a : Inv a -> 0 < alen a -> allNamed a = true <-> ~ In None (getNames a).
Proof.
  intros I P. destruct (Inv_facts a I) as [L [W F]]. unfold allNamed.
  assert (ND : NoDup (map snd (names_dict a))).
  { clear - W F. assert (G : forall d, wfdict d -> (forall s i, In (s, i) d -> nth_error (names_inv a) i = Some (Some s)) -> NoDup (map snd d)).
    { induction d as [|[s i] d IH]; intros Wd H; [constructor|]. unfold wfdict, dkeys in Wd. cbn in Wd. inversion Wd as [|? ? N1 N2]; subst. cbn. constructor; [|apply IH; auto; intros; apply H; cbn; auto].
      intros C. apply in_map_iff in C as [[s' i'] [E C]]. cbn in E. subst i'. pose proof (H s i (or_introl eq_refl)) as A. pose proof (H s' i (or_intror C)) as B. rewrite A in B. injection B as <-. apply N1. apply in_map_iff. exists (s, i). auto. }
    apply G; auto. intros s i H. apply F, In_dget; auto. }
  assert (Rg : forall i, In i (map snd (names_dict a)) -> exists s, nth_error (names_inv a) i = Some (Some s)).
  { intros i H. apply in_map_iff in H as [[s j] [<- H]]. cbn. exists s. apply F, In_dget; auto. }
  assert (G : getNames a = names_inv a) by (unfold getNames; apply names_inv_ensure). rewrite G.
  split.
  - intros H. apply Bool.andb_true_iff in H as [H1 H2]. rewrite Bool.negb_true_iff, Nat.ltb_ge in H2. intros C. apply In_nth_error in C as [i C].
    assert (Hi : i < alen a) by (rewrite <- L; eapply nth_error_lt; eauto).
    assert (In i (map snd (names_dict a))).
    { apply (NoDup_length_incl (l' := seq 0 (alen a)) ND); [rewrite seq_length, map_length; auto| |apply in_seq; lia]. intros x X. destruct (Rg x X) as [s E]. apply nth_error_lt in E. apply in_seq. lia. }
    destruct (Rg i H) as [s E]. congruence.
  - intros N. assert (C : namesCreated a = true).
    { destruct (namesCreated a) eqn:C; auto. exfalso. apply N. unfold namesCreated in C. unfold names_inv. destruct (astate a); [discriminate|]. destruct (alen a); [lia|]. cbn. auto. }
    rewrite C. cbn [andb]. rewrite Bool.negb_true_iff, Nat.ltb_ge. rewrite <- (map_length snd), <- (seq_length (alen a) 0). apply NoDup_incl_length; [apply seq_NoDup|].
    intros i H. apply in_seq in H. destruct (nth_error_is_some (names_inv a) (i:=i)) as [[s|] E]; [lia| |exfalso; apply N; eapply nth_error_In; eauto].
    apply F in E. apply in_map_iff. exists (s, i). split; auto. apply dget_iff_In; auto.
Qed.
Lemma countName_occ x l : countName x l = count_occ eq_dec l x.
Proof. unfold countName. induction l as [|y l IH]; cbn; auto. destruct (eq_dec x y) as [E|N]; destruct (eq_dec y x); cbn; try congruence; rewrite IH; auto. Qed.
Lemma sameNames_spec a b : sameNames a b = true <-> Permutation a b.
Proof.
  unfold sameNames. rewrite forallb_forall, (Permutation_count_occ eq_dec). split.
  - intros H x. destruct (in_dec eq_dec x (a ++ b)) as [I|N].
    + apply H, Nat.eqb_eq in I. rewrite !countName_occ in I. exact I.
    + assert (Na : ~ In x a) by (intros C; apply N, in_or_app; auto). assert (Nb : ~ In x b) by (intros C; apply N, in_or_app; auto).
      apply (count_occ_not_In eq_dec) in Na. apply (count_occ_not_In eq_dec) in Nb. congruence.
  - intros H x _. apply Nat.eqb_eq. rewrite !countName_occ. apply H.
Qed.

(** ** giving names *)
Lemma give_spec a l : Inv a -> List.length l = alen a ->
  match give a l with
  | Ok a' => DifferentNames l /\ Inv a' /\ alen a' = alen a /\ getNames a' = l /\ InOrder a' /\ namesCreated a' = true
  | Err e => ~ DifferentNames l /\ e = InvalidArgumentValue
  end.
Proof.
  intros I L. unfold give. destruct (setNames a (AList (map to_newname l)) ONone) as [a' [u|e]] eqn:S1.
  - destruct u. assert (Q : snd (setNames a (AList (map to_newname l)) ONone) = Ok tt) by (rewrite S1; reflexivity).
    pose proof (setNames_list_reject _ _ Q) as [Q1 Q2].
    pose proof (setNames_list_accept _ _ Q1 Q2) as [_ Q3]. rewrite newname_opt_to in Q3.
    pose proof (setNames_list_Inv a (map to_newname l) I) as Q4. pose proof (setNames_list_len a (map to_newname l)) as Q5. rewrite S1 in *. cbn [fst] in *.
    split; [intros i j s; rewrite <- Q3; apply Inv_names_distinct; exact Q4|]. split; auto. split; auto. split; auto. split; [eapply setNames_list_InOrder; eauto|].
    destruct a as [n st]. destruct (setOpt n st (Some l)) as [a2 [S2 [_ [_ [_ N2]]]]]; [split; auto; intros i j s; rewrite <- Q3; apply Inv_names_distinct; exact Q4|]. cbn [namesArg] in S2. rewrite S2 in S1. injection S1 as <-. exact N2.
  - split.
    + intros D. destruct a as [n st]. destruct (setOpt n st (Some l)) as [a2 [S2 _]]; [split; auto|]. cbn [namesArg] in S2. congruence.
    + apply (setAll_err a (AList (map to_newname l))). change (snd (setNames a (AList (map to_newname l)) ONone) = Err e). rewrite S1. reflexivity.
Qed.

(** ** the working names *)
Lemma combine_map_self {A B} (f : A -> B) l : combine l (map f l) = map (fun x => (x, f x)) l.
Proof. induction l; cbn; congruence. Qed.
Lemma combined_length l r : List.length l = List.length r -> List.length (combined l r) = List.length l.
Proof. intros H. unfold combined. rewrite map_length, combine_length. lia. Qed.
Lemma combined_nth l r i a b : nth_error l i = Some a -> nth_error r i = Some b -> nth_error (combined l r) i = Some (match a with Some s => Some s | None => b end).
Proof. intros A B. unfold combined. rewrite nth_error_map_eq. rewrite nth_error_combine, A, B. destruct a; reflexivity. Qed.
Lemma endNames_length bn l r : List.length l = List.length r -> List.length (endNames bn l r) = List.length l.
Proof. destruct bn; cbn; auto. apply combined_length. Qed.
Lemma workNames_length bn l r : List.length l = List.length r -> List.length (workNames bn l r) = List.length l.
Proof. intros H. unfold workNames. rewrite map_length, combine_length, seq_length, endNames_length by auto. lia. Qed.
Lemma workNames_nth bn l r i e : List.length l = List.length r -> nth_error (endNames bn l r) i = Some e -> nth_error (workNames bn l r) i = Some (match e with Some s => Some s | None => Some (standIn i) end).
Proof.
  intros L E. unfold workNames. rewrite nth_error_map_eq. assert (Hi : i < List.length l) by (rewrite <- (endNames_length bn l r L); eapply nth_error_lt; eauto).
  rewrite nth_error_combine, nth_error_seq, E. rewrite (proj2 (Nat.ltb_lt _ _)) by lia. destruct e; reflexivity.
Qed.
Lemma workNames_some bn l r : List.length l = List.length r -> ~ In None (workNames bn l r).
Proof. intros L C. unfold workNames in C. apply in_map_iff in C as [[i [s|]] [E _]]; discriminate. Qed.
Lemma workNames_full bn l r : List.length l = List.length r -> ~ In None (endNames bn l r) -> workNames bn l r = endNames bn l r.
Proof.
  intros L N. apply nth_error_ext. intros i. destruct (nth_error (endNames bn l r) i) as [e|] eqn:E.
  - rewrite (workNames_nth _ _ _ _ _ L E). destruct e; auto. exfalso. apply N. eapply nth_error_In; eauto.
  - apply nth_error_None in E. apply nth_error_None. rewrite workNames_length, <- (endNames_length bn l r) by auto. auto.
Qed.
Lemma endNames_different bn l r : List.length l = List.length r -> DifferentNames (workNames bn l r) -> DifferentNames (endNames bn l r).
Proof. intros L D i j s A B. exact (D i j s (workNames_nth _ _ _ _ _ L A) (workNames_nth _ _ _ _ _ L B)). Qed.
Lemma strictNames_work l r : List.length l = List.length r -> strictNames (combined l r) = workNames false l r.
Proof.
  intros L. unfold strictNames, workNames, mapi. cbn [endNames]. rewrite combined_length by auto. apply map_ext. intros [i [s|]]; reflexivity.
Qed.
Lemma combined_none_r l n : List.length l = n -> combined l (repeat None n) = l.
Proof. intros <-. unfold combined. induction l as [|[s|] l IH]; cbn; auto; f_equal; auto. Qed.
Lemma combined_none_l l n : List.length l = n -> combined (repeat None n) l = l.
Proof. intros <-. unfold combined. induction l as [|[s|] l IH]; cbn; auto; f_equal; auto. Qed.
Lemma uncreated_names a : namesCreated a = false -> getNames a = repeat None (alen a).
Proof. intros H. unfold getNames. rewrite names_inv_ensure. unfold namesCreated in H. unfold names_inv. destruct (astate a); [discriminate|auto]. Qed.

Lemma strictAxes_spec force l r : Inv l -> Inv r -> alen l = alen r -> 0 < alen l ->
  let ln := getNames l in let rn := getNames r in
  match strictAxes force l r with
  | Ok (l', r', e) => exists bn, Corresponds force ln rn bn /\ DifferentNames (workNames bn ln rn) /\ Inv l' /\ Inv r' /\ alen l' = alen l /\ alen r' = alen r /\
      namesCreated l' = true /\ namesCreated r' = true /\ getNames l' = workNames bn ln rn /\ getNames r' = (if bn then rn else workNames bn ln rn) /\
      match e with Some x => x | None => repeat None (alen l) end = endNames bn ln rn /\ (In None ln \/ InOrder l -> InOrder l')
  | Err er => er = InvalidArgumentValue /\ forall bn, Corresponds force ln rn bn -> ~ DifferentNames (workNames bn ln rn)
  end.
Proof.
  intros Il Ir Len Pos ln rn. assert (Lr : 0 < alen r) by lia.
  pose proof (getNames_length l Il) as Ll. pose proof (getNames_length r Ir) as Lrn. fold ln in Ll. fold rn in Lrn. assert (LL : List.length ln = List.length rn) by congruence.
  pose proof (names_Distinct l Il) as Dl. pose proof (names_Distinct r Ir) as Dr. fold ln in Dl. fold rn in Dr.
  pose proof (allNamed_spec l Il Pos) as Al. pose proof (allNamed_spec r Ir Lr) as Ar. fold ln in Al. fold rn in Ar.
  assert (Cl : ~ In None ln -> namesCreated l = true). { intros N. apply Al in N. unfold allNamed in N. apply Bool.andb_true_iff in N as [N _]. exact N. }
  assert (Cr : ~ In None rn -> namesCreated r = true). { intros N. apply Ar in N. unfold allNamed in N. apply Bool.andb_true_iff in N as [N _]. exact N. }
  unfold strictAxes. fold ln rn.
  destruct (allNamed l) eqn:El, (allNamed r) eqn:Er; cbn [andb].
  - (* all named *)
    assert (Nl : ~ In None ln) by (apply Al; auto). assert (Nr : ~ In None rn) by (apply Ar; auto).
    destruct (sameNames ln rn) eqn:Es.
    + apply sameNames_spec in Es. assert (Wl : workNames true ln rn = ln) by (apply workNames_full; auto).
      exists true. rewrite Wl. split; [constructor; auto|]. split; [exact Dl|]. repeat (split; auto). tauto.
    + split; auto. intros bn C. destruct C as [_ _ P|_ [C|C] _]; try contradiction. apply sameNames_spec in P. congruence.
  - assert (Nl : ~ In None ln) by (apply Al; auto). assert (Nr : In None rn). { destruct (in_dec (fun a b : option string => eq_dec a b) None rn) as [Y|N]; auto. apply Ar in N. congruence. }
    destruct force; cbn [andb].
    2:{ split; auto. intros bn C. destruct C as [_ C _|C _ _]; [contradiction|discriminate]. }
    rewrite Bool.andb_false_r.
    assert (Co : Corresponds true ln rn false) by (constructor; auto).
    assert (Only : forall bn, Corresponds true ln rn bn -> bn = false) by (intros bn C; destruct C; [contradiction|auto]).
    destruct (namesCreated r) eqn:Kr; cbn [negb].
    + (* some names *)
      rewrite mergeNames_combined. rewrite strictNames_work by auto.
      pose proof (give_spec l (workNames false ln rn) Il ltac:(rewrite workNames_length; auto)) as Gl. pose proof (give_spec r (workNames false ln rn) Ir ltac:(rewrite workNames_length; congruence)) as Gr.
      destruct (give l (workNames false ln rn)) as [l'|e]; [|destruct Gl as [G1 ->]; cbn [rbind]; split; auto; intros bn C; rewrite (Only bn C); exact G1].
      destruct (give r (workNames false ln rn)) as [r'|e]; [|destruct Gl as [D _]; destruct Gr; contradiction].
      cbn [rbind]. destruct Gl as [D [G1 [G2 [G3 [G4 G5]]]]]. destruct Gr as [_ [H1 [H2 [H3 [H4 H5]]]]].
      rewrite Cl by auto. cbn [negb andb]. exists false. repeat (split; auto).
    + pose proof (uncreated_names r Kr) as Rn. fold rn in Rn.
      assert (Cm : combined ln rn = ln) by (rewrite Rn; apply combined_none_r; congruence).
      assert (Wl : workNames false ln rn = ln) by (rewrite workNames_full; cbn [endNames]; rewrite ?Cm; auto).
      pose proof (give_spec r ln Ir ltac:(congruence)) as Gr. destruct (give r ln) as [r'|e]; [|destruct Gr as [Gr _]; exfalso; apply Gr; exact Dl].
      cbn [rbind]. destruct Gr as [D [H1 [H2 [H3 [H4 H5]]]]]. exists false. rewrite Wl. cbn [endNames]. rewrite Cm. split; auto. split; auto. split; auto. split; auto. split; auto. split; auto. split; [auto|]. split; auto. split; auto. split; auto. split; auto. intros [C|C]; [contradiction|auto].
  - assert (Nr : ~ In None rn) by (apply Ar; auto). assert (Nl : In None ln). { destruct (in_dec (fun a b : option string => eq_dec a b) None ln) as [Y|N]; auto. apply Al in N. congruence. }
    destruct force; cbn [andb].
    2:{ split; auto. intros bn C. destruct C as [C _ _|C _ _]; [contradiction|discriminate]. }
    assert (Co : Corresponds true ln rn false) by (constructor; auto).
    assert (Only : forall bn, Corresponds true ln rn bn -> bn = false) by (intros bn C; destruct C; [contradiction|auto]).
    destruct (namesCreated l) eqn:Kl; cbn [negb andb].
    + rewrite mergeNames_combined. rewrite strictNames_work by auto.
      pose proof (give_spec l (workNames false ln rn) Il ltac:(rewrite workNames_length; auto)) as Gl. pose proof (give_spec r (workNames false ln rn) Ir ltac:(rewrite workNames_length; congruence)) as Gr.
      destruct (give l (workNames false ln rn)) as [l'|e]; [|destruct Gl as [G1 ->]; cbn [rbind]; split; auto; intros bn C; rewrite (Only bn C); exact G1].
      destruct (give r (workNames false ln rn)) as [r'|e]; [|destruct Gl as [D _]; destruct Gr; contradiction].
      cbn [rbind]. destruct Gl as [D [G1 [G2 [G3 [G4 G5]]]]]. destruct Gr as [_ [H1 [H2 [H3 [H4 H5]]]]].
      exists false. repeat (split; auto).
    + pose proof (uncreated_names l Kl) as Rn. fold ln in Rn.
      assert (Cm : combined ln rn = rn) by (rewrite Rn; apply combined_none_l; congruence).
      assert (Wl : workNames false ln rn = rn) by (rewrite workNames_full; cbn [endNames]; rewrite ?Cm; auto).
      pose proof (give_spec l rn Il ltac:(congruence)) as Gl. destruct (give l rn) as [l'|e]; [|destruct Gl as [Gl _]; exfalso; apply Gl; exact Dr].
      cbn [rbind]. destruct Gl as [D [H1 [H2 [H3 [H4 H5]]]]]. exists false. rewrite Wl. cbn [endNames]. rewrite Cm. repeat (split; auto).
  - assert (Nl : In None ln). { destruct (in_dec (fun a b : option string => eq_dec a b) None ln) as [Y|N]; auto. apply Al in N. congruence. }
    destruct force; cbn [andb].
    2:{ split; auto. intros bn C. destruct C as [C _ _|C _ _]; [contradiction|discriminate]. }
    assert (Co : Corresponds true ln rn false) by (constructor; auto).
    assert (Only : forall bn, Corresponds true ln rn bn -> bn = false) by (intros bn C; destruct C; [contradiction|auto]).
    rewrite Bool.andb_false_r, mergeNames_combined. rewrite strictNames_work by auto.
    pose proof (give_spec l (workNames false ln rn) Il ltac:(rewrite workNames_length; auto)) as Gl. pose proof (give_spec r (workNames false ln rn) Ir ltac:(rewrite workNames_length; congruence)) as Gr.
    destruct (give l (workNames false ln rn)) as [l'|e]; [|destruct Gl as [G1 ->]; cbn [rbind]; split; auto; intros bn C; rewrite (Only bn C); exact G1].
    destruct (give r (workNames false ln rn)) as [r'|e]; [|destruct Gl as [D _]; destruct Gr; contradiction].
    cbn [rbind]. destruct Gl as [D [G1 [G2 [G3 [G4 G5]]]]]. destruct Gr as [_ [H1 [H2 [H3 [H4 H5]]]]].
    exists false. do 10 (split; auto). cbn [endNames].
    destruct (namesCreated l) eqn:Kl; [split; auto|]. destruct (namesCreated r) eqn:Kr; cbn [negb andb]; [split; auto|]. split; auto.
    pose proof (uncreated_names l Kl) as Rl. pose proof (uncreated_names r Kr) as Rr. fold ln in Rl. fold rn in Rr. rewrite Rl, Rr, <- Len. symmetry. apply combined_none_r. apply repeat_length.
Qed.
