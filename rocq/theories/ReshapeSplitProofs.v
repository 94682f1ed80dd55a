(** Proofs for C49: splitByParsing on objects. *)
From Verif Require Import Base NamesModel NamesSpec NamesProofs NamesIndexProofs TableModel TableSpec TableProofs TableOpsProofs FlatProofs MatchModel MatchSpec
  MergeModel BinOpProofs MergeNamesProofs ReshapeModel ReshapeSpec ReshapeTextProofs.
Open Scope string_scope. Open Scope list_scope. Open Scope nat_scope.

Lemma Refers_getIndex a id i : Inv a -> Refers a id i -> getIndex a id false = Ok (Z.of_nat i).
Proof.
  intros IV [L R]. apply getIndex_Denotes; [exact IV|destruct id; simpl; auto; destruct R|].
  unfold Denotes. destruct id as [z|s|q|]; [destruct R as [->| ->]; [left|right]; lia|exists i; auto|destruct R|destruct R].
Qed.
Lemma Refers_indices a : Inv a -> forall ids idx, Forall2 (Refers a) ids idx -> constructIndices a ids = Ok idx.
Proof.
  intros IV. induction 1 as [|id i ids idx R F IH]; [reflexivity|].
  unfold constructIndices in *. cbn [rmapM]. rewrite (Refers_getIndex _ _ _ IV R). cbn [rmap rbind]. rewrite IH. cbn. rewrite Nat2Z.id. reflexivity.
Qed.
Lemma Forall2_nth_intro {A B} (R : A -> B -> Prop) : forall l l', List.length l = List.length l' ->
  (forall i x y, nth_error l i = Some x -> nth_error l' i = Some y -> R x y) -> Forall2 R l l'.
Proof.
  induction l as [|x l IH]; intros [|y l'] L H; try discriminate; constructor; [apply (H 0); reflexivity|].
  apply IH; [injection L as L; exact L|]. intros i a b A1 B1. exact (H (S i) a b A1 B1).
Qed.
Lemma Forall2_nth_l {A B} (R : A -> B -> Prop) l l' i x : Forall2 R l l' -> nth_error l i = Some x -> exists y, nth_error l' i = Some y /\ R x y.
Proof.
  intros F. revert i. induction F as [|a b l l' H F IH]; intros i E; [destruct i; discriminate|].
  destruct i as [|i]; cbn in *; [injection E as <-; eauto|auto].
Qed.
Lemma DistinctNames_Distinct l : DistinctNames l <-> Distinct l.
Proof. reflexivity. Qed.
Lemma splitLoop_ok r k : forall vals parts, Forall2 (fun v ps => pieces r v = Ok ps /\ List.length ps = k) vals parts -> splitLoop r k vals = Ok parts.
Proof.
  induction 1 as [|v ps vals parts [E L] F IH]; [reflexivity|]. cbn [splitLoop]. rewrite E. cbn [rbind].
  rewrite (proj2 (Nat.eqb_eq _ _) L), IH. reflexivity.
Qed.
Lemma splitLoop_inv r k : forall vals parts, splitLoop r k vals = Ok parts -> Forall2 (fun v ps => pieces r v = Ok ps /\ List.length ps = k) vals parts.
Proof.
  induction vals as [|v vals IH]; intros parts E; cbn [splitLoop] in E; [injection E as <-; constructor|].
  destruct (pieces r v) as [ps|] eqn:P; [|discriminate]. cbn [rbind] in E. destruct (Nat.eqb_spec (List.length ps) k); [|discriminate].
  destruct (splitLoop r k vals) as [rest|] eqn:R; [|discriminate]. cbn in E. injection E as <-. constructor; auto.
Qed.
Lemma rows_col_nth (t : table pval) i p : wf t -> i < alen (tf t) -> nth_error (column t i) p = cell t p i.
Proof. intros W L. apply column_nth_wf; auto. Qed.
Section Split.
Variable t : table pval.
Hypothesis W : wf t.
Variables (id : ident) (i : nat) (r : rule) (names : list (option string)).
Hypothesis RF : Refers (tf t) id i.
Let W1 := proj1 W.
Let W2 := proj1 (proj2 W).
Let Ip := proj1 (proj2 (proj2 W)).
Let If_ := proj2 (proj2 (proj2 W)).

Lemma names_length_split : List.length (replaced i names (getNames (tf t))) = alen (tf t) - 1 + List.length names.
Proof.
  destruct RF as [L _]. unfold replaced. rewrite !app_length, firstn_length, skipn_length, (getNames_length _ If_). lia.
Qed.
Lemma split_ok (parts : list (list pval)) : 0 < alen (tp t) -> List.length parts = alen (tp t) ->
  (forall p v, cell t p i = Some v -> exists ps, nth_error parts p = Some ps /\ Pieces r v ps /\ List.length ps = List.length names) ->
  DistinctNames (replaced i names (getNames (tf t))) ->
  exists t', splitByParsing t id r names = (t', Ok tt) /\ wf t' /\ tp t' = tp t /\
    getNames (tf t') = replaced i names (getNames (tf t)) /\
    forall p row, nth_error (rows t) p = Some row -> exists ps, nth_error parts p = Some ps /\ nth_error (rows t') p = Some (replaced i ps row).
Proof.
  intros NP LP HP DN. destruct RF as [L _].
  assert (LC : List.length (column t i) = alen (tp t)) by (apply column_length_wf; auto).
  assert (SL : splitLoop r (List.length names) (column t i) = Ok parts).
  { apply splitLoop_ok. apply Forall2_nth_intro; [lia|]. intros p v ps V P. rewrite (rows_col_nth t i p W L) in V.
    destruct (HP p v V) as [ps' [P' [PC LL]]]. rewrite P in P'. injection P' as <-. split; [|exact LL]. apply pieces_complete. exact PC. }
  unfold splitByParsing.
  assert (RO : r <> ROther).
  { intros ->. assert (exists v, cell t 0 i = Some v) as [v V].
    { destruct (nth_error (column t i) 0) as [v|] eqn:E; [exists v; rewrite <- (rows_col_nth t i 0 W L); exact E|].
      apply nth_error_None in E. lia. }
    destruct (HP 0 v V) as [ps [_ [PC _]]]. inversion PC. }
  rewrite (Refers_getIndex _ _ _ If_ RF), Nat2Z.id, SL.
  replace (alen (tp t) =? 0) with false by (symmetry; apply Nat.eqb_neq; lia). cbn [andb].
  destruct (setList_ok (tf t) (alen (tf t) - 1 + List.length names) (replaced i names (getNames (tf t))) names_length_split DN) as [x [E [IX [LX NX]]]].
  unfold replaced in E. rewrite E.
  eexists. split; [destruct r; try reflexivity; congruence|].
  split; [|split; [reflexivity|split; [exact NX|]]].
  - split; [|split; [|split; [exact Ip|exact IX]]]; cbn [rows tp tf].
    + rewrite map_length, combine_length, W1, LP. lia.
    + intros row R. apply in_map_iff in R. destruct R as [[old ps] [<- IN]]. cbn [fst snd].
      assert (LPS : List.length ps = List.length names).
      { apply In_nth_error in IN. destruct IN as [p E']. rewrite nth_error_combine in E'.
        destruct (nth_error (rows t) p) as [o|] eqn:EO; [|discriminate]. destruct (nth_error parts p) as [q|] eqn:EQ; [|discriminate]. injection E' as -> ->.
        assert (exists v, cell t p i = Some v) as [v V].
        { unfold cell. rewrite EO. destruct (nth_error old i) as [v|] eqn:EV; [eauto|]. apply nth_error_None in EV.
          rewrite (W2 old) in EV by (eapply nth_error_In; exact EO). lia. }
        destruct (HP p v V) as [ps' [P' [_ LL]]]. congruence. }
      rewrite !app_length, firstn_length, skipn_length, (W2 old), LX by (eapply in_combine_l; exact IN). lia.
  - intros p row R. cbn [rows]. rewrite nth_error_map, nth_error_combine, R.
    destruct (nth_error parts p) as [ps|] eqn:P; [exists ps; split; reflexivity|].
    apply nth_error_None in P. assert (p < List.length (rows t)) by (apply nth_error_Some; congruence). lia.
Qed.
Lemma split_refused : NotList r -> (exists p v, cell t p i = Some v /\ forall ps, Pieces r v ps -> List.length ps <> List.length names) ->
  exists e, splitByParsing t id r names = (t, Err e).
Proof.
  intros NL [p [v [V H]]]. destruct RF as [L _]. unfold splitByParsing. rewrite (Refers_getIndex _ _ _ If_ RF), Nat2Z.id.
  destruct (splitLoop r (List.length names) (column t i)) as [parts|e] eqn:SL; [|destruct r; eauto].
  exfalso. apply splitLoop_inv in SL. rewrite <- (rows_col_nth t i p W L) in V.
  destruct (Forall2_nth_l _ _ _ _ _ SL V) as [ps [_ [P LL]]]. exact (H ps (pieces_sound r v ps NL P) LL).
Qed.
(** the first value that does not split into the right number of pieces *)
Lemma split_count p v : cell t p i = Some v -> (exists ps, Pieces r v ps /\ List.length ps <> List.length names) ->
  (forall q w, q < p -> cell t q i = Some w -> exists ps, Pieces r w ps /\ List.length ps = List.length names) ->
  splitByParsing t id r names = (t, Err InvalidArgumentValueCombination).
Proof.
  intros V [ps [P LL]] HB. destruct RF as [L _]. unfold splitByParsing. rewrite (Refers_getIndex _ _ _ If_ RF), Nat2Z.id.
  assert (G : forall vals p v, nth_error vals p = Some v -> pieces r v = Ok ps ->
    (forall q w, q < p -> nth_error vals q = Some w -> exists ps, pieces r w = Ok ps /\ List.length ps = List.length names) ->
    splitLoop r (List.length names) vals = Err InvalidArgumentValueCombination).
  { clear -LL. induction vals as [|w vals IH]; intros p v V P HB; [destruct p; discriminate|]. cbn [splitLoop].
    destruct p as [|p]; cbn in V.
    - injection V as ->. rewrite P. cbn [rbind]. destruct (Nat.eqb_spec (List.length ps) (List.length names)); [congruence|reflexivity].
    - destruct (HB 0 w) as [qs [Q QL]]; [lia|reflexivity|]. rewrite Q. cbn [rbind]. rewrite (proj2 (Nat.eqb_eq _ _) QL).
      rewrite (IH p v V P); [reflexivity|]. intros q x Q1 X. apply (HB (S q) x); [lia|exact X]. }
  rewrite (G _ p v); [destruct r; try reflexivity; inversion P| |apply pieces_complete; exact P|].
  - rewrite (rows_col_nth t i p W L). exact V.
  - intros q w Q X. rewrite (rows_col_nth t i q W L) in X. destruct (HB q w Q X) as [qs [Q1 Q2]]. exists qs. split; [apply pieces_complete|]; auto.
Qed.
End Split.
