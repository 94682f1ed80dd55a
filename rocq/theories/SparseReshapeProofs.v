(** Proofs for C71: the matrices made by the three implementations. *)
From Verif Require Import Base NamesModel NamesSpec NamesProofs TableModel TableSpec TableProofs TableOpsProofs FlatProofs MatchModel MatchSpec MatchProofs
  TableSortProofs SparseModel SparseSpec SparseProofs SparseEqProofs SparseRefine MergeModel MergeNamesProofs ReshapeModel ReshapeSpec ReshapeTextProofs ReshapeSplitProofs ReshapeCollapseProofs ReshapeExpandProofs ReshapeFillProofs
  SparseReshapeModel SparseReshapeSpec.
From Coq Require Import Sorted List. Import ListNotations.
Open Scope string_scope. Open Scope list_scope. Open Scope nat_scope.
Implicit Types s : sparse pval.
Notation val := (SparseSpec.val (PInt 0)).

Lemma nlt {A} (l : list A) i x : nth_error l i = Some x -> i < List.length l.
Proof. intros H. apply nth_error_Some. congruence. Qed.
Lemma isZero_spec v : isZero v = true <-> v = PInt 0.
Proof. destruct v as [|z| | | | | |]; cbn; try (split; discriminate). destruct z; split; congruence. Qed.
Lemma isZero_dec (v : pval) : {v = PInt 0} + {v <> PInt 0}.
Proof. destruct (isZero v) eqn:E; [left; apply isZero_spec; exact E|right; intros X; apply isZero_spec in X; congruence]. Qed.

Lemma val_is s i j x : (forall v, In (mkE i j v) (ents s) -> v = x) -> (In (mkE i j x) (ents s) \/ x = PInt 0) -> val s i j = x.
Proof.
  intros H N. unfold SparseSpec.val. destruct (find _ (ents s)) as [e|] eqn:F.
  - apply find_some in F. destruct F as [I E]. apply andb_true_iff in E. destruct E as [E1 E2]. apply Nat.eqb_eq in E1, E2.
    apply H. rewrite <- E1, <- E2. destruct e; exact I.
  - destruct N as [I| ->]; [|reflexivity]. exfalso. pose proof (find_none _ _ F _ I) as X. cbn in X. rewrite !Nat.eqb_refl in X. discriminate.
Qed.
Lemma ents_val s e : NoDup (map pos (ents s)) -> In e (ents s) -> ev e = val s (er e) (ec e).
Proof. intros N I. symmetry. apply (@val_In pval (PInt 0)); [exact N|]. destruct e; exact I. Qed.
Lemma val_stored s i j : val s i j <> PInt 0 -> In (mkE i j (val s i j)) (ents s).
Proof. intros H. apply (@val_nonzero pval (PInt 0)); auto. Qed.

(** ** the table an object stands for *)
Lemma seen_wf o : Inv (oPts o) -> Inv (oFts o) -> entsOK (PInt 0) (oMat o) -> snp (oMat o) = alen (oPts o) -> snf (oMat o) = alen (oFts o) ->
  wf (seen o) /\ represents (PInt 0) (oMat o) (seen o).
Proof.
  intros Ip If_ E A B. destruct (@toDense_spec pval pzero (oMat o) E) as [[S1 S2] C]. split.
  - split; [cbn; congruence|]. split; [cbn; intros r R; rewrite (S2 r R); exact B|]. split; assumption.
  - split; [exact A|]. split; [exact B|]. intros i j L M. cbn [seen rows tp tf] in *. rewrite <- A in L. rewrite <- B in M. exact (C i j L M).
Qed.
Lemma Holds_rows o t : wf t -> Holds o t -> entsOK (PInt 0) (oMat o) -> rows t = rows (seen o).
Proof.
  intros [W1 [W2 [Ip If_]]] [HP [HF [R1 [R2 R3]]]] E.
  destruct (@toDense_spec pval pzero (oMat o) E) as [[S1 S2] C]. cbn [seen rows].
  apply nth_error_ext. intros p.
  destruct (nth_error (rows t) p) as [r|] eqn:P.
  - pose proof (nlt _ _ _ P) as L. destruct (nth_error (toDense pzero (oMat o)) p) as [r'|] eqn:P'; [|apply nth_error_None in P'; lia].
    f_equal. apply nth_error_ext.
    intros j. destruct (Nat.lt_ge_cases j (alen (tf t))) as [M|M].
    + specialize (C p j). rewrite R1, R2 in C. assert (L' : p < alen (tp t)) by lia. specialize (C L' M). unfold cellOf in C. rewrite P' in C.
      specialize (R3 p j L' M). rewrite P in R3. exact (eq_trans R3 (eq_sym C)).
    + rewrite (proj2 (nth_error_None r j)), (proj2 (nth_error_None r' j)); [reflexivity| |].
      * rewrite (S2 r'); [lia|eapply nth_error_In; exact P'].
      * rewrite (W2 r); [lia|eapply nth_error_In; exact P].
  - apply nth_error_None in P. symmetry. apply nth_error_None. lia.
Qed.

(** ** splitByParsing *)
Section Split.
Variable strOf : pval -> string.
Variables (i : nat) (parts : list (list pval)).
Definition pieceEntries (j : nat) : list (entry pval) :=
  map (fun q : nat * pval => mkE (fst q) (i + j) (snd q)) (combine (seq 0 (List.length parts)) (map (fun lst => nth j lst PNaN) parts)).
Lemma npCast_float v : IsFloat v -> npCast strOf 2 v = v.
Proof. destruct v; cbn; tauto. Qed.
Lemma npCast_own l : OneType l -> forall v, In v l -> npCast strOf (list_max (map npKind l)) v = v.
Proof.
  intros O v I. pose proof (npArray_same strOf [l]) as H. cbn [List.concat] in H. rewrite app_nil_r in H. specialize (H O).
  unfold npArray in H. cbn [map List.concat] in H. rewrite app_nil_r in H. injection H as H.
  clear O. set (k := list_max _) in *. clearbody k. induction l as [|x l IH]; [destruct I|]. cbn [map] in H. injection H as H1 H2.
  destruct I as [<-|I]; auto.
Qed.
Lemma list_max_le4 l : list_max (map npKind l) <= 4.
Proof. apply list_max_le. apply Forall_forall. intros x I. apply in_map_iff in I. destruct I as [v [<- _]]. destruct v; cbn; lia. Qed.
Lemma list_max_float l : (forall v, In v l -> IsFloat v) -> list_max (map npKind l) <= 2.
Proof. intros H. apply list_max_le. apply Forall_forall. intros x I. apply in_map_iff in I. destruct I as [v [<- V]]. specialize (H v V). destruct v; cbn in *; try tauto; lia. Qed.

Lemma splitColumn_object st j : fst st = 4 -> OneType (map (fun lst => nth j lst PNaN) parts) ->
  splitColumn strOf i parts st j = (4, snd st ++ pieceEntries j).
Proof.
  intros K O. unfold splitColumn. rewrite K. replace (Nat.max 4 _) with 4 by (pose proof (list_max_le4 (map (fun lst => nth j lst PNaN) parts)); lia).
  f_equal. f_equal.
  - cbn [npCast]. rewrite <- (map_id (snd st)) at 2. apply map_ext. intros []. reflexivity.
  - unfold pieceEntries. rewrite map_length. apply map_ext_in. intros [p v] I. apply in_combine_r in I. cbn [fst snd]. f_equal. cbn [npCast]. apply npCast_own; assumption.
Qed.
Lemma splitColumn_float st j : fst st = 2 -> (forall e, In e (snd st) -> IsFloat (ev e)) -> (forall v, In v (map (fun lst => nth j lst PNaN) parts) -> IsFloat v) ->
  splitColumn strOf i parts st j = (2, snd st ++ pieceEntries j).
Proof.
  intros K F O. unfold splitColumn. rewrite K. pose proof (list_max_float _ O) as L. replace (Nat.max 2 _) with 2 by lia.
  f_equal. f_equal.
  - rewrite <- (map_id (snd st)) at 2. apply map_ext_in. intros e I. rewrite npCast_float by auto. destruct e; reflexivity.
  - unfold pieceEntries. rewrite map_length. apply map_ext_in. intros [p v] I. apply in_combine_r in I. cbn [fst snd]. f_equal.
    rewrite (npCast_own _ (or_intror (or_intror (or_intror (or_introl O)))) v I). apply npCast_float. auto.
Qed.
Lemma fold_split kind kept l : 
  (kind = 4 /\ (forall j, In j l -> OneType (map (fun lst => nth j lst PNaN) parts)) \/
   kind = 2 /\ (forall e, In e kept -> IsFloat (ev e)) /\ (forall j v, In j l -> In v (map (fun lst => nth j lst PNaN) parts) -> IsFloat v)) ->
  snd (fold_left (splitColumn strOf i parts) l (kind, kept)) = kept ++ flat_map pieceEntries l.
Proof.
  revert kept. induction l as [|j l IH]; intros kept H; [symmetry; apply app_nil_r|]. cbn [fold_left flat_map].
  destruct H as [[-> O]|[-> [F O]]].
  - rewrite splitColumn_object by (auto; apply O; left; reflexivity). cbn [fst snd]. rewrite IH, <- app_assoc; [reflexivity|]. left. split; [reflexivity|]. intros j' J. apply O. right; exact J.
  - assert (O1 : forall v, In v (map (fun lst => nth j lst PNaN) parts) -> IsFloat v) by (intros v V; apply (O j v); [left; reflexivity|exact V]).
    rewrite splitColumn_float by auto. cbn [fst snd]. rewrite IH, <- app_assoc; [reflexivity|]. right. split; [reflexivity|]. split.
    + intros e I. apply in_app_or in I. destruct I as [I|I]; [auto|]. unfold pieceEntries in I. apply in_map_iff in I. destruct I as [[p v] [<- I]]. apply in_combine_r in I. cbn. auto.
    + intros j' v J. apply (O j' v). right; exact J.
Qed.
Lemma pieceEntries_In j e : In e (pieceEntries j) <-> ec e = i + j /\ exists ps, nth_error parts (er e) = Some ps /\ ev e = nth j ps PNaN.
Proof.
  unfold pieceEntries. rewrite in_map_iff. split.
  - intros [[p v] [<- I]]. cbn. split; [reflexivity|]. apply In_nth_error in I. destruct I as [n I]. rewrite nth_error_combine, nth_error_seq, nth_error_map in I.
    destruct (n <? List.length parts); [|discriminate]. destruct (nth_error parts n) as [ps|] eqn:E; [|discriminate]. cbn in I. injection I as <- <-. eauto.
  - intros [C [ps [P V]]]. exists (er e, ev e). split; [destruct e; cbn in *; subst; reflexivity|].
    apply nth_error_In with (n := er e). rewrite nth_error_combine, nth_error_seq, nth_error_map, P. cbn [option_map].
    destruct (Nat.ltb_spec (er e) (List.length parts)); [rewrite V; reflexivity|]. apply nlt in P. lia.
Qed.
Lemma combine_seq_NoDup {A} (l : list A) a n : NoDup (map fst (combine (seq a n) l)).
Proof.
  revert a n. induction l as [|x l IH]; intros a n; destruct n; cbn; try constructor; [|apply IH].
  intros I. apply in_map_iff in I. destruct I as [[q v] [E I]]. apply in_combine_l in I. apply in_seq in I. cbn in E. lia.
Qed.
Lemma pieceEntries_NoDup j : NoDup (map pos (pieceEntries j)).
Proof.
  unfold pieceEntries. rewrite map_map. unfold pos. cbn [er ec]. rewrite <- (map_map fst (fun p => (p, i + j))).
  apply FinFun.Injective_map_NoDup; [intros a b H; congruence|]. apply combine_seq_NoDup.
Qed.

Variable s : sparse pval.
Hypothesis PL : Placed s.
Variable k : nat.
Hypothesis LI : i < snf s.
Hypothesis LP : List.length parts = snp s.
Variable kind : nat.
Hypothesis TY : kind = 4 /\ (forall j, j < k -> OneType (map (fun lst => nth j lst PNaN) parts)) \/
  kind = 2 /\ (forall e, In e (ents s) -> IsFloat (ev e)) /\ (forall ps v, In ps parts -> In v ps -> IsFloat v).
Hypothesis LK : forall ps, In ps parts -> List.length ps = k.
Let kept := map (fun e => if i <? ec e then mkE (er e) (ec e + k - 1) (ev e) else e) (filter (fun e => negb (ec e =? i)) (ents s)).
Lemma split_ents : ents (sSplit strOf s kind i k parts) = kept ++ flat_map pieceEntries (seq 0 k).
Proof.
  unfold sSplit. cbn [ents]. fold kept. apply fold_split. destruct TY as [[K O]|[K [F O]]].
  - left. split; [exact K|]. intros j J. apply in_seq in J. apply O. lia.
  - right. split; [exact K|]. split.
    + intros e I. unfold kept in I. apply in_map_iff in I. destruct I as [e' [<- I]]. apply filter_In in I. destruct (i <? ec e'); apply (F e'); tauto.
    + intros j v J V. apply in_map_iff in V. destruct V as [ps [<- P]]. apply (O ps); [exact P|]. apply nth_In. rewrite (LK ps P). apply in_seq in J. lia.
Qed.
Lemma kept_In e : In e kept <-> exists c, In (mkE (er e) c (ev e)) (ents s) /\ (c < i /\ ec e = c \/ i < c /\ ec e = c + k - 1).
Proof.
  unfold kept. rewrite in_map_iff. split.
  - intros [e' [E I]]. apply filter_In in I. destruct I as [I N]. apply negb_true_iff, Nat.eqb_neq in N. exists (ec e').
    destruct (Nat.ltb_spec i (ec e')); subst e; cbn; (split; [destruct e'; exact I|]); [right|left]; (split; [lia|reflexivity]).
  - intros [c [I H]]. exists (mkE (er e) c (ev e)). cbn [er ec ev]. split.
    + destruct (Nat.ltb_spec i c); destruct e as [er' ec' ev']; cbn [er ec ev] in *; f_equal; lia.
    + apply filter_In. split; [exact I|]. cbn [ec]. apply negb_true_iff, Nat.eqb_neq. lia.
Qed.
Lemma split_In e : In e (ents (sSplit strOf s kind i k parts)) <->
  (exists c, In (mkE (er e) c (ev e)) (ents s) /\ (c < i /\ ec e = c \/ i < c /\ ec e = c + k - 1)) \/
  (exists j ps, j < k /\ ec e = i + j /\ nth_error parts (er e) = Some ps /\ ev e = nth j ps PNaN).
Proof.
  rewrite split_ents, in_app_iff, kept_In, in_flat_map. apply or_iff_compat_l. split.
  - intros [j [J I]]. apply in_seq in J. apply pieceEntries_In in I. destruct I as [C [ps [P V]]]. exists j, ps. repeat split; auto. lia.
  - intros [j [ps [J [C [P V]]]]]. exists j. split; [apply in_seq; lia|]. apply pieceEntries_In. eauto.
Qed.
Lemma split_Placed : Placed (sSplit strOf s kind i k parts).
Proof.
  destruct PL as [N R]. split.
  - rewrite split_ents, map_app. apply NoDup_app_intro.
    + unfold kept. rewrite map_map. 
      erewrite map_ext_in; [rewrite <- (map_map pos (fun q : nat * nat => if i <? snd q then (fst q, snd q + k - 1) else q))|].
      2: { intros e _. unfold pos. cbn [fst snd]. destruct (i <? ec e); reflexivity. }
      assert (ND : NoDup (map pos (filter (fun e => negb (ec e =? i)) (ents s)))).
      { clear - N. induction (ents s) as [|e l IH]; [constructor|]. cbn in N. inversion N; subst. cbn [filter]. destruct (negb (ec e =? i)); [|auto].
        cbn. constructor; [|auto]. intros I. apply H1. apply in_map_iff in I. destruct I as [x [E I]]. apply filter_In in I. apply in_map_iff. exists x. tauto. }
      assert (NE : forall q, In q (map pos (filter (fun e => negb (ec e =? i)) (ents s))) -> snd q <> i).
      { intros q I. apply in_map_iff in I. destruct I as [e [<- I]]. apply filter_In in I. destruct I as [_ I]. apply negb_true_iff, Nat.eqb_neq in I. exact I. }
      revert ND NE. generalize (map pos (filter (fun e => negb (ec e =? i)) (ents s))). intros l. induction l as [|q l IH]; intros ND NE; [constructor|].
      inversion ND; subst. cbn [map]. constructor; [|apply IH; [assumption|intros; apply NE; right; assumption]].
      intros I. apply in_map_iff in I. destruct I as [q' [E I]]. apply H1. pose proof (NE q (or_introl eq_refl)). pose proof (NE q' (or_intror I)).
      destruct q as [a b], q' as [a' b']. cbn [fst snd] in *. destruct (Nat.ltb_spec i b), (Nat.ltb_spec i b'); injection E as -> E; try (replace b with b' by lia; exact I); lia.
    + apply SparseOpsProofs.NoDup_flat_map; [apply seq_NoDup|intros; apply pieceEntries_NoDup|].
      intros a a' b b' _ _ B B' E. apply pieceEntries_In in B, B'. unfold pos in E. injection E as E1 E2. lia.
    + intros q Q Q'. apply in_map_iff in Q, Q'. destruct Q as [e [<- Q]], Q' as [e' [E Q']]. apply kept_In in Q. destruct Q as [c [_ Q]].
      apply in_flat_map in Q'. destruct Q' as [j [J Q']]. apply in_seq in J. apply pieceEntries_In in Q'. unfold pos in E. injection E as E1 E2. lia.
  - intros e I. apply split_In in I. cbn [sSplit snp snf]. destruct I as [[c [I C]]|[j [ps [J [C [P V]]]]]].
    + specialize (R _ I). cbn in R. lia.
    + apply nlt in P. lia.
Qed.
Lemma split_val p ps c : nth_error parts p = Some ps -> 
  val (sSplit strOf s kind i k parts) p c =
  if c <? i then val s p c else if c <? i + k then nth (c - i) ps PNaN else val s p (c - k + 1).
Proof.
  intros P. destruct PL as [N R]. apply val_is.
  - intros v I. apply split_In in I. cbn in I. destruct I as [[d [I C]]|[j [qs [J [C [Q V]]]]]].
    + pose proof (ents_val _ _ N I) as X. cbn in X. destruct (Nat.ltb_spec c i); [|destruct (Nat.ltb_spec c (i + k))].
      * replace c with d by lia. exact X.
      * lia.
      * replace (c - k + 1) with d by lia. exact X.
    + rewrite P in Q. injection Q as <-. destruct (Nat.ltb_spec c i); [lia|]. destruct (Nat.ltb_spec c (i + k)); [|lia]. rewrite V. f_equal. lia.
  - destruct (Nat.ltb_spec c i); [|destruct (Nat.ltb_spec c (i + k))].
    + destruct (isZero_dec (val s p c)) as [E|E]; [right; exact E|left]. apply split_In. cbn. left. exists c. split; [apply val_stored; exact E|]. lia.
    + left. apply split_In. cbn. right. exists (c - i), ps. repeat split; auto; lia.
    + destruct (isZero_dec (val s p (c - k + 1))) as [E|E]; [right; exact E|left]. apply split_In. cbn. left. exists (c - k + 1). split; [apply val_stored; exact E|]. right. lia.
Qed.
End Split.
