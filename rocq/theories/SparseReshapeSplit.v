(** Proofs for C71: splitByParsing of a Sparse object against the table. *)
From Verif Require Import Base NamesModel NamesSpec NamesProofs TableModel TableSpec TableProofs TableOpsProofs FlatProofs MatchModel MatchSpec MatchProofs
  SparseModel SparseSpec SparseProofs SparseEqProofs MergeModel MergeNamesProofs ReshapeModel ReshapeSpec ReshapeTextProofs ReshapeSplitProofs ReshapeCollapseProofs
  SparseReshapeModel SparseReshapeSpec SparseReshapeProofs.
From Coq Require Import List. Import ListNotations.
Open Scope string_scope. Open Scope list_scope. Open Scope nat_scope.
Notation val := (SparseSpec.val (PInt 0)).

Lemma text_pieces r v ps : (forall f, r <> RFun f) -> pieces r v = Ok ps -> forall x, In x ps -> exists s, x = PStr s.
Proof.
  intros NF P x I. assert (M : forall l, In x (map PStr l) -> exists s, x = PStr s) by (intros l M; apply in_map_iff in M; destruct M as [s [<- _]]; eauto).
  destruct r as [sep|z|l|f|]; [| | |destruct (NF f eq_refl)|discriminate]; destruct v; try (destruct l as [|[] ?]; discriminate); try discriminate.
  - cbn in P. destruct (pySplit _ _) as [q|]; [|discriminate]. cbn in P. injection P as <-. eauto.
  - cbn in P. injection P as <-. destruct I as [<-|[<-|[]]]; eauto.
  - cbn in P. assert (P' : rmap (map PStr) (listSplit s 0 l) = Ok ps) by (destruct l as [|[] ?]; exact P). 
    destruct (listSplit s 0 l) as [q|]; [|discriminate]. cbn in P'. injection P' as <-. eauto.
Qed.

Section SplitS.
Variable strOf : pval -> string.
Variables (o : sobj) (t : table pval).
Hypothesis W : wf t.
Hypothesis H : Holds o t.
Hypothesis E : entsOK (PInt 0) (oMat o).
Hypothesis NP : 0 < alen (tp t).
Variables (id : ident) (i : nat) (r : rule) (names : list (option string)).
Hypothesis RF : Refers (tf t) id i.
Let k := List.length names.

Lemma column_same : column (seen o) i = column t i.
Proof. unfold column. rewrite (Holds_rows o t W H E). reflexivity. Qed.
Lemma same_errors : snd (splitByParsingS strOf o id r names) = snd (splitByParsing t id r names) /\
  oPts (fst (splitByParsingS strOf o id r names)) = tp (fst (splitByParsing t id r names)) /\
  oFts (fst (splitByParsingS strOf o id r names)) = tf (fst (splitByParsing t id r names)).
Proof.
  unfold splitByParsingS, splitByParsing. destruct H as [H1 [H2 _]]. rewrite H1, H2, (Refers_getIndex _ _ _ (proj2 (proj2 (proj2 W))) RF), Nat2Z.id, column_same.
  replace (alen (tp t) =? 0) with false by (symmetry; apply Nat.eqb_neq; lia). cbn [andb].
  destruct r; try (repeat split; assumption); destruct (splitLoop _ _ _); try (repeat split; assumption);
    destruct (setList _ _ _); repeat split; reflexivity.
Qed.
Lemma refusedS : NotList r -> (exists p v, cell t p i = Some v /\ forall ps, Pieces r v ps -> List.length ps <> List.length names) ->
  exists e, splitByParsingS strOf o id r names = (o, Err e).
Proof.
  intros NL [p [v [V X]]]. destruct RF as [L _]. unfold splitByParsingS. destruct H as [H1 [H2 _]].
  rewrite H2, (Refers_getIndex _ _ _ (proj2 (proj2 (proj2 W))) RF), Nat2Z.id, column_same.
  destruct (splitLoop r (List.length names) (column t i)) as [parts|e] eqn:SL; [|destruct r; eauto].
  exfalso. apply splitLoop_inv in SL. rewrite <- (rows_col_nth t i p W L) in V.
  destruct (Forall2_nth_l _ _ _ _ _ SL V) as [ps [_ [P LL]]]. exact (X ps (pieces_sound r v ps NL P) LL).
Qed.

Variable t' : table pval.
Hypothesis D : splitByParsing t id r names = (t', Ok tt).
Hypothesis TY : oKind o = 4 /\ ((forall f, r <> RFun f) \/ forall j, j < k -> OneType (column t' (i + j))) \/
  oKind o = 2 /\ (forall e, In e (ents (oMat o)) -> IsFloat (ev e)) /\ (forall p j v, j < k -> cell t' p (i + j) = Some v -> IsFloat v).

Lemma dense_parts : exists parts a, splitLoop r k (column t i) = Ok parts /\
  setList (tf t) (alen (tf t) - 1 + k) (firstn i (getNames (tf t)) ++ names ++ skipn (S i) (getNames (tf t))) = (a, Ok tt) /\
  t' = mkTable (tp t) a (map (fun p : list pval * list pval => firstn i (fst p) ++ snd p ++ skipn (S i) (fst p)) (combine (rows t) parts)).
Proof.
  pose proof D as D'. unfold splitByParsing in D'. rewrite (Refers_getIndex _ _ _ (proj2 (proj2 (proj2 W))) RF), Nat2Z.id in D'.
  replace (alen (tp t) =? 0) with false in D' by (symmetry; apply Nat.eqb_neq; lia). cbn [andb] in D'. fold k in D'.
  destruct (splitLoop r k (column t i)) as [parts|e].
  - destruct (setList (tf t) (alen (tf t) - 1 + k) _) as [a res]. exists parts, a. destruct r; try discriminate; injection D' as <- ->; auto.
  - destruct r; discriminate.
Qed.
Theorem split_refines : exists o', splitByParsingS strOf o id r names = (o', Ok tt) /\ Holds o' t' /\ Placed (oMat o') /\ oKind o' = 4.
Proof.
  destruct dense_parts as [parts [a [SL [SN ->]]]]. pose proof (splitLoop_inv _ _ _ _ SL) as F.
  destruct W as [W1 [W2 [Ip If_]]]. destruct RF as [LI _]. destruct H as [H1 [H2 [R1 [R2 R3]]]].
  assert (LC : List.length (column t i) = alen (tp t)) by (apply column_length_wf; auto).
  assert (LP : List.length parts = alen (tp t)) by (rewrite <- LC; clear - F; induction F; cbn; auto).
  assert (LK : forall ps, In ps parts -> List.length ps = k).
  { intros ps P. clear - F P. induction F as [|v q l l' [_ Q] F IH]; [destruct P|]. destruct P as [<-|P]; auto. }
  assert (CN : forall p ps row, nth_error parts p = Some ps -> nth_error (rows t) p = Some row ->
     nth_error (map (fun q : list pval * list pval => firstn i (fst q) ++ snd q ++ skipn (S i) (fst q)) (combine (rows t) parts)) p = Some (firstn i row ++ ps ++ skipn (S i) row)).
  { intros p ps row P R. rewrite nth_error_map, nth_error_combine, R, P. reflexivity. }
  assert (CELL : forall (row ps : list pval) c, List.length row = alen (tf t) -> List.length ps = k ->
     nth_error (firstn i row ++ ps ++ skipn (S i) row) c =
     if c <? i then nth_error row c else if c <? i + k then nth_error ps (c - i) else nth_error row (c - k + 1)).
  { intros row ps c LR LPs. assert (LF : List.length (firstn i row) = i) by (rewrite firstn_length; lia).
    destruct (Nat.ltb_spec c i) as [X|X].
    - rewrite nth_error_app1 by lia. rewrite <- (firstn_skipn i row) at 2. rewrite nth_error_app1 by lia. reflexivity.
    - rewrite nth_error_app2, LF by lia. destruct (Nat.ltb_spec c (i + k)).
      + rewrite nth_error_app1 by lia. reflexivity.
      + rewrite nth_error_app2 by lia. rewrite LPs, nth_error_skipn. f_equal. lia. }
  set (t' := mkTable _ _ _) in *.
  assert (TYP : oKind o = 4 /\ (forall j, j < k -> OneType (map (fun lst => nth j lst PNaN) parts)) \/
     oKind o = 2 /\ (forall e, In e (ents (oMat o)) -> IsFloat (ev e)) /\ (forall ps v, In ps parts -> In v ps -> IsFloat v)).
  { destruct TY as [[K [NF|O]]|[K [FE O]]].
    - left. split; [exact K|]. intros j J. right. right. right. right. intros v V. apply in_map_iff in V. destruct V as [ps [<- P]].
      apply In_nth_error in P. destruct P as [p P]. clear - F P NF J. revert p P. induction F as [|x q l l' [Q1 Q2] F IH]; intros p P; [destruct p; discriminate|]. destruct p as [|p]; [|apply (IH p P)].
      injection P as <-. apply (text_pieces r x q NF Q1). apply nth_In. fold k in Q2. lia.
    - left. split; [exact K|]. intros j J. specialize (O j J). replace (map (fun lst => nth j lst PNaN) parts) with (column t' (i + j)); [exact O|].
      apply nth_error_ext. intros p. rewrite nth_error_map.
      destruct (nth_error parts p) as [ps|] eqn:P.
      + assert (LL : p < List.length (rows t)) by (apply nlt in P; lia). destruct (nth_error (rows t) p) as [row|] eqn:R; [|apply nth_error_None in R; lia].
        assert (X : forall n (l : list (list pval)) q, (forall x, In x l -> n < List.length x) -> nth_error (flat_map (fun r => match nth_error r n with Some v => [v] | None => [] end) l) q = match nth_error l q with Some r => nth_error r n | None => None end).
        { clear. intros n l. induction l as [|x l IH]; intros q HL; [destruct q; reflexivity|]. cbn [flat_map]. destruct (nth_error x n) as [v|] eqn:V.
          - destruct q; cbn; [congruence|]. apply IH. intros; apply HL; right; assumption.
          - apply nth_error_None in V. specialize (HL x (or_introl eq_refl)). lia. }
        unfold column, t'. cbn [rows]. rewrite X.
        * rewrite (CN p ps row P R), (CELL row ps) by (try (apply W2; eapply nth_error_In; exact R); apply LK; eapply nth_error_In; exact P).
          destruct (Nat.ltb_spec (i + j) i); [lia|]. destruct (Nat.ltb_spec (i + j) (i + k)); [|lia]. replace (i + j - i) with j by lia. cbn [option_map].
          apply nth_error_nth'. rewrite (LK ps) by (eapply nth_error_In; exact P). exact J.
        * intros x XI. apply in_map_iff in XI. destruct XI as [[row' ps'] [<- XI]]. cbn [fst snd]. rewrite !app_length, firstn_length, skipn_length.
          rewrite (W2 row') by (eapply in_combine_l; exact XI). rewrite (LK ps') by (eapply in_combine_r; exact XI). lia.
      + cbn [option_map]. apply nth_error_None. apply nth_error_None in P. unfold column, t'. cbn [rows].
        assert (Y : forall n (l : list (list pval)), List.length (flat_map (fun r => match nth_error r n with Some v => [v] | None => [] end) l) <= List.length l).
        { clear. intros n l. induction l as [|x l IH]; cbn; [lia|]. rewrite app_length. destruct (nth_error x n); cbn; lia. }
        etransitivity; [apply Y|]. rewrite map_length, combine_length. lia.
    - right. split; [exact K|]. split; [exact FE|]. intros ps v P V. apply In_nth_error in V. destruct V as [j V]. apply In_nth_error in P. destruct P as [p P].
      assert (J : j < k) by (rewrite <- (LK ps) by (eapply nth_error_In; exact P); apply (nlt _ _ _ V)).
      apply (O p j v J). unfold cell, t'. cbn [rows].
      assert (LL : p < List.length (rows t)) by (apply nlt in P; lia). destruct (nth_error (rows t) p) as [row|] eqn:R; [|apply nth_error_None in R; lia].
      rewrite (CN p ps row P R), (CELL row ps) by (try (apply W2; eapply nth_error_In; exact R); apply LK; eapply nth_error_In; exact P).
      destruct (Nat.ltb_spec (i + j) i); [lia|]. destruct (Nat.ltb_spec (i + j) (i + k)); [|lia]. replace (i + j - i) with j by lia. exact V. }
  assert (PL : Placed (oMat o)) by (destruct E as [E1 E2]; split; [exact E1|]; intros e IE; destruct (E2 e IE) as [A [B _]]; auto).
  assert (LIs : i < snf (oMat o)) by lia. assert (LPs : List.length parts = snp (oMat o)) by congruence.
  exists (mkSO (tp t) a (sSplit strOf (oMat o) (oKind o) i k parts) 4). split; [|split; [|split; [|reflexivity]]].
  - unfold splitByParsingS. rewrite H1, H2, (Refers_getIndex _ _ _ If_ RF), Nat2Z.id, column_same. fold k. rewrite SL, SN.
    destruct r; try reflexivity. exfalso. rewrite <- LC in NP. destruct (column t i); [cbn in NP; lia|discriminate].
  - split; [reflexivity|]. split; [reflexivity|]. cbn [oMat].
    assert (La : alen a = alen (tf t) - 1 + k).
    { assert (N : setNames (mkAxis (alen (tf t) - 1 + k) (astate (tf t))) (AList (map to_newname (firstn i (getNames (tf t)) ++ names ++ skipn (S i) (getNames (tf t))))) ONone = (a, Ok tt)) by exact SN.
      pose proof (setNames_list_len (mkAxis (alen (tf t) - 1 + k) (astate (tf t))) (map to_newname (firstn i (getNames (tf t)) ++ names ++ skipn (S i) (getNames (tf t))))) as M. rewrite N in M. exact M. }
    split; [exact R1|]. split; [cbn; rewrite R2; congruence|]. intros p c Lp Lc. change (c < alen a) in Lc. change (p < alen (tp t)) in Lp. unfold t'. cbn [rows]. rewrite La in Lc.
    destruct (nth_error (rows t) p) as [row|] eqn:R; [|apply nth_error_None in R; lia].
    destruct (nth_error parts p) as [ps|] eqn:P; [|apply nth_error_None in P; lia].
    rewrite (CN p ps row P R), (CELL row ps) by (try (apply W2; eapply nth_error_In; exact R); apply LK; eapply nth_error_In; exact P).
    rewrite (split_val strOf i parts (oMat o) PL k LIs LPs (oKind o) TYP LK p ps c P).
    destruct (Nat.ltb_spec c i); [|destruct (Nat.ltb_spec c (i + k))].
    + specialize (R3 p c Lp ltac:(lia)). rewrite R in R3. exact R3.
    + apply nth_error_nth'. rewrite (LK ps) by (eapply nth_error_In; exact P). lia.
    + specialize (R3 p (c - k + 1) Lp ltac:(lia)). rewrite R in R3. exact R3.
  - exact (split_Placed strOf i parts (oMat o) PL k LIs LPs (oKind o) TYP LK).
Qed.
End SplitS.
