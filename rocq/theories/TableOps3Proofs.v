(** transform / replace / calculate (C53). *)
From Verif Require Import Base NamesModel NamesSpec NamesProofs NamesIndexProofs
  TableModel TableSpec TableProofs TablePermProofs TableOps TableSortProofs TableInsertProofs TableOpsProofs.
From Coq Require Import Sorted.

Section T.
Variable V : Type.
Implicit Types t : table V.

Lemma vec_nth sd t j : wf t -> j < alen (ax sd t) -> nth_error (vectors sd t) j = Some (vec sd t j).
Proof.
  intros Hwf Hj. destruct sd; cbn [vec ax] in *.
  - cbn [vectors]. apply nth_error_nth'. destruct Hwf as [-> _]; auto.
  - rewrite vectors_Fts_nth. apply Nat.ltb_lt in Hj. rewrite Hj; auto.
Qed.

Lemma setVec_wf sd t j v : wf t -> List.length v = alen (offax sd t) -> wf (setVec sd t j v).
Proof.
  intros [H1 [H2 [H3 H4]]] Hv. destruct sd; cbn [offax] in Hv; unfold wf, setVec; cbn [tp tf rows].
  - split; [rewrite upd_length; auto|]. split; [|auto]. intros r Hr.
    apply In_nth_error in Hr. destruct Hr as [i Hi]. rewrite nth_error_upd in Hi.
    destruct (Nat.eq_dec j i); [destruct (j <? _); [injection Hi as <-; auto|discriminate]|].
    apply H2. eapply nth_error_In; eauto.
  - split; [rewrite map_length, combine_length; lia|]. split; [|auto]. intros r Hr.
    apply in_map_iff in Hr. destruct Hr as [[r0 x] [<- Hr]]. simpl. rewrite upd_length. apply H2.
    eapply in_combine_l; eauto.
Qed.

Lemma setVec_cell sd t j v i k : wf t -> j < alen (ax sd t) -> List.length v = alen (offax sd t) ->
  cell (setVec sd t j v) i k =
  match sd with
  | Pts => if Nat.eq_dec j i then nth_error v k else cell t i k
  | Fts => if Nat.eq_dec j k then nth_error v i else cell t i k
  end.
Proof.
  intros [H1 [H2 [H3 H4]]] Hj Hv. unfold cell, setVec. destruct sd; cbn [ax offax rows] in *.
  - rewrite nth_error_upd. destruct (Nat.eq_dec j i); auto. subst.
    replace (i <? List.length (rows t)) with true by (symmetry; apply Nat.ltb_lt; lia). auto.
  - rewrite nth_error_map_eq, nth_error_combine. destruct (nth_error (rows t) i) as [r|] eqn:Er.
    + destruct (nth_error v i) as [x|] eqn:Ev; simpl.
      * rewrite nth_error_upd. destruct (Nat.eq_dec j k); auto.
        rewrite (H2 r) by (eapply nth_error_In; eauto).
        replace (j <? alen (tf t)) with true by (symmetry; apply Nat.ltb_lt; lia). auto.
      * apply nth_error_None in Ev. apply nth_error_lt in Er. lia.
    + simpl. destruct (Nat.eq_dec j k); auto. symmetry. apply nth_error_None in Er. apply nth_error_None. lia.
Qed.

Lemma vectors_cell sd t j v k : wf t -> nth_error (vectors sd t) j = Some v ->
  nth_error v k = match sd with Pts => cell t j k | Fts => cell t k j end.
Proof.
  intros Hwf H. destruct sd; cbn [vectors] in H; unfold cell.
  - rewrite H; auto.
  - change (map (column t) (seq 0 (alen (tf t)))) with (vectors Fts t) in H. rewrite vectors_Fts_nth in H.
    destruct (j <? alen (tf t)) eqn:E; [|discriminate]. injection H as <-. apply Nat.ltb_lt in E.
    apply (column_nth_wf V t j k); auto.
Qed.

Lemma vector_len sd t j v : wf t -> nth_error (vectors sd t) j = Some v -> List.length v = alen (offax sd t).
Proof.
  intros Hwf H. pose proof (vectors_cell sd t j v) as G. destruct sd; cbn [offax].
  - destruct Hwf as [_ [H2 _]]. apply H2. eapply nth_error_In; eauto.
  - cbn [vectors] in H. change (map (column t) (seq 0 (alen (tf t)))) with (vectors Fts t) in H.
    rewrite vectors_Fts_nth in H. destruct (j <? alen (tf t)) eqn:E; [|discriminate]. apply Nat.ltb_lt in E.
    injection H as <-. apply nth_error_length_eq. intros i. rewrite column_nth_wf by auto.
    destruct Hwf as [H1 [H2 _]]. unfold cell. destruct (nth_error (rows t) i) as [r|] eqn:Er.
    + pose proof (nth_error_lt _ _ Er). split; [|lia]. intros Hn. apply nth_error_None in Hn.
      rewrite (H2 r) in Hn; [lia|eapply nth_error_In; eauto].
    + apply nth_error_None in Er. split; auto. lia.
Qed.

Lemma list_ext_len {A} (l l' : list A) : List.length l = List.length l' ->
  (forall i, nth_error l i = nth_error l' i) -> l = l'.
Proof. intros _ H. apply nth_error_ext; auto. Qed.

Lemma setVec_vectors sd t j v : wf t -> j < alen (ax sd t) -> List.length v = alen (offax sd t) ->
  vectors sd (setVec sd t j v) = upd (vectors sd t) j v.
Proof.
  intros Hwf Hj Hv. pose proof (setVec_wf sd t j v Hwf Hv) as Hwf'.
  apply nth_error_ext. intros i. rewrite nth_error_upd, vectors_length by auto.
  assert (Hax : alen (ax sd (setVec sd t j v)) = alen (ax sd t)) by (destruct sd; reflexivity).
  destruct (lt_dec i (alen (ax sd t))) as [Hi|Hi].
  - rewrite vec_nth by (auto; rewrite Hax; auto).
    assert (E := vec_nth sd (setVec sd t j v) i Hwf'). rewrite Hax in E. specialize (E Hi).
    assert (L := vector_len _ _ _ _ Hwf' E).
    destruct (Nat.eq_dec j i) as [->|Hn].
    + replace (i <? alen (ax sd t)) with true by (symmetry; apply Nat.ltb_lt; auto). f_equal.
      apply nth_error_ext. intros k. rewrite (vectors_cell _ _ _ _ k Hwf' E).
      destruct sd; rewrite setVec_cell by auto; destruct (Nat.eq_dec i i); congruence.
    + rewrite vec_nth by auto. f_equal. apply nth_error_ext. intros k.
      rewrite (vectors_cell _ _ _ _ k Hwf' E), (vectors_cell _ _ _ _ k Hwf (vec_nth sd t i Hwf Hi)).
      destruct sd; rewrite setVec_cell by auto; destruct (Nat.eq_dec j i); congruence.
  - assert (E1 : nth_error (vectors sd t) i = None) by (apply nth_error_None; rewrite vectors_length; auto; lia).
    assert (E2 : nth_error (vectors sd (setVec sd t j v)) i = None)
      by (apply nth_error_None; rewrite vectors_length; auto; rewrite Hax; lia).
    rewrite E1, E2. destruct (Nat.eq_dec j i); auto. subst; lia.
Qed.

Definition chosen (limit : option (list nat)) (j : nat) : Prop :=
  match limit with None => True | Some l => In j l end.

(** State after a (possibly interrupted) transform: the chosen vectors before
    position [k] hold the function's result, everything else is untouched. *)
Definition transformedUpTo sd (f : list V -> result (list V)) limit (k : nat) t t' : Prop :=
  wf t' /\ tp t' = tp t /\ tf t' = tf t /\
  forall j v, nth_error (vectors sd t) j = Some v ->
    (j < k -> chosen limit j ->
       exists w, f v = Ok w /\ List.length w = alen (offax sd t) /\ nth_error (vectors sd t') j = Some w) /\
    (k <= j \/ ~ chosen limit j -> nth_error (vectors sd t') j = Some v).

Lemma transformLoop_spec sd f limit n : forall t0 a t, wf t0 ->
  transformedUpTo sd f limit a t0 t -> a + n = alen (ax sd t0) ->
  let res := transformLoop sd f limit (seq a n) t in
  (snd res = Ok tt -> transformedUpTo sd f limit (a + n) t0 (fst res)) /\
  (forall e, snd res = Err e -> exists k v, a <= k < a + n /\ transformedUpTo sd f limit k t0 (fst res) /\
      nth_error (vectors sd t0) k = Some v /\ chosen limit k /\
      (f v = Err e \/ (e = InvalidArgumentValue /\ exists w, f v = Ok w /\ List.length w <> alen (offax sd t0)))).
Proof.
  induction n as [|n IH]; intros t0 a t Hwf0 HT Hn; cbv zeta.
  - simpl. rewrite Nat.add_0_r. split; auto. discriminate.
  - cbn [seq transformLoop].
    pose proof HT as [Hwf [Ep [Ef HV]]].
    assert (Hax : alen (ax sd t) = alen (ax sd t0)) by (destruct sd; simpl; congruence).
    assert (Hoff : alen (offax sd t) = alen (offax sd t0)) by (destruct sd; simpl; congruence).
    assert (Hv0 : nth_error (vectors sd t0) a = Some (vec sd t0 a)) by (apply vec_nth; auto; lia).
    assert (Hva : nth_error (vectors sd t) a = Some (vec sd t0 a)) by (apply (HV a _ Hv0); auto).
    assert (Heq : vec sd t a = vec sd t0 a).
    { rewrite (vec_nth sd t a) in Hva; [congruence|auto|lia]. }
    assert (Hdec : chosen limit a \/ ~ chosen limit a).
    { destruct limit; simpl; [destruct (in_dec Nat.eq_dec a l)|]; auto. }
    set (sk := match limit with None => false | Some l => negb (mem a l) end).
    assert (Hsk : sk = true -> ~ chosen limit a).
    { unfold sk, chosen; destruct limit; [|discriminate]. intros E; apply Bool.negb_true_iff in E.
      apply mem_not_In in E; auto. }
    assert (Hsk2 : sk = false -> chosen limit a).
    { unfold sk, chosen; destruct limit; [|auto]. intros E; apply Bool.negb_false_iff in E.
      apply mem_In in E; auto. }
    destruct sk.
    + specialize (Hsk eq_refl). destruct (IH t0 (S a) t) as [A B]; auto; try lia.
      * split; auto. split; auto. split; auto. intros j v Hj. split.
        -- intros Hlt Hc. apply (HV j v Hj); auto. destruct (Nat.eq_dec j a); [subst; contradiction|lia].
        -- intros [Hle|Hc]; apply (HV j v Hj); auto. left; lia.
      * split; [intros H; rewrite <- Nat.add_succ_comm; auto|].
        intros e He. destruct (B e He) as [k [v [Hk G]]]. exists k, v. split; [lia|auto].
    + specialize (Hsk2 eq_refl). rewrite Heq. destruct (f (vec sd t0 a)) as [c|e] eqn:Ec.
      * rewrite Hoff. destruct (List.length c =? alen (offax sd t0)) eqn:El.
        -- apply Nat.eqb_eq in El.
           assert (HT' : transformedUpTo sd f limit (S a) t0 (setVec sd t a c)).
           { split; [apply setVec_wf; auto; congruence|]. split; [auto|]. split; [auto|].
             intros j v Hj. rewrite setVec_vectors by (auto; lia). split.
             - intros Hlt Hc. destruct (Nat.eq_dec j a) as [->|Hne].
               + exists c. rewrite nth_error_upd_same by (rewrite vectors_length; auto; lia).
                 assert (v = vec sd t0 a) by congruence. subst v. auto.
               + rewrite nth_error_upd_other by auto. apply (HV j v Hj); auto; lia.
             - intros Ho. assert (j <> a) by (intros ->; destruct Ho; [lia|contradiction]).
               rewrite nth_error_upd_other by auto. apply (HV j v Hj). destruct Ho; auto; left; lia. }
           destruct (IH t0 (S a) (setVec sd t a c)) as [A B]; auto; try lia.
           split; [intros H; rewrite <- Nat.add_succ_comm; auto|].
           intros e He. destruct (B e He) as [k [v [Hk G]]]. exists k, v. split; [lia|auto].
        -- apply Nat.eqb_neq in El. cbn [fst snd]. split; [discriminate|].
           intros e [= <-]. exists a, (vec sd t0 a). split; [lia|]. split; auto. split; auto. split; auto.
           right. split; auto. exists c; auto.
      * cbn [fst snd]. split; [discriminate|]. intros e' [= <-]. exists a, (vec sd t0 a).
        split; [lia|]. split; auto.
Qed.

Lemma transformedUpTo_refl sd f limit t : wf t -> transformedUpTo sd f limit 0 t t.
Proof. intros Hwf. split; auto. split; auto. split; auto. intros j v Hj. split; [lia|auto]. Qed.

Definition limitDenotes (a : axis) (limit : option (list ident)) (chosenIdx : option (list nat)) : Prop :=
  match limit, chosenIdx with
  | None, None => True
  | Some ids, Some l => Forall2 (fun id i => Denotes a false id (Z.of_nat i)) ids l
  | _, _ => False
  end.

Lemma transform_spec sd f limit lim t : wf t -> 0 < alen (tp t) -> 0 < alen (tf t) ->
  limitDenotes (ax sd t) limit lim ->
  let res := transform sd f limit t in
  (snd res = Ok tt -> transformedUpTo sd f lim (alen (ax sd t)) t (fst res)) /\
  (forall e, snd res = Err e -> exists k v, k < alen (ax sd t) /\ transformedUpTo sd f lim k t (fst res) /\
      nth_error (vectors sd t) k = Some v /\ chosen lim k /\
      (f v = Err e \/ (e = InvalidArgumentValue /\ exists w, f v = Ok w /\ List.length w <> alen (offax sd t)))).
Proof.
  intros Hwf Hp Hf HD. cbv zeta. unfold transform.
  replace (alen (tp t) =? 0) with false by (symmetry; apply Nat.eqb_neq; lia).
  replace (alen (tf t) =? 0) with false by (symmetry; apply Nat.eqb_neq; lia). cbn [orb].
  destruct limit as [ids|], lim as [l|]; simpl in HD; try contradiction.
  - apply constructIndices_Denotes in HD; [|apply wf_Inv; auto]. rewrite HD.
    destruct (transformLoop_spec sd f (Some l) (alen (ax sd t)) t 0 t Hwf) as [A B]; auto using transformedUpTo_refl.
    split; auto. intros e He. destruct (B e He) as [k [v [Hk G]]]. exists k, v. split; [lia|auto].
  - destruct (transformLoop_spec sd f None (alen (ax sd t)) t 0 t Hwf) as [A B]; auto using transformedUpTo_refl.
    split; auto. intros e He. destruct (B e He) as [k [v [Hk G]]]. exists k, v. split; [lia|auto].
Qed.

(** transform succeeds whenever the function does *)
Lemma transform_accept sd f limit lim t : wf t -> 0 < alen (tp t) -> 0 < alen (tf t) ->
  limitDenotes (ax sd t) limit lim ->
  (forall j v, nth_error (vectors sd t) j = Some v -> chosen lim j ->
     exists w, f v = Ok w /\ List.length w = alen (offax sd t)) ->
  snd (transform sd f limit t) = Ok tt.
Proof.
  intros Hwf Hp Hf HD HF. destruct (transform_spec sd f limit lim t Hwf Hp Hf HD) as [A B].
  destruct (snd (transform sd f limit t)) as [[]|e] eqn:E; auto.
  destruct (B e eq_refl) as [k [v [Hk [_ [Hv [Hc Hbad]]]]]].
  destruct (HF k v Hv Hc) as [w [Hw Lw]]. destruct Hbad as [Hb|[_ [w' [Hw' Lw']]]]; congruence.
Qed.

Lemma calculate_spec sd t f limit lim : wf t -> 0 < alen (tp t) -> 0 < alen (tf t) ->
  limitDenotes (ax sd t) limit lim ->
  let idx := match lim with None => seq 0 (alen (ax sd t)) | Some l => l end in
  NoDup idx ->
  exists a vs, calculate sd t f limit = Ok (a, vs) /\
    vs = map f (selected idx (vectors sd t)) /\ alen a = List.length idx /\ Inv a /\
    (idx = seq 0 (alen (ax sd t)) \/ List.length idx < alen (ax sd t) ->
       getNames a = selected idx (getNames (ax sd t))).
Proof.
  intros Hwf Hp Hf HD idx Hnd. unfold calculate.
  replace (alen (tp t) =? 0) with false by (symmetry; apply Nat.eqb_neq; lia).
  replace (alen (tf t) =? 0) with false by (symmetry; apply Nat.eqb_neq; lia). cbn [orb].
  assert (Hidx : match limit with None => Ok (seq 0 (alen (ax sd t))) | Some ids => constructIndices (ax sd t) ids end = Ok idx).
  { unfold idx. destruct limit as [ids|], lim as [l|]; simpl in HD; try contradiction; auto.
    apply constructIndices_Denotes; auto. apply wf_Inv; auto. }
  assert (Hr : forall i, In i idx -> i < alen (ax sd t)).
  { destruct limit as [ids|]; [eapply constructIndices_range; eauto using wf_Inv|].
    injection Hidx as <-. intros i Hi; apply in_seq in Hi; lia. }
  rewrite Hidx; cbn [rbind]. unfold calculateRows. rewrite gather_selected by (rewrite vectors_length; auto).
  cbn [rmap rbind].
  pose proof (wf_Inv V sd t Hwf) as HI. pose proof (getNames_length _ HI) as HL.
  unfold calculateNames. destruct (namesCreated (ax sd t)) eqn:En.
  - assert (Hdist : forall i j s, nth_error (getNames (ax sd t)) i = Some (Some s) ->
        nth_error (getNames (ax sd t)) j = Some (Some s) -> i = j).
    { intros i j s A B. apply names_in_dict in A; auto. apply names_in_dict in B; auto. congruence. }
    destruct (List.length idx <? alen (ax sd t)) eqn:El.
    + rewrite gather_selected by (rewrite HL; auto). cbn [rmap rbind].
      destruct (initAxis_ok (List.length idx) (selected idx (getNames (ax sd t)))) as [a [Ea [La [Ia Na]]]].
      { apply selected_length. rewrite HL; auto. }
      { apply selected_distinct; auto. rewrite HL; auto. }
      rewrite Ea; cbn [rbind]. exists a, (map f (selected idx (vectors sd t))). auto 8.
    + cbn [rbind]. apply Nat.ltb_ge in El.
      assert (Le : List.length idx = alen (ax sd t)).
      { apply Nat.le_antisymm; auto. rewrite <- (seq_length (alen (ax sd t)) 0).
        apply NoDup_incl_length; auto. intros i Hi. apply in_seq. apply Hr in Hi. lia. }
      destruct (initAxis_ok (List.length idx) (getNames (ax sd t))) as [a [Ea [La [Ia Na]]]]; auto; try congruence.
      rewrite Ea; cbn [rbind]. exists a, (map f (selected idx (vectors sd t))). split; auto. split; auto.
      split; auto. split; auto. intros [->|Hlt]; [|lia]. rewrite Na, <- HL, selected_all; auto.
  - cbn [rbind]. rewrite initAxis_None. cbn [rbind]. exists (mkAxis (List.length idx) None), (map f (selected idx (vectors sd t))).
    split; auto. split; auto. split; auto. split; [exact I|]. intros _.
    rewrite getNames_fresh, (names_all_default _ HI En), selected_repeat; auto.
Qed.
End T.
