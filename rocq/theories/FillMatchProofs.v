From Verif Require Import Base NamesModel NamesSpec NamesProofs NamesIndexProofs TableModel TableSpec TableProofs TablePermProofs TableOps TableOps3Proofs
  TableProps PrepProofs FillModel FillSpec FillProofs.
From Coq Require Import QArith Sorted.
Open Scope nat_scope.

Section P.
Variable V : Type.
Implicit Types t : table V.

(** after filling the chosen vectors before position [k] *)
Definition FilledTo sd (ff : list V -> list bool -> result (list V)) (g : nat -> result (list bool)) lim (k : nat) t t' : Prop :=
  wf t' /\ tp t' = tp t /\ tf t' = tf t /\
  forall j v, nth_error (vectors sd t) j = Some v ->
    (j < k -> chosen lim j ->
       exists mk w, g j = Ok mk /\ ff v mk = Ok w /\ nth_error (vectors sd t') j = Some w) /\
    (k <= j \/ ~ chosen lim j -> nth_error (vectors sd t') j = Some v).
Definition chosenb (lim : option (list nat)) (j : nat) : bool := match lim with None => true | Some l => mem j l end.

Lemma fillLoop_spec sd ff g lim n : forall t0 a t, wf t0 ->
  FilledTo sd ff g lim a t0 t -> a + n = alen (ax sd t0) ->
  let res := fillLoop sd ff lim (seq a n) (map g (filter (chosenb lim) (seq a n))) t in
  (snd res = Ok tt -> FilledTo sd ff g lim (a + n) t0 (fst res)) /\
  (forall e, snd res = Err e -> exists k v, a <= k < a + n /\ FilledTo sd ff g lim k t0 (fst res) /\
      nth_error (vectors sd t0) k = Some v /\ chosen lim k /\
      (g k = Err e \/ exists mk, g k = Ok mk /\ (ff v mk = Err e \/ (e = InvalidArgumentValue /\ exists w, ff v mk = Ok w /\ List.length w <> alen (offax sd t0))))).
Proof.
  induction n as [|n IH]; intros t0 a t Hwf0 HT Hn; cbv zeta.
  - simpl. rewrite Nat.add_0_r. split; auto. discriminate.
  - cbn [seq fillLoop filter].
    pose proof HT as [Hwf [Ep [Ef HV]]].
    assert (Hax : alen (ax sd t) = alen (ax sd t0)) by (destruct sd; simpl; congruence).
    assert (Hoff : alen (offax sd t) = alen (offax sd t0)) by (destruct sd; simpl; congruence).
    assert (Hv0 : nth_error (vectors sd t0) a = Some (vec sd t0 a)) by (apply vec_nth; auto; lia).
    assert (Hva : nth_error (vectors sd t) a = Some (vec sd t0 a)) by (apply (HV a _ Hv0); auto).
    assert (Heq : vec sd t a = vec sd t0 a).
    { rewrite (vec_nth V sd t a) in Hva; [congruence|auto|lia]. }
    assert (Hck : chosenb lim a = true <-> chosen lim a).
    { unfold chosenb, chosen. destruct lim; [apply mem_In|tauto]. }
    replace (match lim with None => false | Some l => negb (mem a l) end) with (negb (chosenb lim a)) by (destruct lim; reflexivity).
    destruct (chosenb lim a) eqn:Ec; cbn [negb].
    + assert (Hc : chosen lim a) by (apply Hck; reflexivity). cbn [map]. destruct (g a) as [mk|e] eqn:Eg.
      * rewrite Heq. destruct (ff (vec sd t0 a) mk) as [c|e] eqn:Eff.
        -- rewrite Hoff. destruct (List.length c =? alen (offax sd t0)) eqn:El.
           ++ apply Nat.eqb_eq in El.
              assert (HT' : FilledTo sd ff g lim (S a) t0 (setVec sd t a c)).
              { split; [apply setVec_wf; auto; congruence|]. split; [auto|]. split; [auto|].
                intros j v Hj. rewrite setVec_vectors by (auto; lia). split.
                - intros Hlt Hcj. destruct (Nat.eq_dec j a) as [->|Hne].
                  + exists mk, c. rewrite nth_error_upd_same by (rewrite vectors_length; auto; lia).
                    assert (v = vec sd t0 a) by congruence. subst v. auto.
                  + rewrite nth_error_upd_other by auto. apply (HV j v Hj); auto; lia.
                - intros Ho. assert (j <> a) by (intros ->; destruct Ho; [lia|contradiction]).
                  rewrite nth_error_upd_other by auto. apply (HV j v Hj). destruct Ho; auto; left; lia. }
              destruct (IH t0 (S a) (setVec sd t a c)) as [A B]; auto; try lia.
              split; [intros H; rewrite <- Nat.add_succ_comm; auto|].
              intros e He. destruct (B e He) as [k [v [Hk G]]]. exists k, v. split; [lia|auto].
           ++ apply Nat.eqb_neq in El. cbn [fst snd]. split; [discriminate|].
              intros e [= <-]. exists a, (vec sd t0 a). split; [lia|]. split; auto. split; auto. split; auto.
              right. exists mk. split; [exact Eg|]. right. split; auto. exists c; auto.
        -- cbn [fst snd]. split; [discriminate|]. intros e' [= <-]. exists a, (vec sd t0 a).
           split; [lia|]. split; auto. split; auto. split; auto. right. exists mk. auto.
      * cbn [fst snd]. split; [discriminate|]. intros e' [= <-]. exists a, (vec sd t0 a).
        split; [lia|]. split; auto.
    + assert (Hc : ~ chosen lim a) by (rewrite <- Hck; discriminate). destruct (IH t0 (S a) t) as [A B]; auto; try lia.
      * split; auto. split; auto. split; auto. intros j v Hj. split.
        -- intros Hlt Hcj. apply (HV j v Hj); auto. destruct (Nat.eq_dec j a); [subst; contradiction|lia].
        -- intros [Hle|Hcj]; apply (HV j v Hj); auto. left; lia.
      * split; [intros H; rewrite <- Nat.add_succ_comm; auto|].
        intros e He. destruct (B e He) as [k [v [Hk G]]]. exists k, v. split; [lia|auto].
Qed.
Lemma FilledTo_refl sd ff g lim t : wf t -> FilledTo sd ff g lim 0 t t.
Proof. intros Hwf. split; auto. split; auto. split; auto. intros j v Hj. split; [lia|auto]. Qed.

(** the chosen positions in ascending order *)
Lemma filter_seq_sorted l n : StronglySorted lt l -> (forall i, In i l -> i < n) -> filter (fun j => mem j l) (seq 0 n) = l.
Proof.
  assert (G : forall n a l, StronglySorted lt l -> (forall i, In i l -> a <= i < a + n) -> filter (fun j => mem j l) (seq a n) = l).
  { clear. induction n as [|n IH]; intros a l HS Hr.
    - destruct l as [|x l]; [reflexivity|]. specialize (Hr x (or_introl eq_refl)). lia.
    - cbn [seq filter]. destruct l as [|x l].
      + change (mem a []) with false. cbv iota. apply (IH (S a) []); [constructor|intros i []].
      + inversion HS as [|? ? HS' HF]. subst. rewrite Forall_forall in HF. pose proof (Hr x (or_introl eq_refl)) as Hx.
        destruct (Nat.eq_dec a x) as [->|Hne].
        * replace (mem x (x :: l)) with true by (symmetry; apply mem_In; left; reflexivity). f_equal.
          transitivity (filter (fun j => mem j l) (seq (S x) n)); [|apply IH; [exact HS'|]].
          -- apply filter_ext_in. intros j Hj. apply in_seq in Hj. destruct (mem j l) eqn:E.
             ++ apply mem_In. right. apply mem_In. exact E.
             ++ apply mem_not_In. intros [->|C]; [lia|]. apply mem_In in C. congruence.
          -- intros i Hi. specialize (HF i Hi). specialize (Hr i (or_intror Hi)). lia.
        * replace (mem a (x :: l)) with false.
          -- apply IH; [exact HS|]. intros i Hi. pose proof (Hr i Hi). destruct Hi as [<-|Hi]; [lia|]. specialize (HF i Hi). lia.
          -- symmetry. apply mem_not_In. intros [->|C]; [lia|]. specialize (HF a C). lia. }
  intros HS Hr. apply G; [exact HS|]. intros i Hi. specialize (Hr i Hi). lia.
Qed.

Lemma filter_true {A} (l : list A) : filter (fun _ => true) l = l.
Proof. induction l as [|a l IH]; [reflexivity|]. simpl. rewrite IH. reflexivity. Qed.

(** the mask vector number [j] *)
Definition maskNo sd (mt : table bool) (j : nat) : result (list bool) :=
  match nth_error (vectors sd mt) j with Some r => Ok r | None => Err IndexErr end.
Lemma maskAt_int sd mt j : j < alen (ax sd mt) -> maskAt sd mt (IdInt (Z.of_nat j)) = maskNo sd mt j.
Proof.
  intros H. unfold maskAt. rewrite getIndex_nat by exact H. cbn [rbind]. rewrite Nat2Z.id. reflexivity.
Qed.
Lemma maskAt_denotes sd mt id j : wf mt -> Denotes (ax sd mt) false id (Z.of_nat j) -> maskAt sd mt id = maskNo sd mt j.
Proof.
  intros W H. unfold maskAt. assert (G : getIndex (ax sd mt) id true = Ok (Z.of_nat j)).
  { apply getIndex_Denotes; [apply wf_Inv; exact W|destruct id; simpl; auto|].
    - simpl in H. destruct H as [C _]. discriminate.
    - destruct id; simpl in *; auto. destruct H as [C _]. discriminate. }
  rewrite G. cbn [rbind]. rewrite Nat2Z.id. reflexivity.
Qed.

Lemma denotes_lt a fl id i : Inv a -> Denotes a fl id (Z.of_nat i) -> i < alen a.
Proof.
  intros Ia H. destruct id as [z|s|q|]; simpl in H.
  - lia.
  - destruct H as [k [E Hk]]. apply Nat2Z.inj in E. subst k. apply nth_error_lt in Hk. rewrite getNames_length in Hk by exact Ia. exact Hk.
  - lia.
  - contradiction.
Qed.

Lemma fillMatching_matrix sd ff mt lim idx t : wf t -> wf mt -> alen (ax sd mt) = alen (ax sd t) ->
  0 < alen (tp t) -> 0 < alen (tf t) -> aligned sd t mt lim idx ->
  fillMatching sd ff (MMatrix mt) lim t =
  fillLoop sd ff idx (seq 0 (alen (ax sd t))) (map (maskNo sd mt) (filter (chosenb idx) (seq 0 (alen (ax sd t))))) t.
Proof.
  intros W Wm Hlen Hp Hf [HD HA]. unfold fillMatching.
  replace (alen (tp t) =? 0) with false by (symmetry; apply Nat.eqb_neq; lia).
  replace (alen (tf t) =? 0) with false by (symmetry; apply Nat.eqb_neq; lia). cbn [orb].
  destruct lim as [|i|l]; cbn [limitIds] in *.
  - destruct idx; [contradiction|]. cbn [limitIds]. unfold chosenb. rewrite filter_true.
    f_equal. apply map_ext_in. intros j Hj. apply in_seq in Hj. apply maskAt_int. lia.
  - destruct idx as [l|]; [|contradiction]. simpl in HD. inversion HD as [|? k ? ? Hk HN]. subst. inversion HN. subst.
    assert (Hki : k < alen (ax sd t)) by (exact (denotes_lt _ _ _ _ (wf_Inv _ _ _ W) Hk)).
    assert (G : getIndex (ax sd t) i false = Ok (Z.of_nat k)).
    { assert (C : constructIndices (ax sd t) [i] = Ok [k]) by (apply constructIndices_Denotes; [apply wf_Inv; exact W|exact HD]).
      unfold constructIndices in C. cbn [rmapM] in C. destruct (getIndex (ax sd t) i false) as [z|e] eqn:E; [|discriminate].
      cbn [rmap rbind] in C. injection C as C. destruct (TableProps.getIndex_nat _ _ _ (wf_Inv _ _ _ W) E) as [k' [-> _]]. f_equal. lia. }
    rewrite G. cbn [rmap]. apply constructIndices_Denotes in HD; [|apply wf_Inv; exact W]. rewrite HD.
    unfold chosenb. rewrite filter_seq_sorted; [|repeat constructor|intros x [<-|[]]; exact Hki].
    cbn [map]. rewrite maskAt_int by lia. reflexivity.
  - destruct idx as [idx|]; [|destruct HA; contradiction]. destruct HA as [HM HS].
    pose proof HD as HD'. apply constructIndices_Denotes in HD'; [|apply wf_Inv; exact W]. rewrite HD'.
    unfold chosenb. rewrite filter_seq_sorted; [|exact HS|].
    + f_equal. simpl in HM. clear - HM Wm. induction HM as [|id j l idx H HM IH]; [reflexivity|]. cbn [map]. rewrite IH.
      f_equal. apply maskAt_denotes; assumption.
    + intros x Hx. simpl in HD. clear - HD Hx W. induction HD as [|id j l idx H HM IH]; [contradiction|].
      destruct Hx as [<-|Hx]; [exact (denotes_lt _ _ _ _ (wf_Inv _ _ _ W) H)|auto].
Qed.

Lemma maskNo_maskOf sd mt j (v : list V) mk : maskNo sd mt j = Ok mk <-> maskOf sd (MMatrix mt) j v = Some mk.
Proof. unfold maskNo, maskOf. destruct (nth_error (vectors sd mt) j); split; intros H; congruence. Qed.
Lemma FilledTo_matrix sd ff mt lim k t t' : FilledTo sd ff (maskNo sd mt) lim k t t' -> FilledUpTo sd ff (MMatrix mt) lim k t t'.
Proof.
  intros [A [B [C D]]]. split; [exact A|]. split; [exact B|]. split; [exact C|]. intros j v Hj. destruct (D j v Hj) as [D1 D2].
  split; [|exact D2]. intros Hlt Hc. destruct (D1 Hlt Hc) as [mk [w [E1 [E2 E3]]]]. exists mk, w. split; [|auto].
  apply (maskNo_maskOf sd mt j v). exact E1.
Qed.

Lemma fillMatching_matrix_spec sd ff mt lim idx t : wf t -> sameShape (MMatrix mt) t ->
  0 < alen (tp t) -> 0 < alen (tf t) -> aligned sd t mt lim idx ->
  FillOutcome sd ff (MMatrix mt) idx t (fillMatching sd ff (MMatrix mt) lim t).
Proof.
  intros W [Wm [Hsp Hsf]] Hp Hf HA.
  assert (Hlen : alen (ax sd mt) = alen (ax sd t)) by (destruct sd; assumption).
  rewrite (fillMatching_matrix sd ff mt lim idx t W Wm Hlen Hp Hf HA).
  destruct (fillLoop_spec sd ff (maskNo sd mt) idx (alen (ax sd t)) t 0 t W (FilledTo_refl sd ff (maskNo sd mt) idx t W) eq_refl) as [A B].
  set (res := fillLoop _ _ _ _ _ _) in *. unfold FillOutcome. destruct (snd res) as [[]|e].
  - apply FilledTo_matrix. exact (A eq_refl).
  - destruct (B e eq_refl) as [k [v [Hk [HT [Hv [Hc Hbad]]]]]].
    destruct Hbad as [Hg|[mk [Hg Hb]]].
    + exfalso. unfold maskNo in Hg. destruct (nth_error (vectors sd mt) k) eqn:E; [discriminate|]. apply nth_error_None in E.
      rewrite (vectors_length _ sd mt Wm) in E. lia.
    + exists k, v, mk. split; [apply FilledTo_matrix; exact HT|]. split; [exact Hv|]. split; [exact Hc|]. split; [|exact Hb].
      apply (maskNo_maskOf sd mt k v). exact Hg.
Qed.
Lemma fillMatching_fun_spec sd ff f lim idx t : wf t -> 0 < alen (tp t) -> 0 < alen (tf t) ->
  limitDenotes (ax sd t) (limitIds lim) idx ->
  FillOutcome sd ff (MFun f) idx t (fillMatching sd ff (MFun f) lim t).
Proof.
  intros W Hp Hf HD. unfold fillMatching.
  destruct (transform_spec V sd (fun v => ff v (map f v)) (limitIds lim) idx t W Hp Hf HD) as [A B].
  set (res := transform _ _ _ _) in *.
  assert (G : forall k t', transformedUpTo V sd (fun v => ff v (map f v)) idx k t t' -> FilledUpTo sd ff (MFun f) idx k t t').
  { intros k t' [H1 [H2 [H3 H4]]]. split; [exact H1|]. split; [exact H2|]. split; [exact H3|]. intros j v Hj. destruct (H4 j v Hj) as [D1 D2].
    split; [|exact D2]. intros Hlt Hc. destruct (D1 Hlt Hc) as [w [E1 [E2 E3]]]. exists (map f v), w. split; [reflexivity|auto]. }
  unfold FillOutcome. destruct (snd res) as [[]|e].
  - apply G. exact (A eq_refl).
  - destruct (B e eq_refl) as [k [v [Hk [HT [Hv [Hc Hbad]]]]]]. exists k, v, (map f v). split; [apply G; exact HT|].
    split; [exact Hv|]. split; [exact Hc|]. split; [reflexivity|exact Hbad].
Qed.

(** cells *)
Lemma fillMatching_cells sd ff m idx k t t' : wf t -> sameShape m t -> Conservative ff -> FilledUpTo sd ff m idx k t t' ->
  forall i j, ~ (cellMatches m t i j /\ chosen idx (match sd with Pts => i | Fts => j end)) -> cell t' i j = cell t i j.
Proof.
  intros W HS HC [W' [Ep [Ef HV]]] i j HN.
  set (a := match sd with Pts => i | Fts => j end) in *. set (b := match sd with Pts => j | Fts => i end).
  assert (Hcell : forall s : table V, wf s -> forall v, nth_error (vectors sd s) a = Some v -> nth_error v b = cell s i j).
  { intros s Ws v Hv. pose proof (vectors_cell V sd s a v b Ws Hv) as H. unfold a, b in *. destruct sd; exact H. }
  destruct (nth_error (vectors sd t) a) as [v|] eqn:Ea.
  - destruct (HV a v Ea) as [H1 H2].
    assert (Hc' : forall w, nth_error (vectors sd t') a = Some w -> nth_error w b = cell t' i j) by (intros w; apply Hcell; exact W').
    destruct (le_lt_dec k a) as [Hk|Hk]; [rewrite <- (Hcell t W v Ea); symmetry; apply Hc'; apply H2; auto|].
    assert (Hdec : chosen idx a \/ ~ chosen idx a).
    { destruct idx; simpl; [destruct (in_dec Nat.eq_dec a l)|]; auto. }
    destruct Hdec as [Hch|Hch]; [|rewrite <- (Hcell t W v Ea); symmetry; apply Hc'; apply H2; auto].
    destruct (H1 Hk Hch) as [mk [w [Em [Ew Hw]]]].
    assert (Hlv : List.length v = alen (offax sd t)) by (exact (vector_len V sd t a v W Ea)).
    assert (Lm : List.length mk = List.length v).
    { destruct m as [f|mt]; simpl in Em; [injection Em as <-; apply map_length|]. destruct HS as [Wm [S1 S2]].
      rewrite Hlv. rewrite (vector_len bool sd mt a mk Wm Em). destruct sd; assumption. }
    destruct (HC v mk w Lm Ew) as [Lw F]. rewrite <- (Hc' w Hw), <- (Hcell t W v Ea).
    destruct (nth_error v b) as [x|] eqn:Eb.
    + specialize (F b x Eb). destruct (nth_error mk b) as [[]|] eqn:Emb; [|exact F|exact F].
      exfalso. apply HN. split; [|exact Hch]. destruct m as [f|mt]; simpl in Em; simpl.
      * injection Em as <-. rewrite nth_error_map_eq, Eb in Emb. simpl in Emb. injection Emb as Emb. exists x. split; [|exact Emb].
        rewrite <- Eb. symmetry. apply (Hcell t W v Ea).
      * destruct HS as [Wm _]. pose proof (vectors_cell bool sd mt a mk b Wm Em) as H. unfold a, b in *. rewrite Emb in H. destruct sd; symmetry; exact H.
    + apply nth_error_None. apply nth_error_None in Eb. lia.
  - apply nth_error_None in Ea. rewrite (vectors_length V sd t W) in Ea.
    assert (O : forall s : table V, wf s -> tp s = tp t -> tf s = tf t -> cell s i j = None).
    { intros s [Wr [Wc _]] P F. unfold cell. destruct (nth_error (rows s) i) as [r|] eqn:Er; [|reflexivity].
      unfold a in Ea. destruct sd.
      - apply nth_error_lt in Er. simpl in Ea. rewrite Wr, P in Er. lia.
      - apply nth_error_In in Er. apply Wc in Er. apply nth_error_None. simpl in Ea. rewrite Er, F. exact Ea. }
    rewrite (O t' W' Ep Ef), (O t W eq_refl eq_refl). reflexivity.
Qed.

(** the fill functions are conservative *)
Lemma FilledBy_weaken (P R : nat -> V -> Prop) vs m out : (forall i x, P i x -> R i x) -> FilledBy P vs m out -> FilledBy R vs m out.
Proof.
  intros H [A B]. split; [exact A|]. intros i v Hv. specialize (B i v Hv). destruct (nth_error m i) as [[]|]; auto.
  destruct B as [x [H1 H2]]. exists x. auto.
Qed.
Lemma fillConstant_cons c : Conservative (fillConstant (V:=V) c).
Proof. intros vs m out L E. destruct (fillConstant_spec V c vs m L) as [o [E2 F]]. rewrite E in E2. injection E2 as ->. eapply FilledBy_weaken; [|exact F]. auto. Qed.
Lemma forwardFill_cons : Conservative (forwardFill (V:=V)).
Proof.
  intros vs m out L E. pose proof (forwardFill_spec V vs m L) as H. destruct m as [|b m]; [discriminate|]. cbn [nth_error] in H. destruct b.
  - congruence.
  - destruct H as [o [E2 F]]. rewrite E in E2. injection E2 as ->. eapply FilledBy_weaken; [|exact F]. auto.
Qed.
Lemma backwardFill_cons : Conservative (backwardFill (V:=V)).
Proof.
  intros vs m out L E. pose proof (backwardFill_spec V vs m L) as H. destruct (nth_error m (List.length m - 1)) as [[]|] eqn:En.
  - congruence.
  - destruct H as [o [E2 F]]. rewrite E in E2. injection E2 as ->. eapply FilledBy_weaken; [|exact F]. auto.
  - apply nth_error_None in En. destruct m as [|b m]; [discriminate|simpl in En; lia].
Qed.
Lemma fillStat_cons stat : Conservative (fillStat (V:=V) stat).
Proof. intros vs m out L E. eapply FilledBy_weaken; [|exact (fillStat_spec V stat vs m out L E)]. auto. Qed.
End P.
Lemma interpolate_cons : Conservative interpolate.
Proof.
  intros vs m out L E. pose proof (interpolate_spec vs m L) as H. destruct (find negb m); [|congruence].
  destruct H as [o [E2 F]]. rewrite E in E2. injection E2 as ->. eapply FilledBy_weaken; [|exact F]. auto.
Qed.
