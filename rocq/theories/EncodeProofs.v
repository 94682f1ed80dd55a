(** Proofs for the category encodings (C15). *)
From Verif Require Import Base NamesModel NamesSpec NamesProofs NamesIndexProofs TableModel TableSpec TableProofs
  TableOps TableInsertProofs TableOpsProofs TableOps2Proofs TableOps3Proofs TableGroupProofs SparseModel SparseSpec SparseProofs FlatModel FlatSpec FlatProofs PrepModel PrepSpec PrepProofs.
Open Scope list_scope.
Open Scope nat_scope.

Section Map.
Variable V : Type.
Context {EV : EqDec V}.
Variable zero : V.
Definition mInv (l : list V) (st : mapState V) : Prop :=
  let '(m, out, k) := st in
  wfdict m /\ (forall v, In v (dkeys m) <-> In v l) /\ Permutation (map snd m) (seq 0 k) /\
  Forall2 (fun v c => dget v m = Some c) l out /\ (In zero l -> dget zero m = Some 0).

Lemma dget_mapS (m : list (V * nat)) v : dget v (map (fun kv : V * nat => (fst kv, S (snd kv))) m) = option_map S (dget v m).
Proof.
  induction m as [|[a b] m IH]; simpl; auto. destruct (eq_dec v a); auto.
Qed.
Lemma dkeys_mapS (m : list (V * nat)) : dkeys (map (fun kv : V * nat => (fst kv, S (snd kv))) m) = dkeys m.
Proof. unfold dkeys. rewrite map_map. apply map_ext; auto. Qed.

Lemma Forall2_impl_In {A B} (P Q : A -> B -> Prop) l l' : (forall a b, In a l -> P a b -> Q a b) ->
  Forall2 P l l' -> Forall2 Q l l'.
Proof. intros H F. induction F; constructor; auto; try (apply H; simpl; auto; fail). apply IHF. intros; apply H; simpl; auto. Qed.

Lemma mapStep_inv l st v : mInv l st -> mInv (l ++ [v]) (mapStep zero st v).
Proof.
  destruct st as [[m out] k]. intros (W & K & P & F & Z). unfold mapStep.
  destruct (dget v m) as [c|] eqn:E.
  - cbn. split; auto. split.
    { intros x. rewrite K, in_app_iff. simpl. split; [tauto|intros [|[->|[]]]; auto].
      apply K. destruct (in_dec eq_dec x (dkeys m)) as [|N]; auto. apply dget_None in N. congruence. }
    split; auto. split; [apply Forall2_app; auto|].
    rewrite in_app_iff. intros [H|[H|[]]]; auto. apply Z, K. subst v.
    destruct (in_dec eq_dec zero (dkeys m)) as [|N]; auto. apply dget_None in N. congruence.
  - apply dget_None in E. destruct (eqbd v zero) eqn:Ez.
    + apply eqbd_true in Ez; subst v. cbn.
      set (m' := map _ m).
      assert (Km : dkeys m' = dkeys m) by apply dkeys_mapS.
      assert (Wm : wfdict m') by (unfold wfdict; rewrite Km; auto).
      rewrite dset_new by (rewrite Km; auto).
      split; [unfold wfdict, dkeys; rewrite map_app; simpl; idtac|].
      { change (NoDup (dkeys m' ++ [zero])). rewrite Km.
        apply (Permutation_NoDup (l := zero :: dkeys m)); [apply Permutation_cons_append|constructor; auto]. }
      split.
      { intros x. unfold dkeys; rewrite map_app. change (map fst m') with (dkeys m'). rewrite Km, !in_app_iff, K. simpl. tauto. }
      split.
      { rewrite map_app. simpl. apply (Permutation_trans (Permutation_app_comm _ _)). simpl.
        apply perm_skip. unfold m'. rewrite map_map. simpl. rewrite <- (map_map snd S). rewrite <- seq_shift.
        apply Permutation_map; auto. }
      assert (G : forall x c, dget x m = Some c -> dget x (m' ++ [(zero, 0)]) = Some (S c)).
      { intros x c H. assert (H' : dget x m' = Some (S c)) by (unfold m'; rewrite dget_mapS, H; auto).
        rewrite <- dset_new by (rewrite Km; auto). rewrite dget_dset.
        destruct (eq_dec x zero) as [->|]; auto. apply dget_None in E. congruence. }
      assert (G0 : dget zero (m' ++ [(zero, 0)]) = Some 0).
      { rewrite <- dset_new by (rewrite Km; auto). rewrite dget_dset. destruct (eq_dec zero zero); congruence. }
      split; auto.
      apply Forall2_app; [|auto].
      clear -F G. induction F; simpl; constructor; auto.
    + apply eqbd_false in Ez. cbn. rewrite dset_new by auto.
      split. { change (NoDup (map fst (m ++ [(v, k)]))). rewrite map_app.
        apply (Permutation_NoDup (l := v :: dkeys m)); [apply Permutation_cons_append|constructor; auto]. }
      split.
      { intros x. unfold dkeys; rewrite map_app. change (map fst m) with (dkeys m). rewrite !in_app_iff, K. simpl. tauto. }
      split.
      { rewrite map_app. cbn [map snd]. replace (0 :: seq 1 k) with (seq 0 k ++ [k]) by (symmetry; apply (seq_S k 0)).
        apply Permutation_app; auto. }
      assert (G : forall x c, dget x m = Some c -> dget x (m ++ [(v, k)]) = Some c).
      { intros x c H. rewrite <- dset_new by auto. rewrite dget_dset. destruct (eq_dec x v) as [->|]; auto.
        apply dget_None in E. congruence. }
      split.
      { apply Forall2_app; [eapply Forall2_impl_In; [|exact F]; simpl; auto|]. constructor; auto.
        rewrite <- dset_new by auto. rewrite dget_dset. destruct (eq_dec v v); congruence. }
      rewrite in_app_iff. intros [H|[H|[]]]; [auto|congruence].
Qed.
Lemma applyMap_fold l : forall done st, mInv done st -> mInv (done ++ l) (fold_left (mapStep zero) l st).
Proof.
  induction l as [|v l IH]; intros done st H; simpl; [rewrite app_nil_r; auto|].
  replace (done ++ v :: l) with ((done ++ [v]) ++ l) by (rewrite <- app_assoc; auto).
  apply IH, mapStep_inv; auto.
Qed.
Lemma applyMap_spec l :
  let out := fst (applyMap zero l) in let m := snd (applyMap zero l) in
  wfdict m /\ (forall v, In v (dkeys m) <-> In v l) /\ Permutation (map snd m) (seq 0 (List.length m)) /\
  Forall2 (fun v c => dget v m = Some c) l out /\ (In zero l -> dget zero m = Some 0).
Proof.
  cbv zeta. unfold applyMap.
  assert (H : mInv l (fold_left (mapStep zero) l ([], [], 0))).
  { apply (applyMap_fold l [] ([], [], 0)). cbn. repeat split; auto; try constructor; tauto. }
  destruct (fold_left _ l _) as [[m out] k]. cbn in *. destruct H as (A & B & C & D & E0).
  split; auto. split; auto. split; auto.
  assert (k = List.length m) as <-; auto.
  apply Permutation_length in C. rewrite map_length, seq_length in C. auto.
Qed.
End Map.

Section Ints.
Variable V : Type.
Context {EV : EqDec V}.
Variable zero : V.
Variable ofNat : nat -> V.

Lemma swap_dict (m : list (V * nat)) : wfdict m -> NoDup (map snd m) ->
  let d := dict_of (map (fun kv => (snd kv, fst kv)) m) in
  List.length d = List.length m /\ forall c v, dget c d = Some v <-> dget v m = Some c.
Proof.
  intros W N. cbv zeta.
  assert (Hk : map fst (map (fun kv : V * nat => (snd kv, fst kv)) m) = map snd m) by (rewrite map_map; auto).
  rewrite dict_of_nodup by (rewrite Hk; auto). split; [apply map_length|].
  intros c v. rewrite dget_iff_In by (unfold wfdict, dkeys; rewrite Hk; auto).
  rewrite dget_iff_In by auto. rewrite in_map_iff. split.
  - intros [[a b] [E H]]. cbn in E. injection E as <- <-. auto.
  - intros H. exists (v, c). auto.
Qed.
Lemma featureToIntegers_spec (t : table V) feature i : wf t -> 0 < alen (tp t) ->
  Denotes (tf t) false feature (Z.of_nat i) -> i < alen (tf t) ->
  exists t' d (code : V -> nat),
    featureToIntegers zero ofNat t feature = (t', Ok d) /\
    wf t' /\ tp t' = tp t /\ tf t' = tf t /\
    (forall p j, j <> i -> cell t' p j = cell t p j) /\
    (forall p, cell t' p i = option_map (fun v => ofNat (code v)) (cell t p i)) /\
    (forall p q v w, cell t p i = Some v -> cell t q i = Some w -> (code v = code w <-> v = w)) /\
    (forall c, c < List.length d <-> exists p v, cell t p i = Some v /\ code v = c) /\
    (forall p, cell t p i = Some zero -> code zero = 0) /\
    (forall c v, dget c d = Some v <-> exists p, cell t p i = Some v /\ code v = c).
Proof.
  intros W Hp HD Hi. pose proof W as (_ & _ & _ & If).
  pose proof (applyMap_spec V zero (column t i)) as A. cbv zeta in A.
  unfold featureToIntegers. replace (alen (tp t) =? 0) with false by (symmetry; apply Nat.eqb_neq; lia).
  assert (Hg : getIndex (tf t) feature false = Ok (Z.of_nat i)).
  { apply getIndex_Denotes; auto. destruct feature; simpl; auto. destruct HD as [HD _]. discriminate. }
  rewrite Hg, Nat2Z.id.
  set (f := fun ft : list V => Ok (map ofNat (fst (applyMap zero ft)))).
  assert (HL : limitDenotes (ax Fts t) (Some [IdInt (Z.of_nat i)]) (Some [i])).
  { cbn. constructor; [|constructor]. unfold Denotes. lia. }
  assert (Hlen : forall v, List.length (fst (applyMap zero v)) = List.length v).
  { intros v. pose proof (applyMap_spec V zero v) as (_ & _ & _ & F & _). clear -F. induction F; simpl; auto. }
  assert (HA : snd (transform Fts f (Some [IdInt (Z.of_nat i)]) t) = Ok tt).
  { apply (transform_accept V Fts f _ (Some [i]) t); auto; [lia|].
    intros j v Hv _. exists (map ofNat (fst (applyMap zero v))). split; auto. rewrite map_length, Hlen.
    rewrite vectors_Fts_nth in Hv. destruct (j <? alen (tf t)) eqn:Ej; [|discriminate]. injection Hv as <-.
    apply Nat.ltb_lt in Ej. apply column_length_wf; auto. }
  destruct (transform_spec V Fts f _ (Some [i]) t W Hp ltac:(lia) HL) as [HT _]. specialize (HT HA).
  destruct (transform Fts f _ t) as [t' r]. cbn [fst snd] in *. subst r.
  destruct HT as (W' & Etp & Etf & HV). destruct A as (Wm & K & P & F & Z).
  set (m := snd (applyMap zero (column t i))) in *. set (out := fst (applyMap zero (column t i))) in *.
  exists t', (dict_of (map (fun kv : V * nat => (snd kv, fst kv)) m)),
    (fun v => match dget v m with Some c => c | None => 0 end).
  assert (Nm : NoDup (map snd m)) by (eapply Permutation_NoDup; [apply Permutation_sym; eauto|apply seq_NoDup]).
  destruct (swap_dict m Wm Nm) as [Sl Sd].
  assert (Hcol : forall p, nth_error (column t i) p = cell t p i) by (intros; apply column_nth_wf; auto).
  assert (Hget : forall p v, cell t p i = Some v -> exists c, dget v m = Some c).
  { intros p v H. rewrite <- Hcol in H. apply nth_error_In in H. apply K in H.
    destruct (dget v m) eqn:E; eauto. apply dget_None in E. tauto. }
  assert (Hinj : forall v w c, dget v m = Some c -> dget w m = Some c -> v = w).
  { intros v w c H1 H2. apply Sd in H1. apply Sd in H2. congruence. }
  assert (Hin : forall v c, dget v m = Some c -> exists p, cell t p i = Some v).
  { intros v c H. apply dget_In in H. assert (H' : In v (column t i)) by (apply K, in_map_iff; exists (v, c); auto).
    apply In_nth_error in H'. destruct H' as [p H']. exists p. rewrite <- Hcol; auto. }
  split; [reflexivity|]. split; auto. split; auto. split; auto.
  split.
  { intros p j Hj. destruct (lt_dec j (alen (tf t))) as [Hjl|Hjl].
    - destruct (HV j (column t j)) as [_ H2]; [rewrite vectors_Fts_nth; apply Nat.ltb_lt in Hjl; rewrite Hjl; auto|].
      rewrite !cell_F by auto. rewrite H2 by (right; cbn; intuition).
      rewrite vectors_Fts_nth. apply Nat.ltb_lt in Hjl. rewrite Hjl. auto.
    - rewrite !cell_F by auto. rewrite !vectors_Fts_nth. rewrite Etf. apply Nat.ltb_nlt in Hjl. rewrite Hjl. auto. }
  split.
  { intros p. destruct (HV i (column t i)) as [H1 _]; [rewrite vectors_Fts_nth; pose proof Hi as Hi'; apply Nat.ltb_lt in Hi'; rewrite Hi'; auto|].
    destruct (H1 Hi) as (w & Hw & _ & Hn); [cbn; auto|]. unfold f in Hw. injection Hw as <-. fold out in Hn.
    rewrite cell_F by auto. rewrite Hn. rewrite <- Hcol. rewrite nth_error_map_eq.
    clear -F. clearbody m out. revert p. induction F as [|x c xs cs H1 F IH]; intros [|p]; cbn [nth_error option_map]; auto.
    rewrite H1. auto. }
  split.
  { intros p q v w H1 H2. destruct (Hget _ _ H1) as [c1 E1]. destruct (Hget _ _ H2) as [c2 E2].
    rewrite E1, E2. split; [intros <-; eauto|intros <-; congruence]. }
  assert (Hd : forall c v, dget v m = Some c <-> exists p, cell t p i = Some v /\ match dget v m with Some c => c | None => 0 end = c).
  { intros c v. split.
    - intros H. destruct (Hin _ _ H) as [p Hp']. exists p. rewrite H. auto.
    - intros [p [H1 H2]]. destruct (Hget _ _ H1) as [c1 E1]. rewrite E1 in *. congruence. }
  split.
  { intros c. rewrite Sl. split.
    - intros Hc. assert (H : In c (map snd m)) by (eapply Permutation_in; [apply Permutation_sym; eauto|apply in_seq; lia]).
      apply in_map_iff in H. destruct H as [[v c'] [E H]]. cbn in E; subst c'. apply In_dget in H; auto.
      apply Hd in H. destruct H as [p H]. exists p, v. auto.
    - intros (p & v & H1 & H2). assert (H : dget v m = Some c) by (apply Hd; eauto).
      apply dget_In in H. apply (in_map snd) in H. cbn in H. eapply Permutation_in in H; eauto. apply in_seq in H. lia. }
  split.
  { intros p H. rewrite Z; auto. rewrite <- Hcol in H. eapply nth_error_In; eauto. }
  intros c v. rewrite Sd. apply Hd.
Qed.
End Ints.

Lemma initAxis_inv n l a : initAxis n (Some l) = Ok a -> alen a = n /\ Inv a /\ getNames a = l.
Proof.
  unfold initAxis. destruct (Nat.eqb_spec (List.length l) n) as [Hl|]; cbn [negb]; [|discriminate].
  pose proof (setNames_list_Inv (mkAxis n None) (map to_newname l) I) as C.
  pose proof (setNames_list_len (mkAxis n None) (map to_newname l)) as D.
  pose proof (setNames_list_reject (mkAxis n None) (map to_newname l)) as R.
  destruct (setNames _ _ _) as [a' [[]|]] eqn:E; [|discriminate]. cbn [fst snd] in *. intros [= <-].
  destruct (R eq_refl) as [R1 R2].
  destruct (setNames_list_accept (mkAxis n None) (map to_newname l) R1 R2) as [_ B].
  rewrite E in B. cbn [fst] in B. rewrite newname_opt_to in B. auto.
Qed.

Lemma without_one n i : i < n -> without n [i] = seq 0 i ++ seq (S i) (n - S i).
Proof.
  intros Hi. unfold without. replace n with (i + (1 + (n - S i))) at 1 by lia.
  rewrite !seq_app, !filter_app. cbn [seq filter plus].
  assert (G : forall a k, (a + k <= i \/ i < a) -> filter (fun j => negb (mem j [i])) (seq a k) = seq a k).
  { intros a k. revert a. induction k as [|k IH]; intros a H; simpl; auto.
    destruct (eq_dec a i); [lia|]. cbn. f_equal. apply IH. lia. }
  rewrite !G by lia. replace (mem i [i]) with true by (symmetry; apply mem_In; simpl; auto). cbn [negb app].
  replace (i + 1) with (S i) by lia. auto.
Qed.
Lemma selected_range {A} (l : list A) a k : a + k <= List.length l ->
  selected (seq a k) l = firstn k (skipn a l).
Proof.
  intros H. apply nth_error_ext. intros j.
  rewrite selected_nth by (intros i Hi; apply in_seq in Hi; lia).
  rewrite nth_error_seq, nth_error_firstn. destruct (j <? k) eqn:E; auto. rewrite nth_error_skipn. auto.
Qed.
Lemma selected_app {A} i j (l : list A) : selected (i ++ j) l = selected i l ++ selected j l.
Proof. unfold selected. apply flat_map_app. Qed.
Lemma selected_without {A} (l : list A) i : i < List.length l ->
  selected (without (List.length l) [i]) l = firstn i l ++ skipn (S i) l.
Proof.
  intros Hi. rewrite without_one by auto. rewrite selected_app, !selected_range by lia.
  change (skipn 0 l) with l. f_equal. apply firstn_all2. rewrite skipn_length. lia.
Qed.

Section Bin.
Variable V : Type.
Context {EV : EqDec V}.
Variables zero one : V.
Implicit Types t : table V.

Lemma subTable_items_F t t' idx : wf t -> (forall i, In i idx -> i < alen (tf t)) ->
  subTable t (seq 0 (alen (tp t))) idx t' -> items Fts t' = selected idx (items Fts t).
Proof.
  intros W R (W' & Lp & Lf & Np & Nf & C). rewrite seq_length in Lp.
  apply nth_error_ext. intros j. rewrite selected_nth by (intros; rewrite items_length; auto).
  rewrite items_nth by auto. cbn [ax]. rewrite Nf.
  rewrite selected_nth by (intros i Hi; rewrite getNames_length; [auto|apply W]).
  rewrite vectors_Fts_nth, Lf.
  destruct (nth_error idx j) as [i|] eqn:E.
  - assert (Hi : i < alen (tf t)) by (apply R; eapply nth_error_In; eauto).
    assert (Hj : j < List.length idx) by (eapply nth_error_lt; eauto).
    rewrite items_nth by auto. cbn [ax]. rewrite vectors_Fts_nth.
    apply Nat.ltb_lt in Hj as Hj'. rewrite Hj'. apply Nat.ltb_lt in Hi as Hi'. rewrite Hi'.
    replace (column t' j) with (column t i); auto.
    apply nth_error_ext. intros p. rewrite !column_nth_wf by (auto; lia). rewrite C, E, nth_error_seq.
    destruct (p <? alen (tp t)) eqn:Ep; cbn [plus]; auto.
    unfold cell. rewrite (proj2 (nth_error_None (rows t) p)); auto.
    apply Nat.ltb_ge in Ep. rewrite (proj1 W). auto.
  - auto.
Qed.

Lemma dedup_spec (l : list V) : forall seen, NoDup (dedup seen l) /\
  forall v, In v (dedup seen l) <-> In v l /\ ~ In v seen.
Proof.
  induction l as [|x l IH]; intros seen; cbn [dedup].
  - split; [constructor|simpl; tauto].
  - destruct (mem x seen) eqn:E.
    + apply mem_In in E. destruct (IH seen) as [A B]. split; auto. intros v. rewrite B. simpl.
      split; [tauto|]. intros [[->|] ?]; tauto.
    + apply mem_not_In in E. destruct (IH (x :: seen)) as [A B]. split.
      * constructor; auto. rewrite B. simpl. tauto.
      * intros v. simpl. rewrite B. simpl. destruct (eq_dec x v) as [->|]; intuition.
Qed.

Definition indicator (uniq : list V) (v : V) : list V := map (fun u => if eqbd v u then one else zero) uniq.
Lemma upd_indicator uniq v k : NoDup uniq -> nth_error uniq k = Some v ->
  upd (repeat zero (List.length uniq)) k one = indicator uniq v.
Proof.
  intros N Hk. apply nth_error_ext. intros j. unfold indicator. rewrite nth_error_upd, repeat_length, nth_error_map_eq.
  pose proof (nth_error_lt _ _ Hk) as Hl. destruct (Nat.eq_dec k j) as [<-|Hj].
  - rewrite Hk. apply Nat.ltb_lt in Hl. rewrite Hl. cbn. rewrite eqbd_refl. auto.
  - destruct (nth_error uniq j) as [u|] eqn:E; cbn.
    + rewrite nth_error_repeat by (eapply nth_error_lt; eauto).
      destruct (eqbd v u) eqn:Eq; auto. apply eqbd_true in Eq. subst u. exfalso. apply Hj. eapply NoDup_nth_error_inj; eauto.
    + apply nth_error_None in E. rewrite (proj2 (nth_error_None _ _)); auto. rewrite repeat_length. auto.
Qed.
Lemma uniqueIdx_get (uniq : list V) v k : NoDup uniq ->
  (dget v (dict_of (combine uniq (seq 0 (List.length uniq)))) = Some k <-> nth_error uniq k = Some v).
Proof.
  intros N.
  assert (Hf : map fst (combine uniq (seq 0 (List.length uniq))) = uniq) by (apply map_fst_combine_eq; rewrite seq_length; auto).
  rewrite dict_of_nodup by (rewrite Hf; auto). rewrite dget_iff_In by (unfold wfdict, dkeys; rewrite Hf; auto).
  split.
  - intros H. apply In_nth_error in H. destruct H as [j H]. rewrite nth_error_combine, nth_error_seq in H.
    destruct (nth_error uniq j) eqn:E; [|discriminate]. destruct (j <? _); [|discriminate]. injection H as -> <-. auto.
  - intros H. apply nth_error_In with (n := k). rewrite nth_error_combine, H, nth_error_seq.
    apply nth_error_lt in H. apply Nat.ltb_lt in H. rewrite H. auto.
Qed.
Lemma binaryRows_ok uniq col : NoDup uniq -> (forall v, In v col -> In v uniq) ->
  binaryRows zero one uniq col = Ok (map (indicator uniq) col).
Proof.
  intros N H. unfold binaryRows. cbv zeta. apply rmapM_map_ok. intros v Hv.
  apply H, In_nth_error in Hv. destruct Hv as [k Hk]. pose proof Hk as Hg. apply uniqueIdx_get in Hg; auto. rewrite Hg.
  f_equal. apply upd_indicator; auto.
Qed.

Variable arrange : list V -> list V.
Hypothesis arrange_perm : forall l, Permutation (arrange l) l.
Lemma uniqueVals_spec col : NoDup (uniqueVals arrange col) /\ forall v, In v (uniqueVals arrange col) <-> In v col.
Proof.
  unfold uniqueVals. destruct (dedup_spec col []) as [A B]. split.
  - eapply Permutation_NoDup; [apply Permutation_sym, arrange_perm|auto].
  - intros v. split; intros H.
    + eapply Permutation_in in H; [|apply arrange_perm]. apply B in H. tauto.
    + eapply Permutation_in; [apply Permutation_sym, arrange_perm|]. apply B. simpl; tauto.
Qed.
Variable str : V -> string.
Variable dec : nat -> string.

Lemma vectors_indicator (pa fa : axis) uniq col :
  alen fa = List.length uniq ->
  vectors Fts (mkTable pa fa (map (indicator uniq) col)) =
  map (fun u => map (fun v => if eqbd v u then one else zero) col) uniq.
Proof.
  intros Hf. apply nth_error_ext. intros j. rewrite vectors_Fts_nth. cbn [tf]. rewrite Hf.
  rewrite nth_error_map_eq. destruct (j <? List.length uniq) eqn:E.
  - apply Nat.ltb_lt in E. destruct (nth_error_is_some uniq E) as [u Hu]. rewrite Hu. cbn [option_map]. f_equal.
    unfold column. cbn [rows]. clear Hf. induction col as [|v col IH]; cbn [map flat_map]; auto.
    unfold indicator at 1. rewrite nth_error_map_eq, Hu. cbn [option_map app]. f_equal. apply IH.
  - apply Nat.ltb_ge in E. rewrite (proj2 (nth_error_None _ _)) by auto. auto.
Qed.
Lemma replaceWithBinary_spec t feature i t' names : wf t ->
  Denotes (tf t) false feature (Z.of_nat i) -> i < alen (tf t) ->
  replaceWithBinary zero one arrange str dec t feature = (t', Ok names) ->
  exists uniq prefix,
    NoDup uniq /\ (forall v, In v uniq <-> exists p, cell t p i = Some v) /\
    prefix = match nth_error (getNames (tf t)) i with Some (Some s) => s | _ => dec i end /\
    names = map (fun v => (prefix ++ "=" ++ str v)%string) uniq /\
    wf t' /\ alen (tp t') = alen (tp t) /\ getNames (tp t') = getNames (tp t) /\
    items Fts t' = firstn i (items Fts t) ++
      combine (map Some names) (map (fun u => map (fun v => if eqbd v u then one else zero) (column t i)) uniq) ++
      skipn (S i) (items Fts t).
Proof.
  intros W HD Hi H. pose proof W as (_ & _ & Ip & If). unfold replaceWithBinary in H.
  destruct (alen (tp t) =? 0) eqn:Ep; [discriminate|].
  assert (Hg : getIndex (tf t) feature false = Ok (Z.of_nat i)).
  { apply getIndex_Denotes; auto. destruct feature; simpl; auto. destruct HD as [HD _]. discriminate. }
  rewrite Hg in H. rewrite Nat2Z.id in H.
  destruct (extractIds_F V t [IdInt (Z.of_nat i)] [i] W) as (rest & replaced & Ee & Sret & Srest).
  { apply (constructIndices_int (tf t) [i]). intros j [<-|[]]; auto. }
  { constructor; [simpl; tauto|constructor]. }
  rewrite Ee in H.
  assert (Hcol : column replaced 0 = column t i).
  { destruct Sret as (W1 & L1 & L2 & _ & _ & C1). cbn in L2. apply nth_error_ext. intros p.
    rewrite !column_nth_wf by (auto; lia). rewrite C1, nth_error_seq. cbn [nth_error].
    destruct (p <? alen (tp t)) eqn:Ep'; cbn [plus]; auto.
    unfold cell. rewrite (proj2 (nth_error_None (rows t) p)); auto. apply Nat.ltb_ge in Ep'. rewrite (proj1 W). auto. }
  rewrite Hcol in H. cbv zeta in H.
  destruct (uniqueVals_spec (column t i)) as [Nu Iu]. set (uniq := uniqueVals arrange (column t i)) in *.
  rewrite binaryRows_ok in H by (auto; intros; apply Iu; auto). cbn [rbind] in H.
  pose proof Sret as (Wret & _ & Lret & _ & Nret & _). cbn [List.length] in Lret.
  pose proof Srest as (Wrest & Lp & Lf & Np & Nf & _). rewrite seq_length in Lp.
  destruct (copyAxis_ok (tp rest)) as (pa & Epa & Lpa & Ipa & Npa); [apply Wrest|].
  rewrite Epa in H. cbn [rbind] in H.
  set (pf := if namesCreated (tf replaced) then _ else _) in H.
  destruct pf as [prefix|] eqn:Epf; [|discriminate]. cbn [rbind] in H.
  set (nm := map (fun v => (prefix ++ "=" ++ str v)%string) uniq) in *.
  destruct (initAxis (List.length uniq) (Some (map Some nm))) as [fa|] eqn:Efa; [|discriminate]. cbn [rbind] in H.
  apply initAxis_inv in Efa. destruct Efa as (Lfa & Ifa & Nfa).
  set (o := mkTable pa fa (map (indicator uniq) (column t i))) in *.
  match type of H with context [insertTable Fts rest ?b o] => set (before := b) in *; destruct (insertTable Fts rest before o) as [t2|] eqn:Ei end; [|discriminate].
  cbn [rbind] in H. injection H as <- <-.
  assert (Wo : wf o).
  { split; [|split; [|split; auto]]; unfold o; cbn [rows tp tf].
    - rewrite map_length, Lpa, Lp. apply column_length_wf; auto.
    - intros r Hr. apply in_map_iff in Hr. destruct Hr as [v [<- _]]. unfold indicator. rewrite map_length. auto. }
  destruct (insert_spec V Fts rest before o t2 Wrest Wo Ei) as (b & o' & Hpos & Hb & Al & W2 & O2 & L2 & I2).
  destruct Al as (_ & _ & _ & _ & Al). destruct Al as [->|[Hne _]]; [|exfalso; apply Hne; cbn [offax]; unfold o; cbn [tp]; auto].
  assert (Hlrest : alen (tf rest) = alen (tf t) - 1).
  { rewrite Lf. rewrite without_one by auto. rewrite app_length, !seq_length. lia. }
  assert (Hbi : b = i).
  { unfold before in Hpos. cbn [ax] in *. destruct (Nat.eqb_spec (alen (tf rest)) 0) as [E0|E0]; cbn [InsertPos] in Hpos; [lia|].
    destruct Hpos as [[Hz ->]|HD2]; [injection Hz as Hz; lia|]. unfold Denotes in HD2. lia. }
  subst b.
  exists uniq, prefix. split; auto. split.
  { intros v. rewrite Iu. split.
    - intros Hv. apply In_nth_error in Hv. destruct Hv as [p Hv]. exists p. rewrite <- column_nth_wf; auto.
    - intros [p Hv]. rewrite <- column_nth_wf in Hv by auto. eapply nth_error_In; eauto. }
  split.
  { destruct (nth_error_is_some (getNames (tf t)) (i := i)) as [o0 Ho]; [rewrite getNames_length; auto|].
    assert (Hr0 : getNames (tf replaced) = [o0]) by (rewrite Nret; cbn; rewrite Ho; auto).
    unfold pf in Epf. rewrite Hr0 in Epf. cbn [nth] in Epf. destruct (namesCreated (tf replaced)) eqn:Ec.
    - rewrite Ho. destruct o0; [injection Epf as ->; auto|discriminate].
    - rewrite names_all_default, Lret in Hr0 by (auto; apply Wret). cbn in Hr0. injection Hr0 as <-.
      rewrite Ho. injection Epf as <-. auto. }
  split; auto. split; auto. cbn [offax] in O2. rewrite O2. split; [cbn [offax]; auto|]. split; [cbn [offax]; rewrite Np; apply selected_seq; apply getNames_length; auto|].
  rewrite I2. rewrite (subTable_items_F t rest (without (alen (tf t)) [i]) W); [|intros j Hj; eapply without_range; eauto|auto].
  replace (alen (tf t)) with (List.length (items Fts t)) by (rewrite items_length; auto).
  rewrite selected_without by (rewrite items_length; auto).
  assert (Lfi : List.length (firstn i (items Fts t)) = i) by (rewrite firstn_length, items_length by auto; cbn [ax]; lia).
  rewrite firstn_app, skipn_app, Lfi, Nat.sub_diag. rewrite firstn_firstn, Nat.min_id. cbn [firstn].
  rewrite app_nil_r. rewrite skipn_all2 by lia. cbn [app]. change (skipn 0 ?x) with x.
  f_equal. f_equal. unfold items. cbn [ax]. unfold o. cbn [tf]. rewrite Nfa. f_equal. apply vectors_indicator; auto.
Qed.
End Bin.

Section OneHot.
Variable V : Type.
Context {EV : EqDec V}.
Variables zero one : V.
Hypothesis zero_one : zero <> one.
Variable arrange : list V -> list V.
Hypothesis arrange_perm : forall l, Permutation (arrange l) l.
Variable str : V -> string.
Variable dec : nat -> string.
Lemma cell_items (t : table V) p j : wf t ->
  cell t p j = match nth_error (items Fts t) j with Some (_, v) => nth_error v p | None => None end.
Proof.
  intros W. rewrite cell_F by auto. rewrite items_nth by auto. cbn [ax].
  rewrite vectors_Fts_nth. destruct (j <? alen (tf t)) eqn:E.
  - apply Nat.ltb_lt in E. destruct (nth_error_is_some (getNames (tf t)) (i := j)) as [x ->]; auto.
    rewrite getNames_length; auto. apply W.
  - destruct (nth_error (getNames (tf t)) j); auto.
Qed.
Lemma oneHot_spec (t : table V) feature i t' names : wf t ->
  Denotes (tf t) false feature (Z.of_nat i) -> i < alen (tf t) ->
  replaceWithBinary zero one arrange str dec t feature = (t', Ok names) ->
  alen (tf t') + 1 = alen (tf t) + List.length names /\
  (forall p v, cell t p i = Some v -> exists q, q < List.length names /\
     (forall q', q' < List.length names -> cell t' p (i + q') = Some (if q' =? q then one else zero)) /\
     (forall p' w, cell t p' i = Some w -> (cell t' p' (i + q) = Some one <-> w = v))) /\
  (forall p j, j < i -> cell t' p j = cell t p j) /\
  (forall p j, i < j -> cell t' p (j + List.length names - 1) = cell t p j).
Proof.
  intros W HD Hi H.
  destruct (replaceWithBinary_spec V zero one arrange arrange_perm str dec t feature i t' names W HD Hi H)
    as (uniq & prefix & Nu & Iu & Hpf & Hnm & W' & Lp & Np & It).
  assert (Ln : List.length names = List.length uniq) by (rewrite Hnm, map_length; auto).
  set (mid := combine (map Some names) (map (fun u => map (fun v => if eqbd v u then one else zero) (column t i)) uniq)) in *.
  assert (Lm : List.length mid = List.length uniq) by (unfold mid; rewrite combine_length, !map_length; lia).
  assert (Lfi : List.length (firstn i (items Fts t)) = i) by (rewrite firstn_length, items_length by auto; cbn [ax]; lia).
  split.
  { pose proof (items_length V Fts t' W') as L'. cbn [ax] in L'. rewrite <- L', It, !app_length, Lfi, Lm, skipn_length, items_length by auto.
    cbn [ax]. lia. }
  assert (Hmid : forall p q, q < List.length uniq -> cell t' p (i + q) =
    match nth_error uniq q, cell t p i with Some u, Some v => Some (if eqbd v u then one else zero) | _, _ => None end).
  { intros p q Hq. rewrite cell_items by auto. rewrite It.
    rewrite nth_error_app. replace (i + q <? _) with false by (symmetry; apply Nat.ltb_ge; lia). rewrite Lfi.
    replace (i + q - i) with q by lia. rewrite nth_error_app. replace (q <? _) with true by (symmetry; apply Nat.ltb_lt; lia).
    unfold mid. rewrite nth_error_combine, !nth_error_map_eq.
    destruct (nth_error_is_some uniq Hq) as [u Hu]. destruct (nth_error_is_some names (i := q)) as [n Hn]; [lia|].
    rewrite Hu, Hn. cbn [option_map]. rewrite nth_error_map_eq, column_nth_wf by auto.
    destruct (cell t p i); auto. }
  split.
  { intros p v Hv. assert (Hin : In v uniq) by (apply Iu; eauto). apply In_nth_error in Hin. destruct Hin as [q Hq].
    exists q. pose proof (nth_error_lt _ _ Hq) as Hql. split; [lia|]. split.
    - intros q' Hq'. rewrite Hmid by lia. rewrite Hv. destruct (Nat.eqb_spec q' q) as [->|Hne].
      + rewrite Hq, eqbd_refl. auto.
      + destruct (nth_error_is_some uniq (i := q')) as [u Hu]; [lia|]. rewrite Hu.
        destruct (eqbd v u) eqn:E; auto. apply eqbd_true in E; subst u. exfalso; apply Hne. eapply NoDup_nth_error_inj; eauto.
    - intros p' w Hw. rewrite Hmid, Hw, Hq by lia. destruct (eqbd w v) eqn:E.
      + apply eqbd_true in E. tauto.
      + apply eqbd_false in E. split; [intros [= G]; congruence|congruence]. }
  split.
  - intros p j Hj. rewrite !cell_items by auto. rewrite It, nth_error_app.
    replace (j <? _) with true by (symmetry; apply Nat.ltb_lt; lia). rewrite nth_error_firstn.
    replace (j <? i) with true by (symmetry; apply Nat.ltb_lt; lia). auto.
  - intros p j Hj. rewrite !cell_items by auto. rewrite It, nth_error_app.
    replace (j + List.length names - 1 <? _) with false by (symmetry; apply Nat.ltb_ge; lia). rewrite nth_error_app.
    replace (j + _ - 1 - _ <? _) with false by (symmetry; apply Nat.ltb_ge; lia). rewrite nth_error_skipn.
    replace (S i + _) with j by lia. auto.
Qed.
End OneHot.

Section SparseBin.
Variable V : Type.
Context {EV : EqDec V}.
Variable zero : V.
Variable arrange : list V -> list V.
Hypothesis arrange_perm : forall l, Permutation (arrange l) l.
Lemma sparseUnique_spec (s : sparse V) : entsOK zero s -> snf s = 1 ->
  NoDup (sparseUnique zero arrange s) /\
  forall v, In v (sparseUnique zero arrange s) <-> exists p, p < snp s /\ val zero s p 0 = v.
Proof.
  intros [N R] H1. destruct (uniqueVals_spec V arrange arrange_perm (map ev (ents s))) as [Nu Iu].
  unfold sparseUnique. set (u := uniqueVals arrange (map ev (ents s))) in *.
  assert (Hz : ~ In zero u).
  { intros H. apply Iu, in_map_iff in H. destruct H as [e [E H]]. apply R in H. tauto. }
  assert (Hpos : forall e, In e (ents s) -> val zero s (er e) 0 = ev e).
  { intros e He. apply val_In; auto. destruct (R e He) as (_ & Hc & _). destruct e as [a b w]; cbn in *. replace 0 with b by lia. auto. }
  assert (Hcnt : List.length (ents s) < snp s * snf s <-> exists p, p < snp s /\ val zero s p 0 = zero).
  { rewrite H1, Nat.mul_1_r.
    assert (Nr : NoDup (map er (ents s))).
    { clear -N R H1. induction (ents s) as [|e l IH]; cbn in *; constructor.
      - inversion N as [|x xs Hx Hn]; subst. intros Hin. apply Hx. apply in_map_iff in Hin. destruct Hin as [e' [E He']].
        apply in_map_iff. exists e'. split; auto. unfold pos. rewrite E. f_equal.
        pose proof (R e' (or_intror He')). pose proof (R e (or_introl eq_refl)). lia.
      - inversion N; subst. apply IH; auto. }
    split.
    - intros Hl. destruct (find (fun p => negb (mem p (map er (ents s)))) (seq 0 (snp s))) as [p|] eqn:E.
      + apply find_some in E. destruct E as [Hp E]. apply in_seq in Hp. exists p. split; [lia|].
        apply negb_true_iff, mem_not_In in E. destruct (eq_dec (val zero s p 0) zero) as [|Hne]; auto.
        exfalso. apply E. pose proof (val_nonzero V zero s p 0 _ eq_refl Hne) as Hne'.
        apply in_map_iff. exists (mkE p 0 (val zero s p 0)). auto.
      + exfalso. assert (Hincl : incl (seq 0 (snp s)) (map er (ents s))).
        { intros p Hp. apply (find_none _ _ E) in Hp. apply negb_false_iff, mem_In in Hp. auto. }
        apply NoDup_incl_length in Hincl; [|apply seq_NoDup]. rewrite seq_length, map_length in Hincl. lia.
    - intros [p [Hp Hv]].
      assert (Hincl : incl (p :: map er (ents s)) (seq 0 (snp s))).
      { intros x [<-|Hx]; [apply in_seq; lia|]. apply in_map_iff in Hx. destruct Hx as [e [<- He]]. apply in_seq.
        pose proof (R e He). lia. }
      apply NoDup_incl_length in Hincl.
      + cbn in Hincl. rewrite map_length, seq_length in Hincl. lia.
      + constructor; auto. intros Hx. apply in_map_iff in Hx. destruct Hx as [e [<- He]].
        rewrite (Hpos e He) in Hv. apply (R e He). auto. }
  destruct (List.length (ents s) <? snp s * snf s) eqn:E.
  - apply Nat.ltb_lt in E. apply Hcnt in E. split.
    + apply (Permutation_NoDup (l := zero :: u)); [apply Permutation_cons_append|constructor; auto].
    + intros v. rewrite in_app_iff, Iu. split.
      * intros [H|[<-|[]]]; auto. apply in_map_iff in H. destruct H as [e [<- He]]. exists (er e). split; [apply (R e He)|auto].
      * intros [p [Hp <-]]. destruct (eq_dec (val zero s p 0) zero) as [Hv|Hv]; [right; left; auto|left].
        pose proof (val_nonzero V zero s p 0 _ eq_refl Hv) as Hv'. apply in_map_iff. eexists; split; [|exact Hv']. auto.
  - rewrite app_nil_r. split; auto. intros v. rewrite Iu. split.
    + intros H. apply in_map_iff in H. destruct H as [e [<- He]]. exists (er e). split; [apply (R e He)|auto].
    + intros [p [Hp <-]]. destruct (eq_dec (val zero s p 0) zero) as [Hv|Hv].
      * exfalso. apply Nat.ltb_ge in E. enough (List.length (ents s) < snp s * snf s) by lia. apply Hcnt. eauto.
      * pose proof (val_nonzero V zero s p 0 _ eq_refl Hv) as Hv'. apply in_map_iff. eexists; split; [|exact Hv']. auto.
Qed.

Lemma sparseBinary_spec (s : sparse V) : entsOK zero s -> snf s = 1 ->
  exists s', sparseBinary zero arrange s = Ok s' /\ snp s' = snp s /\ snf s' = List.length (sparseUnique zero arrange s) /\
  forall p q u, p < snp s -> nth_error (sparseUnique zero arrange s) q = Some u ->
    val 0 s' p q = if eqbd u zero then 0 else if eqbd (val zero s p 0) u then 1 else 0.
Proof.
  intros Hok H1. destruct (sparseUnique_spec s Hok H1) as [Nu Iu]. destruct Hok as [N R].
  unfold sparseBinary. cbv zeta. set (uniq := sparseUnique zero arrange s) in *.
  set (code := fun v => match dget v (dict_of (combine uniq (seq 0 (List.length uniq)))) with Some k => k | None => 0 end).
  assert (Hpos : forall e, In e (ents s) -> val zero s (er e) 0 = ev e).
  { intros e He. apply val_In; auto. destruct (R e He) as (_ & Hc & _). destruct e as [a b w]; cbn in *. replace 0 with b by lia. auto. }
  assert (Hc : forall e, In e (ents s) -> nth_error uniq (code (ev e)) = Some (ev e) /\
     dget (ev e) (dict_of (combine uniq (seq 0 (List.length uniq)))) = Some (code (ev e))).
  { intros e He. assert (Hin : In (ev e) uniq) by (apply Iu; exists (er e); split; [apply (R e He)|auto]).
    apply In_nth_error in Hin. destruct Hin as [k Hk]. unfold code.
    pose proof Hk as Hg. apply (uniqueIdx_get V uniq (ev e) k Nu) in Hg. rewrite Hg. auto. }
  rewrite (rmapM_map_ok _ (fun e => mkE (er e) (code (ev e)) 1)) by (intros e He; rewrite (proj2 (Hc e He)); auto).
  cbn [rbind]. eexists. split; [reflexivity|]. cbn [snp snf]. split; auto. split; auto.
  intros p q u Hp Hq. unfold val at 1. cbn [ents].
  destruct (find _ (map _ (ents s))) as [e|] eqn:E.
  - apply find_some in E. destruct E as [Hin E]. apply in_map_iff in Hin. destruct Hin as [e0 [<- He0]].
    cbn [er ec ev] in *. apply andb_true_iff in E. destruct E as [E1 E2]. apply Nat.eqb_eq in E1, E2.
    destruct (Hc e0 He0) as [Hn _]. rewrite E2, Hq in Hn. injection Hn as ->. rewrite <- E1, (Hpos e0 He0), eqbd_refl.
    replace (eqbd (ev e0) zero) with false; auto. symmetry. apply eqbd_neq. apply (R e0 He0).
  - destruct (eqbd u zero) eqn:Eu; auto. apply eqbd_false in Eu.
    destruct (eqbd (val zero s p 0) u) eqn:Ev; auto. apply eqbd_true in Ev.
    exfalso. pose proof (val_nonzero V zero s p 0 u Ev Eu) as He.
    pose proof (find_none _ _ E (mkE p (code u) 1)) as G. cbn [er ec] in G. rewrite Nat.eqb_refl in G.
    destruct (Hc _ He) as [Hn _]. cbn [ev] in Hn. assert (code u = q) by (eapply NoDup_nth_error_inj; eauto).
    rewrite H, Nat.eqb_refl in G. cbn in G. discriminate G. rewrite <- H. apply in_map_iff. exists (mkE p 0 u). auto.
Qed.
End SparseBin.
