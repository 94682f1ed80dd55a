From Verif Require Import Base NamesModel NamesSpec NamesProofs NamesIndexProofs
  TableModel TableSpec TableProofs TablePermProofs TableOps TableSortProofs.

(** ** name predicates *)
Lemma names_in_dict a s i : Inv a ->
  nth_error (getNames a) i = Some (Some s) <-> dget s (names_dict a) = Some i.
Proof.
  intros Ha. destruct (Inv_facts a Ha) as [_ [_ Hb]].
  unfold getNames; rewrite names_inv_ensure. symmetry; apply Hb.
Qed.
Lemma anyDefault_false a : Inv a -> anyDefaultNames a = false -> fullyNamed a.
Proof.
  intros Ha H. destruct (Inv_facts a Ha) as [Hl [Hw Hb]].
  unfold anyDefaultNames in H. apply orb_false_iff in H; destruct H as [Hc Hlen].
  apply Nat.ltb_ge in Hlen.
  assert (HN : NoDup (map snd (names_dict a))).
  { apply NoDup_nth_error. intros i j Hi Hij. rewrite map_length in Hi.
    rewrite !nth_error_map_eq in Hij.
    destruct (nth_error_is_some (names_dict a) (i := i) Hi) as [[s p] Hs].
    rewrite Hs in Hij. simpl in Hij.
    destruct (nth_error (names_dict a) j) as [[s' p']|] eqn:Hj; simpl in Hij; [|discriminate].
    injection Hij as <-.
    pose proof (In_dget s p Hw (nth_error_In _ _ Hs)) as G1.
    pose proof (In_dget s' p Hw (nth_error_In _ _ Hj)) as G2.
    apply Hb in G1; apply Hb in G2. assert (s = s') by congruence. subst s'.
    eapply NoDup_nth_error_inj with (l := map fst (names_dict a)).
    - exact Hw.
    - rewrite nth_error_map_eq, Hs; reflexivity.
    - rewrite nth_error_map_eq, Hj; reflexivity. }
  assert (HR : forall p, In p (map snd (names_dict a)) -> p < alen a).
  { intros p Hp. apply in_map_iff in Hp; destruct Hp as [[s q] [<- Hin]]. simpl.
    apply (In_dget _ _ Hw) in Hin. apply Hb in Hin. apply nth_error_lt in Hin. congruence. }
  intros i Hi.
  assert (Hin : In i (map snd (names_dict a))).
  { assert (HP : Permutation (map snd (names_dict a)) (seq 0 (alen a))).
    { apply NoDup_Permutation_bis; auto.
      - rewrite seq_length, map_length; auto.
      - intros x Hx; apply in_seq; apply HR in Hx; lia. }
    eapply Permutation_in; [apply Permutation_sym; eauto|]. apply in_seq; lia. }
  apply in_map_iff in Hin; destruct Hin as [[s q] [E Hin]]; simpl in E; subst q.
  exists s. apply names_in_dict; auto. apply In_dget; auto.
Qed.
Lemma fully_anyDefault a : Inv a -> namesCreated a = true -> fullyNamed a -> anyDefaultNames a = false.
Proof.
  intros Ha Hc H. destruct (Inv_facts a Ha) as [Hl [Hw Hb]].
  unfold anyDefaultNames. rewrite Hc; simpl. apply Nat.ltb_ge.
  rewrite <- (seq_length (alen a) 0), <- (map_length snd (names_dict a)).
  apply NoDup_incl_length; [apply seq_NoDup|].
  intros i Hi. apply in_seq in Hi. destruct (H i) as [s Hs]; [lia|].
  apply names_in_dict in Hs; auto. apply dget_In in Hs. apply in_map_iff; exists (s, i); auto.
Qed.
Lemma allDefault_true a : Inv a -> allDefaultNames a = true ->
  forall i s, nth_error (getNames a) i <> Some (Some s).
Proof.
  intros Ha H i s Hn. apply names_in_dict in Hn; auto. unfold allDefaultNames in H.
  destruct (names_dict a); [discriminate Hn|discriminate].
Qed.

(** ** inconsistentNames *)
Lemma checkFromLeft_nil l : forall i r all, List.length l = List.length r ->
  checkFromLeft i l r all = [] -> namesAgree l r.
Proof.
  induction l as [|x l IH]; intros i [|y r] all Hl H j s s' Hs Hs'; try discriminate.
  - destruct j; discriminate.
  - simpl in Hl; injection Hl as Hl. destruct j as [|j]; simpl in Hs, Hs'.
    + injection Hs as ->; injection Hs' as ->. simpl in H.
      destruct (eqbd s s') eqn:E; [apply eqbd_true; auto|discriminate].
    + destruct x as [x|]; simpl in H.
      * apply app_eq_nil in H; destruct H as [_ H]. eapply (IH (S i) r all); eauto.
      * eapply (IH (S i) r all); eauto.
Qed.
Lemma inconsistentNames_nil l r : List.length l = List.length r ->
  inconsistentNames l r = [] -> namesAgree l r.
Proof.
  intros Hl H. apply app_eq_nil in H; destruct H as [H _]. eapply checkFromLeft_nil; eauto.
Qed.

Lemma checkFromLeft_same l all : forall i,
  (forall x, In x l -> In x all) -> checkFromLeft i l l all = [].
Proof.
  induction l as [|x l IH]; intros i H; simpl; auto.
  destruct x as [s|]; rewrite IH by (intros; apply H; simpl; auto); auto.
  rewrite eqbd_refl; auto.
Qed.
Lemma inconsistentNames_same l : inconsistentNames l l = [].
Proof. unfold inconsistentNames; rewrite !checkFromLeft_same; auto. Qed.

Section I.
Variable V : Type.
Implicit Types t o : table V.

Lemma flip_otherSide sd : flip sd = otherSide sd.
Proof. destruct sd; auto. Qed.
Lemma ax_other sd t : ax (otherSide sd) t = offax sd t.
Proof. destruct sd; auto. Qed.
Lemma offax_other sd t : offax (otherSide sd) t = ax sd t.
Proof. destruct sd; auto. Qed.

Definition bothFullyNamed sd t o : Prop := fullyNamed (offax sd t) /\ fullyNamed (offax sd o).

(** [o'] is [o] with the vectors of its other axis rearranged to follow [t]. *)
Definition Aligned sd t o o' : Prop :=
  wf o' /\ ax sd o' = ax sd o /\ alen (offax sd o') = alen (offax sd o) /\
  namesAgree (getNames (offax sd t)) (getNames (offax sd o')) /\
  (o' = o \/
   (getNames (offax sd t) <> getNames (offax sd o) /\ bothFullyNamed sd t o /\ getNames (offax sd o') = getNames (offax sd t) /\
    exists order, Permutation order (seq 0 (alen (offax sd o))) /\
      items (otherSide sd) o' = selected order (items (otherSide sd) o))).

Lemma names_all_default a : Inv a -> namesCreated a = false -> getNames a = repeat None (alen a).
Proof.
  intros Ha H. unfold getNames; rewrite names_inv_ensure. unfold names_inv, namesCreated in *.
  destruct (astate a); [discriminate|auto].
Qed.

Lemma align_spec sd t o o' : wf t -> wf o -> alen (offax sd t) = alen (offax sd o) ->
  (if namesCreated (offax sd t) && namesCreated (offax sd o)
   then validateReorderedNames (offax sd t) (offax sd o) else Ok tt) = Ok tt ->
  alignNames sd t o = Ok o' -> Aligned sd t o o'.
Proof.
  intros Ht Ho Hl Hv Ha.
  assert (It := wf_InvOff V sd t Ht). assert (Io := wf_InvOff V sd o Ho).
  assert (Hlen : List.length (getNames (offax sd t)) = List.length (getNames (offax sd o)))
    by (rewrite !getNames_length; auto).
  unfold alignNames in Ha.
  assert (Hsame : namesAgree (getNames (offax sd t)) (getNames (offax sd o)) -> o' = o -> Aligned sd t o o').
  { intros H ->. repeat split; auto; apply Ho. }
  destruct (namesCreated (offax sd t)) eqn:Ct; simpl in *.
  2:{ injection Ha as <-. apply Hsame; auto. intros j s s' Hs.
      rewrite names_all_default in Hs by auto. apply nth_error_In, repeat_spec in Hs; discriminate. }
  destruct (namesCreated (offax sd o)) eqn:Co; simpl in *.
  2:{ injection Ha as <-. apply Hsame; auto. intros j s s' _ Hs.
      rewrite names_all_default in Hs by auto. apply nth_error_In, repeat_spec in Hs; discriminate. }
  destruct (allDefaultNames (offax sd t)) eqn:Dt; simpl in Ha.
  { injection Ha as <-. apply Hsame; auto. intros j s s' Hs.
    exfalso; eapply allDefault_true; [exact It|exact Dt|exact Hs]. }
  destruct (allDefaultNames (offax sd o)) eqn:Do; simpl in Ha.
  { injection Ha as <-. apply Hsame; auto. intros j s s' _ Hs.
    exfalso; eapply allDefault_true; [exact Io|exact Do|exact Hs]. }
  destruct (eqbd (getNames (offax sd t)) (getNames (offax sd o))) eqn:Eq; simpl in Ha.
  { injection Ha as <-. apply eqbd_true in Eq. apply Hsame; auto.
    intros j s s' H1 H2. rewrite Eq in H1; congruence. }
  (* reordering *)
  destruct (permuteIds_iff V (flip sd) o (map nameId (getNames (offax sd t))) o' Ho Ha)
    as [order [Hf [Hp [W [O I]]]]].
  rewrite flip_otherSide in *. rewrite ax_other in *. rewrite !offax_other in *.
  assert (Hnames : getNames (offax sd o') = selected order (getNames (offax sd o))).
  { rewrite <- !ax_other. rewrite <- (items_names V (otherSide sd) o' W), I, map_selected, items_names; auto. }
  destruct (perm_seq_facts _ _ Hp) as [Pd [Pl Pr]].
  assert (Hall : forall j, j < alen (offax sd t) ->
     exists s, nth_error (getNames (offax sd t)) j = Some (Some s) /\
               nth_error (getNames (offax sd o')) j = Some (Some s)).
  { intros j Hj. rewrite <- (getNames_length _ It) in Hj.
    destruct (nth_error_is_some _ Hj) as [x Hx].
    assert (Hfx : nth_error (map nameId (getNames (offax sd t))) j = Some (nameId x)) by (rewrite nth_error_map_eq, Hx; auto).
    assert (exists i, nth_error order j = Some i /\ Denotes (offax sd o) false (nameId x) (Z.of_nat i)) as [i [Hi HD]].
    { clear - Hf Hfx. revert j Hfx. induction Hf as [|id i ids order H1 H2 IH]; intros j Hj; [destruct j; discriminate|].
      destruct j; simpl in *; [injection Hj as ->; eauto|eauto]. }
    destruct x as [s|]; [|destruct HD]. exists s. split; auto.
    rewrite Hnames, selected_nth, Hi by (intros; rewrite getNames_length; auto).
    destruct HD as [i' [E HD]]. apply Nat2Z.inj in E; subst i'; auto. }
  assert (HlO : alen (offax sd o') = alen (offax sd o)).
  { rewrite <- (ax_other sd o'), <- (items_length V _ _ W), I, selected_length.
    - rewrite Pl; auto.
    - intros i Hi; rewrite items_length, ax_other; auto. }
  assert (Heq : getNames (offax sd o') = getNames (offax sd t)).
  { apply nth_error_ext_len.
    - rewrite !getNames_length; auto; [congruence|apply wf_InvOff; auto].
    - intros j Hj. rewrite getNames_length in Hj by (apply wf_InvOff; auto).
      destruct (Hall j) as [s [A B]]; [congruence|congruence]. }
  split; [auto|]. split; [auto|]. split; [auto|].
  split; [intros j s s' H1 H2; congruence|].
  right. split; [apply eqbd_false; auto|]. split; [split|split; [auto|]].
  - intros j Hj; destruct (Hall j Hj) as [s [A _]]; eauto.
  - intros k Hk.
    assert (In k order) as Hin by (eapply Permutation_in; [apply Permutation_sym; eauto|apply in_seq; lia]).
    apply In_nth_error in Hin; destruct Hin as [j Hj].
    assert (Hj' : j < alen (offax sd t)) by (apply nth_error_lt in Hj; lia).
    destruct (Hall j Hj') as [s [_ B]]. exists s.
    rewrite Hnames, selected_nth, Hj in B by (intros; rewrite getNames_length; auto). auto.
  - exists order; split; auto.
Qed.

(** ** the inserted rows *)
Lemma zip3_nth (f : list V -> list V -> list V -> list V) a b c i :
  nth_error (zip3 f a b c) i =
  match nth_error a i, nth_error b i, nth_error c i with
  | Some x, Some y, Some z => Some (f x y z) | _, _, _ => None end.
Proof.
  revert b c i; induction a as [|x a IH]; intros [|y b] [|z c] [|i]; simpl; auto.
  all: destruct (nth_error a i); auto; destruct (nth_error b i); auto.
Qed.

Lemma firstn_ge {A} n (l : list A) : List.length l <= n -> firstn n l = l.
Proof. apply firstn_all2. Qed.

Lemma insertRows_Fts_nth t o b i : wf t -> wf o -> alen (tp t) = alen (tp o) -> b <= alen (tf t) ->
  nth_error (insertRows Fts t o b) i =
  match nth_error (rows t) i, nth_error (rows o) i with
  | Some r, Some q => Some (firstn b r ++ q ++ skipn b r) | _, _ => None end.
Proof.
  intros Ht Ho Hl Hb. unfold insertRows.
  destruct Ht as [T1 [T2 _]]. destruct Ho as [O1 _].
  destruct (Nat.eqb_spec b 0) as [->|Hb0]; simpl.
  - rewrite zip3_nth. destruct (nth_error (rows o) i); destruct (nth_error (rows t) i) eqn:E; auto.
  - destruct (Nat.eqb_spec b (alen (tf t))) as [->|Hbn]; simpl.
    + rewrite zip3_nth. destruct (nth_error (rows t) i) as [r|] eqn:E; auto.
      destruct (nth_error (rows o) i); auto.
      assert (List.length r = alen (tf t)) by (apply T2; eapply nth_error_In; eauto).
      rewrite firstn_all2, skipn_all2, app_nil_r by lia. auto.
    + rewrite zip3_nth, !nth_error_map_eq. destruct (nth_error (rows t) i); simpl; auto.
Qed.
Lemma insertRows_Pts t o b : wf t -> b <= alen (tp t) ->
  insertRows Pts t o b = firstn b (rows t) ++ rows o ++ skipn b (rows t).
Proof.
  intros Ht Hb. unfold insertRows. destruct Ht as [T1 _].
  destruct (Nat.eqb_spec b 0) as [->|Hb0]; simpl; auto.
  destruct (Nat.eqb_spec b (alen (tp t))) as [->|Hbn]; simpl; auto.
  rewrite firstn_all2, skipn_all2, app_nil_r by lia. auto.
Qed.

Lemma nth_error_length_eq {A} (l : list A) n : (forall i, nth_error l i = None <-> n <= i) -> List.length l = n.
Proof.
  intros E. pose proof (proj1 (E (List.length l))) as E1. rewrite nth_error_None in E1.
  specialize (E1 (Nat.le_refl _)).
  pose proof (proj2 (E n) (Nat.le_refl _)) as E2. apply nth_error_None in E2. lia.
Qed.

Lemma insertRows_wf sd t o b a : wf t -> wf o -> alen (offax sd t) = alen (offax sd o) ->
  b <= alen (ax sd t) -> Inv a -> alen a = alen (ax sd t) + alen (ax sd o) ->
  wf (setAx sd t a (insertRows sd t o b)).
Proof.
  intros Ht Ho Hl Hb Ia La. pose proof Ht as [T1 [T2 [T3 T4]]]. pose proof Ho as [O1 [O2 _]].
  destruct sd; cbn [ax offax setAx] in *; unfold wf; cbn [tp tf rows].
  - rewrite insertRows_Pts by auto. split; [|split; [|auto]].
    + rewrite !app_length, firstn_length, skipn_length, T1, O1. lia.
    + intros r Hr. apply in_app_or in Hr; destruct Hr as [Hr|Hr].
      * apply T2. rewrite <- (firstn_skipn b (rows t)). apply in_or_app; auto.
      * apply in_app_or in Hr; destruct Hr as [Hr|Hr]; [rewrite Hl; auto|].
        apply T2. rewrite <- (firstn_skipn b (rows t)). apply in_or_app; auto.
  - split; [|split; [|auto]].
    + apply nth_error_length_eq. intros i. rewrite insertRows_Fts_nth by auto.
      rewrite <- T1. rewrite <- nth_error_None.
      destruct (nth_error (rows t) i) eqn:E1; [|tauto].
      destruct (nth_error_is_some (rows o) (i := i)) as [q Hq].
      { apply nth_error_lt in E1. lia. }
      rewrite Hq. split; discriminate.
    + intros r Hr. apply In_nth_error in Hr; destruct Hr as [i Hi].
      rewrite insertRows_Fts_nth in Hi by auto.
      destruct (nth_error (rows t) i) as [r1|] eqn:E1; [|discriminate].
      destruct (nth_error (rows o) i) as [r2|] eqn:E2; [|discriminate].
      injection Hi as <-. rewrite La, !app_length, firstn_length, skipn_length.
      rewrite (T2 r1), (O2 r2); try lia; eapply nth_error_In; eauto.
Qed.

Lemma insertRows_vectors sd t o b a : wf t -> wf o -> alen (offax sd t) = alen (offax sd o) ->
  b <= alen (ax sd t) -> Inv a -> alen a = alen (ax sd t) + alen (ax sd o) ->
  vectors sd (setAx sd t a (insertRows sd t o b)) =
  firstn b (vectors sd t) ++ vectors sd o ++ skipn b (vectors sd t).
Proof.
  intros Ht Ho Hl Hb Ia La.
  pose proof (insertRows_wf sd t o b a Ht Ho Hl Hb Ia La) as W.
  destruct sd; cbn [ax offax setAx vectors] in *.
  - apply insertRows_Pts; auto.
  - apply nth_error_ext_len.
    { change (List.length (vectors Fts (mkTable (tp t) a (insertRows Fts t o b))) =
        List.length (firstn b (vectors Fts t) ++ vectors Fts o ++ skipn b (vectors Fts t))).
      rewrite !app_length, firstn_length, skipn_length, !vectors_length by auto. simpl. lia. }
    intros j Hj.
    change (nth_error (vectors Fts (mkTable (tp t) a (insertRows Fts t o b))) j =
       nth_error (firstn b (vectors Fts t) ++ vectors Fts o ++ skipn b (vectors Fts t)) j).
    rewrite map_length, seq_length in Hj.
    assert (HV := fun x Hx => vectors_length V Fts x Hx). simpl ax in HV.
    rewrite !nth_error_app, firstn_length, !HV, Nat.min_l by auto.
    rewrite nth_error_firstn, nth_error_skipn. rewrite !vectors_Fts_nth.
    cbn [tf] in *. rewrite (proj2 (Nat.ltb_lt _ _) Hj).
    assert (HC : forall i, nth_error (column (mkTable (tp t) a (insertRows Fts t o b)) j) i =
       match nth_error (rows t) i, nth_error (rows o) i with
       | Some r, Some q => nth_error (firstn b r ++ q ++ skipn b r) j | _, _ => None end).
    { intros i. rewrite column_nth_wf by auto. unfold cell; cbn [rows]. rewrite insertRows_Fts_nth by auto.
      destruct (nth_error (rows t) i); auto. destruct (nth_error (rows o) i); auto. }
    pose proof Ht as [T1 [T2 _]]. pose proof Ho as [O1 [O2 _]].
    destruct (Nat.ltb_spec j b) as [Hjb|Hjb].
    + assert (Hj2 : j < alen (tf t)) by lia. rewrite (proj2 (Nat.ltb_lt _ _) Hj2). f_equal.
      apply nth_error_ext; intros i. rewrite HC, column_nth_wf by auto. unfold cell.
      destruct (nth_error (rows t) i) as [r|] eqn:E1; auto.
      destruct (nth_error_is_some (rows o) (i := i)) as [q Hq]; [apply nth_error_lt in E1; lia|].
      rewrite Hq. rewrite nth_error_app, firstn_length, (T2 r) by (eapply nth_error_In; eauto).
      rewrite Nat.min_l by auto. rewrite (proj2 (Nat.ltb_lt _ _) Hjb), nth_error_firstn, (proj2 (Nat.ltb_lt _ _) Hjb). auto.
    + destruct (Nat.ltb_spec (j - b) (alen (tf o))) as [Hjo|Hjo]; f_equal.
      * apply nth_error_ext; intros i. rewrite HC, column_nth_wf by auto. unfold cell.
        destruct (nth_error (rows t) i) as [r|] eqn:E1.
        -- destruct (nth_error_is_some (rows o) (i := i)) as [q Hq]; [apply nth_error_lt in E1; lia|].
           rewrite Hq. rewrite !nth_error_app, firstn_length, (T2 r) by (eapply nth_error_In; eauto).
           rewrite Nat.min_l by auto. rewrite (proj2 (Nat.ltb_ge _ _) Hjb).
           rewrite (O2 q) by (eapply nth_error_In; eauto). rewrite (proj2 (Nat.ltb_lt _ _) Hjo). auto.
        -- rewrite (proj2 (nth_error_None (rows o) i)); auto. apply nth_error_None in E1. lia.
      * replace (b + (j - b - alen (tf o))) with (j - alen (tf o)) by lia.
        assert (Hj2 : j - alen (tf o) < alen (tf t)) by lia. rewrite (proj2 (Nat.ltb_lt _ _) Hj2). f_equal.
        apply nth_error_ext; intros i. rewrite HC, column_nth_wf by auto. unfold cell.
        destruct (nth_error (rows t) i) as [r|] eqn:E1; auto.
        destruct (nth_error_is_some (rows o) (i := i)) as [q Hq]; [apply nth_error_lt in E1; lia|].
        rewrite Hq. rewrite !nth_error_app, firstn_length, (T2 r) by (eapply nth_error_In; eauto).
        rewrite Nat.min_l by auto. rewrite (proj2 (Nat.ltb_ge _ _) Hjb).
        rewrite (O2 q) by (eapply nth_error_In; eauto). rewrite (proj2 (Nat.ltb_ge _ _) Hjo).
        rewrite nth_error_skipn. f_equal. lia.
Qed.

Lemma combine_app_eq {A B} (a a' : list A) (b b' : list B) : List.length a = List.length b ->
  combine (a ++ a') (b ++ b') = combine a b ++ combine a' b'.
Proof.
  revert b; induction a as [|x a IH]; intros [|y b] H; simpl in *; try discriminate; auto.
  f_equal; apply IH; lia.
Qed.
Lemma combine_firstn_eq {A B} n (a : list A) (b : list B) : combine (firstn n a) (firstn n b) = firstn n (combine a b).
Proof. symmetry; apply combine_firstn. Qed.
Lemma combine_skipn_eq {A B} n : forall (a : list A) (b : list B), List.length a = List.length b ->
  combine (skipn n a) (skipn n b) = skipn n (combine a b).
Proof.
  induction n as [|n IH]; intros [|x a] [|y b] H; simpl in *; try discriminate; auto.
Qed.

Definition InsertPos (a : axis) (before : option ident) (b : nat) : Prop :=
  match before with
  | None => b = alen a
  | Some id => (id = IdInt (Z.of_nat (alen a)) /\ b = alen a) \/ Denotes a false id (Z.of_nat b)
  end.
Lemma insertPosition_spec a before b : Inv a -> insertPosition a before = Ok b ->
  InsertPos a before b /\ b <= alen a.
Proof.
  intros Ha H.
  assert (G : forall id, rmap Z.to_nat (getIndex a id false) = Ok b -> Denotes a false id (Z.of_nat b) /\ b <= alen a).
  { intros id Hid. assert (HC : constructIndices a [id] = Ok [b]) by (unfold constructIndices; simpl; rewrite Hid; auto).
    split.
    - apply constructIndices_Denotes in HC; auto. inversion HC; auto.
    - apply (constructIndices_range _ _ _ Ha) with (i := b) in HC; [lia|simpl; auto]. }
  destruct before as [id|]; simpl in *.
  - destruct id as [z|s|q|]; try (destruct (G _ H); auto; fail).
    destruct (Z.eqb_spec z (Z.of_nat (alen a))) as [->|]; simpl in H.
    + destruct (alen a =? 0) eqn:E; simpl in H; [destruct (G _ H); auto|].
      injection H as <-. auto.
    + destruct (G _ H); auto.
  - injection H as <-; auto.
Qed.

Lemma insert_spec sd t before o t' : wf t -> wf o -> insertTable sd t before o = Ok t' ->
  exists b o', InsertPos (ax sd t) before b /\ b <= alen (ax sd t) /\ Aligned sd t o o' /\
    wf t' /\ offax sd t' = offax sd t /\ alen (ax sd t') = alen (ax sd t) + alen (ax sd o) /\
    items sd t' = firstn b (items sd t) ++ items sd o' ++ skipn b (items sd t).
Proof.
  intros Ht Ho H. unfold insertTable in H.
  destruct (insertPosition (ax sd t) before) as [b|] eqn:Eb; simpl in H; [|discriminate].
  destruct (insertPosition_spec _ _ _ (wf_Inv V sd t Ht) Eb) as [Hpos Hb].
  destruct (Nat.eqb_spec (alen (offax sd t)) (alen (offax sd o))) as [Hl|]; simpl in H; [|discriminate].
  destruct (namesCreated (ax sd t) && namesCreated (ax sd o) && _) eqn:Esh; [discriminate|].
  destruct (if namesCreated (offax sd t) && namesCreated (offax sd o)
            then validateReorderedNames (offax sd t) (offax sd o) else Ok tt) as [[]|] eqn:Ev; simpl in H; [|discriminate].
  destruct (alignNames sd t o) as [o'|] eqn:Eo; simpl in H; [|discriminate].
  pose proof (align_spec sd t o o' Ht Ho Hl Ev Eo) as Al.
  pose proof Al as [Wo [Axo [Lo _]]].
  destruct (insertNames_spec (ax sd t) (ax sd o') b (wf_Inv V sd t Ht) (wf_Inv V sd o' Wo) Hb) as [Ia HI].
  destruct (insertNames (ax sd t) (ax sd o') b) as [a' [u|e]]; [|discriminate]. simpl in Ia, HI.
  destruct HI as [La Na]. injection H as <-.
  exists b, o'. rewrite <- Axo.
  assert (Hl' : alen (offax sd t) = alen (offax sd o')) by congruence.
  split; [auto|]. split; [auto|]. split; [auto|].
  split; [apply insertRows_wf; auto|].
  split; [destruct sd; auto|]. split; [destruct sd; simpl in *; auto|].
  unfold items at 1. rewrite insertRows_vectors by auto.
  replace (ax sd (setAx sd t a' (insertRows sd t o' b))) with a' by (destruct sd; auto).
  rewrite Na.
  assert (HT : List.length (getNames (ax sd t)) = List.length (vectors sd t)).
  { rewrite (vectors_length V sd t Ht). apply getNames_length, wf_Inv; auto. }
  assert (HO : List.length (getNames (ax sd o')) = List.length (vectors sd o')).
  { rewrite (vectors_length V sd o' Wo). apply getNames_length, wf_Inv; auto. }
  rewrite combine_app_eq by (rewrite !firstn_length; congruence).
  rewrite combine_app_eq by auto.
  unfold items. rewrite combine_firstn_eq, combine_skipn_eq by auto. auto.
Qed.

(** acceptance when the other axes agree completely *)
Lemma insert_accept sd t o : wf t -> wf o ->
  alen (offax sd t) = alen (offax sd o) -> getNames (offax sd t) = getNames (offax sd o) ->
  (forall s i j, nth_error (getNames (ax sd t)) i = Some (Some s) ->
                 nth_error (getNames (ax sd o)) j = Some (Some s) -> False) ->
  exists t', insertTable sd t None o = Ok t' /\ wf t' /\ offax sd t' = offax sd t /\
    items sd t' = items sd t ++ items sd o.
Proof.
  intros Ht Ho Hl Hn Hd.
  assert (E : exists t', insertTable sd t None o = Ok t').
  { unfold insertTable; simpl. rewrite Hl, Nat.eqb_refl; simpl.
    destruct (namesCreated (ax sd t) && namesCreated (ax sd o) && _) eqn:Esh.
    { exfalso. apply andb_true_iff in Esh; destruct Esh as [_ Eint].
      apply existsb_exists in Eint; destruct Eint as [s [Hs1 Hs2]]. apply mem_In in Hs2.
      destruct (dget s (names_dict (ax sd t))) as [i|] eqn:E1; [|apply dget_None in E1; tauto].
      destruct (dget s (names_dict (ax sd o))) as [j|] eqn:E2; [|apply dget_None in E2; tauto].
      apply (Hd s i j); apply names_in_dict; auto using wf_Inv. }
    unfold validateReorderedNames. rewrite Hn, inconsistentNames_same.
    assert ((if namesCreated (offax sd t) && namesCreated (offax sd o) then Ok tt else Ok tt) = @Ok unit tt) as ->
      by (destruct (namesCreated (offax sd t)), (namesCreated (offax sd o)); auto).
    simpl. unfold alignNames. rewrite Hn, eqbd_refl, andb_false_r.
    assert ((if namesCreated (offax sd t) && namesCreated (offax sd o) then Ok o else Ok o) = Ok o) as ->
      by (destruct (namesCreated (offax sd t)), (namesCreated (offax sd o)); auto).
    simpl.
    destruct (insertNames_spec (ax sd t) (ax sd o) (alen (ax sd t)) (wf_Inv V sd t Ht) (wf_Inv V sd o Ho) (Nat.le_refl _)) as [Ia HI].
    destruct (insertNames (ax sd t) (ax sd o) (alen (ax sd t))) as [a' [u|e]]; simpl in *; [eauto|].
    destruct HI as [_ [s [i [j [A B]]]]]. exfalso; eauto. }
  destruct E as [t' E]. exists t'; split; auto.
  destruct (insert_spec sd t None o t' Ht Ho E) as [b [o' [Hp [Hb [Al [W [O [L I]]]]]]]].
  split; auto. split; auto. simpl in Hp; subst b.
  assert (o' = o) as ->.
  { destruct Al as [Wo [_ [_ [_ [?|[Hne _]]]]]]; auto. tauto. }
  rewrite I, firstn_all2, skipn_all2, app_nil_r by (rewrite items_length; auto). auto.
Qed.

(** extracting what was inserted *)
Lemma selected_middle {A} (l l2 : list A) b : b <= List.length l ->
  selected (seq b (List.length l2)) (firstn b l ++ l2 ++ skipn b l) = l2.
Proof.
  intros Hb. apply nth_error_ext; intros k. rewrite selected_nth.
  - rewrite nth_error_seq. destruct (Nat.ltb_spec k (List.length l2)) as [Hk|Hk].
    + rewrite !nth_error_app, firstn_length, Nat.min_l by auto.
      destruct (Nat.ltb_spec (b + k) b); [lia|].
      replace (b + k - b) with k by lia. rewrite (proj2 (Nat.ltb_lt _ _) Hk). auto.
    + symmetry; apply nth_error_None; auto.
  - intros i Hi; apply in_seq in Hi. rewrite !app_length, firstn_length, skipn_length. lia.
Qed.
Lemma filter_seq_out (f : nat -> bool) a n : (forall i, a <= i < a + n -> f i = true) -> filter f (seq a n) = seq a n.
Proof.
  revert a; induction n as [|n IH]; intros a H; simpl; auto.
  rewrite H by lia. f_equal. apply IH; intros; apply H; lia.
Qed.
Lemma filter_seq_none (f : nat -> bool) a n : (forall i, a <= i < a + n -> f i = false) -> filter f (seq a n) = [].
Proof.
  revert a; induction n as [|n IH]; intros a H; simpl; auto.
  rewrite H by lia. apply IH; intros; apply H; lia.
Qed.
Lemma keepIdx_middle n b m : b + m <= n -> keepIdx n (seq b m) = seq 0 b ++ seq (b + m) (n - b - m).
Proof.
  intros H. unfold keepIdx. replace n with (b + (m + (n - b - m))) at 1 by lia.
  rewrite !seq_app, !filter_app; simpl. rewrite filter_seq_out, filter_seq_none, filter_seq_out; simpl; auto;
    intros i Hi; destruct (mem i (seq b m)) eqn:E; simpl; auto;
    try (apply mem_In, in_seq in E; lia).
  apply mem_not_In in E. exfalso; apply E, in_seq; lia.
Qed.
Lemma survivors_middle {A} (l l2 : list A) b : b <= List.length l ->
  survivors (seq b (List.length l2)) (firstn b l ++ l2 ++ skipn b l) = l.
Proof.
  intros Hb. rewrite survivors_keep, keepIdx_middle.
  - assert (Hlen : List.length (firstn b l ++ l2 ++ skipn b l) = List.length l + List.length l2).
    { rewrite !app_length, firstn_length, skipn_length. lia. }
    rewrite Hlen, selected_app.
    transitivity (firstn b l ++ skipn b l); [|apply firstn_skipn]. f_equal.
    + apply nth_error_ext; intros k. rewrite selected_nth.
      * rewrite nth_error_seq, nth_error_firstn. destruct (Nat.ltb_spec k b); auto. simpl.
        rewrite nth_error_app, firstn_length, Nat.min_l by auto.
        rewrite (proj2 (Nat.ltb_lt _ _)), nth_error_firstn by auto.
        rewrite (proj2 (Nat.ltb_lt _ _)); auto.
      * intros i Hi; apply in_seq in Hi; lia.
    + apply nth_error_ext; intros k. rewrite selected_nth.
      * rewrite nth_error_seq, nth_error_skipn.
        destruct (Nat.ltb_spec k (List.length l + List.length l2 - b - List.length l2)).
        -- rewrite !nth_error_app, firstn_length, Nat.min_l by auto.
           destruct (Nat.ltb_spec (b + List.length l2 + k) b); [lia|].
           destruct (Nat.ltb_spec (b + List.length l2 + k - b) (List.length l2)); [lia|].
           rewrite nth_error_skipn. f_equal; lia.
        -- symmetry; apply nth_error_None; lia.
      * intros i Hi; apply in_seq in Hi; lia.
  - rewrite !app_length, firstn_length, skipn_length. lia.
Qed.

Lemma insert_extract sd t before o t' : wf t -> wf o -> insertTable sd t before o = Ok t' ->
  exists b o' back rest,
    InsertPos (ax sd t) before b /\ Aligned sd t o o' /\
    structural SExtract sd t' (seq b (alen (ax sd o))) = Ok (rest, Some back) /\
    items sd back = items sd o' /\ items sd rest = items sd t /\
    sameOff sd t back /\ sameOff sd t rest.
Proof.
  intros Ht Ho H. destruct (insert_spec sd t before o t' Ht Ho H) as [b [o' [Hp [Hb [Al [W [O [L I]]]]]]]].
  pose proof Al as [Wo [Axo _]].
  destruct (structural_spec V sd t' (seq b (alen (ax sd o))) W) as [back [rest [_ [E [_ [_ [W1 [W2 [S1 [S2 [I1 [I2 _]]]]]]]]]]]].
  - apply seq_NoDup.
  - intros i Hi; apply in_seq in Hi. lia.
  - exists b, o', back, rest. split; auto. split; auto. split; auto.
    assert (Ln : alen (ax sd o) = List.length (items sd o')) by (rewrite items_length, Axo; auto).
    rewrite I1, I2, I, Ln. rewrite <- Ln at 1.
    split; [rewrite Ln; apply selected_middle; rewrite items_length; auto|].
    split; [apply survivors_middle; rewrite items_length; auto|].
    unfold sameOff in *. rewrite O in *. auto.
Qed.
End I.
