From Verif Require Import Base NamesModel NamesSpec NamesProofs NamesIndexProofs
  TableModel TableSpec TableProofs.

Lemma constructIndices_Denotes a ids order : Inv a ->
  constructIndices a ids = Ok order <->
  Forall2 (fun id i => Denotes a false id (Z.of_nat i)) ids order.
Proof.
  intros Ha. assert (HD : forall id i, (rmap Z.to_nat (getIndex a id false) = Ok i <-> Denotes a false id (Z.of_nat i))).
  { intros id i. destruct id as [z|s|q|].
    - rewrite <- (getIndex_Denotes a (IdInt z) false (Z.of_nat i) Ha) by (simpl; auto).
      destruct (getIndex a (IdInt z) false) as [y|] eqn:E; simpl; [|split; discriminate].
      pose proof (getIndex_range _ _ _ Ha E).
      split; intros [= HH]; f_equal; lia.
    - rewrite <- (getIndex_Denotes a (IdStr s) false (Z.of_nat i) Ha) by (simpl; auto).
      destruct (getIndex a (IdStr s) false) as [y|] eqn:E; simpl; [|split; discriminate].
      pose proof (getIndex_range _ _ _ Ha E).
      split; intros [= HH]; f_equal; lia.
    - split.
      + unfold getIndex. destruct (_ =? 0)%Z; simpl; discriminate.
      + intros [H _]; discriminate.
    - split; [unfold getIndex; destruct (_ =? 0)%Z; simpl; discriminate|intros []]. }
  unfold constructIndices. revert order; induction ids as [|id ids IH]; intros order; simpl.
  - split; [intros [= <-]; constructor|inversion 1; auto].
  - split.
    + destruct (rmap _ (getIndex a id false)) as [i|] eqn:E; simpl; [|discriminate].
      destruct (rmapM _ ids) as [is|] eqn:E'; simpl; [|discriminate]. intros [= <-].
      constructor; [apply HD; auto|apply IH; auto].
    + inversion 1 as [|? i ? is H1 H2]; subst.
      apply HD in H1; rewrite H1; simpl. apply IH in H2; rewrite H2; auto.
Qed.

Lemma nodup_range_perm l n : NoDup l -> List.length l = n -> (forall i, In i l -> i < n) ->
  Permutation l (seq 0 n).
Proof.
  intros Hd Hl Hr. apply NoDup_Permutation_bis; auto.
  - rewrite seq_length; lia.
  - intros x Hx; apply in_seq; apply Hr in Hx; lia.
Qed.

Lemma perm_seq_facts l n : Permutation l (seq 0 n) ->
  NoDup l /\ List.length l = n /\ forall i, In i l -> i < n.
Proof.
  intros H. repeat split.
  - eapply Permutation_NoDup; [apply Permutation_sym; eauto|apply seq_NoDup].
  - apply Permutation_length in H; rewrite seq_length in H; auto.
  - intros i Hi. eapply Permutation_in in Hi; eauto. apply in_seq in Hi; lia.
Qed.

Lemma selected_all {A} (l : list A) : selected (seq 0 (List.length l)) l = l.
Proof.
  apply nth_error_ext; intros k. rewrite selected_nth.
  - rewrite nth_error_seq. destruct (Nat.ltb_spec k (List.length l)); simpl; auto.
    symmetry; apply nth_error_None; auto.
  - intros i Hi; apply in_seq in Hi; lia.
Qed.

Lemma selected_selected {A} p q (l : list A) :
  (forall i, In i p -> i < List.length l) -> (forall i, In i q -> i < List.length p) ->
  selected q (selected p l) = selected (selected q p) l.
Proof.
  intros Hp Hq. 
  assert (Hq' : forall i, In i (selected q p) -> i < List.length l).
  { intros i Hi. apply In_nth_error in Hi; destruct Hi as [k Hk]. rewrite selected_nth in Hk by auto.
    destruct (nth_error q k); [|discriminate]. apply Hp. eapply nth_error_In; eauto. }
  apply nth_error_ext; intros k.
  rewrite selected_nth by (rewrite selected_length; auto).
  rewrite (selected_nth (selected q p)) by auto. rewrite (selected_nth q p) by auto.
  destruct (nth_error q k) as [i|]; auto. rewrite selected_nth by auto. auto.
Qed.

Section P.
Variable V : Type.
Implicit Types t : table V.

Lemma items_one sd t order : wf t -> alen (ax sd t) <= 1 -> Permutation order (seq 0 (alen (ax sd t))) ->
  items sd t = selected order (items sd t).
Proof.
  intros Hwf H1 Hp. destruct (perm_seq_facts _ _ Hp) as [_ [Hl Hr]].
  rewrite <- (selected_all (items sd t)) at 1. rewrite items_length by auto.
  f_equal. apply nth_error_ext_len.
  - rewrite seq_length; auto.
  - rewrite seq_length; intros i Hi. rewrite nth_error_seq.
    destruct (Nat.ltb_spec i (alen (ax sd t))); [|lia].
    destruct (nth_error_is_some order (i := i)) as [k Hk]; [lia|].
    assert (k < alen (ax sd t)) by (apply Hr; eapply nth_error_In; eauto).
    rewrite Hk; f_equal; lia.
Qed.

Lemma permute_spec sd t order : wf t -> Permutation order (seq 0 (alen (ax sd t))) ->
  exists t', permute sd t order = Ok t' /\ wf t' /\ offax sd t' = offax sd t /\
    alen (ax sd t') = alen (ax sd t) /\ items sd t' = selected order (items sd t).
Proof.
  intros Hwf Hp. destruct (perm_seq_facts _ _ Hp) as [Hd [Hl Hr]].
  unfold permute. rewrite Hl, Nat.eqb_refl; simpl negb; cbv iota.
  rewrite (proj2 (nodupb_NoDup order) Hd); simpl negb; cbv iota.
  destruct (Nat.leb_spec (alen (ax sd t)) 1) as [H1|H1].
  - exists t; repeat split; auto; try apply Hwf. apply items_one; auto.
  - rewrite permuteRows_sel by auto. simpl.
    destruct (permuteNames_spec (ax sd t) order (wf_Inv V sd t Hwf) Hp) as [A1 [A2 [A3 A4]]].
    destruct (permuteNames (ax sd t) order) as [a' [u|]]; simpl in *; [|discriminate].
    exists (setAx sd t a' (selRows V sd t order)). split; auto.
    assert (E : setAx sd t a' (selRows V sd t order) = mkSide V sd a' (offax sd t) (selRows V sd t order)) by (destruct sd; auto).
    rewrite E. split; [|split; [|split]].
    + apply selRows_wf; auto; [congruence|apply wf_InvOff; auto].
    + destruct sd; auto.
    + destruct sd; auto.
    + apply selRows_items; auto; [congruence|].
      apply nth_error_ext; intros i. rewrite selected_nth.
      * destruct (nth_error order i) as [k|] eqn:Ek; [apply A4; auto|].
        apply nth_error_None in Ek. apply nth_error_None. rewrite getNames_length by auto. lia.
      * intros k Hk; rewrite getNames_length; [auto|apply wf_Inv; auto].
Qed.

Lemma permuteIds_iff sd t ids t' : wf t ->
  permuteIds sd t ids = Ok t' ->
  exists order, Forall2 (fun id i => Denotes (ax sd t) false id (Z.of_nat i)) ids order /\
    Permutation order (seq 0 (alen (ax sd t))) /\ wf t' /\ offax sd t' = offax sd t /\
    items sd t' = selected order (items sd t).
Proof.
  intros Hwf H. unfold permuteIds in H.
  destruct (constructIndices (ax sd t) ids) as [order|] eqn:E; simpl in H; [|discriminate].
  assert (Hr := constructIndices_range _ _ _ (wf_Inv V sd t Hwf) E).
  assert (Hp : Permutation order (seq 0 (alen (ax sd t)))).
  { pose proof H as H'. unfold permute in H'.
    destruct (Nat.eqb_spec (List.length order) (alen (ax sd t))); [|discriminate]. simpl in H'.
    destruct (nodupb order) eqn:En; [|discriminate].
    apply nodup_range_perm; auto. apply nodupb_NoDup; auto. }
  destruct (permute_spec sd t order Hwf Hp) as [t2 [E2 [W [O [_ I]]]]].
  rewrite H in E2; injection E2 as <-.
  exists order; repeat split; auto; try apply W.
  apply constructIndices_Denotes; auto using wf_Inv.
Qed.
Lemma permuteIds_accept sd t ids order : wf t ->
  Forall2 (fun id i => Denotes (ax sd t) false id (Z.of_nat i)) ids order ->
  Permutation order (seq 0 (alen (ax sd t))) ->
  exists t', permuteIds sd t ids = Ok t'.
Proof.
  intros Hwf H Hp. apply constructIndices_Denotes in H; [|apply wf_Inv; auto].
  unfold permuteIds; rewrite H; simpl.
  destruct (permute_spec sd t order Hwf Hp) as [t' [E _]]; eauto.
Qed.

(** inverse order *)
Definition inverseOrder (order : list nat) : list nat :=
  map (fun k => match find (fun i => match nth_error order i with Some x => x =? k | None => false end)
                     (seq 0 (List.length order)) with Some i => i | None => 0 end)
      (seq 0 (List.length order)).

Lemma permute_inverse sd t order inv t' : wf t ->
  Permutation order (seq 0 (alen (ax sd t))) ->
  (forall i k, nth_error order i = Some k -> nth_error inv k = Some i) ->
  List.length inv = alen (ax sd t) ->
  permute sd t order = Ok t' ->
  exists t'', permute sd t' inv = Ok t'' /\ items sd t'' = items sd t /\ sameOff sd t t''.
Proof.
  intros Hwf Hp Hi Hil H.
  destruct (perm_seq_facts _ _ Hp) as [Hd [Hl Hr]].
  destruct (permute_spec sd t order Hwf Hp) as [t1 [E [W [O [L I]]]]].
  rewrite H in E; injection E as <-.
  assert (Hin : forall k, k < alen (ax sd t) -> exists i, nth_error order i = Some k /\ nth_error inv k = Some i /\ i < alen (ax sd t)).
  { intros k Hk. assert (In k order) as Hk' by (eapply Permutation_in; [apply Permutation_sym; eauto|apply in_seq; lia]).
    apply In_nth_error in Hk'; destruct Hk' as [i Hik]. exists i; repeat split; auto.
    apply nth_error_lt in Hik; lia. }
  assert (Hpi : Permutation inv (seq 0 (alen (ax sd t')))).
  { rewrite L. apply nodup_range_perm; auto.
    - apply NoDup_nth_error. intros a b Ha Hab. rewrite Hil in Ha.
      destruct (Hin a Ha) as [i [A1 [A2 _]]].
      assert (Hb : b < alen (ax sd t)).
      { rewrite A2 in Hab. rewrite <- Hil. apply nth_error_Some. congruence. }
      destruct (Hin b Hb) as [j [B1 [B2 _]]]. congruence.
    - intros i Hi'. apply In_nth_error in Hi'; destruct Hi' as [k Hk].
      assert (Hk' : k < alen (ax sd t)) by (apply nth_error_lt in Hk; lia).
      destruct (Hin k Hk') as [j [_ [B2 B3]]]. rewrite Hk in B2; injection B2 as ->; auto. }
  destruct (permute_spec sd t' inv W Hpi) as [t2 [E2 [W2 [O2 [L2 I2]]]]].
  exists t2; split; auto. split.
  - rewrite I2, I. destruct (perm_seq_facts _ _ Hpi) as [_ [_ Hri]]. rewrite L in Hri.
    rewrite selected_selected.
    + rewrite <- (selected_all (items sd t)) at 2. rewrite items_length by auto. f_equal.
      apply nth_error_ext; intros k. rewrite selected_nth by (intros; rewrite Hl; auto).
      rewrite nth_error_seq. destruct (Nat.ltb_spec k (alen (ax sd t))) as [Hk|Hk]; simpl.
      * destruct (Hin k Hk) as [i [A1 [A2 _]]]. rewrite A2; auto.
      * rewrite (proj2 (nth_error_None inv k)); auto; lia.
    + intros; rewrite items_length; auto.
    + intros; rewrite Hl; auto.
  - split; rewrite O2, O; auto.
Qed.
End P.
