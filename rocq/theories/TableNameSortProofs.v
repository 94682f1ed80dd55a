(** sort by names (C07) and replace (C53). *)
From Verif Require Import Base NamesModel NamesSpec NamesProofs NamesIndexProofs
  TableModel TableSpec TableProofs TablePermProofs TableOps TableSortProofs TableInsertProofs TableOpsProofs
  TableOps3Proofs.
From Coq Require Import Sorted.

Section N.
Variable V : Type.
Implicit Types t : table V.

Lemma Forall2_len {A B} (P : A -> B -> Prop) l l' : Forall2 P l l' -> List.length l = List.length l'.
Proof. induction 1; simpl; auto. Qed.

Lemma fully_strs a : Inv a -> fullyNamed a ->
  getNames a = map Some (flat_map (fun o => match o with Some s => [s] | None => [] end) (getNames a)).
Proof.
  intros HI HF. assert (G : forall o, In o (getNames a) -> exists s, o = Some s).
  { intros o Ho. apply In_nth_error in Ho. destruct Ho as [i Hi]. pose proof (nth_error_lt _ _ Hi) as Hl.
    rewrite getNames_length in Hl by auto. destruct (HF i Hl) as [s Hs]. exists s; congruence. }
  revert G. generalize (getNames a) as l. induction l as [|o l IH]; intros G; auto.
  destruct (G o) as [s ->]; simpl; auto. f_equal. apply IH. intros; apply G; simpl; auto.
Qed.

Lemma sortByNames_spec (sleb : string -> string -> bool) sd t reverse : wf t ->
  TotalOrder sleb -> namesCreated (ax sd t) = true -> fullyNamed (ax sd t) ->
  exists t' order ss, sortByNames sleb sd t reverse = Ok t' /\ wf t' /\
    Permutation order (seq 0 (alen (ax sd t))) /\
    items sd t' = selected order (items sd t) /\ sameOff sd t t' /\
    getNames (ax sd t') = map Some ss /\
    (forall p q x y, p < q -> nth_error ss p = Some x -> nth_error ss q = Some y ->
       dirLe sleb reverse x y = true).
Proof.
  intros Hwf [Htot Htr] Hc HF. pose proof (wf_Inv V sd t Hwf) as HI.
  unfold sortByNames. rewrite Hc, (fully_anyDefault _ HI Hc HF). cbn [negb orb].
  set (strs := flat_map (fun o : option string => match o with Some s => [s] | None => [] end) (getNames (ax sd t))).
  pose proof (fully_strs _ HI HF) as HS. fold strs in HS.
  set (le := fun x y => if reverse then sleb y x else sleb x y).
  set (ss := stableSort le strs).
  assert (HP : Permutation ss strs) by apply stableSort_perm.
  assert (Hnd : NoDup strs).
  { apply NoDup_nth_error. intros i j Hi Hij. destruct (nth_error strs i) as [s|] eqn:Es.
    - assert (A : nth_error (getNames (ax sd t)) i = Some (Some s)) by (rewrite HS, nth_error_map_eq, Es; auto).
      assert (B : nth_error (getNames (ax sd t)) j = Some (Some s)) by (rewrite HS, nth_error_map_eq, <- Hij; auto).
      apply names_in_dict in A; auto. apply names_in_dict in B; auto. congruence.
    - apply nth_error_None in Es. lia. }
  assert (Hlen : List.length strs = alen (ax sd t)).
  { rewrite <- (getNames_length _ HI), HS, map_length. auto. }
  assert (Hord : exists order, Forall2 (fun s i => nth_error strs i = Some s) ss order).
  { assert (G : forall l, incl l strs -> exists order, Forall2 (fun s i => nth_error strs i = Some s) l order).
    { induction l as [|s l IH]; intros Hi; [exists []; constructor|].
      destruct IH as [o Ho]; [intros x Hx; apply Hi; simpl; auto|].
      destruct (In_nth_error strs s) as [i Hs]; [apply Hi; simpl; auto|]. exists (i :: o); constructor; auto. }
    apply G. intros x Hx. eapply Permutation_in; eauto. }
  destruct Hord as [order Hord].
  assert (HD : Forall2 (fun id i => Denotes (ax sd t) false id (Z.of_nat i)) (map IdStr ss) order).
  { clear -Hord HS. induction Hord as [|s i l o H F IH]; simpl; constructor; auto.
    simpl. exists i. split; auto. rewrite HS, nth_error_map_eq, H. auto. }
  assert (HPo : Permutation order (seq 0 (alen (ax sd t)))).
  { apply nodup_range_perm.
    - assert (Hss : NoDup ss) by (eapply Permutation_NoDup; [apply Permutation_sym; eauto|auto]).
      clear -Hord Hss. induction Hord as [|s i l o H F IH]; constructor; inversion Hss; subst; auto.
      intros Hin. apply H2. clear -F H Hin. induction F as [|s' i' l o H' F IH]; [destruct Hin|].
      destruct Hin as [->|Hin]; simpl; auto. left; congruence.
    - rewrite <- (Forall2_len _ _ _ Hord), (Permutation_length HP); auto.
    - intros i Hi. rewrite <- Hlen. clear -Hord Hi. induction Hord as [|s k l o H F IH]; [destruct Hi|].
      destruct Hi as [<-|Hi]; auto. eapply nth_error_lt; eauto. }
  destruct (permuteIds_accept V sd t _ _ Hwf HD HPo) as [t' Et]. rewrite Et.
  destruct (permuteIds_iff V sd t _ _ Hwf Et) as [order' [HD' [HP' [W' [O' I']]]]].
  assert (order' = order).
  { apply constructIndices_Denotes in HD; auto. apply constructIndices_Denotes in HD'; auto. congruence. }
  subst order'. exists t', order, ss. split; auto. split; auto. split; auto. split; auto.
  split; [split; rewrite O'; auto|]. split.
  - rewrite <- (items_names V sd t' W'), I', map_selected, (items_names V sd t Hwf).
    rewrite HS. clear -Hord. induction Hord as [|s i l o H F IH]; auto. simpl.
    rewrite nth_error_map_eq, H. simpl. f_equal. apply IH.
  - intros p q x y Hpq Hx Hy.
    assert (Hsorted : StronglySorted (lexR le (fun _ _ => True)) ss).
    { apply stableSort_sorted.
      - intros a b. unfold le. destruct reverse; apply Htot.
      - intros a b c. unfold le. destruct reverse; intros; eapply Htr; eauto.
      - clear. induction strs; constructor; auto. apply Forall_forall; auto. }
    apply (StronglySorted_nth _ _ Hsorted p q x y Hpq Hx) in Hy. apply lexR_le in Hy.
    unfold le, dirLe in *. auto.
Qed.
End N.
