From Verif Require Import Base NamesModel NamesSpec NamesProofs TableModel TableSpec.

Lemma selected_ok {A} (idx : list nat) (l : list A) :
  (forall i, In i idx -> i < List.length l) ->
  gather l idx = Ok (selected idx l) /\
  List.length (selected idx l) = List.length idx /\
  forall k, nth_error (selected idx l) k =
    match nth_error idx k with Some i => nth_error l i | None => None end.
Proof.
  induction idx as [|i idx IH]; intros H.
  - simpl; repeat split; intros [|k]; auto.
  - destruct IH as [A1 [A2 A3]]; [intros; apply H; simpl; auto|].
    destruct (nth_error_is_some l (i := i)) as [x Hx]; [apply H; simpl; auto|].
    unfold gather in *; simpl; rewrite Hx; simpl; rewrite A1; simpl.
    repeat split; auto. intros [|k]; simpl; auto.
Qed.
Lemma gather_selected {A} idx (l : list A) :
  (forall i, In i idx -> i < List.length l) -> gather l idx = Ok (selected idx l).
Proof. intros; apply selected_ok; auto. Qed.
Lemma selected_length {A} idx (l : list A) :
  (forall i, In i idx -> i < List.length l) -> List.length (selected idx l) = List.length idx.
Proof. intros; apply selected_ok; auto. Qed.
Lemma selected_nth {A} idx (l : list A) k :
  (forall i, In i idx -> i < List.length l) ->
  nth_error (selected idx l) k = match nth_error idx k with Some i => nth_error l i | None => None end.
Proof. intros; apply selected_ok; auto. Qed.
Lemma gather_ok_inv {A} (l : list A) idx ys :
  gather l idx = Ok ys -> (forall i, In i idx -> i < List.length l).
Proof.
  revert ys; induction idx as [|i idx IH]; simpl; intros ys H j Hj; [tauto|].
  unfold gather in H; simpl in H.
  destruct (nth_error l i) eqn:E; simpl in H; [|discriminate].
  destruct (rmapM _ idx) as [ys'|] eqn:E'; simpl in H; [|discriminate].
  destruct Hj as [<-|Hj]; [eapply nth_error_lt; eauto|eapply IH; eauto].
Qed.

Lemma nth_error_combine {A B} (l : list A) (l' : list B) i :
  nth_error (combine l l') i =
  match nth_error l i, nth_error l' i with Some a, Some b => Some (a, b) | _, _ => None end.
Proof.
  revert l' i; induction l as [|a l IH]; intros [|b l'] [|i]; simpl; auto.
  destruct (nth_error l i); auto.
Qed.

Lemma selected_combine {A B} idx (l : list A) (l' : list B) :
  List.length l = List.length l' -> (forall i, In i idx -> i < List.length l) ->
  selected idx (combine l l') = combine (selected idx l) (selected idx l').
Proof.
  intros Hl H. apply nth_error_ext; intros k.
  rewrite nth_error_combine, !selected_nth; auto.
  - destruct (nth_error idx k) as [i|]; auto. apply nth_error_combine.
  - rewrite <- Hl; auto.
  - rewrite combine_length, <- Hl, Nat.min_id; auto.
Qed.

(** survivors = select the kept indices *)
Lemma survivors_keep {A} targets (l : list A) :
  survivors targets l = selected (keepIdx (List.length l) targets) l.
Proof.
  unfold survivors, keepIdx, selected.
  assert (G : forall (l0 pre : list A), l = pre ++ l0 ->
    map snd (filter (fun p => negb (mem (fst p) targets)) (combine (seq (List.length pre) (List.length l0)) l0)) =
    flat_map (fun i => match nth_error l i with Some x => [x] | None => [] end)
      (filter (fun i => negb (mem i targets)) (seq (List.length pre) (List.length l0)))).
  { induction l0 as [|x xs IH]; intros pre E; simpl; auto.
    specialize (IH (pre ++ [x])). rewrite <- app_assoc in IH; specialize (IH E).
    rewrite app_length, Nat.add_1_r in IH; simpl in IH.
    assert (Hx : nth_error l (List.length pre) = Some x).
    { rewrite E, nth_error_app, Nat.ltb_irrefl, Nat.sub_diag; auto. }
    destruct (negb (mem (List.length pre) targets)); simpl; rewrite IH; auto. rewrite Hx; auto. }
  apply (G l []); auto.
Qed.
Lemma keepIdx_range n targets i : In i (keepIdx n targets) -> i < n.
Proof. unfold keepIdx; rewrite filter_In, in_seq; lia. Qed.
Lemma keepIdx_length n targets : NoDup targets -> (forall i, In i targets -> i < n) ->
  List.length (keepIdx n targets) = n - List.length targets.
Proof. intros Hd Hr. unfold keepIdx. apply filter_count_targets; auto. intros i Hi; apply Hr in Hi; lia. Qed.

Section T.
Variable V : Type.
Implicit Types t : table V.

Lemma column_nth t j i : (forall r, In r (rows t) -> j < List.length r) ->
  nth_error (column t j) i = cell t i j.
Proof.
  unfold column, cell. intros H. induction (rows t) as [|r rs IH] in i, H |- *; simpl.
  - destruct i; auto.
  - destruct (nth_error_is_some r (i := j)) as [v Hv]; [apply H; simpl; auto|].
    rewrite Hv; simpl. destruct i; simpl; [auto|]. apply IH. intros; apply H; simpl; auto.
Qed.

Lemma vectors_length sd t : wf t -> List.length (vectors sd t) = alen (ax sd t).
Proof.
  intros [H _]; destruct sd; simpl; auto. rewrite map_length, seq_length; auto.
Qed.
Lemma getNames_length a : Inv a -> List.length (getNames a) = alen a.
Proof. intros H; apply Inv_Consistent in H; apply H. Qed.

Lemma wf_Inv sd t : wf t -> Inv (ax sd t).
Proof. intros [_ [_ [A B]]]; destruct sd; auto. Qed.
Lemma wf_InvOff sd t : wf t -> Inv (offax sd t).
Proof. intros [_ [_ [A B]]]; destruct sd; auto. Qed.

Lemma items_length sd t : wf t -> List.length (items sd t) = alen (ax sd t).
Proof.
  intros H. unfold items. rewrite combine_length, (vectors_length sd t H), getNames_length.
  - apply Nat.min_id.
  - apply wf_Inv; auto.
Qed.

Lemma column_nth_wf t j i : wf t -> j < alen (tf t) -> nth_error (column t j) i = cell t i j.
Proof. intros [_ [H _]] Hj; apply column_nth; intros r Hr; rewrite (H r Hr); auto. Qed.

Lemma vectors_Fts_nth t j : nth_error (vectors Fts t) j =
  if j <? alen (tf t) then Some (column t j) else None.
Proof.
  simpl. rewrite nth_error_map_eq, nth_error_seq. destruct (j <? alen (tf t)); auto.
Qed.

(** A wf table with selected vectors: both sides. *)
Definition selRows (sd : side) t (idx : list nat) : list (list V) :=
  match sd with Pts => selected idx (rows t) | Fts => map (selected idx) (rows t) end.

Lemma permuteRows_sel sd t idx : wf t -> (forall i, In i idx -> i < alen (ax sd t)) ->
  permuteRows sd t idx = Ok (selRows sd t idx).
Proof.
  intros [H1 [H2 _]] Hr. destruct sd; simpl in *.
  - apply gather_selected; intros; rewrite H1; auto.
  - apply rmapM_map_ok. intros r Hin. apply gather_selected. intros; rewrite (H2 r); auto.
Qed.

Definition mkSide (sd : side) (a off : axis) (rs : list (list V)) : table V :=
  match sd with Pts => mkTable a off rs | Fts => mkTable off a rs end.

Lemma selRows_wf sd t idx a off : wf t -> (forall i, In i idx -> i < alen (ax sd t)) ->
  alen a = List.length idx -> alen off = alen (offax sd t) -> Inv a -> Inv off ->
  wf (mkSide sd a off (selRows sd t idx)).
Proof.
  intros Hwf Hr Ha Ho Hia Hio. pose proof Hwf as [H1 [H2 _]].
  destruct sd; simpl in *; unfold wf; simpl.
  - split; [|split; [|auto]].
    + rewrite selected_length; auto. intros; rewrite H1; auto.
    + intros r Hin. rewrite Ho. apply H2. unfold selected in Hin. apply in_flat_map in Hin.
      destruct Hin as [i [_ Hin]]. destruct (nth_error (rows t) i) eqn:E; simpl in Hin; [|tauto].
      destruct Hin as [<-|[]]. eapply nth_error_In; eauto.
  - split; [|split; [|auto]].
    + rewrite map_length; lia.
    + intros r Hin. apply in_map_iff in Hin; destruct Hin as [r' [<- Hin]].
      rewrite selected_length; auto. intros; rewrite (H2 r'); auto.
Qed.

Lemma selRows_vectors sd t idx a off : wf t -> (forall i, In i idx -> i < alen (ax sd t)) ->
  alen a = List.length idx ->
  vectors sd (mkSide sd a off (selRows sd t idx)) = selected idx (vectors sd t).
Proof.
  intros Hwf Hr Ha. pose proof Hwf as [H1 [H2 _]].
  destruct sd; [reflexivity|].
  apply nth_error_ext; intros k.
  rewrite selected_nth by (intros i Hi; rewrite (vectors_length Fts t Hwf); auto).
  rewrite vectors_Fts_nth. simpl alen. rewrite Ha. simpl in Hr.
  destruct (Nat.ltb_spec k (List.length idx)) as [Hk|Hk].
  - destruct (nth_error_is_some idx (i := k) Hk) as [j Hj]. rewrite Hj.
    assert (Hjr : j < alen (tf t)) by (apply Hr; eapply nth_error_In; eauto).
    rewrite vectors_Fts_nth. rewrite (proj2 (Nat.ltb_lt _ _) Hjr). f_equal.
    apply nth_error_ext; intros i.
    rewrite column_nth_wf with (j := j) by auto.
    rewrite column_nth; simpl.
    + unfold cell; simpl. rewrite nth_error_map_eq.
      destruct (nth_error (rows t) i) as [r|] eqn:Er; simpl; auto.
      rewrite selected_nth; [rewrite Hj; auto|].
      intros x Hx. rewrite (H2 r); auto. eapply nth_error_In; eauto.
    + intros r Hin. apply in_map_iff in Hin; destruct Hin as [r' [<- Hin]].
      rewrite selected_length; auto. intros; rewrite (H2 r'); auto.
  - rewrite (proj2 (nth_error_None idx k) Hk); auto.
Qed.

Lemma selRows_items sd t idx a off : wf t -> (forall i, In i idx -> i < alen (ax sd t)) ->
  alen a = List.length idx -> getNames a = selected idx (getNames (ax sd t)) ->
  items sd (mkSide sd a off (selRows sd t idx)) = selected idx (items sd t).
Proof.
  intros Hwf Hr Ha Hn. unfold items. rewrite selRows_vectors by auto.
  replace (ax sd (mkSide sd a off (selRows sd t idx))) with a by (destruct sd; auto).
  rewrite Hn, selected_combine; auto.
  - rewrite (vectors_length sd t Hwf), getNames_length; auto. apply wf_Inv; auto.
  - intros i Hi. rewrite getNames_length; [auto|apply wf_Inv; auto].
Qed.

(** ** Axis creation *)
Lemma setNames_list_len a l : alen (fst (setNames a (AList l) ONone)) = alen a.
Proof.
  simpl; unfold setNames_all. destruct (negb _); auto. destruct (_ =? 0); auto. destruct (rbind _ _); auto.
Qed.
Lemma initAxis_ok n l :
  List.length l = n ->
  (forall i j s, nth_error l i = Some (Some s) -> nth_error l j = Some (Some s) -> i = j) ->
  exists a, initAxis n (Some l) = Ok a /\ alen a = n /\ Inv a /\ getNames a = l.
Proof.
  intros Hl Hd. unfold initAxis. rewrite Hl, Nat.eqb_refl; simpl negb; cbv iota.
  destruct (setNames_list_accept (mkAxis n None) (map to_newname l)) as [A B].
  { rewrite map_length; auto. }
  { apply list_acceptable_names; auto. }
  pose proof (setNames_list_Inv (mkAxis n None) (map to_newname l) I) as C.
  pose proof (setNames_list_len (mkAxis n None) (map to_newname l)) as D.
  destruct (setNames _ _ _) as [a [u|e]]; simpl in *; [|discriminate].
  exists a; repeat split; auto. rewrite B, newname_opt_to; auto.
Qed.
Lemma initAxis_None n : initAxis n None = Ok (mkAxis n None).
Proof. auto. Qed.
Lemma getNames_fresh n : getNames (mkAxis n None) = repeat None n.
Proof. reflexivity. Qed.

Lemma selected_repeat {A} idx (x : A) n : (forall i, In i idx -> i < n) ->
  selected idx (repeat x n) = repeat x (List.length idx).
Proof.
  induction idx as [|i idx IH]; intros H; simpl; auto.
  rewrite nth_error_repeat by (apply H; simpl; auto). simpl. f_equal. apply IH; intros; apply H; simpl; auto.
Qed.

Lemma copyAxis_ok a : Inv a -> exists a', initAxis (alen a) (getNamesNoGeneration a) = Ok a' /\
  alen a' = alen a /\ Inv a' /\ getNames a' = getNames a.
Proof.
  intros Ha. unfold getNamesNoGeneration. destruct (namesCreated a) eqn:E.
  - apply initAxis_ok; [apply getNames_length; auto|apply Inv_names_distinct; auto].
  - exists (mkAxis (alen a) None); simpl; repeat split.
    unfold getNames; rewrite !names_inv_ensure. unfold names_inv, namesCreated in *. simpl.
    destruct (astate a); [discriminate|auto].
Qed.

Lemma selected_distinct idx (l : list (option string)) : NoDup idx ->
  (forall i, In i idx -> i < List.length l) ->
  (forall i j s, nth_error l i = Some (Some s) -> nth_error l j = Some (Some s) -> i = j) ->
  (forall i j s, nth_error (selected idx l) i = Some (Some s) ->
                 nth_error (selected idx l) j = Some (Some s) -> i = j).
Proof.
  intros Hd Hr H i j s Hi Hj. rewrite selected_nth in Hi, Hj by auto.
  destruct (nth_error idx i) as [p|] eqn:Ep; [|discriminate].
  destruct (nth_error idx j) as [q|] eqn:Eq; [|discriminate].
  assert (p = q) by (eapply H; eauto). subst q.
  eapply NoDup_nth_error_inj; eauto.
Qed.

Lemma structuralAxis_ok a targets : Inv a -> NoDup targets -> (forall i, In i targets -> i < alen a) ->
  exists a', (nl <- structuralNames a targets ;; initAxis (List.length targets) nl) = Ok a' /\
    alen a' = List.length targets /\ Inv a' /\ getNames a' = selected targets (getNames a).
Proof.
  intros Ha Hd Hr. assert (Hl : List.length (getNames a) = alen a) by (apply getNames_length; auto).
  unfold structuralNames. destruct (namesCreated a) eqn:E.
  - rewrite gather_selected by (intros; rewrite Hl; auto). cbn [rmap rbind].
    apply initAxis_ok.
    + apply selected_length; intros; rewrite Hl; auto.
    + apply selected_distinct; auto; [intros; rewrite Hl; auto|apply Inv_names_distinct; auto].
  - simpl. exists (mkAxis (List.length targets) None); repeat split.
    rewrite getNames_fresh.
    assert (getNames a = repeat None (alen a)) as ->.
    { unfold getNames; rewrite names_inv_ensure. unfold names_inv, namesCreated in *.
      destruct (astate a); [discriminate|auto]. }
    rewrite selected_repeat; auto.
Qed.

(** ** copy / extract / delete / retain *)
Lemma taken_spec sd t targets : wf t -> NoDup targets -> (forall i, In i targets -> i < alen (ax sd t)) ->
  exists r, taken sd t targets = Ok r /\ wf r /\ sameOff sd t r /\
    alen (ax sd r) = List.length targets /\
    items sd r = selected targets (items sd t).
Proof.
  intros Hwf Hd Hr. unfold taken.
  destruct (structuralAxis_ok (ax sd t) targets) as [a [E [La [Ia Na]]]]; auto using wf_Inv.
  destruct (structuralNames (ax sd t) targets) as [nl|]; simpl in E |- *; [|discriminate].
  rewrite E; simpl.
  destruct (copyAxis_ok (offax sd t)) as [o [Eo [Lo [Io No]]]]; [apply wf_InvOff; auto|].
  rewrite Eo; simpl.
  pose proof (permuteRows_sel sd t targets Hwf Hr) as P.
  exists (mkSide sd a o (selRows sd t targets)).
  split; [destruct sd; simpl in *; rewrite P; auto|].
  split; [apply selRows_wf; auto|].
  split; [destruct sd; split; simpl in *; auto|].
  split; [destruct sd; simpl; auto|].
  apply selRows_items; auto.
Qed.

Lemma remaining_spec sd t targets : wf t -> NoDup targets -> (forall i, In i targets -> i < alen (ax sd t)) ->
  exists r, remaining sd t targets = Ok r /\ wf r /\ offax sd r = offax sd t /\
    alen (ax sd r) = alen (ax sd t) - List.length targets /\
    items sd r = survivors targets (items sd t).
Proof.
  intros Hwf Hd Hr. unfold remaining.
  destruct (removeNames_spec (ax sd t) targets) as [Ia [La Na]]; auto using wf_Inv.
  set (keep := keepIdx (alen (ax sd t)) targets).
  assert (Hk : forall i, In i keep -> i < alen (ax sd t)) by (apply keepIdx_range).
  assert (Hkl : List.length keep = alen (ax sd t) - List.length targets) by (apply keepIdx_length; auto).
  pose proof (permuteRows_sel sd t keep Hwf Hk) as P.
  exists (mkSide sd (removeNames (ax sd t) targets) (offax sd t) (selRows sd t keep)).
  split; [destruct sd; simpl in *; rewrite P; auto|].
  split; [apply selRows_wf; auto; [congruence|apply wf_InvOff; auto]|].
  split; [destruct sd; auto|].
  split; [destruct sd; simpl; auto|].
  rewrite survivors_keep, (items_length sd t Hwf).
  apply selRows_items; auto; [transitivity (alen (ax sd t) - List.length targets); auto|].
  rewrite Na, survivors_keep, getNames_length by (apply wf_Inv; auto). reflexivity.
Qed.

Lemma selected_permutation {A} (l : list A) p :
  Permutation p (seq 0 (List.length l)) -> Permutation (selected p l) l.
Proof.
  intros H. assert (E : selected (seq 0 (List.length l)) l = l).
  { apply nth_error_ext; intros k. rewrite selected_nth.
    - rewrite nth_error_seq. destruct (Nat.ltb_spec k (List.length l)); simpl; auto.
      symmetry; apply nth_error_None; auto.
    - intros i Hi; apply in_seq in Hi; lia. }
  rewrite <- E at 2. unfold selected. apply Permutation_flat_map; auto.
Qed.

Lemma filter_partition_perm {A} (f : A -> bool) l :
  Permutation (filter f l ++ filter (fun x => negb (f x)) l) l.
Proof.
  induction l as [|x xs IH]; simpl; auto. destruct (f x); simpl.
  - constructor; auto.
  - rewrite <- Permutation_middle. constructor; auto.
Qed.

Lemma targets_keep_perm n targets : NoDup targets -> (forall i, In i targets -> i < n) ->
  Permutation (targets ++ keepIdx n targets) (seq 0 n).
Proof.
  intros Hd Hr. rewrite <- (filter_partition_perm (fun i => mem i targets) (seq 0 n)).
  apply Permutation_app; [|reflexivity].
  apply NoDup_Permutation; auto.
  - apply NoDup_filter, seq_NoDup.
  - intros x; rewrite filter_In, mem_In, in_seq. split; [intros Hx; split; auto; apply Hr in Hx; lia|tauto].
Qed.

Lemma selected_app {A} i1 i2 (l : list A) : selected (i1 ++ i2) l = selected i1 l ++ selected i2 l.
Proof. unfold selected; apply flat_map_app. Qed.

Lemma partition_perm {A} (l : list A) targets : NoDup targets -> (forall i, In i targets -> i < List.length l) ->
  Permutation (selected targets l ++ survivors targets l) l.
Proof.
  intros Hd Hr. rewrite survivors_keep, <- selected_app.
  apply selected_permutation, targets_keep_perm; auto.
Qed.

Lemma structural_spec sd t targets : wf t -> NoDup targets -> (forall i, In i targets -> i < alen (ax sd t)) ->
  exists ret rest,
    structural SCopy sd t targets = Ok (t, Some ret) /\
    structural SExtract sd t targets = Ok (rest, Some ret) /\
    structural SDelete sd t targets = Ok (rest, None) /\
    structural SRetain sd t targets = Ok (ret, None) /\
    wf ret /\ wf rest /\ sameOff sd t ret /\ sameOff sd t rest /\
    items sd ret = selected targets (items sd t) /\
    items sd rest = survivors targets (items sd t) /\
    Permutation (items sd ret ++ items sd rest) (items sd t).
Proof.
  intros Hwf Hd Hr.
  destruct (taken_spec sd t targets Hwf Hd Hr) as [ret [E1 [W1 [S1 [_ I1]]]]].
  destruct (remaining_spec sd t targets Hwf Hd Hr) as [rest [E2 [W2 [S2 [_ I2]]]]].
  exists ret, rest. unfold structural; rewrite E1; simpl; rewrite E2; simpl.
  do 6 (split; [auto|]). split; [auto|]. split; [split; rewrite S2; auto|].
  split; [auto|]. split; [auto|].
  rewrite I1, I2. apply partition_perm; auto. intros; rewrite items_length; auto.
Qed.

(** ** Targets *)
Lemma constructIndices_range a l idx : Inv a -> constructIndices a l = Ok idx ->
  forall i, In i idx -> i < alen a.
Proof.
  intros Ha H i Hi. apply In_nth_error in Hi; destruct Hi as [k Hk].
  pose proof (rmapM_ok_length _ _ H) as Hl.
  destruct (nth_error_is_some l (i := k)) as [id Hid].
  { apply nth_error_lt in Hk. lia. }
  destruct (rmapM_ok_nth _ _ H k Hid) as [y [Hy Hf]].
  rewrite Hk in Hy; injection Hy as <-.
  destruct (getIndex a id false) as [z|] eqn:Eg; simpl in Hf; [|discriminate].
  injection Hf as <-. pose proof (getIndex_range a id z Ha Eg). lia.
Qed.

Lemma positionsWhere_spec {A} (f : A -> bool) (l : list A) :
  NoDup (positionsWhere f l) /\
  forall i, In i (positionsWhere f l) <-> exists x, nth_error l i = Some x /\ f x = true.
Proof.
  unfold positionsWhere. split.
  - assert (G : forall n, NoDup (map fst (filter (fun p => f (snd p)) (combine (seq n (List.length l)) l))) /\
       forall i, In i (map fst (filter (fun p => f (snd p)) (combine (seq n (List.length l)) l))) -> n <= i).
    { induction l as [|x xs IH]; intros n; simpl; [split; [constructor|tauto]|].
      destruct (IH (S n)) as [A1 A2]. destruct (f x); simpl.
      - split; [constructor; auto; intros Hin; apply A2 in Hin; lia|].
        intros i [<-|Hi]; auto. apply A2 in Hi; lia.
      - split; auto. intros i Hi; apply A2 in Hi; lia. }
    apply G.
  - intros i. rewrite in_map_iff. split.
    + intros [[j x] [<- Hin]]. apply filter_In in Hin; destruct Hin as [Hin Hf]; simpl in *.
      apply In_nth_error in Hin; destruct Hin as [k Hk].
      rewrite nth_error_combine, nth_error_seq in Hk.
      destruct (k <? List.length l); [|discriminate].
      destruct (nth_error l k) eqn:E; [|discriminate]. injection Hk as <- <-. simpl. eauto.
    + intros [x [Hx Hf]]. exists (i, x); split; auto. apply filter_In; split; auto.
      apply nth_error_In with i. rewrite nth_error_combine, nth_error_seq, Hx.
      rewrite (proj2 (Nat.ltb_lt _ _)); auto. eapply nth_error_lt; eauto.
Qed.

Lemma baseTargets_ok sd t tg st sp l : wf t -> baseTargets sd t tg st sp = Ok l ->
  NoDup l /\ forall i, In i l -> i < alen (ax sd t).
Proof.
  intros Hwf. pose proof (wf_Inv sd t Hwf) as Ha. destruct tg as [|ids|f]; simpl.
  - assert (G : forall s e, (s <- Ok s ;; e <- Ok e ;; Ok tt) = Ok tt ->
        (0 <= s)%Z -> (e < Z.of_nat (alen (ax sd t)))%Z -> (s <= e)%Z ->
        NoDup (seq (Z.to_nat s) (Z.to_nat e + 1 - Z.to_nat s)) /\
        forall i, In i (seq (Z.to_nat s) (Z.to_nat e + 1 - Z.to_nat s)) -> i < alen (ax sd t)).
    { intros s e _ H1 H2 H3. split; [apply seq_NoDup|]. intros i Hi; apply in_seq in Hi; lia. }
    assert (Full : NoDup (seq 0 (alen (ax sd t))) /\ (forall i, In i (seq 0 (alen (ax sd t))) -> i < alen (ax sd t))).
    { split; [apply seq_NoDup|]. intros i Hi; apply in_seq in Hi; lia. }
    assert (Hgen : forall (rs re : result Z),
       (forall s, rs = Ok s -> (0 <= s < Z.of_nat (alen (ax sd t)))%Z \/ s = 0%Z) ->
       (forall e, re = Ok e -> (0 <= e < Z.of_nat (alen (ax sd t)))%Z \/ e = (Z.of_nat (alen (ax sd t)) - 1)%Z) ->
       (s <- rs ;; e <- re ;;
          if (s <? 0)%Z || (Z.of_nat (alen (ax sd t)) <? s)%Z then Err InvalidArgumentValue
          else if (e <? 0)%Z || (Z.of_nat (alen (ax sd t)) <? e)%Z then Err InvalidArgumentValue
          else if (e <? s)%Z then Err InvalidArgumentValueCombination
          else Ok (seq (Z.to_nat s) (Z.to_nat e + 1 - Z.to_nat s))) = Ok l ->
       NoDup l /\ forall i, In i l -> i < alen (ax sd t)).
    { intros [s|es] [e|ee] Hs He; simpl; try discriminate.
      specialize (Hs s eq_refl); specialize (He e eq_refl).
      destruct (Z.ltb_spec s 0); simpl; [discriminate|].
      destruct (Z.ltb_spec (Z.of_nat (alen (ax sd t))) s); simpl; [discriminate|].
      destruct (Z.ltb_spec e 0); simpl; [discriminate|].
      destruct (Z.ltb_spec (Z.of_nat (alen (ax sd t))) e); simpl; [discriminate|].
      destruct (Z.ltb_spec e s); [discriminate|]. intros [= <-].
      apply G; auto; lia. }
    assert (R : forall id s, getIndex (ax sd t) id false = Ok s -> (0 <= s < Z.of_nat (alen (ax sd t)))%Z \/ s = 0%Z).
    { intros id s H; left; eapply getIndex_range; eauto. }
    assert (R' : forall id s, getIndex (ax sd t) id false = Ok s -> (0 <= s < Z.of_nat (alen (ax sd t)))%Z \/ s = (Z.of_nat (alen (ax sd t)) - 1)%Z).
    { intros id s H; left; eapply getIndex_range; eauto. }
    destruct st as [st|], sp as [sp|].
    + apply Hgen; intros; eauto.
    + apply Hgen; intros s H; [eauto|injection H as <-; auto].
    + apply Hgen; intros s H; [injection H as <-; auto|eauto].
    + intros [= <-]; auto.
  - destruct (constructIndices (ax sd t) ids) as [idx|] eqn:E; simpl; [|discriminate].
    destruct (nodupb idx) eqn:En; [|discriminate]. intros [= <-].
    split; [apply nodupb_NoDup; auto|]. eapply constructIndices_range; eauto.
  - intros [= <-]. destruct (positionsWhere_spec f (vectors sd t)) as [A1 A2]. split; auto.
    intros i Hi; apply A2 in Hi. destruct Hi as [x [Hx _]]. apply nth_error_lt in Hx.
    rewrite vectors_length in Hx; auto.
Qed.

(** [random.sample]: distinct elements of the population. *)
Definition sample_of (sampled tl : list nat) (n : nat) : Prop :=
  NoDup sampled /\ List.length sampled = n /\ forall i, In i sampled -> In i tl.

Lemma NoDup_firstn {A} n (l : list A) : NoDup l -> NoDup (firstn n l).
Proof.
  intros H. rewrite <- (firstn_skipn n l) in H. revert H. generalize (skipn n l); intros s.
  induction (firstn n l) as [|x xs IH]; simpl; intros H; [constructor|].
  inversion H as [|? ? H1 H2]; subst. constructor; auto. intros Hin; apply H1, in_app_iff; auto.
Qed.

Lemma getTargets_ok sd t tg st sp number rnd sampled l : wf t ->
  (forall tl n, baseTargets sd t tg st sp = Ok tl -> number = Some n -> rnd = true ->
     n <= List.length tl -> sample_of sampled tl n) ->
  getTargets sd t tg st sp number rnd sampled = Ok l ->
  NoDup l /\ (forall i, In i l -> i < alen (ax sd t)) /\
  (forall n, number = Some n -> List.length l = n).
Proof.
  intros Hwf Hs H.
  assert (Hb : exists tl, baseTargets sd t tg st sp = Ok tl /\
    match number with
    | None => l = tl
    | Some n => n <= List.length tl /\ (rnd = true /\ l = sampled \/ rnd = false /\ l = firstn n tl)
    end).
  { assert (G : (tl <- baseTargets sd t tg st sp ;;
      match number with
      | None => Ok tl
      | Some n => if List.length tl <? n then Err InvalidArgumentValue
          else if rnd then Ok sampled else Ok (firstn n tl)
      end) = Ok l).
    { revert H; unfold getTargets; generalize (baseTargets sd t tg st sp); intros B H.
      destruct tg, st, sp, number as [[|n]|]; try discriminate; simpl in H; auto;
        destruct rnd; try discriminate; auto. }
    destruct (baseTargets sd t tg st sp) as [tl|]; simpl in G; [|discriminate].
    exists tl; split; auto. destruct number as [n|]; [|congruence].
    destruct (Nat.ltb_spec (List.length tl) n); [discriminate|]. split; auto.
    destruct rnd; injection G as <-; auto. }
  destruct Hb as [tl [Hb Hn]]. destruct (baseTargets_ok _ _ _ _ _ _ Hwf Hb) as [A1 A2].
  destruct number as [n|].
  - destruct Hn as [Hle [[-> ->]|[-> ->]]].
    + destruct (Hs tl n Hb eq_refl eq_refl Hle) as [B1 [B2 B3]].
      repeat split; auto. intros m [= <-]; auto.
    + repeat split; [apply NoDup_firstn; auto| |].
      * intros i Hi. apply A2. rewrite <- (firstn_skipn n tl). apply in_app_iff; auto.
      * intros m [= <-]. rewrite firstn_length; lia.
  - subst l; repeat split; auto. discriminate.
Qed.
End T.
