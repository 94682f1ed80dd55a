From Verif Require Import Base NamesModel NamesSpec NamesProofs
  TableModel TableSpec TableProofs TablePermProofs TableOps.
From Coq Require Import Sorted.

Section S.
Context {A : Type}.
Variable le : A -> A -> bool.
Lemma insertBy_perm x l : Permutation (insertBy le x l) (x :: l).
Proof.
  induction l as [|y t IH]; simpl; auto. destruct (le x y); auto.
  rewrite IH. apply perm_swap.
Qed.
Lemma stableSort_perm l : Permutation (stableSort le l) l.
Proof.
  unfold stableSort; induction l as [|x xs IH]; simpl; auto.
  rewrite insertBy_perm, IH; auto.
Qed.
Definition lexR (R : A -> A -> Prop) (x y : A) : Prop :=
  (le x y = true /\ le y x = false) \/ (le x y = true /\ le y x = true /\ R x y).
Hypothesis Htot : forall x y, le x y = true \/ le y x = true.
Hypothesis Htr : forall x y z, le x y = true -> le y z = true -> le x z = true.
Variable R : A -> A -> Prop.
Lemma lexR_le x y : lexR R x y -> le x y = true.
Proof. unfold lexR; tauto. Qed.
Lemma insertBy_sorted x S : StronglySorted (lexR R) S -> (forall y, In y S -> R x y) ->
  StronglySorted (lexR R) (insertBy le x S).
Proof.
  induction S as [|y t IH]; simpl; intros HS HR.
  - repeat constructor.
  - inversion HS as [|? ? HSt Hy]; subst. rewrite Forall_forall in Hy.
    assert (HRx : forall z, In z (y :: t) -> le x z = true -> lexR R x z).
    { intros z Hz Hle. destruct (le z x) eqn:E; [right|left]; auto. }
    destruct (le x y) eqn:E.
    + constructor; auto. apply Forall_forall. intros z Hz. apply HRx; auto.
      destruct Hz as [<-|Hz]; auto. eapply Htr; eauto. apply lexR_le; auto.
    + constructor.
      * apply IH; auto.
      * apply Forall_forall; intros z Hz.
        eapply Permutation_in in Hz; [|apply insertBy_perm]. destruct Hz as [<-|Hz]; auto.
        left; split; auto. destruct (Htot y x); auto. congruence.
Qed.
Lemma stableSort_sorted l : StronglySorted R l -> StronglySorted (lexR R) (stableSort le l).
Proof.
  unfold stableSort; induction l as [|x xs IH]; simpl; intros H; [constructor|].
  inversion H as [|? ? H1 H2]; subst. rewrite Forall_forall in H2.
  apply insertBy_sorted; auto.
  intros y Hy. apply H2. eapply Permutation_in; [apply stableSort_perm|exact Hy].
Qed.
End S.

Lemma insertBy_map {A B} (f : A -> B) le1 le2 x l :
  (forall y, In y l -> le1 x y = le2 (f x) (f y)) ->
  map f (insertBy le1 x l) = insertBy le2 (f x) (map f l).
Proof.
  induction l as [|y t IH]; simpl; intros H; auto.
  rewrite <- H by auto. destruct (le1 x y); simpl; auto. f_equal; apply IH; auto.
Qed.
Lemma stableSort_map {A B} (f : A -> B) le1 le2 l :
  (forall x y, In x l -> In y l -> le1 x y = le2 (f x) (f y)) ->
  map f (stableSort le1 l) = stableSort le2 (map f l).
Proof.
  unfold stableSort; induction l as [|x xs IH]; simpl; intros H; auto.
  rewrite insertBy_map with (le2 := le2); [rewrite IH; auto|].
  intros y Hy. apply H; auto. right. eapply Permutation_in; [apply stableSort_perm|exact Hy].
Qed.

Lemma StronglySorted_seq a n : StronglySorted lt (seq a n).
Proof.
  revert a; induction n as [|n IH]; intros a; simpl; constructor; auto.
  apply Forall_forall; intros x Hx; apply in_seq in Hx; lia.
Qed.
Lemma StronglySorted_ext_in {A} (R1 R2 : A -> A -> Prop) l :
  (forall x y, In x l -> In y l -> R1 x y -> R2 x y) -> StronglySorted R1 l -> StronglySorted R2 l.
Proof.
  intros H HS; induction HS as [|x l HS IH HF]; constructor.
  - apply IH; intros; apply H; simpl; auto.
  - rewrite Forall_forall in *. intros y Hy; apply H; simpl; auto.
Qed.
Lemma StronglySorted_nth {A} (R : A -> A -> Prop) l : StronglySorted R l ->
  forall p q x y, p < q -> nth_error l p = Some x -> nth_error l q = Some y -> R x y.
Proof.
  induction 1 as [|z l HS IH HF]; intros p q x y Hpq Hx Hy.
  - destruct p; discriminate.
  - destruct q as [|q]; [lia|]. destruct p as [|p]; simpl in *.
    + injection Hx as <-. rewrite Forall_forall in HF; apply HF. eapply nth_error_In; eauto.
    + apply (IH p q); auto; lia.
Qed.

Section T.
Variable V : Type.
Implicit Types t : table V.

Lemma items_vectors sd t : wf t -> map snd (items sd t) = vectors sd t.
Proof.
  intros H. unfold items. apply map_snd_combine.
  rewrite (vectors_length V sd t H). apply getNames_length, wf_Inv; auto.
Qed.
Lemma items_names sd t : wf t -> map fst (items sd t) = getNames (ax sd t).
Proof.
  intros H. unfold items. apply map_fst_combine.
  rewrite (vectors_length V sd t H). apply getNames_length, wf_Inv; auto.
Qed.
Lemma map_selected {A B} (f : A -> B) idx l : map f (selected idx l) = selected idx (map f l).
Proof.
  unfold selected. induction idx as [|i idx IH]; simpl; auto.
  rewrite map_app, IH, nth_error_map_eq. destruct (nth_error l i); auto.
Qed.

Lemma keyOf_vec sd t i k : wf t ->
  keyOf sd t i k = match nth_error (vectors sd t) i with Some v => nth_error v k | None => None end.
Proof.
  intros Hwf. destruct sd; simpl; [reflexivity|].
  change (nth_error (map (column t) (seq 0 (alen (tf t)))) i) with (nth_error (vectors Fts t) i).
  rewrite vectors_Fts_nth. destruct (Nat.ltb_spec i (alen (tf t))).
  - rewrite column_nth_wf by auto. reflexivity.
  - unfold cell. destruct (nth_error (rows t) k) as [r|] eqn:E; auto.
    apply nth_error_None. destruct Hwf as [_ [H2 _]]. rewrite (H2 r); auto. eapply nth_error_In; eauto.
Qed.

Lemma keyOf_some sd t i k : wf t -> i < alen (ax sd t) -> k < alen (offax sd t) ->
  exists v, keyOf sd t i k = Some v.
Proof.
  intros [H1 [H2 _]] Hi Hk. unfold keyOf, cell. destruct sd; simpl in *.
  - destruct (nth_error_is_some (rows t) (i := i)) as [r Hr]; [lia|]. rewrite Hr.
    apply nth_error_is_some. rewrite (H2 r); auto. eapply nth_error_In; eauto.
  - destruct (nth_error_is_some (rows t) (i := k)) as [r Hr]; [lia|]. rewrite Hr.
    apply nth_error_is_some. rewrite (H2 r); auto. eapply nth_error_In; eauto.
Qed.

Definition sortData (sd : side) t (k : nat) : list V :=
  match sd with Pts => column t k | Fts => nth k (rows t) [] end.
Lemma sortData_nth sd t k i : wf t -> k < alen (offax sd t) ->
  nth_error (sortData sd t k) i = keyOf sd t i k.
Proof.
  intros Hwf Hk. destruct sd; simpl in *.
  - apply column_nth_wf; auto.
  - destruct Hwf as [H1 _]. unfold cell. rewrite <- H1 in Hk.
    rewrite (nth_error_nth' (rows t) [] Hk); auto.
Qed.
Lemma sortData_length sd t k : wf t -> k < alen (offax sd t) ->
  List.length (sortData sd t k) = alen (ax sd t).
Proof.
  intros Hwf Hk. destruct sd; simpl in *.
  - assert (E : forall i, nth_error (column t k) i = None <-> alen (tp t) <= i).
    { intros i. rewrite column_nth_wf by auto. split.
      - intros H. destruct (Nat.lt_ge_cases i (alen (tp t))) as [Hi|]; auto.
        destruct (keyOf_some Pts t i k Hwf Hi Hk) as [v Hv]. simpl in Hv; congruence.
      - intros H. unfold cell. destruct Hwf as [H1 _]. rewrite (proj2 (nth_error_None _ _)); auto. lia. }
    pose proof (proj1 (E (List.length (column t k)))) as E1. rewrite nth_error_None in E1. 
    specialize (E1 (Nat.le_refl _)).
    pose proof (proj2 (E (alen (tp t))) (Nat.le_refl _)) as E2. apply nth_error_None in E2. lia.
  - destruct Hwf as [H1 [H2 _]]. rewrite (H2 (nth k (rows t) [])); auto. apply nth_In. lia.
Qed.

Section Sorting.
Variable leb : V -> V -> bool.
Hypothesis Hleb : TotalOrder leb.
Variable rev : bool.

Lemma dirLe_total x y : dirLe leb rev x y = true \/ dirLe leb rev y x = true.
Proof. unfold dirLe; destruct rev; [destruct (proj1 Hleb x y)|apply Hleb]; auto. Qed.
Lemma dirLe_trans x y z : dirLe leb rev x y = true -> dirLe leb rev y z = true -> dirLe leb rev x z = true.
Proof. unfold dirLe; destruct rev; intros; [apply (proj2 Hleb) with y|apply (proj2 Hleb) with y]; auto. Qed.

Definition optLe (a b : option V) : bool :=
  match a, b with
  | None, _ => true
  | Some _, None => false
  | Some x, Some y => dirLe leb rev x y
  end.
Lemma optLe_total x y : optLe x y = true \/ optLe y x = true.
Proof. destruct x, y; simpl; auto using dirLe_total. Qed.
Lemma optLe_trans x y z : optLe x y = true -> optLe y z = true -> optLe x z = true.
Proof. destruct x, y, z; simpl; auto; try discriminate. apply dirLe_trans. Qed.

Lemma sortOneOrder_perm sd t k : wf t -> k < alen (offax sd t) ->
  Permutation (sortOneOrder leb sd t k rev) (seq 0 (alen (ax sd t))).
Proof.
  intros Hwf Hk. unfold sortOneOrder. fold (sortData sd t k).
  rewrite stableSort_perm. rewrite map_fst_combine by (rewrite seq_length; auto).
  rewrite sortData_length by auto. reflexivity.
Qed.

(** one more (higher-priority) key *)
Lemma sortOne_step sd t cur order k ks : wf t -> wf cur ->
  Permutation order (seq 0 (alen (ax sd t))) ->
  items sd cur = selected order (items sd t) -> sameOff sd t cur ->
  k < alen (offax sd t) ->
  StronglySorted (comesBefore (dirLe leb rev) (keyOf sd t) ks) order ->
  exists cur' order',
    sortOne leb sd cur k rev = Ok cur' /\ wf cur' /\
    Permutation order' (seq 0 (alen (ax sd t))) /\
    items sd cur' = selected order' (items sd t) /\ sameOff sd t cur' /\
    StronglySorted (comesBefore (dirLe leb rev) (keyOf sd t) (k :: ks)) order'.
Proof.
  intros Hwf Hc Hp Hi [Ho1 Ho2] Hk HS.
  destruct (perm_seq_facts _ _ Hp) as [Hd [Hl Hr]].
  assert (HLc : alen (ax sd cur) = alen (ax sd t)).
  { rewrite <- (items_length V sd cur Hc), Hi, selected_length; auto.
    intros i Hin; rewrite items_length; auto. }
  set (so := sortOneOrder leb sd cur k rev).
  assert (Hso : Permutation so (seq 0 (alen (ax sd cur)))).
  { apply sortOneOrder_perm; auto. rewrite Ho1; auto. }
  destruct (perm_seq_facts _ _ Hso) as [Hsd [Hsl Hsr]]. rewrite HLc in Hsr.
  destruct (permute_spec V sd cur so Hc Hso) as [cur' [E [W [O [L I]]]]].
  exists cur', (selected so order).
  assert (Hsr' : forall i, In i so -> i < List.length order) by (intros; rewrite Hl; auto).
  split; [exact E|]. split; [exact W|].
  split.
  { transitivity order; [|exact Hp]. apply selected_permutation. rewrite Hl, <- HLc; auto. }
  split.
  { rewrite I, Hi. apply selected_selected; auto. intros i Hin; rewrite items_length; auto. }
  split; [split; rewrite O; auto|].
  (* the order *)
  assert (Hkey : forall p, keyOf sd cur p k = match nth_error order p with Some i => keyOf sd t i k | None => None end).
  { intros p. rewrite keyOf_vec by auto.
    rewrite <- (items_vectors sd cur Hc), Hi, map_selected, items_vectors by auto.
    rewrite selected_nth by (intros; rewrite vectors_length; auto).
    destruct (nth_error order p) as [i|]; auto. rewrite keyOf_vec; auto. }
  assert (Hkc : k < alen (offax sd cur)) by (rewrite Ho1; auto).
  set (leK := fun i j => optLe (keyOf sd t i k) (keyOf sd t j k)).
  set (f := fun p : nat * V => nth (fst p) order 0).
  set (data := combine (seq 0 (List.length (sortData sd cur k))) (sortData sd cur k)).
  assert (Hdata : forall p v, In (p, v) data -> nth_error order p = Some (f (p, v)) /\ keyOf sd t (f (p, v)) k = Some v).
  { intros p v Hin. apply In_nth_error in Hin; destruct Hin as [m Hm].
    unfold data in Hm. rewrite nth_error_combine, nth_error_seq in Hm.
    destruct (Nat.ltb_spec m (List.length (sortData sd cur k))) as [Hlt|]; [|discriminate].
    destruct (nth_error (sortData sd cur k) m) as [v'|] eqn:Ev; [|discriminate].
    injection Hm as <- <-. rewrite sortData_nth in Ev by auto. rewrite Hkey in Ev.
    simpl. destruct (nth_error order m) as [i|] eqn:Ei; [|discriminate].
    unfold f; simpl. rewrite (nth_error_nth _ _ _ Ei). auto. }
  assert (Hmap : selected so order = stableSort leK (map f data)).
  { rewrite <- stableSort_map with (le1 := fun p q => dirLe leb rev (snd p) (snd q)).
    - unfold so, sortOneOrder. fold (sortData sd cur k). fold data.
      assert (HP := stableSort_perm (fun p q : nat * V => dirLe leb rev (snd p) (snd q)) data).
      revert HP. generalize (stableSort (fun p q : nat * V => dirLe leb rev (snd p) (snd q)) data). intros SD HP.
      assert (HinD : forall x, In x SD -> In x data) by (intros x Hx; eapply Permutation_in; eauto).
      clear - HinD Hdata. induction SD as [|[p v] SD IH]; simpl; auto.
      destruct (Hdata p v) as [A _]; [apply HinD; simpl; auto|].
      rewrite A; simpl. f_equal. apply IH. intros; apply HinD; simpl; auto.
    - intros [p v] [q w] H1 H2. unfold leK. destruct (Hdata _ _ H1) as [_ B1]. destruct (Hdata _ _ H2) as [_ B2].
      rewrite B1, B2; auto. }
  assert (Hmd : map f data = order).
  { apply nth_error_ext; intros m. rewrite nth_error_map_eq. unfold data.
    rewrite nth_error_combine, nth_error_seq, sortData_length by auto. rewrite HLc.
    destruct (Nat.ltb_spec m (alen (ax sd t))) as [Hm|Hm].
    - assert (Hm' : m < alen (ax sd cur)) by (rewrite HLc; auto).
      destruct (keyOf_some sd cur m k Hc Hm' Hkc) as [v Hv].
      rewrite <- sortData_nth in Hv by auto. rewrite Hv; simpl.
      unfold f; simpl. rewrite <- Hl in Hm. rewrite (nth_error_nth' order 0 Hm); auto.
    - simpl. symmetry; apply nth_error_None; lia. }
  rewrite Hmap, Hmd.
  eapply StronglySorted_ext_in; [|apply (stableSort_sorted leK); [| |exact HS]].
  - intros x y Hx Hy HL.
    assert (Hx' : x < alen (ax sd t)) by (apply Hr; eapply Permutation_in; [apply stableSort_perm|exact Hx]).
    assert (Hy' : y < alen (ax sd t)) by (apply Hr; eapply Permutation_in; [apply stableSort_perm|exact Hy]).
    destruct (keyOf_some sd t x k Hwf Hx' Hk) as [vx Ex].
    destruct (keyOf_some sd t y k Hwf Hy' Hk) as [vy Ey].
    exists vx, vy. split; auto. split; auto.
    unfold lexR, leK in HL. rewrite Ex, Ey in HL. exact HL.
  - intros; apply optLe_total.
  - intros x y z; apply optLe_trans.
Qed.

Lemma sortKeys_spec sd t : wf t -> forall krs cur order ks,
  wf cur -> Permutation order (seq 0 (alen (ax sd t))) ->
  items sd cur = selected order (items sd t) -> sameOff sd t cur ->
  (forall k, In k krs -> k < alen (offax sd t)) ->
  StronglySorted (comesBefore (dirLe leb rev) (keyOf sd t) ks) order ->
  exists cur' order',
    sortKeys leb sd cur krs rev = Ok cur' /\ wf cur' /\
    Permutation order' (seq 0 (alen (ax sd t))) /\
    items sd cur' = selected order' (items sd t) /\ sameOff sd t cur' /\
    StronglySorted (comesBefore (dirLe leb rev) (keyOf sd t) (List.rev krs ++ ks)) order'.
Proof.
  intros Hwf. induction krs as [|k krs IH]; intros cur order ks Hc Hp Hi Ho Hk HS; simpl.
  - exists cur, order; repeat split; auto; try apply Hc; apply Ho.
  - destruct (sortOne_step sd t cur order k ks) as [c1 [o1 [E1 [W1 [P1 [I1 [O1 S1]]]]]]]; auto.
    { apply Hk; simpl; auto. }
    rewrite E1; simpl.
    destruct (IH c1 o1 (k :: ks)) as [c2 [o2 [E2 [W2 [P2 [I2 [O2 S2]]]]]]]; auto.
    { intros; apply Hk; simpl; auto. }
    exists c2, o2. rewrite <- app_assoc. simpl. repeat split; auto; try apply W2; apply O2.
Qed.

Lemma sortByKeys_spec sd t ks : wf t -> (forall k, In k ks -> k < alen (offax sd t)) ->
  exists t' order,
    sortByKeys leb sd t ks rev = Ok t' /\ wf t' /\
    Permutation order (seq 0 (alen (ax sd t))) /\
    items sd t' = selected order (items sd t) /\ sameOff sd t t' /\
    forall p q i j, p < q -> nth_error order p = Some i -> nth_error order q = Some j ->
      comesBefore (dirLe leb rev) (keyOf sd t) ks i j.
Proof.
  intros Hwf Hk.
  destruct (sortKeys_spec sd t Hwf (List.rev ks) t (seq 0 (alen (ax sd t))) []) as [t' [order [E [W [P [I [O S]]]]]]]; auto.
  - rewrite <- (items_length V sd t Hwf), selected_all; auto.
  - split; auto.
  - intros k Hin; apply Hk, in_rev; auto.
  - apply StronglySorted_seq.
  - exists t', order. rewrite rev_involutive, app_nil_r in S. repeat split; auto; try apply W; try apply O.
    intros p q i j. apply (StronglySorted_nth _ _ S).
Qed.
End Sorting.

(** sort by a key function *)
Lemma sortByFunction_spec {K} (kleb : K -> K -> bool) sd t (key : list V -> K) rv :
  TotalOrder kleb -> wf t ->
  exists t' order,
    sortByFunction kleb sd t key rv = Ok t' /\ wf t' /\
    Permutation order (seq 0 (alen (ax sd t))) /\
    items sd t' = selected order (items sd t) /\ sameOff sd t t' /\
    forall p q i j, p < q -> nth_error order p = Some i -> nth_error order q = Some j ->
      comesBefore (dirLe kleb rv) (fun i _ => option_map key (nth_error (vectors sd t) i)) [0] i j.
Proof.
  intros HT Hwf. unfold sortByFunction.
  set (order := sortOrder kleb key rv (vectors sd t)).
  set (data := combine (seq 0 (List.length (vectors sd t))) (vectors sd t)).
  assert (Hp : Permutation order (seq 0 (alen (ax sd t)))).
  { unfold order, sortOrder. rewrite stableSort_perm. rewrite map_fst_combine by (rewrite seq_length; auto).
    rewrite vectors_length by auto. reflexivity. }
  destruct (permute_spec V sd t order Hwf Hp) as [t' [E [W [O [L I]]]]].
  exists t', order. repeat split; auto; try apply W; try (rewrite O; auto).
  set (le := fun i j => match option_map key (nth_error (vectors sd t) i), option_map key (nth_error (vectors sd t) j) with
     | None, _ => true | Some _, None => false | Some x, Some y => dirLe kleb rv x y end).
  assert (Hdata : forall p v, In (p, v) data -> nth_error (vectors sd t) p = Some v).
  { intros p v Hin. apply In_nth_error in Hin; destruct Hin as [m Hm].
    unfold data in Hm. rewrite nth_error_combine, nth_error_seq in Hm.
    destruct (Nat.ltb_spec m (List.length (vectors sd t))) as [Hlt|]; [|discriminate].
    destruct (nth_error (vectors sd t) m) as [v'|] eqn:Ev; [|discriminate].
    injection Hm as <- <-. auto. }
  assert (Hmap : order = stableSort le (seq 0 (alen (ax sd t)))).
  { unfold order, sortOrder. fold data. erewrite stableSort_map with (le2 := le).
    - unfold data. rewrite map_fst_combine by (rewrite seq_length; auto). rewrite vectors_length; auto.
    - intros [p v] [q w] H1 H2. unfold le. simpl. rewrite (Hdata _ _ H1), (Hdata _ _ H2). simpl.
      unfold dirLe. destruct rv; auto. }
  assert (S : StronglySorted (lexR le lt) order).
  { rewrite Hmap. apply stableSort_sorted; [| |apply StronglySorted_seq].
    - intros x y; unfold le. destruct (option_map key (nth_error _ x)), (option_map key (nth_error _ y)); auto.
      unfold dirLe; destruct rv; [destruct (proj1 HT k k0)|apply HT]; auto.
    - intros x y z; unfold le.
      destruct (option_map key (nth_error (vectors sd t) x)), (option_map key (nth_error (vectors sd t) y)), (option_map key (nth_error (vectors sd t) z)); auto; try discriminate.
      unfold dirLe; destruct rv; intros; [apply (proj2 HT) with k0|apply (proj2 HT) with k0]; auto. }
  intros p q i j Hpq Hi Hj. pose proof (StronglySorted_nth _ _ S p q i j Hpq Hi Hj) as HL.
  destruct (perm_seq_facts _ _ Hp) as [_ [_ Hr]].
  assert (Hi' : i < List.length (vectors sd t)) by (rewrite vectors_length by auto; apply Hr; eapply nth_error_In; eauto).
  assert (Hj' : j < List.length (vectors sd t)) by (rewrite vectors_length by auto; apply Hr; eapply nth_error_In; eauto).
  destruct (nth_error_is_some _ Hi') as [x Hx]. destruct (nth_error_is_some _ Hj') as [y Hy].
  simpl. rewrite Hx, Hy. exists (key x), (key y). split; auto. split; auto.
  unfold lexR, le in HL. rewrite Hx, Hy in HL. exact HL.
Qed.
End T.
