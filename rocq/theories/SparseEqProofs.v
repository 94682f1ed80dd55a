From Verif Require Import Base NamesModel NamesSpec TableModel TableSpec TableProofs TableOps TableSortProofs SparseModel SparseSpec SparseProofs SparseOpsProofs.
From Coq Require Import Sorted.

(** Two lists sorted by a strict order with the same members are equal. *)
Lemma sorted_same_members {A} (R : A -> A -> Prop) (l : list A) : (forall x, ~ R x x) -> (forall x y z, R x y -> R y z -> R x z) ->
  StronglySorted R l -> forall l', StronglySorted R l' -> (forall x, In x l <-> In x l') -> l = l'.
Proof.
  intros Hirr Htr. induction 1 as [|a l HS IH HF]; intros l' HS' Hin.
  - destruct l' as [|b l']; auto. exfalso. apply (Hin b). simpl; auto.
  - destruct HS' as [|b l' HS' HF']; [exfalso; apply (Hin a); simpl; auto|].
    rewrite Forall_forall in HF, HF'.
    assert (a = b).
    { destruct (proj1 (Hin a)) as [E|Ha]; [simpl; auto|auto|]. destruct (proj2 (Hin b)) as [E|Hb]; [simpl; auto|auto|].
      exfalso. apply (Hirr a). apply Htr with b; auto. }
    subst b. f_equal. apply IH; auto. intros x. split; intros Hx.
    + destruct (proj1 (Hin x)) as [E|H]; [simpl; auto| |auto]. subst. exfalso. eapply Hirr; eauto.
    + destruct (proj2 (Hin x)) as [E|H]; [simpl; auto| |auto]. subst. exfalso. eapply Hirr; eauto.
Qed.

Section P.
Variable V : Type.
Context {EV : EqDec V}.
Variable zero : V.
Implicit Types s : sparse V.
Notation val := (val zero).
Notation valS := (valS zero).

Lemma lexlt_irr sd (x : entry V) : ~ lexlt sd x x.
Proof. unfold lexlt. lia. Qed.
Lemma lexlt_trans sd (x y z : entry V) : lexlt sd x y -> lexlt sd y z -> lexlt sd x z.
Proof. unfold lexlt. lia. Qed.

Lemma val_mem s i j v : entsOK zero s -> (In (mkE i j v) (ents s) <-> val s i j = v /\ v <> zero).
Proof.
  intros [N R]. split.
  - intros H. split; [apply val_In; auto|]. apply R in H. apply H.
  - intros [H1 H2]. apply val_nonzero with (zero := zero); auto.
Qed.
Lemma valS_mem sd s p o v : entsOK zero s -> (In (mkOn sd p o v) (ents s) <-> valS sd s p o = v /\ v <> zero).
Proof. intros H. destruct sd; simpl; apply val_mem; auto. Qed.
Lemma val_range s i j : entsOK zero s -> snp s <= i \/ snf s <= j -> val s i j = zero.
Proof.
  intros HE Hr. destruct (eq_dec (val s i j) zero) as [|Hz]; auto. exfalso.
  pose proof (val_nonzero V zero _ _ _ _ eq_refl Hz) as Hi. apply HE in Hi. simpl in Hi. lia.
Qed.

(** ** identical *)
Lemma same_members a b : entsOK zero a -> entsOK zero b -> (forall i j, val a i j = val b i j) ->
  forall e, In e (ents a) <-> In e (ents b).
Proof. intros Ha Hb H [i j v]. rewrite !val_mem by auto. rewrite H. tauto. Qed.

Lemma three_maps (l l' : list (entry V)) : map ev l = map ev l' -> map er l = map er l' -> map ec l = map ec l' -> l = l'.
Proof.
  revert l'; induction l as [|[a b c] l IH]; intros [|[a' b' c'] l']; simpl; try discriminate; auto.
  intros [= -> H1] [= -> H2] [= -> H3]. f_equal. auto.
Qed.

Lemma cacheOK_sorted sd s : cacheOK s -> sAxis s = Some sd -> StronglySorted (lexlt sd) (ents s).
Proof. unfold cacheOK. intros H E. rewrite E in H. apply H. Qed.

Lemma bothSorted (a b : sparse V) : sinv zero a -> sinv zero b ->
  exists sd a' b', (match sAxis a with
      | None => (sortInternal a Fts false false,
                 if eqbd (sAxis b) (Some Fts) then b else sortInternal b Fts false false)
      | Some sd => (a, if eqbd (sAxis b) (Some sd) then b else sortInternal b sd false false)
      end) = (a', b') /\ sinv zero a' /\ sinv zero b' /\ sameMatrix zero a a' /\ sameMatrix zero b b' /\
   sAxis a' = Some sd /\ sAxis b' = Some sd.
Proof.
  intros [Ea Ca] [Eb Cb].
  assert (Hb : forall sd, let b' := if eqbd (sAxis b) (Some sd) then b else sortInternal b sd false false in
     sinv zero b' /\ sameMatrix zero b b' /\ sAxis b' = Some sd).
  { intros sd. cbv zeta. destruct (eqbd (sAxis b) (Some sd)) eqn:E.
    - apply eqbd_true in E. split; [split; auto|]. split; auto. apply sameMatrix_refl.
    - destruct (sortInternal_spec V zero b sd false false Eb) as [A [B [C _]]]; auto. }
  destruct (sAxis a) as [sd|] eqn:Es.
  - exists sd, a, (if eqbd (sAxis b) (Some sd) then b else sortInternal b sd false false).
    destruct (Hb sd) as [A [B C]]. repeat (split; auto).
  - destruct (sortInternal_spec V zero a Fts false false Ea) as [A [B [C _]]]; auto.
    exists Fts, (sortInternal a Fts false false), (if eqbd (sAxis b) (Some Fts) then b else sortInternal b Fts false false).
    destruct (Hb Fts) as [A' [B' C']]. repeat (split; auto); apply B.
Qed.

Lemma isIdentical_spec a b : sinv zero a -> sinv zero b ->
  let r := isIdenticalSparse a b in
  (snd r = true <-> snp a = snp b /\ snf a = snf b /\ forall i j, val a i j = val b i j) /\
  sinv zero (fst (fst r)) /\ sinv zero (snd (fst r)) /\
  sameMatrix zero a (fst (fst r)) /\ sameMatrix zero b (snd (fst r)).
Proof.
  intros Ha Hb. cbv zeta. unfold isIdenticalSparse.
  destruct ((snp a =? snp b) && (snf a =? snf b)) eqn:E; cbn [negb].
  2:{ cbn [fst snd]. split; [|split; auto; split; auto; split; apply sameMatrix_refl]. split; [discriminate|].
      intros [A [B _]]. rewrite A, B, !Nat.eqb_refl in E. discriminate. }
  apply andb_true_iff in E. destruct E as [E1 E2]. apply Nat.eqb_eq in E1, E2.
  destruct (List.length (ents a) =? List.length (ents b)) eqn:El; cbn [negb].
  2:{ cbn [fst snd]. split; [|split; auto; split; auto; split; apply sameMatrix_refl]. split; [discriminate|].
      intros [_ [_ H]]. exfalso. apply Nat.eqb_neq in El. apply El. apply Permutation_length. apply NoDup_Permutation.
      - apply NoDup_of_map with (f := pos). apply Ha.
      - apply NoDup_of_map with (f := pos). apply Hb.
      - apply same_members; auto; [apply Ha|apply Hb]. }
  destruct (bothSorted a b Ha Hb) as [sd [a' [b' [E [Ha' [Hb' [Ma [Mb [Sa Sb]]]]]]]]].
  rewrite E. cbn [fst snd]. split; [|auto].
  rewrite !andb_true_iff, !eqbd_eq.
  destruct Ma as [A1 [A2 A3]], Mb as [B1 [B2 B3]]. split.
  - intros [[H1 H2] H3]. assert (He : ents a' = ents b') by (apply three_maps; auto).
    split; auto. split; auto. intros i j. rewrite <- A3, <- B3. unfold SparseSpec.val. rewrite He. auto.
  - intros [_ [_ H]]. assert (He : ents a' = ents b').
    { apply (sorted_same_members (lexlt sd)); auto using lexlt_irr, cacheOK_sorted.
      - apply lexlt_trans.
      - apply cacheOK_sorted; auto. apply Ha'.
      - apply cacheOK_sorted; auto. apply Hb'.
      - apply same_members; [apply Ha'|apply Hb'|]. intros i j. rewrite A3, B3; auto. }
    rewrite He. auto.
Qed.

(** ** unique *)
Definition okey (p q : V * nat) : Prop := snd p < snd q.
Lemma uniqueKey_sorted sd s i : StronglySorted (lexlt sd) (ents s) -> StronglySorted okey (uniqueKey sd s i).
Proof.
  unfold uniqueKey. induction 1 as [|a l HS IH HF]; simpl; [constructor|].
  destruct (Nat.eqb_spec (prim sd a) i) as [Hpa|Hpa]; auto. simpl. constructor; auto. rewrite Forall_forall in *.
  intros x Hx. apply in_map_iff in Hx. destruct Hx as [e [<- He]]. apply filter_In in He. destruct He as [He Hp].
  apply Nat.eqb_eq in Hp. specialize (HF e He). unfold lexlt in HF. unfold okey; simpl. lia.
Qed.
Lemma uniqueKey_mem sd s i v o : In (v, o) (uniqueKey sd s i) <-> In (mkOn sd i o v) (ents s).
Proof.
  unfold uniqueKey. rewrite in_map_iff, In_mkOn. split.
  - intros [e [[= A B] He]]. apply filter_In in He. destruct He as [He Hp]. apply Nat.eqb_eq in Hp. eauto.
  - intros [e [He [P1 [P2 P3]]]]. exists e. split; [congruence|]. apply filter_In. split; auto. apply Nat.eqb_eq; auto.
Qed.
Lemma uniqueKey_eq sd s i j : entsOK zero s -> StronglySorted (lexlt sd) (ents s) ->
  (uniqueKey sd s i = uniqueKey sd s j <-> forall o, valS sd s i o = valS sd s j o).
Proof.
  intros HE HS. split.
  - intros H o. apply valS_eq; auto. intros v _. rewrite <- !uniqueKey_mem, H. tauto.
  - intros H. apply (sorted_same_members okey).
    + unfold okey; intros; lia.
    + unfold okey; intros; lia.
    + apply uniqueKey_sorted; auto.
    + apply uniqueKey_sorted; auto.
    + intros [v o]. rewrite !uniqueKey_mem, !valS_mem by auto. rewrite H. tauto.
Qed.

Lemma sUniqueIdx_In sd s is : forall seen, NoDup is -> forall i,
  In i (sUniqueIdx sd s seen is) <->
  exists k, nth_error is k = Some i /\ ~ In (uniqueKey sd s i) seen /\
    forall k' j, k' < k -> nth_error is k' = Some j -> uniqueKey sd s j <> uniqueKey sd s i.
Proof.
  induction is as [|a t IH]; intros seen Hn i; simpl.
  - split; [tauto|]. intros [k [H _]]. destruct k; discriminate.
  - inversion Hn; subst. destruct (mem (uniqueKey sd s a) seen) eqn:Em.
    + apply mem_In in Em. rewrite IH by auto. split.
      * intros [k [K1 [K2 K3]]]. exists (S k). split; auto. split; auto. intros [|k'] j Hk Hj; simpl in Hj.
        -- injection Hj as <-. intros E. apply K2. rewrite <- E; auto.
        -- apply (K3 k'); auto. lia.
      * intros [[|k] [K1 [K2 K3]]]; simpl in K1; [injection K1 as ->; tauto|].
        exists k. split; auto. split; auto. intros k' j Hk Hj. apply (K3 (S k')); auto. lia.
    + apply mem_not_In in Em. simpl. rewrite IH by auto. split.
      * intros [->|[k [K1 [K2 K3]]]].
        -- exists 0. split; auto. split; auto. intros k' j Hk; lia.
        -- exists (S k). split; auto. split; [simpl in K2; tauto|]. intros [|k'] j Hk Hj; simpl in Hj.
           ++ injection Hj as <-. intros E. apply K2. simpl; auto.
           ++ apply (K3 k'); auto. lia.
      * intros [[|k] [K1 [K2 K3]]]; simpl in K1; [injection K1 as ->; auto|]. right.
        exists k. split; auto. split.
        -- simpl. intros [E|E]; auto. apply (K3 0 a) in E; auto. lia.
        -- intros k' j Hk Hj. apply (K3 (S k')); auto. lia.
Qed.
Lemma sUniqueIdx_sub sd s is : forall seen i, In i (sUniqueIdx sd s seen is) -> In i is.
Proof.
  induction is as [|a t IH]; intros seen i; simpl; auto. destruct (mem _ seen); [eauto|]. simpl. intros [H|H]; eauto.
Qed.
Lemma sUniqueIdx_sorted sd s is : forall seen, StronglySorted lt is -> StronglySorted lt (sUniqueIdx sd s seen is).
Proof.
  induction is as [|a t IH]; intros seen HS; simpl; [constructor|]. inversion HS; subst.
  destruct (mem _ seen); auto. constructor; auto. rewrite Forall_forall in *. intros x Hx. apply H2. eapply sUniqueIdx_sub; eauto.
Qed.

Lemma sUnique_spec sd s : sinv zero s ->
  let s' := fst (sUnique sd s) in let r := snd (sUnique sd s) in
  sinv zero s' /\ sameMatrix zero s s' /\ sinv zero r /\ offLen sd r = offLen sd s /\
  exists first, StronglySorted lt first /\ axLen sd r = List.length first /\
    (forall i, In i first <-> i < axLen sd s /\
       forall j, j < i -> exists o, valS sd s j o <> valS sd s i o) /\
    forall k i o, nth_error first k = Some i -> valS sd r k o = valS sd s i o.
Proof.
  intros [HE HC]. cbv zeta. unfold sUnique. cbn [fst snd].
  destruct (sortInternal_spec V zero s sd false false HE) as [HI' [HM [HA [HP _]]]]; auto.
  set (s' := sortInternal s sd false false) in *. pose proof HI' as [HE' HC'].
  set (idx := sUniqueIdx sd s' [] (seq 0 (axLen sd s'))).
  destruct (gatherVecs_spec V zero false sd s' idx HE') as [G1 [G2 [G3 G4]]].
  assert (Hval : forall p o, valS sd s' p o = valS sd s p o) by (intros; destruct sd; apply HM).
  assert (Hal : axLen sd s' = axLen sd s) by (destruct HM as [A [B _]]; destruct sd; auto).
  assert (Hol : offLen sd s' = offLen sd s) by (destruct HM as [A [B _]]; destruct sd; auto).
  assert (HS : StronglySorted (lexlt sd) (ents s')) by (apply cacheOK_sorted; auto).
  split; auto. split; auto. split; auto. split; [congruence|]. exists idx. split; [|split; [|split]]; auto.
  - apply sUniqueIdx_sorted. apply StronglySorted_seq.
  - intros i. unfold idx. rewrite sUniqueIdx_In by apply seq_NoDup. rewrite Hal. split.
    + intros [k [K1 [_ K3]]]. rewrite nth_error_seq in K1. destruct (Nat.ltb_spec k (axLen sd s)); [|discriminate].
      injection K1 as ->. split; auto. intros j Hj.
      assert (Hne : uniqueKey sd s' j <> uniqueKey sd s' i).
      { apply (K3 j); auto. rewrite nth_error_seq. destruct (Nat.ltb_spec j (axLen sd s)); [auto|lia]. }
      (* decidable search over the offsets *)
      assert (Hdec : forall n, (exists o, valS sd s j o <> valS sd s i o) \/ (forall o, o < n -> valS sd s j o = valS sd s i o)).
      { induction n as [|n IHn]; [right; intros; lia|]. destruct IHn as [|IHn]; auto.
        destruct (eq_dec (valS sd s j n) (valS sd s i n)) as [E|E]; [|left; eauto].
        right. intros o Ho. destruct (Nat.eq_dec o n); [subst; auto|apply IHn; lia]. }
      destruct (Hdec (offLen sd s)) as [|Hall]; auto. exfalso. apply Hne. apply uniqueKey_eq; auto.
      intros o. rewrite !Hval. destruct (Nat.lt_ge_cases o (offLen sd s)); auto.
      transitivity zero; [|symmetry]; destruct sd; simpl in *; apply val_range; auto.
    + intros [Hi Hd]. exists i. split; [rewrite nth_error_seq; destruct (Nat.ltb_spec i (axLen sd s)); [auto|lia]|].
      split; [simpl; tauto|]. intros k' j Hk Hj. rewrite nth_error_seq in Hj. destruct (k' <? axLen sd s); [|discriminate].
      injection Hj as <-. intros E. destruct (Hd k' Hk) as [o Ho]. apply Ho.
      rewrite <- !Hval. apply uniqueKey_eq; auto.
  - intros k i o Hk. rewrite (G4 k i o Hk). auto.
Qed.

(** ** dense forms *)
Definition cellOf (m : list (list V)) (i j : nat) : option V :=
  match nth_error m i with Some r => nth_error r j | None => None end.
Definition shaped (m : list (list V)) (n f : nat) : Prop :=
  List.length m = n /\ forall r, In r m -> List.length r = f.

Lemma denseSet_shaped m n f e : shaped m n f -> shaped (denseSet m e) n f.
Proof.
  intros [A B]. unfold denseSet. split; [rewrite upd_length; auto|]. intros r Hr. apply In_nth_error in Hr. destruct Hr as [i Hi].
  rewrite nth_error_upd in Hi. destruct (Nat.eq_dec (er e) i) as [->|]; [|apply B; eapply nth_error_In; eauto].
  destruct (Nat.ltb_spec i (List.length m)); [|discriminate]. injection Hi as <-. rewrite upd_length.
  apply B. apply nth_In; auto.
Qed.
Lemma denseSet_cell m n f e i j : shaped m n f -> er e < n -> ec e < f ->
  cellOf (denseSet m e) i j = if (er e =? i) && (ec e =? j) then Some (ev e) else cellOf m i j.
Proof.
  intros [A B] Hr Hc. unfold cellOf, denseSet. rewrite nth_error_upd.
  destruct (nth_error_is_some m (i:=er e)) as [r Er]; [lia|].
  destruct (Nat.eq_dec (er e) i) as [<-|Hne].
  - rewrite Nat.eqb_refl. destruct (Nat.ltb_spec (er e) (List.length m)); [|lia].
    rewrite (nth_error_nth m (er e) [] Er), nth_error_upd, Er. cbn [andb].
    destruct (Nat.eq_dec (ec e) j) as [<-|]; [|destruct (Nat.eqb_spec (ec e) j); [tauto|auto]].
    rewrite Nat.eqb_refl. rewrite (B r) by (eapply nth_error_In; eauto). destruct (Nat.ltb_spec (ec e) f); [auto|lia].
  - destruct (Nat.eqb_spec (er e) i); [tauto|auto].
Qed.
Lemma dense_fold l : forall m n f, shaped m n f -> (forall e, In e l -> er e < n /\ ec e < f) -> NoDup (map pos l) ->
  shaped (fold_left denseSet l m) n f /\
  forall i j, cellOf (fold_left denseSet l m) i j =
    match find (fun e => (er e =? i) && (ec e =? j)) l with Some e => Some (ev e) | None => cellOf m i j end.
Proof.
  induction l as [|a l IH]; intros m n f Hs Hr Hn; simpl; [auto|]. inversion Hn; subst.
  destruct (Hr a) as [Ra Rb]; [simpl; auto|].
  destruct (IH (denseSet m a) n f) as [S1 S2]; auto using denseSet_shaped.
  { intros e He; apply Hr; simpl; auto. }
  split; auto. intros i j. rewrite S2. rewrite (denseSet_cell m n f a i j Hs Ra Rb).
  destruct ((er a =? i) && (ec a =? j)) eqn:E; auto.
  destruct (find _ l) as [e|] eqn:Ef; auto. exfalso. apply find_some in Ef. destruct Ef as [Hin E'].
  apply andb_true_iff in E, E'. destruct E as [P1 P2], E' as [P3 P4]. apply Nat.eqb_eq in P1, P2, P3, P4.
  apply H1. apply in_map_iff. exists e. split; auto. unfold pos. congruence.
Qed.
Lemma toDense_spec s : entsOK zero s ->
  shaped (toDense zero s) (snp s) (snf s) /\
  forall i j, i < snp s -> j < snf s -> cellOf (toDense zero s) i j = Some (val s i j).
Proof.
  intros [N R]. unfold toDense.
  assert (Hs : shaped (repeat (repeat zero (snf s)) (snp s)) (snp s) (snf s)).
  { split; [apply repeat_length|]. intros r Hr. apply repeat_spec in Hr. subst. apply repeat_length. }
  destruct (dense_fold (ents s) _ (snp s) (snf s) Hs) as [S1 S2]; auto.
  { intros e He. destruct (R e He) as [A [B _]]; auto. }
  split; auto. intros i j Hi Hj. rewrite S2. unfold SparseSpec.val. destruct (find _ (ents s)); auto.
  unfold cellOf. rewrite (nth_error_repeat _ Hi), (nth_error_repeat _ Hj). auto.
Qed.

Lemma ofDense_In np nf m e : In e (ents (ofDense zero np nf m)) <-> cellOf m (er e) (ec e) = Some (ev e) /\ ev e <> zero.
Proof.
  cbn [ofDense ents]. rewrite in_flat_map. unfold cellOf. split.
  - intros [[i r] [Hp He]]. apply In_nth_error in Hp. destruct Hp as [k Hk]. rewrite nth_error_combine, nth_error_seq in Hk.
    destruct (k <? List.length m); [|discriminate]. destruct (nth_error m k) as [r'|] eqn:Er; [|discriminate].
    injection Hk as <- <-. cbn [fst snd] in He. apply in_flat_map in He. destruct He as [[j v] [Hq He]].
    apply In_nth_error in Hq. destruct Hq as [q Hq]. rewrite nth_error_combine, nth_error_seq in Hq.
    destruct (q <? List.length r'); [|discriminate]. destruct (nth_error r' q) as [v'|] eqn:Ev; [|discriminate].
    injection Hq as <- <-. cbn [fst snd] in He. destruct (eqbd v' zero) eqn:Ez; [destruct He|]. destruct He as [<-|[]].
    simpl. rewrite Er. split; auto. apply eqbd_false in Ez; auto.
  - intros [Hc Hz]. destruct (nth_error m (er e)) as [r|] eqn:Er; [|discriminate].
    exists (er e, r). split.
    + apply nth_error_In with (n := er e). rewrite nth_error_combine, nth_error_seq, Er.
      apply nth_error_lt in Er. destruct (Nat.ltb_spec (er e) (List.length m)); [auto|lia].
    + cbn [fst snd]. apply in_flat_map. exists (ec e, ev e). split.
      * apply nth_error_In with (n := ec e). rewrite nth_error_combine, nth_error_seq, Hc.
        apply nth_error_lt in Hc. destruct (Nat.ltb_spec (ec e) (List.length r)); [auto|lia].
      * cbn [fst snd]. rewrite (proj2 (eqbd_neq (ev e) zero) Hz). left. destruct e; auto.
Qed.
Lemma NoDup_combine_seq {A} (l : list A) a : NoDup (combine (seq a (List.length l)) l).
Proof.
  apply NoDup_of_map with (f := fst). revert a. induction l as [|x l IH]; intros a; simpl; [constructor|]. constructor; auto.
  intros Hin. apply in_map_iff in Hin. destruct Hin as [[i y] [<- Hp]]. apply in_combine_l in Hp. apply in_seq in Hp. simpl in Hp. lia.
Qed.
Lemma combine_seq_inj {A} (l : list A) a i x y : In (i, x) (combine (seq a (List.length l)) l) -> In (i, y) (combine (seq a (List.length l)) l) -> x = y.
Proof.
  intros H1 H2. apply In_nth_error in H1, H2. destruct H1 as [k1 E1], H2 as [k2 E2].
  rewrite nth_error_combine, nth_error_seq in E1, E2.
  destruct (k1 <? List.length l); [|discriminate]. destruct (k2 <? List.length l); [|discriminate].
  destruct (nth_error l k1) eqn:F1; [|discriminate]. destruct (nth_error l k2) eqn:F2; [|discriminate].
  injection E1 as A1 <-. injection E2 as A2 <-. assert (k1 = k2) by lia. subst. congruence.
Qed.
Lemma ofDense_spec np nf m : shaped m np nf ->
  sinv zero (ofDense zero np nf m) /\ snp (ofDense zero np nf m) = np /\ snf (ofDense zero np nf m) = nf /\
  forall i j v, cellOf m i j = Some v -> val (ofDense zero np nf m) i j = v.
Proof.
  intros [HL HR].
  assert (HE : entsOK zero (ofDense zero np nf m)).
  { split.
    - cbn [ofDense ents]. apply NoDup_flat_map.
      + apply NoDup_combine_seq.
      + intros [i r] _. cbn [fst snd]. apply NoDup_flat_map.
        * apply NoDup_combine_seq.
        * intros [j v] _. cbn [fst snd]. destruct (eqbd v zero); simpl; constructor; auto. constructor.
        * intros [j v] [j' v'] b b' H1 H2 Hb Hb' E. cbn [fst snd] in *.
          destruct (eqbd v zero); [destruct Hb|]. destruct (eqbd v' zero); [destruct Hb'|].
          destruct Hb as [<-|[]], Hb' as [<-|[]]. unfold pos in E; simpl in E. injection E as ->. f_equal.
          eapply combine_seq_inj; eauto.
      + intros [i r] [i' r'] b b' H1 H2 Hb Hb' E. cbn [fst snd] in *.
        apply in_flat_map in Hb, Hb'. destruct Hb as [[j v] [_ Hb]], Hb' as [[j' v'] [_ Hb']]. cbn [fst snd] in *.
        destruct (eqbd v zero); [destruct Hb|]. destruct (eqbd v' zero); [destruct Hb'|].
        destruct Hb as [<-|[]], Hb' as [<-|[]]. unfold pos in E; simpl in E. injection E as -> ->. f_equal.
        eapply combine_seq_inj; eauto.
    - intros e He. apply ofDense_In in He. destruct He as [Hc Hz]. cbn [ofDense snp snf]. unfold cellOf in Hc.
      destruct (nth_error m (er e)) as [r|] eqn:Er; [|discriminate]. split; [|split; auto].
      + apply nth_error_lt in Er. lia.
      + apply nth_error_lt in Hc. rewrite (HR r) in Hc; auto. eapply nth_error_In; eauto. }
  split; [split; [auto|reflexivity]|]. split; auto. split; auto.
  intros i j v Hc. destruct (eq_dec v zero) as [->|Hz].
  - destruct (eq_dec (val (ofDense zero np nf m) i j) zero) as [|Hnz]; auto. exfalso.
    pose proof (val_nonzero V zero _ _ _ _ eq_refl Hnz) as Hi. apply ofDense_In in Hi. simpl in Hi. destruct Hi as [Hi _].
    rewrite Hc in Hi. injection Hi as Hi. congruence.
  - apply val_In; [apply HE|]. apply ofDense_In. simpl. auto.
Qed.
Lemma shaped_ext m m' n f : shaped m n f -> shaped m' n f ->
  (forall i j, i < n -> j < f -> cellOf m i j = cellOf m' i j) -> m = m'.
Proof.
  intros [A B] [A' B'] H. apply nth_error_ext_len; [congruence|]. intros i Hi. rewrite A in Hi.
  destruct (nth_error_is_some m (i:=i)) as [r Er]; [lia|]. destruct (nth_error_is_some m' (i:=i)) as [r' Er']; [lia|].
  rewrite Er, Er'. f_equal. pose proof (nth_error_In _ _ Er) as I1. pose proof (nth_error_In _ _ Er') as I2.
  apply nth_error_ext_len; [rewrite B, B'; auto|]. intros j Hj. rewrite B in Hj by auto.
  specialize (H i j Hi Hj). unfold cellOf in H. rewrite Er, Er' in H. auto.
Qed.
Lemma dense_roundtrip np nf m : shaped m np nf -> toDense zero (ofDense zero np nf m) = m.
Proof.
  intros Hs. destruct (ofDense_spec np nf m Hs) as [HI [E1 [E2 Hv]]].
  destruct (toDense_spec (ofDense zero np nf m)) as [S1 S2]; [apply HI|]. rewrite E1, E2 in S1, S2.
  eapply shaped_ext; eauto. intros i j Hi Hj. rewrite S2 by auto.
  destruct Hs as [A B]. unfold cellOf. destruct (nth_error_is_some m (i:=i)) as [r Er]; [lia|]. rewrite Er.
  destruct (nth_error_is_some r (i:=j)) as [v Ev]; [rewrite B; auto; eapply nth_error_In; eauto|]. rewrite Ev. f_equal.
  apply Hv. unfold cellOf. rewrite Er; auto.
Qed.
End P.
