(** Proofs about arithmetic on Sparse objects (C59). *)
From Verif Require Import Base NamesModel TableModel TableOps MatchModel BinOpModel SparseModel SparseSpec SparseProofs SparseOpsProofs SparseEqProofs ElementsCalcProofs SparseArithModel SparseArithSpec.
From Coq Require Import Sorted.
Open Scope nat_scope.

Lemma NoDup_map_inv' {A B} (f : A -> B) (l : list A) : forall x y, NoDup (map f l) -> In x l -> In y l -> f x = f y -> x = y.
Proof.
  induction l as [|z l IH]; intros x y N Hx Hy E; [destruct Hx|]. cbn in N. inversion N as [|u v M D]; subst.
  destruct Hx as [->|Hx]; destruct Hy as [->|Hy]; [reflexivity| | |apply IH; assumption]; exfalso; apply M.
  - rewrite E. apply in_map. exact Hy.
  - rewrite <- E. apply in_map. exact Hx.
Qed.

Section P.
Variable V : Type.
Context {EV : EqDec V}.
Variables zero one nan : V.
Variable isPos : V -> bool.
Variable np : arith -> V -> V -> result V.
Variable sc : arith -> V -> V -> V.
Variable floorV : V -> V.
Implicit Types s b r : sparse V.
Local Notation val := (val zero).
Local Notation sinv := (sinv zero).
Local Notation entsOK := (entsOK zero).
Local Notation orZero := (orZero _ zero).
Local Notation entryAt := (entryAt _).

Lemma entryAt_val s i j : orZero (entryAt s i j) = val s i j.
Proof. unfold SparseArithModel.orZero, SparseArithModel.entryAt, SparseSpec.val. destruct (find _ _); reflexivity. Qed.
Lemma entryAt_some s i j v : entsOK s -> entryAt s i j = Some v -> val s i j = v /\ v <> zero.
Proof.
  intros [_ H] E. rewrite <- entryAt_val, E. split; [reflexivity|]. unfold SparseArithModel.entryAt in E.
  destruct (find _ _) as [e|] eqn:F; [|discriminate]. injection E as <-. apply find_some in F. apply (H e). apply F.
Qed.
Lemma entryAt_none s i j : entryAt s i j = None -> val s i j = zero.
Proof. intros E. rewrite <- entryAt_val, E. reflexivity. Qed.
Lemma entryAt_zero s i j : entsOK s -> val s i j = zero -> entryAt s i j = None.
Proof. intros H E. destruct (entryAt s i j) as [v|] eqn:F; [|reflexivity]. apply entryAt_some in F; [|exact H]. destruct F; congruence. Qed.

Lemma ofStored_In n f g e : In e (ents (ofStored _ zero n f g)) <-> er e < n /\ ec e < f /\ g (er e) (ec e) = Some (ev e) /\ ev e <> zero.
Proof.
  unfold ofStored. cbn [ents]. rewrite in_flat_map. split.
  - intros (i & Hi & H). rewrite in_flat_map in H. destruct H as (j & Hj & H). apply in_seq in Hi. apply in_seq in Hj.
    destruct (g i j) as [v|] eqn:G; [|destruct H]. destruct (eqbd v zero) eqn:Z; [destruct H|]. destruct H as [<-|[]]. cbn.
    repeat split; try lia. exact G. intros ->. rewrite eqbd_refl in Z. discriminate.
  - intros (H1 & H2 & H3 & H4). exists (er e). split; [apply in_seq; lia|]. rewrite in_flat_map. exists (ec e). split; [apply in_seq; lia|].
    rewrite H3. destruct (eqbd (ev e) zero) eqn:Z; [apply eqbd_true in Z; contradiction|]. left. destruct e; reflexivity.
Qed.
Lemma ofStored_spec n f g : let r := ofStored _ zero n f g in
  sinv r /\ snp r = n /\ snf r = f /\ forall i j, i < n -> j < f -> val r i j = orZero (g i j).
Proof.
  intros r. assert (E : entsOK r).
  { split; [|intros e He; apply ofStored_In in He; cbn; tauto]. unfold r, ofStored. cbn [ents]. apply NoDup_flat_map.
    - apply seq_NoDup.
    - intros i Hi. apply NoDup_flat_map; [apply seq_NoDup| |].
      + intros j Hj. destruct (g i j) as [v|]; [|constructor]. destruct (eqbd v zero); [constructor|]. constructor; [intros []|constructor].
      + intros j j' x y _ _ Hx Hy K. destruct (g i j) as [v|]; [|destruct Hx]. destruct (eqbd v zero); [destruct Hx|].
        destruct (g i j') as [v'|]; [|destruct Hy]. destruct (eqbd v' zero); [destruct Hy|]. destruct Hx as [<-|[]]. destruct Hy as [<-|[]]. unfold pos in K. cbn in K. congruence.
    - intros i i' x y _ _ Hx Hy K. apply in_flat_map in Hx. destruct Hx as (j & _ & Hx). apply in_flat_map in Hy. destruct Hy as (j' & _ & Hy).
      destruct (g i j) as [v|]; [|destruct Hx]. destruct (eqbd v zero); [destruct Hx|].
      destruct (g i' j') as [v'|]; [|destruct Hy]. destruct (eqbd v' zero); [destruct Hy|]. destruct Hx as [<-|[]]. destruct Hy as [<-|[]]. unfold pos in K. cbn in K. congruence. }
  split; [split; [exact E|reflexivity]|]. split; [reflexivity|]. split; [reflexivity|].
  intros i j Hi Hj. destruct (g i j) as [v|] eqn:G; cbn.
  - destruct (eq_dec v zero) as [->|N].
    + destruct (eq_dec (val r i j) zero) as [e|N]; [exact e|]. pose proof (val_nonzero _ _ r i j (val r i j) eq_refl N) as I. apply ofStored_In in I. cbn in I. rewrite G in I. destruct I as (_ & _ & I & _). congruence.
    + apply val_In; [apply E|]. apply ofStored_In. cbn. auto.
  - destruct (eq_dec (val r i j) zero) as [e|N]; [exact e|]. pose proof (val_nonzero _ _ r i j (val r i j) eq_refl N) as I. apply ofStored_In in I. cbn in I. rewrite G in I. destruct I as (_ & _ & I & _). discriminate.
Qed.
Lemma scBinop_spec g s b : snp s = snp b -> snf s = snf b -> g zero zero = zero ->
  exists r, scBinop _ zero g s b = Ok r /\ sinv r /\ SameShape s r /\ forall i j, i < snp s -> j < snf s -> val r i j = g (val s i j) (val b i j).
Proof.
  intros H1 H2 Z. unfold scBinop. rewrite H1, H2, !Nat.eqb_refl. cbn [andb]. eexists. split; [reflexivity|].
  match goal with |- context[ofStored _ zero ?n ?f ?g] => destruct (ofStored_spec n f g) as (A & B & C & D) end.
  split; [exact A|]. split; [split; congruence|]. intros i j Hi Hj. rewrite D by assumption. rewrite <- !entryAt_val.
  destruct (entryAt s i j), (entryAt b i j); cbn; auto.
Qed.
Lemma scBinop_shape g s b : snp s <> snp b \/ snf s <> snf b -> scBinop _ zero g s b = Err ValueErr.
Proof.
  intros H. unfold scBinop. destruct (snp s =? snp b) eqn:E1; [|reflexivity]. destruct (snf s =? snf b) eqn:E2; [|reflexivity].
  apply Nat.eqb_eq in E1. apply Nat.eqb_eq in E2. destruct H; contradiction.
Qed.
(** ** counting the stored elements *)
Lemma pos_range s : entsOK s -> incl (map pos (ents s)) (list_prod (seq 0 (snp s)) (seq 0 (snf s))).
Proof.
  intros [_ H] [i j] Hp. apply in_map_iff in Hp. destruct Hp as (e & E & He). apply H in He. unfold pos in E. injection E as <- <-.
  apply in_prod; apply in_seq; lia.
Qed.
Lemma count_le s : entsOK s -> List.length (ents s) <= snp s * snf s.
Proof.
  intros H. pose proof (NoDup_incl_length (proj1 H) (pos_range s H)) as L. rewrite map_length, prod_length, !seq_length in L. exact L.
Qed.
Lemma count_full s : entsOK s -> (List.length (ents s) = snp s * snf s <-> NoZeros zero s).
Proof.
  intros H. split.
  - intros L i j Hi Hj Z. assert (N : ~ In (i, j) (map pos (ents s))).
    { intros I. apply in_map_iff in I. destruct I as (e & E & He). unfold pos in E. injection E as <- <-. destruct H as [N H]. pose proof (H e He) as (_ & _ & K).
      apply K. rewrite <- Z. symmetry. apply val_In; [exact N|]. destruct e; exact He. }
    assert (L2 : List.length ((i, j) :: map pos (ents s)) <= List.length (list_prod (seq 0 (snp s)) (seq 0 (snf s)))).
    { apply NoDup_incl_length; [constructor; [exact N|apply H]|]. intros p [<-|Hp]; [apply in_prod; apply in_seq; lia|apply pos_range; assumption]. }
    cbn [List.length] in L2. rewrite map_length, prod_length, !seq_length in L2. lia.
  - intros F. apply Nat.le_antisymm; [apply count_le; exact H|].
    assert (L : List.length (list_prod (seq 0 (snp s)) (seq 0 (snf s))) <= List.length (map pos (ents s))).
    { apply NoDup_incl_length.
      - generalize (seq_NoDup (snp s) 0). generalize (seq_NoDup (snf s) 0). generalize (seq 0 (snp s)) (seq 0 (snf s)). intros l l' N' N. clear H F.
        induction N as [|x l Hx N IH]; cbn; [constructor|]. apply NoDup_app_intro.
        + apply FinFun.Injective_map_NoDup; [intros u v E; congruence|exact N'].
        + exact IH.
        + intros [u v] A B. apply in_map_iff in A. destruct A as (w & E & _). apply in_prod_iff in B. destruct B as [B _]. injection E as -> ->. contradiction.
      - intros [i j] I. apply in_prod_iff in I. destruct I as [I J]. apply in_seq in I. apply in_seq in J.
        pose proof (val_nonzero _ _ s i j (val s i j) eq_refl (F i j ltac:(lia) ltac:(lia))) as K. apply in_map_iff. eexists. split; [|exact K]. reflexivity. }
    rewrite map_length, prod_length, !seq_length in L. exact L.
Qed.
Lemma containsZero_false s : entsOK s -> (sparseContainsZero _ s = false <-> NoZeros zero s).
Proof.
  intros H. rewrite <- count_full by exact H. unfold sparseContainsZero. pose proof (count_le s H). rewrite Nat.ltb_ge. lia.
Qed.
(** ** quotients *)
Lemma scDivide_spec s b : entsOK s -> entsOK b -> snp s = snp b -> snf s = snf b -> NoZeros zero b ->
  exists m, scDivide _ zero nan sc s b = Ok m /\ shaped V m (snp s) (snf s) /\ forall i j, i < snp s -> j < snf s -> cellOf V m i j = Some (sc Truediv (val s i j) (val b i j)).
Proof.
  intros Es Eb H1 H2 F. unfold scDivide, scBinop. rewrite H1, H2, !Nat.eqb_refl. cbn [andb rbind]. eexists. split; [reflexivity|].
  match goal with |- context[ofStored _ zero ?n ?f ?g] => destruct (ofStored_spec n f g) as (A & B & C & D) end. split.
  - split; [rewrite map_length, seq_length; reflexivity|]. intros q Hq. apply in_map_iff in Hq. destruct Hq as (i & <- & _). rewrite map_length, seq_length. reflexivity.
  - intros i j Hi Hj. unfold cellOf.
    rewrite nth_error_map. rewrite (nth_error_nth' (seq 0 (snp b)) 0) by (rewrite seq_length; lia). cbn [option_map]. rewrite nth_error_map.
    rewrite (nth_error_nth' (seq 0 (snf b)) 0) by (rewrite seq_length; lia). cbn [option_map]. rewrite !seq_nth by lia. cbn [Nat.add]. f_equal.
    specialize (D i j Hi Hj). destruct (entryAt b i j) as [y|] eqn:Y.
    2:{ apply entryAt_none in Y. exfalso. apply (F i j); [lia|lia|exact Y]. }
    match goal with |- context[entryAt ?r i j] => destruct (entryAt r i j) as [v|] eqn:R end.
    + apply entryAt_some in R; [|apply A]. destruct R as [R _]. rewrite <- R, D. rewrite <- !entryAt_val, Y. destruct (entryAt s i j); reflexivity.
    + apply entryAt_none in R. etransitivity; [symmetry; exact R|]. rewrite D. rewrite <- !entryAt_val, Y. destruct (entryAt s i j); reflexivity.
Qed.
(** ** new values for the stored elements *)
Lemma NoDup_filter_map {A B} (f : A -> B) (p : A -> bool) l : NoDup (map f l) -> NoDup (map f (filter p l)).
Proof.
  induction l as [|x l IH]; cbn; intros H; [constructor|]. inversion H as [|u v N D]; subst. destruct (p x); cbn; [|apply IH; exact D].
  constructor; [|apply IH; exact D]. intros I. apply N. apply in_map_iff in I. destruct I as (y & E & I). apply filter_In in I. apply in_map_iff. exists y. tauto.
Qed.
Lemma combine_pos (l : list (entry V)) : forall data, List.length data = List.length l ->
  map (@pos V) (map (fun p : entry V * V => mkE (er (fst p)) (ec (fst p)) (snd p)) (combine l data)) = map pos l.
Proof. induction l as [|e l IH]; intros [|v data] L; cbn in *; try discriminate; [reflexivity|]. rewrite IH by lia. reflexivity. Qed.
Lemma restore_spec s data : entsOK s -> List.length data = List.length (ents s) ->
  exists r, restore _ zero s data = Ok r /\ sinv r /\ SameShape s r /\
    (forall k e v, nth_error (ents s) k = Some e -> nth_error data k = Some v -> val r (er e) (ec e) = v) /\
    (forall i j, val s i j = zero -> val r i j = zero).
Proof.
  intros [N H] L. unfold restore. rewrite L, Nat.eqb_refl. eexists. split; [reflexivity|].
  set (l := map _ _). assert (E : map pos l = map pos (ents s)) by (apply combine_pos; exact L).
  set (r := mkSp _ _ _ _ _).
  assert (I : forall e, In e (ents r) <-> In e l /\ ev e <> zero).
  { intros e. unfold r. cbn [ents]. rewrite filter_In. destruct (eqbd (ev e) zero) eqn:Z; cbn.
    - apply eqbd_true in Z. split; intros [A B]; [discriminate|contradiction].
    - split; intros [A B]; (split; [exact A|]); [|reflexivity]. intros Y. rewrite Y, eqbd_refl in Z. discriminate. }
  assert (Il : forall e, In e l -> exists k x v, nth_error (ents s) k = Some x /\ nth_error data k = Some v /\ e = mkE (er x) (ec x) v).
  { intros e He. unfold l in He. apply in_map_iff in He. destruct He as ([x v] & <- & He). apply In_nth_error in He. destruct He as [k He].
    exists k, x, v. clear - He. cbn. revert data k He. generalize (ents s). induction l as [|y l IH]; intros [|w data] [|k] He; cbn in *; try discriminate.
    - injection He as <- <-. auto.
    - destruct (IH data k He) as (A & B & _). auto. }
  assert (Er : entsOK r).
  { split.
    - unfold r. cbn [ents]. apply NoDup_filter_map. rewrite E. exact N.
    - intros e He. apply I in He. destruct He as [He Z]. apply Il in He. destruct He as (k & x & v & A & _ & ->). apply nth_error_In in A. apply H in A. cbn in *. tauto. }
  split; [split; [exact Er|reflexivity]|]. split; [split; reflexivity|]. split.
  - intros k e v A B. assert (In (mkE (er e) (ec e) v) l).
    { unfold l. apply in_map_iff. exists (e, v). split; [reflexivity|]. clear - A B. revert data k A B. generalize (ents s). induction l as [|y l IH]; intros [|w data] [|k] A B; cbn in *; try discriminate.
      - injection A as <-. injection B as <-. auto.
      - right. eapply IH; eassumption. }
    destruct (eq_dec v zero) as [->|Z].
    + destruct (eq_dec (val r (er e) (ec e)) zero) as [Y|Y]; [exact Y|]. exfalso.
      pose proof (val_nonzero _ _ r _ _ _ eq_refl Y) as K. apply I in K. destruct K as [K _].
      assert (X : mkE (er e) (ec e) (val r (er e) (ec e)) = mkE (er e) (ec e) zero).
      { assert (ND : NoDup (map pos l)) by (rewrite E; exact N). apply (NoDup_map_inv' (@pos V) l _ _ ND K H0). reflexivity. }
      injection X as X. contradiction.
    + apply val_In; [apply Er|]. apply I. split; [assumption|exact Z].
  - intros i j Z. destruct (eq_dec (val r i j) zero) as [Y|Y]; [exact Y|]. exfalso.
    pose proof (val_nonzero _ _ r _ _ _ eq_refl Y) as K. apply I in K. destruct K as [K _]. apply Il in K. destruct K as (k & x & v & A & _ & K). injection K as -> -> _.
    apply nth_error_In in A. pose proof (H x A) as (_ & _ & Q). apply Q. rewrite <- Z. symmetry. apply val_In; [exact N|]. destruct x; exact A.
Qed.
(** ** scalars *)
Lemma storedScalar_spec refl o s c : sinv s ->
  match storedScalar _ zero np refl o s c with
  | Ok r => sinv r /\ SameShape s r /\ forall i j, i < snp s -> j < snf s -> (val s i j = zero -> val r i j = zero) /\ (val s i j <> zero -> npTurn _ np refl o (val s i j) c = Ok (val r i j))
  | Err e => exists i j, i < snp s /\ j < snf s /\ val s i j <> zero /\ npTurn _ np refl o (val s i j) c = Err e
  end.
Proof.
  intros [E C]. unfold storedScalar. destruct (rmapM _ (ents s)) as [data|e] eqn:R; cbn [rbind].
  - destruct (restore_spec s data E) as (r & -> & A & B & D & F); [apply (rmapM_ok_length _ _ R)|].
    split; [exact A|]. split; [exact B|]. intros i j Hi Hj. split; [apply F|]. intros N.
    pose proof (val_nonzero _ _ s i j _ eq_refl N) as I. apply In_nth_error in I. destruct I as [k I].
    destruct (rmapM_ok_nth _ _ R k I) as (v & V2 & V1). pose proof (D k _ v I V2) as G. cbn in G. rewrite G. exact V1.
  - apply rmapM_fail in R. destruct R as (x & I & R). destruct E as [N H]. pose proof (H x I) as (H1 & H2 & H3). exists (er x), (ec x).
    assert (val s (er x) (ec x) = ev x) as -> by (apply val_In; [exact N|destruct x; exact I]). auto.
Qed.
Lemma dense_map_spec s (g : V -> result V) : entsOK s ->
  match (m <- rmapM (rmapM g) (toDense zero s) ;; Ok (ofDense zero (snp s) (snf s) m)) with
  | Ok r => sinv r /\ ElementsAre zero s r (fun i j => g (val s i j))
  | Err e => RaisesAt s (fun i j => g (val s i j)) e
  end.
Proof.
  intros E. destruct (toDense_spec _ zero s E) as [[S1 S2] T]. destruct (rmapM _ (toDense zero s)) as [m|e] eqn:R; cbn [rbind].
  - assert (Sh : shaped V m (snp s) (snf s)).
    { split; [rewrite (rmapM_ok_length _ _ R); exact S1|]. intros q Hq. apply In_nth_error in Hq. destruct Hq as [k Hq].
      destruct (nth_error (toDense zero s) k) as [row|] eqn:K.
      2:{ apply nth_error_None in K. rewrite <- (rmapM_ok_length _ _ R) in K. apply nth_error_None in K. congruence. }
      destruct (rmapM_ok_nth _ _ R k K) as (v & V2 & V1). rewrite V2 in Hq. injection Hq as ->. rewrite (rmapM_ok_length _ _ V1). apply S2. eapply nth_error_In. exact K. }
    destruct (ofDense_spec _ zero (snp s) (snf s) m Sh) as (A & B & D & F). split; [exact A|]. split; [split; assumption|].
    intros i j Hi Hj. specialize (T i j Hi Hj). unfold cellOf in T. destruct (nth_error (toDense zero s) i) as [row|] eqn:K; [|discriminate].
    destruct (rmapM_ok_nth _ _ R i K) as (row' & V2 & V1). destruct (rmapM_ok_nth _ _ V1 j T) as (v & V4 & V3). rewrite V3. f_equal. symmetry. apply F.
    unfold cellOf. rewrite V2. exact V4.
  - apply rmapM_fail in R. destruct R as (row & I & R). apply rmapM_fail in R. destruct R as (v & J & R). apply In_nth_error in I. destruct I as [i I]. apply In_nth_error in J. destruct J as [j J].
    assert (Hi : i < snp s) by (rewrite <- S1; apply nth_error_Some; congruence).
    assert (Hj : j < snf s) by (rewrite <- (S2 row (nth_error_In _ _ I)); apply nth_error_Some; congruence).
    exists i, j. split; [exact Hi|]. split; [exact Hj|]. specialize (T i j Hi Hj). unfold cellOf in T. rewrite I, J in T. injection T as <-. exact R.
Qed.
Lemma grid_spec s (g : nat -> nat -> result V) :
  match (m <- rmapM (fun i => rmapM (g i) (seq 0 (snf s))) (seq 0 (snp s)) ;; Ok (ofDense zero (snp s) (snf s) m)) with
  | Ok r => sinv r /\ ElementsAre zero s r g
  | Err e => RaisesAt s g e
  end.
Proof.
  destruct (rmapM _ (seq 0 (snp s))) as [m|e] eqn:R; cbn [rbind].
  - assert (K : forall i, i < snp s -> exists row, nth_error m i = Some row /\ rmapM (g i) (seq 0 (snf s)) = Ok row).
    { intros i Hi. destruct (rmapM_ok_nth _ _ R i (x:=i)) as (row & V2 & V1); [rewrite (nth_error_nth' _ 0) by (rewrite seq_length; lia); rewrite seq_nth by lia; reflexivity|]. eauto. }
    assert (Lm : List.length m = snp s) by (rewrite (rmapM_ok_length _ _ R), seq_length; reflexivity).
    assert (Sh : shaped V m (snp s) (snf s)).
    { split; [exact Lm|]. intros q Hq. apply In_nth_error in Hq. destruct Hq as [i Hq].
      assert (Hi : i < snp s) by (rewrite <- Lm; apply nth_error_Some; congruence). destruct (K i Hi) as (row & V1 & V2). rewrite V1 in Hq. injection Hq as ->.
      rewrite (rmapM_ok_length _ _ V2), seq_length. reflexivity. }
    destruct (ofDense_spec _ zero (snp s) (snf s) m Sh) as (A & B & D & F). split; [exact A|]. split; [split; assumption|].
    intros i j Hi Hj. destruct (K i Hi) as (row & V1 & V2).
    destruct (rmapM_ok_nth _ _ V2 j (x:=j)) as (v & V4 & V3); [rewrite (nth_error_nth' _ 0) by (rewrite seq_length; lia); rewrite seq_nth by lia; reflexivity|].
    rewrite V3. f_equal. symmetry. apply F. unfold cellOf. rewrite V1. exact V4.
  - apply rmapM_fail in R. destruct R as (i & I & R). apply rmapM_fail in R. destruct R as (j & J & R). apply in_seq in I. apply in_seq in J. exists i, j. repeat split; try lia. exact R.
Qed.
Lemma scalarBinary_spec refl o s c : sinv s ->
  (neutralOne refl o = true -> c = one -> exists r, scalarBinary _ zero one isPos np refl o s c = Ok r /\ sinv r /\ sameMatrix zero s r) /\
  (~ (neutralOne refl o = true /\ c = one) -> leavesZeros refl (isPos c) o = true ->
    match scalarBinary _ zero one isPos np refl o s c with
    | Ok r => sinv r /\ SameShape s r /\ forall i j, i < snp s -> j < snf s -> (val s i j = zero -> val r i j = zero) /\ (val s i j <> zero -> npTurn _ np refl o (val s i j) c = Ok (val r i j))
    | Err e => exists i j, i < snp s /\ j < snf s /\ val s i j <> zero /\ npTurn _ np refl o (val s i j) c = Err e
    end) /\
  (leavesZeros refl (isPos c) o = false -> ~ (neutralOne refl o = true /\ c = one) ->
    match scalarBinary _ zero one isPos np refl o s c with
    | Ok r => sinv r /\ ElementsAre zero s r (fun i j => npTurn _ np refl o (val s i j) c)
    | Err e => RaisesAt s (fun i j => npTurn _ np refl o (val s i j) c) e
    end).
Proof.
  intros I. unfold scalarBinary. fold (neutralOne refl o) (leavesZeros refl (isPos c) o). split; [|split].
  - intros -> ->. rewrite eqbd_refl. cbn [andb]. eexists. split; [reflexivity|]. destruct I as [E C]. split; [split; [exact E|reflexivity]|]. split; [reflexivity|]. split; reflexivity.
  - intros N ->. destruct (neutralOne refl o && eqbd c one) eqn:B; [apply andb_true_iff in B; destruct B as [B1 B2]; apply eqbd_true in B2; exfalso; apply N; auto|].
    apply storedScalar_spec. exact I.
  - intros -> N. destruct (neutralOne refl o && eqbd c one) eqn:B; [apply andb_true_iff in B; destruct B as [B1 B2]; apply eqbd_true in B2; exfalso; apply N; auto|].
    apply dense_map_spec. apply I.
Qed.
(** ** remainders *)
Definition forget (e : entry V) : entry Datatypes.unit := mkE (er e) (ec e) tt.
Lemma forget_sorted sd l : StronglySorted (lexlt sd) l -> StronglySorted (lexlt sd) (map forget l).
Proof.
  induction 1 as [|e l H IH F]; cbn; [constructor|]. constructor; [exact IH|]. rewrite Forall_forall in *. intros x Hx. apply in_map_iff in Hx. destruct Hx as (y & <- & Hy).
  specialize (F y Hy). unfold lexlt, prim, offp in *. destruct sd; exact F.
Qed.
Lemma full_members s i j : entsOK s -> NoZeros zero s -> (In (mkE i j tt) (map forget (ents s)) <-> i < snp s /\ j < snf s).
Proof.
  intros [N H] F. split.
  - intros I. apply in_map_iff in I. destruct I as (e & E & I). injection E as <- <-. pose proof (H e I). tauto.
  - intros [Hi Hj]. pose proof (val_nonzero _ _ s i j _ eq_refl (F i j Hi Hj)) as I. apply in_map_iff. eexists. split; [|exact I]. reflexivity.
Qed.
Lemma samePositions sd s b : entsOK s -> entsOK b -> StronglySorted (lexlt sd) (ents s) -> StronglySorted (lexlt sd) (ents b) -> NoZeros zero s -> NoZeros zero b ->
  snp s = snp b -> snf s = snf b -> map forget (ents s) = map forget (ents b).
Proof.
  intros Es Eb Ss Sb Fs Fb H1 H2. eapply sorted_same_members; [apply (@lexlt_irr _ sd)|apply (@lexlt_trans _ sd)|apply forget_sorted; exact Ss|apply forget_sorted; exact Sb|].
  intros [i j []]. rewrite !full_members by assumption. rewrite H1, H2. reflexivity.
Qed.
Lemma sort_both sd s : sinv s -> let s' := sortInternal s sd false false in
  sinv s' /\ sameMatrix zero s s' /\ StronglySorted (lexlt sd) (ents s') /\ List.length (ents s') = List.length (ents s).
Proof.
  intros [E C] s'. destruct (sortInternal_spec _ zero s sd false false E (or_intror C)) as (A & B & D & F & _). fold s' in A, B, D, F.
  split; [exact A|]. split; [exact B|]. split; [|apply Permutation_length; exact F]. destruct A as [_ A]. unfold cacheOK in A. rewrite D in A. apply A.
Qed.
Lemma NoZeros_same s s' : sameMatrix zero s s' -> (NoZeros zero s <-> NoZeros zero s').
Proof. intros (A & B & C). unfold NoZeros. rewrite A, B. split; intros H i j Hi Hj; [rewrite C|rewrite <- C]; apply H; assumption. Qed.
Lemma rmapM_combine_nth (g : V -> V -> result V) x y data : rmapM (fun p : V * V => g (fst p) (snd p)) (combine x y) = Ok data ->
  forall k a c, nth_error x k = Some a -> nth_error y k = Some c -> exists v, nth_error data k = Some v /\ g a c = Ok v.
Proof.
  revert y data. induction x as [|a x IH]; intros [|c y] data H [|k] a' c' Ha Hc; cbn in *; try discriminate.
  - injection Ha as <-. injection Hc as <-. destruct (g a c) as [v|]; cbn in H; [|discriminate]. destruct (rmapM _ _); cbn in H; [|discriminate]. injection H as <-. exists v. auto.
  - destruct (g a c) as [v|]; cbn in H; [|discriminate]. destruct (rmapM _ _) as [d|] eqn:E; cbn in H; [|discriminate]. injection H as <-. cbn. eapply IH; eassumption.
Qed.
Lemma genericMod_spec s b : sinv s -> sinv b -> snp s = snp b -> snf s = snf b -> NoZeros zero b ->
  (NoZeros zero s -> match genericMod _ zero np s b with
     | Ok r => sinv r /\ ElementsAre zero s r (fun i j => np Mod (val s i j) (val b i j))
     | Err e => RaisesAt s (fun i j => np Mod (val s i j) (val b i j)) e
     end) /\
  (~ NoZeros zero s -> 1 < snp s * snf s -> exists e, genericMod _ zero np s b = Err e) /\
  (snp s = 1 -> snf s = 1 -> val s 0 0 = zero -> exists r, genericMod _ zero np s b = Ok r /\ sinv r /\ SameShape s r /\ val r 0 0 = zero).
Proof.
  intros Is Ib H1 H2 Fb. unfold genericMod. set (sd := sortSide s).
  destruct (sort_both sd s Is) as (A1 & A2 & A3 & A4). destruct (sort_both sd b Ib) as (B1 & B2 & B3 & B4).
  set (s' := sortInternal s sd false false) in *. set (b' := sortInternal b sd false false) in *. clearbody s' b' sd.
  assert (Fb' : NoZeros zero b') by (apply (NoZeros_same _ _ B2); exact Fb).
  assert (Lb : List.length (ents b') = snp s * snf s).
  { rewrite B4, H1, H2. apply count_full; [apply Ib|exact Fb]. }
  pose proof A2 as (A21 & A22 & A23). pose proof B2 as (B21 & B22 & B23).
  split; [|split].
  - intros Fs. assert (Fs' : NoZeros zero s') by (apply (NoZeros_same _ _ A2); exact Fs).
    assert (Ls : List.length (ents s') = snp s * snf s).
    { rewrite A4. apply count_full; [apply Is|exact Fs]. }
    pose proof (samePositions sd s' b' (proj1 A1) (proj1 B1) A3 B3 Fs' Fb' ltac:(congruence) ltac:(congruence)) as P.
    unfold np1D. rewrite !map_length, Ls, Lb, Nat.eqb_refl.
    assert (K : forall k x, nth_error (ents s') k = Some x -> exists y, nth_error (ents b') k = Some y /\ er y = er x /\ ec y = ec x /\
              ev x = val s (er x) (ec x) /\ ev y = val b (er x) (ec x)).
    { intros k x Hk. assert (Q : nth_error (map forget (ents b')) k = Some (forget x)) by (rewrite <- P, nth_error_map, Hk; reflexivity).
      rewrite nth_error_map in Q. destruct (nth_error (ents b') k) as [y|] eqn:Y; [|discriminate]. injection Q as Q1 Q2. exists y. split; [reflexivity|]. split; [exact Q1|]. split; [exact Q2|]. split.
      - rewrite <- A23. symmetry. apply val_In; [apply A1|]. destruct x. eapply nth_error_In. exact Hk.
      - rewrite <- B23, <- Q1, <- Q2. symmetry. apply val_In; [apply B1|]. destruct y. eapply nth_error_In. exact Y. }
    destruct (rmapM _ (combine _ _)) as [data|e] eqn:R; cbn [rbind].
    + destruct (restore_spec s' data (proj1 A1)) as (r & -> & C1 & C2 & C3 & C4).
      { rewrite (rmapM_ok_length _ _ R), combine_length, !map_length, Ls, Lb. lia. }
      split; [exact C1|]. split; [split; destruct C2; congruence|]. intros i j Hi Hj.
      pose proof (val_nonzero _ _ s' i j _ eq_refl (Fs' i j ltac:(congruence) ltac:(congruence))) as I. apply In_nth_error in I. destruct I as [k I].
      destruct (K k _ I) as (y & Y & Y1 & Y2 & Y3 & Y4). cbn in Y3, Y4.
      destruct (rmapM_combine_nth _ _ _ _ R k (val s' i j) (ev y)) as (v & V1 & V2); [rewrite nth_error_map, I; reflexivity|rewrite nth_error_map, Y; reflexivity|].
      pose proof (C3 k _ v I V1) as G. cbn in G. rewrite G, <- V2, <- Y4, A23. reflexivity.
    + apply rmapM_fail in R. destruct R as ([x y] & I & R). cbn in R. apply In_nth_error in I. destruct I as [k I].
      assert (I1 : nth_error (map ev (ents s')) k = Some x /\ nth_error (map ev (ents b')) k = Some y).
      { revert I. generalize (map ev (ents s')) (map ev (ents b')). clear. induction k as [|k IH]; intros [|a l] [|c l'] I; cbn in *; try discriminate; [injection I as <- <-; auto|apply IH; exact I]. }
      destruct I1 as [I1 I2]. rewrite nth_error_map in I1, I2. destruct (nth_error (ents s') k) as [x'|] eqn:X; [|discriminate]. injection I1 as <-.
      destruct (K k x' X) as (y' & Y & Y1 & Y2 & Y3 & Y4). rewrite Y in I2. injection I2 as <-.
      pose proof (proj2 (proj1 A1) x' (nth_error_In _ _ X)) as (G1 & G2 & _). exists (er x'), (ec x'). split; [congruence|]. split; [congruence|]. rewrite <- Y3, <- Y4. exact R.
  - intros Fs Sz. assert (Ls : List.length (ents s') < snp s * snf s).
    { rewrite A4. pose proof (count_le s (proj1 Is)). destruct (Nat.eq_dec (List.length (ents s)) (snp s * snf s)) as [Q|Q]; [|lia]. exfalso. apply Fs. apply count_full; [apply Is|exact Q]. }
    unfold np1D. rewrite !map_length. destruct (List.length (ents s') =? List.length (ents b')) eqn:Q; [apply Nat.eqb_eq in Q; lia|].
    destruct (ents s') as [|x [|x' l]] eqn:Xs; destruct (ents b') as [|y [|y' l']] eqn:Yb; cbn [map List.length] in *; try lia; cbn [rbind]; eauto.
    unfold restore. rewrite Xs. destruct (rmapM (np Mod (ev x)) _) as [data|e] eqn:R; cbn [rbind]; [|eauto].
    rewrite (rmapM_ok_length _ _ R). cbn [List.length Nat.eqb]. eauto.
  - intros E1 E2 Z. assert (Ls : ents s' = []).
    { destruct (ents s') as [|x l] eqn:X; [reflexivity|]. exfalso. destruct A1 as [[N H] _]. pose proof (H x) as Hx. rewrite X in Hx. destruct (Hx (or_introl eq_refl)) as (G1 & G2 & G3).
      apply G3. assert (er x = 0 /\ ec x = 0) as [e1 e2] by lia. rewrite <- Z, <- A23. symmetry. apply val_In; [rewrite X in *; exact N|]. rewrite X. left. destruct x. cbn in *. congruence. }
    rewrite Ls. rewrite E1, E2 in Lb. unfold np1D.
    destruct (ents b') as [|y [|y' l']]; cbn in Lb; try discriminate. cbn [map rmapM rbind List.length Nat.eqb].
    destruct (restore_spec s' [] (proj1 A1)) as (r & -> & C1 & C2 & C3 & C4); [rewrite Ls; reflexivity|]. eexists. split; [reflexivity|]. split; [exact C1|]. split; [split; destruct C2; congruence|].
    apply C4. rewrite A23. exact Z.
Qed.
(** ** operators between objects *)
Definition opElement (o : arith) (x y : V) : V := match o with Floordiv => floorV (sc Truediv x y) | _ => sc o x y end.
Lemma validation_size refl o s b : snp s <> snp b \/ snf s <> snf b -> sparseOp _ zero one nan isPos np sc floorV refl o s (SpSparse b) = Err InvalidArgumentValue.
Proof.
  intros H. unfold sparseOp, sparseValidation. destruct (snp s =? snp b) eqn:E1; cbn [andb negb rbind]; [|reflexivity].
  destruct (snf s =? snf b) eqn:E2; cbn [negb rbind]; [|reflexivity]. apply Nat.eqb_eq in E1. apply Nat.eqb_eq in E2. destruct H; contradiction.
Qed.
Lemma validation_empty refl o s b : snp s = snp b -> snf s = snf b -> snp s = 0 \/ snf s = 0 -> sparseOp _ zero one nan isPos np sc floorV refl o s (SpSparse b) = Err ImproperObjectAction.
Proof.
  intros H1 H2 H. unfold sparseOp, sparseValidation. rewrite H1, H2, !Nat.eqb_refl. cbn [andb negb].
  destruct (snp b =? 0) eqn:E1; cbn [orb rbind]; [reflexivity|]. destruct (snf b =? 0) eqn:E2; cbn [rbind]; [reflexivity|].
  apply Nat.eqb_neq in E1. apply Nat.eqb_neq in E2. lia.
Qed.
Lemma validation_ok o s b : entsOK b -> snp s = snp b -> snf s = snf b -> 0 < snp s -> 0 < snf s -> (isDivMod o = true -> NoZeros zero b) ->
  sparseOp _ zero one nan isPos np sc floorV false o s (SpSparse b) = sparseBinary _ zero one nan isPos np sc floorV false o s (SpSparse b).
Proof.
  intros E H1 H2 P1 P2 D. unfold sparseOp, sparseValidation. rewrite <- H1, <- H2, !Nat.eqb_refl. cbn [andb negb].
  destruct (snp s =? 0) eqn:E1; [apply Nat.eqb_eq in E1; lia|]. destruct (snf s =? 0) eqn:E2; [apply Nat.eqb_eq in E2; lia|]. cbn [orb rbind].
  destruct (isDivMod o); cbn [rbind]; [|reflexivity]. rewrite (proj2 (containsZero_false b E)) by auto. reflexivity.
Qed.
Lemma validation_zero o s b : entsOK b -> snp s = snp b -> snf s = snf b -> 0 < snp s -> 0 < snf s -> isDivMod o = true -> ~ NoZeros zero b ->
  sparseOp _ zero one nan isPos np sc floorV false o s (SpSparse b) = Err ZeroDiv.
Proof.
  intros E H1 H2 P1 P2 D N. unfold sparseOp, sparseValidation. rewrite <- H1, <- H2, !Nat.eqb_refl. cbn [andb negb].
  destruct (snp s =? 0) eqn:E1; [apply Nat.eqb_eq in E1; lia|]. destruct (snf s =? 0) eqn:E2; [apply Nat.eqb_eq in E2; lia|]. cbn [orb rbind]. rewrite D.
  destruct (sparseContainsZero V b) eqn:Z; [reflexivity|]. apply containsZero_false in Z; [contradiction|exact E].
Qed.
Lemma binary_total o s b : sinv s -> sinv b -> snp s = snp b -> snf s = snf b -> o <> Mod -> o <> Pow ->
  (isDivMod o = true -> NoZeros zero b) -> (isDivMod o = false -> sc o zero zero = zero) -> (o = Floordiv -> floorV zero = zero) ->
  exists r, sparseBinary _ zero one nan isPos np sc floorV false o s (SpSparse b) = Ok r /\ sinv r /\ SameShape s r /\
    forall i j, i < snp s -> j < snf s -> val r i j = opElement o (val s i j) (val b i j).
Proof.
  intros Is Ib H1 H2 N1 N2 D Z F. destruct o; try congruence; cbn [sparseBinary opElement].
  - apply scBinop_spec; auto.
  - apply scBinop_spec; auto.
  - apply scBinop_spec; auto.
  - destruct (scDivide_spec s b (proj1 Is) (proj1 Ib) H1 H2 (D eq_refl)) as (m & -> & Sh & C). cbn [rbind]. eexists. split; [reflexivity|].
    destruct (ofDense_spec _ zero (snp s) (snf s) m Sh) as (A & B & G & K). split; [exact A|]. split; [split; assumption|]. intros i j Hi Hj. apply K. apply C; assumption.
  - unfold genericFloordiv. destruct (scDivide_spec s b (proj1 Is) (proj1 Ib) H1 H2 (D eq_refl)) as (m & -> & Sh & C). cbn [rbind].
    destruct (ofDense_spec _ zero (snp s) (snf s) m Sh) as (A & B & G & K). set (t := ofDense zero (snp s) (snf s) m) in *. clearbody t.
    destruct (restore_spec t (map (fun e => floorV (ev e)) (ents t)) (proj1 A)) as (r & -> & R1 & R2 & R3 & R4); [apply map_length|].
    eexists. split; [reflexivity|]. split; [exact R1|]. split; [split; destruct R2; congruence|]. intros i j Hi Hj. specialize (K i j _ (C i j Hi Hj)).
    destruct (eq_dec (val t i j) zero) as [Q|Q].
    + rewrite R4 by exact Q. rewrite <- K, Q. symmetry. apply F. reflexivity.
    + pose proof (val_nonzero _ _ t i j _ eq_refl Q) as I. apply In_nth_error in I. destruct I as [k I].
      pose proof (R3 k _ (floorV (val t i j)) I) as X. cbn in X. assert (val r i j = floorV (val t i j)) as -> by (apply X; rewrite nth_error_map, I; reflexivity). rewrite K. reflexivity.
Qed.
Lemma genericPow_spec s b :
  match genericPow _ zero np s b with
  | Ok r => sinv r /\ ElementsAre zero s r (fun i j => np Pow (val s i j) (val b i j))
  | Err e => RaisesAt s (fun i j => np Pow (val s i j) (val b i j)) e
  end.
Proof.
  pose proof (grid_spec s (fun i j => np Pow (orZero (entryAt s i j)) (orZero (entryAt b i j)))) as H. unfold genericPow.
  destruct (rmapM _ (seq 0 (snp s))) as [m|e]; cbn [rbind] in *.
  - destruct H as [A [B C]]. split; [exact A|]. split; [exact B|]. intros i j Hi Hj. specialize (C i j Hi Hj). cbn beta in C. rewrite !entryAt_val in C. exact C.
  - destruct H as (i & j & Hi & Hj & H). rewrite !entryAt_val in H. exists i, j. auto.
Qed.
(** what numpy computes for the dense objects *)
Lemma same_as_dense o s b m : sinv s -> sinv b -> snp s = snp b -> snf s = snf b -> 0 < snp s -> 0 < snf s ->
  ScipyAgrees np sc -> (o = Floordiv -> floorV zero = zero /\ forall x y v, np Floordiv x y = Ok v -> floorV (sc Truediv x y) = v) ->
  (isDivMod o = true -> NoZeros zero b) -> (isDivMod o = false -> o <> Pow -> np o zero zero = Ok zero) -> (o = Mod -> NoZeros zero s) ->
  (forall i j, i < snp s -> j < snf s -> np o (val s i j) (val b i j) = Ok (m i j)) ->
  exists r, sparseOp _ zero one nan isPos np sc floorV false o s (SpSparse b) = Ok r /\ sinv r /\ SameShape s r /\ forall i j, i < snp s -> j < snf s -> val r i j = m i j.
Proof.
  intros Is Ib H1 H2 P1 P2 Ag Fl D Z M H. rewrite validation_ok by (auto; apply Ib).
  assert (Cases : (o <> Mod /\ o <> Pow) \/ o = Mod \/ o = Pow) by (destruct o; auto; left; split; discriminate).
  destruct Cases as [[N1 N2]|[->| ->]].
  - destruct (binary_total o s b Is Ib H1 H2 N1 N2 D) as (r & E & A & B & C).
    + intros Q. apply Ag. auto.
    + intros Q. apply Fl. exact Q.
    + exists r. split; [exact E|]. split; [exact A|]. split; [exact B|]. intros i j Hi Hj. rewrite C by assumption. specialize (H i j Hi Hj). unfold opElement.
      destruct o; try (apply Ag; exact H). apply Fl; [reflexivity|exact H].
  - cbn [sparseBinary]. destruct (genericMod_spec s b Is Ib H1 H2 (D eq_refl)) as [K _]. specialize (K (M eq_refl)). destruct (genericMod _ _ _ s b) as [r|e].
    + destruct K as [A [B C]]. exists r. split; [reflexivity|]. split; [exact A|]. split; [exact B|]. intros i j Hi Hj. specialize (C i j Hi Hj). cbn beta in C. rewrite H in C by assumption. congruence.
    + destruct K as (i & j & Hi & Hj & K). rewrite H in K by assumption. discriminate.
  - cbn [sparseBinary]. pose proof (genericPow_spec s b) as K. destruct (genericPow _ _ _ s b) as [r|e].
    + destruct K as [A [B C]]. exists r. split; [reflexivity|]. split; [exact A|]. split; [exact B|]. intros i j Hi Hj. specialize (C i j Hi Hj). cbn beta in C. rewrite H in C by assumption. congruence.
    + destruct K as (i & j & Hi & Hj & K). rewrite H in K by assumption. discriminate.
Qed.
Lemma same_as_dense_scalar refl o s c m : sinv s -> (isDivMod o = true -> refl = false -> c <> zero) -> (isDivMod o = true -> refl = true -> NoZeros zero s) ->
  (neutralOne refl o = true -> forall x v, npTurn _ np refl o x one = Ok v -> v = x) -> (leavesZeros refl (isPos c) o = true -> forall v, npTurn _ np refl o zero c = Ok v -> v = zero) ->
  (forall i j, i < snp s -> j < snf s -> npTurn _ np refl o (val s i j) c = Ok (m i j)) ->
  exists r, sparseOp _ zero one nan isPos np sc floorV refl o s (SpScalar c) = Ok r /\ sinv r /\ SameShape s r /\ forall i j, i < snp s -> j < snf s -> val r i j = m i j.
Proof.
  intros Is D1 D2 O Z H. unfold sparseOp, sparseValidation. cbn [rbind].
  assert ((if isDivMod o then if (if refl then sparseContainsZero V s else eqbd c zero) then Err ZeroDiv else Ok tt else Ok tt) = Ok tt) as ->.
  { destruct (isDivMod o); [|reflexivity]. destruct refl; [rewrite (proj2 (containsZero_false s (proj1 Is))) by auto; reflexivity|].
    destruct (eqbd c zero) eqn:Q; [apply eqbd_true in Q; exfalso; apply D1; auto|reflexivity]. }
  cbn [rbind sparseBinary]. destruct (scalarBinary_spec refl o s c Is) as (A & B & C).
  destruct (neutralOne refl o) eqn:N; [destruct (eq_dec c one) as [Q|Q]|].
  - destruct (A eq_refl Q) as (r & E & I & (S1 & S2 & S3)). exists r. split; [exact E|]. split; [exact I|]. split; [split; assumption|]. intros i j Hi Hj. rewrite S3. subst c. symmetry. eapply O; [reflexivity|]. apply H; assumption.
  - destruct (leavesZeros refl (isPos c) o) eqn:L.
    + specialize (B ltac:(intros [_ X]; contradiction) eq_refl). destruct (scalarBinary _ _ _ _ _ _ _ _ _) as [r|e].
      * destruct B as (B1 & B2 & B3). exists r. split; [reflexivity|]. split; [exact B1|]. split; [exact B2|]. intros i j Hi Hj. specialize (B3 i j Hi Hj). specialize (H i j Hi Hj).
        destruct (eq_dec (val s i j) zero) as [Y|Y]; [|destruct B3 as [_ B3]; rewrite B3 in H by exact Y; congruence].
        destruct B3 as [B3 _]. rewrite B3 by exact Y. rewrite Y in H. symmetry. apply (Z eq_refl _ H).
      * destruct B as (i & j & Hi & Hj & _ & K). rewrite H in K by assumption. discriminate.
    + specialize (C eq_refl ltac:(intros [_ X]; contradiction)). destruct (scalarBinary _ _ _ _ _ _ _ _ _) as [r|e].
      * destruct C as [C1 [C2 C3]]. exists r. split; [reflexivity|]. split; [exact C1|]. split; [exact C2|]. intros i j Hi Hj. specialize (C3 i j Hi Hj). cbn beta in C3. rewrite H in C3 by assumption. congruence.
      * destruct C as (i & j & Hi & Hj & K). cbn beta in K. rewrite H in K by assumption. discriminate.
  - destruct (leavesZeros refl (isPos c) o) eqn:L.
    + specialize (B ltac:(intros [X _]; discriminate) eq_refl). destruct (scalarBinary _ _ _ _ _ _ _ _ _) as [r|e].
      * destruct B as (B1 & B2 & B3). exists r. split; [reflexivity|]. split; [exact B1|]. split; [exact B2|]. intros i j Hi Hj. specialize (B3 i j Hi Hj). specialize (H i j Hi Hj).
        destruct (eq_dec (val s i j) zero) as [Y|Y]; [|destruct B3 as [_ B3]; rewrite B3 in H by exact Y; congruence].
        destruct B3 as [B3 _]. rewrite B3 by exact Y. rewrite Y in H. symmetry. apply (Z eq_refl _ H).
      * destruct B as (i & j & Hi & Hj & _ & K). rewrite H in K by assumption. discriminate.
    + specialize (C eq_refl ltac:(intros [X _]; discriminate)). destruct (scalarBinary _ _ _ _ _ _ _ _ _) as [r|e].
      * destruct C as [C1 [C2 C3]]. exists r. split; [reflexivity|]. split; [exact C1|]. split; [exact C2|]. intros i j Hi Hj. specialize (C3 i j Hi Hj). cbn beta in C3. rewrite H in C3 by assumption. congruence.
      * destruct C as (i & j & Hi & Hj & K). cbn beta in K. rewrite H in K by assumption. discriminate.
Qed.
(** ** stretched objects *)
Lemma repeatPts s n : sinv s -> snp s = 1 -> 0 < n -> let r := sRepeat Pts s n true in
  sinv r /\ snp r = n /\ snf r = snf s /\ forall i j, i < n -> val r i j = val s 0 j.
Proof.
  intros I E H r. destruct (sRepeat_spec _ zero Pts s n true I H) as (A & B & C & D). cbn [axLen offLen valS] in *. fold r in A, B, C, D. rewrite E in B, D.
  split; [exact A|]. split; [lia|]. split; [exact C|]. intros i j Hi. rewrite D by lia. rewrite Nat.div_small by exact Hi. reflexivity.
Qed.
Lemma repeatFts s n : sinv s -> snf s = 1 -> 0 < n -> let r := sRepeat Fts s n true in
  sinv r /\ snp r = snp s /\ snf r = n /\ forall i j, j < n -> val r i j = val s i 0.
Proof.
  intros I E H r. destruct (sRepeat_spec _ zero Fts s n true I H) as (A & B & C & D). cbn [axLen offLen valS] in *. fold r in A, B, C, D. rewrite E in B, D.
  split; [exact A|]. split; [exact C|]. split; [lia|]. intros i j Hj. rewrite D by lia. rewrite Nat.div_small by exact Hj. reflexivity.
Qed.
Lemma repeated_1 n i : n = 1 -> repeated n i = 0.
Proof. intros ->. reflexivity. Qed.
Lemma repeated_lt n i : i < n -> repeated n i = i.
Proof. intros H. unfold repeated. destruct (n =? 1) eqn:E; [apply Nat.eqb_eq in E; lia|reflexivity]. Qed.
Lemma stretch_operands o (st : bool) s b : sinv s -> sinv b -> 0 < snp s -> 0 < snf s -> 0 < snp b -> 0 < snf b ->
  (if st then (snp s = 1 /\ snf b = 1) \/ (snf s = 1 /\ snp b = 1 /\ ~ (snp s = 1 /\ 1 < snf b))
   else (snp s = 1 /\ snf s = snf b) \/ (snf s = 1 /\ snp s = snp b) \/ (snp s = 1 /\ snf s = 1 /\ (snp b = 1 \/ snf b = 1))) ->
  exists s' b', stretchSparse _ zero one nan isPos np sc floorV o st s b = sparseBinary _ zero one nan isPos np sc floorV false o s' (SpSparse b') /\ sinv s' /\ sinv b' /\
    snp s' = Nat.max (snp s) (snp b) /\ snf s' = Nat.max (snf s) (snf b) /\ snp b' = snp s' /\ snf b' = snf s' /\
    forall i j, i < snp s' -> j < snf s' -> val s' i j = val s (repeated (snp s) i) (repeated (snf s) j) /\ val b' i j = val b (repeated (snp b) i) (repeated (snf b) j).
Proof.
  intros Is Ib P1 P2 P3 P4 H. unfold stretchSparse. destruct st.
  - destruct (snp s =? 1) eqn:E.
    + apply Nat.eqb_eq in E. assert (F : snf b = 1) by lia.
      destruct (repeatPts s (snp b) Is E P3) as (A1 & A2 & A3 & A4). destruct (repeatFts b (snf s) Ib F P2) as (B1 & B2 & B3 & B4).
      do 2 eexists. split; [reflexivity|]. split; [exact A1|]. split; [exact B1|]. split; [lia|]. split; [lia|]. split; [congruence|]. split; [congruence|].
      intros i j Hi Hj. rewrite A2 in Hi. rewrite A3 in Hj. rewrite A4, B4 by assumption. rewrite (repeated_1 (snp s)), (repeated_1 (snf b)) by assumption. rewrite (repeated_lt (snf s)), (repeated_lt (snp b)) by assumption. auto.
    + apply Nat.eqb_neq in E. assert (F : snf s = 1 /\ snp b = 1) by lia. destruct F as [F G].
      destruct (repeatFts s (snf b) Is F P4) as (A1 & A2 & A3 & A4). destruct (repeatPts b (snp s) Ib G P1) as (B1 & B2 & B3 & B4).
      do 2 eexists. split; [reflexivity|]. split; [exact A1|]. split; [exact B1|]. split; [lia|]. split; [lia|]. split; [congruence|]. split; [congruence|].
      intros i j Hi Hj. rewrite A2 in Hi. rewrite A3 in Hj. rewrite A4, B4 by assumption. rewrite (repeated_1 (snf s)), (repeated_1 (snp b)) by assumption. rewrite (repeated_lt (snp s)), (repeated_lt (snf b)) by assumption. auto.
  - destruct ((snp s =? 1) && (1 <? snp b)) eqn:E; [|destruct ((snf s =? 1) && (1 <? snf b)) eqn:F].
    + apply andb_true_iff in E. destruct E as [E1 E2]. apply Nat.eqb_eq in E1. apply Nat.ltb_lt in E2. assert (G : snf s = snf b) by lia.
      destruct (repeatPts s (snp b) Is E1 P3) as (A1 & A2 & A3 & A4).
      do 2 eexists. split; [reflexivity|]. split; [exact A1|]. split; [exact Ib|]. split; [lia|]. split; [lia|]. split; [lia|]. split; [lia|].
      intros i j Hi Hj. rewrite A2 in Hi. rewrite A3 in Hj. rewrite A4 by assumption. rewrite (repeated_1 (snp s)) by assumption. rewrite (repeated_lt (snf s)), (repeated_lt (snp b)), (repeated_lt (snf b)) by lia. auto.
    + apply andb_true_iff in F. destruct F as [E1 E2]. apply Nat.eqb_eq in E1. apply Nat.ltb_lt in E2. apply andb_false_iff in E. rewrite Nat.eqb_neq, Nat.ltb_ge in E. assert (G : snp s = snp b) by lia.
      destruct (repeatFts s (snf b) Is E1 P4) as (A1 & A2 & A3 & A4).
      do 2 eexists. split; [reflexivity|]. split; [exact A1|]. split; [exact Ib|]. split; [lia|]. split; [lia|]. split; [lia|]. split; [lia|].
      intros i j Hi Hj. rewrite A2 in Hi. rewrite A3 in Hj. rewrite A4 by assumption. rewrite (repeated_1 (snf s)) by assumption. rewrite (repeated_lt (snp s)), (repeated_lt (snp b)), (repeated_lt (snf b)) by lia. auto.
    + apply andb_false_iff in E. rewrite Nat.eqb_neq, Nat.ltb_ge in E. apply andb_false_iff in F. rewrite Nat.eqb_neq, Nat.ltb_ge in F.
      do 2 eexists. split; [reflexivity|]. split; [exact Is|]. split; [exact Ib|]. split; [lia|]. split; [lia|]. split; [lia|]. split; [lia|].
      intros i j Hi Hj. rewrite !repeated_lt by lia. auto.
Qed.
End P.
