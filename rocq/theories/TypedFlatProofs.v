(** Proofs for C73: flatten and unflatten. *)
From Verif Require Import Base TableModel TableProofs TableOpsProofs MatchModel MatchSpec MatchProofs LogicModel GetSpec GetCountProofs
  ElementsCalcProofs CopyModel CopySpec CopyProofs CopyNimbleProofs CopyRawProofs TypedModel TypedSpec TypedProofs TypedTakeProofs TypedWriteProofs.
From Coq Require Import List String Sorted QArith Lia ZifyNat. Import ListNotations.
Open Scope nat_scope.
Notation len := List.length.

Lemma concat_nth (m : list (list pval)) p f i j v : Rectangle m p f -> at_ m i j v -> nth_error (List.concat m) (i * f + j) = Some v.
Proof.
  intros [L R] (r & A & B). assert (Hj : j < f) by (rewrite <- (R r); [eapply nth_error_lt; eauto|eapply nth_error_In; eauto]).
  rewrite concat_id, (flat_map_const_nth (fun y => y) m f (i * f + j)) by (auto; lia).
  rewrite (Nat.add_comm (i * f)), Nat.div_add, Nat.mod_add, Nat.div_small, Nat.mod_small by lia. cbn. rewrite A. exact B.
Qed.
Lemma concat_len (m : list (list pval)) p f : Rectangle m p f -> len (List.concat m) = p * f.
Proof. intros [L R]. rewrite concat_id, (flat_map_const_length (fun y => y) m f) by auto. rewrite L. lia. Qed.
Lemma flatElements_nth (pointOrder : bool) (m : list (list pval)) p f : Rectangle m p f ->
  len (flatElements f pointOrder m) = p * f /\
  forall i j v, at_ m i j v -> nth_error (flatElements f pointOrder m) (place pointOrder p f i j) = Some v.
Proof.
  intros R. unfold flatElements, place. destruct pointOrder.
  - split; [apply concat_len, R|]. intros i j v A. eapply concat_nth; eauto.
  - destruct (transpose_at m p f R) as [R' T]. split; [rewrite (concat_len _ _ _ R'); lia|]. intros i j v A. eapply concat_nth; eauto.
Qed.
Lemma place_lt' (pointOrder : bool) p f i j : i < p -> j < f -> place pointOrder p f i j < p * f.
Proof. intros A B. destruct pointOrder; cbn [place]; [apply place_lt; auto|rewrite (Nat.mul_comm p f); apply place_lt; auto]. Qed.
(** every position is the place of an element *)
Lemma place_onto (pointOrder : bool) p f k : k < p * f -> exists i j, i < p /\ j < f /\ place pointOrder p f i j = k.
Proof.
  intros H. assert (0 < p /\ 0 < f) as [Hp Hf] by (destruct p, f; lia). destruct pointOrder; cbn [place].
  - exists (k / f), (k mod f). split; [apply Nat.div_lt_upper_bound; lia|]. split; [apply Nat.mod_upper_bound; lia|]. rewrite Nat.mul_comm. symmetry. apply Nat.div_mod. lia.
  - exists (k mod p), (k / p). split; [apply Nat.mod_upper_bound; lia|]. split; [apply Nat.div_lt_upper_bound; lia|]. rewrite Nat.mul_comm. symmetry. apply Nat.div_mod. lia.
Qed.
Lemma reshape_at (pointOrder : bool) np nf l : len l = np * nf -> Rectangle (reshapeRows np nf pointOrder l) np nf /\
  forall i j v, i < np -> j < nf -> nth_error l (place pointOrder np nf i j) = Some v -> at_ (reshapeRows np nf pointOrder l) i j v.
Proof.
  intros L. unfold reshapeRows. split.
  - split; [rewrite map_length, seq_length; reflexivity|]. intros r I. apply in_map_iff in I. destruct I as (i & <- & _). rewrite map_length, seq_length. reflexivity.
  - intros i j v Hi Hj E. eexists. rewrite nth_error_map, nth_error_seq, (proj2 (Nat.ltb_lt i np) Hi). cbn [option_map]. split; [reflexivity|].
    rewrite nth_error_map, nth_error_seq, (proj2 (Nat.ltb_lt j nf) Hj). cbn [option_map]. rewrite !Nat.add_0_l. f_equal. apply nth_error_nth. exact E.
Qed.
(** the elements of a vector, in order *)
Lemma vector_concat m n : IsVector m n -> len (List.concat m) = n /\ forall k v, VectorAt m k v <-> nth_error (List.concat m) k = Some v.
Proof.
  intros V. unfold VectorAt. destruct V as [R|R].
  - destruct m as [|r [|r2 m]]; destruct R as [L R]; try discriminate. cbn. rewrite app_nil_r. assert (LR : len r = n) by (apply R; left; reflexivity). split; [exact LR|].
    intros k v. split.
    + intros [(r' & A & B)|(r' & A & B)]; [injection A as <-; exact B|]. destruct k as [|k]; [injection A as <-; exact B|destruct k; discriminate].
    + intros E. left. exists r. auto.
  - assert (E : forall k v, at_ m k 0 v <-> nth_error (List.concat m) k = Some v).
    { intros k v. split; [intros A; pose proof (concat_nth m n 1 k 0 v R A) as X; replace (k * 1 + 0) with k in X by lia; exact X|].
      intros E. assert (H : k < n) by (pose proof (nth_error_lt _ _ E) as X; rewrite (concat_len _ _ _ R) in X; lia).
      destruct (at_total m n 1 k 0 R H) as [u U]; [lia|]. pose proof (concat_nth m n 1 k 0 u R U) as X. replace (k * 1 + 0) with k in X by lia. rewrite X in E. injection E as <-. exact U. }
    split; [rewrite (concat_len _ _ _ R); lia|]. intros k v. rewrite <- E. split; [|tauto]. intros [A|A]; [|exact A].
    destruct (at_range _ _ _ _ _ _ R A) as [_ H]. assert (k = 0) by lia. subst. exact A.
Qed.
Lemma mat_flatten pointOrder x p f : MatOK x p f -> MatOK (matFlatten f pointOrder x) 1 (p * f) /\ fst (matFlatten f pointOrder x) = fst x /\
  forall i j v, at_ (snd x) i j v -> at_ (snd (matFlatten f pointOrder x)) 0 (place pointOrder p f i j) v.
Proof.
  intros [R O]. unfold matFlatten. cbn [fst snd]. destruct (flatElements_nth pointOrder (snd x) p f R) as [L A].
  assert (AT : forall i j v, at_ (snd x) i j v -> at_ [flatElements f pointOrder (snd x)] 0 (place pointOrder p f i j) v) by (intros i j v V; eexists; split; [reflexivity|apply A; exact V]).
  split; [|split; [reflexivity|exact AT]]. split; cbn [fst snd].
  - split; [reflexivity|]. intros r [<-|[]]. exact L.
  - intros i k v (r & B & C). destruct i as [|[|i]]; [|discriminate|discriminate]. injection B as <-. pose proof (nth_error_lt _ _ C) as H. rewrite L in H.
    destruct (place_onto pointOrder p f k H) as (a & b & Ha & Hb & <-). destruct (at_total _ p f a b R Ha Hb) as [u U]. rewrite (A _ _ _ U) in C. injection C as <-. eapply O; eauto.
Qed.
Lemma mat_unflatten pointOrder x np nf : IsVector (snd x) (np * nf) -> (forall i j v, at_ (snd x) i j v -> OfDt (fst x) v) ->
  MatOK (matUnflatten np nf pointOrder x) np nf /\ fst (matUnflatten np nf pointOrder x) = fst x /\
  forall i j v, i < np -> j < nf -> VectorAt (snd x) (place pointOrder np nf i j) v -> at_ (snd (matUnflatten np nf pointOrder x)) i j v.
Proof.
  intros V O. unfold matUnflatten. cbn [fst snd]. destruct (vector_concat (snd x) (np * nf) V) as [L E]. destruct (reshape_at pointOrder np nf (List.concat (snd x)) L) as [R A].
  split; [|split; [reflexivity|]].
  - split; cbn [fst snd]; [exact R|]. intros i j v B. destruct (at_range _ _ _ _ _ _ R B) as [Hi Hj].
    destruct (nth_error_is_some (List.concat (snd x)) (i := place pointOrder np nf i j)) as [u U]; [rewrite L; apply place_lt'; auto|].
    rewrite (at_fun _ _ _ _ _ B (A _ _ _ Hi Hj U)). apply E in U. destruct U as [U|U]; eapply O; eauto.
  - intros i j v Hi Hj B. apply A; auto. apply E. exact B.
Qed.
Lemma mat_round_trip pointOrder x p f : MatOK x p f -> matUnflatten p f pointOrder (matFlatten f pointOrder x) = x.
Proof.
  intros M. destruct (mat_flatten pointOrder x p f M) as (M1 & _ & A). destruct (mat_unflatten pointOrder (matFlatten f pointOrder x) p f) as (M2 & _ & B).
  { left. exact (proj1 M1). } { exact (proj2 M1). }
  rewrite (surjective_pairing (matUnflatten _ _ _ _)), (surjective_pairing x). f_equal.
  symmetry. apply (Rectangle_ext _ _ p f (proj1 M) (proj1 M2)). intros i j v V. destruct (at_range _ _ _ _ _ _ (proj1 M) V) as [Hi Hj]. apply B; auto. left. apply A. exact V.
Qed.

Section F.
Variable floatOf : string -> option pval.
Variable intOf : string -> option Z.
Notation castTo := (TypedModel.castTo floatOf intOf).
Notation castCols := (TypedModel.castCols floatOf intOf).

Lemma tile_dt (pointOrder : bool) (ds : list dt) p f : len ds = f -> 0 < p -> len (repeatL p (negb pointOrder) ds) = p * f /\
  forall i j d, i < p -> nth_error ds j = Some d -> nth_error (repeatL p (negb pointOrder) ds) (place pointOrder p f i j) = Some d.
Proof.
  intros L Hp. rewrite (repeatL_nth DObj p (negb pointOrder) ds Hp). split.
  - rewrite takeL_len. unfold source. rewrite map_length, seq_length, L. lia.
  - intros i j d Hi D. assert (Hj : j < f) by (rewrite <- L; eapply nth_error_lt; eauto). apply takeL_nth with (i := j); [|exact D].
    unfold source. rewrite nth_error_map, nth_error_seq, L. rewrite (Nat.mul_comm f p), (proj2 (Nat.ltb_lt _ _) (place_lt' pointOrder p f i j Hi Hj)). cbn [option_map]. f_equal. rewrite Nat.add_0_l.
    destruct pointOrder; cbn [place negb].
    + rewrite Nat.add_comm, Nat.mod_add, Nat.mod_small by lia. reflexivity.
    + rewrite Nat.add_comm, Nat.div_add, Nat.div_small by lia. reflexivity.
Qed.
Lemma frame_flatten pointOrder x p f : FrameOK x p f -> 0 < p -> exists r, frameFlatten floatOf intOf p f pointOrder x = Ok r /\ FrameOK r 1 (p * f) /\
  forall i j v d, at_ (snd x) i j v -> nth_error (fst x) j = Some d -> at_ (snd r) 0 (place pointOrder p f i j) v /\ nth_error (fst r) (place pointOrder p f i j) = Some d.
Proof.
  intros (R & L & O) Hp. unfold frameFlatten. set (ds := repeatL p (negb pointOrder) (fst x)). destruct (tile_dt pointOrder (fst x) p f L Hp) as [LD ND]. fold ds in LD, ND.
  destruct (flatElements_nth pointOrder (frameArray x) p f (frameArray_rect x p f R)) as [LA NA].
  assert (RF : Rectangle [flatElements f pointOrder (frameArray x)] 1 (len ds)) by (split; [reflexivity|]; intros r [<-|[]]; lia).
  assert (EACH : forall i k w d, at_ [flatElements f pointOrder (frameArray x)] i k w -> nth_error ds k = Some d ->
     exists a b v, i = 0 /\ k = place pointOrder p f a b /\ at_ (snd x) a b v /\ nth_error (fst x) b = Some d /\ castTo d w = Ok v /\ OfDt d v).
  { intros i k w d (r & B & C) D. destruct i as [|[|i]]; [|discriminate|discriminate]. injection B as <-. pose proof (nth_error_lt _ _ C) as H. rewrite LA in H.
    destruct (place_onto pointOrder p f k H) as (a & b & Ha & Hb & <-). destruct (at_total _ p f a b R Ha Hb) as [v V]. destruct (nth_error_is_some (fst x) (i := b)) as [d' D']; [lia|].
    rewrite (ND a b d' Ha D') in D. injection D as <-. exists a, b, v. rewrite (NA _ _ _ (frameArray_at x _ _ _ V)) in C. injection C as <-.
    refine (conj eq_refl (conj eq_refl (conj V (conj D' (conj _ (O _ _ _ _ V D')))))). eapply cast_back; eauto. }
  destruct (castCols_gen floatOf intOf ds _ 1 RF) as (m & E & RM & C).
  { intros i k w d A D. destruct (EACH i k w d A D) as (a & b & v & _ & _ & _ & _ & X & _). eauto. }
  rewrite E. cbn [rbind]. exists (ds, m). split; [reflexivity|]. cbn [fst snd].
  assert (GET : forall i j v d, at_ (snd x) i j v -> nth_error (fst x) j = Some d -> at_ m 0 (place pointOrder p f i j) v /\ nth_error ds (place pointOrder p f i j) = Some d).
  { intros i j v d V D. destruct (at_range _ _ _ _ _ _ R V) as [Hi Hj]. pose proof (ND i j d Hi D) as D2. split; [|exact D2].
    eapply C; [eexists; split; [reflexivity|apply NA; apply frameArray_at; exact V]|exact D2|]. eapply cast_back; [exact D|]. eapply O; eauto. }
  split; [|exact GET]. rewrite <- LD. split; cbn [fst snd]; [exact RM|]. split; [reflexivity|]. intros i k u d A D. destruct (at_range _ _ _ _ _ _ RM A) as [Hi Hk]. rewrite LD in Hk.
  destruct (place_onto pointOrder p f k Hk) as (a & b & Ha & Hb & <-). destruct (at_total _ p f a b R Ha Hb) as [v V]. destruct (nth_error_is_some (fst x) (i := b)) as [d' D']; [lia|].
  destruct (GET _ _ _ _ V D') as [G1 G2]. rewrite G2 in D. injection D as <-. assert (i = 0) by lia. subst i. rewrite (at_fun _ _ _ _ _ A G1). eapply O; eauto.
Qed.
(** the largest dtype *)
Lemma fold_dmax : forall l d0, Below d0 (fold_left dmax l d0) /\ forall d, In d l -> Below d (fold_left dmax l d0).
Proof.
  induction l as [|e l IH]; intros d0; cbn [fold_left]; [split; [apply Below_refl|intros d []]|]. destruct (IH (dmax d0 e)) as [A B]. split.
  - eapply Below_trans; [apply dmax_l|exact A].
  - intros d [->|I]; [eapply Below_trans; [apply dmax_r|exact A]|auto].
Qed.
Lemma dmaxs_ok l d : In d l -> exists m, dmaxs l = Ok m /\ forall e, In e l -> Below e m.
Proof.
  destruct l as [|d0 l]; [intros []|]. intros _. cbn. eexists. split; [reflexivity|]. destruct (fold_dmax l d0) as [A B]. intros e [<-|I]; auto.
Qed.
Lemma slice_In start stop (l : list dt) k d : start <= k < stop -> nth_error l k = Some d -> In d (slice start stop l).
Proof.
  intros H E. unfold slice. apply nth_error_In with (n := k - start). assert (X : nth_error (skipn start l) (k - start) = Some d) by (rewrite nth_error_skipn, <- E; f_equal; lia).
  rewrite <- (firstn_skipn (stop - start) (skipn start l)) in X. destruct (Nat.ltb_spec (k - start) (len (firstn (stop - start) (skipn start l)))) as [B|B]; [rewrite nth_error_app1 in X by lia; exact X|].
  exfalso. rewrite firstn_length in B. pose proof (nth_error_lt _ _ X) as Y. rewrite firstn_skipn in Y. lia.
Qed.
Lemma every_In start step n (l : list dt) i d : i < n -> nth_error l (start + i * step) = Some d -> In d (every start step n l).
Proof. intros H E. unfold every. apply in_flat_map. exists i. split; [apply in_seq; lia|]. rewrite E. left. reflexivity. Qed.
Lemma repeat_dt (d : dt) n k e : nth_error (repeat d n) k = Some e -> e = d.
Proof. intros E. apply nth_error_In in E. apply repeat_spec in E. exact E. Qed.
Lemma slice_sub start stop (l : list dt) d : In d (slice start stop l) -> In d l.
Proof.
  intros I. unfold slice in I. assert (J : In d (skipn start l)) by (rewrite <- (firstn_skipn (stop - start)); apply in_or_app; left; exact I).
  rewrite <- (firstn_skipn start l). apply in_or_app. right. exact J.
Qed.
Lemma every_sub start step n (l : list dt) d : In d (every start step n l) -> In d l.
Proof. intros I. apply in_flat_map in I. destruct I as (i & _ & I). destruct (nth_error l (start + i * step)) eqn:E; [|destruct I]. destruct I as [<-|[]]. eapply nth_error_In; eauto. Qed.
Lemma frame_unflatten (pointOrder : bool) x p f np nf : FrameOK x p f -> IsVector (snd x) (np * nf) -> (p = 1 /\ f = np * nf \/ p = np * nf /\ f = 1) -> 0 < np -> 0 < nf ->
  pointOrder = true \/ np <= nf \/ (forall d e, In d (fst x) -> In e (fst x) -> d = e) ->
  exists r, frameUnflatten floatOf intOf np nf pointOrder x = Ok r /\ FrameOK r np nf /\
  forall i j v, i < np -> j < nf -> VectorAt (snd x) (place pointOrder np nf i j) v -> exists w, at_ (snd r) i j w /\ SameElement v w.
Proof.
  intros (R & L & O) V SH Hp Hf COND. unfold frameUnflatten.
  set (ds := match fst x with [] => [] | [d] => if 1 <? nf then repeat d (np * nf) else [d] | d :: _ :: _ => fst x end).
  assert (DS : match fst x with [d] => if 1 <? nf then repeat d (np * nf) else [d] | ds => ds end = ds) by (unfold ds; destruct (fst x) as [|? [|? ?]]; reflexivity).
  rewrite DS.
  (* what the list of dtypes is *)
  assert (CASES : ds = fst x /\ (f = np * nf \/ nf = 1 /\ f = 1) \/ exists d, fst x = [d] /\ ds = repeat d (np * nf)).
  { unfold ds. destruct (fst x) as [|d0 [|d1 l]] eqn:EX.
    - cbn in L. exfalso. destruct SH as [[_ S]|[_ S]]; [|lia]. assert (0 < np * nf) by (apply Nat.mul_pos_pos; auto). lia.
    - destruct (Nat.ltb_spec 1 nf) as [B|B]; [right; exists d0; auto|]. left. split; auto. cbn in L. right. lia.
    - left. split; auto. left. cbn in L. destruct SH as [[_ S]|[_ S]]; lia. }
  assert (SUBx : forall d, In d ds -> In d (fst x)).
  { destruct CASES as [[-> _]|(d & EX & ->)]; [auto|]. intros e I. apply repeat_spec in I. subst. rewrite EX. left. reflexivity. }
  (* position k of the vector: its value and its dtype *)
  set (arr := List.concat (frameArray x)).
  assert (VA : IsVector (frameArray x) (np * nf)) by (unfold IsVector in *; destruct V as [V|V]; [left|right]; apply frameArray_rect; exact V).
  destruct (vector_concat (snd x) _ V) as [LC EC]. destruct (vector_concat (frameArray x) _ VA) as [LA EA]. fold arr in LA, EA.
  assert (VAL : forall k v, nth_error (List.concat (snd x)) k = Some v -> exists j d, nth_error (fst x) j = Some d /\ OfDt d v /\ (In d ds) /\ (ds = fst x -> f = np * nf -> j = k) /\
     nth_error arr k = Some (match frameDt (fst x) with DFloat => toFloat v | _ => v end)).
  { intros k v E. assert (HK : k < np * nf) by (rewrite <- LC; eapply nth_error_lt; eauto). pose proof E as E'. apply EC in E'.
    assert (X : exists i j, at_ (snd x) i j v /\ (f = np * nf -> j = k) /\ nth_error arr k = Some (match frameDt (fst x) with DFloat => toFloat v | _ => v end)).
    { destruct E' as [A|A].
      - exists 0, k. split; [exact A|]. split; [auto|]. apply EA. left. apply frameArray_at. exact A.
      - exists k, 0. split; [exact A|]. split; [|apply EA; right; apply frameArray_at; exact A]. intros EF. destruct (at_range _ _ _ _ _ _ R A) as [Hk _]. destruct SH as [[S _]|[S S2]]; lia. }
    destruct X as (i & j & A & J & N). destruct (at_range _ _ _ _ _ _ R A) as [_ Hj]. destruct (nth_error_is_some (fst x) (i := j)) as [d D]; [lia|].
    exists j, d. refine (conj D (conj (O _ _ _ _ A D) (conj _ (conj (fun _ => J) N)))). destruct CASES as [[-> _]|(d0 & EX & ->)]; [eapply nth_error_In; eauto|].
    rewrite EX in D. apply nth_error_In in D. destruct D as [->|[]]. assert (0 < np * nf) by (apply Nat.mul_pos_pos; auto). destruct (np * nf); [lia|left; reflexivity]. }
  set (cols := fun j => if pointOrder then every j nf (len ds) ds else slice (j * np) (j * np + nf) ds).
  assert (NE : forall i j v, i < np -> j < nf -> nth_error (List.concat (snd x)) (place pointOrder np nf i j) = Some v -> exists d, In d (cols j) /\ OfDt d v).
  { intros i j v Hi Hj E. destruct (VAL _ _ E) as (c & d & D & OD & ID & JK & _). exists d. split; [|exact OD]. unfold cols.
    destruct CASES as [[ED [EF|[N1 F1]]]|(d0 & EX & ED)].
    - specialize (JK ED EF). subst c. rewrite <- ED in D. destruct pointOrder; cbn [place] in D.
      + apply every_In with (i := i); [|rewrite Nat.add_comm; exact D]. rewrite ED, L, EF. apply Nat.lt_le_trans with np; auto. replace np with (np * 1) at 1 by lia. apply Nat.mul_le_mono_l. lia.
      + destruct COND as [B|[B|B]]; [discriminate| |].
        * eapply slice_In; [|exact D]. lia.
        * assert (D0 : exists e, nth_error ds (j * np) = Some e). { destruct (nth_error_is_some ds (i := j * np)) as [e E0]; [rewrite ED, L, EF, (Nat.mul_comm np); apply Nat.mul_lt_mono_pos_r; lia|]. eauto. }
          destruct D0 as [e E0]. assert (d = e) as -> by (apply B; rewrite <- ED; eapply nth_error_In; eauto). eapply slice_In; [|exact E0]. lia.
    - assert (c = 0 /\ len ds = 1) as [-> L1] by (rewrite ED; split; [pose proof (nth_error_lt _ _ D); lia|lia]). rewrite <- ED in D. assert (j = 0) by lia. subst j. destruct pointOrder.
      + apply every_In with (i := 0); [lia|exact D].
      + eapply slice_In; [|exact D]. lia.
    - rewrite EX in D. pose proof (nth_error_In _ _ D) as ID2. destruct ID2 as [->|[]].
      assert (RD : forall k, k < np * nf -> nth_error ds k = Some d) by (intros k Hk; rewrite ED; apply nth_rep; exact Hk).
      destruct pointOrder.
      + apply every_In with (i := i); [rewrite ED, repeat_length; apply Nat.lt_le_trans with np; auto; replace np with (np * 1) at 1 by lia; apply Nat.mul_le_mono_l; lia|]. apply RD. rewrite Nat.add_comm. apply place_lt; auto.
      + apply slice_In with (k := j * np); [lia|]. apply RD. rewrite (Nat.mul_comm np). apply Nat.mul_lt_mono_pos_r; lia. }
  destruct (rmapM_total (fun j => dmaxs (cols j)) (seq 0 nf)) as [news EN].
  { intros j I. apply in_seq in I. destruct (nth_error_is_some (List.concat (snd x)) (i := place pointOrder np nf 0 j)) as [v E]; [rewrite LC; apply place_lt'; lia|].
    destruct (NE 0 j v Hp ltac:(lia) E) as (d & ID & _). destruct (dmaxs_ok _ _ ID) as (mx & X & _). eauto. }
  change (rmapM (fun j => dmaxs (if pointOrder then every j nf (len ds) ds else slice (j * np) (j * np + nf) ds)) (seq 0 nf)) with (rmapM (fun j => dmaxs (cols j)) (seq 0 nf)).
  rewrite EN. cbn [rbind]. assert (LN : len news = nf) by (rewrite (rmapM_ok_length _ _ EN), seq_length; reflexivity).
  destruct (reshape_at pointOrder np nf arr LA) as [RR AR].
  assert (SRC : forall i j w, at_ (reshapeRows np nf pointOrder arr) i j w -> i < np /\ j < nf /\ exists v, nth_error (List.concat (snd x)) (place pointOrder np nf i j) = Some v /\
     w = match frameDt (fst x) with DFloat => toFloat v | _ => v end).
  { intros i j w A. destruct (at_range _ _ _ _ _ _ RR A) as [Hi Hj]. split; [auto|]. split; [auto|].
    destruct (nth_error_is_some (List.concat (snd x)) (i := place pointOrder np nf i j)) as [v E]; [rewrite LC; apply place_lt'; auto|]. exists v. split; auto.
    destruct (VAL _ _ E) as (c & d & _ & _ & _ & _ & N). exact (at_fun _ _ _ _ _ A (AR _ _ _ Hi Hj N)). }
  destruct (castCols_ok floatOf intOf news (reshapeRows np nf pointOrder arr) np) as (m & E & FO & S).
  { rewrite LN. exact RR. }
  { intros i j w d A D. destruct (SRC _ _ _ A) as (Hi & Hj & v & Ev & ->). destruct (NE i j v Hi Hj Ev) as (e & Ie & Oe).
    assert (X : nth_error (seq 0 nf) j = Some j) by (rewrite nth_error_seq, (proj2 (Nat.ltb_lt j nf) Hj); reflexivity).
    destruct (rmapM_ok_nth _ _ EN _ X) as (mx & N & DM). rewrite N in D. injection D as ->. destruct (dmaxs_ok _ _ Ie) as (mx' & DM' & BB). rewrite DM in DM'. injection DM' as <-.
    eapply Fits_same; [apply SameElement_sym, asDt_same|]. eapply OfDt_up; [exact Oe|apply BB; exact Ie]. }
  rewrite E. cbn [rbind]. eexists. split; [reflexivity|]. rewrite LN in FO. split; [exact FO|]. cbn [snd]. intros i j v Hi Hj B. apply EC in B.
  destruct (VAL _ _ B) as (c & d & _ & _ & _ & _ & N). destruct (S _ _ _ (AR _ _ _ Hi Hj N)) as (w & W & SW). exists w. split; auto. eapply SameElement_trans; [apply asDt_same|exact SW].
Qed.
End F.
