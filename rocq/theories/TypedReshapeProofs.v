(** Proofs for C73: transform on both axes, collapse and expand of DataFrame objects. *)
From Verif Require Import Base TableModel TableProofs TableOpsProofs MatchModel MatchSpec MatchProofs LogicModel GetSpec GetCountProofs
  ElementsCalcProofs ReshapeModel ReshapeFillProofs CopyModel CopySpec CopyProofs CopyNimbleProofs CopyRawProofs TypedModel TypedSpec TypedProofs TypedTakeProofs TypedWriteProofs TypedFlatProofs TypedTransformProofs.
From Coq Require Import List String Sorted QArith Lia ZifyNat. Import ListNotations.
Open Scope nat_scope.

Section R.
Variable floatOf : string -> option pval.
Variable intOf : string -> option Z.
Notation castTo := (TypedModel.castTo floatOf intOf).
Notation castCols := (TypedModel.castCols floatOf intOf).
Notation len := List.length.

Lemma rect_Forall (m : list (list pval)) p f : Rectangle m p f <-> len m = p /\ Forall (fun r => len r = f) m.
Proof. unfold Rectangle. rewrite Forall_forall. reflexivity. Qed.
Lemma typed_Forall (m : list (list pval)) d : (forall i j v, at_ m i j v -> OfDt d v) <-> Forall (Forall (OfDt d)) m.
Proof.
  split.
  - intros H. apply Forall_forall. intros r I. apply Forall_forall. intros v Iv. apply In_nth_error in I, Iv. destruct I as [i I], Iv as [j J]. apply (H i j). exists r. auto.
  - intros H i j v (r & A & B). eapply (TypedTransformProofs.Forall_nth (OfDt d)); [|exact B]. eapply (TypedTransformProofs.Forall_nth (Forall (OfDt d))); eauto.
Qed.
(** the vectors of the data: its points, or its features *)
Definition vecs (points : bool) (f : nat) (m : list (list pval)) : list (list pval) := if points then m else transposeRows f m.
Lemma vecs_at points m p f : Rectangle m p f -> Rectangle (vecs points f m) (across points p f) (along points p f) /\
  forall i j v, at_ (vecs points f m) i j v <-> inVector points m i j v.
Proof.
  intros R. destruct points; cbn [vecs inVector across along]; [split; [auto|reflexivity]|]. destruct (transpose_at m p f R) as [R' T]. split; [exact R'|].
  intros i j v. split; [|apply T]. intros A. destruct (at_range _ _ _ _ _ _ R' A) as [Hi Hj]. destruct (at_total m p f j i R Hj Hi) as [u U].
  rewrite (at_fun _ _ _ _ _ A (T _ _ _ U)). exact U.
Qed.
Lemma mat_transform points F only x p f : MatOK x p f -> 0 < along points p f -> (forall r ret, F r = Ok ret -> len ret = len r) ->
  exists x' res stop, matTransform floatOf intOf points p f F only x = (x', res) /\ MatOK x' p f /\ stop <= across points p f /\
    Transformed points F only stop (across points p f) (along points p f) (snd x) (snd x') /\
    match res with
    | Ok _ => stop = across points p f
    | Err e => stop < across points p f /\ exists r r', vectorAt points (snd x) stop (along points p f) r /\ SameList r r' /\ F r' = Err e
    end.
Proof.
  intros [R O] Hk FOK. destruct (vecs_at points (snd x) p f R) as [RV AV]. pose proof (proj1 (rect_Forall _ _ _) RV) as [LV KV].
  assert (OV : Forall (Forall (OfDt (fst x))) (vecs points f (snd x))).
  { apply typed_Forall. intros i j v A. apply AV in A. destruct points; cbn [inVector] in A; eapply O; eauto. }
  destruct (vectors_spec floatOf intOf F only (along points p f) FOK Hk (fst x) _ KV OV) as (d' & vs' & r & stop & E & H1 & (A1 & A2 & A3 & A4) & H4). rewrite LV in *.
  assert (R' : Rectangle vs' (across points p f) (along points p f)) by (apply rect_Forall; auto).
  set (m' := if points then vs' else transposeRows p vs').
  assert (RM : Rectangle m' p f) by (unfold m'; destruct points; cbn in R'; [exact R'|exact (proj1 (transpose_at vs' f p R'))]).
  assert (AM : forall i j v, inVector points m' i j v <-> at_ vs' i j v).
  { unfold m'. destruct points; cbn [inVector]; [reflexivity|]. cbn in R'. destruct (transpose_at vs' f p R') as [R2 T]. intros i j v. split; [|apply T]. intros A.
    destruct (at_range _ _ _ _ _ _ R2 A) as [Hj Hi]. destruct (at_total vs' f p i j R' Hi Hj) as [u U]. rewrite (at_fun _ _ _ _ _ A (T _ _ _ U)). exact U. }
  exists (d', m'), r, stop. split.
  { unfold matTransform. destruct points; cbn [vecs] in *; rewrite E; reflexivity. }
  assert (VEC : forall i r, nth_error (vecs points f (snd x)) i = Some r -> vectorAt points (snd x) i (along points p f) r).
  { intros i r0 E0. split; [exact (TypedTransformProofs.Forall_nth (fun y => len y = along points p f) _ _ _ KV E0)|]. intros j v. rewrite <- AV. split; [intros B; exists r0; auto|].
    intros (r2 & B & C). rewrite E0 in B. injection B as <-. exact C. }
  split; [split; cbn [fst snd]; auto|split; [exact H1|split]].
  - intros i j v A. assert (B : exists a b, inVector points m' a b v) by (destruct points; [exists i, j|exists j, i]; exact A). destruct B as (a & b & B). apply AM in B.
    exact (proj2 (typed_Forall vs' d') A3 a b v B).
  - cbn [snd]. intros i Hi. destruct (nth_error_is_some (vecs points f (snd x)) (i := i)) as [r0 E0]; [rewrite LV; exact Hi|]. destruct (A4 i r0 E0) as (v & V & X).
    assert (UNCH : SameList r0 v -> forall j u, inVector points (snd x) i j u -> exists w, inVector points m' i j w /\ SameElement u w).
    { intros S j u U. apply (proj2 (VEC i r0 E0)) in U. destruct (F2nth _ _ _ _ _ S U) as (w & W & SW). exists w. split; auto. apply AM. exists v. auto. }
    change (match only with Some l => if in_dec Nat.eq_dec i l then true else false | None => true end) with (sel only i). destruct (sel only i); cbn [andb] in X; [|auto].
    destruct (i <? stop); [|auto]. destruct X as (r' & ret & S & FE & RET). exists r0, ret. split; [auto|]. exists r'. split; auto. split; auto.
    intros j u U. destruct (F2nth _ _ _ _ _ RET U) as (w & W & RW). exists w. split; auto. apply AM. exists v. auto.
  - destruct r; auto. destruct H4 as (B & _ & r0 & r' & B1 & B2 & B3). split; auto. exists r0, r'. auto.
Qed.

(** ** collapse *)
Lemma flat_rows_nth {A B} (g : A -> list B) l c i q x y : (forall x, In x l -> len (g x) = c) -> nth_error l i = Some x -> nth_error (g x) q = Some y -> nth_error (flat_map g l) (i * c + q) = Some y.
Proof.
  intros H E Y. assert (Hq : q < c) by (rewrite <- (H x); [eapply nth_error_lt; eauto|eapply nth_error_In; eauto]).
  rewrite (flat_map_const_nth g l c (i * c + q)) by (auto; lia). rewrite (Nat.add_comm (i * c)), Nat.div_add, Nat.mod_add, Nat.div_small, Nat.mod_small by lia. cbn. rewrite E. exact Y.
Qed.
Lemma collapsed_at names (retain collapse : list (list pval)) p nr nc : Rectangle retain p nr -> Rectangle collapse p nc -> len names = nc ->
  Rectangle (collapsedRows names retain collapse) (p * nc) (S (S nr)) /\
  forall i q, i < p -> q < nc ->
    (forall j v, at_ retain i j v -> at_ (collapsedRows names retain collapse) (i * nc + q) j v) /\
    (forall v, nth_error names q = Some v -> at_ (collapsedRows names retain collapse) (i * nc + q) nr v) /\
    (forall v, at_ collapse i q v -> at_ (collapsedRows names retain collapse) (i * nc + q) (S nr) v).
Proof.
  intros [L R] [L' R'] LN. unfold collapsedRows. set (g := fun p0 : list pval * list pval => map (fun q : pval * pval => fst p0 ++ [fst q; snd q]) (combine names (snd p0))).
  assert (G : forall x, In x (combine retain collapse) -> len (g x) = nc).
  { intros [a b] I. unfold g. rewrite map_length, combine_length. cbn [snd]. rewrite (R' b) by (eapply in_combine_r; eauto). lia. }
  split.
  - split; [rewrite (flat_map_const_length g _ nc G), combine_length; lia|]. intros r I. apply in_flat_map in I. destruct I as ([a b] & I & J). unfold g in J. apply in_map_iff in J.
    destruct J as ([n v] & <- & _). rewrite app_length. cbn. rewrite (R a) by (eapply in_combine_l; eauto). lia.
  - intros i q Hi Hq. destruct (nth_error_is_some retain (i := i)) as [a Ea]; [lia|]. destruct (nth_error_is_some collapse (i := i)) as [b Eb]; [lia|].
    assert (LA : len a = nr) by (apply R; eapply nth_error_In; eauto). assert (LB : len b = nc) by (apply R'; eapply nth_error_In; eauto).
    destruct (nth_error_is_some names (i := q)) as [n En]; [lia|]. destruct (nth_error_is_some b (i := q)) as [v Ev]; [lia|].
    assert (ROW : nth_error (flat_map g (combine retain collapse)) (i * nc + q) = Some (a ++ [n; v])).
    { apply flat_rows_nth with (x := (a, b)); auto; [rewrite nth_error_combine, Ea, Eb; reflexivity|]. unfold g. rewrite nth_error_map, nth_error_combine. cbn [snd fst]. rewrite En, Ev. reflexivity. }
    split; [|split].
    + intros j w (r & B & C). rewrite Ea in B. injection B as <-. eexists. split; [exact ROW|]. rewrite nth_error_app1; [exact C|eapply nth_error_lt; eauto].
    + intros w W. rewrite En in W. injection W as <-. eexists. split; [exact ROW|]. rewrite nth_error_app2 by lia. rewrite LA, Nat.sub_diag. reflexivity.
    + intros w (r & B & C). rewrite Eb in B. injection B as <-. rewrite Ev in C. injection C as <-. eexists. split; [exact ROW|]. rewrite nth_error_app2 by lia. replace (S nr - len a) with 1 by lia. reflexivity.
Qed.
(** retained features before the collapsed ones *)
Lemma collapsedDtypes_after retain first extra : forall ds i,
  collapsedDtypes retain first extra i ds = flat_map (fun p : nat * dt => if mem (fst p) retain then [snd p] else if fst p =? first then extra else []) (combine (seq i (len ds)) ds).
Proof. induction ds as [|d ds IH]; intros i; cbn [collapsedDtypes len seq combine flat_map fst snd]; [reflexivity|]. rewrite IH. reflexivity. Qed.
Lemma collapsedDtypes_prefix retain c ds (extra : list dt) nr : retain = seq 0 nr -> hd 0 c = nr -> len ds = nr + len c -> 0 < len c -> (forall i, In i c -> nr <= i) ->
  collapsedDtypes retain (hd 0 c) extra 0 ds = firstn nr ds ++ extra.
Proof.
  intros -> HC L LC _. rewrite HC. rewrite <- (firstn_skipn nr ds) at 1. assert (LF : len (firstn nr ds) = nr) by (rewrite firstn_length; lia). 
  assert (G : forall (a : list dt) b i, collapsedDtypes (seq 0 nr) nr extra i (a ++ b) = collapsedDtypes (seq 0 nr) nr extra i a ++ collapsedDtypes (seq 0 nr) nr extra (i + len a) b).
  { induction a as [|d a IH]; intros b i; cbn [app collapsedDtypes len]; [rewrite Nat.add_0_r; reflexivity|]. rewrite IH, <- app_assoc. do 3 f_equal. cbn. lia. }
  rewrite G, LF. f_equal.
  - assert (H : forall (a : list dt) i, i + len a <= nr -> collapsedDtypes (seq 0 nr) nr extra i a = a).
    { induction a as [|d a IH]; intros i H; cbn [collapsedDtypes len] in *; [reflexivity|]. rewrite (proj2 (mem_In i (seq 0 nr))) by (apply in_seq; lia). rewrite IH by lia. reflexivity. }
    apply H. lia.
  - cbn [Nat.add]. destruct (skipn nr ds) as [|d t] eqn:ES; [exfalso; assert (X : len (skipn nr ds) = 0) by (rewrite ES; reflexivity); rewrite skipn_length in X; lia|].
    cbn [collapsedDtypes]. rewrite (proj2 (mem_not_In nr (seq 0 nr))) by (rewrite in_seq; lia). rewrite Nat.eqb_refl.
    assert (H : forall (a : list dt) i, nr < i -> collapsedDtypes (seq 0 nr) nr extra i a = []).
    { induction a as [|d' a IH]; intros i H; cbn [collapsedDtypes]; [reflexivity|]. rewrite (proj2 (mem_not_In i (seq 0 nr))) by (rewrite in_seq; lia). rewrite (proj2 (Nat.eqb_neq i nr)) by lia. apply IH. lia. }
    rewrite H by lia. apply app_nil_r.
Qed.
Lemma frame_collapse names x p f nr collapse : FrameOK x p f -> len names = len collapse -> hd 0 collapse = nr -> 0 < len collapse -> f = nr + len collapse ->
  (forall i, In i collapse -> nr <= i < f) ->
  exists data r, frameCollapse floatOf intOf names collapse (seq 0 nr) x = (data, Ok r) /\ FrameOK r (p * len collapse) (S (S nr)) /\
  forall i q a n, i < p -> nth_error collapse q = Some a -> nth_error names q = Some n ->
    (forall j v, j < nr -> at_ (snd x) i j v -> exists w, at_ (snd r) (i * len collapse + q) j w /\ SameElement v w) /\
    (exists w, at_ (snd r) (i * len collapse + q) nr w /\ SameElement n w) /\
    (forall v, at_ (snd x) i a v -> exists w, at_ (snd r) (i * len collapse + q) (S nr) w /\ SameElement v w).
Proof.
  intros (R & L & O) LN HC LC EF IC. unfold frameCollapse. set (nc := len collapse) in *. pose proof (frameArray_rect x p f R) as RA.
  assert (P1 : Picks false (seq 0 nr) p (frameArray x) (takeM false (seq 0 nr) (frameArray x))) by (apply takeM_Picks with (n := f); [exact RA|intros i I; apply in_seq in I; lia]).
  assert (P2 : Picks false collapse p (frameArray x) (takeM false collapse (frameArray x))) by (apply takeM_Picks with (n := f); [exact RA|intros i I; apply IC in I; lia]).
  cbn [takeM] in P1, P2. destruct P1 as [V1 X1], P2 as [V2 X2]. cbn [Vectors inVector] in V1, V2, X1, X2. rewrite seq_length in V1. fold nc in V2.
  destruct (collapsed_at names _ _ p nr nc V1 V2 LN) as [RD AD]. set (data := collapsedRows names _ _) in *.
  assert (exists d0, In d0 (fst x)) as [d0 I0] by (destruct (fst x) as [|d0 l]; [cbn in L; lia|exists d0; left; reflexivity]).
  destruct (dmaxs_ok (fst x) d0 I0) as (top & ET & BT). rewrite ET. cbn [rbind].
  rewrite (collapsedDtypes_prefix (seq 0 nr) collapse (fst x) [DObj; top] nr eq_refl HC) by (auto; try lia; intros i I; apply IC in I; lia).
  set (ds := firstn nr (fst x) ++ [DObj; top]). assert (LF : len (firstn nr (fst x)) = nr) by (rewrite firstn_length; lia).
  assert (LD : len ds = S (S nr)) by (unfold ds; rewrite app_length, LF; cbn; lia). rewrite LD, seq_length, Nat.eqb_refl. cbn [negb].
  assert (SRC : forall a j w, at_ data a j w -> exists i q, a = i * nc + q /\ i < p /\ q < nc /\ j < S (S nr)).
  { intros a j w A. destruct (at_range _ _ _ _ _ _ RD A) as [Ha Hj]. exists (a / nc), (a mod nc). split; [rewrite Nat.mul_comm; apply Nat.div_mod; lia|].
    split; [apply Nat.div_lt_upper_bound; lia|]. split; [apply Nat.mod_upper_bound; lia|exact Hj]. }
  assert (VAL : forall i j, i < p -> j < f -> exists v d, at_ (snd x) i j v /\ nth_error (fst x) j = Some d /\ OfDt d v /\ at_ (frameArray x) i j (match frameDt (fst x) with DFloat => toFloat v | _ => v end)).
  { intros i j Hi Hj. destruct (at_total _ p f i j R Hi Hj) as [v V]. destruct (nth_error_is_some (fst x) (i := j)) as [d D]; [lia|]. exists v, d. refine (conj V (conj D (conj (O _ _ _ _ V D) _))). apply frameArray_at. exact V. }
  destruct (castCols_ok floatOf intOf ds data (p * nc)) as (m & E & FO & S).
  { rewrite LD. exact RD. }
  { intros a j w d A D. destruct (SRC a j w A) as (i & q & -> & Hi & Hq & Hj). destruct (AD i q Hi Hq) as (A1 & A2 & A3).
    destruct (Nat.ltb_spec j nr) as [B|B].
    - destruct (VAL i j Hi ltac:(lia)) as (v & d' & V & D' & OV & VA). assert (Q : nth_error (seq 0 nr) j = Some j) by (rewrite nth_error_seq, (proj2 (Nat.ltb_lt j nr) B); reflexivity).
      rewrite (at_fun _ _ _ _ _ A (A1 _ _ (X1 _ _ _ _ Q VA))). assert (nth_error ds j = Some d') as D2.
      { unfold ds. rewrite nth_error_app1 by lia. rewrite <- (firstn_skipn nr (fst x)) in D'. rewrite nth_error_app1 in D' by lia. exact D'. }
      rewrite D2 in D. injection D as <-. exists v. split; auto. apply SameElement_sym, asDt_same.
    - unfold ds in D. rewrite nth_error_app2 in D by lia. rewrite LF in D. assert (j = nr \/ j = S nr) as [->| ->] by lia.
      + rewrite Nat.sub_diag in D. injection D as <-. apply Fits_obj.
      + replace (S nr - nr) with 1 in D by lia. injection D as <-. destruct (nth_error_is_some collapse (i := q)) as [c EC]; [exact Hq|].
        destruct (VAL i c Hi) as (v & d' & V & D' & OV & VA); [apply IC; eapply nth_error_In; eauto|]. rewrite (at_fun _ _ _ _ _ A (A3 _ (X2 _ _ _ _ EC VA))).
        eapply Fits_same; [apply SameElement_sym, asDt_same|]. eapply OfDt_up; [exact OV|]. apply BT. eapply nth_error_In; eauto. }
  rewrite E. cbn [rbind]. exists data, (ds, m). split; [reflexivity|]. rewrite LD in FO. split; [exact FO|]. cbn [snd]. intros i q a n Hi EQ EN.
  assert (Hq : q < nc) by (eapply nth_error_lt; exact EQ). destruct (AD i q Hi Hq) as (A1 & A2 & A3). split; [|split].
  - intros j v Hj V. assert (Q : nth_error (seq 0 nr) j = Some j) by (rewrite nth_error_seq, (proj2 (Nat.ltb_lt j nr) Hj); reflexivity).
    destruct (S _ _ _ (A1 _ _ (X1 _ _ _ _ Q (frameArray_at x _ _ _ V)))) as (w & W & SW). exists w. split; auto. eapply SameElement_trans; [apply asDt_same|exact SW].
  - exact (S _ _ _ (A2 _ EN)).
  - intros v V. destruct (S _ _ _ (A3 _ (X2 _ _ _ _ EQ (frameArray_at x _ _ _ V)))) as (w & W & SW). exists w. split; auto. eapply SameElement_trans; [apply asDt_same|exact SW].
Qed.
(** ** expand *)
Lemma concat_rep_nth (values : list dt) : forall n q k d, q < n -> nth_error values k = Some d -> nth_error (List.concat (repeat values n)) (q * len values + k) = Some d.
Proof.
  induction n as [|n IH]; intros [|q] k d H E; try lia; cbn [repeat List.concat].
  - cbn. rewrite nth_error_app1; [exact E|eapply nth_error_lt; eauto].
  - rewrite nth_error_app2 by (cbn; lia). rewrite <- (IH q k d) by (auto; lia). f_equal. cbn. lia.
Qed.
Lemma concat_rep_len (values : list dt) n : len (List.concat (repeat values n)) = n * len values.
Proof. induction n; cbn; [reflexivity|rewrite app_length; lia]. Qed.
(** the place of the columns of an expanded object *)
Lemma expandedDtypes_nth ni n unc values : ni <= len unc ->
  len (expandedDtypes ni n unc values) = len unc + n * len values /\
  (forall j d, nth_error unc j = Some d -> nth_error (expandedDtypes ni n unc values) (if j <? ni then j else j + n * len values) = Some d) /\
  (forall q k d, q < n -> nth_error values k = Some d -> nth_error (expandedDtypes ni n unc values) (ni + q * len values + k) = Some d).
Proof.
  intros H. unfold expandedDtypes. pose proof (concat_rep_len values n) as LC. assert (LF : len (firstn ni unc) = ni) by (rewrite firstn_length; lia). split; [|split].
  - rewrite !app_length, LC, LF, skipn_length. lia.
  - intros j d D. pose proof (insertL_old ni (List.concat (repeat values n)) unc j d H D) as X. rewrite LC in X. exact X.
  - intros q k d Q D. pose proof (insertL_new ni (List.concat (repeat values n)) unc (q * len values + k) d H (concat_rep_nth values n q k d Q D)) as X. rewrite Nat.add_assoc in X. exact X.
Qed.
Lemma expanded_row (ni ne : nat) (names : list pval) (key : list pval) d : (forall p, In p d -> len (snd p) = ne) -> ni <= len key ->
  exists row, fillExpanded ni ne (len key + len names * ne) names (key, d) = Ok row /\ len row = len key + len names * ne /\
  (forall j v, nth_error key j = Some v -> nth_error row (if j <? ni then j else j + len names * ne) = Some v) /\
  (forall q n k, nth_error names q = Some n -> k < ne ->
     nth_error row (ni + q * ne + k) = match find (fun p => pyEq n (fst p)) d with Some p => nth_error (snd p) k | None => Some PNaN end).
Proof.
  intros H L. eexists. split; [apply fillExpanded_ok; auto|]. set (mid := flat_map (lookupVals ne d) names).
  assert (LM : len mid = len names * ne) by (unfold mid; rewrite (flat_map_const_length _ _ ne); [lia|intros x _; apply lookupVals_length; exact H]).
  change (firstn ni key ++ mid ++ skipn ni key) with (insertL ni mid key). split; [rewrite insertL_len; lia|]. split.
  - intros j v V. rewrite <- LM. apply insertL_old; auto.
  - intros q n k N K. unfold insertL. assert (LF : len (firstn ni key) = ni) by (rewrite firstn_length; lia). pose proof (nth_error_lt _ _ N) as HQ.
    assert (HM : q * ne + k < len mid) by (rewrite LM; apply place_lt; auto).
    rewrite nth_error_app2 by lia. rewrite nth_error_app1 by lia. replace (ni + q * ne + k - len (firstn ni key)) with (q * ne + k) by lia. unfold mid.
    rewrite (flat_map_const_nth (lookupVals ne d) names ne (q * ne + k)) by (try lia; intros x _; apply lookupVals_length; exact H).
    rewrite (Nat.add_comm (q * ne)), Nat.div_add, Nat.mod_add, Nat.div_small, Nat.mod_small by lia. cbn [Nat.add]. rewrite N. unfold lookupVals. destruct (find _ d) as [p|] eqn:E; [reflexivity|]. apply nth_rep. exact K.
Qed.
Lemma frame_expand ni names (groups : list group) unc values :
  ni <= len unc ->
  (forall key d, In (key, d) groups -> len key = len unc /\ (forall p, In p d -> len (snd p) = len values) /\
     (forall j v e, nth_error key j = Some v -> nth_error unc j = Some e -> Fits e v) /\
     (forall p k v e, In p d -> nth_error (snd p) k = Some v -> nth_error values k = Some e -> Fits e v) /\
     (forall n e, In n names -> In e values -> (exists p, In p d /\ pyEq n (fst p) = true) \/ Fits e PNaN)) ->
  exists r, frameExpand floatOf intOf ni (len values) (len unc + len names * len values) names groups unc values = Ok r /\
    FrameOK r (len groups) (len unc + len names * len values) /\
    forall i key d, nth_error groups i = Some (key, d) ->
      (forall j v, nth_error key j = Some v -> exists w, at_ (snd r) i (if j <? ni then j else j + len names * len values) w /\ SameElement v w) /\
      (forall q n k, nth_error names q = Some n -> k < len values -> exists v w,
         match find (fun p => pyEq n (fst p)) d with Some p => nth_error (snd p) k = Some v | None => v = PNaN end /\
         at_ (snd r) i (ni + q * len values + k) w /\ SameElement v w).
Proof.
  intros NI H. unfold frameExpand. set (ne := len values) in *. set (nf := len unc + len names * ne) in *.
  assert (ROW : forall g, In g groups -> exists row, fillExpanded ni ne nf names g = Ok row /\ len row = nf /\
     (forall j v, nth_error (fst g) j = Some v -> nth_error row (if j <? ni then j else j + len names * ne) = Some v) /\
     (forall q n k, nth_error names q = Some n -> k < ne ->
       nth_error row (ni + q * ne + k) = match find (fun p => pyEq n (fst p)) (snd g) with Some p => nth_error (snd p) k | None => Some PNaN end)).
  { intros [key d] I. destruct (H key d I) as (LK & LP & _). destruct (expanded_row ni ne names key d LP ltac:(lia)) as (row & E & X). rewrite LK in E, X. fold nf in E, X. exists row. auto. }
  destruct (rmapM_total (fillExpanded ni ne nf names) groups) as [data E]; [intros g I; destruct (ROW g I) as (row & E & _); eauto|].
  rewrite E. cbn [rbind]. set (ds := expandedDtypes ni (len names) unc values).
  destruct (expandedDtypes_nth ni (len names) unc values NI) as (LD & D1 & D2). fold ds in LD, D1, D2. fold ne in LD, D1, D2. fold nf in LD.
  assert (RD : Rectangle data (len groups) nf).
  { split; [exact (rmapM_ok_length _ _ E)|]. intros r I. apply In_nth_error in I. destruct I as [i I]. assert (HI : i < len groups) by (rewrite <- (rmapM_ok_length _ _ E); eapply nth_error_lt; eauto).
    destruct (nth_error_is_some groups (i := i) HI) as [g G]. destruct (rmapM_ok_nth _ _ E _ G) as (r2 & A & B). rewrite I in A. injection A as <-.
    destruct (ROW g (nth_error_In _ _ G)) as (row & C & LR & _). rewrite B in C. injection C as <-. exact LR. }
  assert (AT : forall i g, nth_error groups i = Some g ->
     (forall j v, nth_error (fst g) j = Some v -> at_ data i (if j <? ni then j else j + len names * ne) v) /\
     (forall q n k, nth_error names q = Some n -> k < ne -> exists v,
        match find (fun p => pyEq n (fst p)) (snd g) with Some p => nth_error (snd p) k = Some v | None => v = PNaN end /\ at_ data i (ni + q * ne + k) v)).
  { intros i g G. destruct (rmapM_ok_nth _ _ E _ G) as (r2 & A & B). destruct (ROW g (nth_error_In _ _ G)) as (row & C & LR & X1 & X2). rewrite B in C. injection C as ->. split.
    - intros j v V. exists row. split; auto.
    - intros q n k Q K. specialize (X2 q n k Q K). destruct (find (fun p => pyEq n (fst p)) (snd g)) as [p|] eqn:EF.
      + destruct (nth_error (snd p) k) as [v|] eqn:EV; [exists v; split; auto; exists row; auto|]. exfalso. apply nth_error_None in EV. apply find_some in EF. destruct g as [key d].
        destruct (H key d (nth_error_In _ _ G)) as (_ & LP & _). rewrite (LP p) in EV by (apply EF). lia.
      + exists PNaN. split; auto. exists row. auto. }
  destruct (castCols_ok floatOf intOf ds data (len groups)) as (m & EM & FO & S).
  { rewrite LD. exact RD. }
  { intros i c w e A D. destruct (at_range _ _ _ _ _ _ RD A) as [Hi Hc]. destruct (nth_error_is_some groups (i := i) Hi) as [[key d] G]. destruct (AT i _ G) as [A1 A2]. cbn [fst snd] in A1, A2.
    destruct (H key d (nth_error_In _ _ G)) as (LK & LP & FK & FP & FM).
    assert (CASE : (exists j, j < len unc /\ c = if j <? ni then j else j + len names * ne) \/ (exists q k, q < len names /\ k < ne /\ c = ni + q * ne + k)).
    { destruct (Nat.ltb_spec c ni) as [B|B]; [left; exists c; split; [lia|]; rewrite (proj2 (Nat.ltb_lt c ni) B); reflexivity|].
      destruct (Nat.ltb_spec c (ni + len names * ne)) as [B2|B2].
      - right. destruct (place_onto true (len names) ne (c - ni) ltac:(lia)) as (q & k & Q & K & P). cbn [place] in P. exists q, k. split; [auto|]. split; [auto|]. lia.
      - left. exists (c - len names * ne). split; [unfold nf in Hc; lia|]. rewrite (proj2 (Nat.ltb_ge (c - len names * ne) ni)) by lia. lia. }
    destruct CASE as [(j & Hj & ->)|(q & k & Hq & Hk & ->)].
    - destruct (nth_error_is_some unc (i := j) Hj) as [e' D']. rewrite (D1 j e' D') in D. injection D as <-. destruct (nth_error_is_some key (i := j)) as [v V]; [lia|].
      rewrite (at_fun _ _ _ _ _ A (A1 _ _ V)). eapply FK; eauto.
    - destruct (nth_error_is_some values (i := k) Hk) as [e' D']. rewrite (D2 q k e' Hq D') in D. injection D as <-. destruct (nth_error_is_some names (i := q) Hq) as [n N].
      destruct (A2 q n k N Hk) as (v & X & B). rewrite (at_fun _ _ _ _ _ A B). destruct (find (fun p => pyEq n (fst p)) d) as [p|] eqn:EF.
      + apply find_some in EF. eapply FP; [apply EF|exact X|exact D'].
      + subst v. destruct (FM n e' (nth_error_In _ _ N) (nth_error_In _ _ D')) as [(p & Ip & Ep)|F]; [|exact F]. exfalso. pose proof (find_none _ _ EF p Ip) as Y. cbn in Y. congruence. }
  rewrite EM. cbn [rbind]. exists (ds, m). split; [reflexivity|]. rewrite LD in FO. split; [exact FO|]. cbn [snd]. intros i key d G. destruct (AT i _ G) as [A1 A2]. cbn [fst snd] in A1, A2. split.
  - intros j v V. exact (S _ _ _ (A1 _ _ V)).
  - intros q n k N K. destruct (A2 q n k N K) as (v & X & B). destruct (S _ _ _ B) as (w & W & SW). exists v, w. auto.
Qed.
End R.
