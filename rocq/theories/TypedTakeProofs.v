(** Proofs for C73: selecting, permuting, repeating and inserting vectors. *)
From Verif Require Import Base TableModel TableProofs TableOpsProofs MatchModel MatchSpec MatchProofs LogicModel GetSpec GetCountProofs
  ElementsCalcProofs CopyModel CopySpec CopyProofs CopyNimbleProofs CopyRawProofs TypedModel TypedSpec TypedProofs.
From Coq Require Import List String Sorted QArith Lia ZifyNat. Import ListNotations.
Open Scope nat_scope.

Section T.
Variable floatOf : string -> option pval.
Variable intOf : string -> option Z.
Notation castTo := (TypedModel.castTo floatOf intOf).
Notation castRows := (TypedModel.castRows floatOf intOf).
Notation castCols := (TypedModel.castCols floatOf intOf).
Notation len := List.length.

(** ** two rectangles with the same elements *)
Lemma Rectangle_ext m m' p f : Rectangle m p f -> Rectangle m' p f -> (forall i j v, at_ m i j v -> at_ m' i j v) -> m = m'.
Proof.
  intros R R' H. apply nth_error_ext_len; [rewrite (proj1 R), (proj1 R'); reflexivity|]. intros i Hi. rewrite (proj1 R) in Hi.
  destruct (nth_error_is_some m (i := i)) as [r A]; [rewrite (proj1 R); auto|]. destruct (nth_error_is_some m' (i := i)) as [r' A']; [rewrite (proj1 R'); auto|].
  rewrite A, A'. f_equal. assert (L : len r = f) by (apply (proj2 R); eapply nth_error_In; eauto). assert (L' : len r' = f) by (apply (proj2 R'); eapply nth_error_In; eauto).
  apply nth_error_ext_len; [congruence|]. intros j Hj. rewrite L in Hj. destruct (nth_error_is_some r (i := j)) as [v V]; [rewrite L; auto|].
  destruct (H i j v) as (r2 & B & C); [exists r; auto|]. rewrite A' in B. injection B as <-. rewrite V, C. reflexivity.
Qed.
Lemma castCols_id ds m p : FrameOK (ds, m) p (len ds) -> castCols ds m = Ok m.
Proof.
  intros (R & _ & O). cbn [fst snd] in *. destruct (castCols_gen floatOf intOf ds m p R) as (m' & E & R' & C).
  { intros i j v d A D. exists v. apply cast_id. eapply O; eauto. }
  rewrite E. f_equal. symmetry. apply (Rectangle_ext m m' p _ R R'). intros i j v A. destruct (at_range _ _ _ _ _ _ R A) as [_ Hj].
  destruct (nth_error_is_some ds (i := j) Hj) as [d D]. apply (C i j v d v A D). apply cast_id. eapply O; eauto.
Qed.
Lemma cast_back ds j d v : nth_error ds j = Some d -> OfDt d v -> castTo d (match frameDt ds with DFloat => toFloat v | _ => v end) = Ok v.
Proof.
  intros E O. assert (I : In d ds) by (eapply nth_error_In; eauto). destruct (frameDt ds) eqn:F; try (apply cast_id; exact O).
  unfold frameDt in F. destruct ds as [|d0 ds']; [destruct I|]. set (l := d0 :: ds') in *. destruct (existsb isDObj l) eqn:X; [discriminate|].
  destruct (existsb isDBool l) eqn:Y; [destruct (forallb isDBool l); discriminate|]. destruct d.
  - exfalso. rewrite (proj2 (existsb_exists isDBool l)) in Y; [discriminate|]. exists DBool. auto.
  - destruct O as [z ->]. cbn. rewrite (trunc_int (inject_Z z) z) by reflexivity. reflexivity.
  - destruct v; cbn in O; try tauto; reflexivity.
  - exfalso. rewrite (proj2 (existsb_exists isDObj l)) in X; [discriminate|]. exists DObj. auto.
Qed.
Lemma frameArray_at (x : list dt * list (list pval)) i j v : at_ (snd x) i j v -> at_ (frameArray x) i j (match frameDt (fst x) with DFloat => toFloat v | _ => v end).
Proof. intros A. apply asDt_at. exact A. Qed.
Lemma frameArray_rect (x : list dt * list (list pval)) p f : Rectangle (snd x) p f -> Rectangle (frameArray x) p f.
Proof. apply Rectangle_asDt. Qed.

(** ** typed selections *)
Lemma Vectors_of points m p f : Rectangle m p f <-> Vectors points m (across points p f) (along points p f).
Proof. destruct points; reflexivity. Qed.
Lemma mat_pick points idx x p f m' : MatOK x p f -> (forall i, In i idx -> i < across points p f) -> Picks points idx (along points p f) (snd x) m' ->
  MatOK (fst x, m') (if points then len idx else p) (if points then f else len idx).
Proof.
  intros [R O] H P. split; cbn [fst snd].
  - destruct P as [V _]. destruct points; exact V.
  - intros i j v A. destruct points.
    + destruct (Picks_inv true idx f (snd x) p m' i j v R H P A) as (a & _ & B). eapply O; eauto.
    + destruct (Picks_inv false idx p (snd x) f m' j i v R H P A) as (a & _ & B). eapply O; eauto.
Qed.
Lemma mat_take points idx x p f : MatOK x p f -> (forall i, In i idx -> i < across points p f) ->
  Picks points idx (along points p f) (snd x) (snd (matTake points idx x)) /\
  MatOK (matTake points idx x) (if points then len idx else p) (if points then f else len idx).
Proof.
  intros M H. pose proof (takeM_Picks points idx (snd x) (across points p f) (along points p f) (proj1 (Vectors_of points _ _ _) (proj1 M)) H) as P.
  split; [exact P|]. exact (mat_pick points idx x p f _ M H P).
Qed.
Lemma rest_lt idx n i : In i (rest idx n) -> i < n.
Proof. intros I. apply (proj2 (rest_Others idx n)) in I. tauto. Qed.
Lemma mat_drop points idx x p f keep : MatOK x p f -> Others idx (across points p f) keep ->
  Picks points keep (along points p f) (snd x) (snd (matDrop points idx x)) /\
  MatOK (matDrop points idx x) (if points then len keep else p) (if points then f else len keep).
Proof.
  intros M K. apply Others_rest in K. subst keep. assert (H : forall i, In i (rest idx (across points p f)) -> i < across points p f) by (intros i; apply rest_lt).
  unfold matDrop. rewrite (dropM_take points idx (snd x) (across points p f) (along points p f)) by (apply Vectors_of, M).
  exact (mat_take points _ x p f M H).
Qed.
Lemma source_lt n c each i : In i (source n c each) -> 0 < n -> i < c.
Proof.
  unfold source. intros I Hn. apply in_map_iff in I. destruct I as (k & <- & I). apply in_seq in I. destruct each.
  - apply Nat.div_lt_upper_bound; lia.
  - apply Nat.mod_upper_bound. intros ->. lia.
Qed.
Lemma repeatM_take points n each m c k : Vectors points m c k -> 0 < n -> repeatM points n each m = takeM points (source n c each) m.
Proof.
  intros V Hn. destruct points; cbn [repeatM takeM Vectors] in *; destruct V as [L R].
  - rewrite (repeatL_nth [] n each m Hn), L. reflexivity.
  - apply map_ext_in. intros r I. rewrite (repeatL_nth PNone n each r Hn), (R r I). reflexivity.
Qed.
Lemma mat_repeat points n each x p f : MatOK x p f -> 0 < n ->
  Picks points (source n (across points p f) each) (along points p f) (snd x) (snd (matRepeat points n each x)) /\
  MatOK (matRepeat points n each x) (if points then p * n else p) (if points then f else f * n).
Proof.
  intros M Hn. unfold matRepeat. rewrite (repeatM_take points n each (snd x) (across points p f) (along points p f)) by (auto; apply Vectors_of, M).
  destruct (mat_take points (source n (across points p f) each) x p f M) as [A B]; [intros i I; eapply source_lt; eauto|]. split; [exact A|].
  assert (L : forall c, len (source n c each) = c * n) by (intros c; unfold source; rewrite map_length, seq_length; reflexivity).
  destruct points; cbn [across] in *; rewrite L in B; exact B.
Qed.

(** frames *)
Definition pickDt (points : bool) (idx : list nat) (ds : list dt) : list dt := if points then ds else takeL DObj idx ds.
Lemma frame_pick points idx x p f m' : FrameOK x p f -> (forall i, In i idx -> i < across points p f) -> Picks points idx (along points p f) (snd x) m' ->
  FrameOK (pickDt points idx (fst x), m') (if points then len idx else p) (if points then f else len idx).
Proof.
  intros (R & L & O) H P. split; cbn [fst snd].
  - destruct P as [V _]. destruct points; exact V.
  - split; [destruct points; cbn [pickDt]; [exact L|apply takeL_len]|]. intros i j v d A D. destruct points; cbn [pickDt] in D.
    + destruct (Picks_inv true idx f (snd x) p m' i j v R H P A) as (a & _ & B). eapply O; eauto.
    + destruct (Picks_inv false idx p (snd x) f m' j i v R H P A) as (a & I & B). eapply O; [exact B|].
      assert (Ha : a < f) by (apply H; eapply nth_error_In; eauto). destruct (nth_error_is_some (fst x) (i := a)) as [d' D']; [lia|].
      rewrite (takeL_nth DObj idx (fst x) j a d' I D') in D. rewrite D', D. reflexivity.
Qed.
Lemma frame_permute points idx x p f : FrameOK x p f -> (forall i, In i idx -> i < across points p f) ->
  Picks points idx (along points p f) (snd x) (snd (framePermute points idx x)) /\
  FrameOK (framePermute points idx x) (if points then len idx else p) (if points then f else len idx) /\
  fst (framePermute points idx x) = pickDt points idx (fst x).
Proof.
  intros F H. pose proof (takeM_Picks points idx (snd x) (across points p f) (along points p f) (proj1 (Vectors_of points _ _ _) (proj1 F)) H) as P.
  split; [exact P|]. split; [exact (frame_pick points idx x p f _ F H P)|reflexivity].
Qed.
Lemma frame_take points idx x p f : FrameOK x p f -> (forall i, In i idx -> i < across points p f) ->
  frameTake floatOf intOf points idx x = Ok (framePermute points idx x).
Proof.
  intros F H. destruct (frame_permute points idx x p f F H) as (P & G & _). unfold frameTake. destruct F as (R & L & O).
  change (if points then fst x else takeL DObj idx (fst x)) with (pickDt points idx (fst x)). unfold framePermute in *. cbn [fst snd] in *.
  change (if points then fst x else takeL DObj idx (fst x)) with (pickDt points idx (fst x)) in *. set (ds := pickDt points idx (fst x)) in *.
  set (p' := if points then len idx else p) in *. set (f' := if points then f else len idx) in *.
  assert (LD : len ds = f') by (exact (proj1 (proj2 G))). rewrite <- LD in G.
  pose proof (takeM_Picks points idx (frameArray x) (across points p f) (along points p f) (proj1 (Vectors_of points _ _ _) (frameArray_rect x p f R)) H) as P2.
  assert (R2 : Rectangle (takeM points idx (frameArray x)) p' (len ds)) by (rewrite LD; destruct P2 as [V _]; unfold p', f'; destruct points; exact V).
  assert (B : forall i j w d, at_ (takeM points idx (frameArray x)) i j w -> nth_error ds j = Some d -> exists v, at_ (takeM points idx (snd x)) i j v /\ castTo d w = Ok v).
  { intros i j w d A D. destruct (at_range _ _ _ _ _ _ R2 A) as [Hi Hj]. destruct (at_total (takeM points idx (snd x)) p' (len ds) i j (proj1 G) Hi Hj) as [v V].
    exists v. split; auto. pose proof (proj2 (proj2 G) i j v d V D) as OV. cbn [fst snd] in OV.
    assert (W : w = match frameDt (fst x) with DFloat => toFloat v | _ => v end /\ exists a, nth_error (fst x) a = Some d).
    { destruct points.
      - destruct (Picks_inv true idx f (snd x) p _ i j v R H P V) as (a & Ia & C).
        destruct (Picks_inv true idx f (frameArray x) p _ i j w (frameArray_rect x p f R) H P2 A) as (a' & Ia' & C').
        rewrite Ia in Ia'. injection Ia' as <-. split; [exact (at_fun _ _ _ _ _ C' (frameArray_at x _ _ _ C))|]. exists j. exact D.
      - destruct (Picks_inv false idx p (snd x) f _ j i v R H P V) as (a & Ia & C).
        destruct (Picks_inv false idx p (frameArray x) f _ j i w (frameArray_rect x p f R) H P2 A) as (a' & Ia' & C').
        rewrite Ia in Ia'. injection Ia' as <-. split; [exact (at_fun _ _ _ _ _ C' (frameArray_at x _ _ _ C))|]. exists a.
        assert (Ha : a < f) by (apply H; eapply nth_error_In; eauto). destruct (nth_error_is_some (fst x) (i := a)) as [d' D']; [lia|].
        unfold ds in D. cbn [pickDt] in D. rewrite (takeL_nth DObj idx (fst x) j a d' Ia D') in D. rewrite D', D. reflexivity. }
    destruct W as [-> [a Da]]. eapply cast_back; eauto. }
  destruct (castCols_gen floatOf intOf ds (takeM points idx (frameArray x)) p' R2) as (m' & E & R3 & C).
  { intros i j w d A D. destruct (B i j w d A D) as (v & _ & X). eauto. }
  rewrite E. cbn [rbind]. do 2 f_equal. apply (Rectangle_ext m' (takeM points idx (snd x)) p' (len ds) R3 (proj1 G)).
  intros i j v' A'. destruct (at_range _ _ _ _ _ _ R3 A') as [Hi Hj]. destruct (at_total _ p' _ i j R2 Hi Hj) as [w W]. destruct (nth_error_is_some ds (i := j) Hj) as [d D].
  destruct (B i j w d W D) as (v & V & X). rewrite (at_fun _ _ _ _ _ A' (C i j w d v W D X)). exact V.
Qed.
Lemma frame_drop points idx x p f keep : FrameOK x p f -> Others idx (across points p f) keep ->
  frameDrop points idx x = framePermute points keep x.
Proof.
  intros (R & L & O) K. apply Others_rest in K. subst keep. unfold frameDrop, framePermute. f_equal.
  - destruct points; auto. rewrite (dropL_take DObj idx (fst x)), L. reflexivity.
  - apply dropM_take with (k := along points p f). apply Vectors_of. exact R.
Qed.
Lemma frame_repeat points n each x p f : FrameOK x p f -> 0 < n ->
  frameRepeat points n each x = framePermute points (source n (across points p f) each) x.
Proof.
  intros (R & L & O) Hn. unfold frameRepeat, framePermute. f_equal.
  - destruct points; auto. rewrite (repeatL_nth DObj n each (fst x) Hn), L. reflexivity.
  - apply repeatM_take with (k := along points p f); auto. apply Vectors_of. exact R.
Qed.

(** ** insertions *)
Lemma insertL_old {A} k (new l : list A) i y : k <= len l -> nth_error l i = Some y -> nth_error (insertL k new l) (if i <? k then i else i + len new) = Some y.
Proof.
  intros K E. unfold insertL. assert (LF : len (firstn k l) = k) by (rewrite firstn_length; lia). destruct (Nat.ltb_spec i k).
  - rewrite nth_error_app1 by lia. rewrite <- (firstn_skipn k l) in E. rewrite nth_error_app1 in E by lia. exact E.
  - rewrite nth_error_app2 by lia. rewrite nth_error_app2 by lia. rewrite <- (firstn_skipn k l) in E. rewrite nth_error_app2 in E by lia. rewrite <- E. f_equal. lia.
Qed.
Lemma insertL_new {A} k (new l : list A) i y : k <= len l -> nth_error new i = Some y -> nth_error (insertL k new l) (k + i) = Some y.
Proof.
  intros K E. unfold insertL. assert (LF : len (firstn k l) = k) by (rewrite firstn_length; lia).
  rewrite nth_error_app2 by lia. rewrite nth_error_app1 by (pose proof (nth_error_lt _ _ E); lia). rewrite <- E. f_equal. lia.
Qed.
Lemma insertL_len {A} k (new l : list A) : k <= len l -> len (insertL k new l) = len l + len new.
Proof. intros K. unfold insertL. rewrite !app_length, firstn_length, skipn_length. lia. Qed.
Lemma insertL_In {A} k (new l : list A) x : In x (insertL k new l) -> In x new \/ In x l.
Proof.
  unfold insertL. rewrite !in_app_iff. rewrite <- (firstn_skipn k l) at 3. rewrite in_app_iff. tauto.
Qed.
Definition InsertedExact (points : bool) (k q : nat) (new m m' : list (list pval)) : Prop :=
  (forall i j v, inVector points m i j v -> inVector points m' (if i <? k then i else i + q) j v) /\
  (forall i j v, inVector points new i j v -> inVector points m' (k + i) j v).
Lemma insertM_exact points k q new m n c : Vectors points m n c -> Vectors points new q c -> k <= n ->
  Vectors points (insertM points k new m) (n + q) c /\ InsertedExact points k q new m (insertM points k new m).
Proof.
  intros V W K. destruct points; cbn [Vectors insertM inVector] in *; destruct V as [L R], W as [L' R'].
  - assert (K' : k <= len m) by lia. split; [split; [rewrite insertL_len; lia|]|].
    + intros r I. destruct (insertL_In _ _ _ _ I); auto.
    + split; intros i j v (r & A & B); exists r; (split; [|exact B]).
      * rewrite <- L'. apply insertL_old; auto.
      * apply insertL_new; auto.
  - split; [split; [rewrite map_length, combine_length; lia|]|].
    + intros r I. apply in_map_iff in I. destruct I as ([a b] & <- & I). cbn [fst snd]. pose proof (in_combine_l _ _ _ _ I). pose proof (in_combine_r _ _ _ _ I).
      rewrite insertL_len; rewrite (R b) by auto; auto.
    + split; intros i j v (r & A & B); cbn [inVector].
      * destruct (nth_error_is_some new (i := j)) as [a Ea]; [pose proof (nth_error_lt _ _ A); lia|].
        exists (insertL k a r). split; [rewrite nth_error_map, nth_error_combine, Ea, A; reflexivity|]. assert (len a = q) as <- by (apply R'; eapply nth_error_In; eauto).
        apply insertL_old; auto. rewrite (R r); auto. eapply nth_error_In; eauto.
      * destruct (nth_error_is_some m (i := j)) as [b Eb]; [pose proof (nth_error_lt _ _ A); lia|].
        exists (insertL k r b). split; [rewrite nth_error_map, nth_error_combine, Eb, A; reflexivity|].
        apply insertL_new; auto. rewrite (R b); auto. eapply nth_error_In; eauto.
Qed.
(** an element of the result is an old one or a new one *)
Lemma insert_src points k q new m m' n c : Vectors points m n c -> Vectors points new q c -> k <= n -> Vectors points m' (n + q) c -> InsertedExact points k q new m m' ->
  forall i j v, inVector points m' i j v -> (exists a, inVector points m a j v) \/ (exists a, inVector points new a j v).
Proof.
  intros V W K V' [H1 H2] i j v A. assert (B : i < n + q /\ j < c) by (destruct points; cbn in *; destruct (at_range _ _ _ _ _ _ V' A); auto).
  destruct B as [Hi Hj].
  assert (T : forall mm cc a, Vectors points mm cc c -> a < cc -> exists u, inVector points mm a j u).
  { intros mm cc a VV Ha. destruct points; cbn in *; [exact (at_total mm cc c a j VV Ha Hj)|exact (at_total mm c cc j a VV Hj Ha)]. }
  assert (FUN : forall u, inVector points m' i j u -> v = u) by (intros u U; destruct points; cbn in *; eapply at_fun; eauto).
  destruct (Nat.ltb_spec i k) as [C|C]; [|destruct (Nat.ltb_spec i (k + q)) as [D|D]].
  - destruct (T m n i V) as [u U]; [lia|]. left. exists i. rewrite (FUN u); auto. specialize (H1 _ _ _ U). rewrite (proj2 (Nat.ltb_lt i k) C) in H1. exact H1.
  - destruct (T new q (i - k) W) as [u U]; [lia|]. right. exists (i - k). rewrite (FUN u); auto. specialize (H2 _ _ _ U). replace (k + (i - k)) with i in H2 by lia. exact H2.
  - destruct (T m n (i - q) V) as [u U]; [lia|]. left. exists (i - q). rewrite (FUN u); auto. specialize (H1 _ _ _ U).
    rewrite (proj2 (Nat.ltb_ge (i - q) k)) in H1 by lia. replace (i - q + q) with i in H1 by lia. exact H1.
Qed.
Lemma SameData_vec points m m' : SameData m m' -> forall i j v, inVector points m i j v -> exists w, inVector points m' i j w /\ SameElement v w.
Proof. intros H i j v A. destruct points; cbn [inVector] in *; exact (H _ _ _ A). Qed.
Lemma Inserted_of points k q new m new' m' out : SameData m m' -> SameData new new' -> InsertedExact points k q new' m' out -> Inserted points k q new m out.
Proof.
  intros S1 S2 [A B]. split; intros i j v V.
  - destruct (SameData_vec points m m' S1 _ _ _ V) as (w & W & E). exists w. split; auto.
  - destruct (SameData_vec points new new' S2 _ _ _ V) as (w & W & E). exists w. split; auto.
Qed.
Lemma mat_insert (points : bool) (k q : nat) new x p f : MatOK x p f -> MatOK new (if points then q else p) (if points then f else q) -> k <= across points p f ->
  exists r, matInsert floatOf intOf points k new x = Ok r /\ MatOK r (if points then p + q else p) (if points then f else f + q) /\
    Inserted points k q (snd new) (snd x) (snd r).
Proof.
  intros [R O] [R' O'] K. unfold matInsert. set (d := dmax (fst x) (fst new)).
  destruct (castRows_ok floatOf intOf d (snd x) p f R) as (a & EA & [RA OA] & SA); [intros i j v A; apply (OfDt_up (fst x)); [eapply O; eauto|apply dmax_l]|].
  destruct (castRows_ok floatOf intOf d (snd new) _ _ R') as (b & EB & [RB OB] & SB); [intros i j v A; apply (OfDt_up (fst new)); [eapply O'; eauto|apply dmax_r]|].
  cbn [fst snd] in *. rewrite EA, EB. cbn [rbind].
  assert (VB : Vectors points b q (along points p f)) by (destruct points; exact RB). pose proof (proj1 (Vectors_of points _ _ _) RA) as VA.
  destruct (insertM_exact points k q b a _ _ VA VB K) as [V X]. eexists. split; [reflexivity|]. cbn [fst snd]. split.
  - split; cbn [fst snd]; [destruct points; exact V|]. intros i j v A.
    assert (A' : inVector points (insertM points k b a) (if points then i else j) (if points then j else i) v) by (destruct points; exact A).
    destruct (insert_src points k q b a _ _ _ VA VB K V X _ _ _ A') as [[u U]|[u U]]; destruct points; cbn [inVector] in U; eauto.
  - exact (Inserted_of points k q (snd new) (snd x) b a _ SA SB X).
Qed.
Lemma insertDt k (new ds : list dt) f q j d : len ds = f -> len new = q -> k <= f -> nth_error (insertL k new ds) j = Some d ->
  (j < k /\ nth_error ds j = Some d) \/ (k <= j < k + q /\ nth_error new (j - k) = Some d) \/ (k + q <= j /\ nth_error ds (j - q) = Some d).
Proof.
  intros L L' K E. unfold insertL in E. assert (LF : len (firstn k ds) = k) by (rewrite firstn_length; lia).
  destruct (Nat.ltb_spec j k) as [C|C]; [|destruct (Nat.ltb_spec j (k + q)) as [D|D]].
  - left. split; auto. rewrite nth_error_app1 in E by lia. rewrite <- (firstn_skipn k ds). rewrite nth_error_app1 by lia. exact E.
  - right. left. split; [lia|]. rewrite nth_error_app2 in E by lia. rewrite nth_error_app1 in E by lia. rewrite LF in E. exact E.
  - right. right. split; [lia|]. rewrite nth_error_app2 in E by lia. rewrite nth_error_app2 in E by lia. rewrite <- (firstn_skipn k ds). rewrite nth_error_app2 by lia.
    rewrite <- E. f_equal. lia.
Qed.
Lemma frame_insert (points : bool) (k q : nat) new x p f : FrameOK x p f -> FrameOK new (if points then q else p) (if points then f else q) -> k <= across points p f ->
  exists r, frameInsert floatOf intOf points k new x = Ok r /\ FrameOK r (if points then p + q else p) (if points then f else f + q) /\
    Inserted points k q (snd new) (snd x) (snd r).
Proof.
  intros (R & L & O) (R' & L' & O') K. unfold frameInsert. destruct points; cbn [across along] in *.
  - set (ds := map (fun p0 : dt * dt => framePromote (fst p0) (snd p0)) (combine (fst x) (fst new))).
    assert (LD : len ds = f) by (unfold ds; rewrite map_length, combine_length; lia).
    assert (ND : forall j d, nth_error ds j = Some d -> exists a b, nth_error (fst x) j = Some a /\ nth_error (fst new) j = Some b /\ d = framePromote a b).
    { intros j d D. unfold ds in D. rewrite nth_error_map, nth_error_combine in D. destruct (nth_error (fst x) j) as [a|]; [|discriminate]. destruct (nth_error (fst new) j) as [b|]; [|discriminate].
      injection D as <-. exists a, b. auto. }
    destruct (castCols_ok floatOf intOf ds (snd x) p) as (a & EA & (RA & LA & OA) & SA).
    { rewrite LD. exact R. } { intros i j v d A D. destruct (ND j d D) as (d1 & d2 & D1 & D2 & ->). apply promote_l. eapply O; eauto. }
    destruct (castCols_ok floatOf intOf ds (snd new) q) as (b & EB & (RB & LB & OB) & SB).
    { rewrite LD. exact R'. } { intros i j v d A D. destruct (ND j d D) as (d1 & d2 & D1 & D2 & ->). apply promote_r. eapply O'; eauto. }
    cbn [fst snd] in *. rewrite EA, EB. cbn [rbind]. rewrite LD in RA, RB.
    destruct (insertM_exact true k q b a p f RA RB K) as [V X]. cbn [insertM] in V, X. eexists. split; [reflexivity|]. cbn [fst snd]. split.
    + split; cbn [fst snd]; [exact V|]. split; [exact LD|]. intros i j v d A D.
      destruct (insert_src true k q b a _ p f RA RB K V X i j v A) as [[u U]|[u U]]; cbn [inVector] in U; eauto.
    + exact (Inserted_of true k q (snd new) (snd x) b a _ SA SB X).
  - destruct (insertM_exact false k q (snd new) (snd x) f p R R' K) as [V X]. eexists. split; [reflexivity|]. cbn [fst snd]. split.
    + split; cbn [fst snd]; [exact V|]. split; [rewrite insertL_len; lia|]. intros i j v d A D. destruct X as [X1 X2].
      destruct (at_range _ _ _ _ _ _ V A) as [Hi Hj].
      destruct (insertDt k (fst new) (fst x) f q j d L L' K D) as [[C E]|[[C E]|[C E]]].
      * destruct (at_total (snd x) p f i j R Hi) as [u U]; [lia|]. specialize (X1 j i u U). rewrite (proj2 (Nat.ltb_lt j k) C) in X1. rewrite (at_fun _ _ _ _ _ A X1). eapply O; eauto.
      * destruct (at_total (snd new) p q i (j - k) R' Hi) as [u U]; [lia|]. specialize (X2 (j - k) i u U). replace (k + (j - k)) with j in X2 by lia. rewrite (at_fun _ _ _ _ _ A X2). eapply O'; eauto.
      * destruct (at_total (snd x) p f i (j - q) R Hi) as [u U]; [lia|]. specialize (X1 (j - q) i u U). rewrite (proj2 (Nat.ltb_ge (j - q) k)) in X1 by lia.
        replace (j - q + q) with j in X1 by lia. rewrite (at_fun _ _ _ _ _ A X1). eapply O; eauto.
    + apply (Inserted_of false k q (snd new) (snd x) (snd new) (snd x)); [intros i j v A; exists v; split; auto; apply same_refl|intros i j v A; exists v; split; auto; apply same_refl|exact X].
Qed.
End T.
