(** Proofs for C73: assignments, replaced rectangles, reshaping to one dimension. *)
From Verif Require Import Base TableModel TableProofs TableOpsProofs MatchModel MatchSpec MatchProofs LogicModel GetSpec GetCountProofs
  ElementsCalcProofs CopyModel CopySpec CopyProofs CopyNimbleProofs CopyRawProofs TypedModel TypedSpec TypedProofs TypedTakeProofs.
From Coq Require Import List String Sorted QArith Lia ZifyNat. Import ListNotations.
Open Scope nat_scope.

Lemma place_inj_p f i j i' j' : j < f -> j' < f -> i * f + j = i' * f + j' -> i = i' /\ j = j'.
Proof.
  intros A B E. assert (i = i').
  { destruct (Nat.lt_trichotomy i i') as [H|[H|H]]; auto; exfalso.
    - pose proof (Nat.mul_le_mono_r (S i) i' f H). lia.
    - pose proof (Nat.mul_le_mono_r (S i') i f H). lia. }
  subst. lia.
Qed.
Lemma place_lt p f i j : i < p -> j < f -> i * f + j < p * f.
Proof. intros A B. pose proof (Nat.mul_le_mono_r (S i) p f A). lia. Qed.

Section W.
Variable floatOf : string -> option pval.
Variable intOf : string -> option Z.
Variable junk : Z.
Notation castTo := (TypedModel.castTo floatOf intOf).
Notation castRows := (TypedModel.castRows floatOf intOf).
Notation castCols := (TypedModel.castCols floatOf intOf).
Notation len := List.length.

(** ** assignment of one element *)
Lemma updM_at m p f i j v : Rectangle m p f -> i < p -> j < f ->
  Rectangle (updM m i j v) p f /\ at_ (updM m i j v) i j v /\
  forall a b w, (a, b) <> (i, j) -> at_ m a b w -> at_ (updM m i j v) a b w.
Proof.
  intros [L R] Hi Hj. unfold updM. destruct (nth_error_is_some m (i := i)) as [r E]; [lia|]. rewrite E.
  assert (LR : len r = f) by (apply R; eapply nth_error_In; eauto). split; [split|split].
  - rewrite upd_length. exact L.
  - intros r' I. apply In_nth_error in I. destruct I as [a A]. destruct (Nat.eq_dec a i) as [->|N].
    + rewrite (@nth_error_upd_same _ m i (upd r j v)) in A by lia. injection A as <-. rewrite upd_length. exact LR.
    + rewrite (@nth_error_upd_other _ m i a (upd r j v)) in A by auto. apply R. eapply nth_error_In; eauto.
  - exists (upd r j v). split; [apply nth_error_upd_same; lia|apply nth_error_upd_same; lia].
  - intros a b w N (r' & A & B). destruct (Nat.eq_dec a i) as [->|Na].
    + rewrite E in A. injection A as <-. exists (upd r j v). split; [apply nth_error_upd_same; lia|]. rewrite nth_error_upd_other; [exact B|intros ->; apply N; reflexivity].
    + exists r'. rewrite nth_error_upd_other by auto. auto.
Qed.
Lemma mat_set x p f i j v x' : FloatOf floatOf -> MatOK x p f -> i < p -> j < f -> matSet floatOf intOf x i j v = Ok x' ->
  MatOK x' p f /\ fst x' = fst x /\ (forall a b w, (a, b) <> (i, j) -> at_ (snd x) a b w -> at_ (snd x') a b w) /\
  ((exists w, at_ (snd x') i j w /\ SameElement v w) <-> Fits (fst x) v).
Proof.
  intros FO [R O] Hi Hj E. unfold matSet in E. destruct (castTo (fst x) v) as [w|e] eqn:C; [|discriminate]. cbn [rbind] in E. injection E as <-. cbn [fst snd].
  destruct (updM_at (snd x) p f i j w R Hi Hj) as (R' & A & B). pose proof (cast_only floatOf intOf (fst x) v w FO C) as OW.
  assert (OUT : forall a b u, at_ (updM (snd x) i j w) a b u -> OfDt (fst x) u).
  { intros a b u U. destruct (Nat.eq_dec a i) as [->|Na]; [destruct (Nat.eq_dec b j) as [->|Nb]|].
    - rewrite (at_fun _ _ _ _ _ U A). exact OW.
    - destruct (at_range _ _ _ _ _ _ R' U) as [Ha Hb]. destruct (at_total (snd x) p f i b R Ha Hb) as [u' U']. assert (u = u') as -> by (eapply at_fun; [exact U|]; apply B; auto; congruence). eapply O; eauto.
    - destruct (at_range _ _ _ _ _ _ R' U) as [Ha Hb]. destruct (at_total (snd x) p f a b R Ha Hb) as [u' U']. assert (u = u') as -> by (eapply at_fun; [exact U|]; apply B; auto; congruence). eapply O; eauto. }
  refine (conj (conj R' OUT) (conj eq_refl (conj B _))). split.
  - intros (u & U & S). exists u. split; auto. eapply OUT; eauto.
  - intros F. destruct (cast_fits floatOf intOf (fst x) v F) as (u & C' & _ & S). rewrite C in C'. injection C' as <-. exists w. auto.
Qed.
Lemma mat_set_ok x i j v : Fits (fst x) v -> exists x', matSet floatOf intOf x i j v = Ok x'.
Proof. intros F. destruct (cast_fits floatOf intOf (fst x) v F) as (u & C & _). unfold matSet. rewrite C. eexists. reflexivity. Qed.
Lemma mat_set_all v : forall ps x p f, MatOK x p f -> Fits (fst x) v -> (forall q, In q ps -> fst q < p /\ snd q < f) ->
  exists x', matSetAll floatOf intOf x ps v = (x', Ok tt) /\ MatOK x' p f /\ fst x' = fst x /\
    (forall a b, In (a, b) ps -> exists w, at_ (snd x') a b w /\ SameElement v w) /\
    (forall a b w, ~ In (a, b) ps -> at_ (snd x) a b w -> at_ (snd x') a b w).
Proof.
  induction ps as [|[i j] ps IH]; intros x p f M F H; [exists x; cbn; intuition|].
  destruct (cast_fits floatOf intOf (fst x) v F) as (u & C & OU & S). cbn [matSetAll fst snd]. unfold matSet at 1. rewrite C. cbn [rbind].
  destruct (H (i, j) (or_introl eq_refl)) as [Hi Hj]. cbn [fst snd] in Hi, Hj. destruct M as [R O].
  destruct (updM_at (snd x) p f i j u R Hi Hj) as (R' & A & B). set (x1 := (fst x, updM (snd x) i j u)).
  assert (M1 : MatOK x1 p f).
  { split; [exact R'|]. cbn [fst snd x1]. intros a b w U. destruct (at_range _ _ _ _ _ _ R' U) as [Ha Hb]. destruct (at_total (snd x) p f a b R Ha Hb) as [u' U'].
    destruct (Nat.eq_dec a i) as [Ea|Na]; [destruct (Nat.eq_dec b j) as [Eb|Nb]|].
    - subst a b. rewrite (at_fun _ _ _ _ _ U A). exact OU.
    - assert (w = u') as -> by (eapply at_fun; [exact U|]; apply B; auto; congruence). eapply O; eauto.
    - assert (w = u') as -> by (eapply at_fun; [exact U|]; apply B; auto; congruence). eapply O; eauto. }
  destruct (IH x1 p f M1 F (fun q I => H q (or_intror I))) as (x' & E & M' & D & IN & OUT). exists x'. split; [exact E|]. split; [exact M'|]. split; [exact D|]. split.
  - intros a b [Q|I]; [|auto]. injection Q as <- <-. destruct (in_dec (fun q r : nat * nat => ltac:(decide equality; apply Nat.eq_dec)) (i, j) ps) as [I|N]; [auto|].
    exists u. split; auto.
  - intros a b w N U. apply OUT; [intros I; apply N; right; exact I|]. apply B; auto. intros Q. apply N. left. symmetry. exact Q.
Qed.
Lemma mat_set_many x p f is js v : MatOK x p f -> Fits (fst x) v -> (forall i, In i is -> i < p) -> (forall j, In j js -> j < f) ->
  exists x', matSetMany floatOf intOf x is js v = (x', Ok tt) /\ MatOK x' p f /\
    (forall a b, In a is -> In b js -> exists w, at_ (snd x') a b w /\ SameElement v w) /\
    (forall a b w, ~ (In a is /\ In b js) -> at_ (snd x) a b w -> at_ (snd x') a b w).
Proof.
  intros M F Hi Hj. destruct (mat_set_all v (list_prod is js) x p f M F) as (x' & E & M' & _ & IN & OUT).
  { intros [a b] I. apply in_prod_iff in I. cbn. intuition. }
  exists x'. split; [exact E|]. split; [exact M'|]. split.
  - intros a b Ia Ib. apply IN. apply in_prod_iff. auto.
  - intros a b w N. apply OUT. intros I. apply N. apply in_prod_iff in I. exact I.
Qed.

(** ** rectangles *)
Lemma pasteRow_nth fs (new old : list pval) : fs + len new <= len old ->
  len (pasteRow fs new old) = len old /\
  forall j, nth_error (pasteRow fs new old) j = if (fs <=? j) && (j <? fs + len new) then nth_error new (j - fs) else nth_error old j.
Proof.
  intros H. unfold pasteRow. assert (LF : len (firstn fs old) = fs) by (rewrite firstn_length; lia). split.
  - rewrite !app_length, LF, skipn_length. lia.
  - intros j. destruct (Nat.leb_spec fs j) as [A|A]; cbn [andb].
    + rewrite nth_error_app2 by lia. rewrite LF. destruct (Nat.ltb_spec j (fs + len new)) as [B|B].
      * rewrite nth_error_app1 by lia. reflexivity.
      * rewrite nth_error_app2 by lia. rewrite nth_error_skipn. f_equal. lia.
    + rewrite nth_error_app1 by lia. rewrite <- (firstn_skipn fs old) at 2. rewrite nth_error_app1 by lia. reflexivity.
Qed.
Lemma paste_at ps fs values m p f np nf : Rectangle m p f -> Rectangle values np nf -> ps + np <= p -> fs + nf <= f ->
  Rectangle (paste ps fs values m) p f /\
  (forall i j v, at_ values i j v -> at_ (paste ps fs values m) (ps + i) (fs + j) v) /\
  (forall i j v, at_ m i j v -> ~ (ps <= i < ps + np /\ fs <= j < fs + nf) -> at_ (paste ps fs values m) i j v).
Proof.
  intros [L R] [L' R'] HP HF. unfold paste. set (mid := map _ (combine values _)).
  assert (LF : len (firstn ps m) = ps) by (rewrite firstn_length; lia).
  assert (LM : len mid = np) by (unfold mid; rewrite map_length, combine_length, firstn_length, skipn_length; lia).
  assert (NM : forall i a b, nth_error values i = Some a -> nth_error m (ps + i) = Some b -> nth_error mid i = Some (pasteRow fs a b)).
  { intros i a b A B. unfold mid. rewrite nth_error_map, nth_error_combine, A. assert (Hi : i < np) by (rewrite <- L'; eapply nth_error_lt; eauto).
    assert (X : nth_error (firstn (len values) (skipn ps m)) i = Some b).
    { rewrite <- nth_error_skipn in B. rewrite <- (firstn_skipn (len values) (skipn ps m)) in B. rewrite nth_error_app1 in B; [exact B|]. rewrite firstn_length, skipn_length. lia. }
    rewrite X. reflexivity. }
  assert (NTH : forall i r, nth_error m i = Some r -> nth_error (firstn ps m ++ mid ++ skipn (ps + len values) m) i
            = if (ps <=? i) && (i <? ps + np) then option_map (fun a => pasteRow fs a r) (nth_error values (i - ps)) else Some r).
  { intros i r E. destruct (Nat.leb_spec ps i) as [A|A]; cbn [andb].
    - rewrite nth_error_app2 by lia. rewrite LF. destruct (Nat.ltb_spec i (ps + np)) as [B|B].
      + rewrite nth_error_app1 by lia. destruct (nth_error_is_some values (i := i - ps)) as [a Ea]; [lia|]. rewrite Ea. cbn [option_map]. apply NM; auto. replace (ps + (i - ps)) with i by lia. exact E.
      + rewrite nth_error_app2 by lia. rewrite nth_error_skipn. rewrite <- E. f_equal. lia.
    - rewrite nth_error_app1 by lia. rewrite <- (firstn_skipn ps m) in E. rewrite nth_error_app1 in E by lia. exact E. }
  split; [|split].
  - split; [rewrite !app_length, LF, LM, skipn_length; lia|]. intros r I. apply In_nth_error in I. destruct I as [i I].
    assert (Hi : i < p). { pose proof (nth_error_lt _ _ I) as B. rewrite !app_length, LF, LM, skipn_length in B. lia. }
    destruct (nth_error_is_some m (i := i)) as [r0 E]; [lia|]. rewrite (NTH i r0 E) in I. assert (L0 : len r0 = f) by (apply R; eapply nth_error_In; eauto).
    destruct ((ps <=? i) && (i <? ps + np)); [|injection I as <-; exact L0].
    destruct (nth_error values (i - ps)) as [a|] eqn:Ea; [|discriminate]. injection I as <-. assert (LA : len a = nf) by (apply R'; eapply nth_error_In; eauto).
    rewrite (proj1 (pasteRow_nth fs a r0 ltac:(lia))). exact L0.
  - intros i j v (a & A & B). assert (Hi : i < np) by (rewrite <- L'; eapply nth_error_lt; eauto). destruct (nth_error_is_some m (i := ps + i)) as [r E]; [lia|].
    assert (LA : len a = nf) by (apply R'; eapply nth_error_In; eauto). assert (L0 : len r = f) by (apply R; eapply nth_error_In; eauto).
    exists (pasteRow fs a r). split.
    + rewrite (NTH _ _ E). rewrite (proj2 (Nat.leb_le ps (ps + i))), (proj2 (Nat.ltb_lt (ps + i) (ps + np))) by lia. cbn [andb]. replace (ps + i - ps) with i by lia. rewrite A. reflexivity.
    + rewrite (proj2 (pasteRow_nth fs a r ltac:(lia))). assert (Hj : j < nf) by (rewrite <- LA; eapply nth_error_lt; eauto).
      rewrite (proj2 (Nat.leb_le fs (fs + j))), (proj2 (Nat.ltb_lt (fs + j) (fs + len a))) by lia. cbn [andb]. replace (fs + j - fs) with j by lia. exact B.
  - intros i j v (r & A & B) N. assert (L0 : len r = f) by (apply R; eapply nth_error_In; eauto).
    destruct ((ps <=? i) && (i <? ps + np)) eqn:C.
    + apply andb_prop in C. destruct C as [C1 C2]. apply Nat.leb_le in C1. apply Nat.ltb_lt in C2. destruct (nth_error_is_some values (i := i - ps)) as [a Ea]; [lia|].
      assert (LA : len a = nf) by (apply R'; eapply nth_error_In; eauto). exists (pasteRow fs a r). split.
      * rewrite (NTH i r A), (proj2 (Nat.leb_le _ _) C1), (proj2 (Nat.ltb_lt _ _) C2). cbn [andb]. rewrite Ea. reflexivity.
      * rewrite (proj2 (pasteRow_nth fs a r ltac:(lia))). destruct ((fs <=? j) && (j <? fs + len a)) eqn:D; [|exact B]. exfalso. apply N.
        apply andb_prop in D. destruct D as [D1 D2]. apply Nat.leb_le in D1. apply Nat.ltb_lt in D2. lia.
    + exists r. split; [rewrite (NTH i r A), C; reflexivity|exact B].
Qed.
Lemma paste_src ps fs values m p f np nf : Rectangle m p f -> Rectangle values np nf -> ps + np <= p -> fs + nf <= f ->
  forall i j v, at_ (paste ps fs values m) i j v -> at_ m i j v \/ (fs <= j < fs + nf /\ at_ values (i - ps) (j - fs) v).
Proof.
  intros R R' HP HF i j v A. destruct (paste_at ps fs values m p f np nf R R' HP HF) as (R2 & IN & OUT). destruct (at_range _ _ _ _ _ _ R2 A) as [Hi Hj].
  assert (D : (ps <= i < ps + np /\ fs <= j < fs + nf) \/ ~ (ps <= i < ps + np /\ fs <= j < fs + nf)) by lia.
  destruct D as [D|D].
  - right. split; [lia|]. destruct (at_total values np nf (i - ps) (j - fs) R') as [u U]; [lia|lia|]. pose proof (IN _ _ _ U) as X.
    replace (ps + (i - ps)) with i in X by lia. replace (fs + (j - fs)) with j in X by lia. rewrite (at_fun _ _ _ _ _ A X). exact U.
  - left. destruct (at_total m p f i j R Hi Hj) as [u U]. pose proof (OUT _ _ _ U D) as X. rewrite (at_fun _ _ _ _ _ A X). exact U.
Qed.
Lemma assign_fits numbers d v : Fits d v -> exists w, assignTo floatOf intOf junk numbers d v = Ok w /\ OfDt d w /\ SameElement v w.
Proof.
  intros F. destruct (cast_fits floatOf intOf d v F) as (w & C & O & S). exists w. split; auto.
  destruct d; cbn [assignTo]; auto. destruct v; auto; cbn in C; discriminate.
Qed.
Lemma rmapMM_ok (g : pval -> result pval) m p f (P : pval -> pval -> Prop) : Rectangle m p f -> (forall i j v, at_ m i j v -> exists w, g v = Ok w /\ P v w) ->
  exists m', rmapM (rmapM g) m = Ok m' /\ Rectangle m' p f /\ forall i j v, at_ m i j v -> exists w, at_ m' i j w /\ P v w.
Proof.
  intros [L R] H. destruct (rmapM_total (rmapM g) m) as [m' E].
  { intros r I. apply In_nth_error in I. destruct I as [i I]. apply rmapM_total. intros v Iv. apply In_nth_error in Iv. destruct Iv as [j Iv]. destruct (H i j v) as (w & W & _); [exists r; auto|]. eauto. }
  exists m'. split; auto. split.
  - split; [rewrite (rmapM_ok_length _ _ E); auto|]. intros r' I. apply In_nth_error in I. destruct I as [i I].
    assert (HI : i < len m) by (rewrite <- (rmapM_ok_length _ _ E); eapply nth_error_lt; eauto). destruct (nth_error_is_some m (i := i) HI) as [r Er].
    destruct (rmapM_ok_nth _ _ E _ Er) as (r2 & A & B). rewrite I in A. injection A as <-. rewrite (rmapM_ok_length _ _ B). apply R. eapply nth_error_In; eauto.
  - intros i j v (r & A & B). destruct (rmapM_ok_nth _ _ E _ A) as (r2 & A2 & B2). destruct (rmapM_ok_nth _ _ B2 _ B) as (w2 & A3 & B3).
    destruct (H i j v) as (w & W & PW); [exists r; auto|]. rewrite W in B3. injection B3 as <-. exists w. split; auto. exists r2. auto.
Qed.
Lemma mat_replace x ps fs values p f np nf : MatOK x p f -> Rectangle (snd values) np nf -> ps + np <= p -> fs + nf <= f ->
  (forall i j v, at_ (snd values) i j v -> Fits (fst x) v) ->
  exists x', matReplace floatOf intOf junk x ps fs values = Ok x' /\ MatOK x' p f /\ fst x' = fst x /\ Replaced ps fs (snd values) np nf (snd x) (snd x').
Proof.
  intros [R O] RV HP HF F. unfold matReplace.
  destruct (rmapMM_ok (assignTo floatOf intOf junk (negb (isDObj (fst values))) (fst x)) (snd values) np nf (fun v w => OfDt (fst x) w /\ SameElement v w) RV) as (vs & E & RVS & C).
  { intros i j v A. apply assign_fits. eapply F; eauto. }
  rewrite E. cbn [rbind]. eexists. split; [reflexivity|]. cbn [fst snd]. destruct (paste_at ps fs vs (snd x) p f np nf R RVS HP HF) as (R2 & IN & OUT). split; [|split; [reflexivity|split]].
  - split; cbn [fst snd]; auto. intros i j v A. destruct (paste_src ps fs vs (snd x) p f np nf R RVS HP HF _ _ _ A) as [B|[_ B]]; [eapply O; eauto|].
    destruct (at_range _ _ _ _ _ _ RVS B) as [Hi Hj]. destruct (at_total (snd values) np nf _ _ RV Hi Hj) as [u U]. destruct (C _ _ _ U) as (w & W & OW & _). rewrite (at_fun _ _ _ _ _ B W). exact OW.
  - intros i j v A. destruct (C _ _ _ A) as (w & W & _ & S). exists w. auto.
  - intros i j v A N. exists v. split; auto. apply same_refl.
Qed.
Lemma constant_at np nf v : Rectangle (constant np nf v) np nf /\ forall i j w, at_ (constant np nf v) i j w -> w = toFloat v.
Proof.
  unfold constant. split.
  - split; [apply repeat_length|]. intros r I. apply repeat_spec in I. subst. apply repeat_length.
  - intros i j w (r & A & B). apply nth_error_In in A. apply repeat_spec in A. subst r. apply nth_error_In in B. apply repeat_spec in B. exact B.
Qed.
Lemma SameElement_sym' v w : SameElement v w -> SameElement w v.
Proof. apply SameElement_sym. Qed.
Lemma mat_replace_constant x ps fs v p f np nf : MatOK x p f -> ps + np <= p -> fs + nf <= f -> Fits (fst x) v ->
  exists x', matReplaceConstant floatOf intOf junk x ps fs np nf v = Ok x' /\ MatOK x' p f /\ fst x' = fst x /\ Replaced ps fs (repeat (repeat v nf) np) np nf (snd x) (snd x').
Proof.
  intros M HP HF F. destruct (constant_at np nf v) as [RC CC]. unfold matReplaceConstant.
  destruct (mat_replace x ps fs (DFloat, constant np nf v) p f np nf M RC HP HF) as (x' & E & M' & D & [A B]).
  { intros i j w W. rewrite (CC i j w W). eapply Fits_same; [apply SameElement_sym, toFloat_same|exact F]. }
  exists x'. split; [exact E|]. split; [exact M'|]. split; [exact D|]. split; auto. intros i j w (r & W1 & W2).
  assert (Hi : i < np) by (pose proof (nth_error_lt _ _ W1) as X; rewrite repeat_length in X; exact X).
  apply nth_error_In in W1. apply repeat_spec in W1. subst r. assert (Hj : j < nf) by (pose proof (nth_error_lt _ _ W2) as X; rewrite repeat_length in X; exact X).
  apply nth_error_In in W2. apply repeat_spec in W2. subst w. destruct (at_total _ np nf i j RC Hi Hj) as [u U]. destruct (A i j u U) as (w & W & S). exists w. split; auto.
  rewrite (CC _ _ _ U) in S. eapply SameElement_trans; [apply toFloat_same|exact S].
Qed.
Lemma maxFrom_nth : forall ds news j d, nth_error ds j = Some d ->
  nth_error (maxFrom ds news) j = Some (match nth_error news j with Some n => dmax d n | None => d end).
Proof.
  induction ds as [|d0 ds IH]; intros [|n news] [|j] d E; cbn in *; try discriminate; auto.
  - injection E as ->. reflexivity.
Qed.
Lemma maxFrom_len : forall ds news, len (maxFrom ds news) = len ds.
Proof. induction ds as [|d ds IH]; intros [|n news]; cbn; auto. Qed.
Lemma frame_replace x ps fs rds values p f np : FrameOK x p f -> Rectangle values np (len rds) -> ps + np <= p -> fs + len rds <= f ->
  (forall i j v d, at_ values i j v -> nth_error rds j = Some d -> Fits d v) ->
  exists x', frameReplace floatOf intOf x ps fs rds values = Ok x' /\ FrameOK x' p f /\ Replaced ps fs values np (len rds) (snd x) (snd x').
Proof.
  intros (R & L & O) RV HP HF F. unfold frameReplace. set (ds := firstn fs (fst x) ++ maxFrom (skipn fs (fst x)) rds). set (nf := len rds) in *.
  assert (LF : len (firstn fs (fst x)) = fs) by (rewrite firstn_length; lia).
  assert (LD : len ds = f) by (unfold ds; rewrite app_length, maxFrom_len, LF, skipn_length; lia).
  assert (ND : forall j d, nth_error (fst x) j = Some d -> nth_error ds j = Some (if fs <=? j then match nth_error rds (j - fs) with Some n => dmax d n | None => d end else d)).
  { intros j d D. unfold ds. destruct (Nat.leb_spec fs j).
    - rewrite nth_error_app2 by lia. rewrite LF. apply maxFrom_nth. rewrite nth_error_skipn. replace (fs + (j - fs)) with j by lia. exact D.
    - rewrite nth_error_app1 by lia. rewrite <- (firstn_skipn fs (fst x)) in D. rewrite nth_error_app1 in D by lia. exact D. }
  destruct (paste_at ps fs values (snd x) p f np nf R RV HP HF) as (R2 & IN & OUT).
  destruct (castCols_ok floatOf intOf ds (paste ps fs values (snd x)) p) as (m' & E & FO & S).
  { rewrite LD. exact R2. }
  { intros i j v d A D. destruct (at_range _ _ _ _ _ _ R2 A) as [Hi Hj]. destruct (nth_error_is_some (fst x) (i := j)) as [d0 D0]; [lia|].
    rewrite (ND j d0 D0) in D. injection D as <-. destruct (paste_src ps fs values (snd x) p f np nf R RV HP HF _ _ _ A) as [B|[Hj' B]].
    - pose proof (O i j v d0 B D0) as OV. destruct (fs <=? j); [|exists v; split; [exact OV|apply same_refl]]. destruct (nth_error rds (j - fs)) as [n|]; [|exists v; split; [exact OV|apply same_refl]].
      eapply OfDt_up; [exact OV|apply dmax_l].
    - rewrite (proj2 (Nat.leb_le fs j)) by lia. destruct (nth_error_is_some rds (i := j - fs)) as [n N]; [unfold nf in *; lia|]. rewrite N.
      destruct (F _ _ _ _ B N) as (w & OW & SW). apply (Fits_same _ v w SW). eapply OfDt_up; [exact OW|apply dmax_r]. }
  rewrite E. cbn [rbind]. eexists. split; [reflexivity|]. rewrite LD in FO. split; [exact FO|]. cbn [snd]. split.
  - intros i j v A. exact (S _ _ _ (IN _ _ _ A)).
  - intros i j v A N. exact (S _ _ _ (OUT _ _ _ A N)).
Qed.
Lemma frame_replace_object x ps fs new p f np nf : FrameOK x p f -> FrameOK new np nf -> ps + np <= p -> fs + nf <= f ->
  exists x', frameReplaceObject floatOf intOf x ps fs new = Ok x' /\ FrameOK x' p f /\ Replaced ps fs (snd new) np nf (snd x) (snd x').
Proof.
  intros X (R & L & O) HP HF. unfold frameReplaceObject. pose proof (frameArray_rect new np nf R) as RA.
  assert (AT : forall i j w, at_ (frameArray new) i j w -> exists v, at_ (snd new) i j v /\ w = match frameDt (fst new) with DFloat => toFloat v | _ => v end).
  { intros i j w A. destruct (at_range _ _ _ _ _ _ RA A) as [Hi Hj]. destruct (at_total _ np nf i j R Hi Hj) as [v V]. exists v. split; auto. exact (at_fun _ _ _ _ _ A (frameArray_at new _ _ _ V)). }
  destruct (frame_replace x ps fs (fst new) (frameArray new) p f np X) as (x' & E & F & [A B]).
  { rewrite L. exact RA. } { exact HP. } { rewrite L. exact HF. }
  { intros i j w d A D. destruct (AT _ _ _ A) as (v & V & ->). exists v. split; [eapply O; eauto|]. apply SameElement_sym, asDt_same. }
  exists x'. split; [exact E|]. split; [exact F|]. rewrite L in B. split; [|exact B]. intros i j v V.
  destruct (A i j _ (frameArray_at new _ _ _ V)) as (w & W & S). exists w. split; auto. eapply SameElement_trans; [apply asDt_same|exact S].
Qed.
Lemma frame_replace_constant x ps fs v p f np nf : FrameOK x p f -> isNumberV v = true -> ps + np <= p -> fs + nf <= f ->
  exists x', frameReplaceConstant floatOf intOf x ps fs np nf v = Ok x' /\ FrameOK x' p f /\ Replaced ps fs (repeat (repeat v nf) np) np nf (snd x) (snd x').
Proof.
  intros X NV HP HF. unfold frameReplaceConstant. destruct (constant_at np nf v) as [RC CC].
  destruct (frame_replace x ps fs (repeat (valueDt v) nf) (constant np nf v) p f np X) as (x' & E & F & [A B]).
  { rewrite repeat_length. exact RC. } { exact HP. } { rewrite repeat_length. exact HF. }
  { intros i j w d W D. rewrite (CC _ _ _ W). apply nth_error_In in D. apply repeat_spec in D. subst d. eapply Fits_same; [apply SameElement_sym, toFloat_same|].
    exists v. split; [|apply same_refl]. destruct v; try discriminate; cbn; eauto. }
  exists x'. split; [exact E|]. split; [exact F|]. rewrite repeat_length in B. split; [|exact B]. intros i j w (r & W1 & W2).
  assert (Hi : i < np) by (pose proof (nth_error_lt _ _ W1) as Y; rewrite repeat_length in Y; exact Y).
  apply nth_error_In in W1. apply repeat_spec in W1. subst r. assert (Hj : j < nf) by (pose proof (nth_error_lt _ _ W2) as Y; rewrite repeat_length in Y; exact Y).
  apply nth_error_In in W2. apply repeat_spec in W2. subst w. destruct (at_total _ np nf i j RC Hi Hj) as [u U]. destruct (A i j u U) as (w & W & S). exists w. split; auto.
  rewrite (CC _ _ _ U) in S. eapply SameElement_trans; [apply toFloat_same|exact S].
Qed.
End W.
