(** Proofs for C72: the array an object becomes, entries, transposition. *)
From Verif Require Import Base NamesModel NamesSpec TableModel TableSpec TableProofs TableOpsProofs MatchModel MatchSpec MatchProofs LogicModel GetSpec
  IdentModel SparseModel SparseSpec SparseProofs SparseEqProofs CsvTextModel CopyModel CopySpec.
From Verif Require FlatProofs.
From Coq Require Import List Ascii String. Import ListNotations.
Open Scope string_scope. Open Scope list_scope. Open Scope nat_scope.

Lemma same_refl v : SameElement v v.
Proof.
  destruct v; try (left; constructor; fail); try (right; split; reflexivity).
  - left. eapply same_num; [constructor|constructor|reflexivity].
  - left. eapply same_num; [constructor|constructor|reflexivity].
  - left. eapply same_num; [constructor|constructor|reflexivity].
Qed.
Lemma toFloat_same v : SameElement v (toFloat v).
Proof.
  destruct v; cbn [toFloat]; try apply same_refl.
  - left. destruct b; (eapply same_num; [constructor|constructor|reflexivity]).
  - left. eapply same_num; [constructor|constructor|reflexivity].
Qed.
Lemma toFloat_float v : isNumberV v = true -> OfDt DFloat (toFloat v).
Proof. destruct v; cbn; intros; auto; discriminate. Qed.

(** cells of a list of lists *)
Lemma at_fun m i j v w : at_ m i j v -> at_ m i j w -> v = w.
Proof. intros (r & A & B) (r' & A' & B'). rewrite A in A'. injection A' as <-. rewrite B in B'. injection B' as <-. reflexivity. Qed.
Lemma cell_at (t : table pval) i j v : cell t i j = Some v <-> at_ (rows t) i j v.
Proof.
  unfold cell, at_. destruct (nth_error (rows t) i) as [r|]; split.
  - intros E. exists r. auto.
  - intros (r' & A & B). injection A as <-. exact B.
  - discriminate.
  - intros (r' & A & _). discriminate.
Qed.
Lemma at_map g m i j v : at_ m i j v -> at_ (map (map g) m) i j (g v).
Proof.
  intros (r & A & B). exists (map g r). rewrite nth_error_map, A. split; auto. rewrite nth_error_map, B. reflexivity.
Qed.
Lemma at_map_inv g m i j w : at_ (map (map g) m) i j w -> exists v, at_ m i j v /\ w = g v.
Proof.
  intros (r & A & B). rewrite nth_error_map in A. destruct (nth_error m i) as [r0|] eqn:E; [|discriminate]. injection A as <-.
  rewrite nth_error_map in B. destruct (nth_error r0 j) as [v|] eqn:F; [|discriminate]. injection B as <-. exists v. split; auto. exists r0. auto.
Qed.
Lemma at_concat m i j v : at_ m i j v -> In v (List.concat m).
Proof. intros (r & A & B). apply in_concat. exists r. split; eapply nth_error_In; eauto. Qed.
Lemma concat_at m v : In v (List.concat m) -> exists i j, at_ m i j v.
Proof.
  intros I. apply in_concat in I. destruct I as (r & A & B). apply In_nth_error in A. apply In_nth_error in B.
  destruct A as [i A], B as [j B]. exists i, j, r. auto.
Qed.
Lemma at_range m p f i j v : Rectangle m p f -> at_ m i j v -> i < p /\ j < f.
Proof.
  intros [L R] (r & A & B). split; [rewrite <- L; eapply nth_error_lt; eauto|].
  rewrite <- (R r); [eapply nth_error_lt; eauto|eapply nth_error_In; eauto].
Qed.
Lemma at_total m p f i j : Rectangle m p f -> i < p -> j < f -> exists v, at_ m i j v.
Proof.
  intros [L R] Hi Hj. destruct (nth_error_is_some m (i := i)) as [r Er]; [lia|].
  destruct (nth_error_is_some r (i := j)) as [v Ev]; [rewrite R; [auto|eapply nth_error_In; eauto]|]. exists v, r. auto.
Qed.
Lemma Rectangle_map g m p f : Rectangle m p f -> Rectangle (map (map g) m) p f.
Proof.
  intros [L R]. split; [rewrite map_length; auto|]. intros r I. apply in_map_iff in I. destruct I as (r0 & <- & I). rewrite map_length. auto.
Qed.
Lemma Rectangle_asDt d m p f : Rectangle m p f -> Rectangle (asDt d m) p f.
Proof. destruct d; cbn [asDt]; auto. apply Rectangle_map. Qed.
Lemma wf_Rectangle (t : table pval) : wf t -> Rectangle (rows t) (alen (tp t)) (alen (tf t)).
Proof. intros (A & B & _). split; auto. Qed.
Lemma emptyRows_rect p f : Rectangle (emptyRows p f) p f.
Proof. split; [apply repeat_length|]. intros r I. apply repeat_spec in I. subst. apply repeat_length. Qed.

(** transposition *)
Lemma transpose_at m p f : Rectangle m p f ->
  Rectangle (transposeRows f m) f p /\ forall i j v, at_ m i j v -> at_ (transposeRows f m) j i v.
Proof.
  intros [L R]. unfold transposeRows. destruct (transposeRows_gen pval m (repeat [] f)) as [A B].
  { intros r I. rewrite repeat_length. auto. }
  rewrite repeat_length in A.
  set (col := fun j => flat_map (fun r => match nth_error r j with Some v => [v] | None => [] end) m).
  assert (C : forall j, j < f -> nth_error (fold_left appendEach m (repeat [] f)) j = Some (col j)).
  { intros j Hj. rewrite (B j []); [reflexivity|apply nth_error_repeat; auto]. }
  assert (D : forall j, j < f -> List.length (col j) = p /\ forall i r v, nth_error m i = Some r -> nth_error r j = Some v -> nth_error (col j) i = Some v).
  { intros j Hj. subst p. unfold col. clear A B C col. revert R. induction m as [|r m IH]; intros R.
    - split; [reflexivity|]. intros [|i]; discriminate.
    - cbn [flat_map List.length]. destruct (nth_error_is_some r (i := j)) as [v0 E]; [rewrite R; [auto|left; auto]|]. rewrite E.
      destruct IH as [I1 I2]; [intros; apply R; right; auto|]. split; [cbn [app List.length]; lia|].
      intros [|i] r1 v1 X Y; cbn [nth_error app] in *.
      + injection X as <-. rewrite E in Y. exact Y.
      + eapply I2; eauto. }
  split; [split; auto|].
  - intros c I. apply In_nth_error in I. destruct I as [j Ej]. assert (j < f) by (rewrite <- A; eapply nth_error_lt; eauto).
    rewrite C in Ej by auto. injection Ej as <-. apply D. auto.
  - intros i j v (r & X & Y). assert (j < f) by (rewrite <- (R r); [eapply nth_error_lt; eauto|eapply nth_error_In; eauto]).
    exists (col j). split; [apply C; auto|]. destruct (D j H) as [_ D2]. eapply D2; eauto.
Qed.

(** ** the dtype of an array made from a list *)
Lemma listDt_typed m v : In v (List.concat m) -> OfDt (listDt m) (match listDt m with DFloat => toFloat v | _ => v end).
Proof.
  intros I. unfold listDt. destruct (forallb isNumberV (List.concat m)) eqn:N; cbn [negb]; [|exact Logic.I].
  destruct (existsb isBoolV (List.concat m)) eqn:B.
  - destruct (forallb isBoolV (List.concat m)) eqn:B2; [|exact Logic.I].
    pose proof (proj1 (forallb_forall _ _) B2 v I) as X. cbn [OfDt]. destruct v; try discriminate. eexists; reflexivity.
  - destruct (existsb isIntV (List.concat m) && forallb isIntV (List.concat m)) eqn:K.
    + apply andb_prop in K. destruct K as [_ K]. pose proof (proj1 (forallb_forall _ _) K v I) as X. cbn [OfDt]. destruct v; try discriminate. eexists; reflexivity.
    + apply toFloat_float. exact (proj1 (forallb_forall _ _) N v I).
Qed.
Lemma asDt_at d m i j v : at_ m i j v -> at_ (asDt d m) i j (match d with DFloat => toFloat v | _ => v end).
Proof. intros A. destruct d; cbn [asDt]; auto. apply (at_map toFloat). auto. Qed.
Lemma asDt_same (d : dt) v : SameElement v (match d with DFloat => toFloat v | _ => v end).
Proof. destruct d; try apply same_refl. apply toFloat_same. Qed.

Lemma frameDt_typed ds : forall j d v, nth_error ds j = Some d -> OfDt d v ->
  OfDt (frameDt ds) (match frameDt ds with DFloat => toFloat v | _ => v end).
Proof.
  intros j d v E O. assert (I : In d ds) by (eapply nth_error_In; eauto). unfold frameDt. destruct ds as [|d0 ds']; [destruct I|].
  set (l := d0 :: ds') in *. destruct (existsb isDObj l) eqn:X; [exact Logic.I|].
  assert (ND : d <> DObj). { intros ->. assert (existsb isDObj l = true) by (apply existsb_exists; exists DObj; auto). congruence. }
  destruct (existsb isDBool l) eqn:B.
  - destruct (forallb isDBool l) eqn:B2; [|exact Logic.I]. pose proof (proj1 (forallb_forall _ _) B2 d I) as Y. destruct d; try discriminate. exact O.
  - destruct (forallb isDInt l) eqn:K.
    + pose proof (proj1 (forallb_forall _ _) K d I) as Y. destruct d; try discriminate. exact O.
    + apply toFloat_float. destruct d; cbn [OfDt] in O.
      * destruct O as [b ->]. reflexivity.
      * destruct O as [z ->]. reflexivity.
      * destruct v; auto; destruct O.
      * congruence.
Qed.

(** ** the array *)
Definition Array (d : dt) (a : list (list pval)) (t : table pval) : Prop :=
  Rectangle a (alen (tp t)) (alen (tf t)) /\
  forall i j v, cell t i j = Some v -> exists w, at_ a i j w /\ SameElement v w /\ OfDt d w.
Lemma cell_none_empty (t : table pval) : wf t -> (alen (tp t) = 0 \/ alen (tf t) = 0) -> forall i j v, cell t i j <> Some v.
Proof.
  intros W E i j v C. apply cell_at in C. destruct (at_range _ _ _ _ _ _ (wf_Rectangle t W) C). lia.
Qed.
Lemma isEmpty_spec o : isEmpty o = true <-> nP o = 0 \/ nF o = 0.
Proof. unfold isEmpty. rewrite orb_true_iff, !Nat.eqb_eq. tauto. Qed.
Lemma rows_same (t : table pval) d m : m = rows t -> wf t -> (forall v, isCell t v -> OfDt d v) -> Array d m t.
Proof.
  intros -> W O. split; [apply wf_Rectangle; auto|]. intros i j v C. exists v. split; [apply cell_at; auto|]. split; [apply same_refl|].
  apply O. exists i, j. auto.
Qed.
Lemma toDense_at d s (t : table pval) : entsOK (zeroOf d) s -> represents (zeroOf d) s t ->
  Rectangle (toDense (zeroOf d) s) (alen (tp t)) (alen (tf t)) /\
  forall i j v, cell t i j = Some v -> i < alen (tp t) -> j < alen (tf t) -> at_ (toDense (zeroOf d) s) i j v.
Proof.
  intros E (N1 & N2 & V). destruct (toDense_spec pval (zeroOf d) s E) as [S1 S2]. rewrite N1, N2 in S1, S2. split; [exact S1|].
  intros i j v C Hi Hj. specialize (S2 i j Hi Hj). unfold cellOf in S2. pose proof (V i j Hi Hj) as V'. unfold cell in C. rewrite C in V'. injection V' as V'. rewrite <- V' in S2.
  unfold at_. destruct (nth_error (toDense (zeroOf d) s) i) as [r|]; [|discriminate]. exists r. auto.
Qed.
Lemma asDt_Array d m (t : table pval) : m = rows t -> wf t ->
  (forall v i j, cell t i j = Some v -> OfDt d (match d with DFloat => toFloat v | _ => v end)) -> Array d (asDt d m) t.
Proof.
  intros -> W O. split; [apply Rectangle_asDt, wf_Rectangle; auto|]. intros i j v C.
  exists (match d with DFloat => toFloat v | _ => v end). split; [apply asDt_at, cell_at; auto|]. split; [apply asDt_same|eauto].
Qed.
Lemma arrayOf_spec o t : Stands o t -> Array (fst (arrayOf o)) (snd (arrayOf o)) t.
Proof.
  intros (W & EP & EF & ED & S). unfold arrayOf, isEmpty, nP, nF. rewrite EP, EF. destruct (oSt o) as [m|d m|ds m|d s]; cbn [fst snd].
  - destruct ((alen (tp t) =? 0) || (alen (tf t) =? 0)) eqn:E; cbn [fst snd].
    + apply orb_true_iff in E. rewrite !Nat.eqb_eq in E. split; [apply emptyRows_rect|]. intros i j v C. destruct (cell_none_empty t W E i j v C).
    + apply asDt_Array; auto. intros v i j C. apply listDt_typed. subst m. apply (at_concat _ i j). apply cell_at; auto.
  - apply rows_same; tauto.
  - destruct S as (S1 & S2 & S3). apply asDt_Array; auto. intros v i j C.
    assert (Hj : j < alen (tf t)) by (apply cell_at in C; eapply at_range; [apply wf_Rectangle; exact W|exact C]).
    destruct (nth_error_is_some ds (i := j)) as [d Ed]; [lia|]. eapply frameDt_typed; eauto.
  - destruct S as (S1 & S2 & S3). destruct (toDense_at d s t S1 S2) as [A B]. split; auto. intros i j v C.
    assert (at_ (rows t) i j v) as C' by (apply cell_at; auto). destruct (at_range _ _ _ _ _ _ (wf_Rectangle t W) C').
    exists v. split; [apply B; auto|]. split; [apply same_refl|]. apply S3. exists i, j. auto.
Qed.
Lemma Array_cells d a t : wf t -> Array d a t -> forall i j w, at_ a i j w -> exists v, cell t i j = Some v /\ SameElement v w /\ OfDt d w.
Proof.
  intros W [R C] i j w A. destruct (at_range _ _ _ _ _ _ R A) as [Hi Hj].
  destruct (at_total _ _ _ i j (wf_Rectangle t W) Hi Hj) as [v Hv]. apply cell_at in Hv. destruct (C i j v Hv) as (w' & A' & S & O).
  rewrite (at_fun _ _ _ _ _ A A') in *. exists v. auto.
Qed.
Lemma pyListOf_spec o t : Stands o t -> Array DObj (pyListOf o) t.
Proof.
  intros S. pose proof (arrayOf_spec o t S) as [R A]. destruct S as (W & EP & EF & ED & S). unfold pyListOf.
  assert (G : Array DObj (snd (arrayOf o)) t).
  { split; auto. intros i j v C. destruct (A i j v C) as (w & X & Y & _). exists w. cbn [OfDt]. auto. }
  destruct (oSt o) as [m|d m|ds m|d s]; auto.
  - apply rows_same; auto. intros; exact Logic.I.
  - apply rows_same; [tauto|auto|]. intros; exact Logic.I.
Qed.

(** ** stored entries *)
Lemma In_enum {A} (l : list A) k x : In (k, x) (combine (seq 0 (List.length l)) l) <-> nth_error l k = Some x.
Proof.
  split; intros H.
  - apply In_nth_error in H. destruct H as [i H]. rewrite nth_error_combine in H. rewrite nth_error_seq in H.
    destruct (i <? List.length l) eqn:E; [|discriminate]. destruct (nth_error l i) eqn:F; [|discriminate]. injection H as <- <-. exact F.
  - apply (nth_error_In _ k). rewrite nth_error_combine, nth_error_seq. assert (k < List.length l) by (eapply nth_error_lt; eauto).
    destruct (Nat.ltb_spec k (List.length l)); [|lia]. rewrite H. reflexivity.
Qed.
Lemma entriesOf_In m i j v : In (mkE i j v) (entriesOf m) <-> at_ m i j v /\ pyTruth v = true.
Proof.
  unfold entriesOf. rewrite in_flat_map. split.
  - intros ([i' r] & A & B). apply In_enum in A. cbn [fst snd] in B. apply in_flat_map in B. destruct B as ([j' w] & B & C). apply In_enum in B.
    cbn [fst snd] in C. destruct (pyTruth w) eqn:T; [|destruct C]. destruct C as [C|[]]. injection C as -> -> ->. split; auto. exists r. auto.
  - intros ((r & A & B) & T). exists (i, r). split; [apply In_enum; auto|]. cbn [fst snd]. apply in_flat_map. exists (j, v). split; [apply In_enum; auto|].
    cbn [fst snd]. rewrite T. left; auto.
Qed.
Lemma entriesOf_NoDup m : NoDup (map pos (entriesOf m)).
Proof.
  unfold entriesOf. set (R := fun i (r : list pval) => flat_map (fun q : nat * pval => if pyTruth (snd q) then [mkE i (fst q) (snd q)] else []) (combine (seq 0 (List.length r)) r)).
  change (NoDup (map pos (flat_map (fun p : nat * list pval => R (fst p) (snd p)) (combine (seq 0 (List.length m)) m)))).
  assert (G : forall i r b, NoDup (map pos (flat_map (fun q : nat * pval => if pyTruth (snd q) then [mkE i (fst q) (snd q)] else []) (combine (seq b (List.length r)) r)))
     /\ forall x, In x (map pos (flat_map (fun q : nat * pval => if pyTruth (snd q) then [mkE i (fst q) (snd q)] else []) (combine (seq b (List.length r)) r))) -> fst x = i /\ b <= snd x).
  { intros i r. induction r as [|v r IH]; intros b.
    - split; [constructor|]. intros x [].
    - cbn [List.length seq combine flat_map]. destruct (IH (S b)) as [I1 I2]. cbn [fst snd]. destruct (pyTruth v).
      + cbn [app map]. split.
        * constructor; auto. intros X. apply I2 in X. cbn [pos fst snd er ec] in X. lia.
        * intros x [<-|X]; [cbn [pos fst snd er ec]; lia|]. apply I2 in X. lia.
      + cbn [app]. split; auto. intros x X. apply I2 in X. lia. }
  assert (G2 : forall b, NoDup (map pos (flat_map (fun p : nat * list pval => R (fst p) (snd p)) (combine (seq b (List.length m)) m)))
     /\ forall x, In x (map pos (flat_map (fun p : nat * list pval => R (fst p) (snd p)) (combine (seq b (List.length m)) m))) -> b <= fst x).
  { induction m as [|r m IH]; intros b.
    - split; [constructor|]. intros x [].
    - cbn [List.length seq combine flat_map fst snd]. destruct (IH (S b)) as [I1 I2]. rewrite map_app. split.
      + apply FlatProofs.NoDup_app_intro; auto.
        * apply G.
        * intros x X Y. apply G in X. apply I2 in Y. lia.
      + intros x X. apply in_app_iff in X. destruct X as [X|X]; [apply G in X; lia|apply I2 in X; lia]. }
  apply G2.
Qed.
Lemma entriesOf_range m p f e : Rectangle m p f -> In e (entriesOf m) -> er e < p /\ ec e < f.
Proof. intros R I. destruct e as [i j v]. apply entriesOf_In in I. destruct I as [A _]. exact (at_range _ _ _ _ _ _ R A). Qed.
(** a false number is the number zero *)
Lemma false_zero v w : isNumberV w = true -> SameElement v w -> pyTruth w = false -> SameElement v (PInt 0).
Proof.
  intros N [S|[-> ->]] T; [|discriminate]. left.
  assert (Z : exists q, IsNumber w q /\ (q == 0)%Q).
  { destruct w; try discriminate; cbn [pyTruth] in T.
    - destruct b; [discriminate|]. eexists; split; [constructor|reflexivity].
    - apply negb_false_iff in T. apply Z.eqb_eq in T. subst. eexists; split; [constructor|reflexivity].
    - apply negb_false_iff in T. apply Qeq_bool_eq in T. eexists; split; [constructor|exact T]. }
  destruct Z as (q & NQ & E0). inversion S; subst; try (inversion NQ; fail).
  assert (q0 = q) as -> by (inversion NQ; subst; match goal with H : IsNumber _ q0 |- _ => inversion H; reflexivity end).
  eapply same_num; [eassumption|constructor|]. rewrite H1, E0. reflexivity.
Qed.
