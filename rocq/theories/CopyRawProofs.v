(** Proofs for C72: transposed lists, scipy matrices, dictionaries, nimble objects. *)
From Verif Require Import Base NamesModel NamesSpec NamesProofs TableModel TableSpec TableProofs TableOpsProofs MatchModel MatchSpec MatchProofs LogicModel GetSpec GetCountProofs
  IdentModel SparseModel SparseSpec SparseProofs SparseEqProofs ReshapeModel CsvTextModel CopyModel CopySpec CopyProofs CopyTextProofs CopyNimbleProofs CopyMainProofs.
From Coq Require Import List Ascii String. Import ListNotations.
Open Scope string_scope. Open Scope list_scope. Open Scope nat_scope.

Section Raw.
Variable strOf : pval -> string.
Variable floatOf : string -> option pval.
Notation copy := (CopyModel.copy strOf floatOf).

Lemma copy_list_turned o t to : Stands o t -> Asks o to FPyList -> Uniform t -> 0 < alen (tp t) ->
  exists l, copy o to false false = (o, Ok (CList l)) /\ Shows t false (CList l).
Proof.
  intros S A U HP. rewrite (copy_2D strOf floatOf o t to FPyList false S A). pose proof (pyListOf_spec o t S) as AR. pose proof S as (W & _).
  pose proof (Array_cells _ _ t W AR) as INV. destruct AR as [R C]. unfold copyPyList. set (m := pyListOf o) in *.
  destruct (npArray_keeps strOf m) as (g & E & G).
  { destruct U as [U|[U|(i & j & U)]].
    - left. intros v I s ->. apply concat_at in I. destruct I as (i & j & I). destruct (INV i j _ I) as (u & X & Y & _). apply same_str_inv in Y. apply (U u) with s; [exists i, j; auto|auto].
    - right; left. intros v I. apply concat_at in I. destruct I as (i & j & I). destruct (INV i j _ I) as (u & X & Y & _). destruct (U u) as [s ->]; [exists i, j; auto|]. exists s. apply SameElement_sym, same_str_inv in Y. exact Y.
    - right; right. destruct (C _ _ _ U) as (w & X & Y & _). apply SameElement_sym, same_none_inv in Y. subst w. eapply at_concat; eauto. }
  rewrite E. assert (R' : Rectangle (map (map g) m) (alen (tp t)) (alen (tf t))) by (apply Rectangle_map; auto).
  assert (L0 : List.length (nth 0 (map (map g) m) []) = alen (tf t)).
  { destruct R' as [L R2]. apply R2. apply nth_In. lia. }
  rewrite L0. destruct (transpose_at _ _ _ R') as [T1 T2]. eexists. split; [reflexivity|]. split; [exact T1|].
  intros i j v X. destruct (C i j v X) as (w & Y & Z & _). exists (g w). split; [apply T2; apply at_map; auto|]. eapply SameElement_trans; [exact Z|]. apply G. eapply at_concat; eauto.
Qed.

(** entries as a matrix *)
Lemma entries_Shows (R : pval -> pval -> Prop) sp (t : table pval) es rap :
  NoDup (map pos es) -> (forall e, In e es -> er e < alen (tp t) /\ ec e < alen (tf t)) ->
  (forall i j v, cell t i j = Some v -> exists w, (In (mkE i j w) es \/ (w = PInt 0 /\ forall u, ~ In (mkE i j u) es)) /\ R v w) -> wf t ->
  ShowsBy R t rap (if rap then CScipy sp (alen (tp t)) (alen (tf t)) es else transposeRaw (CScipy sp (alen (tp t)) (alen (tf t)) es)).
Proof.
  intros N I C W. destruct rap; cbn [transposeRaw].
  - split; [cbn; auto|]. intros i j v X. destruct (C i j v X) as (w & H & HR). exists w. split; auto. cbn.
    apply cell_at in X. destruct (at_range _ _ _ _ _ _ (wf_Rectangle t W) X). auto.
  - split.
    + split; auto. split; auto. split; [apply swap_pos; auto|]. intros e X. apply in_map_iff in X. destruct X as (e' & <- & X). destruct (I e' X). cbn. auto.
    + intros i j v X. destruct (C i j v X) as (w & H & HR). exists w. split; auto. cbn. apply cell_at in X. destruct (at_range _ _ _ _ _ _ (wf_Rectangle t W) X).
      split; auto. split; auto. destruct H as [H|[-> H]]; [left; apply swap_In; auto|right]. split; auto. intros u Y. apply (proj1 (swap_In _ _ _ _)) in Y. exact (H u Y).
Qed.
(** entries of an array whose false elements are numbers *)
Lemma entriesOf_Shows (R : pval -> pval -> Prop) sp (t : table pval) m rap : wf t -> Rectangle m (alen (tp t)) (alen (tf t)) ->
  (forall i j v, cell t i j = Some v -> exists w, at_ m i j w /\ R v w /\ (pyTruth w = false -> R v (PInt 0))) ->
  ShowsBy R t rap (if rap then CScipy sp (alen (tp t)) (alen (tf t)) (entriesOf m) else transposeRaw (CScipy sp (alen (tp t)) (alen (tf t)) (entriesOf m))).
Proof.
  intros W RC C. apply entries_Shows; auto.
  - apply entriesOf_NoDup.
  - intros e I. exact (entriesOf_range m _ _ e RC I).
  - intros i j v X. destruct (C i j v X) as (w & A & HR & HZ). destruct (pyTruth w) eqn:T.
    + exists w. split; auto. left. apply entriesOf_In. auto.
    + exists (PInt 0). split; auto. right. split; auto. intros u I. apply entriesOf_In in I. destruct I as [I1 I2]. rewrite (at_fun _ _ _ _ _ I1 A) in I2. congruence.
Qed.
Lemma scipy_result o t to sp rap es : Stands o t -> Asks o to (FScipy sp) -> scipyOf floatOf o sp = Ok es ->
  copy o to rap false = (o, Ok (if rap then CScipy sp (alen (tp t)) (alen (tf t)) es else transposeRaw (CScipy sp (alen (tp t)) (alen (tf t)) es))).
Proof.
  intros S A E. rewrite (copy_2D strOf floatOf o t to _ rap S A). unfold copyImpl. destruct (arrayOf o) as [d a]. rewrite E. cbn [rmap].
  destruct S as (_ & EP & EF & _). unfold nP, nF. rewrite EP, EF. destruct rap; reflexivity.
Qed.
Lemma scipy_error o t to sp rap e : Stands o t -> Asks o to (FScipy sp) -> scipyOf floatOf o sp = Err e -> copy o to rap false = (o, Err e).
Proof.
  intros S A E. rewrite (copy_2D strOf floatOf o t to _ rap S A). unfold copyImpl. destruct (arrayOf o) as [d a]. rewrite E. reflexivity.
Qed.
Lemma coo_Array d a t : wf t -> Array d a t -> Solid t -> forall i j v, cell t i j = Some v ->
  exists w, at_ a i j w /\ SameElement v w /\ (pyTruth w = false -> SameElement v (PInt 0)).
Proof.
  intros W [R C] [N1 N2] i j v X. destruct (C i j v X) as (w & A & S & _). exists w. split; auto. split; auto. intros T. apply (false_zero v w); auto.
  destruct w; auto.
  - apply same_str_inv in S. subst v. cbn in T. apply negb_false_iff, String.eqb_eq in T. subst s. destruct N2. exists i, j. auto.
  - apply same_none_inv in S. subst v. destruct N1. exists i, j. auto.
Qed.
Lemma zero_int d : SameElement (zeroOf d) (PInt 0).
Proof. destruct d; cbn [zeroOf]; left; eapply same_num; try constructor; reflexivity. Qed.
Lemma copy_coo o t to rap : Stands o t -> Asks o to (FScipy Coo) -> (kindOf o = KSparse \/ Solid t) ->
  exists c, copy o to rap false = (o, Ok c) /\ IsA (FScipy Coo) c /\ Shows t rap c.
Proof.
  intros S A K. pose proof (arrayOf_spec o t S) as AR. destruct (Stands_StoreOK o t S) as [OK CC]. pose proof S as (W & _ & _ & _ & ST).
  assert (G : exists es, scipyOf floatOf o Coo = Ok es /\
    Shows t rap (if rap then CScipy Coo (alen (tp t)) (alen (tf t)) es else transposeRaw (CScipy Coo (alen (tp t)) (alen (tf t)) es))).
  { unfold scipyOf. destruct (oSt o) as [m|d m|ds m|d c] eqn:EO.
    - destruct (arrayOf o) as [d a]. eexists. split; [reflexivity|]. apply entriesOf_Shows; auto; [apply AR|]. eapply coo_Array; eauto. destruct K as [K|K]; auto. unfold kindOf in K. rewrite EO in K. discriminate.
    - unfold arrayOf in AR. rewrite EO in AR. eexists. split; [reflexivity|]. apply entriesOf_Shows; auto; [apply AR|]. eapply coo_Array; eauto. destruct K as [K|K]; auto. unfold kindOf in K. rewrite EO in K. discriminate.
    - eexists. split; [reflexivity|]. apply entriesOf_Shows; auto; [apply AR|]. eapply coo_Array; eauto. destruct K as [K|K]; auto. unfold kindOf in K. rewrite EO in K. discriminate.
    - destruct OK as (_ & E & N1 & N2 & _). eexists. split; [reflexivity|]. apply entries_Shows; auto.
      + apply E.
      + intros e I. destruct E as [_ E]. destruct (E e I) as (? & ? & _). rewrite <- N1, <- N2. auto.
      + intros i j v X. apply CC in X. cbn [storeRows] in X. apply (proj2 (dense_at d c E)) in X. destruct X as (_ & _ & ->).
        destruct (val_cases (zeroOf d) c i j) as [I|[Z Q]].
        * eexists. split; [left; exact I|apply same_refl].
        * exists (PInt 0). split; [right; auto|]. rewrite Z. apply zero_int. }
  destruct G as (es & E & G). eexists. split; [exact (scipy_result o t to Coo rap es S A E)|]. split; [destruct rap; reflexivity|exact G].
Qed.

(** csr and csc *)
Lemma asFloat_ok v : FloatOf floatOf -> (forall s, v = PStr s -> floatOf s <> None) ->
  exists w, asFloat floatOf v = Ok w /\ OfDt DFloat w /\ AsFloat floatOf v w /\ (pyTruth w = false -> AsFloat floatOf v (PInt 0)).
Proof.
  intros F H.
  assert (G : forall v, isNumberV v = true -> OfDt DFloat (toFloat v) /\ SameElement v (toFloat v) /\ (pyTruth (toFloat v) = false -> SameElement v (PInt 0))).
  { intros u N. split; [apply toFloat_float; auto|]. split; [apply toFloat_same|]. intros T. apply (false_zero u (toFloat u)); auto; [destruct u; auto|apply toFloat_same]. }
  destruct (isNumberV v) eqn:N; [exists (toFloat v); pose proof (G v N) as (G1 & G2 & G3); destruct v; try discriminate; cbn [AsFloat]; auto|].
  destruct v as [b|z|q| | | |s|]; try discriminate.
  - cbn [asFloat]. destruct (floatOf s) as [w|] eqn:E; [|destruct (H s eq_refl E)]. exists w. split; auto. split; [eapply F; eauto|]. cbn [AsFloat]. split.
    + exists w. split; auto. apply same_refl.
    + intros T. exists w. split; auto. apply (false_zero w w); auto; [|apply same_refl]. pose proof (F s w E) as X. destruct w; auto; destruct X.
  - exists PNaN. cbn. split; auto. split; auto. split; auto. discriminate.
Qed.
Lemma rmapM_total {A B} (g : A -> result B) (l : list A) : (forall x, In x l -> exists y, g x = Ok y) -> exists r, rmapM g l = Ok r.
Proof.
  induction l as [|x l IH]; intros H; [exists []; reflexivity|]. destruct (H x (or_introl eq_refl)) as [y E]. destruct IH as [r Er]; [intros z Z; apply H; right; auto|].
  exists (y :: r). cbn [rmapM]. rewrite E. cbn [rbind]. rewrite Er. reflexivity.
Qed.
Lemma float_rows m p f : Rectangle m p f -> (forall v, In v (List.concat m) -> exists w, asFloat floatOf v = Ok w) ->
  exists m', rmapM (rmapM (asFloat floatOf)) m = Ok m' /\ Rectangle m' p f /\ forall i j v w, at_ m i j v -> asFloat floatOf v = Ok w -> at_ m' i j w.
Proof.
  intros [L R] H. destruct (rmapM_total (rmapM (asFloat floatOf)) m) as [m' E].
  { intros r I. apply rmapM_total. intros v Iv. apply H. apply in_concat. eauto. }
  exists m'. split; auto. split.
  - split; [rewrite (rmapM_ok_length _ _ E); auto|]. intros r' I. apply In_nth_error in I. destruct I as [i I].
    assert (HI : i < List.length m) by (rewrite <- (rmapM_ok_length _ _ E); eapply nth_error_lt; eauto). destruct (nth_error_is_some m (i := i) HI) as [r Er].
    destruct (rmapM_ok_nth _ _ E _ Er) as (r2 & A & B). rewrite I in A. injection A as <-. rewrite (rmapM_ok_length _ _ B). apply R. eapply nth_error_In; eauto.
  - intros i j v w (r & A & B) F. destruct (rmapM_ok_nth _ _ E _ A) as (r2 & A2 & B2). destruct (rmapM_ok_nth _ _ B2 _ B) as (w2 & A3 & B3). rewrite F in B3. injection B3 as <-. exists r2. auto.
Qed.
Lemma same_AsFloat v w : isNumberV v = true -> SameElement v w -> AsFloat floatOf v w.
Proof. destruct v; intros; try discriminate; auto. Qed.
Lemma numeric_AsFloat d a t : wf t -> Array d a t -> (forall v, isCell t v -> isNumberV v = true) ->
  forall i j v, cell t i j = Some v -> exists w, at_ a i j w /\ AsFloat floatOf v w /\ (pyTruth w = false -> AsFloat floatOf v (PInt 0)).
Proof.
  intros W [R C] N i j v X. destruct (C i j v X) as (w & A & S & _). assert (NV : isNumberV v = true) by (apply N; exists i, j; auto).
  exists w. split; auto. split; [apply same_AsFloat; auto|]. intros T. apply same_AsFloat; auto. apply (false_zero v w); auto.
  destruct w; auto; [apply same_str_inv in S|apply same_none_inv in S]; subst v; discriminate.
Qed.
Lemma float_Shows sp t m rap : wf t -> m = rows t -> FloatOf floatOf -> NumberTexts floatOf t ->
  exists es, (m' <- rmapM (rmapM (asFloat floatOf)) m ;; compress DFloat m') = Ok es /\
    ShowsBy (AsFloat floatOf) t rap (if rap then CScipy sp (alen (tp t)) (alen (tf t)) es else transposeRaw (CScipy sp (alen (tp t)) (alen (tf t)) es)).
Proof.
  intros W -> F NT. assert (H : forall v, In v (List.concat (rows t)) -> exists w, asFloat floatOf v = Ok w /\ OfDt DFloat w /\ AsFloat floatOf v w /\ (pyTruth w = false -> AsFloat floatOf v (PInt 0))).
  { intros v I. apply asFloat_ok; auto. intros s ->. apply concat_at in I. destruct I as (i & j & I). apply NT. exists i, j. apply cell_at. exact I. }
  destruct (float_rows (rows t) _ _ (wf_Rectangle t W)) as (m' & E & R & C).
  { intros v I. destruct (H v I) as (w & X & _). eauto. }
  rewrite E. cbn [rbind compress]. eexists. split; [reflexivity|]. apply entriesOf_Shows; auto. intros i j v X. apply cell_at in X.
  destruct (H v (at_concat _ _ _ _ X)) as (w & A & _ & B & D). exists w. split; eauto.
Qed.
Lemma compress_ok d m : d <> DObj -> compress d m = Ok (entriesOf m).
Proof. unfold compress. destruct d; auto. congruence. Qed.
Lemma cell_number (t : table pval) : (forall v, isCell t v -> isNumberV v = true) -> wf t -> forallb isNumberV (List.concat (rows t)) = true.
Proof. intros H W. apply forallb_forall. intros v I. apply concat_at in I. destruct I as (i & j & I). apply H. exists i, j. apply cell_at. auto. Qed.
Lemma listDt_Unmixed t : (forall v, isCell t v -> isNumberV v = true) -> Unmixed t -> wf t -> listDt (rows t) <> DObj.
Proof.
  intros N U W. unfold listDt. rewrite (cell_number t N W). cbn [negb].
  assert (IC : forall v, In v (List.concat (rows t)) -> isCell t v) by (intros v I; apply concat_at in I; destruct I as (i & j & I); exists i, j; apply cell_at; auto).
  destruct (existsb isBoolV (List.concat (rows t))) eqn:B.
  - destruct U as [U|U].
    + replace (forallb isBoolV (List.concat (rows t))) with true; [discriminate|]. symmetry. apply forallb_forall. intros v I. destruct (U v (IC v I)) as [b ->]. reflexivity.
    + exfalso. apply existsb_exists in B. destruct B as (v & I & E). destruct v; try discriminate. exact (U _ (IC _ I) _ eq_refl).
  - destruct (_ && _); discriminate.
Qed.
Lemma frameDt_Unmixed ds t : List.length ds = alen (tf t) -> wf t -> 0 < alen (tp t) ->
  (forall i j v d, cell t i j = Some v -> nth_error ds j = Some d -> OfDt d v) -> existsb isDObj ds = false -> ds <> [] -> Unmixed t -> frameDt ds <> DObj.
Proof.
  intros L W HP T NO NE U. unfold frameDt. destruct ds as [|d0 ds']; [congruence|]. set (l := d0 :: ds') in *. rewrite NO.
  assert (CELL : forall j d, nth_error l j = Some d -> exists v, isCell t v /\ OfDt d v).
  { intros j d E. assert (Hj : j < alen (tf t)) by (rewrite <- L; eapply nth_error_lt; eauto). destruct (at_total _ _ _ 0 j (wf_Rectangle t W) HP Hj) as [v Hv].
    apply cell_at in Hv. exists v. split; [exists 0, j; auto|eauto]. }
  destruct (existsb isDBool l) eqn:B; [|destruct (forallb isDInt l); discriminate].
  destruct U as [U|U].
  - replace (forallb isDBool l) with true; [discriminate|]. symmetry. apply forallb_forall. intros d I. apply In_nth_error in I. destruct I as [j E].
    destruct (CELL j d E) as (v & IC & O). destruct (U v IC) as [b ->]. destruct d; cbn in O; auto.
    + destruct O as [z O]; discriminate.
    + exfalso. assert (existsb isDObj l = true) by (apply existsb_exists; exists DObj; split; auto; eapply nth_error_In; eauto). congruence.
  - exfalso. apply existsb_exists in B. destruct B as (d & I & E). destruct d; try discriminate. apply In_nth_error in I. destruct I as [j X]. destruct (CELL j _ X) as (v & IC & [b O]). exact (U v IC b O).
Qed.
Lemma compress_empty d (t : table pval) m : wf t -> Rectangle m (alen (tp t)) (alen (tf t)) -> alen (tp t) = 0 -> compress d m = Ok [].
Proof.
  intros W [L _] E. rewrite E in L. destruct m; [|discriminate]. unfold compress. cbn. destruct d; reflexivity.
Qed.
Lemma copy_compressed o t to sp rap : Stands o t -> Asks o to (FScipy sp) -> sp <> Coo -> FloatOf floatOf -> NumberTexts floatOf t ->
  (kindOf o = IdentModel.KList -> forall v, isCell t v -> v <> PNone /\ forall s, v <> PStr s) ->
  (kindOf o = IdentModel.KList \/ kindOf o = KDataFrame -> Unmixed t) ->
  exists c, copy o to rap false = (o, Ok c) /\ IsA (FScipy (if rap then sp else match sp with Csr => Csc | _ => Csr end)) c /\ ShowsBy (AsFloat floatOf) t rap c.
Proof.
  intros S A NC F NT KL KU. pose proof (arrayOf_spec o t S) as AR. destruct (Stands_StoreOK o t S) as [OK CC]. pose proof S as (W & EP & EF & _ & ST).
  assert (G : exists es, scipyOf floatOf o sp = Ok es /\
    ShowsBy (AsFloat floatOf) t rap (if rap then CScipy sp (alen (tp t)) (alen (tf t)) es else transposeRaw (CScipy sp (alen (tp t)) (alen (tf t)) es))).
  { unfold scipyOf, kindOf in *. destruct (oSt o) as [m|d m|ds m|d c] eqn:EO.
    - assert (N : forall v, isCell t v -> isNumberV v = true) by (intros v I; destruct (KL eq_refl v I) as [X Y]; destruct v as [b|z|q| | | |s|]; try reflexivity; exfalso; [exact (Y s eq_refl)|congruence]).
      assert (D : fst (arrayOf o) <> DObj).
      { unfold arrayOf. rewrite EO. destruct (isEmpty o); cbn [fst]; [discriminate|]. subst m. apply listDt_Unmixed; auto. }
      destruct (arrayOf o) as [d a]. cbn [fst snd] in *. exists (entriesOf a). split; [destruct sp; try congruence; apply compress_ok; auto|].
      apply entriesOf_Shows; auto; [apply AR|]. eapply numeric_AsFloat; eauto.
    - destruct ST as [-> ST]. destruct (float_Shows sp t (rows t) rap W eq_refl F NT) as (es & E & G). exists es. split; auto. destruct sp; auto; congruence.
    - destruct ST as (-> & L & T). destruct (existsb isDObj ds) eqn:NO; cbn [negb andb].
      + destruct (float_Shows sp t (rows t) rap W eq_refl F NT) as (es & E & G). exists es. split; auto. destruct sp; auto; congruence.
      + destruct (Nat.eqb_spec (List.length ds) 0) as [L0|L0]; cbn [negb andb].
        * destruct (float_Shows sp t (rows t) rap W eq_refl F NT) as (es & E & G). exists es. split; auto. destruct sp; auto; congruence.
        * unfold arrayOf in AR. rewrite EO in AR. cbn [fst snd] in AR.
          assert (N : forall v, isCell t v -> isNumberV v = true).
          { intros v (i & j & X). apply cell_at in X. destruct (at_range _ _ _ _ _ _ (wf_Rectangle t W) X) as [_ Hj]. apply cell_at in X. destruct (nth_error_is_some ds (i := j)) as [d Ed]; [lia|].
            pose proof (T _ _ _ _ X Ed) as O. destruct d; cbn in O.
            - destruct O as [b ->]; auto.
            - destruct O as [b ->]; auto.
            - destruct v; auto; destruct O.
            - assert (existsb isDObj ds = true) by (apply existsb_exists; exists DObj; split; auto; eapply nth_error_In; eauto). congruence. }
          assert (E : compress (frameDt ds) (asDt (frameDt ds) (rows t)) = Ok (entriesOf (asDt (frameDt ds) (rows t)))).
          { destruct (Nat.eq_dec (alen (tp t)) 0) as [P0|P0].
            - assert (R : Rectangle (asDt (frameDt ds) (rows t)) (alen (tp t)) (alen (tf t))) by apply AR.
              rewrite (compress_empty _ t _ W R P0). destruct R as [R _]. rewrite P0 in R. destruct (asDt _ _); [reflexivity|discriminate].
            - apply compress_ok. apply (frameDt_Unmixed ds t); auto; [lia|]. intros ->. cbn in L0. lia. }
          exists (entriesOf (asDt (frameDt ds) (rows t))). split; [destruct sp; auto; congruence|]. apply entriesOf_Shows; auto; [apply AR|]. eapply numeric_AsFloat; eauto.
    - destruct OK as (_ & E & N1 & N2 & _). cbn [storeRows] in CC. pose proof (proj2 (dense_at d c E)) as DA.
      assert (CE : forall e, In e (ents c) -> cell t (er e) (ec e) = Some (ev e)).
      { intros e I. apply CC. apply DA. destruct E as [E1 E2]. destruct (E2 e I) as (? & ? & _). split; auto. split; auto. symmetry. apply val_In; auto. destruct e; exact I. }
      assert (AF : forall e, In e (ents c) -> exists w, asFloat floatOf (ev e) = Ok w /\ AsFloat floatOf (ev e) w).
      { intros e I. destruct (asFloat_ok (ev e) F) as (w & X & _ & Y & _); [|eauto]. intros s ES. apply NT. exists (er e), (ec e). rewrite <- ES. auto. }
      destruct (rmapM_total (fun e => rmap (fun v => mkE (er e) (ec e) v) (asFloat floatOf (ev e))) (ents c)) as [es Es].
      { intros e I. destruct (AF e I) as (w & X & _). rewrite X. eexists. reflexivity. }
      assert (POS : map pos es = map pos (ents c)).
      { apply nth_error_ext. intros k. rewrite !nth_error_map. destruct (nth_error (ents c) k) as [e|] eqn:K.
        - destruct (rmapM_ok_nth _ _ Es _ K) as (e' & X & Y). rewrite X. destruct (asFloat floatOf (ev e)); [|discriminate]. injection Y as <-. reflexivity.
        - assert (Z : nth_error es k = None) by (apply nth_error_None; rewrite (rmapM_ok_length _ _ Es); apply nth_error_None; auto). rewrite Z. reflexivity. }
      assert (IN : forall i j w, In (mkE i j w) es <-> exists v, In (mkE i j v) (ents c) /\ asFloat floatOf v = Ok w).
      { intros i j w. split.
        - intros I. apply In_nth_error in I. destruct I as [k I]. assert (HK : k < List.length (ents c)) by (rewrite <- (rmapM_ok_length _ _ Es); eapply nth_error_lt; eauto).
          destruct (nth_error_is_some (ents c) (i := k) HK) as [e Ee]. destruct (rmapM_ok_nth _ _ Es _ Ee) as (e' & X & Y). rewrite I in X. injection X as <-.
          destruct (asFloat floatOf (ev e)) as [u|] eqn:U; [|discriminate]. cbn [rmap] in Y. injection Y as Y1 Y2 Y3. subst. exists (ev e). split; auto. destruct e; eapply nth_error_In; eauto.
        - intros (v & I & U). apply In_nth_error in I. destruct I as [k I]. destruct (rmapM_ok_nth _ _ Es _ I) as (e' & X & Y). cbn [er ec ev] in Y. rewrite U in Y. injection Y as <-. eapply nth_error_In; eauto. }
      exists es. split; [destruct sp; auto; congruence|]. apply entries_Shows; auto.
      + rewrite POS. apply E.
      + intros e I. assert (X : In (pos e) (map pos (ents c))) by (rewrite <- POS; apply in_map; auto). apply in_map_iff in X. destruct X as (e' & P & I'). destruct E as [_ E]. destruct (E e' I') as (? & ? & _).
        unfold pos in P. injection P as P1 P2. rewrite <- P1, <- P2, <- N1, <- N2. auto.
      + intros i j v X. apply CC in X. apply DA in X. destruct X as (_ & _ & ->). destruct (val_cases (zeroOf d) c i j) as [I|[Z Q]].
        * destruct (AF _ I) as (w & X & Y). exists w. split; auto. left. apply IN. eauto.
        * exists (PInt 0). split; [right; split; auto|].
          -- intros u Y. apply IN in Y. destruct Y as (v & Y & _). exact (Q v Y).
          -- rewrite Z. apply same_AsFloat; [destruct d; reflexivity|apply zero_int]. }
  destruct G as (es & E & G). eexists. split; [exact (scipy_result o t to sp rap es S A E)|]. split; [|exact G].
  destruct rap; cbn; auto. destruct sp; auto; congruence.
Qed.
End Raw.
