(** Proofs for C72: copies to nimble types. *)
From Verif Require Import Base NamesModel NamesSpec TableModel TableSpec TableProofs TableOpsProofs MatchModel MatchSpec MatchProofs LogicModel GetSpec GetCountProofs
  IdentModel SparseModel SparseSpec SparseProofs SparseEqProofs CsvTextModel CopyModel CopySpec CopyProofs.
From Coq Require Import List Ascii String. Import ListNotations.
Open Scope string_scope. Open Scope list_scope. Open Scope nat_scope.
Notation val := (SparseSpec.val).

Lemma val_cases (zero : pval) s i j : In (mkE i j (val zero s i j)) (ents s) \/ (val zero s i j = zero /\ forall w, ~ In (mkE i j w) (ents s)).
Proof.
  unfold SparseSpec.val. destruct (find _ (ents s)) as [e|] eqn:E.
  - left. apply find_some in E. destruct E as [I E]. apply andb_true_iff in E. destruct E as [E1 E2]. apply Nat.eqb_eq in E1, E2. destruct e as [a b w]. cbn [er ec ev] in *. subst. exact I.
  - right. split; auto. intros w I. pose proof (find_none _ _ E _ I) as X. cbn [er ec] in X. rewrite !Nat.eqb_refl in X. discriminate.
Qed.
Lemma zero_false d : pyTruth (zeroOf d) = false.
Proof. destruct d; reflexivity. Qed.
Lemma zero_typed d : OfDt d (zeroOf d).
Proof. destruct d; cbn; eauto. Qed.

(** the rows a store stands for, and its consistency *)
Definition storeRows (s : store) : list (list pval) :=
  match s with SList m => m | SMat _ m => m | SFrame _ m => m | SCoo d c => toDense (zeroOf d) c end.
Definition StoreOK (s : store) (p f : nat) : Prop :=
  Rectangle (storeRows s) p f /\
  match s with
  | SList _ => True
  | SMat d m => forall i j v, at_ m i j v -> OfDt d v
  | SFrame ds m => List.length ds = f /\ forall i j v d, at_ m i j v -> nth_error ds j = Some d -> OfDt d v
  | SCoo d c => entsOK (zeroOf d) c /\ snp c = p /\ snf c = f /\ forall e, In e (ents c) -> OfDt d (ev e)
  end.
Definition storeKind (s : store) : kind :=
  match s with SList _ => IdentModel.KList | SMat _ _ => KMatrix | SFrame _ _ => KDataFrame | SCoo _ _ => KSparse end.

Lemma dense_at d c : entsOK (zeroOf d) c -> Rectangle (toDense (zeroOf d) c) (snp c) (snf c) /\
  forall i j v, at_ (toDense (zeroOf d) c) i j v <-> (i < snp c /\ j < snf c /\ v = val (zeroOf d) c i j).
Proof.
  intros E. destruct (toDense_spec pval (zeroOf d) c E) as [S1 S2].
  assert (A : forall i j, i < snp c -> j < snf c -> at_ (toDense (zeroOf d) c) i j (val (zeroOf d) c i j)).
  { intros i j Hi Hj. specialize (S2 i j Hi Hj). unfold cellOf in S2. unfold at_. destruct (nth_error (toDense (zeroOf d) c) i) as [r|]; [exists r; auto|discriminate]. }
  split; [exact S1|]. intros i j v. split.
  - intros X. destruct (at_range _ _ _ _ _ _ S1 X) as [Hi Hj]. split; auto. split; auto. eapply at_fun; eauto.
  - intros (Hi & Hj & ->). auto.
Qed.
Lemma Stands_of pa fa s n a r : StoreOK s (alen pa) (alen fa) -> Inv pa -> Inv fa ->
  Stands (mkObj pa fa [alen pa; alen fa] s n a r) (mkTable pa fa (storeRows s)).
Proof.
  intros ([L R] & T) I1 I2. assert (W : wf (mkTable pa fa (storeRows s))) by (split; [exact L|split; [exact R|split; auto]]).
  split; [exact W|]. split; [reflexivity|]. split; [reflexivity|]. split; [reflexivity|]. cbn [oSt].
  assert (C : forall i j v, cell (mkTable pa fa (storeRows s)) i j = Some v <-> at_ (storeRows s) i j v) by (intros; apply cell_at).
  destruct s as [m|d m|ds m|d c]; cbn [storeRows] in *.
  - reflexivity.
  - split; [reflexivity|]. intros v (i & j & X). apply C in X. eauto.
  - destruct T as [T1 T2]. split; [reflexivity|]. split; [exact T1|]. intros i j v d X. apply C in X. eauto.
  - destruct T as (T1 & T2 & T3 & T4). destruct (dense_at d c T1) as [D1 D2]. split; [exact T1|]. split.
    + split; [exact T2|]. split; [exact T3|]. intros i j Hi Hj. cbn [tp tf alen] in Hi, Hj. cbn [rows]. change (cell (mkTable pa fa (toDense (zeroOf d) c)) i j = Some (val (zeroOf d) c i j)). apply C. apply D2. rewrite T2, T3. auto.
    + intros v (i & j & X). apply C in X. apply D2 in X. destruct X as (_ & _ & ->). destruct (val_cases (zeroOf d) c i j) as [I|[-> _]]; [exact (T4 _ I)|apply zero_typed].
Qed.
Lemma Stands_StoreOK o t : Stands o t -> StoreOK (oSt o) (alen (tp t)) (alen (tf t)) /\
  (forall i j v, cell t i j = Some v <-> at_ (storeRows (oSt o)) i j v).
Proof.
  intros (W & EP & EF & ED & S). pose proof (wf_Rectangle t W) as RW. assert (C : forall i j v, cell t i j = Some v <-> at_ (rows t) i j v) by (intros; apply cell_at).
  destruct (oSt o) as [m|d m|ds m|d c]; cbn [storeRows StoreOK].
  - subst m. split; [split; auto|exact C].
  - destruct S as [-> T]. split; [split; auto|exact C]. intros i j v X. apply T. exists i, j. apply C. exact X.
  - destruct S as (-> & L & T). split; [split; auto|exact C]. split; auto. intros i j v d X Y. eapply T; eauto. apply C. exact X.
  - destruct S as (E & R & T). destruct (dense_at d c E) as [D1 D2]. pose proof R as (N1 & N2 & V).
    assert (C2 : forall i j v, cell t i j = Some v <-> at_ (toDense (zeroOf d) c) i j v).
    { intros i j v. rewrite D2, N1, N2. split.
      - intros X. assert (Y : at_ (rows t) i j v) by (apply C; auto). destruct (at_range _ _ _ _ _ _ RW Y) as [Hi Hj]. split; auto. split; auto.
        pose proof (V i j Hi Hj) as V'. unfold cell in X. rewrite X in V'. injection V'. auto.
      - intros (Hi & Hj & ->). exact (V i j Hi Hj). }
    split; [split|exact C2].
    + rewrite <- N1, <- N2. exact D1.
    + split; auto. split; auto. split; auto. intros e I. apply T. exists (er e), (ec e). apply C2. apply D2. destruct E as [E1 E2]. destruct (E2 e I) as (? & ? & _).
      split; auto. split; auto. symmetry. apply val_In; auto. destruct e; exact I.
Qed.

(** coo_matrix of an array *)
Lemma noneToNan_at m i j v : at_ m i j v -> at_ (noneToNan m) i j (if isNoneV v then PNaN else v).
Proof. intros A. unfold noneToNan. exact (at_map (fun v => if isNoneV v then PNaN else v) m i j v A). Qed.
Definition noNone (m : list (list pval)) : list (list pval) := if existsb isNoneV (List.concat m) then noneToNan m else m.
Lemma noNone_at m i j v : at_ m i j v -> at_ (noNone m) i j (if isNoneV v then PNaN else v).
Proof.
  intros A. unfold noNone. destruct (existsb isNoneV (List.concat m)) eqn:E; [apply noneToNan_at; auto|].
  destruct (isNoneV v) eqn:N; auto. assert (existsb isNoneV (List.concat m) = true) by (apply existsb_exists; exists v; split; auto; eapply at_concat; eauto). congruence.
Qed.
Lemma noNone_rect m p f : Rectangle m p f -> Rectangle (noNone m) p f.
Proof. intros R. unfold noNone. destruct (existsb _ _); auto. apply Rectangle_map. exact R. Qed.
Lemma nan_typed d v : OfDt d v -> OfDt d (if isNoneV v then PNaN else v).
Proof. destruct v; auto. cbn [isNoneV]. destruct d; cbn [OfDt]; auto; intros [x H]; discriminate. Qed.

Lemma coo_of_array d m p f : Rectangle m p f -> (forall i j v, at_ m i j v -> OfDt d v) -> (forall i j v, at_ m i j v -> v <> PNone /\ v <> PStr "") ->
  StoreOK (SCoo d (mkSp p f (entriesOf m) None None)) p f /\
  forall i j v, at_ m i j v -> exists w, at_ (toDense (zeroOf d) (mkSp p f (entriesOf m) None None)) i j w /\ SameElement v w.
Proof.
  intros R T N. set (c := mkSp p f (entriesOf m) None None).
  assert (E : entsOK (zeroOf d) c).
  { split; [apply entriesOf_NoDup|]. intros [i j v] I. cbn [ents snp snf c er ec ev] in *. pose proof (entriesOf_range m p f _ R I) as X. cbn [er ec] in X.
    split; [tauto|]. split; [tauto|]. apply entriesOf_In in I. destruct I as [_ I]. intros ->. rewrite zero_false in I. discriminate. }
  destruct (dense_at d c E) as [D1 D2]. split.
  - refine (conj D1 (conj E (conj eq_refl (conj eq_refl _)))). intros [i j v] I. cbn [ev]. apply entriesOf_In in I. destruct I as [I _]. eauto.
  - intros i j v A. destruct (at_range _ _ _ _ _ _ R A) as [Hi Hj]. exists (val (zeroOf d) c i j). split; [apply D2; auto|].
    destruct (pyTruth v) eqn:P.
    + rewrite (val_In pval (zeroOf d) c i j v); [apply same_refl|apply E|apply entriesOf_In; auto].
    + assert (val (zeroOf d) c i j = zeroOf d) as ->.
      { destruct (val_cases (zeroOf d) c i j) as [I|[X _]]; auto. apply entriesOf_In in I. destruct I as [I1 I2]. rewrite (at_fun _ _ _ _ _ I1 A) in I2. congruence. }
      destruct (N i j v A) as [N1 N2]. assert (NV : isNumberV v = true).
      { destruct v; try reflexivity; [|congruence]. cbn in P. apply negb_false_iff, String.eqb_eq in P. congruence. }
      apply SameElement_trans with (PInt 0).
      * apply (false_zero v v); auto. apply same_refl.
      * destruct d; cbn [zeroOf]; left; eapply same_num; try constructor; reflexivity.
Qed.
Lemma sparseInit_ok d m p f : Rectangle m p f -> (forall i j v, at_ m i j v -> OfDt d v) -> (forall i j v, at_ m i j v -> v <> PStr "") ->
  StoreOK (snd (sparseInit p f d m)) p f /\
  forall i j v, at_ m i j v -> exists w, at_ (storeRows (snd (sparseInit p f d m))) i j w /\ NoneIsNan v w.
Proof.
  intros R T N. unfold sparseInit. fold (noNone m). cbn [snd]. assert (R' : Rectangle (noNone m) p f) by (apply noNone_rect; auto).
  assert (X : forall i j w, at_ (noNone m) i j w -> exists v, at_ m i j v /\ w = if isNoneV v then PNaN else v).
  { intros i j w A. destruct (at_range _ _ _ _ _ _ R' A) as [Hi Hj]. destruct (at_total m p f i j R Hi Hj) as [v Hv]. exists v. split; auto.
    eapply at_fun; [exact A|]. apply noNone_at. exact Hv. }
  destruct (coo_of_array d (noNone m) p f R') as [S1 S2].
  - intros i j w A. destruct (X i j w A) as (v & A' & ->). apply nan_typed. eauto.
  - intros i j w A. destruct (X i j w A) as (v & A' & ->). specialize (N i j v A'). destruct v; cbn [isNoneV]; split; congruence.
  - split; [exact S1|]. intros i j v A. destruct (S2 i j _ (noNone_at m i j v A)) as (w & B & C). exists w. cbn [storeRows]. split; auto.
    destruct v; cbn [isNoneV NoneIsNan] in *; auto. destruct C as [C|[_ C]]; [inversion C; subst; match goal with H : IsNumber PNaN _ |- _ => inversion H end|exact C].
Qed.

(** what the new object stores *)
Lemma same_str_inv v s : SameElement v (PStr s) -> v = PStr s.
Proof. intros [S|[_ S]]; [|discriminate]. inversion S; subst; auto. match goal with H : IsNumber (PStr _) _ |- _ => inversion H end. Qed.
Lemma same_none_inv v : SameElement v PNone -> v = PNone.
Proof. intros [S|[_ S]]; [|discriminate]. inversion S; subst; auto. match goal with H : IsNumber PNone _ |- _ => inversion H end. Qed.

Lemma NoneIsNan_same v w : isNoneV v = false -> NoneIsNan v w <-> SameElement v w.
Proof. destruct v; cbn [isNoneV NoneIsNan]; intros; try discriminate; reflexivity. Qed.
Lemma NoneIsNan_trans v u w : SameElement v u -> NoneIsNan u w -> NoneIsNan v w.
Proof.
  intros S N. destruct (isNoneV u) eqn:E.
  - assert (u = PNone) as -> by (destruct u; try discriminate; reflexivity). apply same_none_inv in S. subst v. exact N.
  - apply (NoneIsNan_same u w E) in N. destruct (isNoneV v) eqn:E2.
    + assert (v = PNone) as -> by (destruct v; try discriminate; reflexivity). apply SameElement_sym, same_none_inv in S. subst u. discriminate.
    + apply (NoneIsNan_same v w E2). eapply SameElement_trans; eauto.
Qed.
Lemma repeat_nth {A} (x : A) n j y : nth_error (repeat x n) j = Some y -> y = x.
Proof. intros H. apply nth_error_In in H. eapply repeat_spec; eauto. Qed.
Lemma array_stores d a t k p f : Array d a t -> p = alen (tp t) -> f = alen (tf t) -> wf t ->
  (k = KSparse -> ~ isCell t (PStr "")) ->
  let s := match k with IdentModel.KList => SList a | KMatrix => SMat d a | KDataFrame => SFrame (repeat d f) a | KSparse => snd (sparseInit p f d a) end in
  StoreOK s p f /\ storeKind s = k /\
  forall i j v, cell t i j = Some v -> exists w, at_ (storeRows s) i j w /\ match k with KSparse => NoneIsNan | _ => SameElement end v w.
Proof.
  intros HA -> -> W N s. pose proof (Array_cells d a t W HA) as INV. destruct HA as [R C].
  assert (G : forall i j v, cell t i j = Some v -> exists w, at_ a i j w /\ SameElement v w) by (intros i j v X; destruct (C i j v X) as (w & ? & ? & _); eauto).
  assert (T : forall i j w, at_ a i j w -> OfDt d w) by (intros i j w X; destruct (INV i j w X) as (v & _ & _ & O); auto).
  subst s. destruct k; cbn [storeRows StoreOK storeKind].
  - split; [split; auto|]. split; auto.
  - split; [split; auto|]. split; auto.
  - split; [split; auto|]; [|split; auto]. split; [apply repeat_length|]. intros i j v d' X Y. rewrite (repeat_nth _ _ _ _ Y). eauto.
  - destruct (sparseInit_ok d a (alen (tp t)) (alen (tf t)) R T) as [S1 S2].
    + intros i j w X ->. destruct (INV i j _ X) as (v & Y & S & _). apply same_str_inv in S. subst v. apply (N eq_refl). exists i, j. auto.
    + split; [exact S1|]. split; [reflexivity|]. intros i j v X. destruct (G i j v X) as (w & A & S). destruct (S2 i j w A) as (u & B & D). exists u. split; auto. eapply NoneIsNan_trans; eauto.
Qed.
Lemma nimbleStore_ok k o t : Stands o t -> (k = KSparse -> kindOf o <> KSparse -> ~ isCell t (PStr "")) ->
  let s := snd (nimbleStore k o) in
  StoreOK s (alen (tp t)) (alen (tf t)) /\ storeKind s = k /\
  forall i j v, cell t i j = Some v -> exists w, at_ (storeRows s) i j w /\ Relate k o v w.
Proof.
  intros S N. pose proof (arrayOf_spec o t S) as HA. pose proof (Stands_StoreOK o t S) as [OK CC]. pose proof S as (W & EP & EF & ED & ST).
  assert (EE : isEmpty o = true <-> alen (tp t) = 0 \/ alen (tf t) = 0) by (rewrite isEmpty_spec; unfold nP, nF; rewrite EP, EF; reflexivity).
  assert (EP' : nP o = alen (tp t)) by (unfold nP; congruence). assert (EF' : nF o = alen (tf t)) by (unfold nF; congruence).
  unfold nimbleStore, Relate, kindOf in *. rewrite EP', EF'. destruct (oSt o) as [m|d m|ds m|d c] eqn:EO; cbn [snd fst].
  - assert (N' : k = KSparse -> ~ isCell t (PStr "")) by (intros E; apply N; [auto|discriminate]).
    destruct k.
    + destruct (isEmpty o) eqn:E.
      * pose proof (proj1 EE eq_refl) as E0. split; [split; [apply emptyRows_rect|exact I]|]. split; auto. intros i j v C. destruct (cell_none_empty t W E0 i j v C).
      * split; auto. split; auto. intros i j v C. exists v. split; [apply CC; auto|apply same_refl].
    + exact (array_stores _ _ t KMatrix _ _ HA eq_refl eq_refl W N').
    + pose proof (array_stores _ _ t KDataFrame _ _ HA eq_refl eq_refl W N') as G. exact G.
    + pose proof (array_stores _ _ t KSparse _ _ HA eq_refl eq_refl W N') as G. exact G.
  - assert (N' : k = KSparse -> ~ isCell t (PStr "")) by (intros E; apply N; [auto|discriminate]).
    unfold arrayOf in HA. rewrite EO in HA. cbn [fst snd] in HA.
    pose proof (array_stores _ _ t k _ _ HA eq_refl eq_refl W N') as G.
    destruct k; exact G.
  - assert (N' : k = KSparse -> ~ isCell t (PStr "")) by (intros E; apply N; [auto|discriminate]).
    assert (HL : Array (fst (if isEmpty o then arrayOf o else (listDt m, asDt (listDt m) m))) (snd (if isEmpty o then arrayOf o else (listDt m, asDt (listDt m) m))) t).
    { destruct (isEmpty o); auto. cbn [fst snd]. destruct ST as (-> & _ & _). apply asDt_Array; auto. intros v i j C. apply listDt_typed. apply (at_concat _ i j). apply cell_at; auto. }
    pose proof (array_stores _ _ t k _ _ HL eq_refl eq_refl W N') as G.
    destruct k; try exact G.
    + destruct (isEmpty o) eqn:E; cbn [snd] in *; [exact G|]. split; [split; [|exact I]|].
      * exact (proj1 OK).
      * split; auto. intros i j v C. exists v. split; [apply CC; auto|apply same_refl].
    + split; auto. split; auto. intros i j v C. exists v. split; [apply CC; auto|apply same_refl].
  - unfold arrayOf in HA. rewrite EO in HA. cbn [fst snd] in HA.
    destruct k.
    + apply (array_stores _ _ t IdentModel.KList _ _ HA eq_refl eq_refl W). intros; discriminate.
    + apply (array_stores _ _ t KMatrix _ _ HA eq_refl eq_refl W). intros; discriminate.
    + apply (array_stores _ _ t KDataFrame _ _ HA eq_refl eq_refl W). intros; discriminate.
    + cbn [storeRows] in *. destruct c as [n1 n2 es a1 a2]. cbn [snp snf ents] in *. split; [exact OK|]. split; auto. intros i j v C. exists v. split; [apply CC; auto|apply same_refl].
Qed.

(** transposition of an object *)
Lemma swap_inj : forall e e', swapE e = swapE e' -> e = e'.
Proof. intros [a b v] [a' b' v'] H. injection H. intros -> -> ->. reflexivity. Qed.
Lemma swap_pos l : NoDup (map pos l) -> NoDup (map pos (map swapE l)).
Proof.
  intros H. rewrite map_map. induction l as [|e l IH]; [constructor|]. cbn [map] in *. inversion H as [|? ? H1 H2]; subst. constructor; auto.
  intros I. apply H1. apply in_map_iff in I. destruct I as (e' & E & I). apply in_map_iff. exists e'. split; auto. unfold pos, swapE in *. cbn [er ec] in E. injection E. intros -> ->. reflexivity.
Qed.
Lemma swap_In i j v l : In (mkE i j v) (map swapE l) <-> In (mkE j i v) l.
Proof.
  rewrite in_map_iff. split.
  - intros ([a b w] & E & I). injection E. intros -> -> ->. exact I.
  - intros I. exists (mkE j i v). split; auto.
Qed.
Lemma transposeStore_ok s p f : StoreOK s p f ->
  StoreOK (transposeStore p f s) f p /\ storeKind (transposeStore p f s) = storeKind s /\
  forall i j v, at_ (storeRows s) i j v -> exists w, at_ (storeRows (transposeStore p f s)) j i w /\ SameElement v w.
Proof.
  intros [R T]. destruct s as [m|d m|ds m|d c]; cbn [storeRows transposeStore storeKind] in *.
  - destruct (transpose_at m p f R) as [A B]. split; [split; auto|]. split; auto. intros i j v X. exists v. split; [auto|apply same_refl].
  - destruct (transpose_at m p f R) as [A B]. split; [split; auto|].
    + intros j i v X. destruct (at_range _ _ _ _ _ _ A X) as [Hj Hi]. destruct (at_total m p f i j R Hi Hj) as [u Hu]. rewrite (at_fun _ _ _ _ _ X (B _ _ _ Hu)). eauto.
    + split; auto. intros i j v X. exists v. split; [auto|apply same_refl].
  - destruct T as [T1 T2]. pose proof (Rectangle_asDt (frameDt ds) m p f R) as R'. destruct (transpose_at _ p f R') as [A B]. split; [split; auto|].
    + split; [apply repeat_length|]. intros j i v d X Y. rewrite (repeat_nth _ _ _ _ Y). destruct (at_range _ _ _ _ _ _ A X) as [Hj Hi]. destruct (at_total m p f i j R Hi Hj) as [u Hu].
      rewrite (at_fun _ _ _ _ _ X (B _ _ _ (asDt_at (frameDt ds) m i j u Hu))). destruct (nth_error_is_some ds (i := j)) as [d' E']; [lia|]. eapply frameDt_typed; eauto.
    + split; auto. intros i j v X. exists (match frameDt ds with DFloat => toFloat v | _ => v end). split; [apply B, asDt_at; auto|apply asDt_same].
  - destruct T as (E & <- & <- & T). set (c' := mkSp (snf c) (snp c) (map swapE (ents c)) None None).
    assert (E' : entsOK (zeroOf d) c').
    { destruct E as [E1 E2]. split; [apply swap_pos; auto|]. intros e I. apply in_map_iff in I. destruct I as (e' & <- & I). destruct (E2 e' I) as (? & ? & ?). cbn. auto. }
    destruct (dense_at d c E) as [D1 D2]. destruct (dense_at d c' E') as [D1' D2'].
    split; [split; [exact D1'|]|].
    + split; auto. split; auto. split; auto. intros e I. apply in_map_iff in I. destruct I as (e' & <- & I). exact (T e' I).
    + split; auto. intros i j v X. apply D2 in X. destruct X as (Hi & Hj & ->). exists (val (zeroOf d) c' j i). split; [apply D2'; auto|].
      replace (val (zeroOf d) c' j i) with (val (zeroOf d) c i j); [apply same_refl|].
      destruct (val_cases (zeroOf d) c i j) as [I|[Z Q]].
      * symmetry. apply val_In; [apply E'|]. apply swap_In. exact I.
      * rewrite Z. destruct (val_cases (zeroOf d) c' j i) as [I|[Z' _]]; [|auto]. change (ents c') with (map swapE (ents c)) in I. apply (proj1 (swap_In _ _ _ _)) in I. destruct (Q _ I).
Qed.
Lemma kind_store o : kindOf o = storeKind (oSt o).
Proof. unfold kindOf. destruct (oSt o); reflexivity. Qed.
Lemma transposeObj_ok o t : Stands o t -> exists t', Stands (transposeObj o) t' /\ kindOf (transposeObj o) = kindOf o /\
  alen (tp t') = alen (tf t) /\ alen (tf t') = alen (tp t) /\ getNames (tp t') = getNames (tf t) /\ getNames (tf t') = getNames (tp t) /\
  forall i j v, cell t i j = Some v -> exists w, cell t' j i = Some w /\ SameElement v w.
Proof.
  intros S. destruct (Stands_StoreOK o t S) as [OK CC]. destruct S as (W & EP & EF & ED & ST).
  destruct (transpose_spec pval t W) as (W' & _ & L1 & L2 & N1 & N2).
  destruct (transposeStore_ok (oSt o) (alen (tp t)) (alen (tf t)) OK) as (OK' & K & C').
  unfold transposeObj, nP, nF. rewrite EP, EF.
  change (tp (transpose (mkTable (tp t) (tf t) ([] : list (list pval))))) with (tp (transpose t)).
  change (tf (transpose (mkTable (tp t) (tf t) ([] : list (list pval))))) with (tf (transpose t)).
  set (ts := transposeStore (alen (tp t)) (alen (tf t)) (oSt o)) in *. set (pa := tp (transpose t)) in *. set (fa := tf (transpose t)) in *.
  assert (OK2 : StoreOK ts (alen pa) (alen fa)) by (rewrite L1, L2; exact OK').
  replace [alen (tf t); alen (tp t)] with [alen pa; alen fa] by congruence.
  exists (mkTable pa fa (storeRows ts)). split; [apply Stands_of; auto; [exact (proj1 (proj2 (proj2 W')))|exact (proj2 (proj2 (proj2 W')))]|].
  split; [rewrite !kind_store; exact K|]. split; [exact L1|]. split; [exact L2|]. split; [exact N1|]. split; [exact N2|].
  intros i j v X. apply CC in X. destruct (C' i j v X) as (w & A & B). exists w. split; [apply cell_at; exact A|exact B].
Qed.
