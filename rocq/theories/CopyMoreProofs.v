(** Proofs for C72: refusals of scipy, dictionaries, nimble objects, the source. *)
From Verif Require Import Base NamesModel NamesSpec NamesProofs TableModel TableSpec TableProofs TableOpsProofs MatchModel MatchSpec MatchProofs LogicModel GetSpec GetCountProofs ArgsProofs
  IdentModel SparseModel SparseSpec SparseProofs SparseEqProofs ReshapeModel CsvTextModel CopyModel CopySpec CopyProofs CopyTextProofs CopyNimbleProofs CopyMainProofs CopyRawProofs.
From Coq Require Import List Ascii String. Import ListNotations.
Open Scope string_scope. Open Scope list_scope. Open Scope nat_scope.

Lemma format_eq f : (f = FPyList \/ f = FNpArray) \/ (f <> FPyList /\ f <> FNpArray).
Proof. destruct f; auto; right; split; discriminate. Qed.
Section More.
Variable strOf : pval -> string.
Variable floatOf : string -> option pval.
Notation copy := (CopyModel.copy strOf floatOf).

(** ** csr and csc refuse texts *)
Lemma rmapM_must {A B} (g : A -> result B) (e : exc) l x : (forall x e', g x = Err e' -> e' = e) -> In x l -> g x = Err e -> rmapM g l = Err e.
Proof.
  intros H I E. destruct (rmapM_err g e l H) as [[r R]|[R _]]; auto. apply In_nth_error in I. destruct I as [k I].
  destruct (rmapM_ok_nth _ _ R _ I) as (y & _ & Y). congruence.
Qed.
Lemma asFloat_err v e : asFloat floatOf v = Err e -> e = ValueErr.
Proof. destruct v as [b|z|q| | | |s|]; cbn; try discriminate. destruct (floatOf s); [discriminate|]. intros [= <-]; auto. Qed.
Lemma float_refused m s : In (PStr s) (List.concat m) -> floatOf s = None -> rmapM (rmapM (asFloat floatOf)) m = Err ValueErr.
Proof.
  intros I F. apply in_concat in I. destruct I as (r & Ir & Is).
  assert (R : forall x e', rmapM (asFloat floatOf) x = Err e' -> e' = ValueErr).
  { intros x e' X. destruct (rmapM_err (asFloat floatOf) ValueErr x asFloat_err) as [[y Y]|[Y _]]; congruence. }
  apply (rmapM_must _ _ _ r R Ir). apply (rmapM_must _ _ _ (PStr s) asFloat_err Is). cbn. rewrite F. reflexivity.
Qed.
Lemma cell_concat (t : table pval) v : isCell t v -> In v (List.concat (rows t)).
Proof. intros (i & j & X). apply cell_at in X. eapply at_concat; eauto. Qed.
Lemma copy_text_refused o t to sp rap s : Stands o t -> Asks o to (FScipy sp) -> sp <> Coo -> kindOf o <> IdentModel.KList ->
  isCell t (PStr s) -> floatOf s = None -> copy o to rap false = (o, Err ValueErr).
Proof.
  intros S A NC NL IC F. apply (scipy_error strOf floatOf o t to sp rap _ S A). pose proof S as (W & _ & _ & _ & ST). destruct (Stands_StoreOK o t S) as [OK CC].
  pose proof (cell_concat t _ IC) as I. unfold scipyOf, kindOf in *. destruct (oSt o) as [m|d m|ds m|d c] eqn:EO; [congruence|..].
  - destruct ST as [-> ST]. rewrite (float_refused _ s I F). destruct sp; auto. congruence.
  - destruct ST as (-> & L & T). destruct (existsb isDObj ds) eqn:NO; cbn [negb andb].
    + rewrite (float_refused _ s I F). destruct sp; auto. congruence.
    + exfalso. destruct IC as (i & j & X). apply cell_at in X. destruct (at_range _ _ _ _ _ _ (wf_Rectangle t W) X) as [_ Hj]. apply cell_at in X.
      destruct (nth_error_is_some ds (i := j)) as [d Ed]; [lia|]. pose proof (T _ _ _ _ X Ed) as O. destruct d; cbn in O.
      * destruct O; discriminate.
      * destruct O; discriminate.
      * exact O.
      * assert (existsb isDObj ds = true) by (apply existsb_exists; exists DObj; split; auto; eapply nth_error_In; eauto). congruence.
  - destruct IC as (i & j & X). apply CC in X. cbn [storeRows] in X. destruct OK as (_ & E & _). apply (proj2 (dense_at d c E)) in X. destruct X as (_ & _ & X).
    destruct (val_cases (zeroOf d) c i j) as [In_|[Z _]]; [|rewrite Z in X; destruct d; discriminate]. rewrite <- X in In_.
    assert (R : rmapM (fun e => rmap (fun v => mkE (er e) (ec e) v) (asFloat floatOf (ev e))) (ents c) = Err ValueErr).
    { apply (rmapM_must _ _ _ _ ) with (2 := In_).
      - intros e e' Y. destruct (asFloat floatOf (ev e)) eqn:G; [discriminate|]. cbn [rmap] in Y. injection Y as <-. eapply asFloat_err; eauto.
      - cbn [ev asFloat]. rewrite F. reflexivity. }
    rewrite R. destruct sp; auto. congruence.
Qed.
Lemma copy_list_refused o t to sp rap s : Stands o t -> Asks o to (FScipy sp) -> sp <> Coo -> kindOf o = IdentModel.KList ->
  isCell t (PStr s) -> s <> "" -> copy o to rap false = (o, Err TypeErr).
Proof.
  intros S A NC KL IC NE. apply (scipy_error strOf floatOf o t to sp rap _ S A). pose proof (arrayOf_spec o t S) as AR. pose proof S as (W & EP & EF & _ & ST).
  pose proof (cell_concat t _ IC) as I. unfold scipyOf, kindOf in *. destruct (oSt o) as [m|d m|ds m|d c] eqn:EO; try discriminate.
  assert (D : fst (arrayOf o) = DObj).
  { unfold arrayOf. rewrite EO. destruct (isEmpty o) eqn:EE; cbn [fst].
    - exfalso. apply isEmpty_spec in EE. unfold nP, nF in EE. rewrite EP, EF in EE. destruct IC as (i & j & X). exact (cell_none_empty t W EE _ _ _ X).
    - subst m. unfold listDt. replace (forallb isNumberV (List.concat (rows t))) with false; auto. symmetry. apply not_true_is_false. intros B. rewrite forallb_forall in B. specialize (B _ I). discriminate. }
  destruct (arrayOf o) as [d a]. cbn [fst snd] in *. subst d. destruct IC as (i & j & X). destruct AR as [_ AR]. destruct (AR _ _ _ X) as (w & A1 & A2 & _).
  assert (w = PStr s) by (apply SameElement_sym in A2; apply same_str_inv in A2; auto). subst w.
  assert (IE : In (mkE i j (PStr s)) (entriesOf a)) by (apply entriesOf_In; split; auto; cbn; rewrite (proj2 (String.eqb_neq s "")); auto).
  unfold compress. destruct (entriesOf a); [destruct IE|]. destruct sp; auto. congruence.
Qed.

(** ** Dictionaries *)
Lemma nested_data o t (rap : bool) : Stands o t ->
  let data := if rap then snd (arrayOf o) else transposeRows (nF o) (snd (arrayOf o)) in
  Rectangle data (alen (if rap then tp t else tf t)) (alen (if rap then tf t else tp t)) /\
  forall i j v, turned t rap i j = Some v -> exists w, at_ data i j w /\ SameElement v w.
Proof.
  intros S. pose proof (arrayOf_spec o t S) as [R C]. pose proof S as (W & EP & EF & _). cbv zeta. destruct rap.
  - split; auto. intros i j v X. destruct (C _ _ _ X) as (w & A & B & _). eauto.
  - unfold nF. rewrite EF. destruct (transpose_at _ _ _ R) as [R' T]. split; auto. intros i j v X. destruct (C _ _ _ X) as (w & A & B & _). eauto.
Qed.
Lemma copyNested_eq o t (ofDicts rap : bool) : Stands o t ->
  copyNested o ofDicts rap =
  (let data := if rap then snd (arrayOf o) else transposeRows (nF o) (snd (arrayOf o)) in
   let names := columnNames t rap in let n := alen (if rap then tf t else tp t) in
   if ofDicts then CDicts (listOfDict data names) else CDictOf (dictOfList data names n)).
Proof.
  intros (W & EP & EF & _). unfold copyNested, columnNames, nF, nP. rewrite EP, EF. destruct rap; reflexivity.
Qed.
Lemma map_fst_combine {A B} (a : list A) (b : list B) : List.length a = List.length b -> map fst (combine a b) = a.
Proof. revert b. induction a as [|x a IH]; intros [|y b] H; cbn in *; auto; try discriminate. f_equal. apply IH. lia. Qed.
Lemma dget_nth {B} (l : list (option string * B)) n v j : NoDup (map fst l) -> nth_error l j = Some (n, v) -> dget n l = Some v.
Proof. intros N E. apply dget_iff_In; auto. eapply nth_error_In; eauto. Qed.
Lemma columnNames_len o t rap : Stands o t -> List.length (columnNames t rap) = alen (if rap then tf t else tp t).
Proof. intros (W & _). destruct W as (_ & _ & IP & IF). unfold columnNames. destruct rap; apply getNames_length; auto. Qed.
Lemma copy_dicts o t to rap : Stands o t -> Asks o to FListOfDict -> NoDup (columnNames t rap) ->
  exists l, copy o to rap false = (o, Ok (CDicts l)) /\ List.length l = alen (if rap then tp t else tf t) /\
    forall i d, nth_error l i = Some d -> dkeys d = columnNames t rap /\
      forall j n v, nth_error (columnNames t rap) j = Some n -> turned t rap i j = Some v -> exists w, dget n d = Some w /\ SameElement v w.
Proof.
  intros S A N. rewrite (copy_2D strOf floatOf o t to _ rap S A). rewrite (copyNested_eq o t true rap S). cbv zeta.
  pose proof (nested_data o t rap S) as [[L R] C]. cbv zeta in *. set (data := if rap then snd (arrayOf o) else transposeRows (nF o) (snd (arrayOf o))) in *. clearbody data.
  eexists. split; [reflexivity|]. unfold listOfDict. split; [rewrite map_length; exact L|]. intros i d E. rewrite nth_error_map in E.
  destruct (nth_error data i) as [r|] eqn:Er; [|discriminate]. cbn [option_map] in E. injection E as <-.
  assert (LR : List.length (columnNames t rap) = List.length r) by (rewrite (columnNames_len o t rap S); symmetry; apply R; eapply nth_error_In; eauto).
  assert (K : map fst (combine (columnNames t rap) r) = columnNames t rap) by (apply map_fst_combine; auto).
  rewrite dict_of_nodup by (rewrite K; auto). split; [exact K|]. intros j n v En X. destruct (C _ _ _ X) as (w & (r' & A1 & A2) & B). rewrite Er in A1. injection A1 as <-.
  exists w. split; auto. apply (dget_nth _ n w j); [rewrite K; auto|]. rewrite nth_error_combine, En, A2. reflexivity.
Qed.
Lemma columnOf_nth data p f : Rectangle data p f -> forall j, j < f -> List.length (columnOf data j) = p /\
  forall i v, at_ data i j v -> nth_error (columnOf data j) i = Some v.
Proof.
  intros [L R] j H. subst p. revert R. induction data as [|r data IH]; intros R; [split; [reflexivity|]; intros i v (r & A & _); destruct i; discriminate|].
  destruct IH as [IL IH]; [intros r' I; apply R; right; auto|]. unfold columnOf in *. cbn [flat_map].
  destruct (nth_error_is_some r (i := j)) as [x Ex]; [rewrite (R r (or_introl eq_refl)); auto|]. rewrite Ex. cbn [app List.length]. split; [f_equal; auto|].
  intros i v (r' & A & B). destruct i as [|i]; cbn [nth_error] in *; [congruence|]. apply IH. exists r'. auto.
Qed.
Lemma copy_dict_of o t to rap : Stands o t -> Asks o to FDictOfList -> NoDup (columnNames t rap) ->
  exists d, copy o to rap false = (o, Ok (CDictOf d)) /\ dkeys d = columnNames t rap /\
    forall j n, nth_error (columnNames t rap) j = Some n -> exists col, dget n d = Some col /\ List.length col = alen (if rap then tp t else tf t) /\
      forall i v, turned t rap i j = Some v -> exists w, nth_error col i = Some w /\ SameElement v w.
Proof.
  intros S A N. rewrite (copy_2D strOf floatOf o t to _ rap S A). rewrite (copyNested_eq o t false rap S). cbv zeta.
  pose proof (nested_data o t rap S) as [R C]. cbv zeta in *. set (data := if rap then snd (arrayOf o) else transposeRows (nF o) (snd (arrayOf o))) in *. clearbody data.
  eexists. split; [reflexivity|]. unfold dictOfList. pose proof (columnNames_len o t rap S) as SL. set (n := alen (if rap then tf t else tp t)) in *. clearbody n.
  assert (K : map fst (map (fun i => (nth i (columnNames t rap) None, columnOf data i)) (seq 0 n)) = columnNames t rap).
  { rewrite map_map. cbn [fst]. apply nth_error_ext. intros i. rewrite nth_error_map. destruct (lt_dec i n) as [Hi|Hi].
    - rewrite nth_error_seq. rewrite (proj2 (Nat.ltb_lt i n) Hi). cbn [option_map]. symmetry. rewrite (nth_error_nth' _ None) by lia. reflexivity.
    - rewrite !(proj2 (nth_error_None _ _)); [reflexivity|lia|rewrite seq_length; lia]. }
  rewrite dict_of_nodup by (rewrite K; auto). split; [exact K|]. intros j nm En. assert (Hj : j < n) by (rewrite <- SL; eapply nth_error_lt; eauto).
  destruct (columnOf_nth data _ _ R j Hj) as [CL CN]. exists (columnOf data j). split.
  - apply (dget_nth _ nm _ j); [rewrite K; auto|]. rewrite nth_error_map, nth_error_seq, (proj2 (Nat.ltb_lt j n) Hj). cbn [option_map]. rewrite Nat.add_0_l. rewrite (nth_error_nth _ _ None En). reflexivity.
  - split; auto. intros i v X. destruct (C _ _ _ X) as (w & A1 & B). exists w. auto.
Qed.

(** ** Nimble objects *)
Lemma makeNimble_ok o t s : Stands o t -> StoreOK s (alen (tp t)) (alen (tf t)) ->
  exists pa fa, makeNimble o s = Ok (mkObj pa fa [alen pa; alen fa] s None None None) /\ alen pa = alen (tp t) /\ alen fa = alen (tf t) /\ Inv pa /\ Inv fa /\
    getNames pa = getNames (tp t) /\ getNames fa = getNames (tf t).
Proof.
  intros ((_ & _ & IP & IF) & EP & EF & _) SO. destruct (copyAxis_ok (tp t) IP) as (pa & P1 & P2 & P3 & P4). destruct (copyAxis_ok (tf t) IF) as (fa & F1 & F2 & F3 & F4).
  exists pa, fa. unfold makeNimble, nP, nF. rewrite EP, EF, P1. cbn [rbind]. rewrite F1. cbn [rbind]. rewrite P2, F2. auto 10.
Qed.
Lemma copy_nimble o t to k rap : Stands o t -> Asks o to (FNimble k) ->
  (k = KSparse -> kindOf o <> KSparse -> ~ isCell t (PStr "")) ->
  exists o' c t', copy o to rap false = (o', Ok (CNimble c)) /\ o' = withStore o (fst (nimbleStore k o)) /\ kindOf c = k /\ Stands c t' /\
    oName c = oName o /\ oAbs c = oAbs o /\ oRel c = oRel o /\
    alen (tp t') = alen (if rap then tp t else tf t) /\ alen (tf t') = alen (if rap then tf t else tp t) /\
    getNames (tp t') = getNames (if rap then tp t else tf t) /\ getNames (tf t') = getNames (if rap then tf t else tp t) /\
    forall i j v, cell t i j = Some v -> exists w, turned t' rap i j = Some w /\ Relate k o v w.
Proof.
  intros S A N. rewrite (copy_2D strOf floatOf o t to _ rap S A). destruct (nimbleStore_ok k o t S N) as (SO & SK & SC). cbv zeta in *.
  pose proof S as (W & EP & EF & ED & _). destruct (makeNimble_ok o t _ S SO) as (pa & fa & M & LP & LF & IP & IF & NP & NF).
  unfold copyImpl. destruct (arrayOf o) as [d0 a0]. destruct (nimbleStore k o) as [mine new] eqn:NS. cbn [fst snd] in *. rewrite M. cbn [rmap].
  assert (ST : Stands (mkObj pa fa [alen pa; alen fa] new None None None) (mkTable pa fa (storeRows new))) by (apply Stands_of; auto; rewrite LP, LF; auto).
  destruct rap.
  - cbn [oP oF oDims oSt]. eexists _, _, (mkTable pa fa (storeRows new)). split; [reflexivity|]. split; [reflexivity|]. split; [rewrite kind_store; exact SK|].
    cbn [tp tf]. split; [|repeat (split; [auto; fail|]); auto].
    + rewrite ED, <- LP, <- LF. apply Stands_of; auto. rewrite LP, LF; auto.
    + intros i j v X. destruct (SC _ _ _ X) as (w & Y & Z). exists w. split; auto. cbn [turned]. apply cell_at. exact Y.
  - destruct (transposeObj_ok _ _ ST) as (t' & S' & K' & L1 & L2 & N1 & N2 & C'). cbn [tp tf] in *.
    set (c1 := transposeObj (mkObj pa fa [alen pa; alen fa] new None None None)) in *.
    eexists _, _, t'. split; [reflexivity|]. split; [reflexivity|].
    assert (KK : kindOf c1 = k) by (rewrite K', kind_store; exact SK).
    clearbody c1. split; [exact KK|]. split; [exact S'|]. cbn [oName oAbs oRel].
    split; [auto|]. split; [auto|]. split; [auto|]. split; [congruence|]. split; [congruence|]. split; [congruence|]. split; [congruence|].
    intros i j v X. destruct (SC _ _ _ X) as (w & Y & Z). apply (cell_at (mkTable pa fa (storeRows new))) in Y. destruct (C' _ _ _ Y) as (u & U1 & U2). exists u. split; auto.
    unfold Relate in *. destruct k; auto; try (eapply SameElement_trans; eauto). destruct (kindOf o).
    all: try (eapply SameElement_trans; eauto; fail).
    all: unfold NoneIsNan in *; destruct v; try (eapply SameElement_trans; eauto; fail); subst w; destruct U2 as [U2|[_ U2]]; auto; inversion U2; subst; auto;
      match goal with H : IsNumber PNaN _ |- _ => inversion H end.
Qed.

(** ** The object that is copied *)
Lemma nimbleStore_mine k o t : Stands o t -> ~ (kindOf o = KMatrix /\ k = KSparse /\ isCell t PNone) -> fst (nimbleStore k o) = oSt o.
Proof.
  intros (W & _ & _ & _ & ST) N. unfold nimbleStore, kindOf in *. destruct (oSt o) as [m|d m|ds m|d c] eqn:EO; auto. destruct k; auto.
  destruct ST as [-> _]. unfold sparseInit. destruct (existsb isNoneV (List.concat (rows t))) eqn:E; auto. exfalso. apply N. split; auto. split; auto.
  apply existsb_exists in E. destruct E as (v & I & B). destruct v; try discriminate. apply concat_at in I. destruct I as (i & j & I). exists i, j. apply cell_at. auto.
Qed.
Lemma withStore_same o : withStore o (oSt o) = o.
Proof. destruct o; reflexivity. Qed.
Lemma copy_source o t to f rap d1 : Stands o t -> Asks o to f -> ~ (kindOf o = KMatrix /\ f = FNimble KSparse /\ isCell t PNone) -> fst (copy o to rap d1) = o.
Proof.
  intros S A N. destruct d1.
  - assert (HD : List.length (oDims o) <= 2) by (destruct S as (_ & _ & _ & -> & _); auto).
    destruct (format_eq f) as [F|[F1 F2]].
    + unfold copy. rewrite (proj2 (resolve_spec o to f) A), (Stands_2D o t S). cbn [andb]. destruct F as [-> | ->]; destruct (_ && _); reflexivity.
    + rewrite (copy_1D_format strOf floatOf o to f rap A HD F1 F2). reflexivity.
  - rewrite (copy_2D strOf floatOf o t to f rap S A). destruct f as [k| | | |s| | |]; try reflexivity; unfold copyImpl; destruct (arrayOf o) as [d0 a0].
    + assert (NK : ~ (kindOf o = KMatrix /\ k = KSparse /\ isCell t PNone)) by (intros (A1 & A2 & A3); apply N; subst k; auto).
      pose proof (nimbleStore_mine k o t S NK) as M. destruct (nimbleStore k o) as [mine new]. cbn [fst] in M. subst mine. rewrite withStore_same. destruct (makeNimble o new); reflexivity.
    + reflexivity.
    + reflexivity.
    + destruct (scipyOf floatOf o s); reflexivity.
    + unfold pandasOf. destruct (oSt o); [destruct (isEmpty o)|..]; reflexivity.
Qed.
(** a Matrix with None in it: its None become NaN *)
Lemma copy_source_changed o t to rap : Stands o t -> Asks o to (FNimble KSparse) -> kindOf o = KMatrix ->
  Stands (fst (copy o to rap false)) (mkTable (tp t) (tf t) (map (map (fun v => match v with PNone => PNaN | _ => v end)) (rows t))).
Proof.
  intros S A K. rewrite (copy_2D strOf floatOf o t to _ rap S A). unfold copyImpl. destruct (arrayOf o) as [d0 a0].
  pose proof S as (W & EP & EF & ED & ST). unfold nimbleStore, kindOf in *. destruct (oSt o) as [m|d m|ds m|d c] eqn:EO; try discriminate. destruct ST as [-> T].
  set (g := fun v => match v with PNone => PNaN | _ => v end).
  assert (EG : forall v, g v = if isNoneV v then PNaN else v) by (intros []; reflexivity).
  assert (M : fst (sparseInit (nP o) (nF o) d (rows t)) = map (map g) (rows t)).
  { unfold sparseInit. destruct (existsb isNoneV (List.concat (rows t))) eqn:E; cbn [fst].
    - unfold noneToNan. apply map_ext. intros r. apply map_ext. intros v. symmetry. apply EG.
    - symmetry. rewrite <- (map_id (rows t)) at 2. apply map_ext_in. intros r I. rewrite <- (map_id r) at 2. apply map_ext_in. intros v Iv. rewrite EG.
      destruct (isNoneV v) eqn:B; auto. exfalso. assert (existsb isNoneV (List.concat (rows t)) = true) by (apply existsb_exists; exists v; split; auto; apply in_concat; eauto). congruence. }
  destruct (sparseInit (nP o) (nF o) d (rows t)) as [m' s]. cbn [fst] in M. subst m'.
  assert (G : Stands (withStore o (SMat d (map (map g) (rows t)))) (mkTable (tp t) (tf t) (map (map g) (rows t)))).
  { unfold withStore, Stands. cbn [oP oF oDims oSt tp tf rows]. split; [|split; [auto|split; [auto|split; [auto|split; [auto|]]]]].
    - destruct W as (W1 & W2 & W3 & W4). unfold wf. cbn [tp tf rows]. rewrite map_length. split; auto. split; auto. intros r I. apply in_map_iff in I. destruct I as (r' & <- & I). rewrite map_length. auto.
    - intros v (i & j & X). apply cell_at in X. cbn [rows] in X. apply at_map_inv in X. destruct X as (u & X & ->). rewrite EG. apply nan_typed. apply T. exists i, j. apply cell_at. auto. }
  destruct (makeNimble o s); exact G.
Qed.

(** ** There and back *)
Lemma cell_in (t : table pval) i j v : wf t -> cell t i j = Some v -> i < alen (tp t) /\ j < alen (tf t).
Proof. intros W X. apply cell_at in X. exact (at_range _ _ _ _ _ _ (wf_Rectangle t W) X). Qed.
Lemma cell_total (t : table pval) i j : wf t -> i < alen (tp t) -> j < alen (tf t) -> exists v, cell t i j = Some v.
Proof. intros W A B. destruct (at_total _ _ _ i j (wf_Rectangle t W) A B) as [v V]. exists v. apply cell_at. auto. Qed.
Lemma round_trip o t to back k rap : Stands o t -> Asks o to (FNimble k) -> (k = KSparse \/ kindOf o = KSparse -> Solid t) ->
  exists c, snd (copy o to rap false) = Ok (CNimble c) /\
  (Asks c back (FNimble (kindOf o)) -> exists c' t', snd (copy c back rap false) = Ok (CNimble c') /\ kindOf c' = kindOf o /\ Stands c' t' /\
    oName c' = oName o /\ oAbs c' = oAbs o /\ oRel c' = oRel o /\
    alen (tp t') = alen (tp t) /\ alen (tf t') = alen (tf t) /\ getNames (tp t') = getNames (tp t) /\ getNames (tf t') = getNames (tf t) /\
    forall i j v, cell t i j = Some v -> exists w, cell t' i j = Some w /\ SameElement v w).
Proof.
  intros S A SO. destruct (copy_nimble o t to k rap S A) as (o' & c & t1 & E & _ & K & S1 & M1 & M2 & M3 & L1 & L2 & N1 & N2 & C1).
  { intros -> _. apply SO. auto. }
  exists c. rewrite E. split; auto. intros B. pose proof S as (W & _). pose proof S1 as (W1 & _).
  assert (BACK : forall i j w, turned t1 rap i j = Some w -> exists v, cell t i j = Some v /\ Relate k o v w).
  { intros i j w X. assert (H : i < alen (tp t) /\ j < alen (tf t)).
    { destruct rap; cbn [turned] in X; destruct (cell_in _ _ _ _ W1 X); split; congruence. }
    destruct (cell_total t i j W) as [v V]; try tauto. destruct (C1 _ _ _ V) as (w' & X' & R). exists v. split; auto. congruence. }
  assert (PLAIN : forall i j v w, cell t i j = Some v -> Relate k o v w -> SameElement v w).
  { intros i j v w X R. unfold Relate in R. destruct k; auto. destruct (kindOf o); auto; apply NoneIsNan_same in R; auto;
      destruct v; auto; exfalso; destruct (SO (or_introl eq_refl)) as [Z _]; apply Z; exists i, j; auto. }
  assert (T1 : forall v, isCell t1 v -> exists i j, turned t1 rap i j = Some v) by (intros v (i & j & X); destruct rap; [exists i, j|exists j, i]; auto).
  destruct (copy_nimble c t1 back (kindOf o) rap S1 B) as (o2 & c2 & t2 & E2 & _ & K2 & S2 & P1 & P2 & P3 & L3 & L4 & N3 & N4 & C2).
  { intros KO _ I. destruct (T1 _ I) as (i & j & X). destruct (BACK _ _ _ X) as (v & V & R). apply (PLAIN _ _ _ _ V) in R. apply same_str_inv in R. subst v.
    destruct (SO (or_intror KO)) as [_ Z]. apply Z. exists i, j. auto. }
  exists c2, t2. rewrite E2. split; auto. split; auto. split; auto. split; [congruence|]. split; [congruence|]. split; [congruence|].
  split; [destruct rap; congruence|]. split; [destruct rap; congruence|]. split; [destruct rap; congruence|]. split; [destruct rap; congruence|].
  intros i j v X. destruct (C1 _ _ _ X) as (w & Y & R). pose proof (PLAIN _ _ _ _ X R) as R1.
  assert (R2 : forall u, Relate (kindOf o) c w u -> SameElement w u).
  { intros u RU. unfold Relate in RU. destruct (kindOf o) eqn:KO; auto. destruct (kindOf c); auto; apply NoneIsNan_same in RU; auto;
      destruct w; auto; exfalso; apply same_none_inv in R1; subst v; destruct (SO (or_intror eq_refl)) as [Z _]; apply Z; exists i, j; auto. }
  assert (Y' : exists a b, cell t1 a b = Some w /\ turned t2 rap a b = cell t2 i j).
  { destruct rap; cbn [turned] in *; eauto. }
  destruct Y' as (a & b & Y1 & Y2). destruct (C2 _ _ _ Y1) as (u & U & RU). exists u. split; [congruence|]. eapply SameElement_trans; eauto.
Qed.
End More.
