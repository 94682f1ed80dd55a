(** Proofs about KNN imputation (C65). *)
From Verif Require Import Base NamesModel NamesSpec NamesProofs TableModel TableSpec TableProofs TableProps TablePermProofs TableOps TableOps3Proofs MatchModel MatchSpec MatchProofs ElementsModel ElementsSpec ElementsProofs ElementsCalcProofs
  IdentModel IdentProofs BinOpModel BinOpSpec BinOpProofs BinOpMainProofs FlatProofs StretchModel StretchSpec LogicModel LogicSpec LogicProofs
  FillModel FillSpec FillProofs FillMatchProofs MergeLoopProofs ImputeModel ImputeSpec ImputeProofs.
From Coq Require Import Sorted.
Open Scope nat_scope.

Lemma idxWhere_spec b l : Exactly (idxWhere b l) (fun k => nth_error l k = Some b).
Proof.
  change (idxWhere b l) with (positionsWhere (fun x => Bool.eqb x b) l). split; [apply positionsWhere_sorted|].
  intros k. rewrite (proj2 (positionsWhere_spec _ _)). split.
  - intros (x & H & E). apply Bool.eqb_prop in E. congruence.
  - intros H. exists b. split; [exact H|]. apply Bool.eqb_reflx.
Qed.
Lemma rmapM_F2 {A B} (f : A -> result B) (P : A -> B -> Prop) l : (forall x, In x l -> exists y, f x = Ok y /\ P x y) -> exists ys, rmapM f l = Ok ys /\ Forall2 P l ys.
Proof.
  induction l as [|x l IH]; intros H; [exists []; split; [reflexivity|constructor]|]. destruct (H x (or_introl eq_refl)) as (y & E & Hy).
  destruct IH as (ys & E' & F); [intros z Hz; apply H; right; exact Hz|]. exists (y :: ys). cbn [rmapM]. rewrite E. cbn [rbind]. rewrite E'. cbn [rbind]. split; [reflexivity|constructor; assumption].
Qed.
Lemma gather_F2 {A} (l : list A) idx : (forall i, In i idx -> i < List.length l) -> exists ys, gather l idx = Ok ys /\ Forall2 (fun i y => nth_error l i = Some y) idx ys.
Proof.
  intros H. apply rmapM_F2. intros i Hi. destruct (nth_error l i) as [y|] eqn:E; [exists y; auto|]. apply nth_error_None in E. specialize (H i Hi). lia.
Qed.
Lemma gather_unF2 {A} (l : list A) idx ys : Forall2 (fun i y => nth_error l i = Some y) idx ys -> gather l idx = Ok ys.
Proof. induction 1 as [|i y idx ys E F IH]; [reflexivity|]. unfold gather in *. cbn [rmapM]. rewrite E. cbn [rbind]. rewrite IH. reflexivity. Qed.
Lemma Forall2_compose {A B C} (P : A -> B -> Prop) (R : B -> C -> Prop) (T : A -> C -> Prop) l m n :
  Forall2 P l m -> Forall2 R m n -> (forall x y z, P x y -> R y z -> T x z) -> Forall2 T l n.
Proof. intros F. revert n. induction F as [|x y l m Hp F IH]; intros n G H; inversion G; subst; constructor; eauto. Qed.

Definition nanb (v : pval) : bool := pyNe v v.
Lemma nanb_spec v : nanb v = true <-> v = PNaN.
Proof.
  unfold nanb, pyNe. rewrite Bool.negb_true_iff. split; [|intros ->; reflexivity]. intros E.
  assert (H : ~ v <> PNaN) by (intros N; apply pyEq_self in N; congruence). destruct v; try reflexivity; exfalso; apply H; discriminate.
Qed.

Section K.
Variable predict : list (list pval) -> list pval -> list pval -> result pval.
Variable t : table pval.
Hypothesis W : wf t.
Let masks := map (map nanb) (rows t).

Lemma mask_nth i r : nth_error (rows t) i = Some r -> forall j, nth_error (map nanb r) j = Some false <-> present t i j.
Proof.
  intros Hr j. unfold present, cell. rewrite Hr, nth_error_map_eq. destruct (nth_error r j) as [v|]; cbn [option_map].
  - split.
    + intros E. injection E as E. exists v. split; [reflexivity|]. intros ->. discriminate.
    + intros (w & Hw & N). injection Hw as ->. f_equal. destruct (nanb w) eqn:E; [|reflexivity]. apply nanb_spec in E. contradiction.
  - split; [discriminate|]. intros (v & Hv & _). discriminate.
Qed.
Lemma keep_exact i r : nth_error (rows t) i = Some r -> Exactly (idxWhere false (map nanb r)) (present t i).
Proof. intros Hr. destruct (idxWhere_spec false (map nanb r)) as [A B]. split; [exact A|]. intros k. rewrite B. apply mask_nth. exact Hr. Qed.

Lemma knnElement_spec i r ft : nth_error (rows t) i = Some r -> ft < alen (tf t) ->
  KnnAnswer predict t i ft (knnElement predict masks (rows t) r (idxWhere false (map nanb r)) ft).
Proof.
  intros Hr Hft. pose proof (keep_exact i r Hr) as KE. set (keep := idxWhere false (map nanb r)) in *. clearbody keep.
  destruct W as (W1 & W2 & _ & _).
  assert (KL : forall k, In k keep -> k < alen (tf t)).
  { intros k Hk. apply (proj2 KE) in Hk. destruct Hk as (v & Hv & _). apply (cell_range t i k v W Hv). }
  assert (RL : forall k x, nth_error (rows t) k = Some x -> List.length x = alen (tf t)) by (intros k x Hx; apply W2; eapply nth_error_In; eauto).
  assert (KF : forall k, In k (keep ++ [ft]) -> k < alen (tf t)) by (intros k Hk; apply in_app_or in Hk; destruct Hk as [Hk|[<-|[]]]; auto).
  unfold knnElement.
  destruct (gather_F2 r keep) as (x & Ex & Fx); [intros k Hk; rewrite (RL i r Hr); auto|]. rewrite Ex. cbn [rbind].
  (* training points *)
  assert (TR : exists train, trainIdxOf masks (keep ++ [ft]) = Ok train /\ Exactly train (fun k => present t k ft /\ forall f, present t i f -> present t k f)).
  { unfold trainIdxOf.
    destruct (rmapM_F2 (fun fill => rmap (existsb (fun b => b)) (gather fill (keep ++ [ft])))
      (fun fill b => b = false <-> forall k, In k (keep ++ [ft]) -> nth_error fill k = Some false) masks) as (flags & EF & FF).
    - intros fill Hf. unfold masks in Hf. apply in_map_iff in Hf. destruct Hf as (row & <- & Hrow).
      destruct (gather_F2 (map nanb row) (keep ++ [ft])) as (ys & Ey & Fy); [intros k Hk; rewrite map_length, (W2 row Hrow); auto|].
      rewrite Ey. cbn [rmap rbind]. eexists. split; [reflexivity|]. clear - Fy. split.
      + intros E k Hk. induction Fy as [|a y idx ys H F IH]; [contradiction|]. cbn in E. apply Bool.orb_false_iff in E. destruct E as [-> E2]. destruct Hk as [<-|Hk]; auto.
      + intros H. induction Fy as [|a y idx ys Hy F IH]; [reflexivity|]. cbn. apply Bool.orb_false_iff. split; [|apply IH; intros k Hk; apply H; right; exact Hk].
        specialize (H a (or_introl eq_refl)). congruence.
    - rewrite EF. cbn [rbind]. eexists. split; [reflexivity|]. destruct (idxWhere_spec false flags) as [A B]. split; [exact A|]. intros k. rewrite B.
      assert (NK : nth_error flags k = Some false <-> exists row, nth_error (rows t) k = Some row /\ forall f, In f (keep ++ [ft]) -> nth_error (map nanb row) f = Some false).
      { clear - FF. unfold masks in FF. remember (map (map nanb) (rows t)) as ms eqn:Em. revert Em. generalize (rows t). intros rs. revert k rs.
        induction FF as [|fill b ms flags H F IH]; intros k rs Em.
        - destruct rs; [|discriminate]. destruct k; split; [discriminate|intros (row & E & _); discriminate|discriminate|intros (row & E & _); discriminate].
        - destruct rs as [|r0 rs]; [discriminate|]. injection Em as -> Em. destruct k as [|k]; cbn [nth_error].
          + split; [intros E; injection E as ->; exists r0; split; [reflexivity|apply H; reflexivity]|]. intros (row & E & K). injection E as <-. f_equal. apply H. exact K.
          + apply IH. exact Em. }
      rewrite NK. split.
      + intros (row & Hrow & Hall). split.
        * apply (mask_nth k row Hrow). apply Hall. apply in_or_app. right. left. reflexivity.
        * intros f Hf. apply (mask_nth k row Hrow). apply Hall. apply in_or_app. left. apply (proj2 KE). exact Hf.
      + intros [H1 H2]. destruct H1 as (v & Hv & N). pose proof Hv as Hv'. unfold cell in Hv'. destruct (nth_error (rows t) k) as [row|] eqn:Hrow; [|discriminate]. exists row. split; [reflexivity|].
        intros f Hf. apply (mask_nth k row Hrow). apply in_app_or in Hf. destruct Hf as [Hf|[<-|[]]]; [apply H2, (proj2 KE); exact Hf|exists v; auto]. }
  destruct TR as (train & -> & TE). cbn [rbind].
  destruct (gather_F2 (rows t) train) as (rs & Ers & Frs).
  { intros k Hk. apply (proj2 TE) in Hk. destruct Hk as [(v & Hv & _) _]. rewrite W1. apply (cell_range t k ft v W Hv). }
  rewrite Ers. cbn [rbind].
  assert (RIN : forall row, In row rs -> List.length row = alen (tf t)).
  { clear - Frs RL. induction Frs as [|k y l rs H F IH]; intros row HI; [destruct HI|]. destruct HI as [<-|HI]; [exact (RL _ _ H)|exact (IH row HI)]. }
  destruct (rmapM_F2 (fun row => gather row keep) (fun row vs => Forall2 (fun j v => nth_error row j = Some v) keep vs) rs) as (xs & Exs & Fxs).
  { intros row Hrow. apply gather_F2. intros k Hk. rewrite (RIN row Hrow). auto. }
  rewrite Exs. cbn [rbind].
  destruct (rmapM_F2 (fun row => gather row [ft]) (fun row vs => exists v, nth_error row ft = Some v /\ vs = [v]) rs) as (ys & Eys & Fys).
  { intros row Hrow. destruct (nth_error row ft) as [v|] eqn:E; [|apply nth_error_None in E; rewrite (RIN row Hrow) in E; lia]. exists [v]. split; [apply gather_unF2; constructor; [exact E|constructor]|exists v; auto]. }
  rewrite Eys. cbn [rbind].
  exists keep, train, xs, (List.concat ys), x. split; [exact KE|]. split; [exact TE|]. split.
  { apply (Forall2_compose _ _ _ _ _ _ Frs Fxs). intros k row vs Hk Hvs. unfold Values. clear - Hk Hvs. induction Hvs; constructor; auto. unfold cell. rewrite Hk. assumption. }
  split.
  { clear - Frs Fys. revert ys Fys. induction Frs as [|k row l rs H F IH]; intros ys G; inversion G as [|? vs ? ys' (v & Hv & ->) G']; subst; cbn; constructor; [|apply IH; exact G'].
    unfold cell. rewrite H. exact Hv. }
  split; [|reflexivity]. unfold Values. clear - Fx Hr. induction Fx; constructor; auto. unfold cell. rewrite Hr. assumption.
Qed.

Lemma knnFill_spec i r keep fts : nth_error (rows t) i = Some r -> keep = idxWhere false (map nanb r) -> NoDup fts -> (forall f, In f fts -> f < alen (tf t)) ->
  forall cur, List.length cur = alen (tf t) ->
  match knnFill predict masks (rows t) r keep fts cur with
  | Ok new => List.length new = alen (tf t) /\ (forall j, ~ In j fts -> nth_error new j = nth_error cur j) /\
      forall j, In j fts -> exists x, nth_error new j = Some x /\ KnnAnswer predict t i j (Ok x)
  | Err e => exists j, In j fts /\ KnnAnswer predict t i j (Err e)
  end.
Proof.
  intros Hr -> ND. induction ND as [|ft fts NI ND IH]; intros HL cur LC; cbn [knnFill].
  - split; [exact LC|]. split; [reflexivity|]. intros j [].
  - pose proof (knnElement_spec i r ft Hr (HL ft (or_introl eq_refl))) as A.
    destruct (knnElement predict masks (rows t) r (idxWhere false (map nanb r)) ft) as [p|e]; cbn [rbind].
    2:{ exists ft. split; [left; reflexivity|exact A]. }
    replace (ft <? List.length cur) with true by (symmetry; apply Nat.ltb_lt; rewrite LC; apply HL; left; reflexivity).
    specialize (IH (fun f Hf => HL f (or_intror Hf)) (upd cur ft p)). rewrite upd_length in IH. specialize (IH LC).
    destruct (knnFill predict masks (rows t) r (idxWhere false (map nanb r)) fts (upd cur ft p)) as [new|e].
    + destruct IH as (L & H1 & H2). split; [exact L|]. split.
      * intros j Hj. rewrite H1 by (intros K; apply Hj; right; exact K). apply nth_error_upd_other. intros ->. apply Hj. left. reflexivity.
      * intros j [<-|Hj]; [|exact (H2 j Hj)]. exists p. split; [|exact A]. rewrite H1 by exact NI. apply nth_error_upd_same. rewrite LC. apply HL. left. reflexivity.
    + destruct IH as (j & Hj & B). exists j. split; [right; exact Hj|exact B].
Qed.
End K.

Section I.
Variables intOf floatOf : string -> option pval.
Variable strOf : pval -> string.
Variable predict : list (list pval) -> list pval -> list pval -> result pval.

Lemma knnTrain_spec t : wf t -> exists m, knnTrain intOf floatOf strOf t = Ok m /\ map (map pyTruth) (rows m) = map (map nanb) (rows t).
Proof.
  intros W. unfold knnTrain. pose proof (fullMatch_spec intOf floatOf strOf (fun v => rmap PBool (convertMatch (AValue PNaN) v)) t W) as H.
  assert (CM : forall v, rmap PBool (convertMatch (AValue PNaN) v) = Ok (PBool (nanb v))) by reflexivity.
  destruct (matchingElements _ _ _ t _ None None) as [m|e].
  - exists m. split; [reflexivity|]. destruct H as (Wm & (L1 & L2) & _ & _ & _ & MK). pose proof W as (W1 & W2 & _). pose proof Wm as (M1 & M2 & _).
    apply nth_error_ext. intros i. rewrite !nth_error_map_eq. destruct (nth_error (rows t) i) as [r|] eqn:Er.
    + destruct (nth_error (rows m) i) as [q|] eqn:Eq; [|apply nth_error_None in Eq; assert (i < List.length (rows t)) by (apply nth_error_Some; congruence); lia].
      cbn [option_map]. f_equal. apply nth_error_ext. intros j. rewrite !nth_error_map_eq. destruct (nth_error r j) as [v|] eqn:Ev.
      * assert (Hc : cell t i j = Some v) by (unfold cell; rewrite Er; exact Ev). destruct (MK i j v Hc) as (x & Ex & T). rewrite CM in Ex. injection Ex as <-.
        unfold markOf, cell in T. rewrite Eq in T. destruct (nth_error q j) as [y|] eqn:Ey.
        -- cbn [option_map]. f_equal. exact (TruthOf_fun _ _ _ T (TruthOf_bool _)).
        -- exfalso. apply nth_error_None in Ey. rewrite (M2 q) in Ey by (eapply nth_error_In; eauto). assert (j < List.length r) by (apply nth_error_Some; congruence).
           rewrite (W2 r) in H by (eapply nth_error_In; eauto). lia.
      * destruct (nth_error q j) as [y|] eqn:Ey; [|reflexivity]. exfalso. apply nth_error_None in Ev. rewrite (W2 r) in Ev by (eapply nth_error_In; eauto).
        assert (H : j < List.length q) by (apply nth_error_Some; congruence). rewrite (M2 q) in H by (eapply nth_error_In; eauto). lia.
    + destruct (nth_error (rows m) i) as [q|] eqn:Eq; [|reflexivity]. exfalso. apply nth_error_None in Er. assert (i < List.length (rows m)) by (apply nth_error_Some; congruence). lia.
  - exfalso. destruct H as (v & _ & [H|(_ & x & Hx & K)]); [rewrite CM in H; discriminate|]. rewrite CM in Hx. injection Hx as <-. exact (K _ (TruthOf_bool _)).
Qed.

Lemma knnImpute_spec t : wf t -> 0 < alen (tp t) ->
  match knnImpute intOf floatOf strOf predict t with
  | Ok r => wf r /\ sameShapeAs r t /\ getNames (tp r) = getNames (tp t) /\ getNames (tf r) = getNames (tf t) /\
      forall i j v, cell t i j = Some v ->
        (v <> PNaN -> cell r i j = Some v) /\ (v = PNaN -> exists x, cell r i j = Some x /\ KnnAnswer predict t i j (Ok x))
  | Err e => exists i j, cell t i j = Some PNaN /\ KnnAnswer predict t i j (Err e)
  end.
Proof.
  intros W NE. unfold knnImpute. destruct (knnTrain_spec t W) as (m & -> & EM). cbn [rbind]. unfold knnApply. rewrite EM. clear m EM.
  pose proof W as (W1 & W2 & I1 & I2).
  assert (CB : forall i, nth_error (combine (rows t) (map (map nanb) (rows t))) i = option_map (fun r => (r, map nanb r)) (nth_error (rows t) i)).
  { intros i. rewrite nth_combine, nth_error_map_eq. destruct (nth_error (rows t) i); reflexivity. }
  assert (PT : forall i r, nth_error (rows t) i = Some r ->
    match knnPoint predict (map (map nanb) (rows t)) (rows t) (r, map nanb r) with
    | Ok new => List.length new = alen (tf t) /\ forall j v, nth_error r j = Some v -> (v <> PNaN -> nth_error new j = Some v) /\ (v = PNaN -> exists x, nth_error new j = Some x /\ KnnAnswer predict t i j (Ok x))
    | Err e => exists j, nth_error r j = Some PNaN /\ KnnAnswer predict t i j (Err e)
    end).
  { intros i r Hr. unfold knnPoint. cbn [fst snd]. destruct (idxWhere_spec true (map nanb r)) as [SS IN].
    assert (IN' : forall j, In j (idxWhere true (map nanb r)) <-> nth_error r j = Some PNaN).
    { intros j. rewrite IN, nth_error_map_eq. destruct (nth_error r j) as [v|]; cbn [option_map]; split; try discriminate.
      - intros E. injection E as E. apply nanb_spec in E. congruence.
      - intros E. injection E as ->. reflexivity. }
    assert (RL : List.length r = alen (tf t)) by (apply W2; eapply nth_error_In; eauto).
    pose proof (knnFill_spec predict t W i r _ (idxWhere true (map nanb r)) Hr eq_refl (TableOps2Proofs.StronglySorted_lt_NoDup _ SS)) as H.
    specialize (H ltac:(intros f Hf; apply IN' in Hf; rewrite <- RL; apply nth_error_Some; congruence) r RL).
    destruct (knnFill predict (map (map nanb) (rows t)) (rows t) r (idxWhere false (map nanb r)) (idxWhere true (map nanb r)) r) as [new|e].
    - destruct H as (L & H1 & H2). split; [exact L|]. intros j v Hv. split.
      + intros N. rewrite H1; [exact Hv|]. intros K. apply IN' in K. congruence.
      + intros ->. apply H2. apply IN'. exact Hv.
    - destruct H as (j & Hj & A). exists j. split; [apply IN'; exact Hj|exact A]. }
  destruct (rmapM (knnPoint predict (map (map nanb) (rows t)) (rows t)) (combine (rows t) (map (map nanb) (rows t)))) as [res|e] eqn:ER; cbn [rbind].
  - assert (LR : List.length res = alen (tp t)) by (rewrite (rmapM_ok_length _ _ ER), combine_length, map_length, Nat.min_id; exact W1).
    assert (RN : forall i r, nth_error (rows t) i = Some r -> exists new, nth_error res i = Some new /\ List.length new = alen (tf t) /\
       forall j v, nth_error r j = Some v -> (v <> PNaN -> nth_error new j = Some v) /\ (v = PNaN -> exists x, nth_error new j = Some x /\ KnnAnswer predict t i j (Ok x))).
    { intros i r Hr. assert (Hx : nth_error (combine (rows t) (map (map nanb) (rows t))) i = Some (r, map nanb r)) by (rewrite CB, Hr; reflexivity).
      destruct (rmapM_ok_nth _ _ ER i Hx) as (new & Hn & En). pose proof (PT i r Hr) as H. rewrite En in H. exists new. tauto. }
    assert (RL : forall x, In x res -> List.length x = alen (tf t)).
    { intros x Hx. apply In_nth_error in Hx. destruct Hx as [i Hi]. assert (i < alen (tp t)) by (rewrite <- LR; apply nth_error_Some; congruence).
      destruct (nth_error (rows t) i) as [r|] eqn:Hr; [|apply nth_error_None in Hr; lia]. destruct (RN i r Hr) as (new & Hn & L & _). congruence. }
    assert (FL : match res with r :: _ => List.length r | [] => alen (tf t) end = alen (tf t)) by (destruct res as [|x res]; [reflexivity|apply RL; left; reflexivity]).
    rewrite FL, LR.
    destruct (copyAxis_ok (tp t) I1) as (pa & -> & P1 & P2 & P3). cbn [rbind].
    destruct (copyAxis_ok (tf t) I2) as (fa & -> & F1 & F2 & F3). cbn [rbind].
    split. { split; [cbn; congruence|]. split; [cbn; intros x Hx; rewrite (RL x Hx); congruence|]. split; assumption. }
    split; [split; assumption|]. cbn [tp tf]. split; [exact P3|]. split; [exact F3|].
    intros i j v Hc. unfold cell in Hc |- *. cbn [rows]. destruct (nth_error (rows t) i) as [r|] eqn:Hr; [|discriminate]. destruct (RN i r Hr) as (new & -> & _ & H). exact (H j v Hc).
  - destruct (ElementsCalcProofs.rmapM_fail _ _ _ ER) as (pf & Hin & Hf). apply In_nth_error in Hin. destruct Hin as [i Hi]. rewrite CB in Hi.
    destruct (nth_error (rows t) i) as [r|] eqn:Hr; [|discriminate]. injection Hi as <-. pose proof (PT i r Hr) as H. rewrite Hf in H. destruct H as (j & Hj & A).
    exists i, j. split; [unfold cell; rewrite Hr; exact Hj|exact A].
Qed.
End I.

(** the learner never sees a NaN: not in the training points, not among the
    labels, not in the point to predict *)
Lemma KnnAnswer_clean predict t i j r : KnnAnswer predict t i j r ->
  exists xs ys x, predict xs ys x = r /\ List.length xs = List.length ys /\
    (forall vs v, In vs xs -> In v vs -> v <> PNaN) /\ (forall y, In y ys -> y <> PNaN) /\ (forall v, In v x -> v <> PNaN) /\
    (forall vs, In vs xs -> List.length vs = List.length x).
Proof.
  intros (keep & train & xs & ys & x & (_ & K) & (_ & T) & X & Y & V & E). exists xs, ys, x. split; [exact E|].
  assert (IN2 : forall A B (P : A -> B -> Prop) l m y, Forall2 P l m -> In y m -> exists a, In a l /\ P a y).
  { intros A B P l m y F. induction F as [|a b l m H F IH]; [intros []|]. intros [<-|Hy]; [exists a; split; [left; reflexivity|exact H]|]. destruct (IH Hy) as (a' & Ha & Hp). exists a'. split; [right; exact Ha|exact Hp]. }
  assert (LEN : forall A B (P : A -> B -> Prop) l m, Forall2 P l m -> List.length l = List.length m) by (intros A B P l m F; induction F; cbn; congruence).
  split; [rewrite <- (LEN _ _ _ _ _ X), <- (LEN _ _ _ _ _ Y); reflexivity|].
  assert (PR : forall k f v, present t k f -> cell t k f = Some v -> v <> PNaN) by (intros k f v (w & Hw & N) Hv; congruence).
  split; [|split; [|split]].
  - intros vs v Hvs Hv. destruct (IN2 _ _ _ _ _ _ X Hvs) as (k & Hk & HV). destruct (IN2 _ _ _ _ _ _ HV Hv) as (f & Hf & Hc). apply (PR k f v); [|exact Hc]. apply (proj2 (proj1 (T k) Hk)). apply K. exact Hf.
  - intros y Hy. destruct (IN2 _ _ _ _ _ _ Y Hy) as (k & Hk & Hc). apply (PR k j y); [|exact Hc]. exact (proj1 (proj1 (T k) Hk)).
  - intros v Hv. destruct (IN2 _ _ _ _ _ _ V Hv) as (f & Hf & Hc). apply (PR i f v); [|exact Hc]. apply K. exact Hf.
  - intros vs Hvs. destruct (IN2 _ _ _ _ _ _ X Hvs) as (k & Hk & HV). rewrite <- (LEN _ _ _ _ _ HV), <- (LEN _ _ _ _ _ V). reflexivity.
Qed.

Lemma missing_isMissing v : missing v = true <-> isMissing v.
Proof. rewrite missing_spec. unfold isMissing. tauto. Qed.

Lemma knn_fill_complete intOf floatOf strOf (FO : FloatOracle floatOf) predict t points features ps fs : wf t -> NonEmpty t ->
  (forall xs ys x r, predict xs ys x = Ok r -> ~ isMissing r) ->
  limitDenotes (tp t) points ps -> limitDenotes (tf t) features fs ->
  let res := learnerFill intOf floatOf strOf (knnImpute intOf floatOf strOf predict) t (SelFun (fun v => Ok (PBool (missing v)))) points features in
  match snd res with
  | Ok _ => wf (fst res) /\ tp (fst res) = tp t /\ tf (fst res) = tf t /\
      (forall i j v, cell t i j = Some v -> ~ isMissing v -> cell (fst res) i j = Some v) /\
      (forall i j v, cell (fst res) i j = Some v -> addressed ps fs i j -> ~ isMissing v)
  | Err e => fst res = t /\ exists xs ys x, predict xs ys x = Err e
  end.
Proof.
  intros W NE HP D1 D2 res.
  (* a total wrapper: the learner on the blanked copy *)
  unfold res, learnerFill.
  pose proof (matrix_spec intOf floatOf strOf FO t (SelFun (fun v => Ok (PBool (missing v)))) W Logic.I) as H.
  destruct (mc <- matchMatrix intOf floatOf strOf t (SelFun (fun v => Ok (PBool (missing v)))) ;; _ <- (if snd mc : bool then checkMissing intOf floatOf strOf t (fst mc) else Ok tt) ;; Ok (fst mc)) as [m|e].
  2:{ exfalso. inversion H; subst; try discriminate; try contradiction.
      - match goal with K : Ok _ = Ok ?x, N : forall b, ~ TruthOf ?x b |- _ => injection K as <-; exact (N _ (TruthOf_bool _)) end.
      - match goal with K : Ok _ = Ok ?x, N : ~ Truthy ?x |- _ => injection K as <-; apply N, pyTruth_Truthy; reflexivity end. }
  destruct H as (Wm & SH & H). destruct H as [(_ & A)|(N & _)]; [|contradiction].
  destruct (copyTable_spec pval t W) as (c & EC & _). rewrite EC.
  destruct (blank_spec t m c W Wm SH NE EC) as (u & -> & B).
  destruct A as (_ & MK & _).
  assert (MM : forall i j v, cell t i j = Some v -> markOf m i j = missing v).
  { intros i j v Hc. destruct (MK i j v Hc) as (x & Ex & T). injection Ex as <-. exact (TruthOf_fun _ _ _ T (TruthOf_bool _)). }
  destruct B as (Wu & (U1 & U2) & _ & _ & BC). pose proof NE as [NE1 NE2].
  pose proof (knnImpute_spec intOf floatOf strOf predict u Wu ltac:(rewrite U1; exact NE1)) as K.
  destruct (knnImpute intOf floatOf strOf predict u) as [filled|e].
  2:{ cbn [fst snd]. split; [reflexivity|]. destruct K as (i & j & _ & (a & b & xs & ys & x & _ & _ & _ & _ & _ & E)). exists xs, ys, x. exact E. }
  destruct K as (Wf & (F1 & F2) & _ & _ & K).
  set (g := fun v i j => b <- elementAt m i j ;; if pyTruth b then elementAt filled i j else Ok v).
  assert (FC : forall i j v, cell t i j = Some v -> exists w, cell filled i j = Some w /\ ~ isMissing w).
  { intros i j v Hc. pose proof (BC i j v Hc) as Hu. rewrite (MM i j v Hc) in Hu. destruct (missing v) eqn:EM.
    - destruct (K i j PNaN Hu) as [_ K2]. destruct (K2 eq_refl) as (x & Hx & (a & b & xs & ys & p & _ & _ & _ & _ & _ & E)). exists x. split; [exact Hx|exact (HP _ _ _ _ E)].
    - destruct (K i j v Hu) as [K1 _]. exists v. assert (NM : ~ isMissing v) by (intros Q; apply missing_isMissing in Q; congruence). split; [|exact NM]. apply K1. intros ->. apply NM. left. reflexivity. }
  assert (G : forall v i j, cell t i j = Some v -> exists w, g v i j = Ok w /\ ~ isMissing w /\ (~ isMissing v -> w = v)).
  { intros v i j Hc. destruct (cell_range t i j v W Hc) as [Hi Hj]. destruct SH as [S1 S2]. destruct (FC i j v Hc) as (w & Hw & NM).
    pose proof (MM i j v Hc) as E. unfold markOf in E. unfold g. rewrite elementAt_cell by exact Wm.
    destruct (cell_some m i j Wm ltac:(congruence) ltac:(congruence)) as (y & Hy & _). rewrite Hy in E |- *. cbn [rbind]. rewrite E. rewrite elementAt_cell by exact Wf. rewrite Hw.
    destruct (missing v) eqn:EM; [exists w; split; [reflexivity|]; split; [exact NM|]; intros Q; exfalso; apply Q, missing_isMissing; exact EM|].
    exists v. split; [reflexivity|]. split; [intros Q; apply missing_isMissing in Q; congruence|reflexivity]. }
  pose proof (transformF3_spec intOf floatOf strOf t g points features ps fs W D1 D2) as H. cbn zeta in H.
  destruct (transformElements t (F3 g) points features false false) as [t' [[]|e]]; cbn [fst snd] in *; destruct H as (T1 & T2 & Wt & H).
  - split; [exact Wt|]. split; [exact T1|]. split; [exact T2|]. split.
    + intros i j v Hc NM. destruct (H i j v Hc) as [HA HN]. assert (DEC : addressed ps fs i j \/ ~ addressed ps fs i j).
      { unfold addressed. destruct (outside ps i) eqn:X; destruct (outside fs j) eqn:Y; apply outside_chosen in X, Y; tauto. }
      destruct DEC as [D|D]; [|exact (HN D)]. destruct (HA D) as (w & E & Hw). destruct (G v i j Hc) as (w' & E' & _ & Q). rewrite E in E'. injection E' as <-. rewrite (Q NM) in Hw. exact Hw.
    + intros i j v Hc D. destruct (cell_range t' i j v Wt Hc) as [Hi Hj]. rewrite T1 in Hi. rewrite T2 in Hj. destruct (cell_some t i j W Hi Hj) as (v0 & Hv0 & _).
      destruct (H i j v0 Hv0) as [HA _]. destruct (HA D) as (w & E & Hw). destruct (G v0 i j Hv0) as (w' & E' & NM & _). congruence.
  - exfalso. destruct H as (i & j & v & Hc & _ & E). destruct (G v i j Hc) as (w & E' & _). congruence.
Qed.
