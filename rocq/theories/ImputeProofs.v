(** Proofs about filling by a learner (C65). *)
From Verif Require Import Base NamesModel NamesSpec NamesProofs TableModel TableSpec TableProofs TablePermProofs TableOps TableOps3Proofs MatchModel MatchSpec MatchProofs ElementsModel ElementsSpec ElementsProofs ElementsCalcProofs
  IdentModel IdentProofs BinOpModel BinOpSpec BinOpProofs BinOpMainProofs FlatProofs StretchModel StretchSpec LogicModel LogicSpec LogicProofs
  FillModel FillSpec FillProofs FillMatchProofs MergeLoopProofs ImputeModel ImputeSpec.
From Coq Require Import QArith.
Open Scope nat_scope.

Lemma pyTruth_Truthy v : pyTruth v = true <-> Truthy v.
Proof.
  unfold Truthy. destruct v as [b|z|q| | | |s|]; cbn [pyTruth].
  - split; [intros -> [H|[H|H]]; try discriminate|intros H]. 
    + apply pyEq_spec in H. discriminate.
    + destruct b; [reflexivity|]. exfalso. apply H. left. exact (TruthOf_bool false).
  - split; [intros E [H|[H|H]]; try discriminate|intros H].
    + apply pyEq_spec in H. cbn in H. unfold Qeq_bool in H. cbn in H. apply Bool.negb_true_iff in E. apply Z.eqb_neq in E. apply E.
      apply Zeq_bool_eq in H. lia.
    + apply Bool.negb_true_iff, Z.eqb_neq. intros ->. apply H. left. eapply same_num; [constructor|constructor|reflexivity].
  - split; [intros E [H|[H|H]]; try discriminate|intros H].
    + apply pyEq_spec in H. cbn in H. apply Bool.negb_true_iff in E. change (Qeq_bool q 0 = true) in H. congruence.
    + apply Bool.negb_true_iff. destruct (Qeq_bool q 0) eqn:E; [|reflexivity]. exfalso. apply H. left. apply Qeq_bool_iff in E.
      econstructor 1; [constructor|constructor|exact E].
  - split; [intros _ [H|[H|H]]; try discriminate; inversion H as [? ? ? ? A| | | |]; inversion A|reflexivity].
  - split; [intros _ [H|[H|H]]; try discriminate; inversion H as [? ? ? ? A| | | |]; inversion A|reflexivity].
  - split; [intros _ [H|[H|H]]; try discriminate; inversion H as [? ? ? ? A| | | |]; inversion A|reflexivity].
  - split; [intros E [H|[H|H]]; try discriminate|intros H].
    + inversion H as [? ? ? ? A| | | |]; inversion A.
    + injection H as ->. discriminate.
    + apply Bool.negb_true_iff, String.eqb_neq. intros ->. apply H. right. left. reflexivity.
  - split; [discriminate|]. intros H. exfalso. apply H. right. right. reflexivity.
Qed.

Lemma elementAt_cell t i j : wf t -> elementAt t i j = match cell t i j with Some v => Ok v | None => Err IndexErr end.
Proof.
  intros W.
  assert (G : forall a n, getIndex a (IdInt (Z.of_nat n)) true = if n <? alen a then Ok (Z.of_nat n) else Err IndexErr).
  { intros a n. unfold getIndex. destruct (Nat.ltb_spec n (alen a)).
    - replace (Z.of_nat (alen a) =? 0)%Z with false by (symmetry; apply Z.eqb_neq; lia).
      replace (Z.of_nat n <? 0)%Z with false by (symmetry; apply Z.ltb_ge; lia).
      replace (Z.of_nat n <? 0)%Z with false by (symmetry; apply Z.ltb_ge; lia).
      replace (Z.of_nat (alen a) <=? Z.of_nat n)%Z with false by (symmetry; apply Z.leb_gt; lia). reflexivity.
    - destruct (Z.of_nat (alen a) =? 0)%Z; [reflexivity|].
      replace (Z.of_nat n <? 0)%Z with false by (symmetry; apply Z.ltb_ge; lia).
      replace (Z.of_nat n <? 0)%Z with false by (symmetry; apply Z.ltb_ge; lia).
      replace (Z.of_nat (alen a) <=? Z.of_nat n)%Z with true by (symmetry; apply Z.leb_le; lia). reflexivity. }
  unfold elementAt. rewrite !G. destruct (Nat.ltb_spec i (alen (tp t))) as [Hi|Hi].
  - destruct (Nat.ltb_spec j (alen (tf t))) as [Hj|Hj].
    + cbn [rbind]. rewrite !Nat2Z.id. destruct (cell_some t i j W Hi Hj) as (v & -> & ->). reflexivity.
    + cbn [rbind]. destruct (cell t i j) as [v|] eqn:C; [|reflexivity]. apply cell_range in C; [|exact W]. lia.
  - cbn [rbind]. destruct (cell t i j) as [v|] eqn:C; [|reflexivity]. apply cell_range in C; [|exact W]. lia.
Qed.

Section P.
Variables intOf floatOf : string -> option pval.
Variable strOf : pval -> string.

(** the positions a matrix of bools marks *)
Definition markOf (m : table pval) (i j : nat) : bool := match cell m i j with Some v => pyTruth v | None => false end.

Lemma fullMatch_spec f t : wf t ->
  match matchingElements intOf floatOf strOf t (F1 f) None None with
  | Ok r => wf r /\ sameShapeAs r t /\ getNames (tp r) = getNames (tp t) /\ getNames (tf r) = getNames (tf t) /\ AllTruths r /\
      Marks t (SelFun f) (markOf r)
  | Err e => exists v, isCell t v /\ (f v = Err e \/ (e = InvalidArgumentValue /\ exists x, f v = Ok x /\ forall b, ~ TruthOf x b))
  end.
Proof.
  intros W.
  pose proof (matchingElements_spec intOf floatOf strOf t (F1 f) None None None None W Logic.I Logic.I ltac:(discriminate) ltac:(discriminate)) as H.
  cbn zeta in H. cbn [positionsOf] in H. specialize (H (seq_NoDup _ _) (seq_NoDup _ _)).
  destruct (matchingElements intOf floatOf strOf t (F1 f) None None) as [r|e].
  - destruct H as (Wr & L1 & L2 & N1 & N2 & C). rewrite seq_length in L1, L2.
    assert (SEL : forall a, Inv a -> selected (seq 0 (alen a)) (getNames a) = getNames a).
    { intros a Ia. apply nth_error_ext. intros k. rewrite selected_nth by (intros x Hx; apply in_seq in Hx; rewrite getNames_length by exact Ia; lia).
      rewrite nth_error_seq. destruct (Nat.ltb_spec k (alen a)); [reflexivity|]. symmetry. apply nth_error_None. rewrite getNames_length by exact Ia. lia. }
    destruct W as (W1 & W2 & W3 & W4). rewrite SEL in N1 by exact W3. rewrite SEL in N2 by exact W4. assert (W : wf t) by (repeat split; assumption).
    assert (K : forall i j v, cell t i j = Some v -> exists x, f v = Ok x /\ exists b, TruthOf x b /\ cell r i j = Some (PBool b)).
    { intros i j v Hc. destruct (cell_range t i j v W Hc) as [Hi Hj].
      destruct (C i j i j v) as (x & Ex & Hx); [rewrite nth_error_seq; destruct (Nat.ltb_spec i (alen (tp t))); [reflexivity|lia]|rewrite nth_error_seq; destruct (Nat.ltb_spec j (alen (tf t))); [reflexivity|lia]|exact Hc|].
      exists x. split; [exact Ex|]. destruct Hx as [[S1 S2]|[S1 S2]]; [exists true|exists false]; split; assumption. }
    split; [exact Wr|]. split; [split; assumption|]. split; [exact N1|]. split; [exact N2|]. split.
    + intros i j v Hc. destruct (cell_range r i j v Wr Hc) as [Hi Hj]. rewrite L1 in Hi. rewrite L2 in Hj.
      destruct (cell_some t i j W Hi Hj) as (u & Hu & _). destruct (K i j u Hu) as (x & _ & b & _ & B). rewrite Hc in B. injection B as ->. exists b. exact (TruthOf_bool b).
    + intros i j v Hc. destruct (K i j v Hc) as (x & E & b & T & B). exists x. split; [exact E|]. unfold markOf. rewrite B. exact T.
  - destruct H as (i & j & v & _ & Hc & H). exists v. split; [exists i, j; exact Hc|]. destruct H as [H|(-> & x & Hx & A & B)]; [left; exact H|].
    right. split; [reflexivity|]. exists x. split; [exact Hx|]. intros [|]; assumption.
Qed.

Lemma covered_result a b res : Inv a -> Inv b -> alen a = alen b -> ResultNames (getNames a) (getNames b) res -> (res = getNames a <-> NamesCovered a b).
Proof.
  intros Ia Ib L [R1 R2]. assert (La : List.length (getNames a) = List.length (getNames b)) by (rewrite !getNames_length by assumption; exact L).
  assert (N : forall i, nth_error (combined (getNames a) (getNames b)) i = match nth_error (getNames a) i, nth_error (getNames b) i with
            | Some x, Some y => Some (match x with Some s => Some s | None => y end) | _, _ => None end).
  { intros i. unfold combined. rewrite nth_error_map_eq, nth_combine. destruct (nth_error (getNames a) i) as [[x|]|], (nth_error (getNames b) i) as [[y|]|]; reflexivity. }
  split.
  - intros E. destruct (consistent_dec a b Ia Ib L) as [C|C].
    + rewrite (R1 C) in E. intros i s Hb. specialize (N i). rewrite E, Hb in N. destruct (nth_error (getNames a) i) as [[x|]|] eqn:Ha; try discriminate.
      * f_equal. f_equal. exact (proj1 C i x s Ha Hb).
      * apply nth_error_None in Ha. assert (i < List.length (getNames b)) by (apply nth_error_Some; congruence). lia.
    + exfalso. apply C. rewrite (R2 C) in E. split.
      * intros i s s' Ha _. rewrite <- E in Ha. apply nth_error_In, repeat_spec in Ha. discriminate.
      * intros i j s Ha _. rewrite <- E in Ha. apply nth_error_In, repeat_spec in Ha. discriminate.
  - intros C.
    assert (K : NamesConsistent (getNames a) (getNames b)).
    { split.
      - intros i s s' Ha Hb. apply C in Hb. congruence.
      - intros i j s Ha Hb. apply C in Hb. exact (names_Distinct a Ia i j s Ha Hb). }
    rewrite (R1 K). apply nth_error_ext. intros i. rewrite N. destruct (nth_error (getNames a) i) as [[x|]|] eqn:Ha; destruct (nth_error (getNames b) i) as [[y|]|] eqn:Hb; try reflexivity.
    + apply nth_error_None in Hb. assert (i < List.length (getNames a)) by (apply nth_error_Some; congruence). lia.
    + apply C in Hb. congruence.
    + apply nth_error_None in Hb. assert (i < List.length (getNames a)) by (apply nth_error_Some; congruence). lia.
Qed.

Lemma sameOrNan_bool b v p : TruthOf v p -> (sameOrNan (PBool b) v = true <-> b = p).
Proof.
  intros T. unfold sameOrNan. replace (pyNe (PBool b) (PBool b)) with false by (unfold pyNe; replace (pyEq (PBool b) (PBool b)) with true by (symmetry; apply pyEq_self; discriminate); reflexivity).
  cbn [andb]. rewrite Bool.orb_false_r, pyEq_spec. split.
  - intros S. symmetry in S || idtac. apply (TruthOf_fun v); [|exact T]. unfold TruthOf. apply MergeLoopProofs.Same_sym. apply MergeLoopProofs.Same_sym in S. 
    eapply Same_trans; [apply MergeLoopProofs.Same_sym; exact (TruthOf_bool b)|apply MergeLoopProofs.Same_sym; exact S].
  - intros ->. eapply Same_trans; [exact (TruthOf_bool p)|apply MergeLoopProofs.Same_sym; exact T].
Qed.
Lemma AllTruths_marks t m : wf m -> (AllTruths m <-> Marks t (SelObj m) (markOf m)).
Proof.
  intros W. split.
  - intros H i j v Hc. destruct (H i j v Hc) as [b B]. unfold markOf. rewrite Hc. rewrite (TruthOf_pyTruth v b B). exact B.
  - intros H i j v Hc. exists (markOf m i j). exact (H i j v Hc).
Qed.

Lemma checkMissing_spec (FO : FloatOracle floatOf) t m : wf t -> wf m -> sameShapeAs m t ->
  match checkMissing intOf floatOf strOf t m with
  | Ok _ => NonEmpty t /\ AllTruths m /\ NamesCovered (tp m) (tp t) /\ NamesCovered (tf m) (tf t) /\ MissingMarked t (markOf m)
  | Err e => (~ NonEmpty t /\ e = ImproperObjectAction) \/
      (NonEmpty t /\ ((~ AllTruths m /\ e = ImproperObjectAction) \/
        (AllTruths m /\ ((~ NamesAccepted Plain m t /\ e = InvalidArgumentValue) \/
          (NamesAccepted Plain m t /\ e = ImproperObjectAction /\
            (~ (NamesCovered (tp m) (tp t) /\ NamesCovered (tf m) (tf t)) \/ ~ MissingMarked t (markOf m)))))))
  end.
Proof.
  intros W Wm [S1 S2]. unfold checkMissing.
  pose proof (fullMatch_spec (fun v => Ok (PBool (missing v))) t W) as H.
  destruct (matchingElements intOf floatOf strOf t (F1 (fun v => Ok (PBool (missing v)))) None None) as [n|e].
  2:{ exfalso. destruct H as (v & _ & [H|(_ & x & Hx & K)]); [discriminate|]. injection Hx as <-. exact (K _ (TruthOf_bool _)). }
  destruct H as (Wn & (L1 & L2) & N1 & N2 & TN & MK). cbn [rbind].
  assert (MN : forall i j v, cell t i j = Some v -> markOf n i j = missing v).
  { intros i j v Hc. destruct (MK i j v Hc) as (x & Ex & T). injection Ex as <-. symmetry. exact (TruthOf_fun _ _ _ (TruthOf_bool _) T). }
  assert (ACC : NamesAccepted Plain m n <-> NamesAccepted Plain m t) by (unfold NamesAccepted; rewrite N1, N2; reflexivity).
  pose proof (logicalBinary_spec intOf floatOf strOf FO LOr m n Wm Wn) as H.
  destruct (logicalBinary intOf floatOf strOf LOr m (OBase n)) as [u|e].
  - destruct H as (_ & _ & P1 & P2 & TM & _ & A & Wu & U1 & U2 & R1 & R2 & C). cbn [rbind].
    assert (NE : NonEmpty t) by (split; congruence).
    rewrite N1 in R1. rewrite N2 in R2.
    destruct W as (Wa & Wb & I1 & I2). assert (W : wf t) by (repeat split; assumption).
    destruct Wm as (Ma & Mb & J1 & J2). assert (Wm : wf m) by (repeat split; assumption).
    pose proof (covered_result (tp m) (tp t) _ J1 I1 S1 R1) as Q1. pose proof (covered_result (tf m) (tf t) _ J2 I2 S2 R2) as Q2.
    assert (CE : (forall i j x y, cell u i j = Some x -> cell m i j = Some y -> sameOrNan x y = true) <-> MissingMarked t (markOf m)).
    { split.
      - intros H i j v Hc Hm. destruct (cell_range t i j v W Hc) as [Hi Hj].
        destruct (cell_some m i j Wm ltac:(congruence) ltac:(congruence)) as (y & Hy & _). destruct (cell_some n i j Wn ltac:(congruence) ltac:(congruence)) as (z & Hz & _).
        destruct (C i j y z Hy Hz) as (p & q & T1 & T2 & Hu). pose proof (H i j _ y Hu Hy) as E. apply (sameOrNan_bool _ _ _ T1) in E.
        pose proof (MN i j v Hc) as E2. unfold markOf in E2 |- *. rewrite Hz, (TruthOf_pyTruth _ _ T2) in E2. rewrite Hy, (TruthOf_pyTruth _ _ T1).
        replace (missing v) with true in E2 by (symmetry; apply missing_spec; destruct Hm; auto). subst q. cbn in E. destruct p; congruence.
      - intros H i j x y Hu Hy. destruct (cell_range m i j y Wm Hy) as [Hi Hj].
        destruct (cell_some n i j Wn ltac:(congruence) ltac:(congruence)) as (z & Hz & _). destruct (cell_some t i j W ltac:(congruence) ltac:(congruence)) as (v & Hc & _).
        destruct (C i j y z Hy Hz) as (p & q & T1 & T2 & Hu'). rewrite Hu in Hu'. injection Hu' as ->. apply (sameOrNan_bool _ _ _ T1).
        pose proof (MN i j v Hc) as E2. unfold markOf in E2. rewrite Hz, (TruthOf_pyTruth _ _ T2) in E2. subst q. destruct (missing v) eqn:E; [|destruct p; reflexivity].
        pose proof (H i j v Hc) as K. unfold markOf in K. rewrite Hy, (TruthOf_pyTruth _ _ T1) in K. rewrite K; [reflexivity|]. apply missing_spec in E. destruct E; [right|left]; assumption. }
    pose proof (isIdentical_spec pval sameOrNan IdentModel.KList IdentModel.KList u m Wu Wm) as ID.
    destruct (isIdentical sameOrNan IdentModel.KList IdentModel.KList u m).
    + destruct (proj1 ID eq_refl) as (_ & _ & _ & D1 & D2 & D3). split; [exact NE|]. split; [exact TM|]. split; [apply Q1; exact D1|]. split; [apply Q2; exact D2|]. apply CE. exact D3.
    + right. split; [exact NE|]. right. split; [exact TM|]. right. split; [apply ACC; exact A|]. split; [reflexivity|].
      destruct (Sumbool.sumbool_of_bool (IdentModel.equalNames (getNamesNoGeneration (tp u)) (getNamesNoGeneration (tp m)))) as [X1|X1].
      * destruct (Sumbool.sumbool_of_bool (IdentModel.equalNames (getNamesNoGeneration (tf u)) (getNamesNoGeneration (tf m)))) as [X2|X2].
        -- right. intros MM. assert (F : false = true); [|discriminate]. apply ID. split; [reflexivity|]. split; [exact U1|]. split; [exact U2|].
           destruct Wu as (_ & _ & K1 & K2). apply (equalNames_spec _ _ K1 J1 U1) in X1. apply (equalNames_spec _ _ K2 J2 U2) in X2. split; [exact X1|]. split; [exact X2|]. apply CE. exact MM.
        -- left. intros [C1 C2]. apply Q2 in C2. destruct Wu as (_ & _ & K1 & K2). apply (equalNames_spec _ _ K2 J2 U2) in C2. congruence.
      * left. intros [C1 C2]. apply Q1 in C1. destruct Wu as (_ & _ & K1 & K2). apply (equalNames_spec _ _ K1 J1 U1) in C1. congruence.
  - cbn [rbind]. destruct H as [[H _]|(_ & _ & H)]; [exfalso; destruct H; congruence|].
    destruct H as [[H ->]|(P1 & P2 & H)]; [left; split; [intros [A B]; destruct H; lia|reflexivity]|].
    right. split; [split; congruence|]. destruct H as [[H ->]|(TM & _ & NA & ->)].
    + left. split; [|reflexivity]. destruct H; [assumption|contradiction].
    + right. split; [exact TM|]. left. split; [|reflexivity]. intros X. apply NA, ACC. exact X.
Qed.

Lemma maskBools_wf m : wf m -> wf (maskBools m).
Proof.
  intros (A & B & C & D). split; [cbn; rewrite map_length; exact A|]. split; [|split; assumption]. cbn. intros r Hr. apply in_map_iff in Hr. destruct Hr as (x & <- & Hx).
  rewrite map_length. exact (B x Hx).
Qed.
Lemma maskBools_cell m i j : cell (maskBools m) i j = option_map pyTruth (cell m i j).
Proof.
  unfold cell, maskBools. cbn [rows]. rewrite nth_error_map_eq. destruct (nth_error (rows m) i); [|reflexivity]. cbn [option_map]. rewrite nth_error_map_eq. reflexivity.
Qed.

Lemma blank_spec t m c : wf t -> wf m -> sameShapeAs m t -> NonEmpty t -> copyTable t = Ok c ->
  exists u, fillMatching Fts (fillConstant PNaN) (MMatrix (maskBools m)) LAll c = (u, Ok tt) /\ Blanked t (markOf m) u.
Proof.
  intros W Wm [S1 S2] [P1 P2] EC. destruct (copyTable_spec pval t W) as (c' & EC' & Wc & Rc & A1 & A2 & A3 & A4). rewrite EC in EC'. injection EC' as <-.
  assert (CC : forall i j, cell c i j = cell t i j) by (intros; unfold cell; rewrite Rc; reflexivity).
  assert (SH : sameShape (MMatrix (maskBools m)) c) by (split; [apply maskBools_wf; exact Wm|cbn; split; congruence]).
  pose proof (fillMatching_matrix_spec pval Fts (fillConstant PNaN) (maskBools m) LAll None c Wc SH ltac:(congruence) ltac:(congruence) (conj Logic.I Logic.I)) as H.
  destruct (fillMatching Fts (fillConstant PNaN) (MMatrix (maskBools m)) LAll c) as [u [[]|e]]; unfold FillOutcome in H; cbn [fst snd] in H.
  - exists u. split; [reflexivity|]. destruct H as (Wu & U1 & U2 & H). split; [exact Wu|]. split; [split; congruence|]. split; [congruence|]. split; [congruence|].
    intros i j v Hv. destruct (cell_range t i j v W Hv) as [Hi Hj]. rewrite <- CC in Hv.
    assert (HJ : j < alen (ax Fts c)) by (cbn; congruence). pose proof (vec_nth pval Fts c j Wc HJ) as Hvec.
    destruct (H j _ Hvec) as [H1 _]. destruct (H1 HJ Logic.I) as (mk & w & Hmk & Hf & Hw). cbn [maskOf] in Hmk.
    pose proof (vector_len pval Fts c j _ Wc Hvec) as L1. pose proof (vector_len bool Fts _ j _ (maskBools_wf m Wm) Hmk) as L2. cbn [offax] in L1, L2. change (tp (maskBools m)) with (tp m) in L2.
    destruct (fillConstant_spec pval PNaN (vec Fts c j) mk ltac:(congruence)) as (out & Eo & _ & Fo). rewrite Hf in Eo. injection Eo as <-.
    pose proof (vectors_cell pval Fts c j _ i Wc Hvec) as V1. cbn in V1. rewrite Hv in V1. specialize (Fo i v V1).
    pose proof (vectors_cell bool Fts _ j _ i (maskBools_wf m Wm) Hmk) as V2. cbn in V2. rewrite maskBools_cell in V2.
    pose proof (vectors_cell pval Fts u j _ i Wu Hw) as V3. cbn in V3. rewrite V2 in Fo. unfold markOf. rewrite <- V3.
    destruct (cell_some m i j Wm ltac:(congruence) ltac:(congruence)) as (y & Hy & _). rewrite Hy in Fo |- *. cbn [option_map] in Fo.
    destruct (pyTruth y); [|exact Fo]. destruct Fo as (x & Hx & ->). exact Hx.
  - exfalso. destruct H as (k & v & mk & (Wu & U1 & U2 & _) & Hv & _ & Hm & H). cbn [maskOf] in Hm.
    pose proof (vector_len pval Fts c k _ Wc Hv) as L1. pose proof (vector_len bool Fts _ k _ (maskBools_wf m Wm) Hm) as L2. cbn [offax] in L1, L2. change (tp (maskBools m)) with (tp m) in L2.
    destruct (fillConstant_spec pval PNaN v mk ltac:(congruence)) as (out & Eo & Lo & _). destruct H as [H|(_ & w & H & L)]; [congruence|].
    rewrite H in Eo. injection Eo as ->. apply L. cbn. congruence.
Qed.
Lemma blank_empty t m c : wf t -> ~ NonEmpty t -> copyTable t = Ok c ->
  snd (fillMatching Fts (fillConstant PNaN) (MMatrix (maskBools m)) LAll c) = Err ImproperObjectAction.
Proof.
  intros W NE EC. destruct (copyTable_spec pval t W) as (c' & EC' & Wc & Rc & A1 & A2 & _). rewrite EC in EC'. injection EC' as <-.
  unfold fillMatching. replace ((alen (tp c) =? 0) || (alen (tf c) =? 0)) with true; [reflexivity|]. symmetry. apply Bool.orb_true_iff. rewrite !Nat.eqb_eq.
  destruct (alen (tp c)) eqn:E1; [auto|]. destruct (alen (tf c)) eqn:E2; [auto|]. exfalso. apply NE. split; rewrite <- ?A1, <- ?A2; lia.
Qed.

Definition selWf (sel : selector) : Prop := match sel with SelObj m => wf m | SelFun _ => True end.
Lemma matrix_spec (FO : FloatOracle floatOf) t sel : wf t -> selWf sel ->
  match (mc <- matchMatrix intOf floatOf strOf t sel ;; _ <- (if snd mc : bool then checkMissing intOf floatOf strOf t (fst mc) else Ok tt) ;; Ok (fst mc)) with
  | Ok m => wf m /\ sameShapeAs m t /\ ((NonEmpty t /\ Accepts t sel (markOf m)) \/ (~ NonEmpty t /\ Refuses t sel ImproperObjectAction))
  | Err e => Refuses t sel e
  end.
Proof.
  intros W Ws. unfold matchMatrix. destruct sel as [f|m].
  - pose proof (fullMatch_spec f t W) as H. destruct (matchingElements intOf floatOf strOf t (F1 f) None None) as [m|e].
    2:{ cbn [rbind]. destruct H as (v & Hc & [H|(-> & x & Hx & K)]); [exact (ref_fun t f v e Hc H)|exact (ref_fun_value t f v x Hc Hx K)]. }
    destruct H as (Wm & SH & N1 & N2 & TM & MK). cbn [rbind]. destruct (f PNaN) as [r|e] eqn:EN; cbn [rbind fst snd].
    2:{ exact (ref_fun_nan t f _ e MK EN). }
    assert (NEd : NonEmpty t \/ ~ NonEmpty t) by (unfold NonEmpty; lia).
    destruct (pyTruth r) eqn:ET; cbn [negb rbind].
    + apply pyTruth_Truthy in ET. split; [exact Wm|]. split; [exact SH|]. destruct NEd as [NE|NE].
      * left. split; [exact NE|]. split; [exact NE|]. split; [exact MK|]. exists r. auto.
      * right. split; [exact NE|]. exact (ref_fun_empty t f r NE EN).
    + assert (NT : ~ Truthy r) by (intros K; apply pyTruth_Truthy in K; congruence).
      pose proof (checkMissing_spec FO t m W Wm SH) as H. destruct (checkMissing intOf floatOf strOf t m) as [[]|e]; cbn [rbind].
      * destruct H as (NE & _ & _ & _ & MM). split; [exact Wm|]. split; [exact SH|]. left. split; [exact NE|]. split; [exact NE|]. split; [exact MK|]. exists r. auto.
      * assert (CV : NamesCovered (tp m) (tp t) /\ NamesCovered (tf m) (tf t)) by (split; intros i s; rewrite ?N1, ?N2; auto).
        destruct H as [(NE & ->)|(NE & [(K & _)|(_ & [(K & _)|(_ & -> & [K|K])])])].
        -- exact (ref_fun_empty t f r NE EN).
        -- contradiction.
        -- exfalso. apply K. left. destruct W as (_ & _ & I1 & I2). rewrite N1, N2.
           split; (split; [intros i x y Hx Hy; congruence|]); [exact (names_Distinct (tp t) I1)|exact (names_Distinct (tf t) I2)].
        -- contradiction.
        -- exact (ref_fun_missing t f _ r MK EN NT K).
  - destruct (Nat.eqb_spec (alen (tp m)) (alen (tp t))) as [E1|E1]; cbn [andb].
    2:{ cbn [rbind]. apply ref_obj_shape. intros [? ?]. contradiction. }
    destruct (Nat.eqb_spec (alen (tf m)) (alen (tf t))) as [E2|E2]; cbn [andb rbind].
    2:{ apply ref_obj_shape. intros [? ?]. contradiction. }
    assert (SH : sameShapeAs m t) by (split; assumption). cbn [fst snd].
    pose proof (checkMissing_spec FO t m W Ws SH) as H. destruct (checkMissing intOf floatOf strOf t m) as [[]|e]; cbn [rbind].
    + destruct H as (NE & TM & C1 & C2 & MM). split; [exact Ws|]. split; [exact SH|]. left. split; [exact NE|]. split; [exact NE|].
      split; [apply AllTruths_marks; assumption|]. auto.
    + destruct H as [(NE & ->)|(NE & [(K & ->)|(TM & [(K & ->)|(A & -> & [K|K])])])].
      * exact (ref_obj_empty t m SH NE).
      * exact (ref_obj_values t m SH NE K).
      * exact (ref_obj_names t m SH NE TM K).
      * exact (ref_obj_uncovered t m SH NE TM A K).
      * exact (ref_obj_missing t m _ SH (proj1 (AllTruths_marks t m Ws) TM) K).
Qed.

Lemma transformF3_spec t g points features ps fs : wf t -> limitDenotes (tp t) points ps -> limitDenotes (tf t) features fs ->
  let res := transformElements t (F3 g) points features false false in
  tp (fst res) = tp t /\ tf (fst res) = tf t /\ wf (fst res) /\
  match snd res with
  | Ok _ => forall i j v, cell t i j = Some v ->
      (addressed ps fs i j -> exists w, g v i j = Ok w /\ cell (fst res) i j = Some w) /\ (~ addressed ps fs i j -> cell (fst res) i j = Some v)
  | Err e => exists a b u, cell t a b = Some u /\ addressed ps fs a b /\ g u a b = Err e
  end.
Proof.
  intros W HP HF. pose proof W as [W1 [W2 [W3 W4]]]. unfold transformElements. rewrite (resolve_denotes _ _ _ W3 HP), (resolve_denotes _ _ _ W4 HF).
  set (ids := list_prod (seq 0 (alen (tp t))) (seq 0 (alen (tf t)))).
  assert (SS : Sorted.StronglySorted before ids) by (apply list_prod_sorted; apply seq_sorted').
  assert (IN : forall i j, In (i, j) ids <-> i < alen (tp t) /\ j < alen (tf t)) by (intros i j; unfold ids; rewrite in_prod_iff, !in_seq; lia).
  assert (VG : forall v i j, validated false false (F3 g) v i j = g v i j) by (intros v i j; unfold validated; cbn; destruct (g v i j) as [[]|]; reflexivity).
  pose proof (elementLoop_spec (validated false false (F3 g)) ps fs ids t W (sorted_NoDup _ SS)) as H. cbn zeta in H |- *.
  specialize (H (fun p => match p with (i, j) => fun Hp => proj1 (IN i j) Hp end)). destruct H as [P1 [P2 [P3 P4]]].
  split; [exact P1|]. split; [exact P2|]. split; [exact P3|].
  destruct (snd (elementLoop (validated false false (F3 g)) ps fs ids t)) as [u|e].
  - intros i j v Hc. pose proof (cell_range t i j v W Hc) as HR. apply IN in HR. destruct (P4 i j) as [D1 D2]. split.
    + intros A. destruct (D1 HR A) as [v' [w [C1 [C2 C3]]]]. exists w. rewrite VG in C2. split; [congruence|exact C3].
    + intros A. rewrite D2; [exact Hc|tauto].
  - destruct P4 as [pre [a [b [post [u [_ [_ [A [C K]]]]]]]]]. exists a, b, u. rewrite VG in K. auto.
Qed.
Lemma learnerFill_spec (FO : FloatOracle floatOf) fit t sel points features ps fs : wf t -> selWf sel ->
  (forall u x, fit u = Ok x -> wf x) ->
  limitDenotes (tp t) points ps -> limitDenotes (tf t) features fs ->
  let res := learnerFill intOf floatOf strOf fit t sel points features in
  (exists M u, Accepts t sel M /\ Blanked t M u /\
     match fit u with
     | Err e => res = (t, Err e)
     | Ok filled =>
         match snd res with
         | Ok _ => FilledFrom t M ps fs filled (fst res)
         | Err e => e = IndexErr /\ exists i j, M i j = true /\ addressed ps fs i j /\ i < alen (tp t) /\ j < alen (tf t) /\ cell filled i j = None
         end
     end) \/
  (exists e, Refuses t sel e /\ res = (t, Err e)).
Proof.
  intros W Ws WF D1 D2 res. unfold res, learnerFill. pose proof (matrix_spec FO t sel W Ws) as H.
  destruct (mc <- matchMatrix intOf floatOf strOf t sel ;; _ <- (if snd mc : bool then checkMissing intOf floatOf strOf t (fst mc) else Ok tt) ;; Ok (fst mc)) as [m|e].
  2:{ right. exists e. split; [exact H|reflexivity]. }
  destruct H as (Wm & SH & H). destruct (copyTable_spec pval t W) as (c & EC & _). rewrite EC.
  destruct H as [(NE & A)|(NE & R)].
  2:{ right. exists ImproperObjectAction. split; [exact R|]. pose proof (blank_empty t m c W NE EC) as B. destruct (fillMatching _ _ _ _ _) as [u r]. cbn in B. subst r. reflexivity. }
  left. destruct (blank_spec t m c W Wm SH NE EC) as (u & -> & B). exists (markOf m), u. split; [exact A|]. split; [exact B|].
  destruct (fit u) as [filled|e] eqn:EF; [|reflexivity]. pose proof (WF u filled EF) as Wfi.
  set (g := fun v i j => b <- elementAt m i j ;; if pyTruth b then elementAt filled i j else Ok v).
  assert (G : forall v i j, cell t i j = Some v -> g v i j = if markOf m i j then match cell filled i j with Some w => Ok w | None => Err IndexErr end else Ok v).
  { intros v i j Hc. destruct (cell_range t i j v W Hc) as [Hi Hj]. destruct SH as [S1 S2]. unfold g, markOf. rewrite elementAt_cell by exact Wm.
    destruct (cell_some m i j Wm ltac:(congruence) ltac:(congruence)) as (y & -> & _). cbn [rbind]. rewrite elementAt_cell by exact Wfi. reflexivity. }
  pose proof (transformF3_spec t g points features ps fs W D1 D2) as H. cbn zeta in H.
  destruct (transformElements t (F3 g) points features false false) as [t' [[]|e]]; cbn [fst snd] in *; destruct H as (T1 & T2 & Wt & H).
  - split; [exact T1|]. split; [exact T2|]. split; [exact Wt|]. intros i j v Hc. destruct (H i j v Hc) as [HA HN]. rewrite (G v i j Hc) in HA.
    assert (DEC : addressed ps fs i j \/ ~ addressed ps fs i j).
    { unfold addressed. destruct (outside ps i) eqn:X; destruct (outside fs j) eqn:Y; apply outside_chosen in X, Y; tauto. }
    split.
    + intros [HM HD]. rewrite HM in HA. destruct (HA HD) as (w & E & Hw). exists w. destruct (cell filled i j); [|discriminate]. injection E as ->. auto.
    + intros HM. destruct DEC as [HD|HD]; [|exact (HN HD)]. destruct HM as [HM|HM]; [|contradiction]. rewrite HM in HA. destruct (HA HD) as (w & E & Hw). injection E as ->. exact Hw.
  - destruct H as (i & j & v & Hc & HA & E). rewrite (G v i j Hc) in E. destruct (cell_range t i j v W Hc) as [Hi Hj].
    destruct (markOf m i j) eqn:EM; [|discriminate]. destruct (cell filled i j) eqn:EC'; [discriminate|]. injection E as <-. split; [reflexivity|]. exists i, j. do 4 (split; [assumption|]). exact EC'.
Qed.

(** Whatever is given, a call that raises leaves the data as it was - if the
    learner keeps the shape. *)
Lemma learnerFill_atomic fit t sel points features e : wf t -> selWf sel -> FloatOracle floatOf ->
  (forall u x, fit u = Ok x -> wf x /\ sameShapeAs x u) ->
  snd (learnerFill intOf floatOf strOf fit t sel points features) = Err e ->
  fst (learnerFill intOf floatOf strOf fit t sel points features) = t.
Proof.
  intros W Ws FO HF. pose proof W as (_ & _ & I1 & I2).
  assert (DN : forall a o, Inv a -> (exists l, resolve a o = Ok l /\ limitDenotes a o l) \/ exists x, resolve a o = Err x).
  { intros a o Ia. destruct o as [ids|]; [|left; exists None; split; [reflexivity|exact Logic.I]]. cbn [resolve]. destruct (constructIndices a ids) as [l|x] eqn:E; [|right; exists x; reflexivity].
    left. exists (Some l). split; [reflexivity|]. cbn. apply TablePermProofs.constructIndices_Denotes; assumption. }
  destruct (DN (tp t) points I1) as [(ps & _ & D1)|(x & X)].
  1: destruct (DN (tf t) features I2) as [(fs & _ & D2)|(x & X)].
  - pose proof (learnerFill_spec FO fit t sel points features ps fs W Ws (fun u x E => proj1 (HF u x E)) D1 D2) as H. cbn zeta in H.
    destruct H as [(M & u & _ & B & H)|(x & _ & H)]; [|rewrite H; reflexivity].
    destruct (fit u) as [filled|x] eqn:EF; [|rewrite H; reflexivity]. intros E. rewrite E in H. exfalso. destruct H as (_ & i & j & _ & _ & Hi & Hj & HN).
    destruct (HF u filled EF) as [Wf [S1 S2]]. destruct B as (_ & (B1 & B2) & _). destruct (cell_some filled i j Wf ltac:(congruence) ltac:(congruence)) as (v & Hv & _). congruence.
  - intros _. unfold learnerFill. destruct (rbind _ _); [|reflexivity]. destruct (copyTable t); [|reflexivity]. destruct (fillMatching _ _ _ _ _) as [u [|]]; [|reflexivity].
    destruct (fit u); [|reflexivity]. unfold transformElements. rewrite X. destruct (resolve (tp t) points); reflexivity.
  - intros _. unfold learnerFill. destruct (rbind _ _); [|reflexivity]. destruct (copyTable t); [|reflexivity]. destruct (fillMatching _ _ _ _ _) as [u [|]]; [|reflexivity].
    destruct (fit u); [|reflexivity]. unfold transformElements. rewrite X. reflexivity.
Qed.
End P.
