(** Proofs for binary operators: the operators themselves (C17) and abs (C18). *)
From Verif Require Import Base NamesModel NamesSpec NamesProofs TableModel TableSpec TableProofs TableOps MatchModel MatchSpec MatchProofs
  ElementsModel ElementsSpec ElementsProofs ElementsCalcProofs BinOpModel BinOpSpec BinOpProofs.
From Coq Require Import QArith Qabs.
Open Scope nat_scope.

Section Main.
Variable floatOf : string -> option pval.
Hypothesis FO : FloatOracle floatOf.
Variable npArith : arith -> bool -> dtype -> option dtype -> pval -> pval -> result pval.

Lemma toNumeric_zero pow v v' v'' : toNumeric floatOf pow v = Ok v' -> AsNumber floatOf v v'' -> Same v'' (PInt 0) -> Same v' (PInt 0).
Proof.
  intros H A S0. inversion A as [x N|x q q' N E|s x E]; subst.
  - destruct v''; cbn in H; try discriminate N; try (injection H as <-; exact S0).
    + destruct pow; injection H as <-; [|exact S0]. inversion S0 as [x y p q X Y E| | | |]; subst. eapply same_num; [constructor|exact Y|]. inversion X; subst. exact E.
    + destruct pow; injection H as <-; [|exact S0]. inversion S0 as [x y p q X Y E| | | |]; subst. eapply same_num; [constructor|exact Y|]. inversion X; subst. exact E.
  - inversion S0 as [x y p r X Y E0| | | |]; subst. inversion X; subst. inversion Y; subst.
    assert (E1 : (q == inject_Z 0)%Q) by (rewrite E; exact E0).
    inversion N; subst; cbn in H; try destruct pow; injection H as <-; eapply same_num; try constructor; exact E1.
  - cbn in H. rewrite E in H. injection H as <-. exact S0.
Qed.
Lemma zeroTest_spec f o a m b : wf a ->
  (forall i j v, cell a i j = Some v -> exists v', cell (withRows a m) i j = Some v' /\ toNumeric floatOf (isPow o) v = Ok v') -> wf (withRows a m) ->
  (if isReflected f then containsZero m else containsZero (rows b)) = true <-> ZeroDivisor floatOf f a b.
Proof.
  intros W C W'. destruct f; cbn [isReflected ZeroDivisor]; try apply hasZero_spec.
  change m with (rows (withRows a m)). rewrite hasZero_spec. split.
  - intros [i [j [v' [H1 H2]]]]. destruct (cell_range _ i j v' W' H1) as [R1 R2]. destruct (cell_some a i j W R1 R2) as [v [A _]].
    destruct (C i j v A) as [w [B D]]. assert (w = v') by congruence. subst w. exists i, j, v, v'. split; [exact A|]. split; [exact (toNumeric_ok _ _ _ _ D)|exact H2].
  - intros [i [j [v [v' [A [B D]]]]]]. destruct (C i j v A) as [w [E F]]. exists i, j, w. split; [exact E|]. exact (toNumeric_zero _ _ _ _ F B D).
Qed.
(** the numeric part, once both operands are converted *)
Lemma applyOp_spec f o a b ma mb : wf a -> wf b -> alen (tp a) = alen (tp b) -> alen (tf a) = alen (tf b) -> 0 < alen (tp a) -> 0 < alen (tf a) ->
  wf (withRows a ma) -> (forall i j v, cell a i j = Some v -> exists v', cell (withRows a ma) i j = Some v' /\ toNumeric floatOf (isPow o) v = Ok v') ->
  wf (withRows b mb) -> (forall i j v, cell b i j = Some v -> exists v', cell (withRows b mb) i j = Some v' /\ toNumeric floatOf (isPow o) v = Ok v') ->
  match applyOp npArith f o (withRows a ma) (OBase (withRows b mb)) with
  | Ok c => shape c (alen (tp a)) (alen (tf a)) /\ forall pa fa, ValuesCombined floatOf npArith o f a b (mkTable pa fa c)
  | Err e => ValueFails floatOf npArith o f a b e
  end.
Proof.
  intros WA WB LP LF P0 F0 WA' CA WB' CB. unfold applyOp. change (rows (withRows a ma)) with ma. change (rows (withRows b mb)) with mb.
  pose proof (ArrayType_ok floatOf FO _ _ _ WA P0 F0 WA' CA) as TA. assert (P1 : 0 < alen (tp b)) by lia. assert (F1 : 0 < alen (tf b)) by lia.
  pose proof (ArrayType_ok floatOf FO _ _ _ WB P1 F1 WB' CB) as TB.
  destruct (numpyRows_spec (withRows a ma) WA') as [NA CNA]. destruct (numpyRows_spec (withRows b mb) WB') as [NB CNB].
  change (rows (withRows a ma)) with ma in *. change (rows (withRows b mb)) with mb in *.
  pose proof (shapeOf _ NA) as SA. pose proof (shapeOf _ NB) as SB. cbn [rows tp tf withRows] in SA, SB. rewrite <- LP, <- LF in SB.
  pose proof (zipRows_spec (npArith o (isReflected f) (dtypeOf ma) (Some (dtypeOf mb))) _ _ _ _ SA SB) as H.
  assert (ANA : forall i j x, cell a i j = Some x -> exists x', mcell (numpyRows ma) i j = Some x' /\ AsNumber floatOf x x').
  { intros i j x Hx. destruct (CA i j x Hx) as [y [Y1 Y2]]. destruct (CNA i j y Y1) as [z [Z1 Z2]]. exists z. split; [exact Z1|]. apply (AsNumber_store floatOf FO _ y); [exact (toNumeric_ok _ _ _ _ Y2)|exact Z2]. }
  assert (ANB : forall i j x, cell b i j = Some x -> exists x', mcell (numpyRows mb) i j = Some x' /\ AsNumber floatOf x x').
  { intros i j x Hx. destruct (CB i j x Hx) as [y [Y1 Y2]]. destruct (CNB i j y Y1) as [z [Z1 Z2]]. exists z. split; [exact Z1|]. apply (AsNumber_store floatOf FO _ y); [exact (toNumeric_ok _ _ _ _ Y2)|exact Z2]. }
  destruct (zipRows _ _ _) as [c|e].
  - destruct H as [SC HC]. split; [exact SC|]. intros pa fa. exists (dtypeOf ma), (dtypeOf mb). split; [exact TA|]. split; [exact TB|].
    intros i j x y Hx Hy. destruct (ANA i j x Hx) as [x' [X1 X2]]. destruct (ANB i j y Hy) as [y' [Y1 Y2]]. destruct (HC i j x' y' X1 Y1) as [w [W1 W2]]. exists x', y', w. auto.
  - destruct H as [i [j [x' [y' [X1 [Y1 G]]]]]]. destruct (mcell_range _ _ _ _ _ _ SA X1) as [R1 R2].
    destruct (cell_some a i j WA R1 R2) as [x [Hx _]]. rewrite LP in R1. rewrite LF in R2. destruct (cell_some b i j WB R1 R2) as [y [Hy _]].
    destruct (ANA i j x Hx) as [x2 [X2 AX]]. destruct (ANB i j y Hy) as [y2 [Y2 AY]]. assert (x2 = x') by congruence. assert (y2 = y') by congruence. subst x2 y2.
    exists (dtypeOf ma), (dtypeOf mb), i, j, x, y, x', y'. auto 10.
Qed.
Lemma AfterFailure_self f a m : (forall i j v, cell a i j = Some v -> exists v', cell (withRows a m) i j = Some v' /\ AsNumber floatOf v v') ->
  AfterFailure floatOf f a (if isInPlace f then withRows a m else a).
Proof.
  intros C. destruct f; cbn [isInPlace]; (split; [intros N; try reflexivity; congruence|]; split; [reflexivity|]; split; [reflexivity|]; intros i j v Hv).
  1,2: exists v; auto. destruct (C i j v Hv) as [v' [A B]]. exists v'. auto.
Qed.
Lemma ResultNames_yes l r res : NamesConsistent l r -> res = combined l r -> ResultNames l r res.
Proof. intros C E. split; [auto|]. intros N. contradiction. Qed.
Lemma ResultNames_no l r n : ~ NamesConsistent l r -> List.length l = n -> ResultNames l r (getNames (mkAxis n None)).
Proof. intros C E. split; [intros N; contradiction|]. intros _. rewrite getNames_fresh, E. reflexivity. Qed.
Lemma binaryOp_spec f o a b : wf a -> wf b -> alen (tp a) = alen (tp b) -> alen (tf a) = alen (tf b) -> 0 < alen (tp a) -> 0 < alen (tf a) ->
  AllNumeric floatOf a -> AllNumeric floatOf b ->
  match binaryOp floatOf npArith f o a (OBase b) with
  | (a', Ok r) => NamesAccepted f a b /\ ~ (isDivMod o = true /\ ZeroDivisor floatOf f a b) /\
      wf r /\ alen (tp r) = alen (tp a) /\ alen (tf r) = alen (tf a) /\
      ResultNames (getNames (tp a)) (getNames (tp b)) (getNames (tp r)) /\ ResultNames (getNames (tf a)) (getNames (tf b)) (getNames (tf r)) /\
      ValuesCombined floatOf npArith o f a b r /\ a' = (match f with InPlace => r | _ => a end)
  | (a', Err e) => AfterFailure floatOf f a a' /\
      ((e = ZeroDiv /\ isDivMod o = true /\ ZeroDivisor floatOf f a b) \/
       (e = InvalidArgumentValue /\ ~ NamesAccepted f a b) \/
       (NamesAccepted f a b /\ ValueFails floatOf npArith o f a b e))
  end.
Proof.
  intros WA WB LP LF P0 F0 NA NB. unfold binaryOp.
  destruct (numericRows_spec floatOf (isPow o) ImproperObjectAction a WA) as [[m [E [_ [WM CM]]]]|[_ N]]; [|contradiction]. rewrite E.
  assert (AF : AfterFailure floatOf f a (if isInPlace f then withRows a m else a)).
  { apply AfterFailure_self. intros i j v Hv. destruct (CM i j v Hv) as [v' [A B]]. exists v'. split; [exact A|exact (toNumeric_ok _ _ _ _ B)]. }
  set (failed := if isInPlace f then withRows a m else a) in *.
  assert (SV : sizeValidation (withRows a m) b = Ok tt).
  { unfold sizeValidation. cbn [tp tf withRows]. rewrite LP, LF, !Nat.eqb_refl. cbn [andb negb]. destruct (Nat.eqb_spec (alen (tp b)) 0); [lia|]. destruct (Nat.eqb_spec (alen (tf b)) 0); [lia|]. reflexivity. }
  unfold binaryValidation. rewrite SV. cbn [rbind].
  pose proof (zeroTest_spec f o a m b WA CM WM) as ZT. cbn [rows withRows] in *.
  destruct (isDivMod o) eqn:ED; [destruct (if isReflected f then containsZero m else containsZero (rows b)) eqn:EZ|].
  { cbn [rbind]. split; [exact AF|]. left. split; [reflexivity|]. split; [reflexivity|]. apply ZT. reflexivity. }
  all: cbn [rbind].
  1: assert (ND : ~ (true = true /\ ZeroDivisor floatOf f a b)) by (intros [_ C]; apply ZT in C; discriminate C).
  2: assert (ND : ~ (false = true /\ ZeroDivisor floatOf f a b)) by (intros [C _]; discriminate C).
  all: clear ZT; try clear EZ; clear ED; unfold binaryAxisNames; cbn [tp tf withRows];
    pose proof WA as [_ [_ [IPa IFa]]]; pose proof WB as [_ [_ [IPb IFb]]];
    destruct (numericRows_spec floatOf (isPow o) InvalidArgumentValue b WB) as [[mb [EB [_ [WMB CMB]]]]|[_ N]]; [|contradiction];
    pose proof (applyOp_spec f o a b m mb WA WB LP LF P0 F0 WM CM WMB CMB) as AP;
    destruct (validateEqualNames_spec _ _ IFa IFb LF) as [[EF CF]|[EF CF]]; rewrite EF; cbn [rbind];
    destruct (validateEqualNames_spec _ _ IPa IPb LP) as [[EP CP]|[EP CP]]; rewrite EP.
  (* eight cases: (div/mod or not) x features x points *)
  1,5: (* all consistent *)
    cbn [rbind negb andb]; rewrite EB; cbn [rbind andb negb fst snd];
    (assert (ACC : NamesAccepted f a b) by (destruct f; cbn; auto));
    destruct (applyOp npArith f o (withRows a m) (OBase (withRows b mb))) as [c|e]; cbn [rbind];
    [destruct AP as [SC VC]; destruct (mergedAxis _ _ IPa IPb LP CP) as [xp [Xp [Lp [Ip Gp]]]]; destruct (mergedAxis _ _ IFa IFb LF CF) as [xf [Xf [Lf [If Gf]]]];
     rewrite Xp; cbn [rbind]; rewrite Xf; cbn [rbind]; split; [exact ACC|]; split; [exact ND|]; split;
     [destruct SC as [S1 S2]; split; [cbn; rewrite Lp; exact S1|]; split; [cbn; rewrite Lf; exact S2|]; split; assumption|];
     split; [exact Lp|]; split; [exact Lf|]; split; [apply ResultNames_yes; assumption|]; split; [apply ResultNames_yes; assumption|]; split; [apply VC|destruct f; reflexivity]
    |split; [exact AF|]; right; right; split; [exact ACC|exact AP]].
  1,4: (* features consistent, points not *)
    destruct (isInPlace f) eqn:EI; cbn [rbind negb andb];
    [split; [exact AF|]; right; left; split; [reflexivity|]; destruct f; try discriminate EI; intros [C _]; contradiction|];
    rewrite EB; cbn [rbind]; destruct (axisNamesDisjoint_spec (tp a) (tp b)) as [[DE D]|[DE D]]; rewrite DE; cbn [rbind fst snd];
    [|split; [exact AF|]; right; left; split; [reflexivity|]; destruct f; try discriminate EI; intros [[C _]|[[C _]|[_ C]]]; contradiction];
    (assert (ACC : NamesAccepted f a b) by (destruct f; try discriminate EI; cbn; auto));
    destruct (applyOp npArith f o (withRows a m) (OBase (withRows b mb))) as [c|e]; cbn [rbind];
    [destruct AP as [SC VC]; destruct (mergedAxis _ _ IFa IFb LF CF) as [xf [Xf [Lf [If Gf]]]];
     rewrite namedAxis_None; cbn [rbind]; rewrite Xf; cbn [rbind]; split; [exact ACC|]; split; [exact ND|]; split;
     [destruct SC as [S1 S2]; split; [exact S1|]; split; [cbn; rewrite Lf; exact S2|]; split; [exact I|assumption]|];
     split; [reflexivity|]; split; [exact Lf|]; split; [apply ResultNames_no; [assumption|apply getNames_length; assumption]|]; split; [apply ResultNames_yes; assumption|]; split; [apply VC|destruct f; [reflexivity|reflexivity|discriminate EI]]
    |split; [exact AF|]; right; right; split; [exact ACC|exact AP]].
  1,3: (* points consistent, features not *)
    destruct (isInPlace f) eqn:EI; cbn [rbind negb andb];
    [split; [exact AF|]; right; left; split; [reflexivity|]; destruct f; try discriminate EI; intros [_ C]; contradiction|];
    rewrite EB; cbn [rbind]; destruct (axisNamesDisjoint_spec (tf a) (tf b)) as [[DE D]|[DE D]]; rewrite DE; cbn [rbind fst snd];
    [|split; [exact AF|]; right; left; split; [reflexivity|]; destruct f; try discriminate EI; intros [[_ C]|[[_ C]|[C _]]]; contradiction];
    (assert (ACC : NamesAccepted f a b) by (destruct f; try discriminate EI; cbn; auto));
    destruct (applyOp npArith f o (withRows a m) (OBase (withRows b mb))) as [c|e]; cbn [rbind];
    [destruct AP as [SC VC]; destruct (mergedAxis _ _ IPa IPb LP CP) as [xf [Xf [Lf [If Gf]]]];
     rewrite Xf; cbn [rbind]; rewrite namedAxis_None; cbn [rbind]; split; [exact ACC|]; split; [exact ND|]; split;
     [destruct SC as [S1 S2]; split; [cbn; rewrite Lf; exact S1|]; split; [exact S2|]; split; [assumption|exact I]|];
     split; [exact Lf|]; split; [reflexivity|]; split; [apply ResultNames_yes; assumption|]; split; [apply ResultNames_no; [assumption|apply getNames_length; assumption]|]; split; [apply VC|destruct f; [reflexivity|reflexivity|discriminate EI]]
    |split; [exact AF|]; right; right; split; [exact ACC|exact AP]].
  all: (* neither *)
    destruct (isInPlace f) eqn:EI; cbn [rbind negb andb]; (split; [exact AF|]; right; left; split; [reflexivity|]; destruct f; try discriminate EI; cbn; tauto).
Qed.

(** ** rejected operands *)
Lemma binaryOp_left f o a other : wf a -> ~ AllNumeric floatOf a -> binaryOp floatOf npArith f o a other = (a, Err ImproperObjectAction).
Proof.
  intros W N. unfold binaryOp. destruct (numericRows_spec floatOf (isPow o) ImproperObjectAction a W) as [[m [_ [A _]]]|[E _]]; [contradiction|]. rewrite E. reflexivity.
Qed.
Lemma binaryOp_size f o a b : wf a -> AllNumeric floatOf a -> (alen (tp a) <> alen (tp b) \/ alen (tf a) <> alen (tf b)) ->
  exists a', binaryOp floatOf npArith f o a (OBase b) = (a', Err InvalidArgumentValue) /\ AfterFailure floatOf f a a'.
Proof.
  intros W NA L. unfold binaryOp. destruct (numericRows_spec floatOf (isPow o) ImproperObjectAction a W) as [[m [E [_ [WM CM]]]]|[_ N]]; [|contradiction]. rewrite E.
  eexists. split; [|apply AfterFailure_self; intros i j v Hv; destruct (CM i j v Hv) as [v' [A B]]; exists v'; split; [exact A|exact (toNumeric_ok _ _ _ _ B)]].
  unfold binaryValidation, sizeValidation. cbn [tp tf withRows].
  assert ((alen (tp a) =? alen (tp b)) && (alen (tf a) =? alen (tf b)) = false) as ->.
  { apply andb_false_iff. destruct L as [L|L]; [left|right]; apply Nat.eqb_neq; exact L. }
  cbn [negb rbind]. reflexivity.
Qed.
Lemma binaryOp_empty f o a b : wf a -> AllNumeric floatOf a -> alen (tp a) = alen (tp b) -> alen (tf a) = alen (tf b) -> alen (tp a) = 0 \/ alen (tf a) = 0 ->
  exists a', binaryOp floatOf npArith f o a (OBase b) = (a', Err ImproperObjectAction) /\ AfterFailure floatOf f a a'.
Proof.
  intros W NA LP LF Z. unfold binaryOp. destruct (numericRows_spec floatOf (isPow o) ImproperObjectAction a W) as [[m [E [_ [WM CM]]]]|[_ N]]; [|contradiction]. rewrite E.
  eexists. split; [|apply AfterFailure_self; intros i j v Hv; destruct (CM i j v Hv) as [v' [A B]]; exists v'; split; [exact A|exact (toNumeric_ok _ _ _ _ B)]].
  unfold binaryValidation, sizeValidation. cbn [tp tf withRows]. rewrite LP, LF, !Nat.eqb_refl. cbn [andb negb].
  assert ((alen (tp b) =? 0) || (alen (tf b) =? 0) = true) as ->.
  { apply orb_true_iff. rewrite !Nat.eqb_eq. lia. }
  cbn [rbind]. reflexivity.
Qed.
Lemma binaryOp_right f o a b : wf a -> wf b -> AllNumeric floatOf a -> ~ AllNumeric floatOf b ->
  exists a' e, binaryOp floatOf npArith f o a (OBase b) = (a', Err e) /\ (e = InvalidArgumentValue \/ e = ImproperObjectAction \/ e = ZeroDiv) /\ AfterFailure floatOf f a a'.
Proof.
  intros W WB NA NB.
  assert (D : (alen (tp a) = alen (tp b) /\ alen (tf a) = alen (tf b)) \/ (alen (tp a) <> alen (tp b) \/ alen (tf a) <> alen (tf b))) by lia.
  destruct D as [[LP LF]|D].
  2:{ destruct (binaryOp_size f o a b W NA D) as [a' [E H]]. exists a', InvalidArgumentValue. auto. }
  assert (D : (alen (tp a) = 0 \/ alen (tf a) = 0) \/ (0 < alen (tp a) /\ 0 < alen (tf a))) by lia. destruct D as [D|[P0 F0]].
  { destruct (binaryOp_empty f o a b W NA LP LF D) as [a' [E H]]. exists a', ImproperObjectAction. auto. }
  unfold binaryOp. destruct (numericRows_spec floatOf (isPow o) ImproperObjectAction a W) as [[m [E [_ [WM CM]]]]|[_ N]]; [|contradiction]. rewrite E.
  assert (AF : AfterFailure floatOf f a (if isInPlace f then withRows a m else a)).
  { apply AfterFailure_self. intros i j v Hv. destruct (CM i j v Hv) as [v' [A B]]. exists v'. split; [exact A|exact (toNumeric_ok _ _ _ _ B)]. }
  set (failed := if isInPlace f then withRows a m else a) in *.
  assert (SV : sizeValidation (withRows a m) b = Ok tt).
  { unfold sizeValidation. cbn [tp tf withRows]. rewrite LP, LF, !Nat.eqb_refl. cbn [andb negb]. destruct (Nat.eqb_spec (alen (tp b)) 0); [lia|]. destruct (Nat.eqb_spec (alen (tf b)) 0); [lia|]. reflexivity. }
  unfold binaryValidation. rewrite SV. cbn [rbind]. destruct (isDivMod o); [destruct (if isReflected f then _ else _)|]; cbn [rbind].
  { exists failed, ZeroDiv. auto. }
  all: unfold binaryAxisNames; cbn [tp tf withRows]; pose proof W as [_ [_ [IPa IFa]]]; pose proof WB as [_ [_ [IPb IFb]]];
    destruct (numericRows_spec floatOf (isPow o) InvalidArgumentValue b WB) as [[mb [_ [N _]]]|[EB _]]; [contradiction|];
    destruct (validateEqualNames_spec _ _ IFa IFb LF) as [[EF CF]|[EF CF]]; rewrite EF; cbn [rbind]; try destruct (isInPlace f); cbn [rbind];
    try (exists failed, InvalidArgumentValue; split; [reflexivity|]; split; [auto|exact AF]);
    destruct (validateEqualNames_spec _ _ IPa IPb LP) as [[EP CP]|[EP CP]]; rewrite EP; cbn [rbind negb andb]; rewrite ?EB; cbn [rbind];
    exists failed, InvalidArgumentValue; (split; [reflexivity|]; split; [auto|exact AF]).
Qed.

(** ** scalars *)
Lemma binaryOp_scalar f o a v : wf a -> 0 < alen (tp a) -> 0 < alen (tf a) -> AllNumeric floatOf a -> looksNumeric v = true ->
  match binaryOp floatOf npArith f o a (OScalar v) with
  | (a', Ok r) => wf r /\ alen (tp r) = alen (tp a) /\ alen (tf r) = alen (tf a) /\ getNames (tp r) = getNames (tp a) /\ getNames (tf r) = getNames (tf a) /\
      ValuesWithScalar floatOf npArith o f a v r /\ a' = (match f with InPlace => r | _ => a end)
  | (a', Err e) => AfterFailure floatOf f a a' /\
      ((e = ZeroDiv /\ isDivMod o = true /\ ZeroDivisorScalar floatOf f a v) \/
       exists da i j x x', ArrayType (isPow o) a da /\ cell a i j = Some x /\ AsNumber floatOf x x' /\ npArith o (isReflected f) da None x' v = Err e)
  end.
Proof.
  intros W P0 F0 NA LV. unfold binaryOp. destruct (numericRows_spec floatOf (isPow o) ImproperObjectAction a W) as [[m [E [_ [WM CM]]]]|[_ N]]; [|contradiction]. rewrite E.
  assert (AF : AfterFailure floatOf f a (if isInPlace f then withRows a m else a)).
  { apply AfterFailure_self. intros i j x Hv. destruct (CM i j x Hv) as [v' [A B]]. exists v'. split; [exact A|exact (toNumeric_ok _ _ _ _ B)]. }
  set (failed := if isInPlace f then withRows a m else a) in *. unfold binaryValidation. rewrite LV. cbn [rbind].
  assert (ZT : (if isReflected f then containsZero (rows (withRows a m)) else pyEq v (PInt 0)) = true -> ZeroDivisorScalar floatOf f a v).
  { pose proof (zeroTest_spec f o a m a W CM WM) as H. destruct f; cbn [isReflected ZeroDivisorScalar rows withRows] in *.
    - apply pyEq_spec.
    - apply H.
    - apply pyEq_spec. }
  destruct (isDivMod o) eqn:ED; [destruct (if isReflected f then _ else _) eqn:EZ|]; cbn [rbind].
  { split; [exact AF|]. left. split; [reflexivity|]. split; [reflexivity|]. apply ZT. reflexivity. }
  all: clear ZT; pose proof W as [_ [_ [IPa IFa]]]; unfold applyOp; cbn [tp tf withRows rows];
    pose proof (ArrayType_ok floatOf FO _ _ _ W P0 F0 WM CM) as TA; destruct (numpyRows_spec (withRows a m) WM) as [NN CN]; cbn [rows withRows] in NN, CN;
    pose proof (shapeOf _ NN) as SA; cbn [rows tp tf withRows] in SA;
    assert (AN : forall i j x, cell a i j = Some x -> exists x', mcell (numpyRows m) i j = Some x' /\ AsNumber floatOf x x') by
     (intros i j x Hx; destruct (CM i j x Hx) as [y [Y1 Y2]]; destruct (CN i j y Y1) as [z [Z1 Z2]]; exists z; split; [exact Z1|]; apply (AsNumber_store floatOf FO _ y); [exact (toNumeric_ok _ _ _ _ Y2)|exact Z2]);
    pose proof (rmapM2_ok (fun x => npArith o (isReflected f) (dtypeOf m) None x v) _ _ _ SA) as H; destruct (rmapM _ (numpyRows m)) as [c|e]; cbn [rbind].
  1,3: destruct H as [SC HC]; destruct (namedAxis_same _ IPa) as [pa [Ep [Lp [Ip Gp]]]]; destruct (namedAxis_same _ IFa) as [fa [Ef [Lf [If Gf]]]]; rewrite Ep; cbn [rbind]; rewrite Ef; cbn [rbind];
    (split; [destruct SC as [S1 S2]; split; [cbn; rewrite Lp; exact S1|]; split; [cbn; rewrite Lf; exact S2|]; split; assumption|]);
    (split; [exact Lp|]; split; [exact Lf|]; split; [exact Gp|]; split; [exact Gf|]; split; [|destruct f; reflexivity]);
    exists (dtypeOf m); (split; [exact TA|]); intros i j x Hx; destruct (AN i j x Hx) as [x' [X1 X2]]; destruct (HC i j x' X1) as [w [W1 W2]]; exists x', w; auto.
  all: split; [exact AF|]; right; destruct H as [i [j [x' [X1 G]]]]; destruct (mcell_range _ _ _ _ _ _ SA X1) as [R1 R2]; destruct (cell_some a i j W R1 R2) as [x [Hx _]];
    destruct (AN i j x Hx) as [x2 [X2 AX]]; assert (x2 = x') by congruence; subst x2; exists (dtypeOf m), i, j, x, x'; auto 10.
Qed.
End Main.

(** ** abs *)
Lemma pyAbs_kind v w : pyAbs v = Ok w -> kindOf w = (match v with PBool _ | PInt _ => KInt | _ => KFloat end).
Proof. destruct v; cbn; intros H; try discriminate; injection H as <-; reflexivity. Qed.
Lemma pyAbs_abs v w : pyAbs v = Ok w -> AbsOf v w.
Proof.
  destruct v as [b|z|q| | | |s|]; cbn; intros H; try discriminate; injection H as <-; try (constructor; fail).
  - eapply abs_num; [constructor|constructor|]. destruct b; reflexivity.
  - eapply abs_num; [constructor|constructor|]. reflexivity.
  - eapply abs_num; [constructor|constructor|]. reflexivity.
Qed.
Lemma AbsOf_same v w w' : AbsOf v w -> Same w' w -> AbsOf v w'.
Proof.
  intros A S0. inversion A as [x q y q' X Y E| | |]; subst.
  - inversion S0 as [a b p r P R Q| | | |]; subst; [|inversion Y..]. eapply abs_num; [exact X|exact P|]. rewrite Q. rewrite (IsNumber_unique _ _ _ R Y). exact E.
  - inversion S0 as [a b p r P R Q| | | |]; subst; [inversion R|]. constructor.
  - inversion S0 as [a b p r P R Q| | | |]; subst; [inversion R|]. constructor.
  - inversion S0 as [a b p r P R Q| | | |]; subst. inversion R.
Qed.
Lemma absObj_spec intOf floatOf strOf t : wf t -> 0 < alen (tp t) -> 0 < alen (tf t) -> NumbersOnly t -> ~ BoolsAndFloats t ->
  exists r, absObj intOf floatOf strOf t = Ok r /\ wf r /\ alen (tp r) = alen (tp t) /\ alen (tf r) = alen (tf t) /\
    (forall i j v, cell t i j = Some v -> exists w, cell r i j = Some w /\ AbsOf v w) /\
    getNames (tf r) = getNames (tf t) /\
    getNames (tp r) = (if namesCreated (tf t) then getNames (tp t) else repeat None (alen (tp t))).
Proof.
  intros W P0 F0 NO NB. unfold absObj. destruct (numpyRows_spec t W) as [WN CN]. set (u := mkTable (tp t) (tf t) (numpyRows (rows t))). change (withRows t (numpyRows (rows t))) with u in *.
  assert (CU : forall i j v', cell u i j = Some v' -> exists v, cell t i j = Some v /\ (v' = v \/ (isI v = true /\ v' = storeFloat v))).
  { intros i j v' Hv. destruct (cell_range u i j v' WN Hv) as [R1 R2]. destruct (cell_some t i j W R1 R2) as [v [A _]]. destruct (CN i j v A) as [x [X1 X2]]. assert (x = v') by congruence. subst x. eauto. }
  assert (LN : forall i j v', cell u i j = Some v' -> looksNumeric v' = true).
  { intros i j v' Hv. destruct (CU i j v' Hv) as [v [A B]]. specialize (NO i j v A). destruct B as [->|[I ->]]; [exact NO|]. destruct v; try discriminate I; reflexivity. }
  assert (KB : (forall i j v', cell u i j = Some v' -> (match v' with PBool _ | PInt _ => KInt | _ => KFloat end) = KInt) \/ (forall i j v', cell u i j = Some v' -> (match v' with PBool _ | PInt _ => KInt | _ => KFloat end) = KFloat)).
  { destruct (dtypeOf (rows t)) eqn:ED; unfold dtypeOf in ED.
    - left. destruct (forallb isB _) eqn:E1 in ED; [|repeat (destruct (forallb _ _) in ED; try discriminate ED)]. pose proof (proj1 (dtypeOf_all t isB) E1) as H. intros i j v' Hv. destruct (CU i j v' Hv) as [v [A B]]. specialize (H i j v A). destruct v; try discriminate H. destruct B as [->|[I _]]; [reflexivity|discriminate I].
    - left. destruct (forallb isB _) eqn:E1 in ED; [discriminate ED|]. destruct (forallb isI _) eqn:E2 in ED; [|destruct (forallb _ _) in ED; discriminate ED]. pose proof (proj1 (dtypeOf_all t isI) E2) as H. intros i j v' Hv. unfold u in Hv.
      unfold numpyRows, dtypeOf in Hv. rewrite E1, E2 in Hv. specialize (H i j v' Hv). destruct v'; try discriminate H. reflexivity.
    - right. destruct (forallb isB _) eqn:E1 in ED; [discriminate ED|]. destruct (forallb isI _) eqn:E2 in ED; [discriminate ED|]. destruct (forallb (fun v => isI v || isF v) _) eqn:E3 in ED; [|discriminate ED].
      pose proof (proj1 (dtypeOf_all t _) E3) as H. intros i j v' Hv. unfold u in Hv. unfold numpyRows, dtypeOf in Hv. rewrite E1, E2, E3 in Hv.
      change (mcell (map (map storeFloat) (rows t)) i j = Some v') in Hv. rewrite mcell_map in Hv. destruct (mcell (rows t) i j) as [v|] eqn:Ev; [|discriminate]. cbn in Hv. injection Hv as <-.
      specialize (H i j v Ev). destruct v; try discriminate H; reflexivity.
    - left. destruct (forallb isB _) eqn:E1 in ED; [discriminate ED|]. destruct (forallb isI _) eqn:E2 in ED; [discriminate ED|]. destruct (forallb (fun v => isI v || isF v) _) eqn:E3 in ED; [discriminate ED|].
      destruct (dtypeOf_some t _ E3) as [a [b [x [X1 X2]]]]. pose proof (NO a b x X1) as X3. assert (XB : isB x = true) by (destruct x; try discriminate X2; try discriminate X3; reflexivity).
      intros i j v' Hv. unfold u in Hv. unfold numpyRows, dtypeOf in Hv. rewrite E1, E2, E3 in Hv. pose proof (NO i j v' Hv) as L. destruct v'; try reflexivity; try discriminate L; exfalso; apply NB; (split; [exists a, b, x; auto|]); eexists i, j, _; (split; [exact Hv|reflexivity]). }
  assert (ZU : ZeroUniform (F1 pyAbs) \/ True) by auto.
  assert (HV : forall i j v', cell u i j = Some v' -> exists w, callF (F1 pyAbs) v' i j = Ok w).
  { intros i j v' Hv. specialize (LN i j v' Hv). destruct v'; try discriminate LN; eexists; reflexivity. }
  pose proof (backend_spec intOf floatOf strOf u true (validated false false (F1 pyAbs)) None None None None WN I I) as H.
  assert (N1 : (None : option (list nat)) <> Some []) by discriminate. specialize (H N1 N1). cbn zeta in H. cbn [positionsOf] in H. rewrite !seq_length in H.
  unfold calculateOnElements. cbn [isOneArg].
  assert (VA : forall v w, validated false false (F1 pyAbs) v 0 0 = Ok w -> AbsOf v w /\ (kindOf w = (match v with PBool _ | PInt _ => KInt | _ => KFloat end) \/ w = PFloat 0)).
  { intros v w Hw. unfold validated in Hw. destruct (zeroPreserving false (F1 pyAbs) && pyEq v (PInt 0)) eqn:EZ.
    - injection Hw as <-. apply andb_true_iff in EZ. destruct EZ as [_ EZ]. apply pyEq_spec in EZ. inversion EZ as [x y p q X Y E| | | |]; subst. split; [|right; reflexivity].
      eapply abs_num; [exact X|constructor|]. inversion Y; subst. rewrite E. reflexivity.
    - cbn [callF] in Hw. destruct (pyAbs v) as [x|] eqn:Ex; [|discriminate]. cbn [rbind] in Hw. assert (w = x) as -> by (destruct x; injection Hw; auto). split; [apply pyAbs_abs; exact Ex|left; apply pyAbs_kind; exact Ex]. }
  replace (calculateBackend intOf floatOf strOf u true (validated false false (F1 pyAbs)) None None) with (plainBackend intOf floatOf strOf u true (validated false false (F1 pyAbs)) None None).
  2:{ symmetry. destruct (backend_cases intOf floatOf strOf u true (validated false false (F1 pyAbs)) None None) as [E|[r [E [[w0 C0] [T _]]]]]; [exact E|exfalso].
    rewrite E in H. destruct H as [WR [TP [TF HC]]]. cbn [tp tf u] in TP, TF, HC. destruct (cell_range r 0 0 w0 WR C0) as [A0 B0]. rewrite TP in A0. rewrite TF in B0. cbn [alen] in A0, B0.
    assert (S1 : nth_error (seq 0 (alen (tp t))) 0 = Some 0) by (rewrite nth_error_seq; destruct (Nat.ltb_spec 0 (alen (tp t))); [reflexivity|lia]).
    assert (S2 : nth_error (seq 0 (alen (tf t))) 0 = Some 0) by (rewrite nth_error_seq; destruct (Nat.ltb_spec 0 (alen (tf t))); [reflexivity|lia]).
    destruct (cell_some u 0 0 WN A0 B0) as [v' [Hv' _]].
    destruct (HC 0 0 0 0 v' S1 S2 Hv') as [x [w [G [Hw Hr]]]]. destruct (VA v' x G) as [AX KX].
    destruct (T 0 w0 C0) as [s ->]. rewrite C0 in Hw. assert (w = PStr s) as -> by (destruct w; cbn in Hw; congruence).
    assert (NS : forall a b, AbsOf a b -> forall s', b <> PStr s') by (intros a b HA s' ->; inversion HA; subst; match goal with H : IsNumber (PStr _) _ |- _ => inversion H end).
    destruct Hr as [C|[[C _]|[i0 [j0 [v0 [first [_ [C1 [G0 [_ K]]]]]]]]]]; [exact (NS _ _ AX s (eq_sym C))|discriminate C|].
    destruct (VA v0 first G0) as [_ K0].
    assert (exists k, (kindOf first = k \/ first = PFloat 0) /\ (kindOf x = k \/ x = PFloat 0) /\ k <> KStr) as [k [Q1 [Q2 Q3]]].
    { destruct KB as [KB|KB]; [exists KInt|exists KFloat]; rewrite (KB _ _ _ C1) in K0; rewrite (KB _ _ _ Hv') in KX; (split; [exact K0|split; [exact KX|discriminate]]). }
    destruct (cast_lossless intOf floatOf strOf k first x (PStr s) Q1 Q2) as [Z|[Z|[_ Z]]]; [intros C; contradiction|exact K|exact (NS _ _ AX s (eq_sym Z))| |discriminate Z].
    inversion Z as [? ? ? ? X| | | |]; subst; [inversion X|exact (NS _ _ AX _ eq_refl)]. }
  destruct (plainBackend intOf floatOf strOf u true (validated false false (F1 pyAbs)) None None) as [r|e]; cbn [rbind].
  - destruct H as [WR [TP [TF HC]]]. cbn [tp tf u] in TP, TF, HC.
    assert (CR : forall i j v, cell t i j = Some v -> exists w, cell r i j = Some w /\ AbsOf v w).
    { intros i j v Hv. destruct (CN i j v Hv) as [v' [Hv' Hor]]. destruct (cell_range t i j v W Hv) as [R1 R2].
      assert (S1 : nth_error (seq 0 (alen (tp t))) i = Some i) by (rewrite nth_error_seq; destruct (Nat.ltb_spec i (alen (tp t))); [reflexivity|lia]).
      assert (S2 : nth_error (seq 0 (alen (tf t))) j = Some j) by (rewrite nth_error_seq; destruct (Nat.ltb_spec j (alen (tf t))); [reflexivity|lia]).
      destruct (HC i j i j v' S1 S2 Hv') as [x [w [G [Hw Hr]]]]. exists (noneToNan w). split; [exact Hw|]. destruct (VA v' x G) as [AX KX].
      assert (AV : AbsOf v x).
      { destruct Hor as [<-|[Iv ->]]; [exact AX|]. destruct v; try discriminate Iv. cbn in AX. inversion AX as [a q b q' A B C| | |]; subst. inversion A; subst. eapply abs_num; [constructor|exact B|exact C]. }
      assert (NX : x <> PNone) by (intros ->; inversion AX; subst; match goal with H : IsNumber PNone _ |- _ => inversion H end).
      assert (Hw2 : w = x \/ Same w x).
      { destruct Hr as [->|[[C _]|[i0 [j0 [v0 [first [_ [C0 [G0 [_ K]]]]]]]]]]; [left; reflexivity|discriminate C|].
        destruct (VA v0 first G0) as [_ K0].
        assert (exists k, (kindOf first = k \/ first = PFloat 0) /\ (kindOf x = k \/ x = PFloat 0) /\ k <> KStr) as [k [Q1 [Q2 Q3]]].
        { destruct KB as [KB|KB]; [exists KInt|exists KFloat]; rewrite (KB _ _ _ C0) in K0; rewrite (KB _ _ _ Hv') in KX; (split; [exact K0|split; [exact KX|discriminate]]). }
        destruct (cast_lossless intOf floatOf strOf k first x w Q1 Q2) as [Z|[Z|[Z _]]]; [intros C; contradiction|exact K|left; exact Z|right; exact Z|contradiction]. }
      destruct Hw2 as [->|Sw]; [destruct x; try contradiction; exact AV|]. assert (noneToNan w = w) as -> by (destruct w; try reflexivity; inversion Sw; subst; [match goal with H : IsNumber PNone _ |- _ => inversion H end|contradiction]). exact (AbsOf_same _ _ _ AV Sw). }
    pose proof W as [_ [_ [IPa IFa]]]. destruct (namedAxis_same _ IPa) as [pa [Ep [Lp [Ip Gp]]]]. destruct (namedAxis_same _ IFa) as [fa [Ef [Lf [If Gf]]]].
    rewrite TP, TF. cbn [alen]. rewrite Ep. cbn [rbind]. destruct WR as [R1 [R2 _]]. rewrite TP in R1. rewrite TF in R2. cbn [alen] in R1, R2.
    destruct (getNamesNoGeneration (tf t)) as [l|] eqn:EN.
    + assert (NC : namesCreated (tf t) = true) by (unfold getNamesNoGeneration in EN; destruct (namesCreated (tf t)); [reflexivity|discriminate]). rewrite NC.
      rewrite Ef. cbn [rbind]. eexists. split; [reflexivity|]. split; [split; [cbn; rewrite Lp; exact R1|]; split; [cbn; rewrite Lf; exact R2|]; split; assumption|]. split; [exact Lp|]. split; [exact Lf|]. split; [exact CR|]. split; assumption.
    + assert (NC : namesCreated (tf t) = false) by (unfold getNamesNoGeneration in EN; destruct (namesCreated (tf t)); [discriminate|reflexivity]). rewrite NC.
      eexists. split; [reflexivity|]. split; [split; [exact R1|]; split; [exact R2|]; split; exact I|]. split; [reflexivity|]. split; [reflexivity|]. split; [exact CR|].
      split; [rewrite (unnamed_names _ EN); apply getNames_fresh|apply getNames_fresh].
  - exfalso. destruct H as [i [j [v' [_ [C G]]]]]. destruct (HV i j v' C) as [w E]. unfold validated in G. destruct (_ && _); [discriminate G|]. cbn [callF] in *. rewrite E in G. cbn [rbind] in G. discriminate G.
Qed.

