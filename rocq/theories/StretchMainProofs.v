(** Proofs about stretched objects (C57): the operators. *)
From Verif Require Import Base NamesModel NamesSpec NamesProofs TableModel TableSpec TableProofs TableOps TableOpsProofs MatchModel MatchSpec MatchProofs
  ElementsModel ElementsSpec ElementsCalcProofs BinOpModel BinOpSpec BinOpProofs BinOpMainProofs ReshapeModel MergeLoopProofs StretchModel StretchSpec StretchProofs.
Open Scope nat_scope.

Lemma mkStretch_spec t : mkStretch t = (if (0 <? alen (tp t)) && (0 <? alen (tf t)) && ((alen (tp t) =? 1) || (alen (tf t) =? 1)) then Ok t else Err ImproperObjectAction).
Proof.
  unfold mkStretch. destruct (alen (tp t)) as [|[|n]]; destruct (alen (tf t)) as [|[|k]]; reflexivity.
Qed.
Lemma validateNone_l a b : namesCreated a = false -> validateEqualNames a b = Ok tt.
Proof. intros H. unfold validateEqualNames. rewrite (noGen_not a H). reflexivity. Qed.
Lemma validateNone_r a b : namesCreated b = false -> validateEqualNames a b = Ok tt.
Proof. intros H. unfold validateEqualNames. rewrite (noGen_not b H). destruct (getNamesNoGeneration a); reflexivity. Qed.
Lemma consistentNone_l a b : namesCreated a = false -> NamesConsistent (getNames a) (getNames b).
Proof. intros H. rewrite (notCreated_names a H). apply repeat_None_consistent. Qed.
Lemma consistentNone_r a b : namesCreated b = false -> NamesConsistent (getNames a) (getNames b).
Proof. intros H. rewrite (notCreated_names b H). apply repeat_None_consistent. Qed.

Lemma validation_base refl dm s o : wf s -> wf o -> Stretchable s -> 0 < alen (tp o) -> 0 < alen (tf o) -> SingleElementReady s o ->
  (Fits false s o /\ NamesFit false s o /\ stretchValidation refl dm s (SBase o) = divModCheck refl dm s o) \/
  (Fits false s o /\ ~ NamesFit false s o /\ stretchValidation refl dm s (SBase o) = Err InvalidArgumentValue) \/
  (~ Fits false s o /\ stretchValidation refl dm s (SBase o) = Err InvalidArgumentValueCombination).
Proof.
  intros (_ & _ & Ip & If) (_ & _ & Jp & Jf) (Pp & Pf & H1) Op Of SE. unfold stretchValidation, Fits, NamesFit.
  destruct (Nat.eq_dec (alen (tp s)) 1) as [e|e].
  - rewrite e. cbn [Nat.eqb andb]. destruct (Nat.eq_dec (alen (tf s)) 1) as [g|g].
    + rewrite g. cbn [Nat.eqb]. destruct (SE e g) as [S1 S2].
      destruct (Nat.eq_dec (alen (tp o)) 1) as [h|h].
      * rewrite h. cbn [Nat.ltb Nat.leb Nat.eqb orb negb]. destruct (Nat.eq_dec (alen (tf o)) 1) as [q|q].
        -- destruct (validateEqualNames_spec (tf s) (tf o) If Jf) as [[-> N]|[-> N]]; [congruence| |].
           ++ left. split; [lia|]. split; [|reflexivity]. intros _. split; [lia|auto].
           ++ right. left. split; [lia|]. split; [|reflexivity]. intros K. apply N. apply (proj2 (K eq_refl)); auto.
        -- left. split; [lia|]. assert (namesCreated (tf s) = false \/ namesCreated (tf o) = false) as SS by (apply S2; lia). split.
           ++ intros _. split; [lia|]. intros _ _. destruct SS; [apply consistentNone_l|apply consistentNone_r]; assumption.
           ++ assert (validateEqualNames (tf s) (tf o) = Ok tt) as -> by (destruct SS; [apply validateNone_l|apply validateNone_r]; assumption). reflexivity.
      * destruct (alen (tp o) =? 1) eqn:E; [apply Nat.eqb_eq in E; lia|]. cbn [orb]. assert (1 <? alen (tp o) = true) as -> by (apply Nat.ltb_lt; lia).
        destruct (alen (tf o) =? 1) eqn:E2; cbn [negb].
        -- apply Nat.eqb_eq in E2. left. split; [lia|]. split; [intros _; split; [lia|]; lia|].
           assert (namesCreated (tp s) = false \/ namesCreated (tp o) = false) as SS by (apply S1; lia).
           assert (validateEqualNames (tp s) (tp o) = Ok tt) as -> by (destruct SS; [apply validateNone_l|apply validateNone_r]; assumption). reflexivity.
        -- apply Nat.eqb_neq in E2. right. right. split; [lia|reflexivity].
    + destruct (alen (tf s) =? 1) eqn:E; [apply Nat.eqb_eq in E; lia|]. destruct (alen (tf s) =? alen (tf o)) eqn:E2; cbn [negb].
      * apply Nat.eqb_eq in E2. destruct (validateEqualNames_spec (tf s) (tf o) If Jf E2) as [[-> N]|[-> N]].
        -- left. split; [lia|]. split; [|reflexivity]. intros _. split; [lia|auto].
        -- right. left. split; [lia|]. split; [|reflexivity]. intros K. apply N. apply (proj2 (K eq_refl)); auto.
      * apply Nat.eqb_neq in E2. right. right. split; [lia|reflexivity].
  - destruct (alen (tp s) =? 1) eqn:E; [apply Nat.eqb_eq in E; lia|]. cbn [andb]. destruct (alen (tp s) =? alen (tp o)) eqn:E2; cbn [negb].
    * apply Nat.eqb_eq in E2. destruct (validateEqualNames_spec (tp s) (tp o) Ip Jp E2) as [[-> N]|[-> N]].
      -- left. split; [lia|]. split; [|reflexivity]. intros _. split; [auto|lia].
      -- right. left. split; [lia|]. split; [|reflexivity]. intros K. apply N. apply (proj1 (K eq_refl)); auto.
    * apply Nat.eqb_neq in E2. right. right. split; [lia|reflexivity].
Qed.
Lemma validation_stretch refl dm s o :
  (Fits true s o /\ stretchValidation refl dm s (SStretch o) = divModCheck refl dm s o) \/
  (~ Fits true s o /\ stretchValidation refl dm s (SStretch o) = Err ImproperObjectAction).
Proof.
  unfold stretchValidation, Fits.
  destruct (alen (tp s) =? 1) eqn:E1; destruct (alen (tf o) =? 1) eqn:E2; destruct (alen (tf s) =? 1) eqn:E3; destruct (alen (tp o) =? 1) eqn:E4; cbn [andb orb];
    repeat match goal with H : (_ =? _) = true |- _ => apply Nat.eqb_eq in H | H : (_ =? _) = false |- _ => apply Nat.eqb_neq in H end;
    first [left; split; [tauto|reflexivity]|right; split; [tauto|reflexivity]].
Qed.

Section S.
Variable floatOf : string -> option pval.
Hypothesis FO : FloatOracle floatOf.
Variable npArith : arith -> bool -> dtype -> option dtype -> pval -> pval -> result pval.

Definition Conv (pow : bool) (t : table pval) (m : list (list pval)) : Prop :=
  wf (withRows t m) /\ forall i j v, cell t i j = Some v -> exists v', cell (withRows t m) i j = Some v' /\ toNumeric floatOf pow v = Ok v'.
Lemma Conv_only pow t m : Conv pow t m -> OnlyConverted floatOf t (withRows t m).
Proof.
  intros [W H]. split; [reflexivity|]. split; [reflexivity|]. split; [exact W|]. intros i j v Hv. destruct (H i j v Hv) as (v' & Hc & Hn). exists v'. split; [exact Hc|].
  right. exact (toNumeric_ok floatOf pow v v' Hn).
Qed.
Lemma Conv_back pow t m i j v' : wf t -> Conv pow t m -> cell (withRows t m) i j = Some v' -> exists v, cell t i j = Some v /\ toNumeric floatOf pow v = Ok v'.
Proof.
  intros W [W' H] Hc. assert (R : i < alen (tp t) /\ j < alen (tf t)).
  { destruct (mcell_range m (alen (tp t)) (alen (tf t)) i j v'); [|exact Hc|tauto]. exact (shapeOf _ W'). }
  destruct (mcell_some (rows t) _ _ i j (shapeOf t W)) as [v Hv]; [tauto|tauto|]. exists v. split; [exact Hv|].
  destruct (H i j v Hv) as (w & Hw & Hn). congruence.
Qed.
Lemma zero_Conv pow t m : wf t -> Conv pow t m ->
  containsZero (rows (withRows t m)) = true <-> exists i j v v', cell t i j = Some v /\ AsNumber floatOf v v' /\ Same v' (PInt 0).
Proof.
  intros W C. split.
  - intros H. apply (proj1 (hasZero_spec (withRows t m))) in H. destruct H as (i & j & v' & Hc & Hs). destruct (Conv_back pow t m i j v' W C Hc) as (v & Hv & Hn).
    exists i, j, v, v'. split; [exact Hv|]. split; [exact (toNumeric_ok floatOf pow v v' Hn)|exact Hs].
  - intros (i & j & v & v' & Hv & Ha & Hs). destruct C as [W' H]. destruct (H i j v Hv) as (w & Hw & Hn).
    apply (proj2 (hasZero_spec (withRows t m))). exists i, j, w. split; [exact Hw|]. exact (toNumeric_zero floatOf pow v w v' Hn Ha Hs).
Qed.
Lemma divModCheck_spec refl o s b ms mb : wf s -> wf b -> Conv (isPow o) s ms -> Conv (isPow o) b mb ->
  (divModCheck refl (isDivMod o) (withRows s ms) (withRows b mb) = Ok tt /\ ~ (dividing o = true /\ DividesByZero floatOf refl s b)) \/
  (divModCheck refl (isDivMod o) (withRows s ms) (withRows b mb) = Err ZeroDiv /\ dividing o = true /\ DividesByZero floatOf refl s b).
Proof.
  intros W W' C C'. unfold divModCheck. replace (isDivMod o) with (dividing o) by (destruct o; reflexivity).
  destruct (dividing o); [|left; split; [reflexivity|]; intros [H _]; discriminate].
  unfold DividesByZero. destruct refl.
  - pose proof (zero_Conv (isPow o) s ms W C) as Z. destruct (containsZero (rows (withRows s ms))).
    + right. split; [reflexivity|]. split; [reflexivity|]. apply Z. reflexivity.
    + left. split; [reflexivity|]. intros [_ K]. apply Z in K. discriminate.
  - pose proof (zero_Conv (isPow o) b mb W' C') as Z. destruct (containsZero (rows (withRows b mb))).
    + right. split; [reflexivity|]. split; [reflexivity|]. apply Z. reflexivity.
    + left. split; [reflexivity|]. intros [_ K]. apply Z in K. discriminate.
Qed.

Lemma apply_spec refl o s b ms mb : wf s -> wf b -> 0 < alen (tp s) -> 0 < alen (tf s) -> 0 < alen (tp b) -> 0 < alen (tf b) ->
  (alen (tp s) = alen (tp b) \/ alen (tp s) = 1 \/ alen (tp b) = 1) -> (alen (tf s) = alen (tf b) \/ alen (tf s) = 1 \/ alen (tf b) = 1) ->
  Conv (isPow o) s ms -> Conv (isPow o) b mb ->
  match stretchApply (npArith o refl (dtypeOf ms) (Some (dtypeOf mb))) (withRows s ms) (withRows b mb) with
  | Ok c => shape c (longer (tp s) (tp b)) (longer (tf s) (tf b)) /\ forall pa fa, StretchedValues floatOf npArith o refl s b (mkTable pa fa c)
  | Err e => StretchedFails floatOf npArith o refl s b e
  end.
Proof.
  intros W W' P1 P2 P3 P4 L1 L2 C C'. unfold stretchApply. cbn [tp tf withRows rows].
  rewrite (broadcastLen_spec _ _ L1 P1 P3). cbn [rbind]. rewrite (broadcastLen_spec _ _ L2 P2 P4). cbn [rbind]. rewrite <- !longer_max.
  pose proof (ArrayType_ok floatOf FO (isPow o) s ms W P1 P2 (proj1 C) (proj2 C)) as A1. pose proof (ArrayType_ok floatOf FO (isPow o) b mb W' P3 P4 (proj1 C') (proj2 C')) as A2.
  replace (isPow o) with (raising o) in A1, A2 by (destruct o; reflexivity).
  destruct (numpyRows_spec (withRows s ms) (proj1 C)) as [N1 N1']. destruct (numpyRows_spec (withRows b mb) (proj1 C')) as [N2 N2'].
  cbn [rows withRows tp tf] in N1, N1', N2, N2'.
  pose proof (longer_max (tp s) (tp b)) as M1. pose proof (longer_max (tf s) (tf b)) as M2.
  destruct (broadcastRows_spec (numpyRows ms) (alen (tp s)) (alen (tf s)) (longer (tp s) (tp b)) (longer (tf s) (tf b))) as [B1 B1']; [exact (shapeOf _ N1)|lia|lia|].
  destruct (broadcastRows_spec (numpyRows mb) (alen (tp b)) (alen (tf b)) (longer (tp s) (tp b)) (longer (tf s) (tf b))) as [B2 B2']; [exact (shapeOf _ N2)|lia|lia|].
  assert (FR : forall n m i, 0 < n -> (n = m \/ n = 1) -> i < m -> from n i < n).
  { intros n m i Hn Hm Hi. unfold from. destruct (n =? 1) eqn:E; [lia|]. apply Nat.eqb_neq in E. lia. }
  assert (VS : forall i j, i < longer (tp s) (tp b) -> j < longer (tf s) (tf b) -> exists x x', cell s (from (alen (tp s)) i) (from (alen (tf s)) j) = Some x /\
     mcell (broadcastRows (longer (tp s) (tp b)) (longer (tf s) (tf b)) (numpyRows ms)) i j = Some x' /\ AsNumber floatOf x x').
  { intros i j Hi Hj. destruct (mcell_some (rows s) _ _ (from (alen (tp s)) i) (from (alen (tf s)) j) (shapeOf s W)) as [x Hx].
    { apply (FR _ (longer (tp s) (tp b))); lia. } { apply (FR _ (longer (tf s) (tf b))); lia. }
    destruct (proj2 C _ _ x Hx) as (x1 & Hx1 & Hn). destruct (N1' _ _ x1 Hx1) as (x2 & Hx2 & Hd). exists x, x2. split; [exact Hx|]. split; [rewrite B1' by assumption; exact Hx2|].
    eapply AsNumber_store; [exact FO|exact (toNumeric_ok floatOf _ _ _ Hn)|exact Hd]. }
  assert (VB : forall i j, i < longer (tp s) (tp b) -> j < longer (tf s) (tf b) -> exists x x', cell b (from (alen (tp b)) i) (from (alen (tf b)) j) = Some x /\
     mcell (broadcastRows (longer (tp s) (tp b)) (longer (tf s) (tf b)) (numpyRows mb)) i j = Some x' /\ AsNumber floatOf x x').
  { intros i j Hi Hj. destruct (mcell_some (rows b) _ _ (from (alen (tp b)) i) (from (alen (tf b)) j) (shapeOf b W')) as [x Hx].
    { apply (FR _ (longer (tp s) (tp b))); lia. } { apply (FR _ (longer (tf s) (tf b))); lia. }
    destruct (proj2 C' _ _ x Hx) as (x1 & Hx1 & Hn). destruct (N2' _ _ x1 Hx1) as (x2 & Hx2 & Hd). exists x, x2. split; [exact Hx|]. split; [rewrite B2' by assumption; exact Hx2|].
    eapply AsNumber_store; [exact FO|exact (toNumeric_ok floatOf _ _ _ Hn)|exact Hd]. }
  pose proof (zipRows_spec (npArith o refl (dtypeOf ms) (Some (dtypeOf mb))) _ _ _ _ B1 B2) as Z.
  destruct (zipRows _ _ _) as [c|e].
  - destruct Z as [Z1 Z2]. split; [exact Z1|]. intros pa fa. exists (dtypeOf ms), (dtypeOf mb). split; [exact A1|]. split; [exact A2|].
    intros i j Hi Hj. destruct (VS i j Hi Hj) as (x & x' & Hx & Hx' & Ax). destruct (VB i j Hi Hj) as (y & y' & Hy & Hy' & Ay).
    destruct (Z2 i j x' y' Hx' Hy') as (w & Hw & Hg). exists x, y, x', y', w. repeat split; assumption.
  - destruct Z as (i & j & x' & y' & Hx' & Hy' & Hg). destruct (mcell_range _ _ _ _ _ _ B1 Hx') as [Hi Hj].
    destruct (VS i j Hi Hj) as (x & x2 & Hx & Hx2 & Ax). destruct (VB i j Hi Hj) as (y & y2 & Hy & Hy2 & Ay).
    exists (dtypeOf ms), (dtypeOf mb), i, j, x, y, x', y'. replace x' with x2 in * by congruence. replace y' with y2 in * by congruence. repeat split; assumption.
Qed.

(** everything after validation *)
Lemma rest_spec (st refl : bool) o s b ms mb : wf s -> wf b -> 0 < alen (tp s) -> 0 < alen (tf s) -> 0 < alen (tp b) -> 0 < alen (tf b) ->
  Fits st s b -> NamesFit st s b -> NamesReady st (tp s) (tp b) -> NamesReady st (tf s) (tf b) -> Conv (isPow o) s ms -> Conv (isPow o) b mb ->
  match (vals <- stretchApply (npArith o refl (dtypeOf ms) (Some (dtypeOf mb))) (withRows s ms) (withRows b mb) ;;
         _ <- (if false then Err AttributeErr else Ok tt) ;;
         nms <- outputNames st (withRows s ms) (withRows b mb) ;;
         stretchResult (withRows s ms) (withRows b mb) nms vals) with
  | Ok r => wf r /\ alen (tp r) = longer (tp s) (tp b) /\ alen (tf r) = longer (tf s) (tf b) /\
      StretchedNames (alen (tp r)) (getNames (tp s)) (getNames (tp b)) (getNames (tp r)) /\
      StretchedNames (alen (tf r)) (getNames (tf s)) (getNames (tf b)) (getNames (tf r)) /\ StretchedValues floatOf npArith o refl s b r
  | Err e => StretchedFails floatOf npArith o refl s b e
  end.
Proof.
  intros W W' P1 P2 P3 P4 F NF R1 R2 C C'. destruct (Fits_lens st s b F P1 P2 P3 P4) as (L1 & L2 & L3 & _).
  pose proof (apply_spec refl o s b ms mb W W' P1 P2 P3 P4 L1 L2 C C') as A.
  destruct (stretchApply _ _ _) as [c|e]; cbn [rbind]; [|exact A]. destruct A as [Ac Av].
  destruct W as (W1 & W2 & Ip & If). destruct W' as (W1' & W2' & Jp & Jf).
  assert (F1 : st = false \/ st = true) by (destruct st; auto).
  destruct (stretchNames_spec st (tp s) (tp b) Ip Jp P1 P3 L1 (fun h => proj1 (L3 h)) R1) as (pn & pa & E1 & E2 & E3 & E4 & E5).
  { intros El Hn. destruct F1 as [->| ->]; [apply (NF eq_refl); exact Hn|]. exfalso. cbn in F. lia. }
  destruct (stretchNames_spec st (tf s) (tf b) If Jf P2 P4 L2 (fun h => proj2 (L3 h)) R2) as (fn & fa & G1 & G2 & G3 & G4 & G5).
  { intros El Hn. destruct F1 as [->| ->].
    - cbn in F. apply (proj2 (NF eq_refl)); [lia|left; exact Hn].
    - exfalso. cbn in F. lia. }
  unfold outputNames. cbn [tp tf withRows]. rewrite E1. cbn [rbind]. rewrite G1. cbn [rbind]. unfold stretchResult. cbn [tp tf withRows fst snd].
  rewrite (broadcastLen_spec _ _ L1 P1 P3). cbn [rbind]. rewrite (broadcastLen_spec _ _ L2 P2 P4). cbn [rbind]. rewrite <- !longer_max, E2. cbn [rbind]. rewrite G2. cbn [rbind].
  cbn [tp tf]. rewrite E3, G3. destruct Ac as [Ac1 Ac2].
  split; [split; [cbn [rows tp]; congruence|split; [cbn [rows tf]; intros r Hr; rewrite (Ac2 r Hr); congruence|split; assumption]]|].
  split; [reflexivity|]. split; [reflexivity|]. split; [exact E5|]. split; [exact G5|]. apply Av.
Qed.

Lemma numeric_Conv pow e t : wf t -> AllNumeric floatOf t -> exists m, numericRows floatOf pow e (rows t) = Ok m /\ Conv pow t m.
Proof.
  intros W A. destruct (numericRows_spec floatOf pow e t W) as [(m & H1 & _ & H3 & H4)|[_ H]]; [|contradiction].
  exists m. split; [exact H1|]. split; assumption.
Qed.

Lemma stretchArith_spec (st refl : bool) o s b : wf s -> wf b -> Stretchable s -> 0 < alen (tp b) -> 0 < alen (tf b) -> (st = true -> refl = false) ->
  AllNumeric floatOf s -> AllNumeric floatOf b -> (st = false -> SingleElementReady s b) -> NamesReady st (tp s) (tp b) -> NamesReady st (tf s) (tf b) ->
  exists s' b' res, stretchArith floatOf npArith refl o s (wrapped st b) = (s', wrapped st b', res) /\ OnlyConverted floatOf s s' /\ OnlyConverted floatOf b b' /\
  match res with
  | Ok r => Fits st s b /\ NamesFit st s b /\ ~ (dividing o = true /\ DividesByZero floatOf refl s b) /\
      wf r /\ alen (tp r) = longer (tp s) (tp b) /\ alen (tf r) = longer (tf s) (tf b) /\
      StretchedNames (alen (tp r)) (getNames (tp s)) (getNames (tp b)) (getNames (tp r)) /\
      StretchedNames (alen (tf r)) (getNames (tf s)) (getNames (tf b)) (getNames (tf r)) /\ StretchedValues floatOf npArith o refl s b r
  | Err e => (~ Fits st s b /\ e = if st then ImproperObjectAction else InvalidArgumentValueCombination) \/
      (Fits st s b /\ ~ NamesFit st s b /\ e = InvalidArgumentValue) \/
      (Fits st s b /\ NamesFit st s b /\ dividing o = true /\ DividesByZero floatOf refl s b /\ e = ZeroDiv) \/
      (Fits st s b /\ NamesFit st s b /\ StretchedFails floatOf npArith o refl s b e)
  end.
Proof.
  intros W W' SS P3 P4 Hst N N' SE R1 R2. assert (P1 : 0 < alen (tp s)) by apply SS. assert (P2 : 0 < alen (tf s)) by apply SS.
  destruct (numeric_Conv (isPow o) ImproperObjectAction s W N) as (ms & Es & C). destruct (numeric_Conv (isPow o) InvalidArgumentValue b W' N') as (mb & Eb & C').
  unfold stretchArith. rewrite Es.
  assert (Q : refl && isStretch (wrapped st b) = false) by (destruct st; [rewrite (Hst eq_refl)|destruct refl]; reflexivity).
  exists (withRows s ms), (withRows b mb).
  exists (_ <- stretchValidation refl (isDivMod o) (withRows s ms) (wrapped st (withRows b mb)) ;;
          vals <- stretchApply (npArith o refl (dtypeOf ms) (Some (dtypeOf mb))) (withRows s ms) (withRows b mb) ;;
          _ <- (if refl && isStretch (wrapped st b) then Err AttributeErr else Ok tt) ;;
          nms <- outputNames st (withRows s ms) (withRows b mb) ;;
          stretchResult (withRows s ms) (withRows b mb) nms vals). split.
  { destruct st; cbn [wrapped]; rewrite Eb; reflexivity. }
  split; [exact (Conv_only _ _ _ C)|]. split; [exact (Conv_only _ _ _ C')|].
  destruct (divModCheck_spec refl o s b ms mb W W' C C') as [[D1 D2]|(D1 & D2 & D3)].
  - pose proof (fun F NF => rest_spec st refl o s b ms mb W W' P1 P2 P3 P4 F NF R1 R2 C C') as RS.
    destruct st; cbn [wrapped] in *.
    + destruct (validation_stretch refl (isDivMod o) (withRows s ms) (withRows b mb)) as [[F V]|[F V]]; rewrite V; cbn [rbind].
      * assert (NF : NamesFit true s b) by (intros H; discriminate). rewrite D1. cbn [rbind]. cbn [isStretch] in *. rewrite Q. specialize (RS F NF).
        destruct (rbind _ _) as [r|e]; [|right; right; right; auto]. split; [exact F|]. split; [exact NF|]. split; [exact D2|exact RS].
      * left. split; [exact F|reflexivity].
    + destruct (validation_base refl (isDivMod o) (withRows s ms) (withRows b mb) (proj1 C) (proj1 C') SS P3 P4 (SE eq_refl)) as [(F & NF & V)|[(F & NF & V)|(F & V)]]; rewrite V; cbn [rbind].
      * rewrite D1. cbn [rbind]. cbn [isStretch] in *. rewrite Q. specialize (RS F NF).
        destruct (rbind _ _) as [r|e]; [|right; right; right; auto]. split; [exact F|]. split; [exact NF|]. split; [exact D2|exact RS].
      * right. left. auto.
      * left. split; [exact F|reflexivity].
  - destruct st; cbn [wrapped] in *.
    + destruct (validation_stretch refl (isDivMod o) (withRows s ms) (withRows b mb)) as [[F V]|[F V]]; rewrite V; cbn [rbind].
      * assert (NF : NamesFit true s b) by (intros H; discriminate). rewrite D1. cbn [rbind]. right. right. left. auto.
      * left. split; [exact F|reflexivity].
    + destruct (validation_base refl (isDivMod o) (withRows s ms) (withRows b mb) (proj1 C) (proj1 C') SS P3 P4 (SE eq_refl)) as [(F & NF & V)|[(F & NF & V)|(F & V)]]; rewrite V; cbn [rbind].
      * rewrite D1. cbn [rbind]. right. right. left. auto.
      * right. left. auto.
      * left. split; [exact F|reflexivity].
Qed.
Lemma stretchArith_left refl o s other : wf s -> ~ AllNumeric floatOf s -> stretchArith floatOf npArith refl o s other = (s, other, Err ImproperObjectAction).
Proof.
  intros W N. unfold stretchArith. destruct (numericRows_spec floatOf (isPow o) ImproperObjectAction s W) as [(m & _ & H & _)|[-> _]]; [contradiction|reflexivity].
Qed.
Lemma stretchArith_right (st refl : bool) o s b : wf s -> wf b -> AllNumeric floatOf s -> ~ AllNumeric floatOf b ->
  exists s', stretchArith floatOf npArith refl o s (wrapped st b) = (s', wrapped st b, Err InvalidArgumentValue) /\ OnlyConverted floatOf s s'.
Proof.
  intros W W' N N'. destruct (numeric_Conv (isPow o) ImproperObjectAction s W N) as (ms & Es & C). unfold stretchArith. rewrite Es.
  destruct (numericRows_spec floatOf (isPow o) InvalidArgumentValue b W') as [(m & _ & H & _)|[Eb _]]; [contradiction|].
  exists (withRows s ms). split; [|exact (Conv_only _ _ _ C)]. destruct st; cbn [wrapped]; rewrite Eb; reflexivity.
Qed.
End S.

(** ** logical operators *)
Lemma toBool_ok v : (exists b, toBool v = Ok (PBool b) /\ TruthOf v b) \/ (toBool v = Err ImproperObjectAction /\ ~ exists b, TruthOf v b).
Proof.
  unfold toBool, TruthOf. destruct (pyEq v (PInt 0)) eqn:E0; [left; exists false; split; [reflexivity|apply pyEq_spec; exact E0]|].
  destruct (pyEq v (PInt 1)) eqn:E1; [left; exists true; split; [reflexivity|apply pyEq_spec; exact E1]|].
  right. split; [reflexivity|]. intros [[|] H]; apply pyEq_spec in H; congruence.
Qed.
Lemma TruthOf_fun v b b' : TruthOf v b -> TruthOf v b' -> b = b'.
Proof.
  unfold TruthOf. intros H H'. apply pyEq_spec in H, H'. destruct b, b'; try reflexivity; exfalso.
  - pose proof (pyEq_trans _ _ _ (eq_trans (pyEq_sym _ _) H) H') as X. discriminate.
  - pose proof (pyEq_trans _ _ _ (eq_trans (pyEq_sym _ _) H) H') as X. discriminate.
Qed.
Lemma numpyRows_bools (m : list (list pval)) : (forall r v, In r m -> In v r -> isB v = true) -> numpyRows m = m.
Proof.
  intros H. unfold numpyRows, dtypeOf. replace (forallb isB (List.concat m)) with true; [reflexivity|]. symmetry. apply forallb_forall. intros v Hv.
  apply in_concat in Hv as (r & Hr & Hv). exact (H r v Hr Hv).
Qed.
Lemma boolRows t : wf t ->
  (exists m, rmapM (rmapM toBool) (rows t) = Ok m /\ AllTruths t /\ shape m (alen (tp t)) (alen (tf t)) /\ numpyRows m = m /\
     forall i j v, cell t i j = Some v -> exists b, TruthOf v b /\ mcell m i j = Some (PBool b)) \/
  (rmapM (rmapM toBool) (rows t) = Err ImproperObjectAction /\ ~ AllTruths t).
Proof.
  intros W. pose proof (rmapM2_ok toBool (rows t) _ _ (shapeOf t W)) as R. destruct (rmapM (rmapM toBool) (rows t)) as [m|e].
  - left. destruct R as [R1 R2]. exists m. split; [reflexivity|].
    assert (K : forall i j v, cell t i j = Some v -> exists b, TruthOf v b /\ mcell m i j = Some (PBool b)).
    { intros i j v Hv. destruct (R2 i j v Hv) as (w & Hw & Hb). destruct (toBool_ok v) as [(b & E & T)|[E _]]; [|congruence]. exists b. split; [exact T|]. congruence. }
    split; [intros i j v Hv; destruct (K i j v Hv) as (b & T & _); exists b; exact T|]. split; [exact R1|]. split; [|exact K].
    apply numpyRows_bools. intros r v Hr Hv. apply In_nth_error in Hr as [i Hi]. apply In_nth_error in Hv as [j Hj].
    assert (Hc : mcell m i j = Some v) by (unfold mcell; rewrite Hi; exact Hj). destruct (mcell_range _ _ _ _ _ _ R1 Hc) as [Ri Rj].
    destruct (mcell_some (rows t) _ _ i j (shapeOf t W) Ri Rj) as [x Hx]. destruct (K i j x Hx) as (b & _ & Hb). replace v with (PBool b) by congruence. reflexivity.
  - right. destruct R as (i & j & v & Hv & E). destruct (toBool_ok v) as [(b & E' & T)|[E' N]]; [congruence|]. split; [congruence|].
    intros A. apply N. exact (A i j v Hv).
Qed.
Lemma stretchLogical_spec (st : bool) o s b : wf s -> wf b -> Stretchable s -> 0 < alen (tp b) -> 0 < alen (tf b) -> (st = false -> SingleElementReady s b) ->
  match stretchLogical o s (wrapped st b) with
  | Ok r => Fits st s b /\ NamesFit st s b /\ AllTruths s /\ AllTruths b /\ wf r /\ alen (tp r) = longer (tp s) (tp b) /\ alen (tf r) = longer (tf s) (tf b) /\
      ~ Named (getNames (tp r)) /\ ~ Named (getNames (tf r)) /\
      forall i j, i < alen (tp r) -> j < alen (tf r) ->
      exists x y p q, cell s (from (alen (tp s)) i) (from (alen (tf s)) j) = Some x /\ cell b (from (alen (tp b)) i) (from (alen (tf b)) j) = Some y /\
        TruthOf x p /\ TruthOf y q /\ cell r i j = Some (PBool (connective o p q))
  | Err e => (~ Fits st s b /\ e = if st then ImproperObjectAction else InvalidArgumentValueCombination) \/
      (Fits st s b /\ ~ NamesFit st s b /\ e = InvalidArgumentValue) \/
      (Fits st s b /\ NamesFit st s b /\ (~ AllTruths s \/ ~ AllTruths b) /\ e = ImproperObjectAction)
  end.
Proof.
  intros W W' SS P3 P4 SE. assert (P1 : 0 < alen (tp s)) by apply SS. assert (P2 : 0 < alen (tf s)) by apply SS. unfold stretchLogical.
  assert (V : (Fits st s b /\ NamesFit st s b /\ stretchValidation false false s (wrapped st b) = Ok tt) \/
     (Fits st s b /\ ~ NamesFit st s b /\ stretchValidation false false s (wrapped st b) = Err InvalidArgumentValue) \/
     (~ Fits st s b /\ stretchValidation false false s (wrapped st b) = Err (if st then ImproperObjectAction else InvalidArgumentValueCombination))).
  { destruct st; cbn [wrapped].
    - destruct (validation_stretch false false s b) as [[F V]|[F V]]; [left|right; right; auto]. split; [exact F|]. split; [intros H; discriminate|]. rewrite V. reflexivity.
    - destruct (validation_base false false s b W W' SS P3 P4 (SE eq_refl)) as [(F & NF & V)|[V|V]]; auto. }
  destruct V as [(F & NF & ->)|[(F & NF & ->)|(F & ->)]]; cbn [rbind]; [|right; left; auto|left; auto].
  assert (E : forall (x : table pval -> result (table pval)), match wrapped st b with SBase b0 => x b0 | SStretch b0 => x b0 | SJunk => Err ImproperObjectAction end = x b) by (destruct st; reflexivity).
  rewrite E. destruct (Fits_lens st s b F P1 P2 P3 P4) as (L1 & L2 & _).
  destruct (boolRows s W) as [(ms & -> & T1 & S1 & Q1 & K1)|[-> N]]; cbn [rbind]; [|right; right; auto].
  destruct (boolRows b W') as [(mb & -> & T2 & S2 & Q2 & K2)|[-> N]]; cbn [rbind]; [|right; right; auto].
  unfold stretchApply. cbn [tp tf withRows rows]. rewrite (broadcastLen_spec _ _ L1 P1 P3). cbn [rbind]. rewrite (broadcastLen_spec _ _ L2 P2 P4). cbn [rbind]. rewrite <- !longer_max, Q1, Q2.
  pose proof (longer_max (tp s) (tp b)) as M1. pose proof (longer_max (tf s) (tf b)) as M2.
  destruct (broadcastRows_spec ms (alen (tp s)) (alen (tf s)) (longer (tp s) (tp b)) (longer (tf s) (tf b))) as [B1 B1']; [exact S1|lia|lia|].
  destruct (broadcastRows_spec mb (alen (tp b)) (alen (tf b)) (longer (tp s) (tp b)) (longer (tf s) (tf b))) as [B2 B2']; [exact S2|lia|lia|].
  pose proof (zipRows_spec (fun x y => Ok (PBool (logicOp o (boolOf x) (boolOf y)))) _ _ _ _ B1 B2) as Z.
  destruct (zipRows _ _ _) as [c|e]; cbn [rbind].
  2:{ destruct Z as (i & j & x & y & _ & _ & Hz). discriminate. }
  destruct Z as [[Z1 Z1'] Z2]. unfold stretchResult. rewrite (broadcastLen_spec _ _ L1 P1 P3). cbn [rbind]. rewrite (broadcastLen_spec _ _ L2 P2 P4). cbn [rbind fst snd].
  rewrite <- !longer_max, !namedAxis_None. cbn [rbind]. cbn [tp tf alen].
  assert (NN : forall n, ~ Named (getNames (mkAxis n None))) by (intros n [x Hx]; apply repeat_spec in Hx; discriminate).
  split; [exact F|]. split; [exact NF|]. split; [exact T1|]. split; [exact T2|].
  split; [split; [exact Z1|split; [exact Z1'|split; exact I]]|]. split; [reflexivity|]. split; [reflexivity|]. split; [apply NN|]. split; [apply NN|].
  assert (FR : forall n m i, 0 < n -> (n = m \/ n = 1) -> i < m -> from n i < n).
  { intros n m i Hn Hm Hi. unfold from. destruct (n =? 1) eqn:E1; [lia|]. apply Nat.eqb_neq in E1. lia. }
  intros i j Hi Hj.
  destruct (mcell_some (rows s) _ _ (from (alen (tp s)) i) (from (alen (tf s)) j) (shapeOf s W)) as [x Hx].
  { apply (FR _ (longer (tp s) (tp b))); lia. } { apply (FR _ (longer (tf s) (tf b))); lia. }
  destruct (mcell_some (rows b) _ _ (from (alen (tp b)) i) (from (alen (tf b)) j) (shapeOf b W')) as [y Hy].
  { apply (FR _ (longer (tp s) (tp b))); lia. } { apply (FR _ (longer (tf s) (tf b))); lia. }
  destruct (K1 _ _ x Hx) as (p & Tp & Hp). destruct (K2 _ _ y Hy) as (q & Tq & Hq).
  rewrite <- (B1' i j Hi Hj) in Hp. rewrite <- (B2' i j Hi Hj) in Hq. destruct (Z2 i j _ _ Hp Hq) as (w & Hw & Ew). cbn in Ew.
  exists x, y, p, q. split; [exact Hx|]. split; [exact Hy|]. split; [exact Tp|]. split; [exact Tq|]. change (mcell c i j = Some (PBool (connective o p q))). rewrite Hw.
  injection Ew as <-. destruct o, p, q; reflexivity.
Qed.
